From Coq Require Import List Arith Bool Lia.
From Verif Require Import Base Ref_Spec Ref_Model Ref_Proofs.

(* C43.  Any history of making, copying, moving (one of several owners) and destroying owners:
   no access goes wrong, Traits::destruct is called exactly where the last owner of a value goes,
   and count_shared() of every owner is the number of owners of its value. *)
Theorem C43_history null ops st fuel :
  all_allowed null [] ops = true -> length ops <= fuel ->
  exists st', r_run null fuel st ops = Ok st' /\ r_log st' = r_log st ++ released_all [] ops /\
    forall o v, owned_by (after_all [] ops) o = Some v ->
      count_shared fuel st' o = Ok (owner_count (after_all [] ops) v).
Proof.
  intros A L. destruct (run_ok null ops [] st fuel (inv_nil null st) L A) as (st' & E & I & Lg & Lf).
  exists st'. split; [exact E|]. split; [exact Lg|]. intros o v. now apply inv_count with null.
Qed.
Print Assumptions C43_history.

(* hence each value is destroyed once for every time it was first owned, less one while it still
   has an owner *)
Theorem C43_exactly_once null ops st fuel v :
  all_allowed null [] ops = true -> length ops <= fuel ->
  exists st', r_run null fuel st ops = Ok st' /\
    count_occ Nat.eq_dec (r_log st') v + (if Nat.eqb (owner_count (after_all [] ops) v) 0 then 0 else 1)
    = count_occ Nat.eq_dec (r_log st) v + makes v ops.
Proof.
  intros A L. destruct (run_ok null ops [] st fuel (inv_nil null st) L A) as (st' & E & I & Lg & Lf).
  exists st'. split; [exact E|]. rewrite Lg, count_occ_app.
  pose proof (balance null ops v [] (NoDup_nil _) A) as B. unfold alive_n in B. cbn [owner_count filter length Nat.eqb] in B. lia.
Qed.
Print Assumptions C43_exactly_once.

(* a value that Traits::null holds for is destroyed by the first of two owners, and not by the last *)
Theorem C191_null_value_refuted null st v p o fuel : null v = true -> p <> o -> 2 <= fuel ->
  exists st', r_run null fuel st [Make p v; Copy o p; Drop p] = Ok st' /\ r_log st' = r_log st ++ [v] /\
  exists st'', r_run null fuel st' [Drop o] = Ok st'' /\ r_log st'' = r_log st ++ [v].
Proof. intros H N L. destruct fuel as [|[|f]]; [lia|lia|]. now apply null_early. Qed.
Print Assumptions C191_null_value_refuted.

Definition ex_owners : list rop :=
  [Make 1 7; Copy 2 1; Copy 3 2; Make 4 9; Drop 1; Copy 5 3; Move 6 2; Drop 4; Drop 3; Drop 2; Drop 6].
Example C43_case : all_allowed (Nat.eqb 0) [] ex_owners = true /\ released_all [] ex_owners = [9] /\
  owned_by (after_all [] ex_owners) 5 = Some 7 /\ owner_count (after_all [] ex_owners) 7 = 1 /\
  released_all [] (ex_owners ++ [Drop 5]) = [9; 7].
Proof. repeat split. Qed.

(* C84.  Moving one of several owners is part of C43's histories.  Moving the only owner of a
   value is fatal: destroying the new owner then follows a null or dangling pointer, whether or not
   the old one is destroyed before... *)
Theorem C84_move_only_owner_refuted null ops st fuel o p v between :
  all_allowed null [] ops = true -> length ops <= fuel -> 2 <= fuel ->
  exists_in (after_all [] ops) o = false -> owned_by (after_all [] ops) p = Some v ->
  owner_count (after_all [] ops) v = 1 -> between = [] \/ between = [Drop p] ->
  r_run null fuel st (ops ++ Move o p :: between ++ [Drop o]) = UB.
Proof.
  intros A L L2 X Ep C B. destruct (run_ok null ops [] st fuel (inv_nil null st) L A) as (st' & E & I & _).
  rewrite run_app, E. cbn [bind]. destruct fuel as [|[|f]]; [lia|lia|]. now apply move_sole_ub with (after_all [] ops) v.
Qed.
Print Assumptions C84_move_only_owner_refuted.
(* ... and its count_shared() is two *)
Theorem C84_move_only_owner_count_refuted null ops st fuel o p v :
  all_allowed null [] ops = true -> length ops <= fuel -> 1 <= fuel ->
  exists_in (after_all [] ops) o = false -> owned_by (after_all [] ops) p = Some v ->
  owner_count (after_all [] ops) v = 1 ->
  exists st', r_run null fuel st (ops ++ [Move o p]) = Ok st' /\ count_shared fuel st' o = Ok 2.
Proof.
  intros A L L2 X Ep C. destruct (run_ok null ops [] st fuel (inv_nil null st) L A) as (st' & E & I & _).
  destruct fuel as [|f]; [lia|].
  destruct (move_sole_count null (after_all [] ops) st' o p v f I X Ep C) as (st2 & E2 & C2).
  exists st2. split; [|exact C2]. rewrite run_app, E. cbn [bind r_run r_step]. now rewrite E2.
Qed.
Print Assumptions C84_move_only_owner_count_refuted.
(* copying an owner that was moved from: destroying the original is then fatal *)
Theorem C84_copy_moved_refuted null ops st fuel o p between :
  all_allowed null [] ops = true -> length ops <= fuel -> 2 <= fuel ->
  exists_in (after_all [] ops) o = false -> exists_in (after_all [] ops) p = true ->
  owned_by (after_all [] ops) p = None -> between = [] \/ between = [Drop o] ->
  r_run null fuel st (ops ++ Copy o p :: between ++ [Drop p]) = UB.
Proof.
  intros A L L2 X Xp Ep B. destruct (run_ok null ops [] st fuel (inv_nil null st) L A) as (st' & E & I & _).
  rewrite run_app, E. cbn [bind]. destruct fuel as [|[|f]]; [lia|lia|]. now apply copy_moved_ub with (after_all [] ops).
Qed.
Print Assumptions C84_copy_moved_refuted.
Example C84_case : all_allowed (Nat.eqb 0) [] (ex_owners ++ [Make 8 3]) = true /\
  exists_in (after_all [] ex_owners) 1 = false /\ owner_count (after_all [] ex_owners) 7 = 1 /\
  all_allowed (Nat.eqb 0) [] [Make 1 7; Copy 2 1; Move 3 1] = true /\
  owned_by (after_all [] [Make 1 7; Copy 2 1; Move 3 1]) 1 = None /\
  exists_in (after_all [] [Make 1 7; Copy 2 1; Move 3 1]) 1 = true.
Proof. repeat split. Qed.
