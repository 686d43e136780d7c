(* Theorems about experimental::function and inline_function (functional.h). *)
From Verif Require Import Base BaseLemmas Fun_Model Fun_Spec Fun_Proofs.

Section Props.
Context {St A R : Type}.
Context (step : St -> A -> St * R).
Context (nullable : bool).
Local Notation run := (run_fops step nullable).

(* C121.  owner_run excludes copies of const functions, copies of empty functions and
   f = f: the uses of C122-C125. *)
Theorem C121_history (ps : list (fop St A)) (s : fstate) (os : list (fout R)) :
  owner_run step ps no_vars = Some (s, os) ->
  exists w, run ps no_functions = Ok (w, map (seen nullable) os).
Proof.
  intros E. destruct (run_ok step nullable ps _ _ s os inv_start E) as (w & H & _). now exists w.
Qed.
(* No leak, no double deletion: with no callable held, no object is alive. *)
Theorem C121_no_leak (ps : list (fop St A)) (s : fstate) (os : list (fout R)) :
  owner_run step ps no_vars = Some (s, os) -> (forall k, s k = None \/ s k = Some None) ->
  exists w, run ps no_functions = Ok (w, map (seen nullable) os) /\ live_objects (f_heap w) = 0.
Proof.
  intros E N. destruct (run_ok step nullable ps _ _ s os inv_start E) as (w & H & I).
  exists w. split; [exact H|]. eapply inv_live; eassumption.
Qed.

(* C122: after any such history, a copy of a const function is deleted twice. *)
Theorem C122_copy_refuted (ps : list (fop St A)) (s : fstate) (os : list (fout R)) (k j : nat) (v : St) :
  owner_run step ps no_vars = Some (s, os) -> s k = None -> s j = Some (Some v) ->
  run (ps ++ [FCopyConst k j; FDestroy k; FDestroy j]) no_functions = UB /\
  run (ps ++ [FCopyConst k j; FDestroy j; FDestroy k]) no_functions = UB.
Proof.
  intros E Ek Ej. destruct (run_ok step nullable ps _ _ s os inv_start E) as (w & H & I).
  destruct (copy_const_double step nullable w s k j v I Ek Ej) as (H1 & H2).
  rewrite !(run_app step nullable ps _ _ _ _ H), H1, H2. split; reflexivity.
Qed.

(* C123: copying a function that is not const empties it: calling the original is undefined. *)
Theorem C123_copy_keeps_source_refuted (ps : list (fop St A)) (s : fstate) (os : list (fout R))
  (k j : nat) (v : St) (x : A) :
  owner_run step ps no_vars = Some (s, os) -> s k = None -> s j = Some (Some v) ->
  (exists w, run (ps ++ [FCopy k j; FCall k x]) no_functions =
     Ok (w, map (seen nullable) os ++ [FNone; FRet (snd (step v x))])) /\
  run (ps ++ [FCopy k j; FCall j x]) no_functions = UB.
Proof.
  intros E Ek Ej. destruct (run_ok step nullable ps _ _ s os inv_start E) as (w & H & I).
  assert (N : k <> j) by (intros ->; congruence).
  destruct (step_ok step nullable (FCopy k j) w s (fset (fset s k (Some (Some v))) j (Some None)) FNone I ltac:(cbn; rewrite Ek, Ej; reflexivity))
    as (w1 & H1 & I1). cbn [seen] in H1.
  destruct (inv_call step w1 _ k v x I1) as (w2 & H2 & _).
  { rewrite fset_neq by exact N. apply fset_eq. }
  rewrite !(run_app step nullable ps _ _ _ _ H). cbn [run_fops]. rewrite H1. cbn [bind]. split.
  - cbn [run_fop]. rewrite H2. cbn [bind]. now exists w2.
  - rewrite (call_empty step nullable w1 _ j x I1); [reflexivity|]. apply fset_eq.
Qed.

(* C124: f = f empties f. *)
Theorem C124_self_assignment_refuted (ps : list (fop St A)) (s : fstate) (os : list (fout R))
  (k : nat) (v : St) (x : A) :
  owner_run step ps no_vars = Some (s, os) -> s k = Some (Some v) ->
  (exists w, run (ps ++ [FAssign k k; FTest k]) no_functions =
     Ok (w, map (seen nullable) os ++ [FNone; FBool (negb nullable)])) /\
  run (ps ++ [FAssign k k; FCall k x]) no_functions = UB.
Proof.
  intros E Ek. destruct (run_ok step nullable ps _ _ s os inv_start E) as (w & H & I).
  destruct (self_assign step nullable w s k v I Ek) as (w1 & H1 & I1).
  rewrite !(run_app step nullable ps _ _ _ _ H). cbn [run_fops]. rewrite H1. cbn [bind]. split.
  - destruct (step_ok step nullable (FTest k) w1 _ (fset s k (Some None)) (FBool false) I1) as (w2 & H2 & _).
    { cbn. rewrite fset_eq. reflexivity. }
    rewrite H2. cbn [bind]. exists w2. cbn [seen]. now destruct nullable.
  - rewrite (call_empty step nullable w1 _ k x I1); [reflexivity|]. apply fset_eq.
Qed.

(* C125: whether a function tests true says whether it can be called - *)
Theorem C125_test (ps : list (fop St A)) (s : fstate) (os : list (fout R)) (k : nat)
  (c : option St) (x : A) :
  nullable = true -> owner_run step ps no_vars = Some (s, os) -> s k = Some c ->
  exists b w, run (ps ++ [FTest k]) no_functions = Ok (w, map (seen nullable) os ++ [FBool b]) /\
    (b = true <-> run (ps ++ [FCall k x]) no_functions <> UB).
Proof.
  intros Hn E Ek. destruct (run_ok step nullable ps _ _ s os inv_start E) as (w & H & I).
  destruct (step_ok step nullable (FTest k) w s s (FBool match c with Some _ => true | None => false end) I ltac:(cbn; rewrite Ek; reflexivity)) as (w2 & H2 & _).
  exists (match c with Some _ => true | None => false end), w2.
  rewrite !(run_app step nullable ps _ _ _ _ H). cbn [run_fops]. rewrite H2. cbn [bind].
  rewrite Hn. split; [reflexivity|]. destruct c as [v|].
  - destruct (inv_call step w s k v x I Ek) as (w3 & H3 & _). cbn [run_fop]. rewrite H3. cbn [bind].
    split; [discriminate|reflexivity].
  - rewrite (call_empty step true w s k x I Ek). split; [discriminate|]. cbn. congruence.
Qed.
(* but not for a copy of an empty function, *)
Theorem C237_copy_of_empty_refuted (ps : list (fop St A)) (s : fstate) (os : list (fout R))
  (k j : nat) (x : A) :
  owner_run step ps no_vars = Some (s, os) -> s k = None -> s j = Some None ->
  (exists w, run (ps ++ [FCopy k j; FTest k]) no_functions =
     Ok (w, map (seen nullable) os ++ [FNone; FBool true])) /\
  run (ps ++ [FCopy k j; FCall k x]) no_functions = UB.
Proof.
  intros E Ek Ej. destruct (run_ok step nullable ps _ _ s os inv_start E) as (w & H & I).
  destruct (copy_empty step nullable w s k j x I Ek Ej) as (w1 & H1 & H2 & H3).
  rewrite !(run_app step nullable ps _ _ _ _ H). cbn [run_fops]. rewrite H1. cbn [bind].
  rewrite H2, H3. cbn [bind]. split; [now exists w1|reflexivity].
Qed.
(* nor, for a function declared not nullable, after it has been moved from. *)
Theorem C237_not_nullable_refuted (ps : list (fop St A)) (s : fstate) (os : list (fout R))
  (k j : nat) (c : option St) (x : A) :
  nullable = false -> owner_run step ps no_vars = Some (s, os) -> s k = None -> s j = Some c ->
  (exists w, run (ps ++ [FMove k j; FTest j]) no_functions =
     Ok (w, map (seen nullable) os ++ [FNone; FBool true])) /\
  run (ps ++ [FMove k j; FCall j x]) no_functions = UB.
Proof.
  intros Hn E Ek Ej. destruct (run_ok step nullable ps _ _ s os inv_start E) as (w & H & I).
  assert (N : k <> j) by (intros ->; congruence).
  destruct (step_ok step nullable (FMove k j) w s (fset (fset s k (Some c)) j (Some None)) FNone I ltac:(cbn; rewrite Ek, Ej; reflexivity))
    as (w1 & H1 & I1). cbn [seen] in H1.
  rewrite !(run_app step nullable ps _ _ _ _ H). cbn [run_fops]. rewrite H1. cbn [bind]. split.
  - destruct (step_ok step nullable (FTest j) w1 _ (fset (fset s k (Some c)) j (Some None)) (FBool false) I1) as (w2 & H2 & _).
    { cbn. rewrite fset_eq. reflexivity. }
    rewrite H2. cbn [bind]. exists w2. cbn [seen]. now rewrite Hn.
  - rewrite (call_empty step nullable w1 _ j x I1); [reflexivity|]. apply fset_eq.
Qed.

(* C126.  Without copies - *)
Theorem C126_inline (ps : list (iop St A)) (s : nat -> option St) (rs : list R) :
  own_run step ps (fun _ => None) = Some (s, rs) ->
  exists w, run_iops step ps (fun _ => None) = Ok (w, rs).
Proof.
  intros E. destruct (irun_ok step ps (fun _ => None) (fun _ => None) s rs ltac:(intros k; reflexivity) E)
    as (w & H & _). now exists w.
Qed.
(* because a copy calls the original's callable, and is left dangling by the original's end. *)
Theorem C238_inline_copy_refuted (ps : list (iop St A)) (s : nat -> option St) (rs : list R)
  (k j : nat) (v : St) (x : A) :
  own_run step ps (fun _ => None) = Some (s, rs) -> s k = None -> s j = Some v ->
  (exists w, run_iops step (ps ++ [ICopy k j; ICall k x; ICall j x]) (fun _ => None) =
     Ok (w, rs ++ [snd (step v x); snd (step (fst (step v x)) x)])) /\
  run_iops step (ps ++ [ICopy k j; IDestroy j; ICall k x]) (fun _ => None) = UB.
Proof.
  intros E Ek Ej.
  destruct (irun_ok step ps (fun _ => None) (fun _ => None) s rs ltac:(intros i; reflexivity) E) as (w & H & I).
  destruct (icopy step w s k j v x I Ek Ej) as ((w1 & H1) & H2).
  rewrite !(irun_app step ps _ _ _ _ H), H1, H2. cbn [bind]. split; [now exists w1|reflexivity].
Qed.
End Props.

(* A counter: the callable adds its argument to its state and returns the sum. *)
Definition counter (s x : nat) : nat * nat := (s + x, s + x).

Example C121_case :
  let ps := [FNew 0 10; FCall 0 5; FMove 1 0; FTest 0; FCall 1 1; FCopy 2 1; FCall 2 2;
             FNew 3 100; FAssign 2 3; FCall 2 1; FAssignNew 2 7; FCall 2 0;
             FDestroy 0; FDestroy 1; FDestroy 2; FDestroy 3] in
  let os := [FNone; FRet 15; FNone; FBool false; FRet 16; FNone; FRet 18;
             FNone; FNone; FRet 101; FNone; FRet 7; FNone; FNone; FNone; FNone] in
  (exists s, owner_run counter ps no_vars = Some (s, os) /\ forall k, s k = None) /\
  match run_fops counter true ps no_functions with
  | Ok (w, o) => o = os /\ f_heap w = [None; None; None; None]
  | _ => False
  end.
Proof.
  split; [|split; reflexivity]. eexists; split; [reflexivity|].
  intros [|[|[|[|k]]]]; reflexivity.
Qed.
Example C122_case :
  run_fops counter true [FNew 0 10; FCall 0 5; FCopyConst 1 0; FDestroy 1; FDestroy 0] no_functions = UB.
Proof. reflexivity. Qed.
Example C123_case :
  run_fops counter true [FNew 0 10; FCopy 1 0; FCall 0 5] no_functions = UB.
Proof. reflexivity. Qed.
Example C124_case :
  match run_fops counter true [FNew 0 10; FAssign 0 0; FTest 0] no_functions with
  | Ok (_, o) => o = [FNone; FNone; FBool false] | _ => False end.
Proof. reflexivity. Qed.
Example C125_case :
  match run_fops counter true [FNew 0 10; FMove 1 0; FTest 0; FTest 1; FCopy 2 0; FTest 2] no_functions with
  | Ok (_, o) => o = [FNone; FNone; FBool false; FBool true; FNone; FBool true] | _ => False end.
Proof. reflexivity. Qed.
Example C126_case :
  match run_iops counter [INew 0 10; INew 1 20; ICall 0 1; ICall 1 1; ICopy 2 0; ICall 2 5; ICall 0 5] (fun _ => None) with
  | Ok (_, o) => o = [11; 21; 16; 21] | _ => False end.
Proof. reflexivity. Qed.

Print Assumptions C121_history.
Print Assumptions C121_no_leak.
Print Assumptions C122_copy_refuted.
Print Assumptions C123_copy_keeps_source_refuted.
Print Assumptions C124_self_assignment_refuted.
Print Assumptions C125_test.
Print Assumptions C237_copy_of_empty_refuted.
Print Assumptions C237_not_nullable_refuted.
Print Assumptions C126_inline.
Print Assumptions C238_inline_copy_refuted.
