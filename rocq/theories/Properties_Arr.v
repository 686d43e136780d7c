(* Properties of array and its windows, of the small maps and of stack: C316-C321. *)
From Verif Require Import Base Dyn_Spec Dyn_Model Dyn_View Dyn_Proofs Arr_Spec Arr_Model Arr_Proofs.
Local Open Scope res_scope.

(* C316 *)
Theorem C316_arrays {A} (eqA : A -> A -> bool) (len : nat -> nat) os b i :
  aideal_run eqA len no_arrays os = Some (b, i) ->
  exists s, arun eqA len (astart len) os = Ok (b, s).
Proof. intros H. destruct (arun_ok _ _ _ _ _ _ _ (astart_rel len) H) as (s & E & _). eauto. Qed.
Print Assumptions C316_arrays.
Example C316_case :
  let len x := if Nat.eqb x 2 then 2 else 3 in
  aideal_run Nat.eqb len no_arrays
    [ANew 0 [1; 2; 3]; ACopy 1 0; AEq 0 1; WMake 0 0 2; WSet 0 1 9; AGet 0 1; ANe 0 1; WAll 0; WBack 0; AFill 2 7; AEq 0 2;
     AAll 2; AAll 1; ASize 2; AFront 0] =
  Some ([OBool true; OVal 9; OBool true; OAll [1; 9]; OVal 9; OBool false; OAll [7; 7]; OAll [1; 2; 3]; ONum 2; OVal 1],
        with_arr (AIdeal (set (set (set (fun _ => None) 0 (Some [1; 2; 3])) 1 (Some [1; 2; 3])) 0 (Some [1; 9; 3]))
                         (set (fun _ => None) 0 (Some (0, 2)))) 2 [7; 7]).
Proof. reflexivity. Qed.

(* C317 *)
(* one value too many is written outside the array *)
Theorem C317_long_refuted {A} (eqA : A -> A -> bool) (len : nat -> nat) x (l : list A) :
  len x < length l -> arun eqA len (astart len) [ANew x l] = UB.
Proof. intros H. cbn [arun astep]. unfold array_init. rewrite copy_list_long by (rewrite repeat_length; lia). reflexivity. Qed.
Print Assumptions C317_long_refuted.
(* the elements without a value of their own have none *)
Theorem C317_short_refuted {A} (eqA : A -> A -> bool) (len : nat -> nat) x (l : list A) i :
  length l <= i < len x ->
  (exists s, arun eqA len (astart len) [ANew x l] = Ok ([], s)) /\
  arun eqA len (astart len) [ANew x l; AGet x i] = UB.
Proof.
  intros H. cbn [arun astep]. rewrite array_init_short by lia. cbn [bind]. split; [eexists; reflexivity|].
  assert (load (mem (with_mem (astart len) x (map Some l ++ repeat None (len x - length l))) x) i = UB) as ->; [|reflexivity].
  cbn [mem with_mem]. unfold set. rewrite Nat.eqb_refl.
  apply (array_short_read (len x) l); [apply array_init_short; lia|lia].
Qed.
Print Assumptions C317_short_refuted.
Example C317_case : arun Nat.eqb (fun _ => 3) (astart (fun _ => 3)) [ANew 0 [1; 2]; AGet 0 1] <> UB /\
  arun Nat.eqb (fun _ => 3) (astart (fun _ => 3)) [ANew 0 [1; 2]; AGet 0 2] = UB /\
  arun Nat.eqb (fun _ => 3) (astart (fun _ => 3)) [ANew 0 [1; 2; 3; 4]] = UB.
Proof. repeat split; try reflexivity. discriminate. Qed.

(* C318 *)
Theorem C318_map {K V} (eqK : K -> K -> bool) (l : list (K * V)) os :
  Forall (inside (length l)) os ->
  let i := mideal_run eqK (MIdeal l l) os in
  exists s, mrun eqK (map_make (map Some l)) os = Ok (fst i, s) /\
    m_own s = map Some (own (snd i)) /\ m_buf s = map Some (buffer (snd i)).
Proof. intros F. refine (mrun_ok eqK (length l) os _ (MIdeal l l) _ eq_refl F). split; reflexivity. Qed.
Print Assumptions C318_map.
(* a layer1 map from an initializer list of its size *)
Theorem C318_list {K V} (eqK : K -> K -> bool) n (l : list (K * V)) os :
  length l = n -> Forall (inside 0) os ->
  exists s s', map_init n l = Ok s /\ mrun eqK s os = Ok (fst (mideal_run eqK (MIdeal l []) os), s').
Proof.
  intros L F. rewrite map_exact by auto. eexists. 
  destruct (mrun_ok eqK 0 os (MSt (map Some l) []) (MIdeal l [])) as (s' & E & _); [split; reflexivity|reflexivity|auto|].
  exists s'. split; [reflexivity|exact E].
Qed.
Print Assumptions C318_list.
Example C318_case : fst (mideal_run Nat.eqb (MIdeal [(1, 10); (2, 20); (1, 30)] [(1, 10); (2, 20); (1, 30)])
    [MGet L1 1; MPut L2 2 5; MGet L3 2; MGet L1 2; MBuf 0 7 70; MGet L2 1; MGet L1 7; MPut L1 9 9]) =
  [Some 10; Some 20; Some 5; Some 20; None; Some 30; None; None].
Proof. reflexivity. Qed.

(* C319 *)
Theorem C319_map_list_refuted {K V} (eqK : K -> K -> bool) n (l : list (K * V)) k :
  length l < n -> (forall p v, In (p, v) l -> eqK p k = false) ->
  exists s, map_init n l = Ok s /\ mrun eqK s [MGet L1 k] = UB.
Proof.
  intros L D. eexists. split; [unfold map_init; rewrite array_init_short by lia; reflexivity|].
  cbn [mrun]. rewrite (map_short eqK n l k); [reflexivity|auto|auto|]. unfold map_init. rewrite array_init_short by lia. reflexivity.
Qed.
Print Assumptions C319_map_list_refuted.
Example C319_case : exists s, map_init 3 [(1, 10); (2, 20)] = Ok s /\
  mrun Nat.eqb s [MGet L1 2] = Ok ([Some 20], s) /\ mrun Nat.eqb s [MGet L1 3] = UB.
Proof. eexists. split; [reflexivity|]. split; reflexivity. Qed.

(* C320 *)
Theorem C320_stack {A} (c : cfg A) (cells : list A) os b l :
  kind c = Explicit -> length cells < smod c ->
  sideal_run (length cells) [] os = Some (b, l) ->
  exists v v', init c cells = Ok v /\ srun c v os = Ok (Go (b, v')) /\ looks_like c v' (rev l).
Proof.
  intros Ex L H. destruct (init_holds c cells) as (v & E & Hv & Lv); auto.
  { unfold zero_ok. now rewrite Ex. }
  { rewrite tlen0 by auto. lia. }
  destruct (srun_ok c Ex (length cells) os v [] b l Hv Lv H) as (v' & Er & LL). exists v, v'. auto.
Qed.
Print Assumptions C320_stack.
Example C320_case : sideal_run 3 [] [SPush 1; SPush 2; STop; SSetTop 5; SPush 3; SSize; SAll; SPop; STop; SPop; SPop; SEmpty] =
  Some ([SVal 2; SNum 3; SList [1; 5; 3]; SVal 5; SBool true], []).
Proof. reflexivity. Qed.

(* C321 *)
Theorem C321_const_top_refuted {A} (c : cfg A) (cells : list A) os b a l :
  kind c = Explicit -> length cells < smod c ->
  sideal_run (length cells) [] os = Some (b, a :: l) ->
  exists v v', init c cells = Ok v /\ srun c v os = Ok (Go (b, v')) /\
    sstep c v' STop = Ok (Go ([SVal a], v')) /\ const_top c v' = UB.
Proof.
  intros Ex L H. destruct (init_holds c cells) as (v & E & Hv & Lv); auto.
  { unfold zero_ok. now rewrite Ex. }
  { rewrite tlen0 by auto. lia. }
  destruct (srun_top c Ex (length cells) v [] os b l a Hv Lv H) as (v' & Er & T & U). exists v, v'. auto.
Qed.
Print Assumptions C321_const_top_refuted.
Example C321_case : sideal_run 3 [] [SPush 1; SPush 2] = Some ([], [2; 1]).
Proof. reflexivity. Qed.
