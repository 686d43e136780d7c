(* C459-C461: operator== of unordered_map and unordered_set. *)
From Coq Require Import List Bool Arith NArith Lia.
From Verif Require Import Base BaseLemmas Unordered_Spec Unordered_Model Ueq_Model Ueq_Proofs.
Import ListNotations.

(* the keys of a table, in the order of iteration *)
Definition keys_in_order {K C} (keqb : K -> K -> bool) (null : K) (ckey : C -> K) (s : list C) : list K :=
  filter (fun k => negb (keqb k null)) (map ckey s).
Lemma keys_same K C (keqb : K -> K -> bool) null (ckey : C -> K) s : keys_in_order keqb null ckey s = keys keqb null ckey s.
Proof.
  unfold keys_in_order, keys, is_empty. induction s as [|c s IH]; [reflexivity|]. cbn [map filter].
  destruct (negb (keqb (ckey c) null)); cbn [map]; now rewrite IH.
Qed.
Definition id_hash (k : nat) : N := N.of_nat k.

(* ---- C459 *)
Theorem C459_different : forall K C (keqb : K -> K -> bool) null (ckey : C -> K), (forall a b, keqb a b = true <-> a = b) ->
  forall s t, keys_in_order keqb null ckey s <> keys_in_order keqb null ckey t -> table_eq keqb null ckey s t = Ok false.
Proof. intros K C keqb null ckey Hk s t. rewrite !keys_same. apply (eq_exact keqb null ckey Hk). Qed.
Print Assumptions C459_different.

Example C459_case : let s := [1; 5; 0; 2] in let t := [0; 1; 2; 5] in
  keys_in_order Nat.eqb 0 skey s = [1; 5; 2] /\ keys_in_order Nat.eqb 0 skey t = [1; 2; 5] /\ table_eq Nat.eqb 0 skey s t = Ok false /\
  table_eq Nat.eqb 0 skey s [1; 0; 0; 0] = Ok false.
Proof. repeat split. Qed.

(* ---- C460 *)
(* Comparing containers whose keys are the same, in particular one with itself or its copy. *)
Theorem C460_same_refuted : forall K C (keqb : K -> K -> bool) null (ckey : C -> K), (forall a b, keqb a b = true <-> a = b) ->
  forall s t, keys_in_order keqb null ckey s = keys_in_order keqb null ckey t -> table_eq keqb null ckey s t = UB.
Proof. intros K C keqb null ckey Hk s t. rewrite !keys_same. apply (eq_exact keqb null ckey Hk). Qed.
Print Assumptions C460_same_refuted.

Example C460_case : table_eq Nat.eqb 0 (@fst nat N) [(1, 10%N); (0, 0%N)] [(1, 10%N); (0, 0%N)] = UB /\
  table_eq Nat.eqb 0 (@fst nat N) [(1, 10%N); (0, 0%N)] [(0, 0%N); (1, 11%N)] = UB.
Proof. split; reflexivity. Qed.

(* ---- C461 *)
(* The same two keys of one bucket put into two sets in different orders: each set has both keys,
   and the two are not equal. *)
Lemma put_two K (keqb : K -> K -> bool) null hash w : (forall a b, keqb a b = true <-> a = b) ->
  forall storage n a b, bucket_keys null (index_of hash w (length storage)) n [(a, tt); (b, tt)] -> n + 2 <= length storage ->
  exists s1 s2, set_insert keqb null hash w (set_init null storage) a = Ok (Some n, true, s1) /\
    set_insert keqb null hash w s1 b = Ok (Some (n + 1), true, s2) /\ keys_in_order keqb null skey s2 = [a; b].
Proof.
  intros Hk storage n a b (ND & F) L. cbn [map fst] in ND. apply NoDup_cons_iff in ND. destruct ND as [NI _].
  inversion F as [|? ? [Na Ia] F1]; subst. inversion F1 as [|? ? [Nb Ib] _]; subst. clear F F1. cbn [fst] in *. set (n := index_of hash w (length storage) a) in *.
  assert (ne : forall x y, x <> y -> keqb x y = false) by (intros x y D; destruct (keqb x y) eqn:E; [apply Hk in E; contradiction|reflexivity]).
  assert (nn : keqb null null = true) by now apply Hk.
  set (s0 := set_init null storage).
  assert (L0 : length s0 = length storage) by (unfold s0, set_init; apply map_length).
  assert (A0 : forall i, i < length storage -> nth_error s0 i = Some null).
  { intros i Hi. unfold s0, set_init. rewrite nth_error_map. destruct (nth_error storage i) eqn:E; [reflexivity|]. apply nth_error_None in E. lia. }
  exists (upd s0 n a), (upd (upd s0 n a) (n + 1) b).
  assert (L1 : length (upd s0 n a) = length storage) by (rewrite upd_length; exact L0).
  repeat split.
  - unfold set_insert, insert_precheck, index. rewrite (ne a null Na), L0. fold n. cbn [precheck_loop]. unfold rd. rewrite A0 by lia. cbn [bind].
    unfold is_empty, skey. rewrite nn. cbn [bind]. rewrite wr_ok by (fold s0; lia). reflexivity.
  - unfold set_insert, insert_precheck, index. rewrite (ne b null Nb), L1, Ib. fold n. destruct (length storage) as [|m] eqn:EL; [lia|].
    cbn [precheck_loop]. unfold rd. rewrite nth_error_upd_eq by lia. cbn [bind]. unfold is_empty, skey. rewrite (ne a null Na).
    unfold index. rewrite L1. fold n. assert (Nn : Nat.eqb n (S m) = false) by (apply Nat.eqb_neq; lia). rewrite Nn, Nat.eqb_refl. cbn [negb orb andb].
    rewrite (ne b a) by (intros E; apply NI; left; auto). rewrite nth_error_upd_neq by lia. rewrite A0 by lia. cbn [bind]. rewrite nn.
    cbn [bind]. rewrite wr_ok by lia. reflexivity.
  - assert (R : s0 = repeat null n ++ [null; null] ++ repeat null (length storage - (n + 2))).
    { unfold s0, set_init. change [null; null] with (repeat null 2). rewrite <- !repeat_app. replace (n + (2 + (length storage - (n + 2)))) with (length storage) by lia.
      clear. induction storage as [|x l IH]; [reflexivity|]. cbn [map length repeat]. now rewrite IH. }
    rewrite R. rewrite upd_app_r by (rewrite repeat_length; lia). rewrite repeat_length, Nat.sub_diag. cbn [app upd].
    rewrite upd_app_r by (rewrite repeat_length; lia). rewrite repeat_length. replace (n + 1 - n) with 1 by lia. cbn [upd].
    unfold keys_in_order. rewrite map_app, filter_app. cbn [map skey]. 
    assert (Z : forall m, filter (fun k => negb (keqb k null)) (map (fun k => k) (repeat null m)) = []).
    { induction m as [|m IH]; [reflexivity|]. cbn [repeat map filter]. rewrite nn. exact IH. }
    change (map skey) with (map (fun k : K => k)). rewrite Z. cbn [app filter]. unfold skey. rewrite (ne a null Na), (ne b null Nb). cbn [negb]. now rewrite Z.
Qed.
Theorem C461_order_refuted : forall K (keqb : K -> K -> bool) null hash w, (forall a b, keqb a b = true <-> a = b) ->
  forall storage storage' n a b, length storage' = length storage ->
  bucket_keys null (index_of hash w (length storage)) n [(a, tt); (b, tt)] -> n + 2 <= length storage ->
  exists s1 s2 t1 t2,
    set_insert keqb null hash w (set_init null storage) a = Ok (Some n, true, s1) /\ set_insert keqb null hash w s1 b = Ok (Some (n + 1), true, s2) /\
    set_insert keqb null hash w (set_init null storage') b = Ok (Some n, true, t1) /\ set_insert keqb null hash w t1 a = Ok (Some (n + 1), true, t2) /\
    table_eq keqb null skey s2 t2 = Ok false.
Proof.
  intros K keqb null hash w Hk storage storage' n a b E B L.
  assert (B' : bucket_keys null (index_of hash w (length storage')) n [(b, tt); (a, tt)]).
  { rewrite E. destruct B as [ND F]. split.
    - cbn in *. apply NoDup_cons_iff in ND. destruct ND as [NI _]. constructor; [|repeat constructor; auto].
      intros [X|[]]. apply NI. left. auto.
    - inversion F as [|? ? A F1]; subst. inversion F1 as [|? ? A' _]; subst. now repeat constructor. }
  destruct (put_two K keqb null hash w Hk storage n a b B L) as (s1 & s2 & A1 & A2 & A3).
  destruct (put_two K keqb null hash w Hk storage' n b a B' ltac:(lia)) as (t1 & t2 & D1 & D2 & D3).
  exists s1, s2, t1, t2. repeat split; try assumption. apply (C459_different K K keqb null skey Hk). rewrite A3, D3. intros X. injection X as X _.
  destruct B as [ND _]. cbn in ND. apply NoDup_cons_iff in ND. destruct ND as [NI _]. apply NI. left. auto.
Qed.
Print Assumptions C461_order_refuted.

Example C461_case :
  bucket_keys 0 (index_of id_hash 32 8) 4 [(1, tt); (3, tt)] /\
  (exists s t, set_insert Nat.eqb 0 id_hash 32 [0; 0; 0; 0; 1; 0; 0; 0] 3 = Ok (Some 5, true, s) /\
     set_insert Nat.eqb 0 id_hash 32 [0; 0; 0; 0; 3; 0; 0; 0] 1 = Ok (Some 5, true, t) /\ table_eq Nat.eqb 0 skey s t = Ok false).
Proof.
  split.
  - split; [repeat constructor; cbn; intuition discriminate|repeat constructor; discriminate].
  - eexists _, _. repeat split.
Qed.
