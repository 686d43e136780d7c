(* C312-C315: iterators and element proxies of vector and string. *)
From Verif Require Import Base Dyn_Spec Dyn_Model Dyn_View Itr_Spec Itr_Model Itr_Proofs.

(* C312.  [cs] is any program of Itr_Spec.v whose statements have a meaning on places and
   lists (irun); it runs, observes the same and leaves the same elements.  [os] is the
   history that made the container. *)
Theorem C312_vector_program smod narrow nodebug w N eqA os l v cs out s :
  vec_after smod narrow nodebug w N os l v -> irun eqA N (vec_ok w) (fresh l) cs out s ->
  exists s', mrun eqA (vec_cfg smod narrow nodebug w) (start v) cs = Ok (Go (out, s')) /\
    looks_like (vec_cfg smod narrow nodebug w) (cont s') (els s) /\ length (buf (cont s')) = N.
Proof. exact (vec_program smod narrow nodebug w N eqA os l v cs out s). Qed.
Print Assumptions C312_vector_program.

Theorem C312_string_program smod narrow nodebug nul N eqA os l v cs out s :
  str_after smod narrow nodebug nul N os l v -> irun eqA (room nul N) (str_ok nul) (fresh l) cs out s ->
  exists s', mrun eqA (str_cfg smod narrow nodebug nul) (start v) cs = Ok (Go (out, s')) /\
    looks_like (str_cfg smod narrow nodebug nul) (cont s') (els s) /\ length (buf (cont s')) = N.
Proof. exact (str_program smod narrow nodebug nul N eqA os l v cs out s). Qed.
Print Assumptions C312_string_program.

(* C313.  The loops end for any fuel above the number of elements. *)
Theorem C313_vector_for_each smod narrow nodebug w N f fuel os l v :
  vec_after smod narrow nodebug w N os l v -> length l < fuel ->
  exists v', for_each (vec_cfg smod narrow nodebug w) f fuel v = Ok (l, v') /\
    looks_like (vec_cfg smod narrow nodebug w) v' (map f l).
Proof. exact (vec_for_each smod narrow nodebug w N f fuel os l v). Qed.
Print Assumptions C313_vector_for_each.
Theorem C313_string_for_each smod narrow nodebug nul N f fuel os l v :
  str_after smod narrow nodebug nul N os l v -> (nul = true -> ~ In 0%Z (map f l)) -> length l < fuel ->
  exists v', for_each (str_cfg smod narrow nodebug nul) f fuel v = Ok (l, v') /\
    looks_like (str_cfg smod narrow nodebug nul) v' (map f l).
Proof. exact (str_for_each smod narrow nodebug nul N f fuel os l v). Qed.
Print Assumptions C313_string_for_each.
Theorem C313_vector_backward smod narrow nodebug w N fuel os l v :
  vec_after smod narrow nodebug w N os l v -> length l < fuel ->
  walk_back (vec_cfg smod narrow nodebug w) fuel v = Ok (rev l).
Proof. exact (vec_walk_back smod narrow nodebug w N fuel os l v). Qed.
Print Assumptions C313_vector_backward.
Theorem C313_string_backward smod narrow nodebug nul N fuel os l v :
  str_after smod narrow nodebug nul N os l v -> length l < fuel ->
  walk_back (str_cfg smod narrow nodebug nul) fuel v = Ok (rev l).
Proof. exact (str_walk_back smod narrow nodebug nul N fuel os l v). Qed.
Print Assumptions C313_string_backward.

(* C314.  Elements of one byte (what erase does to wider ones is C181). *)
Theorem C314_vector_erase_if smod narrow nodebug N bad fuel os l v :
  vec_after smod narrow nodebug 1 N os l v -> length l < fuel ->
  exists v', erase_if (vec_cfg smod narrow nodebug 1) bad fuel v = Ok (Go v') /\
    looks_like (vec_cfg smod narrow nodebug 1) v' (filter (fun a => negb (bad a)) l).
Proof. exact (vec_erase_if smod narrow nodebug 1 N bad fuel os l v eq_refl). Qed.
Print Assumptions C314_vector_erase_if.
Theorem C314_string_erase_if smod narrow nodebug nul N bad fuel os l v :
  str_after smod narrow nodebug nul N os l v -> length l < fuel ->
  exists v', erase_if (str_cfg smod narrow nodebug nul) bad fuel v = Ok (Go v') /\
    looks_like (str_cfg smod narrow nodebug nul) v' (filter (fun a => negb (bad a)) l).
Proof. exact (str_erase_if smod narrow nodebug nul N bad fuel os l v). Qed.
Print Assumptions C314_string_erase_if.

(* C315.  v[i] = v[j] leaves the container as it was *)
Theorem C315_vector_element_refuted smod narrow nodebug w N os l v i j x y :
  vec_after smod narrow nodebug w N os l v -> nth_error l i = Some x -> nth_error l j = Some y -> x <> y ->
  looks_like (vec_cfg smod narrow nodebug w) (el_copy v i j) l /\ at_ (el_copy v i j) i <> Ok y.
Proof.
  intros X Ei Ej D. pose proof (vec_el_copy smod narrow nodebug w N os l v i j X) as K. split; auto.
  rewrite (ll_at _ _ _ K i x Ei). congruence.
Qed.
Print Assumptions C315_vector_element_refuted.
Theorem C315_string_element_refuted smod narrow nodebug nul N os l v i j x y :
  str_after smod narrow nodebug nul N os l v -> nth_error l i = Some x -> nth_error l j = Some y -> x <> y ->
  looks_like (str_cfg smod narrow nodebug nul) (el_copy v i j) l /\ at_ (el_copy v i j) i <> Ok y.
Proof.
  intros X Ei Ej D. pose proof (str_el_copy smod narrow nodebug nul N os l v i j X) as K. split; auto.
  rewrite (ll_at _ _ _ K i x Ei). congruence.
Qed.
Print Assumptions C315_string_element_refuted.
(* auto p = v[i]; p = v[j]; p = a; writes element j *)
Theorem C315_rebound_refuted smod narrow nodebug w N os l v i j a y :
  vec_after smod narrow nodebug w N os l v -> nth_error l j = Some y ->
  exists v', (let '(p, v1) := px_copy v (index_ v i) (index_ v j) in px_set v1 p a) = Ok v' /\
    looks_like (vec_cfg smod narrow nodebug w) v' (firstn j l ++ a :: skipn (S j) l).
Proof. exact (vec_px_copy smod narrow nodebug w N os l v i j a y). Qed.
Print Assumptions C315_rebound_refuted.

(* ---------- cases ---------- *)
Definition ex_list : list (list Z) := [[1]; [2]; [3]; [4]]%Z.
Lemma ex_vec : exists v, vec_after 256 true false 1 6 [Assign ex_list] ex_list v.
Proof.
  eexists. split; [repeat constructor|].
  exists (repeat [0%Z] 6). eexists. split; [reflexivity|].
  split; [repeat constructor|]. split; [reflexivity|]. split; [|vm_compute; reflexivity].
  eapply vrun_cons; [reflexivity|cbn; lia|split; [repeat constructor|cbn; auto]|]. apply vrun_nil.
Qed.
Definition ex_prog : list (stm (list Z)) :=
  [ItBegin 0; ItEnd 1; ItDiff 1 0; ItInc 2 0; ItPostInc 3 0; ItCmp CEq 2 3; ItCmp CLt 0 1; ItGet 0;
   ItSet 3 [9%Z]; CtErase 4 0; ItGet 4; CtInsert 5 4 [7%Z]; ItGet 5; PxTake 0 1; PxSet 0 [8%Z]; ElGet 1;
   CtDo (Push [6%Z]); ElBack; ItMinus 6 1 1; ItPlus 6 6 1; ItCmp CGe 6 1; ElNe 0 [5%Z]].
Example C312_case : exists v out s, vec_after 256 true false 1 6 [Assign ex_list] ex_list v /\
  irun (fun a b => if list_eq_dec Z.eq_dec a b then true else false) 6 (vec_ok 1) (fresh ex_list) ex_prog out s /\
  els s = [[1]; [8]; [7]; [4]; [6]]%Z /\
  out = [ODist 4; OBool true; OBool true; OVal [3]; OVal [4]; OVal [7]; OVal [8]; OVal [6]; OBool true; OBool true]%Z.
Proof.
  destruct ex_vec as [v X]. exists v. eexists. eexists. split; [exact X|]. split.
  - unfold ex_prog. repeat (eapply irun_cons; [vm_compute; reflexivity|cbn; lia|split; [repeat constructor|cbn; auto]|]).
    apply irun_nil.
  - split; reflexivity.
Qed.
Example C313_case : exists v v', vec_after 256 true false 1 6 [Assign ex_list] ex_list v /\
  for_each (vec_cfg 256 true false 1) (map Z.succ) 5 v = Ok (ex_list, v') /\
  iterate (vec_cfg 256 true false 1) v' = Ok [[2]; [3]; [4]; [5]]%Z.
Proof.
  destruct ex_vec as [v X]. destruct (C313_vector_for_each _ _ _ _ _ (map Z.succ) 5 _ _ _ X) as (v' & E & L); [cbn; lia|].
  exists v, v'. split; auto. split; auto. exact (ll_iter _ _ _ L).
Qed.
Example C314_case : exists v v', vec_after 256 true false 1 6 [Assign ex_list] ex_list v /\
  erase_if (vec_cfg 256 true false 1) (existsb Z.even) 5 v = Ok (Go v') /\
  iterate (vec_cfg 256 true false 1) v' = Ok [[1]; [3]]%Z.
Proof.
  destruct ex_vec as [v X]. destruct (C314_vector_erase_if _ _ _ _ (existsb Z.even) 5 _ _ _ X) as (v' & E & L); [cbn; lia|].
  exists v, v'. split; auto. split; auto. exact (ll_iter _ _ _ L).
Qed.
Example C315_case : exists v, vec_after 256 true false 1 6 [Assign ex_list] ex_list v /\
  at_ (el_copy v 0 2) 0 = Ok [1]%Z.
Proof.
  destruct ex_vec as [v X]. exists v. split; auto.
  exact (ll_at _ _ _ (vec_el_copy _ _ _ _ _ _ _ v 0 2 X) 0 [1%Z] eq_refl).
Qed.
