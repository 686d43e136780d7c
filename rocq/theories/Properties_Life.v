(* C398-C406: the lifetimes of a vector's elements that are objects of a class with its own constructors,
   assignment and destructor.  ma: the class is move assignable; mvd: what a move leaves behind;
   vret v: the call finished with the vector v. *)
From Verif Require Import Base Life_Spec Life_Model Life_Proofs.
Local Open Scope res_scope.

(* A vector with storage of its own for N elements (layer1::vector): each element is constructed by the call that adds it and
   destroyed by the pop_back that removes it, and no other constructor or destructor runs. *)
Theorem C398_own V ma (mvd : V -> V) nodebug moves pad N rs l :
  history N [] rs = Some l -> adds_at_end N [] rs = true ->
  exists v, run ma mvd false nodebug moves pad (own N) rs = vret v /\ look v = Ok l /\
            gone v = history_calls N [] rs.
Proof.
  intros H He.
  destruct (run_inv ma mvd false nodebug moves pad N rs [] l (own N)) as (v & R & I & L & _); auto using own_inv.
  exists v. split; [exact R|]. split; [exact (look_ok _ _ _ I)|].
  unfold gone. rewrite L. apply history_made_end. exact He.
Qed.
Print Assumptions C398_own.

(* A vector over an allocator, as long as what was reserved is enough. *)
Theorem C398_reserved V ma (mvd : V -> V) nodebug moves pad N rs l :
  history N [] rs = Some l -> adds_at_end N [] rs = true ->
  exists v0 v, reserve true nodebug moves fresh N = vret v0 /\
    run ma mvd true nodebug moves pad v0 rs = vret v /\ look v = Ok l /\ gone v = history_calls N [] rs.
Proof.
  intros H He. exists (own N).
  destruct (run_inv ma mvd true nodebug moves pad N rs [] l (own N)) as (v & R & I & L & _); auto using own_inv.
  exists v. split; [reflexivity|]. split; [exact R|]. split; [exact (look_ok _ _ _ I)|].
  unfold gone. rewrite L. apply history_made_end. exact He.
Qed.
Print Assumptions C398_reserved.

(* Without reserving, as long as the first block is enough: one element and the padding. *)
Theorem C398_first_block V ma (mvd : V -> V) nodebug moves pad x rs l :
  history (1 + pad) [] (RPush x :: rs) = Some l -> adds_at_end (1 + pad) [] (RPush x :: rs) = true ->
  exists v, run ma mvd true nodebug moves pad fresh (RPush x :: rs) = vret v /\ look v = Ok l /\
    gone v = history_calls (1 + pad) [] (RPush x :: rs).
Proof.
  intros H He.
  destruct (run_inv ma mvd true nodebug moves pad (1 + pad) (RPush x :: rs) [] l (own (1 + pad)))
    as (v & R & I & L & _); auto using own_inv.
  exists v. split; [exact R|]. split; [exact (look_ok _ _ _ I)|].
  unfold gone. rewrite L. apply history_made_end. exact He.
Qed.
Print Assumptions C398_first_block.

(* So there are always as many objects as elements; a vector popped empty has destroyed all it constructed. *)
Theorem C398_balance V ma (mvd : V -> V) nodebug moves pad N rs l v :
  history N [] rs = Some l -> adds_at_end N [] rs = true ->
  run ma mvd false nodebug moves pad (own N) rs = vret v ->
  made (gone v) = died (gone v) + length l.
Proof.
  intros H He R. destruct (C398_own V ma mvd nodebug moves pad N rs l H He) as (v' & R' & _ & L).
  rewrite R in R'. injection R' as <-. rewrite L. pose proof (history_balance N rs [] l H) as B. cbn in B. lia.
Qed.
Print Assumptions C398_balance.

Example C398_case :
  let rs := [RPush 5; REmplace 6; RSet 0 9; RInsert 2 7; RPop; RPush 8; RPop] in
  history 3 [] rs = Some [9; 6] /\ adds_at_end 3 [] rs = true /\
  history_calls 3 [] rs = [Made 5; Made 6; Made 7; Died 7; Made 8; Died 8].
Proof. vm_compute. auto. Qed.

Section Reached.
Context {V : Type} (ma : bool) (mvd : V -> V) (heap nodebug : bool) (moves : nat -> bool) (pad : nat).
(* v is a vector with room for N that a history of moving in and popping brought to the elements l *)
Definition reached (N : nat) (l : list V) (v : vec V) : Prop :=
  exists rs, history N [] rs = Some l /\ adds_at_end N [] rs = true /\
    run ma mvd heap nodebug moves pad (own N) rs = vret v.

Lemma reached_inv N l v : reached N l v -> inv N l v /\ made (log v) = died (log v) + length l /\ moved v = 0.
Proof.
  intros (rs & H & He & R).
  destruct (run_inv ma mvd heap nodebug moves pad N rs [] l (own N)) as (v' & R' & I & L & M); auto using own_inv.
  rewrite R in R'. injection R' as <-. split; [exact I|]. split; [|exact M].
  rewrite L, history_made_end by exact He. cbn [log own app]. pose proof (history_balance N rs [] l H) as B.
  cbn [length] in B. lia.
Qed.
End Reached.

(* C399: elements that leave a vector in other ways are not destroyed. *)
Theorem C399_gone_refuted V ma (mvd : V -> V) nodebug moves pad N l v :
  reached ma mvd false nodebug moves pad N l v -> l <> [] ->
  died (gone v) < made (gone v).
Proof.
  intros H Hl. apply reached_inv in H. destruct H as (_ & B & _). unfold gone. destruct l; [congruence|]. cbn in B. lia.
Qed.
Print Assumptions C399_gone_refuted.

Theorem C399_shrink_refuted V ma (mvd : V -> V) nodebug moves pad N l v n :
  reached ma mvd false nodebug moves pad N l v -> n < length l ->
  exists v', resize false nodebug moves v n = vret v' /\ look v' = Ok (firstn n l) /\ gone v' = gone v.
Proof.
  intros H Hn. apply reached_inv in H. destruct H as (I & _). pose proof (inv_cells_length _ _ _ I) as HL.
  destruct I as (E & Hl & Hu & Hh).
  unfold resize, ensure_total_size, ensure_total_capacity, capacity.
  replace (length (cells v) <? n) with false by (symmetry; apply Nat.ltb_ge; lia).
  cbn [vbind bind vret]. eexists. split; [reflexivity|]. split; [|reflexivity].
  unfold look, size. cbn [has used set_size]. rewrite Hh.
  assert (Ln : length (firstn n l) = n) by (rewrite firstn_length; lia).
  pose proof (look_n_ok [] (firstn n l) (map Live (skipn n l) ++ repeat Raw (N - length l)) (set_size v n)) as P.
  rewrite Ln in P. apply P.
  cbn [app cells set_size]. now rewrite app_assoc, <- map_app, firstn_skipn.
Qed.
Print Assumptions C399_shrink_refuted.

Theorem C399_clear_refuted V ma (mvd : V -> V) nodebug moves pad N l v :
  reached ma mvd false nodebug moves pad N l v -> l <> [] ->
  exists v', clear false nodebug moves v = vret v' /\ look v' = Ok [] /\ died (gone v') < made (gone v').
Proof.
  intros H Hl. pose proof (C399_gone_refuted _ _ _ _ _ _ _ _ _ H Hl) as B.
  destruct (C399_shrink_refuted _ _ _ _ _ _ _ _ _ 0 H) as (v' & R & L & G).
  { destruct l; [congruence|cbn; lia]. }
  exists v'. split; [exact R|]. split; [exact L|]. now rewrite G.
Qed.
Print Assumptions C399_clear_refuted.

(* adding and popping an element after clear does not make up for it: the new element overwrites an old one *)
Theorem C399_reuse_refuted V ma (mvd : V -> V) nodebug moves pad N l v x :
  reached ma mvd false nodebug moves pad N l v -> l <> [] ->
  exists v1 v2 v3, clear false nodebug moves v = vret v1 /\
    push_back_move false nodebug moves pad v1 x = vret v2 /\ pop_back v2 = vret v3 /\
    look v3 = Ok [] /\ made (gone v3) = died (gone v3) + length l.
Proof.
  intros H Hl. apply reached_inv in H. destruct H as (I & B & _).
  destruct I as (E & HN & Hu & Hh). destruct l as [|y l]; [congruence|].
  unfold clear, resize, ensure_total_size, ensure_total_capacity, capacity. cbn [Nat.ltb Nat.leb].
  cbn [vbind bind vret]. eexists. eexists. eexists. split; [reflexivity|].
  cbn [map app] in E. cbn [length] in E, HN.
  unfold push_back_move. rewrite grow_fits; [|exact Hh|].
  2:{ cbn [used cells set_size]. rewrite E. cbn [length]. lia. }
  cbn [vbind bind vret]. unfold construct. cbn [used cells set_size]. rewrite E. cbn [rd nth_error bind upd].
  split; [reflexivity|]. unfold pop_back. cbn [used with_cells set_size Nat.add]. unfold destroy.
  cbn [cells with_cells rd nth_error bind vbind vret upd]. split; [reflexivity|].
  unfold look, size, gone. cbn [has used set_size with_cells log]. rewrite Hh. split; [reflexivity|].
  rewrite <- app_assoc. cbn [app]. rewrite made_app, died_app, B. cbn. lia.
Qed.
Print Assumptions C399_reuse_refuted.

Theorem C399_erase_refuted V ma (mvd : V -> V) nodebug moves pad N l x v :
  reached ma mvd false nodebug moves pad N (l ++ [x]) v ->
  exists v', erase v (length l) = vret v' /\ look v' = Ok l /\ gone v' = gone v.
Proof.
  intros H. apply reached_inv in H. destruct H as ((E & HN & Hu & Hh) & _).
  rewrite app_length in *. cbn [length] in *. unfold erase. rewrite Hu.
  replace (length l <? length l + 1) with true by (symmetry; apply Nat.ltb_lt; lia).
  rewrite Nat.sub_diag. cbn [Nat.eqb]. eexists. split; [reflexivity|]. split; [|reflexivity].
  unfold look, size. cbn [has used set_size]. rewrite Hh, Nat.add_sub.
  apply (look_n_ok [] l (Live x :: repeat Raw (N - (length l + 1)))).
  cbn [app cells set_size]. rewrite E, map_app, <- app_assoc. reflexivity.
Qed.
Print Assumptions C399_erase_refuted.

Example C399_case : exists v,
  reached true (fun _ => 0) false false (fun _ => false) 0 2 [4; 5] v /\
  made (gone v) = 2 /\ died (gone v) = 0.
Proof. eexists. split; [|split; [|]]; [exists [RPush 4; RPush 5]; repeat split; reflexivity|reflexivity|reflexivity]. Qed.

(* C400: copying a value into storage of the vector's own assigns to an object that is not there. *)
Lemma copy_in_raw V (v : vec V) i x xs a b : cells v = a ++ Raw :: b -> i = length a -> copy_in v i (x :: xs) = UB.
Proof. intros E ->. cbn. unfold assign. rewrite E, rd_app. reflexivity. Qed.

Theorem C400_append_refuted V ma (mvd : V -> V) nodebug moves pad N l v x xs :
  reached ma mvd false nodebug moves pad N l v -> length l + length (x :: xs) <= N ->
  append false nodebug moves pad v (x :: xs) = UB.
Proof.
  intros H Hr. apply reached_inv in H. destruct H as (I & _). pose proof (inv_cells_length _ _ _ I) as HL.
  cbn [length] in Hr. assert (H1 : length l < N) by lia. pose proof (inv_room _ _ _ I H1) as E.
  destruct I as (_ & _ & Hu & Hh). unfold append. rewrite grow_fits; [|exact Hh|cbn [length]; lia].
  cbn [vbind bind vret].
  apply (copy_in_raw V _ _ x xs (map Live l) (repeat Raw (N - S (length l)))); [exact E|now rewrite map_length].
Qed.
Print Assumptions C400_append_refuted.

Theorem C400_push_back_refuted V ma (mvd : V -> V) nodebug moves pad N l v x :
  reached ma mvd false nodebug moves pad N l v -> length l < N ->
  push_back false nodebug moves pad v x = UB.
Proof. intros H Hr. apply (C400_append_refuted _ _ _ _ _ _ _ _ _ x [] H). cbn. lia. Qed.
Print Assumptions C400_push_back_refuted.

Theorem C400_initializer_list_refuted V N (x : V) xs : init_list N (x :: xs) = UB.
Proof.
  unfold init_list. destruct N as [|N]; [reflexivity|].
  rewrite (copy_in_raw V (own (S N)) 0 x xs [] (repeat Raw N)) by reflexivity. reflexivity.
Qed.
Print Assumptions C400_initializer_list_refuted.

Theorem C400_insert_range_refuted V ma ca (mvd : V -> V) nodebug moves pad N l v i x xs :
  ca = true -> reached ma mvd false nodebug moves pad N l v -> length l + length (x :: xs) <= N -> i <= length l ->
  insert_range ca false nodebug moves v i (x :: xs) = UB.
Proof.
  intros -> H Hr Hi. apply reached_inv in H. destruct H as (I & _). pose proof (inv_cells_length _ _ _ I) as HL.
  destruct I as (E & _ & Hu & Hh). cbn [length] in Hr.
  unfold insert_range, ensure_total_size, ensure_total_capacity, size, capacity. rewrite Hh, Hu, HL. cbn [length].
  replace (N <? length l + S (length xs)) with false by (symmetry; apply Nat.ltb_ge; lia).
  cbn [vbind bind vret].
  replace (i <=? length l) with true by (symmetry; apply Nat.leb_le; lia).
  destruct (length l - i) as [|k] eqn:Ek.
  - cbn [copy_assist vbind bind vret]. assert (i = length l) by lia. subst i.
    apply (copy_in_raw V _ _ x xs (map Live l) (repeat Raw (N - S (length l)))).
    + cbn [cells set_size]. rewrite E. replace (N - length l) with (S (N - S (length l))) by lia. reflexivity.
    + now rewrite map_length.
  - cbn [copy_assist]. destruct (exists_last (l := l)) as (l0 & z & El); [destruct l; [cbn in Ek; lia|discriminate]|].
    rewrite (load_at _ (map Live l0) z (repeat Raw (N - length l))).
    2:{ cbn [cells set_size]. rewrite E, El, map_app, <- app_assoc. cbn [map app]. reflexivity. }
    2:{ rewrite El, app_length, map_length. cbn. lia. }
    cbn [bind]. unfold assign. cbn [cells set_size]. rewrite E.
    replace (N - length l) with (length xs + S (N - length l - length xs - 1)) by lia.
    rewrite repeat_app. cbn [repeat]. rewrite app_assoc.
    rewrite rd_at by (rewrite app_length, map_length, repeat_length; lia). reflexivity.
Qed.
Print Assumptions C400_insert_range_refuted.

Theorem C400_insert_refuted V ma (mvd : V -> V) nodebug moves pad N l v i x :
  ma = true -> reached ma mvd false nodebug moves pad N l v -> length l < N -> i < length l ->
  insert_move ma mvd false nodebug moves pad v i x = UB.
Proof.
  intros -> H Hr Hi. apply reached_inv in H. destruct H as (I & _). pose proof (inv_cells_length _ _ _ I) as HL.
  pose proof (inv_room _ _ _ I Hr) as E.
  destruct I as (_ & _ & Hu & Hh). unfold insert_move. rewrite grow_fits by (auto; lia).
  cbn [vbind bind vret]. unfold size. rewrite Hh, Hu, Nat.add_sub.
  replace (i <=? length l) with true by (symmetry; apply Nat.leb_le; lia).
  destruct (length l - i) as [|k] eqn:Ek; [lia|]. cbn [move_assist].
  destruct (exists_last (l := l)) as (l0 & z & El); [destruct l; [cbn in Ek; lia|discriminate]|].
  rewrite (load_at _ (map Live l0) z (Raw :: repeat Raw (N - S (length l)))).
  2:{ cbn [cells set_size]. rewrite E, El, map_app, <- app_assoc. cbn [map app]. reflexivity. }
  2:{ rewrite El, app_length, map_length. cbn. lia. }
  cbn [bind]. unfold assign. cbn [cells set_size]. rewrite E, Nat.add_sub.
  rewrite rd_at by (now rewrite map_length). reflexivity.
Qed.
Print Assumptions C400_insert_refuted.

Example C400_case : exists v,
  reached true (fun _ => 0) false false (fun _ => false) 0 4 [4; 5] v /\
  push_back false false (fun _ => false) 0 v 6 = UB.
Proof. eexists. split; [exists [RPush 4; RPush 5]; repeat split; reflexivity|reflexivity]. Qed.

(* C401: inserting anywhere gives the right sequence for a class that can be move constructed but not
   move assigned. *)
Theorem C401_insert V ma (mvd : V -> V) nodebug moves pad N rs l :
  ma = false -> history N [] rs = Some l ->
  exists v, run ma mvd false nodebug moves pad (own N) rs = vret v /\ look v = Ok l.
Proof.
  intros Hma H.
  destruct (run_inv ma mvd false nodebug moves pad N rs [] l (own N)) as (v & R & I & _); auto using own_inv.
  exists v. split; [exact R|exact (look_ok _ _ _ I)].
Qed.
Print Assumptions C401_insert.

Example C401_case :
  history 5 [] [RPush 1; RPush 3; RPush 4; RInsert 1 2; RInsert 0 0; RPop] = Some [0; 1; 2; 3].
Proof. reflexivity. Qed.

(* C402: but every element that such an insertion moves leaves behind an object that is never destroyed. *)
Theorem C402_insert_refuted V ma (mvd : V -> V) nodebug moves pad N l v i x :
  ma = false -> reached ma mvd false nodebug moves pad N l v -> length l < N -> i < length l ->
  exists v', insert_move ma mvd false nodebug moves pad v i x = vret v' /\
    look v' = Ok (firstn i l ++ x :: skipn i l) /\
    made (gone v') = died (gone v') + (length l + 1) + (length l - i).
Proof.
  intros Hma H Hr Hi. apply reached_inv in H. destruct H as (I & B & _).
  destruct (insert_inv ma mvd false nodebug moves pad N (firstn i l) (skipn i l) v x) as (v' & R & I' & L & _).
  - now left.
  - now rewrite firstn_skipn.
  - now rewrite firstn_skipn.
  - rewrite firstn_length, Nat.min_l in R by lia. exists v'. split; [exact R|].
    split; [exact (look_ok _ _ _ I')|]. unfold gone.
    rewrite L, !made_app, !died_app, made_map, died_map, rev_length, skipn_length. cbn. lia.
Qed.
Print Assumptions C402_insert_refuted.

Example C402_case : exists v v',
  reached false (fun _ => 0) false false (fun _ => false) 0 4 [4; 5] v /\
  insert_move false (fun _ => 0) false false (fun _ => false) 0 v 0 3 = vret v' /\ look v' = Ok [3; 4; 5] /\
  gone v' = [Made 4; Made 5; Made 5; Made 4; Made 3].
Proof.
  eexists. eexists. split; [exists [RPush 4; RPush 5]; repeat split; reflexivity|]. repeat split; reflexivity.
Qed.

(* C403: a vector over the caller's array of objects.  Copying in, assigning and shrinking never construct or
   destroy anything, so the end of the array destroys each of its objects once. *)
Theorem C403_array V ca nodebug moves pad (xs : list V) rs l :
  ca = true -> chistory (length xs) [] rs = Some l ->
  exists v v', crun ca false nodebug moves pad (over xs) rs = vret v /\ look v = Ok l /\ log v = [] /\
    array_gone v (length xs) = vret v' /\ made (log v') = 0 /\ died (log v') = length xs.
Proof.
  intros Hca H.
  destruct (crun_cinv ca false nodebug moves pad (length xs) rs Hca [] l (over xs)) as (v & R & I); auto using over_cinv.
  exists v. pose proof (cinv_look _ _ _ I) as K. destruct I as (tail & E & HN & Hu & Hh & HL).
  destruct (array_gone_ok (l ++ tail) [] v) as (v' & R' & L'); [now rewrite app_nil_r|].
  exists v'. rewrite HN in R'. repeat (split; [assumption|]). rewrite L', HL. cbn [app].
  rewrite <- HN. unfold made, died. rewrite <- (rev_length (l ++ tail)).
  generalize (rev (l ++ tail)) as ys. intros ys. split; induction ys; cbn; auto.
Qed.
Print Assumptions C403_array.

Example C403_case :
  chistory 5 [] [CAppend [1; 4]; CInsert 1 [2; 3]; CSet 0 9; CShrink 3; CAppend [8]] = Some [9; 2; 3; 8].
Proof. reflexivity. Qed.

(* C404: popping from it, or moving into it, leaves the caller's array with a dead object or one too many. *)
Theorem C404_pop_refuted V ca nodebug moves pad (xs : list V) rs l v :
  ca = true -> chistory (length xs) [] rs = Some l -> l <> [] ->
  crun ca false nodebug moves pad (over xs) rs = vret v ->
  exists v', pop_back v = vret v' /\ array_gone v' (length xs) = UB /\
    (forall x, push_back false nodebug moves pad v' x = UB).
Proof.
  intros Hca H Hl R.
  destruct (crun_cinv ca false nodebug moves pad (length xs) rs Hca [] l (over xs)) as (v' & R' & I); auto using over_cinv.
  rewrite R in R'. injection R' as <-. destruct I as (tail & E & HN & Hu & Hh & HL).
  destruct (exists_last Hl) as (l0 & z & ->). rewrite !app_length in *. cbn [length] in *.
  unfold pop_back. rewrite Hu, Nat.add_1_r. unfold destroy.
  rewrite <- app_assoc, map_app in E. cbn [app map] in E.
  rewrite E, rd_at by (now rewrite map_length). cbn [bind vbind vret]. rewrite upd_at by (now rewrite map_length).
  eexists. split; [reflexivity|]. split.
  - rewrite <- HN. replace (length l0 + 1 + length tail) with (length (map (@Live V) l0) + 1 + length tail)
      by now rewrite map_length.
    apply (array_gone_dead _ Raw tail []); [|discriminate]. cbn [cells set_size with_cells]. now rewrite app_nil_r.
  - intros x. unfold push_back, append. rewrite grow_fits.
    + cbn [vbind bind vret used set_size with_cells].
      apply (copy_in_raw V _ _ x [] (map Live l0) (map Live tail)); [reflexivity|now rewrite map_length].
    + exact Hh.
    + cbn [used cells set_size with_cells length]. rewrite app_length. cbn [length]. rewrite !map_length. lia.
Qed.
Print Assumptions C404_pop_refuted.

Theorem C404_push_refuted V ca nodebug moves pad (xs : list V) rs l v x :
  ca = true -> chistory (length xs) [] rs = Some l -> length l < length xs ->
  crun ca false nodebug moves pad (over xs) rs = vret v ->
  exists v' v'', push_back_move false nodebug moves pad v x = vret v' /\
    emplace_back false nodebug moves pad v x = vret v' /\ look v' = Ok (l ++ [x]) /\
    array_gone v' (length xs) = vret v'' /\ made (log v'') = 1 /\ died (log v'') = length xs.
Proof.
  intros Hca H Hl R.
  destruct (crun_cinv ca false nodebug moves pad (length xs) rs Hca [] l (over xs)) as (v' & R' & I); auto using over_cinv.
  rewrite R in R'. injection R' as <-. destruct I as (tail & E & HN & Hu & Hh & HL).
  rewrite app_length in HN. destruct tail as [|t tail]; [cbn in HN; lia|]. cbn [length] in HN.
  unfold emplace_back, push_back_move. rewrite grow_fits; [|exact Hh|].
  2:{ rewrite E, map_length, app_length. cbn. lia. }
  cbn [vbind bind vret]. rewrite map_app in E. cbn [map] in E.
  rewrite (construct_at _ (map Live l) (Live t) (map Live tail)); [|exact E|now rewrite map_length].
  set (v1 := with_cells _ _ _).
  assert (E1 : cells v1 = map Live (l ++ x :: tail) ++ []).
  { subst v1. cbn [cells with_cells]. now rewrite app_nil_r, map_app. }
  destruct (array_gone_ok (l ++ x :: tail) [] v1 E1) as (v2 & R2 & L2).
  exists v1, v2. split; [reflexivity|]. split; [reflexivity|]. split.
  { unfold look, size. subst v1. cbn [has used with_cells set_size]. rewrite Hh, Hu.
    replace (length l + 1) with (length (l ++ [x])) by (rewrite app_length; reflexivity).
    apply (look_n_ok [] (l ++ [x]) (map Live tail)). cbn [app cells with_cells].
    rewrite (map_app Live l [x]), <- app_assoc. reflexivity. }
  rewrite app_length in R2. cbn [length] in R2. replace (length l + S (length tail)) with (length xs) in R2 by lia.
  split; [exact R2|]. rewrite L2. subst v1. cbn [log with_cells set_size]. rewrite HL. cbn [app].
  assert (Q : forall ys : list V, made (map Died ys) = 0 /\ died (map Died ys) = length ys).
  { intros ys. unfold made, died. split; induction ys; cbn; auto. }
  change (Made x :: map Died (rev (l ++ x :: tail))) with ([Made x] ++ map Died (rev (l ++ x :: tail))).
  rewrite made_app, died_app. destruct (Q (rev (l ++ x :: tail))) as [-> ->].
  rewrite rev_length, app_length. cbn. lia.
Qed.
Print Assumptions C404_push_refuted.

Example C404_case : exists v,
  crun true false false (fun _ => false) 0 (over [0; 0; 0]) [CAppend [7; 8]] = vret v /\
  look v = Ok [7; 8] /\ chistory 3 [] [CAppend [7; 8]] = Some [7; 8].
Proof. eexists. repeat split; reflexivity. Qed.

(* C405: a copy of a vector, and a vector whose block was moved to grow, hold bytes instead of objects. *)
Theorem C405_copy_refuted V ma (mvd : V -> V) nodebug moves pad N l v :
  reached ma mvd false nodebug moves pad N l v ->
  size (copied v) = length l /\ log (copied v) = [] /\
  (forall i, at_ (copied v) i = UB) /\ pop_back (copied v) = UB.
Proof.
  intros H. apply reached_inv in H. destruct H as ((E & HN & Hu & Hh) & _).
  assert (Z : forall i, load (copied v) i = UB).
  { intros i. unfold load, rd, copied. cbn [cells]. rewrite nth_error_map.
    destruct (nth_error (cells v) i) as [[|y|y]|]; reflexivity. }
  unfold size. cbn [has used copied]. rewrite Hh, Hu. repeat split; auto.
  unfold pop_back. cbn [used copied]. destruct (used v) as [|e]; [reflexivity|].
  specialize (Z e). unfold load in Z. unfold destroy. destruct (rd (cells (copied v)) e) as [[|y|y]| |]; try reflexivity.
  discriminate Z. cbn in Z. discriminate Z.
Qed.
Print Assumptions C405_copy_refuted.

Theorem C405_growth_refuted V ma (mvd : V -> V) nodebug moves pad N l v x :
  reached ma mvd true nodebug moves pad N l v -> length l = N -> moves 0 = true ->
  exists v', push_back_move true nodebug moves pad v x = vret v' /\ size v' = N + 1 /\
    forall i, i < N -> at_ v' i = UB.
Proof.
  intros H Hl Hm. apply reached_inv in H. destruct H as (I & _ & M0). pose proof (inv_cells_length _ _ _ I) as HL.
  destruct I as (E & _ & Hu & Hh).
  unfold push_back_move, grow, ensure_total_capacity, size, capacity. rewrite Hh, Hu, HL, Hl.
  replace (N <? N + 1) with true by (symmetry; apply Nat.ltb_lt; lia).
  unfold reserve. rewrite Hh, M0, Hm, map_length, HL. cbn [vbind bind vret].
  replace (N + 1 + pad - N) with (S pad) by lia.
  assert (EF : firstn (N + 1 + pad) (map as_bits (cells v) ++ repeat Raw (S pad)) = map as_bits (cells v) ++ Raw :: repeat Raw pad).
  { apply firstn_all2. rewrite app_length, map_length. cbn [repeat length]. rewrite repeat_length. lia. }
  rewrite EF.
  rewrite (construct_at _ (map as_bits (cells v)) Raw (repeat Raw pad)); [|reflexivity|now rewrite map_length].
  eexists. split; [reflexivity|]. split; [reflexivity|].
  intros i Hi. unfold at_, load, rd. cbn [cells with_cells set_size].
  rewrite nth_error_app1 by (rewrite map_length; lia). rewrite nth_error_map.
  destruct (nth_error (cells v) i) as [[|y|y]|]; reflexivity.
Qed.
Print Assumptions C405_growth_refuted.

Example C405_case : exists v,
  reached true (fun _ => 0) true false (fun _ => true) 3 2 [4; 5] v /\
  (v' <~ push_back_move true false (fun _ => true) 3 v 6 ;; vret (cells v'))
    = vret [Bits 4; Bits 5; Live 6; Raw; Raw; Raw].
Proof. eexists. split; [exists [RPush 4; RPush 5]; repeat split; reflexivity|reflexivity]. Qed.

(* C406: resize to a larger size adds places without objects, and erase moves bytes. *)
Theorem C406_resize_refuted V ma (mvd : V -> V) nodebug moves pad N l v n :
  reached ma mvd false nodebug moves pad N l v -> length l < n -> n <= N ->
  exists v', resize false nodebug moves v n = vret v' /\ size v' = n /\
    (forall i, length l <= i < n -> at_ v' i = UB) /\ pop_back v' = UB.
Proof.
  intros H Hn HnN. apply reached_inv in H. destruct H as (I & _). pose proof (inv_cells_length _ _ _ I) as HL.
  destruct I as (E & Hl & Hu & Hh).
  unfold resize, ensure_total_size, ensure_total_capacity, capacity.
  replace (length (cells v) <? n) with false by (symmetry; apply Nat.ltb_ge; lia).
  cbn [vbind bind vret]. eexists. split; [reflexivity|].
  assert (Z : forall i, length l <= i < n -> rd (cells v) i = Ok Raw).
  { intros i Hi. unfold rd. rewrite E, nth_error_app2 by (rewrite map_length; lia).
    rewrite nth_error_repeat by (rewrite map_length; lia). reflexivity. }
  unfold size. cbn [has used set_size]. rewrite Hh. split; [reflexivity|]. split.
  - intros i Hi. unfold at_, load. cbn [cells set_size]. now rewrite Z.
  - unfold pop_back. cbn [used set_size]. destruct n as [|n]; [lia|]. unfold destroy. cbn [cells set_size].
    now rewrite Z by lia.
Qed.
Print Assumptions C406_resize_refuted.

Theorem C406_erase_refuted V ma (mvd : V -> V) nodebug moves pad N l v i :
  reached ma mvd false nodebug moves pad N l v -> S i < length l -> erase v i = UB.
Proof.
  intros H Hi. apply reached_inv in H. destruct H as ((E & Hl & Hu & Hh) & _).
  unfold erase. rewrite Hu. replace (i <? length l) with true by (symmetry; apply Nat.ltb_lt; lia).
  replace (length l - (i + 1) =? 0) with false by (symmetry; apply Nat.eqb_neq; lia). reflexivity.
Qed.
Print Assumptions C406_erase_refuted.

Example C406_case : exists v,
  reached true (fun _ => 0) false false (fun _ => false) 0 4 [4; 5] v /\ erase v 0 = UB.
Proof. eexists. split; [exists [RPush 4; RPush 5]; repeat split; reflexivity|reflexivity]. Qed.
