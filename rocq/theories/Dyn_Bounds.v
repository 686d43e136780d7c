(* Beyond the capacity, and the operations of strings: proofs. *)
From Verif Require Import Base BaseLemmas SliceLemmas Algo_Model Algo_Spec Algo_Proofs Dyn_Spec Dyn_Model Dyn_View Dyn_Proofs.
Local Open Scope res_scope.

Lemma copy_in_ub {A} : forall n (xs m : list A) pos, 1 <= n -> length m < pos + n -> copy_in m pos xs n = UB.
Proof.
  induction n as [|n IH]; intros xs m pos H1 H2; [lia|]. cbn [copy_in].
  destruct xs as [|x xs]; auto. unfold wr. destruct (Nat.ltb_spec pos (length m)) as [H|H]; auto.
  cbn [bind]. destruct n as [|n]; [lia|]. apply IH; [lia|]. rewrite upd_length. lia.
Qed.

Lemma copy_backward_ub {A} (m : list A) f l dl : f < l -> l - f <= dl -> length m < dl -> l <= length m ->
  copy_backward m f l dl = UB.
Proof.
  intros H1 H2 H3 H4. unfold copy_backward. rewrite range_len_ok by lia. cbn [bind].
  destruct (l - f) as [|n] eqn:E; [lia|]. cbn [copy_backward_loop]. destruct l as [|l]; [lia|].
  destruct dl as [|dl]; [lia|].
  destruct (rd_lt m l) as (y & _ & ->); [lia|]. cbn [bind].
  unfold wr. destruct (Nat.ltb_spec dl (length m)); [lia|]. reflexivity.
Qed.
Lemma copy_backward_nil {A} (m : list A) f dl : copy_backward m f f dl = Ok (m, dl).
Proof. unfold copy_backward. rewrite range_len_ok by lia. cbn [bind]. now rewrite Nat.sub_diag. Qed.

Section Over.
Context {A : Type} (c : cfg A).

Lemma ensure_cap_over v n : length (buf v) < smod c -> length (buf v) < n ->
  ensure_total_capacity c v n = if nodebug c then vret true else Ok Assert.
Proof.
  intros B H. unfold ensure_total_capacity. rewrite capacity_ok by auto.
  destruct (Nat.ltb_spec (length (buf v)) n); [|lia]. reflexivity.
Qed.

(* the container refuses, or writes outside the buffer *)
Definition over (v : arr A) (n : nat) : forall X, vres X := fun X =>
  if nodebug c then UB else if Nat.ltb (length (buf v)) n then Ok Assert else UB.

Lemma set_size_over v n : length (buf v) < n + tlen c ->
  (kind c = Explicit /\ set_size c v n = Ok (Arr (buf v) n)) \/
  (kind c <> Explicit /\ set_size c v n = UB).
Proof.
  intros H. unfold set_size, tlen, term in *. destruct (kind c) as [|z is0]; [left; auto|].
  right. split; [discriminate|]. cbn [length] in H. unfold wr.
  destruct (Nat.ltb_spec n (length (buf v))); [lia|]. reflexivity.
Qed.

Lemma ensure_cap_le v n : length (buf v) < smod c -> n <= length (buf v) -> ensure_total_capacity c v n = vret true.
Proof. apply ensure_cap_ok. Qed.

Lemma grow_over v l k : holds c v l -> length (buf v) < length l + k + tlen c -> length l + k < smod c ->
  (kind c = Explicit /\ nodebug c = true /\ grow c v k = vret (length l, Arr (buf v) (length l + k))) \/
  grow c v k = over v (length l + k) _.
Proof.
  intros H R W. pose proof H as [S N Z B]. unfold grow, over. rewrite (size_ok c v l H).
  cbn [vbind lift vret bind]. rewrite wrap_ok by lia.
  destruct (Nat.ltb_spec (length (buf v)) (length l + k)) as [Hlt|Hge].
  - rewrite ensure_cap_over by auto. destruct (nodebug c) eqn:ND; cbn [vbind lift vret bind]; [|right; reflexivity].
    destruct (set_size_over v (length l + k)) as [[K ->]|[K ->]]; [lia| |].
    + left. auto.
    + right. reflexivity.
  - rewrite ensure_cap_ok by auto. cbn [vbind lift vret bind].
    destruct (set_size_over v (length l + k)) as [[K E]|[K ->]]; [lia| |].
    + exfalso. unfold tlen, term in R. rewrite K in R. cbn in R. lia.
    + right. destruct (nodebug c); reflexivity.
Qed.

Lemma ensure_size_over v l n : holds c v l -> length (buf v) < n + tlen c ->
  (kind c = Explicit /\ nodebug c = true /\ ensure_total_size c v n = vret (true, Arr (buf v) n)) \/
  ensure_total_size c v n = over v n _.
Proof.
  intros H R. pose proof H as [S N Z B]. unfold ensure_total_size, over.
  destruct (Nat.ltb_spec (length (buf v)) n) as [Hlt|Hge].
  - rewrite ensure_cap_over by auto. destruct (nodebug c) eqn:ND; cbn [vbind lift vret bind]; [|right; reflexivity].
    destruct (set_size_over v n) as [[K ->]|[K ->]]; [lia| |].
    + left. auto.
    + right. reflexivity.
  - rewrite ensure_cap_ok by auto. cbn [vbind lift vret bind].
    destruct (set_size_over v n) as [[K E]|[K ->]]; [lia| |].
    + exfalso. unfold tlen, term in R. rewrite K in R. cbn in R. lia.
    + right. destruct (nodebug c); reflexivity.
Qed.

Lemma over_bind v n X Y (f : X -> vres Y) : vbind (over v n X) f = over v n Y.
Proof. unfold over. destruct (nodebug c); auto. destruct (Nat.ltb (length (buf v)) n); reflexivity. Qed.
Lemma over_nd v n X : nodebug c = true -> over v n X = UB.
Proof. unfold over. now intros ->. Qed.

Lemma step_over v l o l1 : holds c v l -> vstep l o = Some l1 ->
  length (buf v) < length l1 + tlen c -> length l1 < smod c -> step c v o = over v (length l1) _.
Proof.
  intros H S R W. pose proof H as [Sh N Z B]. pose proof (shape_len c v l Sh) as L.
  destruct o as [x|xs| |i x|i xs|i|xs|n|]; cbn [vstep step] in *.
  - injection S as <-. rewrite app_length in *. cbn [length] in *. unfold push_back, append.
    destruct (grow_over v l 1 H) as [(K & ND & ->)| ->]; try lia; [|apply over_bind].
    cbn [vbind vret bind buf]. unfold tlen, term in *. rewrite K in *. cbn [length] in *.
    rewrite copy_in_ub by lia. now rewrite over_nd.
  - injection S as <-. rewrite app_length in *. rewrite wrap_ok by lia. unfold append.
    destruct (grow_over v l (length xs) H) as [(K & ND & ->)| ->]; try lia; [|apply over_bind].
    cbn [vbind vret bind buf]. unfold tlen, term in *. rewrite K in *. cbn [length] in *.
    rewrite copy_in_ub by lia. now rewrite over_nd.
  - exfalso. destruct l as [|a t] using rev_ind; [discriminate|].
    destruct (t ++ [a]) eqn:E; [destruct t; discriminate|]. rewrite <- E in *. clear E.
    injection S as <-. rewrite removelast_last, app_length in *. lia.
  - destruct (Nat.leb_spec i (length l)) as [Hi|Hi]; [|discriminate]. injection S as <-.
    assert (length (firstn i l ++ x :: skipn i l) = length l + 1) as L1
      by (rewrite app_length, firstn_length; cbn [length]; rewrite skipn_length; lia).
    rewrite L1 in *. unfold insert_move. rewrite (size_ok _ _ _ H). cbn [vbind lift vret bind].
    rewrite wrap_ok by lia.
    destruct (grow_over v l 1 H) as [(K & ND & ->)| ->]; try lia; [|apply over_bind].
    rewrite over_nd by auto.
    cbn [vbind vret bind buf]. unfold tlen, term in *. rewrite K in *. cbn [length] in *.
    replace (length l + 1 - 1) with (length l) by lia.
    assert (length l = length (buf v)) by lia.
    destruct (Nat.eq_dec i (length l)) as [->|Hne].
    + rewrite copy_backward_nil. cbn [vbind lift vret bind]. unfold wr.
      destruct (Nat.ltb_spec (length l) (length (buf v))); [lia|]. reflexivity.
    + rewrite copy_backward_ub by lia. reflexivity.
  - destruct (Nat.leb_spec i (length l)) as [Hi|Hi]; [|discriminate]. injection S as <-.
    assert (length (firstn i l ++ xs ++ skipn i l) = length l + length xs) as L1
      by (rewrite !app_length, firstn_length, skipn_length; lia).
    rewrite L1 in *. unfold insert_range. rewrite (size_ok _ _ _ H). cbn [vbind lift vret bind].
    rewrite (wrap_ok c (length xs)) by lia. rewrite wrap_ok by lia.
    destruct (ensure_size_over v l (length l + length xs) H) as [(K & ND & ->)| ->]; try lia; [|apply over_bind].
    rewrite over_nd by auto.
    cbn [vbind vret bind buf]. unfold tlen, term in *. rewrite K in *. cbn [length] in *.
    destruct (Nat.eq_dec i (length l)) as [->|Hne].
    + rewrite copy_backward_nil. cbn [vbind lift vret bind]. rewrite copy_in_ub by lia. reflexivity.
    + rewrite copy_backward_ub by lia. reflexivity.
  - exfalso. destruct (Nat.ltb_spec i (length l)); [|discriminate].
    assert (length (firstn i l ++ skipn (1 + i) l) = length l - 1) as L1
      by (rewrite app_length, firstn_length, skipn_length; lia).
    injection S as <-. change (length (firstn i l ++ skipn (1 + i) l) + tlen c > length (buf v)) in R. rewrite L1 in R. lia.
  - injection S as <-. rewrite wrap_ok by lia. unfold assign.
    destruct (ensure_size_over v l (length xs) H) as [(K & ND & ->)| ->]; try lia; [|apply over_bind].
    rewrite over_nd by auto. cbn [vbind vret bind buf]. unfold tlen, term in *. rewrite K in *. cbn [length] in *.
    rewrite copy_in_ub by lia. reflexivity.
  - exfalso. destruct (Nat.leb_spec n (length l)); [|discriminate]. injection S as <-.
    rewrite firstn_length in R. lia.
  - exfalso. injection S as <-. cbn in R. lia.
Qed.

(* the sum of sizes does not fit size_type *)
Lemma append_wrap v l xs : holds c v l -> length xs < smod c -> smod c <= length l + length xs ->
  length l + length xs - smod c + tlen c <= length (buf v) -> append c v xs (length xs) = UB.
Proof.
  intros H X W R. pose proof H as [S N Z B]. pose proof (shape_len c v l S) as L.
  unfold append, grow. rewrite (size_ok c v l H). cbn [vbind lift vret bind].
  assert (wrap c (length l + length xs) = length l + length xs - smod c) as ->.
  { unfold wrap. replace (length l + length xs) with ((length l + length xs - smod c) + 1 * smod c) at 1 by lia.
    rewrite Nat.mod_add by lia. apply Nat.mod_small. lia. }
  rewrite ensure_cap_ok by (auto; lia). cbn [vbind lift vret bind].
  destruct (set_size_ok c v (length l + length xs - smod c)) as (v' & -> & L' & _); [lia|].
  cbn [vbind lift vret bind]. rewrite copy_in_ub by lia. reflexivity.
Qed.

(* an argument length that does not fit size_type is reduced *)
Lemma copy_in_firstn : forall n (xs m : list A) pos, n <= length xs -> copy_in m pos xs n = copy_in m pos (firstn n xs) n.
Proof.
  induction n as [|n IH]; intros xs m pos H; auto. destruct xs as [|x xs]; [cbn in H; lia|].
  cbn [copy_in firstn]. cbn in H. destruct (wr m pos x); cbn [bind]; auto. apply IH. lia.
Qed.
Lemma append_long v l xs : holds c v l -> wrap c (length xs) <= length xs ->
  step c v (Append xs) = step c v (Append (firstn (wrap c (length xs)) xs)).
Proof.
  intros H Hle. cbn [step]. unfold append. rewrite firstn_length, Nat.min_l by auto.
  pose proof H as [S N Z B].
  assert (wrap c (wrap c (length xs)) = wrap c (length xs)) as ->.
  { apply wrap_ok. unfold wrap. apply Nat.mod_upper_bound. lia. }
  destruct (grow c v (wrap c (length xs))) as [[[s v']|]| |]; cbn [vbind vret bind]; auto.
  rewrite copy_in_firstn by auto. reflexivity.
Qed.

Lemma erase_range_ok v l i k :
  mm c = memmove1 -> holds c v l -> i + k <= length l ->
  exists v', raw_erase c v i k = vret v' /\ holds c v' (firstn i l ++ skipn (i + k) l) /\
    length (buf v') = length (buf v).
Proof.
  intros HM H Hi. apply raw_erase_ok; auto. intros rest Er. rewrite HM, Er.
  destruct (memmove1_erase l (term c) rest i k) as (rest' & E & Lr); auto. exists rest'. auto.
Qed.

Lemma string_erase_ok v l i k :
  mm c = memmove1 -> holds c v l -> i <= length l ->
  exists v', string_erase c v i k = vret v' /\
    holds c v' (firstn i l ++ skipn (i + Nat.min k (length l - i)) l) /\
    length (buf v') = length (buf v).
Proof.
  intros HM H Hi. unfold string_erase. rewrite (size_ok _ _ _ H). cbn [vbind lift vret bind].
  pose proof H as [S N Z B]. pose proof (shape_len c v l S). rewrite sub_ok by lia.
  apply erase_range_ok; auto. lia.
Qed.

Lemma read_n_ok v l pos n : holds c v l -> pos + n <= length l ->
  read_n (buf v) pos n = Ok (firstn n (skipn pos l)).
Proof.
  intros [S N Z B] H. pose proof (shape_len c v l S). unfold read_n.
  destruct (Nat.leb_spec (pos + n) (length (buf v))); [|lia]. f_equal.
  destruct S as (rest & -> & _). rewrite skipn_app. rewrite firstn_app.
  replace (n - length (skipn pos l)) with 0 by (rewrite skipn_length; lia). cbn [firstn]. now rewrite app_nil_r.
Qed.

Lemma copy_to_ok v l count pos : holds c v l -> pos <= length l ->
  narrow c = true \/ pos + count < smod c ->
  copy_to c v count pos = Ok (firstn count (skipn pos l), Nat.min count (length l - pos)).
Proof.
  intros H Hp HA. pose proof H as [S N Z B]. pose proof (shape_len c v l S) as L.
  unfold copy_to. rewrite (size_ok _ _ _ H). cbn [bind].
  assert (add c pos count = pos + count) as ->.
  { destruct HA as [HA|HA]; [unfold add; now rewrite HA | now apply add_ok]. }
  rewrite sub_ok by lia.
  destruct (Nat.ltb_spec (length l) (pos + count)).
  - rewrite (read_n_ok v l) by (auto; lia). cbn [bind]. rewrite Nat.min_r by lia.
    rewrite !firstn_all2; auto; rewrite skipn_length; lia.
  - rewrite (read_n_ok v l) by (auto; lia). cbn [bind]. rewrite Nat.min_l by lia. reflexivity.
Qed.

Lemma copy_to_past v l count pos : holds c v l -> length l < pos -> pos < smod c ->
  narrow c = true \/ pos + count < smod c -> copy_to c v count pos = UB.
Proof.
  intros H Hp Hs HA. pose proof H as [S N Z B]. pose proof (shape_len c v l S) as L.
  unfold copy_to. rewrite (size_ok _ _ _ H). cbn [bind].
  assert (add c pos count = pos + count) as ->.
  { destruct HA as [HA|HA]; [unfold add; now rewrite HA | now apply add_ok]. }
  destruct (Nat.ltb_spec (length l) (pos + count)); [|lia].
  assert (sub c (length l) pos = length l + (smod c - pos)) as ->.
  { unfold sub. rewrite (wrap_ok c pos) by lia. apply wrap_ok. lia. }
  unfold read_n. destruct (Nat.leb_spec (pos + (length l + (smod c - pos))) (length (buf v))); [lia|].
  reflexivity.
Qed.

Lemma copy_to_npos v l pos : holds c v l -> narrow c = false -> 1 <= pos <= length l ->
  copy_to c v (smod c - 1) pos = UB.
Proof.
  intros H HN Hp. pose proof H as [S N Z B]. pose proof (shape_len c v l S) as L.
  unfold copy_to. rewrite (size_ok _ _ _ H). cbn [bind].
  assert (add c pos (smod c - 1) = pos - 1) as ->.
  { unfold add. rewrite HN. unfold wrap. replace (pos + (smod c - 1)) with (pos - 1 + 1 * smod c) by lia.
    rewrite Nat.mod_add by lia. apply Nat.mod_small. lia. }
  destruct (Nat.ltb_spec (length l) (pos - 1)); [lia|].
  unfold read_n. destruct (Nat.leb_spec (pos + (smod c - 1)) (length (buf v))); [lia|]. reflexivity.
Qed.

Lemma emplace_ok v l x : holds c v l -> length l + 1 + tlen c <= length (buf v) -> nz c x ->
  exists v', push_back c v x = vret v' /\ push_back_move c v x = vret v' /\
    emplace_back c v x = vret (x, v') /\ holds c v' (l ++ [x]).
Proof.
  intros H R X. pose proof H as [S N Z B].
  destruct (append_ok c v l [x] H) as (v' & E & H' & L'); [cbn; lia|auto|].
  exists v'. split; auto. pose proof (push_move_eq c v x B l H R) as Em. split; [rewrite Em; exact E|].
  split; auto. unfold emplace_back. rewrite Em. unfold push_back. cbn [length] in E. rewrite E.
  cbn [vbind vret bind]. destruct (holds_looks c v' (l ++ [x]) H') as [_ _ _ _ _ LB].
  rewrite (LB x l eq_refl). reflexivity.
Qed.

Lemma append_self_ok v l : holds c v l -> length l + length l + tlen c <= length (buf v) ->
  exists v', append_self c v = vret v' /\ holds c v' (l ++ l).
Proof.
  intros H R. pose proof H as [S N Z B]. pose proof (shape_len c v l S) as L.
  assert (forall v', grow c v (length l) = vret (length l, v') ->
            exists n, size c v' = Ok n /\ length l <= n /\ n < smod c) as HS.
  { intros v' G. unfold grow in G. rewrite (size_ok _ _ _ H) in G. cbn [vbind lift vret bind] in G.
    rewrite wrap_ok in G by lia. rewrite ensure_cap_ok in G by (auto; lia). cbn [vbind lift vret bind] in G.
    unfold set_size, size, shape, term, nz, zero_ok, tlen, term in *.
    destruct (kind c) as [|z is0] eqn:K.
    - cbn [vbind lift vret bind] in G. injection G as <-. cbn [msize]. exists (length l + length l). split; auto. lia.
    - cbn [length] in *. rewrite wr_ok in G by lia. cbn [vbind lift vret bind] in G. injection G as <-. cbn [buf].
      exists (length l). split; [|lia]. destruct S as (rest & Eb & _).
      rewrite Eb. rewrite upd_app_r by lia.
      assert (exists r, upd ([z] ++ rest) (length l + length l - length l) z = z :: r) as (r & ->).
      { cbn [app]. destruct (length l + length l - length l); cbn [upd]; eauto. }
      rewrite strlen_ok by auto. cbn [bind]. rewrite wrap_ok by lia. reflexivity. }
  unfold append_self. rewrite (size_ok _ _ _ H). cbn [vbind lift vret bind].
  destruct (grow_ok c v l (length l) H R) as (v' & mid & E & Lm & L' & S').
  rewrite E. cbn [vbind vret bind]. destruct (HS v' E) as (n & Hn & Hge & Hlt).
  pose proof S' as (rest & Eb & M).
  assert (copy_to c v' (length l) 0 = Ok (l, length l)) as ->.
  { unfold copy_to. rewrite Hn. cbn [bind]. rewrite add_ok by lia. cbn [Nat.add].
    destruct (Nat.ltb_spec n (length l)); [lia|]. unfold read_n. cbn [Nat.add skipn].
    destruct (Nat.leb_spec (length l) (length (buf v'))); [|lia]. cbn [bind].
    rewrite Eb, <- app_assoc, firstn_app_exact by auto. reflexivity. }
  cbn [vbind lift vret bind]. rewrite Eb, <- app_assoc. rewrite copy_in_ok by auto. cbn [vbind lift vret bind].
  eexists; split; [reflexivity|].
  apply (holds_arr c v' (l ++ mid)); auto; try (rewrite L'; auto).
  - rewrite !app_length. lia.
  - apply Forall_app; auto.
  - intros rest' E'. rewrite Eb in E'. apply app_inv_head in E'. apply app_inv_head in E'. subst.
    now rewrite <- app_assoc.
Qed.

Lemma resize_up_nul v l n z is0 : kind c = NulTerm z is0 -> holds c v l -> length l < n -> n + 1 <= length (buf v) ->
  exists v', resize c v n = vret (true, v') /\ holds c v' l.
Proof.
  intros K H Hn Hb. pose proof H as [S N Z B]. unfold resize.
  destruct (ensure_size_ok c v n B) as (v' & E & L & S').
  { unfold tlen, term. rewrite K. cbn. lia. }
  exists v'. split; auto. split; auto; [|rewrite L; auto].
  destruct S as (rest & Eb & M). destruct S' as (rest' & Eb' & M').
  unfold shape, term in *. rewrite K in *.
  exists (skipn (Datatypes.S (length l)) (buf v')). split; [|discriminate].
  rewrite <- (firstn_skipn (Datatypes.S (length l)) (buf v')) at 1.
  rewrite (app_assoc l [z]). f_equal.
  rewrite Eb', firstn_app. rewrite firstn_firstn. rewrite Nat.min_l by lia.
  rewrite firstn_length, Nat.min_l by lia. replace (Datatypes.S (length l) - n) with 0 by lia. rewrite firstn_O.
  rewrite app_nil_r. rewrite Eb. rewrite app_assoc. apply firstn_app_exact. rewrite app_length. cbn. lia.
Qed.

Lemma size_wraps v l z is0 rest : kind c = NulTerm z is0 -> buf v = l ++ z :: rest ->
  Forall (fun x => is0 x = false) l -> is0 z = true -> size c v = Ok (length l mod smod c).
Proof. intros K E F Z. unfold size. rewrite K, E, strlen_ok by auto. reflexivity. Qed.

(* inserting a container into itself *)
Lemma copy_overlap (l : list A) : forall n (m : list A) s d, s < d -> d + n <= length m ->
  exists m', copy_n m s n d = Ok (m', d + n) /\ length m' = length m /\
    (forall i, i < d \/ d + n <= i -> nth_error m' i = nth_error m i) /\
    (forall i, i < n -> nth_error m' (d + i) = nth_error m' (s + i)).
Proof.
  induction n as [|n IH]; intros m s d Hsd Hb.
  - exists m. cbn. rewrite Nat.add_0_r. repeat split; auto; lia.
  - cbn [copy_n]. destruct (rd_lt m s) as (x & Hx & ->); [lia|]. cbn [bind]. rewrite wr_ok by lia. cbn [bind].
    destruct (IH (upd m d x) (S s) (S d)) as (m' & E & L & O & I); [lia|rewrite upd_length; lia|].
    exists m'. rewrite E. replace (S d + n) with (d + S n) by lia. rewrite upd_length in L. split; auto. split; auto.
    split.
    + intros i Hi. rewrite O by lia. apply nth_error_upd_neq. lia.
    + intros [|i] Hi.
      * rewrite !Nat.add_0_r. rewrite !O by lia. rewrite nth_error_upd_eq by lia.
        rewrite nth_error_upd_neq by lia. auto.
      * specialize (I i). rewrite <- !plus_n_Sm. apply I. lia.
Qed.
End Over.

Lemma mod_sub i p : 0 < p -> p <= i -> (i - p) mod p = i mod p.
Proof. intros. replace i with ((i - p) + 1 * p) at 2 by lia. now rewrite Nat.mod_add by lia. Qed.

Lemma insert_self_ok {A} (c : cfg A) v l pos : holds c v l -> 0 < pos < length l ->
  length l + length l + tlen c <= length (buf v) ->
  exists v' l', insert_self c v pos = vret v' /\ holds c v' l' /\ length l' = length l + length l /\
    (forall i, i < pos -> nth_error l' i = nth_error l i) /\
    (forall i, i < length l -> nth_error l' (pos + i) = nth_error l (i mod pos)) /\
    (forall i, pos <= i < length l -> nth_error l' (length l + i) = nth_error l i).
Proof.
  intros H Hp R. pose proof H as [S N Z B]. pose proof (shape_len c v l S) as L.
  unfold insert_self. rewrite (size_ok _ _ _ H). cbn [vbind lift vret bind]. rewrite wrap_ok by lia.
  destruct (ensure_size_ok c v (length l + length l) B) as (v1 & E & L1 & S1); [lia|].
  rewrite E. cbn [vbind lift vret bind].
  destruct S as (rest0 & Eb0 & M0). rewrite Eb0, firstn_app in S1.
  rewrite (firstn_all2 l) in S1 by lia. replace (length l + length l - length l) with (length l) in S1 by lia.
  set (mid := firstn (length l) (term c ++ rest0)) in *.
  assert (length mid = length l) as Lm.
  { unfold mid. rewrite firstn_length. unfold tlen in R. rewrite Eb0, !app_length in R. rewrite app_length. lia. }
  pose proof S1 as (rest & Eb & M). rewrite Eb.
  destruct (firstn_skipn_len l pos) as [La Lb]; [lia|].
  set (a := firstn pos l) in *. set (b := skipn pos l) in *.
  assert (l = a ++ b) as El by (unfold a, b; now rewrite firstn_skipn).
  destruct (copy_backward_app a b mid (term c ++ rest)) as (mid' & Lm' & Ec).
  replace (length a + length b) with (length l) in Ec by lia. rewrite La, Lm in Ec.
  replace ((l ++ mid) ++ term c ++ rest) with (a ++ b ++ mid ++ term c ++ rest)
    by (rewrite El, <- !app_assoc; reflexivity).
  rewrite Ec. cbn [vbind lift vret bind].
  set (m := a ++ mid' ++ b ++ term c ++ rest) in *.
  assert (length m = length l + length l + length (term c ++ rest)) as LM.
  { unfold m. rewrite !app_length. lia. }
  unfold copy. rewrite range_len_ok by lia. cbn [bind]. rewrite Nat.sub_0_r.
  destruct (copy_overlap l (length l) m 0 pos) as (m' & E' & L' & O & I); [lia|lia|].
  rewrite E'. cbn [vbind lift vret bind].
  set (l' := firstn (length l + length l) m').
  assert (length l' = length l + length l) as Ll' by (unfold l'; rewrite firstn_length; lia).
  assert (skipn (length l + length l) m' = term c ++ rest) as Esk.
  { apply list_ext. intros i. rewrite nth_error_skipn, O by lia. unfold m.
    rewrite !nth_error_app2 by lia. f_equal. lia. }
  assert (m' = l' ++ term c ++ rest) as Em'.
  { rewrite <- Esk. unfold l'. now rewrite firstn_skipn. }
  assert (forall i, i < length l + length l -> nth_error l' i = nth_error m' i) as Hl'.
  { intros i Hi. rewrite Em'. now rewrite nth_error_app1 by lia. }
  assert (forall i, i < pos -> nth_error m' i = nth_error l i) as P1.
  { intros i Hi. rewrite O by lia. unfold m. rewrite El. rewrite !nth_error_app1 by lia. reflexivity. }
  assert (forall i, i < length l -> nth_error m' (pos + i) = nth_error l (i mod pos)) as P2.
  { intros i. induction i as [i IH] using lt_wf_ind. intros Hi. rewrite I by auto. cbn [Nat.add].
    destruct (Nat.lt_ge_cases i pos) as [Hlt|Hge].
    - rewrite P1 by auto. now rewrite Nat.mod_small by auto.
    - replace i with (pos + (i - pos)) at 1 by lia. rewrite IH by lia. f_equal. apply mod_sub; lia. }
  assert (forall i, pos <= i < length l -> nth_error m' (length l + i) = nth_error l i) as P3.
  { intros i Hi. rewrite O by lia. unfold m. rewrite !nth_error_app2 by lia.
    rewrite nth_error_app1 by lia. transitivity (nth_error (a ++ b) i); [|now rewrite <- El].
    rewrite nth_error_app2 by lia. f_equal. lia. }
  exists (Arr m' (msize v1)), l'. split; [reflexivity|]. split; [|split; [auto|]].
  - apply (holds_arr c v1 (l ++ mid)); auto.
    + rewrite L1. auto.
    + rewrite app_length. lia.
    + apply Forall_forall. intros x Hx. apply In_nth_error in Hx. destruct Hx as (i & Hi).
      assert (i < length l + length l) as Hlt. { rewrite <- Ll'. apply nth_error_Some. congruence. }
      rewrite Hl' in Hi by auto. rewrite Forall_forall in N.
      destruct (Nat.lt_ge_cases i pos) as [H1|H1]; [|destruct (Nat.lt_ge_cases i (pos + length l)) as [H2|H2]].
      * apply N. rewrite P1 in Hi by auto. eapply nth_error_In; eauto.
      * apply N. replace i with (pos + (i - pos)) in Hi by lia. rewrite P2 in Hi by lia. eapply nth_error_In; eauto.
      * apply N. replace i with (length l + (i - length l)) in Hi by lia. rewrite P3 in Hi by lia. eapply nth_error_In; eauto.
    + intros rest' Er. rewrite Eb in Er. apply app_inv_head in Er. apply app_inv_head in Er. rewrite <- Er. exact Em'.
  - split; [|split]; intros i Hi; rewrite Hl' by lia; auto.
Qed.

(* two containers *)
Lemma append_arr_ok {A} (c c2 : cfg A) v v2 l l2 : holds c v l -> holds c2 v2 l2 ->
  length l + length l2 + tlen c <= length (buf v) -> Forall (nz c) l2 ->
  exists v', append_arr c c2 v v2 = vret v' /\ holds c v' (l ++ l2) /\ length (buf v') = length (buf v).
Proof.
  intros H H2 R NX. pose proof H as [S N Z B]. pose proof H2 as [S2 N2 Z2 B2].
  pose proof (shape_len _ _ _ S2) as L2.
  unfold append_arr. rewrite (size_ok _ _ _ H2). cbn [vbind lift vret bind].
  rewrite (wrap_ok c) by lia. rewrite wrap_ok by lia.
  rewrite (copy_to_ok c2 v2 l2 (length l2) 0 H2 ltac:(lia) ltac:(right; lia)). cbn [skipn].
  rewrite firstn_all, Nat.sub_0_r, Nat.min_id.
  destruct (append_ok c v l l2 H R NX) as (v' & E & H' & L'). unfold append in E. eauto.
Qed.

Lemma assign_arr_ok {A} (c c2 : cfg A) v v2 l l2 : holds c v l -> holds c2 v2 l2 ->
  length l2 + tlen c <= length (buf v) -> Forall (nz c) l2 ->
  exists v', assign_arr c c2 v v2 = vret v' /\ holds c v' l2 /\ length (buf v') = length (buf v).
Proof.
  intros H H2 R NX. pose proof H as [S N Z B]. pose proof H2 as [S2 N2 Z2 B2].
  pose proof (shape_len _ _ _ S2) as L2.
  unfold assign_arr. rewrite (size_ok _ _ _ H2). cbn [vbind lift vret bind].
  rewrite (wrap_ok c) by lia. rewrite wrap_ok by lia.
  rewrite (copy_to_ok c2 v2 l2 (length l2) 0 H2 ltac:(lia) ltac:(right; lia)). cbn [skipn].
  rewrite firstn_all, Nat.sub_0_r, Nat.min_id.
  destruct (assign_ok c v l l2 H R NX) as (v' & E & H' & L'). unfold assign in E. eauto.
Qed.

(* erase on elements wider than a byte *)
Lemma concat_chunk {A} w : forall k (b : list A), length b = k * w -> concat (chunk w k b) = b.
Proof.
  induction k as [|k IH]; intros b H; cbn [chunk concat].
  - destruct b; [auto|discriminate].
  - rewrite IH by (rewrite skipn_length; cbn in H; lia). apply firstn_skipn.
Qed.

Lemma chunk_length {A} w : forall k (b : list A), length (chunk w k b) = k.
Proof. induction k; intros; cbn; auto. Qed.

Lemma erase_bytes sm na nd w v l i :
  holds (vec_cfg sm na nd w) v l -> Forall (fun x => length x = w) (buf v) -> 1 <= w -> i < length l ->
  exists v' l', erase (vec_cfg sm na nd w) v i = vret (i, v') /\
    iterate (vec_cfg sm na nd w) v' = Ok l' /\
    concat l' = firstn ((length l - 1) * w)
      (let n := length l - (i + 1) in let b := concat l in
       firstn (i * w) b ++ firstn n (skipn ((i + 1) * w) b) ++ skipn (i * w + n) b).
Proof.
  intros H F W Hi. set (c := vec_cfg sm na nd w) in *. pose proof H as [S _ _ B]. pose proof (shape_len _ _ _ S) as L.
  destruct S as (rest & Eb & M). specialize (M eq_refl). cbn [app term kind c vec_cfg] in Eb.
  unfold erase, raw_erase. rewrite (size_ok _ _ _ H). cbn [vbind lift vret bind kind c vec_cfg].
  unfold set_size. cbn [kind c vec_cfg vbind lift vret bind buf msize].
  fold c. rewrite add_ok by lia. rewrite !sub_ok by lia.
  assert (exists m', memmove_bytes w (buf v) i (i + 1) (length l - (i + 1)) = Ok m' /\
     length m' = length (buf v) /\
     concat (firstn (length l - 1) m') = firstn ((length l - 1) * w)
      (let n := length l - (i + 1) in let b := concat l in
       firstn (i * w) b ++ firstn n (skipn ((i + 1) * w) b) ++ skipn (i * w + n) b)) as (m' & EM & Lm & CM).
  { unfold memmove_bytes. set (n := length l - (i + 1)).
    pose proof (concat_length_w w _ F) as CL.
    assert (Forall (fun x => length x = w) l) as Fl. { rewrite Eb in F. apply Forall_app in F. tauto. }
    pose proof (concat_length_w w _ Fl) as CLl.
    assert ((i + 1) * w + n <= length l * w) as Hn.
    { unfold n. rewrite <- (Nat.mul_1_r (length l - (i + 1))).
      assert ((length l - (i + 1)) * 1 <= (length l - (i + 1)) * w) by (apply Nat.mul_le_mono_l; lia).
      assert ((i + 1) * w + (length l - (i + 1)) * w = length l * w) by (rewrite <- Nat.mul_add_distr_r; f_equal; lia).
      lia. }
    assert (length l * w <= length (buf v) * w) as HB by (apply Nat.mul_le_mono_r; cbn in L; lia).
    assert (i * w <= (i + 1) * w) as Hiw by (apply Nat.mul_le_mono_r; lia).
    unfold memmove1. rewrite CL.
    destruct (Nat.leb_spec (i * w + n) (length (buf v) * w)) as [_|]; [|lia].
    destruct (Nat.leb_spec ((i + 1) * w + n) (length (buf v) * w)) as [_|]; [|lia].
    cbn [andb bind]. eexists. split; [reflexivity|]. split; [apply chunk_length|].
    set (bb := firstn (i * w) (concat (buf v)) ++ firstn n (skipn ((i + 1) * w) (concat (buf v))) ++ skipn (i * w + n) (concat (buf v))).
    assert (length bb = length (buf v) * w) as Lbb.
    { unfold bb. rewrite !app_length, !firstn_length, !skipn_length. lia. }
    rewrite <- (concat_firstn w) by (apply chunk_width; lia).
    rewrite concat_chunk by lia.
    assert (bb = (firstn (i * w) (concat l) ++ firstn n (skipn ((i + 1) * w) (concat l)) ++ skipn (i * w + n) (concat l)) ++ concat rest) as ->.
    { unfold bb. rewrite Eb, concat_app.
      rewrite firstn_app. replace (i * w - length (concat l)) with 0 by lia. rewrite firstn_O, app_nil_r.
      rewrite (skipn_app ((i + 1) * w)). replace ((i + 1) * w - length (concat l)) with 0 by lia. rewrite skipn_O.
      rewrite (firstn_app n). replace (n - length (skipn ((i + 1) * w) (concat l))) with 0 by (rewrite skipn_length; lia).
      rewrite firstn_O, app_nil_r.
      rewrite (skipn_app (i * w + n)). replace (i * w + n - length (concat l)) with 0 by lia. rewrite skipn_O.
      rewrite <- !app_assoc. reflexivity. }
    rewrite firstn_app.
    replace ((length l - 1) * w - length (firstn (i * w) (concat l) ++ firstn n (skipn ((i + 1) * w) (concat l)) ++ skipn (i * w + n) (concat l))) with 0.
    { rewrite firstn_O, app_nil_r. reflexivity. }
    rewrite !app_length, !firstn_length, !skipn_length.
    assert ((length l - 1) * w <= length l * w) by (apply Nat.mul_le_mono_r; lia). lia. }
  assert ((if na then if Nat.leb (i + 1) (length l) then memmove_bytes w (buf v) i (i + 1) (length l - (i + 1)) else UB
          else memmove_bytes w (buf v) i (i + 1) (length l - (i + 1)))
          = memmove_bytes w (buf v) i (i + 1) (length l - (i + 1))) as Eif.
  { destruct na; auto. destruct (Nat.leb_spec (i + 1) (length l)); auto; lia. }
  cbn [narrow c vec_cfg mm]. rewrite Eif, EM. cbn [vbind lift vret bind].
  exists (Arr m' (length l - 1)), (firstn (length l - 1) m'). split; [reflexivity|]. split; auto.
  unfold iterate, size. cbn [kind c vec_cfg bind msize buf]. unfold read_n. cbn [Nat.add].
  destruct (Nat.leb_spec (length l - 1) (length m')); [|cbn in L; lia]. reflexivity.
Qed.

Lemma vec_run_width sm na nd w N : forall os v l l2 v2, Forall (fun x => length x = w) (buf v) ->
  vrun N (vec_ok w) l os l2 -> run (vec_cfg sm na nd w) v os = Ok (Go v2) -> Forall (fun x => length x = w) (buf v2).
Proof.
  induction os as [|o os IH]; intros v l l2 v2 F R E; inversion R; subst; cbn [run] in E.
  - unfold vret in E. injection E as <-. auto.
  - apply vbind_inv in E. destruct E as (v1 & E1 & E2). eapply IH; [|eassumption|eassumption].
    eapply (step_keep (fun x => length x = w) (vec_cfg sm na nd w)); [reflexivity| |exact E1|exact F|].
    + intros m d s n m' Em Fm. exact (memmove_bytes_keep w m d s n m' Em Fm).
    + eapply vec_input; eauto.
Qed.

Lemma vec_after_width sm na nd w N os l v : vec_after sm na nd w N os l v -> Forall (fun x => length x = w) (buf v).
Proof.
  intros (HN & b & v0 & Hb & F & E0 & R & E). eapply vec_run_width; [|exact R|exact E].
  unfold init, set_size in E0. cbn in E0. injection E0 as <-. auto.
Qed.

(* ---- the statements of Properties_Dyn.v ---- *)
Lemma vec_history sm na nd w N b os l : N < sm -> length b = N -> Forall (fun x => length x = w) b ->
  vrun N (vec_ok w) [] os l ->
  exists v0 v, init (vec_cfg sm na nd w) b = Ok v0 /\ run (vec_cfg sm na nd w) v0 os = Ok (Go v) /\
    looks_like (vec_cfg sm na nd w) v l /\ length (buf v) = N.
Proof.
  intros HN Hb F R. destruct (vec_run sm na nd w N b os l HN Hb F R) as (v0 & v & E0 & E & H & L).
  exists v0, v. split; auto. split; auto. split; auto. now apply holds_looks.
Qed.
Lemma str_history sm na nd nul N b os l : N < sm -> length b = N -> (nul = true -> 1 <= N) ->
  vrun (room nul N) (str_ok nul) [] os l ->
  exists v0 v, init (str_cfg sm na nd nul) b = Ok v0 /\ run (str_cfg sm na nd nul) v0 os = Ok (Go v) /\
    looks_like (str_cfg sm na nd nul) v l /\ length (buf v) = N.
Proof.
  intros HN Hb H1 R. destruct (str_run sm na nd nul N b os l HN Hb H1 R) as (v0 & v & E0 & E & H & L).
  exists v0, v. split; auto. split; auto. split; auto. now apply holds_looks.
Qed.

Lemma vec_emplace sm na nd w N os l v x : vec_after sm na nd w N os l v -> length l < N ->
  exists v', push_back (vec_cfg sm na nd w) v x = Ok (Go v') /\ push_back_move (vec_cfg sm na nd w) v x = Ok (Go v') /\
    emplace_back (vec_cfg sm na nd w) v x = Ok (Go (x, v')) /\ looks_like (vec_cfg sm na nd w) v' (l ++ [x]).
Proof.
  intros H Hl. destruct (vec_after_holds _ _ _ _ _ _ _ _ H) as [HH L].
  destruct (emplace_ok (vec_cfg sm na nd w) v l x HH) as (v' & E1 & E2 & E3 & H'); [cbn; lia|exact I|].
  exists v'. split; auto. split; auto. split; auto. now apply holds_looks.
Qed.

Lemma vec_erase_bytes sm na nd w N os l v i : vec_after sm na nd w N os l v -> 1 <= w -> i < length l ->
  exists v' l', erase (vec_cfg sm na nd w) v i = Ok (Go (i, v')) /\
    iterate (vec_cfg sm na nd w) v' = Ok l' /\
    concat l' = firstn ((length l - 1) * w)
      (let n := length l - (i + 1) in let b := concat l in
       firstn (i * w) b ++ firstn n (skipn ((i + 1) * w) b) ++ skipn (i * w + n) b).
Proof.
  intros H W Hi. pose proof (vec_after_width _ _ _ _ _ _ _ _ H) as F.
  destruct (vec_after_holds _ _ _ _ _ _ _ _ H) as [HH L]. now apply erase_bytes.
Qed.

Lemma vec_erase_two sm na nd w N os x a y b v : vec_after sm na nd w N os [x :: a; y :: b] v -> a <> b ->
  exists v' l', erase (vec_cfg sm na nd w) v 0 = Ok (Go (0, v')) /\
    iterate (vec_cfg sm na nd w) v' = Ok l' /\ l' <> [y :: b].
Proof.
  intros H Hab. pose proof (vec_after_width _ _ _ _ _ _ _ _ H) as F.
  destruct (vec_after_holds _ _ _ _ _ _ _ _ H) as [[S _ _ _] L].
  assert (Forall (fun e => length e = w) [x :: a; y :: b]) as Fl.
  { destruct S as (rest & Eb & _). rewrite Eb in F. apply Forall_app in F. tauto. }
  inversion Fl as [|? ? W1 F2]; subst. inversion F2 as [|? ? W2 _]; subst. cbn [length] in *.
  destruct (vec_erase_bytes _ _ _ _ _ _ _ v 0 H) as (v' & l' & E & EI & EC); [lia|cbn; lia|].
  exists v', l'. split; auto. split; auto. intros ->. apply Hab. clear E EI.
  assert (length b = length a) as Lab by lia.
  set (w := Datatypes.S (length a)) in *. cbn [concat length app Nat.sub Nat.add] in EC. rewrite !app_nil_r in EC.
  unfold w in EC. cbn [Nat.mul Nat.add] in EC. rewrite Nat.add_0_r in EC.
  cbn [firstn skipn app] in EC.
  rewrite skipn_app_exact in EC by auto. cbn [firstn app] in EC.
  injection EC as EC. rewrite firstn_app, <- Lab in EC. rewrite Lab in EC. rewrite firstn_all2 in EC by lia.
  rewrite Nat.sub_diag in EC. cbn in EC. rewrite app_nil_r in EC. congruence.
Qed.

Lemma vec_resize_grow sm na nd w b v0 n : length b < sm -> n <= length b ->
  init (vec_cfg sm na nd w) b = Ok v0 ->
  exists v, resize (vec_cfg sm na nd w) v0 n = Ok (Go (true, v)) /\ iterate (vec_cfg sm na nd w) v = Ok (firstn n b).
Proof.
  intros HN Hn E0. unfold init, set_size in E0. cbn in E0. injection E0 as <-.
  unfold resize, ensure_total_size. rewrite ensure_cap_ok by auto. cbn [vbind lift vret bind].
  exists (Arr b n). split; [reflexivity|]. unfold iterate, size. cbn [kind vec_cfg bind msize buf].
  unfold read_n. cbn [Nat.add skipn]. destruct (Nat.leb_spec n (length b)); [|lia]. reflexivity.
Qed.

Lemma str_resize_grow sm na nd N os l v n : str_after sm na nd true N os l v -> length l < n -> n < N ->
  exists v', resize (str_cfg sm na nd true) v n = Ok (Go (true, v')) /\ looks_like (str_cfg sm na nd true) v' l.
Proof.
  intros H H1 H2. destruct (str_after_holds _ _ _ _ _ _ _ _ H) as [HH L].
  destruct (resize_up_nul (str_cfg sm na nd true) v l n 0%Z (Z.eqb 0)) as (v' & E & H'); auto; [lia|].
  exists v'. split; auto. now apply holds_looks.
Qed.

Lemma vec_over sm na nd w N os l v o l1 : vec_after sm na nd w N os l v ->
  vstep l o = Some l1 -> N < length l1 -> length l1 < sm ->
  step (vec_cfg sm na nd w) v o = if nd then UB else Ok Assert.
Proof.
  intros H S H1 H2. destruct (vec_after_holds _ _ _ _ _ _ _ _ H) as [HH L].
  rewrite (step_over (vec_cfg sm na nd w) v l o l1) by (auto; cbn; lia). unfold over. cbn [nodebug vec_cfg].
  destruct nd; auto. rewrite L. destruct (Nat.ltb_spec N (length l1)); auto; lia.
Qed.
Lemma str_over sm na nd nul N os l v o l1 : str_after sm na nd nul N os l v ->
  vstep l o = Some l1 -> N < length l1 -> length l1 < sm ->
  step (str_cfg sm na nd nul) v o = if nd then UB else Ok Assert.
Proof.
  intros H S H1 H2. destruct (str_after_holds _ _ _ _ _ _ _ _ H) as [HH L].
  rewrite (step_over (str_cfg sm na nd nul) v l o l1) by (auto; rewrite ?str_tlen; cbn; lia). unfold over. cbn [nodebug str_cfg].
  destruct nd; auto. rewrite L. destruct (Nat.ltb_spec N (length l1)); auto; lia.
Qed.
Lemma str_exact sm na nd N os l v o l1 : str_after sm na nd true N os l v ->
  vstep l o = Some l1 -> length l1 = N -> step (str_cfg sm na nd true) v o = UB.
Proof.
  intros H S H1. pose proof H as [HN _]. destruct (str_after_holds _ _ _ _ _ _ _ _ H) as [HH L].
  rewrite (step_over (str_cfg sm na nd true) v l o l1) by (auto; rewrite ?str_tlen; cbn; lia). unfold over. cbn [nodebug str_cfg].
  destruct nd; auto. rewrite L, H1. now rewrite Nat.ltb_irrefl.
Qed.

Lemma vec_wrap sm na nd w N os l v xs : vec_after sm na nd w N os l v -> length xs < sm ->
  sm <= length l + length xs -> length l + length xs - sm <= N -> step (vec_cfg sm na nd w) v (Append xs) = UB.
Proof.
  intros H H1 H2 H3. destruct (vec_after_holds _ _ _ _ _ _ _ _ H) as [HH L].
  cbn [step]. rewrite wrap_ok by auto. apply (append_wrap _ v l); auto. cbn. lia.
Qed.
Lemma str_wrap sm na nd nul N os l v xs : str_after sm na nd nul N os l v -> length xs < sm ->
  sm <= length l + length xs -> length l + length xs - sm <= room nul N -> step (str_cfg sm na nd nul) v (Append xs) = UB.
Proof.
  intros H H1 H2 H3. destruct (str_after_holds _ _ _ _ _ _ _ _ H) as [HH L].
  pose proof (shape_len _ _ _ (h_shape _ _ _ HH)) as SL.
  cbn [step]. rewrite wrap_ok by auto. apply (append_wrap _ v l); auto. cbn [smod str_cfg].
  rewrite str_tlen in *. unfold room in *. destruct nul; lia.
Qed.


Lemma str_room sm na nd nul N os l v (l1 : list Z) : str_after sm na nd nul N os l v -> length l1 <= room nul N ->
  length l1 + tlen (str_cfg sm na nd nul) <= length (buf v).
Proof.
  intros H R. destruct (str_after_holds _ _ _ _ _ _ _ _ H) as [HH L].
  pose proof (shape_len _ _ _ (h_shape _ _ _ HH)) as SL.
  rewrite str_tlen in *. unfold room in *. destruct nul; lia.
Qed.

Lemma str_append sm na nd nul N os l v xs n : str_after sm na nd nul N os l v -> n <= length xs ->
  fits nul N (l ++ firstn n xs) ->
  exists v', append (str_cfg sm na nd nul) v xs n = Ok (Go v') /\ looks_like (str_cfg sm na nd nul) v' (l ++ firstn n xs).
Proof.
  intros H Hn [HR HZ]. pose proof (str_room _ _ _ _ _ _ _ _ _ H HR) as R.
  destruct (str_after_holds _ _ _ _ _ _ _ _ H) as [HH L].
  assert (append (str_cfg sm na nd nul) v xs n = append (str_cfg sm na nd nul) v (firstn n xs) (length (firstn n xs))) as ->.
  { unfold append. rewrite firstn_length, Nat.min_l by auto.
    destruct (grow (str_cfg sm na nd nul) v n) as [[[s v']|]| |]; cbn [vbind bind]; auto.
    rewrite copy_in_firstn by auto. reflexivity. }
  destruct (append_ok (str_cfg sm na nd nul) v l (firstn n xs) HH) as (v' & E & H' & _).
  - rewrite app_length in R. lia.
  - apply str_nz. intros K K2. apply (HZ K). apply in_or_app. auto.
  - exists v'. split; auto. now apply holds_looks.
Qed.

Lemma str_append_arr sm na nd nul N os l v sm2 na2 nd2 nul2 N2 os2 l2 v2 :
  str_after sm na nd nul N os l v -> str_after sm2 na2 nd2 nul2 N2 os2 l2 v2 -> fits nul N (l ++ l2) ->
  exists v', append_arr (str_cfg sm na nd nul) (str_cfg sm2 na2 nd2 nul2) v v2 = Ok (Go v') /\
    looks_like (str_cfg sm na nd nul) v' (l ++ l2).
Proof.
  intros H H2 [HR HZ]. pose proof (str_room _ _ _ _ _ _ _ _ _ H HR) as R.
  destruct (str_after_holds _ _ _ _ _ _ _ _ H) as [HH L]. destruct (str_after_holds _ _ _ _ _ _ _ _ H2) as [HH2 L2].
  destruct (append_arr_ok _ _ v v2 l l2 HH HH2) as (v' & E & H' & _).
  - rewrite app_length in R. lia.
  - apply str_nz. intros K K2. apply (HZ K). apply in_or_app. auto.
  - exists v'. split; auto. now apply holds_looks.
Qed.
Lemma str_assign_arr sm na nd nul N os l v sm2 na2 nd2 nul2 N2 os2 l2 v2 :
  str_after sm na nd nul N os l v -> str_after sm2 na2 nd2 nul2 N2 os2 l2 v2 -> fits nul N l2 ->
  exists v', assign_arr (str_cfg sm na nd nul) (str_cfg sm2 na2 nd2 nul2) v v2 = Ok (Go v') /\
    looks_like (str_cfg sm na nd nul) v' l2.
Proof.
  intros H H2 [HR HZ]. pose proof (str_room _ _ _ _ _ _ _ _ _ H HR) as R.
  destruct (str_after_holds _ _ _ _ _ _ _ _ H) as [HH L]. destruct (str_after_holds _ _ _ _ _ _ _ _ H2) as [HH2 L2].
  destruct (assign_arr_ok _ _ v v2 l l2 HH HH2) as (v' & E & H' & _); [lia|now apply str_nz|].
  exists v'. split; auto. now apply holds_looks.
Qed.
Lemma str_append_self sm na nd nul N os l v : str_after sm na nd nul N os l v -> fits nul N (l ++ l) ->
  exists v', append_self (str_cfg sm na nd nul) v = Ok (Go v') /\ looks_like (str_cfg sm na nd nul) v' (l ++ l).
Proof.
  intros H [HR HZ]. pose proof (str_room _ _ _ _ _ _ _ _ _ H HR) as R.
  destruct (str_after_holds _ _ _ _ _ _ _ _ H) as [HH L].
  destruct (append_self_ok _ v l HH) as (v' & E & H').
  - rewrite app_length in R. lia.
  - exists v'. split; auto. now apply holds_looks.
Qed.
Lemma str_append_fill sm na nd nul N os l v n x : str_after sm na nd nul N os l v -> fits nul N (l ++ repeat x n) ->
  exists v', append_fill (str_cfg sm na nd nul) v n x = Ok (Go v') /\
    looks_like (str_cfg sm na nd nul) v' (l ++ repeat x n).
Proof.
  intros H [HR HZ]. pose proof (str_room _ _ _ _ _ _ _ _ _ H HR) as R.
  destruct (str_after_holds _ _ _ _ _ _ _ _ H) as [HH L].
  destruct n as [|n].
  - exists v. cbn [append_fill repeat]. rewrite app_nil_r. split; auto. now apply holds_looks.
  - destruct (append_fill_ok (str_cfg sm na nd nul) x) with (n := S n) (v := v) (l := l) as (v' & E & H' & _); auto.
    + assert (Forall (nz (str_cfg sm na nd nul)) [x]) as F.
      { apply str_nz. intros K [->|[]]. apply (HZ K). apply in_or_app. right. now left. }
      now inversion F.
    + rewrite app_length, repeat_length in R. lia.
    + exists v'. split; auto. now apply holds_looks.
Qed.
Lemma str_long_append sm na nd nul N os l v xs : str_after sm na nd nul N os l v -> sm <= length xs ->
  fits nul N (l ++ firstn (length xs mod sm) xs) ->
  exists v', step (str_cfg sm na nd nul) v (Append xs) = Ok (Go v') /\
    looks_like (str_cfg sm na nd nul) v' (l ++ firstn (length xs mod sm) xs).
Proof.
  intros H Hn HF. pose proof H as [HN _].
  assert (length xs mod sm < sm) by (apply Nat.mod_upper_bound; lia).
  apply (str_append sm na nd nul N os l v xs (length xs mod sm)); auto. lia.
Qed.

Lemma str_copy sm na nd nul N os l v count pos : str_after sm na nd nul N os l v -> pos <= length l ->
  na = true \/ pos + count < sm ->
  copy_to (str_cfg sm na nd nul) v count pos = Ok (firstn count (skipn pos l), Nat.min count (length l - pos)).
Proof. intros H Hp Ha. destruct (str_after_holds _ _ _ _ _ _ _ _ H) as [HH L]. now apply copy_to_ok. Qed.
Lemma str_copy_past sm na nd nul N os l v count pos : str_after sm na nd nul N os l v -> length l < pos -> pos < sm ->
  na = true \/ pos + count < sm -> copy_to (str_cfg sm na nd nul) v count pos = UB.
Proof. intros H Hp Hs Ha. destruct (str_after_holds _ _ _ _ _ _ _ _ H) as [HH L]. eapply copy_to_past; eauto. Qed.
Lemma str_copy_npos sm nd nul N os l v pos : str_after sm false nd nul N os l v -> 1 <= pos <= length l ->
  copy_to (str_cfg sm false nd nul) v (sm - 1) pos = UB.
Proof. intros H Hp. destruct (str_after_holds _ _ _ _ _ _ _ _ H) as [HH L]. eapply (copy_to_npos (str_cfg sm false nd nul)); eauto. Qed.

Lemma str_erase sm na nd nul N os l v i k : str_after sm na nd nul N os l v -> i <= length l ->
  exists v', string_erase (str_cfg sm na nd nul) v i k = Ok (Go v') /\
    looks_like (str_cfg sm na nd nul) v' (firstn i l ++ skipn (i + k) l).
Proof.
  intros H Hi. destruct (str_after_holds _ _ _ _ _ _ _ _ H) as [HH L].
  destruct (string_erase_ok (str_cfg sm na nd nul) v l i k eq_refl HH Hi) as (v' & E & H' & _).
  exists v'. split; auto. apply holds_looks.
  destruct (Nat.le_gt_cases k (length l - i)).
  - now rewrite Nat.min_l in H' by lia.
  - rewrite Nat.min_r in H' by lia. rewrite skipn_all2 in H' by lia. now rewrite (skipn_all2 l) by lia.
Qed.

Lemma str_insert_self sm na nd nul N os l v pos : str_after sm na nd nul N os l v -> 0 < pos < length l ->
  length l + length l <= room nul N ->
  exists v' l', insert_self (str_cfg sm na nd nul) v pos = Ok (Go v') /\
    looks_like (str_cfg sm na nd nul) v' l' /\ length l' = length l + length l /\
    (forall i, i < pos -> nth_error l' i = nth_error l i) /\
    (forall i, i < length l -> nth_error l' (pos + i) = nth_error l (i mod pos)) /\
    (forall i, pos <= i < length l -> nth_error l' (length l + i) = nth_error l i).
Proof.
  intros H Hp HR. pose proof (str_room _ _ _ _ _ _ _ _ (l ++ l) H) as R. rewrite app_length in R.
  destruct (str_after_holds _ _ _ _ _ _ _ _ H) as [HH L].
  destruct (insert_self_ok (str_cfg sm na nd nul) v l pos HH Hp) as (v' & l' & E & H' & Q); auto.
  exists v', l'. split; auto. split; auto. now apply holds_looks.
Qed.

Lemma str_size_wraps sm na nd l rest n : ~ In 0%Z l ->
  size (str_cfg sm na nd true) (Arr (l ++ 0%Z :: rest) n) = Ok (length l mod sm).
Proof.
  intros H. apply (size_wraps (str_cfg sm na nd true) _ l 0%Z (Z.eqb 0) rest); auto.
  apply Forall_forall. intros x Hx. apply Z.eqb_neq. intros <-. auto.
Qed.
