From Verif Require Import Base BaseLemmas SliceLemmas Algo_Model Algo_Spec Algo_Proofs Dyn_Spec Dyn_Model Dyn_View.
Local Open Scope res_scope.

Lemma wrap_ok {A} (c : cfg A) n : n < smod c -> wrap c n = n.
Proof. intros. unfold wrap. now apply Nat.mod_small. Qed.
Lemma add_ok {A} (c : cfg A) a b : a + b < smod c -> add c a b = a + b.
Proof. intros. unfold add. destruct (narrow c); auto. now apply wrap_ok. Qed.
Lemma sub_ok {A} (c : cfg A) a b : b <= a -> a < smod c -> sub c a b = a - b.
Proof.
  intros. unfold sub. rewrite (wrap_ok c b) by lia. unfold wrap.
  replace (a + (smod c - b)) with ((a - b) + 1 * smod c) by lia.
  rewrite Nat.mod_add by lia. apply Nat.mod_small. lia.
Qed.

Lemma skipn_app_exact {A} (l r : list A) n : n = length l -> skipn n (l ++ r) = r.
Proof. intros ->. rewrite skipn_app, skipn_all, Nat.sub_diag. reflexivity. Qed.
Lemma firstn_app_exact {A} (l r : list A) n : n = length l -> firstn n (l ++ r) = l.
Proof. intros ->. rewrite firstn_app, firstn_all, Nat.sub_diag. simpl. apply app_nil_r. Qed.

Section Dyn.
Context {A : Type} (c : cfg A).

(* the terminator *)
Definition term : list A := match kind c with Explicit => [] | NulTerm z _ => [z] end.
Definition nz (x : A) : Prop := match kind c with Explicit => True | NulTerm _ is0 => is0 x = false end.

(* the buffer starts with l and the terminator *)
Definition shape (v : arr A) (l : list A) : Prop :=
  exists rest, buf v = l ++ term ++ rest /\ (kind c = Explicit -> msize v = length l).
Definition zero_ok : Prop := match kind c with Explicit => True | NulTerm z is0 => is0 z = true end.
(* invariant: v holds l *)
Record holds (v : arr A) (l : list A) : Prop := Holds {
  h_shape : shape v l;
  h_nz : Forall nz l;
  h_zero : zero_ok;
  h_bound : length (buf v) < smod c }.

Definition tlen : nat := length term.

Lemma shape_len v l : shape v l -> length l + tlen <= length (buf v).
Proof. intros (rest & E & _). rewrite E, !app_length. unfold tlen. lia. Qed.

Lemma strlen_ok is0 (l : list A) z rest : Forall (fun x => is0 x = false) l -> is0 z = true ->
  strlen is0 (l ++ z :: rest) = Ok (length l).
Proof.
  induction l as [|x t IH]; intros F Z; simpl.
  - now rewrite Z.
  - inversion F; subst. rewrite H1. rewrite IH by auto. reflexivity.
Qed.

Lemma size_ok v l : holds v l -> size c v = Ok (length l).
Proof.
  intros [S N Z B]. pose proof (shape_len _ _ S) as L. destruct S as (rest & E & M).
  unfold size. unfold term, nz, zero_ok, tlen, term in *. destruct (kind c) as [|z is0].
  - now rewrite M.
  - rewrite E. cbn [app]. rewrite strlen_ok by auto. cbn [bind]. rewrite wrap_ok by (cbn in L; lia). reflexivity.
Qed.

(* giving the container another size, up to the room it has *)
Lemma set_size_ok v n :
  n + tlen <= length (buf v) ->
  exists v', set_size c v n = Ok v' /\ length (buf v') = length (buf v) /\ shape v' (firstn n (buf v)).
Proof.
  intros H. unfold set_size, shape, tlen, term in *. destruct (kind c) as [|z is0]; cbn [length] in H.
  - exists (Arr (buf v) n). split; [auto|]. split; [auto|]. exists (skipn n (buf v)). cbn [buf msize app].
    rewrite firstn_skipn, firstn_length. split; auto. intros _. lia.
  - rewrite wr_ok by lia. cbn [bind]. exists (Arr (upd (buf v) n z) (msize v)). split; [auto|].
    cbn [buf msize]. rewrite upd_length. split; auto. exists (skipn (S n) (buf v)).
    rewrite upd_split by lia. split; auto. discriminate.
Qed.

Lemma capacity_ok v : length (buf v) < smod c -> capacity c v = length (buf v).
Proof. intros. unfold capacity. now apply wrap_ok. Qed.

Lemma ensure_cap_ok v n : length (buf v) < smod c -> n <= length (buf v) ->
  ensure_total_capacity c v n = vret true.
Proof.
  intros B H. unfold ensure_total_capacity. rewrite capacity_ok by auto.
  destruct (Nat.ltb_spec (length (buf v)) n); auto; lia.
Qed.

Lemma ensure_size_ok v n : length (buf v) < smod c -> n + tlen <= length (buf v) ->
  exists v', ensure_total_size c v n = vret (true, v') /\ length (buf v') = length (buf v) /\
    shape v' (firstn n (buf v)).
Proof.
  intros B H. unfold ensure_total_size. rewrite ensure_cap_ok by (auto; lia).
  destruct (set_size_ok v n H) as (v' & E & L & S).
  cbn [vbind vret bind]. rewrite E. cbn [vbind vret lift bind]. eauto.
Qed.

Lemma grow_ok v l k : holds v l -> length l + k + tlen <= length (buf v) ->
  exists v' mid, grow c v k = vret (length l, v') /\ length mid = k /\
    length (buf v') = length (buf v) /\ shape v' (l ++ mid).
Proof.
  intros H R. pose proof H as [S N Z B]. unfold grow. rewrite (size_ok v l H).
  cbn [vbind lift vret bind]. rewrite wrap_ok by lia.
  rewrite ensure_cap_ok by (auto; lia). cbn [vbind lift vret bind].
  destruct (set_size_ok v (length l + k) R) as (v' & E & L & S').
  rewrite E. cbn [vbind lift vret bind].
  destruct S as (rest & Eb & M).
  rewrite Eb in S'. rewrite firstn_app in S'.
  rewrite (firstn_all2 l) in S' by lia. replace (length l + k - length l) with k in S' by lia.
  exists v', (firstn k (term ++ rest)). split; auto. split; auto.
  rewrite firstn_length. rewrite Eb, !app_length in R. rewrite app_length. lia.
Qed.

Lemma copy_in_ok (a mid t xs : list A) : length mid = length xs ->
  copy_in (a ++ mid ++ t) (length a) xs (length xs) = Ok (a ++ xs ++ t).
Proof.
  revert a mid. induction xs as [|x xs IH]; intros a [|y mid] H; simpl in *; try discriminate; auto.
  rewrite wr_ok by (rewrite app_length; simpl; lia). cbn [bind].
  rewrite upd_app_r by lia. rewrite Nat.sub_diag. cbn [upd app].
  specialize (IH (a ++ [x]) mid). rewrite app_length, <- !app_assoc in IH. cbn [length app] in IH.
  rewrite Nat.add_1_r in IH. apply IH. congruence.
Qed.

(* replacing the elements of the buffer before the terminator *)
Lemma holds_arr v l l' m :
  length (buf v) < smod c -> zero_ok -> shape v l -> length l' = length l -> Forall nz l' ->
  (forall rest, buf v = l ++ term ++ rest -> m = l' ++ term ++ rest) ->
  holds (Arr m (msize v)) l'.
Proof.
  intros B Z (rest & E & M) L N H. pose proof (H rest E) as Hm. split; auto.
  - exists rest. cbn [buf msize]. rewrite L. split; auto.
  - cbn [buf]. rewrite Hm, app_length, L, <- app_length, <- E. auto.
Qed.

Lemma append_ok v l xs :
  holds v l -> length l + length xs + tlen <= length (buf v) -> Forall nz xs ->
  exists v', append c v xs (length xs) = vret v' /\ holds v' (l ++ xs) /\ length (buf v') = length (buf v).
Proof.
  intros H R NX. unfold append.
  destruct (grow_ok v l (length xs) H R) as (v' & mid & E & Lm & L & S).
  rewrite E. cbn [vbind vret bind]. pose proof S as (rest & Eb & M).
  rewrite Eb, <- app_assoc, copy_in_ok by auto. cbn [vbind lift vret bind].
  eexists; split; [reflexivity|]. destruct H as [_ N Z B]. split.
  - apply (holds_arr v' (l ++ mid)); auto; try (rewrite L; auto).
    + rewrite !app_length. lia.
    + apply Forall_app; auto.
    + intros rest' E'. rewrite Eb in E'. rewrite <- !app_assoc in E'.
      apply app_inv_head in E'. apply app_inv_head in E'. now rewrite E', <- app_assoc.
  - cbn [buf]. rewrite <- L, Eb. rewrite !app_length. lia.
Qed.

Lemma push_move_eq v x : length (buf v) < smod c -> forall l, holds v l ->
  length l + 1 + tlen <= length (buf v) -> push_back_move c v x = push_back c v x.
Proof.
  intros B l H R. unfold push_back_move, push_back, append.
  destruct (grow_ok v l 1 H R) as (v' & mid & E & Lm & L & S). rewrite E.
  cbn [vbind vret bind copy_in]. destruct (wr (buf v') (length l) x); reflexivity.
Qed.

Lemma resize_down_ok v l n : holds v l -> n <= length l ->
  exists v', ensure_total_size c v n = vret (true, v') /\ holds v' (firstn n l) /\
     length (buf v') = length (buf v).
Proof.
  intros [S N Z B] H. pose proof (shape_len v l S) as L.
  destruct (ensure_size_ok v n B) as (v' & E & L' & S'); [lia|].
  exists v'. split; auto. split; auto.
  assert (firstn n (buf v) = firstn n l) as Ef.
  { destruct S as (rest & Eb & _). rewrite Eb, firstn_app. replace (n - length l) with 0 by lia.
    cbn [firstn]. apply app_nil_r. }
  rewrite Ef in S'. split; auto; [|now rewrite L'].
  apply Forall_forall. intros x Hx. rewrite Forall_forall in N. apply N.
  rewrite <- (firstn_skipn n l). apply in_or_app. auto.
Qed.

Lemma pop_ok v l x : holds v (l ++ [x]) ->
  exists v', pop_back c v = vret v' /\ holds v' l /\ length (buf v') = length (buf v).
Proof.
  intros H. pose proof H as [S N Z B]. pose proof (shape_len _ _ S) as L. rewrite app_length in L. cbn [length] in L.
  unfold pop_back. rewrite (size_ok _ _ H). cbn [vbind lift vret bind].
  rewrite app_length. cbn [length]. rewrite sub_ok by lia. replace (length l + 1 - 1) with (length l) by lia.
  destruct (rd_lt (buf v) (length l)) as (y & _ & ->); [lia|]. cbn [vbind lift vret bind].
  destruct (set_size_ok v (length l)) as (v' & E & L' & S'); [lia|]. rewrite E.
  exists v'. split; auto. split; auto.
  destruct S as (rest & Eb & _). rewrite Eb, <- app_assoc, firstn_app_exact in S' by auto.
  split; auto; [|now rewrite L']. apply Forall_app in N. tauto.
Qed.

Lemma copy_backward_app (a b mid t : list A) :
  exists mid', length mid' = length mid /\
    copy_backward (a ++ b ++ mid ++ t) (length a) (length a + length b) (length a + length b + length mid)
    = Ok (a ++ mid' ++ b ++ t, length a + length mid).
Proof.
  exists (firstn (length mid) (b ++ mid)). split; [rewrite firstn_length, app_length; lia|].
  destruct (copy_backward_spec (a ++ b ++ mid ++ t) (length a) (length a + length b)
             (length a + length b + length mid)) as (m' & E & L & G);
    try (rewrite ?app_length; lia).
  rewrite E. f_equal. f_equal; [|lia]. apply list_ext. intros i. rewrite G. clear G E L m'.
  replace (length a + length b - length a) with (length b) by lia.
  replace (length a + length b + length mid - length b) with (length a + length mid) by lia.
  destruct (Nat.ltb_spec i (length a)) as [H1|H1].
  { destruct (Nat.leb_spec (length a + length mid) i); [lia|]. cbn [andb].
    rewrite !nth_error_app1 by auto. reflexivity. }
  rewrite (nth_error_app2 a (firstn _ _ ++ _)) by auto.
  destruct (Nat.leb_spec (length a + length mid) i) as [H2|H2]; cbn [andb].
  - rewrite (nth_error_app2 (firstn _ _)) by (rewrite firstn_length, app_length; lia).
    rewrite firstn_length, app_length, Nat.min_l by lia.
    destruct (Nat.ltb_spec i (length a + length mid + length b)) as [H3|H3].
    + rewrite (nth_error_app1 b t) by lia.
      rewrite (nth_error_app2 a) by lia. rewrite nth_error_app1 by lia. f_equal. lia.
    + rewrite (nth_error_app2 b t) by lia.
      rewrite (nth_error_app2 a) by lia. rewrite nth_error_app2 by lia.
      rewrite nth_error_app2 by lia. f_equal. lia.
  - rewrite (nth_error_app1 (firstn _ _)) by (rewrite firstn_length, app_length; lia).
    rewrite nth_error_firstn. destruct (Nat.ltb_spec (i - length a) (length mid)); [|lia].
    rewrite nth_error_app2 by lia. rewrite app_assoc. rewrite nth_error_app1 by (rewrite app_length; lia). reflexivity.
Qed.

Lemma firstn_skipn_len {B} (l : list B) i : i <= length l -> length (firstn i l) = i /\ length (skipn i l) = length l - i.
Proof. intros. rewrite firstn_length, skipn_length. lia. Qed.

Lemma insert_range_ok v l i xs :
  holds v l -> i <= length l -> length l + length xs + tlen <= length (buf v) -> Forall nz xs ->
  exists v', insert_range c v i xs = vret v' /\ holds v' (firstn i l ++ xs ++ skipn i l) /\
    length (buf v') = length (buf v).
Proof.
  intros H Hi R NX. pose proof H as [S N Z B]. unfold insert_range. rewrite (size_ok _ _ H).
  cbn [vbind lift vret bind]. rewrite (wrap_ok c (length xs)) by lia. rewrite wrap_ok by lia.
  destruct (ensure_size_ok v (length l + length xs) B) as (v1 & E & L & S1); [lia|].
  rewrite E. cbn [vbind lift vret bind].
  destruct S as (rest0 & Eb0 & M0). rewrite Eb0, firstn_app in S1.
  rewrite (firstn_all2 l) in S1 by lia. replace (length l + length xs - length l) with (length xs) in S1 by lia.
  set (mid := firstn (length xs) (term ++ rest0)) in *.
  assert (length mid = length xs) as Lm.
  { unfold mid. rewrite firstn_length. unfold tlen in R. rewrite Eb0, !app_length in R. rewrite app_length. lia. }
  pose proof S1 as (rest & Eb & M). rewrite Eb.
  destruct (firstn_skipn_len l i Hi) as [La Lb].
  set (a := firstn i l) in *. set (b := skipn i l) in *.
  assert (l = a ++ b) as El by (unfold a, b; now rewrite firstn_skipn).
  destruct (copy_backward_app a b mid (term ++ rest)) as (mid' & Lm' & Ec).
  replace (length a + length b) with (length l) in Ec by lia. rewrite La, Lm in Ec.
  replace ((l ++ mid) ++ term ++ rest) with (a ++ b ++ mid ++ term ++ rest)
    by (rewrite El, <- !app_assoc; reflexivity).
  pose proof (copy_in_ok a mid' (b ++ term ++ rest) xs ltac:(lia)) as W. rewrite La in W.
  rewrite Ec. cbn [vbind lift vret bind]. rewrite W.
  cbn [vbind lift vret bind]. eexists; split; [reflexivity|]. split.
  - apply (holds_arr v1 (l ++ mid)); auto; try (rewrite L; auto).
    + rewrite !app_length. lia.
    + rewrite El in N. apply Forall_app in N. destruct N. rewrite !Forall_app. tauto.
    + intros rest' E'. rewrite Eb in E'. apply app_inv_head in E'. apply app_inv_head in E'. subst rest'.
      now rewrite <- !app_assoc.
  - cbn [buf]. rewrite <- L, Eb. rewrite !app_length. lia.
Qed.

Lemma insert_move_ok v l i x :
  holds v l -> i <= length l -> length l + 1 + tlen <= length (buf v) -> nz x ->
  exists v', insert_move c v i x = vret v' /\ holds v' (firstn i l ++ x :: skipn i l) /\
    length (buf v') = length (buf v).
Proof.
  intros H Hi R NX. pose proof H as [S N Z B]. unfold insert_move. rewrite (size_ok _ _ H).
  cbn [vbind lift vret bind]. rewrite (wrap_ok c (length l + 1)) by lia.
  destruct (grow_ok v l 1 H R) as (v1 & mid & E & Lm & L & S1).
  rewrite E. cbn [vbind lift vret bind].
  pose proof S1 as (rest & Eb & M). rewrite Eb.
  destruct (firstn_skipn_len l i Hi) as [La Lb].
  set (a := firstn i l) in *. set (b := skipn i l) in *.
  assert (l = a ++ b) as El by (unfold a, b; now rewrite firstn_skipn).
  destruct (copy_backward_app a b mid (term ++ rest)) as (mid' & Lm' & Ec).
  replace (length l + 1 - 1) with (length l) by lia.
  replace (length a + length b) with (length l) in Ec by lia. rewrite La, Lm in Ec.
  replace ((l ++ mid) ++ term ++ rest) with (a ++ b ++ mid ++ term ++ rest)
    by (rewrite El, <- !app_assoc; reflexivity).
  rewrite Ec. cbn [vbind lift vret bind].
  pose proof (copy_in_ok a mid' (b ++ term ++ rest) [x] ltac:(cbn; lia)) as W. cbn [length copy_in] in W.
  rewrite La in W.
  destruct (wr (a ++ mid' ++ b ++ term ++ rest) i x) as [m'| |] eqn:W'; cbn [bind] in W; try discriminate.
  injection W as ->. cbn [vbind lift vret bind]. eexists; split; [reflexivity|]. split.
  - apply (holds_arr v1 (l ++ mid)); auto; try (rewrite L; auto).
    + rewrite !app_length. cbn [length]. lia.
    + rewrite El in N. apply Forall_app in N. destruct N. rewrite !Forall_app. split; auto.
    + intros rest' E'. rewrite Eb in E'. apply app_inv_head in E'. apply app_inv_head in E'. subst rest'.
      rewrite <- !app_assoc. reflexivity.
  - cbn [buf]. rewrite <- L, Eb. rewrite !app_length. cbn [length]. rewrite !app_length. lia.
Qed.

(* erasing: what memmove has to achieve *)
Lemma raw_erase_ok v l i k :
  holds v l -> i + k <= length l ->
  (forall rest, buf v = l ++ term ++ rest ->
     exists rest', mm c (buf v) i (i + k) (length l + tlen - (i + k)) =
       Ok (firstn i l ++ skipn (i + k) l ++ term ++ rest') /\ length rest' = length rest + k) ->
  exists v', raw_erase c v i k = vret v' /\ holds v' (firstn i l ++ skipn (i + k) l) /\
    length (buf v') = length (buf v).
Proof.
  intros H Hi HM. pose proof H as [S N Z B]. pose proof (shape_len _ _ S) as L.
  destruct S as (rest & Eb & M). destruct (HM rest Eb) as (rest' & EM & Lr). clear HM.
  assert (length (firstn i l ++ skipn (i + k) l) = length l - k) as Lres.
  { rewrite app_length, firstn_length, skipn_length. lia. }
  assert (Forall nz (firstn i l ++ skipn (i + k) l)) as Nres.
  { rewrite Forall_forall in *. intros y Hy. apply N. apply in_app_or in Hy. destruct Hy as [Hy|Hy].
    - rewrite <- (firstn_skipn i l). apply in_or_app. auto.
    - rewrite <- (firstn_skipn (i + k) l). apply in_or_app. auto. }
  unfold raw_erase. rewrite (size_ok _ _ H). cbn [vbind lift vret bind].
  unfold shape, tlen, term, nz, zero_ok in *.
  remember (kind c) as K eqn:EK. destruct K as [|z is0].
  - unfold set_size. rewrite <- EK. cbn [vbind lift vret bind buf msize].
    rewrite add_ok by lia. rewrite !sub_ok by lia. cbn [length] in *. rewrite Nat.add_0_r in EM.
    assert ((if narrow c then if Nat.leb (i + k) (length l) then mm c (buf v) i (i + k) (length l - (i + k)) else UB
            else mm c (buf v) i (i + k) (length l - (i + k)))
            = mm c (buf v) i (i + k) (length l - (i + k))) as ->.
    { destruct (narrow c); auto. destruct (Nat.leb_spec (i + k) (length l)); auto; lia. }
    rewrite EM. cbn [vbind lift vret bind]. eexists; split; [reflexivity|].
    assert (length (buf v) = length (firstn i l ++ skipn (i + k) l ++ [] ++ rest')) as LB.
    { rewrite Eb, !app_length in *. cbn [length] in *. lia. }
    split; [|symmetry; exact LB].
    split; unfold shape, term, nz, zero_ok; rewrite <- ?EK; auto.
    + exists rest'. cbn [buf msize]. split; [now rewrite <- !app_assoc|]. intros _. lia.
    + cbn [buf]. rewrite <- LB. auto.
  - cbn [length] in *. cbn [vbind lift vret bind]. rewrite (wrap_ok c (length l + 1)) by lia.
    rewrite add_ok by lia. rewrite !sub_ok by lia.
    assert ((if narrow c then if Nat.leb (i + k) (length l + 1) then mm c (buf v) i (i + k) (length l + 1 - (i + k)) else UB
            else mm c (buf v) i (i + k) (length l + 1 - (i + k)))
            = mm c (buf v) i (i + k) (length l + 1 - (i + k))) as ->.
    { destruct (narrow c); auto. destruct (Nat.leb_spec (i + k) (length l + 1)); auto; lia. }
    rewrite EM. cbn [vbind lift vret bind]. eexists; split; [reflexivity|].
    assert (length (buf v) = length (firstn i l ++ skipn (i + k) l ++ [z] ++ rest')) as LB.
    { rewrite Eb, !app_length in *. cbn [length] in *. lia. }
    split; [|symmetry; exact LB].
    split; unfold shape, term, nz, zero_ok; rewrite <- ?EK; auto.
    + exists rest'. cbn [buf msize]. split; [now rewrite <- !app_assoc|]. discriminate.
    + cbn [buf]. rewrite <- LB. auto.
Qed.

Lemma assign_ok v l xs :
  holds v l -> length xs + tlen <= length (buf v) -> Forall nz xs ->
  exists v', assign c v xs (length xs) = vret v' /\ holds v' xs /\ length (buf v') = length (buf v).
Proof.
  intros [S N Z B] R NX. unfold assign.
  destruct (ensure_size_ok v (length xs) B) as (v1 & E & L & S1); [lia|].
  rewrite E. cbn [vbind lift vret bind]. pose proof S1 as (rest & Eb & M).
  set (f := firstn (length xs) (buf v)) in *.
  assert (length f = length xs) as Lf by (unfold f; rewrite firstn_length; lia).
  pose proof (copy_in_ok [] f (term ++ rest) xs Lf) as W. cbn [app length] in W.
  rewrite Eb, W. cbn [vbind lift vret bind app].
  eexists; split; [reflexivity|]. split.
  - apply (holds_arr v1 f); auto; try (rewrite L; auto).
    intros rest' E'. rewrite Eb in E'. apply app_inv_head in E'. now rewrite E'.
  - cbn [buf]. rewrite <- L, Eb. rewrite !app_length. lia.
Qed.

(* every observer agrees *)
Lemma holds_looks v l : holds v l -> looks_like c v l.
Proof.
  intros H. pose proof H as [S N Z B]. pose proof (shape_len _ _ S) as L.
  pose proof S as (rest & Eb & M).
  assert (forall i x, nth_error l i = Some x -> rd (buf v) i = Ok x) as AT.
  { intros i x Hx. apply rd_ok. rewrite Eb. rewrite nth_error_app1; auto. apply nth_error_Some. congruence. }
  split.
  - now apply size_ok.
  - unfold empty. unfold term, nz, zero_ok in *. destruct (kind c) as [|z is0].
    + rewrite M by auto. destruct l; reflexivity.
    + destruct l as [|x t].
      * rewrite Eb. cbn [app]. cbn. now rewrite Z.
      * rewrite (AT 0 x eq_refl). cbn [bind]. inversion N; subst. now rewrite H2.
  - unfold iterate. rewrite (size_ok v l H). cbn [bind]. unfold read_n. cbn [Nat.add].
    destruct (Nat.leb_spec (length l) (length (buf v))); [|lia]. cbn [skipn].
    rewrite Eb, firstn_app_exact by auto. reflexivity.
  - intros i x Hx. now apply AT.
  - intros x t ->. apply (AT 0). reflexivity.
  - intros x t ->. unfold back. rewrite (size_ok _ _ H). cbn [bind].
    rewrite app_length in *. cbn [length] in *. rewrite sub_ok by lia.
    apply AT. rewrite nth_error_app2 by lia. replace (length t + 1 - 1 - length t) with 0 by lia. reflexivity.
Qed.

Lemma init_holds b : zero_ok -> length b < smod c -> tlen <= length b ->
  exists v, init c b = Ok v /\ holds v [] /\ length (buf v) = length b.
Proof.
  intros Z B T. unfold init. destruct (set_size_ok (Arr b 0) 0) as (v & E & L & S); [cbn; lia|].
  exists v. cbn [buf] in L. split; auto. split; auto. split; auto. now rewrite L.
Qed.

Lemma append_fill_ok x : nz x -> forall n v l, holds v l -> length l + n + tlen <= length (buf v) ->
  exists v', append_fill c v n x = vret v' /\ holds v' (l ++ repeat x n) /\ length (buf v') = length (buf v).
Proof.
  intros NX. induction n as [|n IH]; intros v l H R; cbn [append_fill repeat].
  - exists v. rewrite app_nil_r. auto.
  - destruct (append_ok v l [x] H) as (v1 & E & H1 & L1); [cbn; lia|auto|].
    unfold push_back. cbn [length] in E. rewrite E. cbn [vbind vret bind].
    destruct (IH v1 (l ++ [x]) H1) as (v2 & E2 & H2 & L2); [rewrite app_length; cbn; lia|].
    exists v2. rewrite <- app_assoc in H2. cbn [app] in H2. split; auto. split; auto. lia.
Qed.

End Dyn.

(* ---------- memmove ---------- *)
Lemma memmove1_erase {A} (l t rest : list A) i k : i + k <= length l ->
  exists rest', memmove1 (l ++ t ++ rest) i (i + k) (length l + length t - (i + k)) =
    Ok (firstn i l ++ skipn (i + k) l ++ t ++ rest') /\ length rest' = length rest + k.
Proof.
  intros H. unfold memmove1.
  set (n := length l + length t - (i + k)).
  assert ((Nat.leb (i + n) (length (l ++ t ++ rest)) && Nat.leb (i + k + n) (length (l ++ t ++ rest)))%bool = true) as ->.
  { rewrite !app_length. apply andb_true_intro. split; apply Nat.leb_le; unfold n; lia. }
  exists (skipn (i + n) (l ++ t ++ rest)). split.
  - f_equal. rewrite firstn_app. replace (i - length l) with 0 by lia. cbn [firstn]. rewrite app_nil_r.
    f_equal. rewrite (app_assoc (skipn (i + k) l) t). f_equal. rewrite (app_assoc l t rest).
    rewrite skipn_app. replace (i + k - length (l ++ t)) with 0 by (rewrite app_length; lia). cbn [skipn].
    rewrite firstn_app. rewrite (firstn_all2 (skipn _ _)) by (rewrite skipn_length, app_length; unfold n; lia).
    rewrite skipn_length, app_length. replace (n - (length l + length t - (i + k))) with 0 by (unfold n; lia).
    cbn [firstn]. rewrite app_nil_r. rewrite skipn_app. replace (i + k - length l) with 0 by lia. reflexivity.
  - rewrite skipn_length, !app_length. unfold n. lia.
Qed.

Lemma chunk_concat {A} w (m : list (list A)) : Forall (fun x => length x = w) m -> chunk w (length m) (concat m) = m.
Proof.
  induction m as [|x m IH]; intros F; simpl; auto. inversion F; subst.
  rewrite firstn_app_exact by auto. rewrite skipn_app_exact by auto. f_equal. auto.
Qed.

Lemma concat_length_w {A} w (m : list (list A)) : Forall (fun x => length x = w) m -> length (concat m) = length m * w.
Proof. induction 1; simpl; auto. rewrite app_length. lia. Qed.

Lemma concat_firstn {A} w (m : list (list A)) i : Forall (fun x => length x = w) m ->
  firstn (i * w) (concat m) = concat (firstn i m).
Proof.
  revert i; induction m as [|x m IH]; intros i F.
  - cbn [concat]. rewrite !firstn_nil. reflexivity.
  - inversion F; subst. destruct i as [|i]; auto. cbn [concat firstn Nat.mul].
    rewrite firstn_app. rewrite firstn_all2 by lia.
    replace (length x + i * length x - length x) with (i * length x) by lia. rewrite IH by auto. reflexivity.
Qed.
Lemma concat_skipn {A} w (m : list (list A)) i : Forall (fun x => length x = w) m ->
  skipn (i * w) (concat m) = concat (skipn i m).
Proof.
  revert i; induction m as [|x m IH]; intros i F.
  - cbn [concat]. rewrite !skipn_nil. reflexivity.
  - inversion F; subst. destruct i as [|i]; auto. cbn [concat skipn Nat.mul].
    rewrite skipn_app. rewrite skipn_all2 by lia.
    replace (length x + i * length x - length x) with (i * length x) by lia. rewrite IH by auto. reflexivity.
Qed.

Lemma Forall_firstn {A} (P : A -> Prop) n l : Forall P l -> Forall P (firstn n l).
Proof. revert n; induction l; intros [|n] F; simpl; auto. inversion F; subst. constructor; auto. Qed.
Lemma Forall_skipn {A} (P : A -> Prop) n l : Forall P l -> Forall P (skipn n l).
Proof. revert n; induction l; intros [|n] F; simpl; auto. inversion F; subst. auto. Qed.

(* with one-byte elements bytes are elements *)
Lemma memmove_bytes_1 {A} (m : list (list A)) d s n : Forall (fun x => length x = 1) m ->
  memmove_bytes 1 m d s n = memmove1 m d s n.
Proof.
  intros F. unfold memmove_bytes, memmove1. rewrite (concat_length_w 1 m F), !Nat.mul_1_r.
  destruct (Nat.leb (d + n) (length m) && Nat.leb (s + n) (length m))%bool eqn:E; auto.
  apply andb_prop in E. destruct E as [E1 E2]. apply Nat.leb_le in E1, E2.
  cbn [bind]. f_equal.
  pose proof (concat_firstn 1 m d F) as F1. rewrite Nat.mul_1_r in F1. rewrite F1.
  pose proof (concat_skipn 1 m s F) as F2. rewrite Nat.mul_1_r in F2. rewrite F2.
  pose proof (concat_firstn 1 (skipn s m) n (Forall_skipn _ _ _ F)) as F3. rewrite Nat.mul_1_r in F3. rewrite F3.
  pose proof (concat_skipn 1 m (d + n) F) as F4. rewrite Nat.mul_1_r in F4. rewrite F4.
  rewrite <- !concat_app.
  set (r := firstn d m ++ firstn n (skipn s m) ++ skipn (d + n) m).
  assert (length r = length m) as L.
  { unfold r. rewrite !app_length, !firstn_length, !skipn_length. lia. }
  rewrite <- L. apply chunk_concat. unfold r. rewrite !Forall_app. repeat split; auto using Forall_firstn, Forall_skipn.
Qed.

Lemma memmove_bytes_none {A} w (m : list (list A)) d s : Forall (fun x => length x = w) m ->
  d <= length m -> s <= length m -> memmove_bytes w m d s 0 = Ok m.
Proof.
  intros F Hd Hs. unfold memmove_bytes, memmove1. rewrite (concat_length_w w m F), !Nat.add_0_r.
  assert (d * w <= length m * w) by (apply Nat.mul_le_mono_r; auto).
  assert (s * w <= length m * w) by (apply Nat.mul_le_mono_r; auto).
  destruct (Nat.leb_spec (d * w) (length m * w)); [|lia].
  destruct (Nat.leb_spec (s * w) (length m * w)); [|lia]. cbn [andb bind firstn app].
  rewrite firstn_skipn, chunk_concat by auto. reflexivity.
Qed.

(* ---------- histories ---------- *)
Section History.
Context {A : Type} (c : cfg A).
Variables (ok : list A -> vop A -> list A -> Prop) (good : arr A -> Prop).
Hypothesis ok_nz : forall l o l1, ok l o l1 -> Forall (nz c) l1.
Hypothesis good_step : forall v l o l1 v', good v -> holds c v l -> vstep l o = Some l1 -> ok l o l1 ->
  step c v o = vret v' -> holds c v' l1 -> good v'.
Hypothesis erase_mm : forall v l i l1, good v -> holds c v l -> i < length l -> ok l (Erase i) l1 ->
  forall rest, buf v = l ++ term c ++ rest ->
  exists rest', mm c (buf v) i (i + 1) (length l + tlen c - (i + 1)) =
       Ok (firstn i l ++ skipn (i + 1) l ++ term c ++ rest') /\ length rest' = length rest + 1.

Lemma step_ok v l o l1 : good v -> holds c v l -> vstep l o = Some l1 ->
  length l1 + tlen c <= length (buf v) -> ok l o l1 ->
  exists v', step c v o = vret v' /\ holds c v' l1 /\ length (buf v') = length (buf v).
Proof.
  intros G H S R K. pose proof (ok_nz _ _ _ K) as NZ. pose proof H as [Sh N Z B].
  pose proof (shape_len c v l Sh) as L.
  destruct o as [x|xs| |i x|i xs|i|xs|n|]; cbn [vstep step] in *.
  - injection S as <-. rewrite app_length in R. apply Forall_app in NZ.
    apply (append_ok c v l [x] H); [cbn in *; lia|tauto].
  - injection S as <-. rewrite app_length in R. apply Forall_app in NZ.
    rewrite wrap_ok by lia. apply (append_ok c v l xs H); [lia|tauto].
  - destruct l as [|a t] using rev_ind; [discriminate|].
    destruct (t ++ [a]) eqn:E; [destruct t; discriminate|]. rewrite <- E in *. clear E.
    injection S as <-. rewrite removelast_last. now apply pop_ok with a.
  - destruct (Nat.leb_spec i (length l)); [|discriminate]. injection S as <-.
    rewrite app_length in R. cbn [length] in R. rewrite firstn_length, skipn_length in R.
    apply Forall_app in NZ. destruct NZ as [_ NZ]. inversion NZ; subst.
    apply insert_move_ok; auto. lia.
  - destruct (Nat.leb_spec i (length l)); [|discriminate]. injection S as <-.
    rewrite !app_length, firstn_length, skipn_length in R.
    rewrite !Forall_app in NZ. apply insert_range_ok; auto; [lia|tauto].
  - destruct (Nat.ltb_spec i (length l)); [|discriminate]. injection S as <-.
    destruct (raw_erase_ok c v l i 1 H) as (v' & E & H' & L'); [lia| |].
    { intros rest Er. eapply (erase_mm v l i); eauto. }
    unfold erase. rewrite E. cbn [vbind vret bind]. exists v'. rewrite Nat.add_1_r in H'. split; [auto|]. split; [exact H'|auto].
  - injection S as <-. rewrite wrap_ok by lia. now apply (assign_ok c v l).
  - destruct (Nat.leb_spec n (length l)); [|discriminate]. injection S as <-.
    unfold resize. rewrite wrap_ok by lia.
    destruct (resize_down_ok c v l n H) as (v' & E & H' & L'); auto.
    rewrite E. cbn [vbind vret bind]. eauto.
  - injection S as <-. unfold clear, resize.
    destruct (resize_down_ok c v l 0 H) as (v' & E & H' & L'); [lia|].
    rewrite E. cbn [vbind vret bind]. eauto.
Qed.

Lemma run_ok cap : forall os v l l2, good v -> holds c v l -> cap + tlen c <= length (buf v) ->
  vrun cap ok l os l2 ->
  exists v', run c v os = vret v' /\ holds c v' l2 /\ length (buf v') = length (buf v).
Proof.
  induction os as [|o os IH]; intros v l l2 G H C R; inversion R; subst; cbn [run].
  - eauto.
  - destruct (step_ok v l o l1 G H) as (v1 & E & H1 & L1); auto; [lia|].
    rewrite E. cbn [vbind vret bind].
    destruct (IH v1 l1 l2) as (v2 & E2 & Hv2 & L2); auto.
    + eapply good_step; eauto.
    + lia.
    + exists v2. split; auto. split; auto. lia.
Qed.
End History.

(* ---------- whole-buffer predicates ---------- *)
Section Keep.
Context {A : Type} (P : A -> Prop).
Lemma Forall_upd (m : list A) i x : Forall P m -> P x -> Forall P (upd m i x).
Proof.
  intros F. revert i. induction F; intros [|i] Px; cbn [upd]; auto.
Qed.
Lemma wr_keep m i x m' : wr m i x = Ok m' -> Forall P m -> P x -> Forall P m'.
Proof. unfold wr. destruct (Nat.ltb i (length m)); [|discriminate]. intros [= <-]. apply Forall_upd. Qed.
Lemma copy_in_keep : forall n xs m pos m', copy_in m pos xs n = Ok m' -> Forall P m -> Forall P xs -> Forall P m'.
Proof.
  induction n as [|n IH]; intros xs m pos m' E F Fx; cbn [copy_in] in E.
  - now injection E as <-.
  - destruct xs as [|x xs]; [discriminate|]. apply bind_ok in E. destruct E as (m1 & E1 & E2).
    inversion Fx; subst. eapply IH; eauto. eapply wr_keep; eauto.
Qed.
Lemma rd_keep m i x : rd m i = Ok x -> Forall P m -> P x.
Proof.
  unfold rd. destruct (nth_error m i) eqn:E; [|discriminate]. intros [= <-] F.
  rewrite Forall_forall in F. apply F. eapply nth_error_In; eauto.
Qed.
Lemma copy_backward_keep m f l d m' r : copy_backward m f l d = Ok (m', r) -> Forall P m -> Forall P m'.
Proof.
  unfold copy_backward. intros E. apply bind_ok in E. destruct E as (n & _ & E). revert m l d E.
  induction n as [|n IH]; intros m l d E F; cbn [copy_backward_loop] in E.
  - now injection E as <- _.
  - destruct l as [|l]; [discriminate|]. destruct d as [|d]; [discriminate|].
    apply bind_ok in E. destruct E as (x & E1 & E). apply bind_ok in E. destruct E as (m1 & E2 & E).
    eapply IH; eauto. eapply wr_keep; eauto. eapply rd_keep; eauto.
Qed.
End Keep.

Lemma vbind_inv {A B} (m : vres A) (f : A -> vres B) b :
  vbind m f = Ok (Go b) -> exists a, m = Ok (Go a) /\ f a = Ok (Go b).
Proof. unfold vbind. destruct m as [[a|]| |]; simpl; intros; try discriminate. eauto. Qed.
Lemma lift_inv {A} (m : result A) a : lift m = Ok (Go a) -> m = Ok a.
Proof. unfold lift. destruct m; simpl; unfold vret; congruence. Qed.

Ltac vinv :=
  repeat match goal with
  | H : vbind _ _ = Ok (Go _) |- _ =>
      let x := fresh "x" in let E := fresh "E" in apply vbind_inv in H; destruct H as (x & E & H)
  | H : lift _ = Ok (Go _) |- _ => apply lift_inv in H
  | H : vret _ = Ok (Go _) |- _ => unfold vret in H; inversion H; subst; clear H
  | H : Ok (Go _) = Ok (Go _) |- _ => inversion H; subst; clear H
  | p : (_ * _)%type |- _ => destruct p
  | H : (_, _) = (_, _) |- _ => injection H as; subst
  end.

Section KeepStep.
Context {A : Type} (P : A -> Prop) (c : cfg A).
Hypothesis KE : kind c = Explicit.
Hypothesis MMK : forall m d s n m', mm c m d s n = Ok m' -> Forall P m -> Forall P m'.

Lemma set_size_keep v n v' : set_size c v n = Ok v' -> buf v' = buf v.
Proof. unfold set_size. rewrite KE. intros [= <-]. reflexivity. Qed.
Lemma ensure_size_keep v n b v' : ensure_total_size c v n = vret (b, v') -> buf v' = buf v.
Proof.
  unfold ensure_total_size. intros E. unfold vret in E. vinv. destruct x; vinv; auto.
  eapply set_size_keep; eauto.
Qed.
Lemma grow_keep v n s v' : grow c v n = vret (s, v') -> buf v' = buf v.
Proof. unfold grow. intros E. unfold vret in E. vinv. eapply set_size_keep; eauto. Qed.
Lemma append_keep v xs n v' : append c v xs n = vret v' -> Forall P (buf v) -> Forall P xs -> Forall P (buf v').
Proof.
  unfold append. intros E F Fx. unfold vret in E. vinv. cbn [buf].
  apply (copy_in_keep P) in E1; auto. erewrite grow_keep; eauto.
Qed.

Lemma step_keep v o v' : step c v o = vret v' -> Forall P (buf v) ->
  match o with
  | Push x | Insert _ x => P x
  | Append xs | InsertRange _ xs | Assign xs => Forall P xs
  | _ => True
  end -> Forall P (buf v').
Proof.
  intros E F I. destruct o as [x|xs| |i x|i xs|i|xs|n|]; cbn [step] in E.
  - eapply append_keep; eauto.
  - eapply append_keep; eauto.
  - unfold pop_back, vret in E. vinv. erewrite set_size_keep; eauto.
  - unfold insert_move, vret in E. vinv. cbn [buf].
    eapply wr_keep; eauto. eapply copy_backward_keep; eauto. erewrite grow_keep; eauto.
  - unfold insert_range, vret in E. vinv. destruct b; vinv; cbn [buf].
    + eapply copy_in_keep; eauto. eapply copy_backward_keep; eauto. erewrite ensure_size_keep; eauto.
    + erewrite ensure_size_keep; eauto.
  - unfold erase, raw_erase, vret in E. rewrite KE in E. vinv. cbn [buf].
    assert (Forall P (buf x3)) as Fa by (erewrite set_size_keep; eauto).
    destruct (narrow c).
    + destruct (Nat.leb _ _); [|discriminate]. eapply MMK; eauto.
    + eapply MMK; eauto.
  - unfold assign, vret in E. vinv. cbn [buf]. eapply copy_in_keep; eauto. erewrite ensure_size_keep; eauto.
  - unfold resize, vret in E. vinv. erewrite ensure_size_keep; eauto.
  - unfold clear, resize, vret in E. vinv. erewrite ensure_size_keep; eauto.
Qed.
End KeepStep.

Lemma chunk_width {A} w : forall k (l : list A), k * w <= length l -> Forall (fun x => length x = w) (chunk w k l).
Proof.
  induction k as [|k IH]; intros l H; cbn [chunk]; constructor.
  - rewrite firstn_length. cbn in H. lia.
  - apply IH. rewrite skipn_length. cbn in H. lia.
Qed.

Lemma memmove1_length {A} (m : list A) d s n m' : memmove1 m d s n = Ok m' -> length m' = length m.
Proof.
  unfold memmove1. destruct (Nat.leb_spec (d + n) (length m)); [|discriminate].
  destruct (Nat.leb_spec (s + n) (length m)); [|discriminate]. cbn [andb]. intros [= <-].
  rewrite !app_length, !firstn_length, !skipn_length. lia.
Qed.

Lemma memmove_bytes_keep w (m : list (list Z)) d s n m' :
  memmove_bytes w m d s n = Ok m' -> Forall (fun x => length x = w) m -> Forall (fun x => length x = w) m'.
Proof.
  unfold memmove_bytes. intros E F. apply bind_ok in E. destruct E as (b & Eb & E). injection E as <-.
  apply chunk_width. rewrite (memmove1_length _ _ _ _ _ Eb), (concat_length_w w) by auto. lia.
Qed.

(* ---------- vector ---------- *)
Lemma vec_input w l o l1 : vstep l o = Some l1 -> vec_ok w l o l1 ->
  match o with
  | Push x | Insert _ x => length x = w
  | Append xs | InsertRange _ xs | Assign xs => Forall (fun x => length x = w) xs
  | _ => True
  end.
Proof.
  intros S [F _]. destruct o as [x|xs| |i x|i xs|i|xs|n|]; cbn [vstep] in S; auto.
  - injection S as <-. apply Forall_app in F. destruct F as [_ F]. now inversion F.
  - injection S as <-. apply Forall_app in F. tauto.
  - destruct (Nat.leb i (length l)); [|discriminate]. injection S as <-.
    apply Forall_app in F. destruct F as [_ F]. now inversion F.
  - destruct (Nat.leb i (length l)); [|discriminate]. injection S as <-.
    rewrite !Forall_app in F. tauto.
  - now injection S as <-.
Qed.

Lemma vec_run sm na nd w N b os l : N < sm -> length b = N -> Forall (fun x => length x = w) b ->
  vrun N (vec_ok w) [] os l ->
  exists v0 v, init (vec_cfg sm na nd w) b = Ok v0 /\ run (vec_cfg sm na nd w) v0 os = Ok (Go v) /\
    holds (vec_cfg sm na nd w) v l /\ length (buf v) = N.
Proof.
  intros HN Hb F R. set (c := vec_cfg sm na nd w).
  destruct (init_holds c b) as (v0 & E0 & H0 & L0); [exact I|cbn; lia|cbn; lia|].
  exists v0.
  destruct (run_ok c (vec_ok w) (fun v => Forall (fun x => length x = w) (buf v))) with (cap := N) (os := os) (v := v0)
    (l := @nil (list Z)) (l2 := l) as (v & E & H & L); auto.
  - intros l' o l1 _. apply Forall_forall. intros; exact I.
  - intros v' l' o l1 v'' G H S K E _. eapply (step_keep _ c); eauto.
    + intros m d s n m' Em Fm. exact (memmove_bytes_keep w m d s n m' Em Fm).
    + eapply vec_input; eauto.
  - intros v l' i l1 G H Hi [_ K] rest Er.
    assert (length rest + length l' = length (buf v)) as LR by (rewrite Er, !app_length; cbn; lia).
    destruct K as [->|K].
    + cbn [mm c vec_cfg]. rewrite memmove_bytes_1 by auto. rewrite Er.
      apply (memmove1_erase l' (term c) rest i 1). lia.
    + cbn [mm c vec_cfg]. replace (length l' + tlen c - (i + 1)) with 0 by (cbn; lia).
      rewrite (memmove_bytes_none w) by (auto; lia).
      exists (skipn i l' ++ rest). split.
      * f_equal. rewrite (skipn_all2 l') by lia. cbn [app term kind c vec_cfg].
        rewrite Er. cbn [app term kind c vec_cfg]. rewrite app_assoc, firstn_skipn. reflexivity.
      * rewrite app_length, skipn_length. lia.
  - unfold init, set_size in E0. cbn in E0. injection E0 as <-. auto.
  - cbn. lia.
  - exists v. split; [auto|]. split; [auto|]. split; [auto|lia].
Qed.

(* ---------- string ---------- *)
Lemma str_nz sm na nd nul l : Forall (nz (str_cfg sm na nd nul)) l <-> (nul = true -> ~ In 0%Z l).
Proof.
  unfold nz. destruct nul; cbn [str_cfg kind].
  - rewrite Forall_forall. split.
    + intros H _ K. specialize (H _ K). rewrite Z.eqb_refl in H. discriminate.
    + intros H x Hx. apply Z.eqb_neq. intros <-. now apply H.
  - split; [discriminate|]. intros _. apply Forall_forall. auto.
Qed.
Lemma str_zero sm na nd nul : zero_ok (str_cfg sm na nd nul).
Proof. destruct nul; cbn; auto. Qed.
Lemma str_tlen sm na nd nul : tlen (str_cfg sm na nd nul) = if nul then 1 else 0.
Proof. destruct nul; reflexivity. Qed.

Lemma str_run sm na nd nul N b os l : N < sm -> length b = N -> (nul = true -> 1 <= N) ->
  vrun (room nul N) (str_ok nul) [] os l ->
  exists v0 v, init (str_cfg sm na nd nul) b = Ok v0 /\ run (str_cfg sm na nd nul) v0 os = Ok (Go v) /\
    holds (str_cfg sm na nd nul) v l /\ length (buf v) = N.
Proof.
  intros HN Hb HN1 R. set (c := str_cfg sm na nd nul).
  assert (tlen c <= N) as HT. { unfold c. rewrite str_tlen. destruct nul; [auto|lia]. }
  destruct (init_holds c b) as (v0 & E0 & H0 & L0); [apply str_zero|cbn; lia|lia|].
  exists v0.
  destruct (run_ok c (str_ok nul) (fun _ => True)) with (cap := room nul N) (os := os) (v := v0)
    (l := @nil Z) (l2 := l) as (v & E & H & L); auto.
  - intros l' o l1 K. now apply str_nz.
  - intros v l' i l1 _ H Hi _ rest Er. cbn [mm c str_cfg]. rewrite Er.
    apply (memmove1_erase l' (term c) rest i 1). lia.
  - unfold c in *. rewrite str_tlen in *. unfold room. destruct nul; lia.
  - exists v. split; [auto|]. split; [auto|]. split; [auto|lia].
Qed.

Lemma vec_after_holds sm na nd w N os l v : vec_after sm na nd w N os l v ->
  holds (vec_cfg sm na nd w) v l /\ length (buf v) = N.
Proof.
  intros (HN & b & v0 & Hb & F & E0 & R & E).
  destruct (vec_run sm na nd w N b os l HN Hb F R) as (v0' & v' & E0' & E' & H & L).
  rewrite E0 in E0'. injection E0' as <-. rewrite E in E'. injection E' as <-. auto.
Qed.

Lemma str_after_holds sm na nd nul N os l v : str_after sm na nd nul N os l v ->
  holds (str_cfg sm na nd nul) v l /\ length (buf v) = N.
Proof.
  intros (HN & b & v0 & Hb & E0 & R & E).
  destruct (str_run sm na nd nul N b os l HN Hb) as (v0' & v' & E0' & E' & H & L); auto.
  { intros ->. destruct N; [|lia]. exfalso. destruct b; [|discriminate]. cbn in E0. discriminate. }
  rewrite E0 in E0'. injection E0' as <-. rewrite E in E'. injection E' as <-. auto.
Qed.
