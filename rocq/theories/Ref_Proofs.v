From Coq Require Import List Arith Bool Lia Permutation.
From Verif Require Import Base BaseLemmas Lnk_Spec Lnk_Model Lnk_Proofs Ref_Spec Ref_Model.
Local Open Scope res_scope.

(* ---- the owners *)
Lemma owned_cons s p e x : owned_by ((p, e) :: s) x = if Nat.eqb p x then e else owned_by s x.
Proof. reflexivity. Qed.
Lemma owned_without s o x : owned_by (without s o) x = if Nat.eqb o x then None else owned_by s x.
Proof.
  induction s as [|[p e] s IH]; cbn.
  - now destruct (Nat.eqb o x).
  - destruct (Nat.eqb_spec p o) as [->|N]; cbn.
    + fold (without s o). rewrite IH. now destruct (Nat.eqb o x).
    + fold (without s o). rewrite IH. destruct (Nat.eqb_spec p x) as [->|]; [|reflexivity].
      destruct (Nat.eqb_spec o x) as [->|]; [congruence|reflexivity].
Qed.
Lemma exists_cons s p e x : exists_in ((p, e) :: s) x = Nat.eqb p x || exists_in s x.
Proof. reflexivity. Qed.
Lemma exists_without s o x : exists_in (without s o) x = negb (Nat.eqb o x) && exists_in s x.
Proof.
  induction s as [|[p e] s IH]; cbn.
  - now rewrite andb_false_r.
  - fold (without s o). unfold exists_in in *. destruct (Nat.eqb_spec p o) as [->|N]; cbn.
    + rewrite IH. now destruct (Nat.eqb o x).
    + rewrite IH. destruct (Nat.eqb_spec p x) as [->|]; cbn; [|reflexivity].
      destruct (Nat.eqb_spec o x) as [->|]; [congruence|reflexivity].
Qed.
Lemma exists_fst s x : exists_in s x = true <-> In x (map fst s).
Proof.
  unfold exists_in. rewrite existsb_exists, in_map_iff. split.
  - intros (e & K & E). apply Nat.eqb_eq in E. eauto.
  - intros (e & E & K). exists e. split; [exact K|]. now apply Nat.eqb_eq.
Qed.
Lemma owned_exists s x v : owned_by s x = Some v -> exists_in s x = true.
Proof.
  induction s as [|[p e] s IH]; cbn; [discriminate|]. destruct (Nat.eqb p x); [reflexivity|exact IH].
Qed.
Lemma nodup_without s o : NoDup (map fst s) -> NoDup (map fst (without s o)).
Proof.
  unfold without. induction s as [|[p e] s IH]; cbn; intros D; [constructor|].
  apply NoDup_cons_iff in D as [N D]. destruct (negb _); cbn; [|auto].
  constructor; [|auto]. intros K. apply N. apply in_map_iff in K as (e' & E & K).
  apply filter_In in K as [K _]. apply in_map_iff. eauto.
Qed.

Lemma owned_filter s v x : NoDup (map fst s) ->
  In x (map fst (filter (is_owner_of v) s)) <-> owned_by s x = Some v.
Proof.
  induction s as [|[p e] s IH]; cbn; intros D; [easy|].
  apply NoDup_cons_iff in D as [N D]. specialize (IH D).
  assert (I : In x (map fst (filter (is_owner_of v) s)) -> In x (map fst s)).
  { intros K. apply in_map_iff in K as (y & E & K). apply filter_In in K as [K _]. apply in_map_iff. eauto. }
  unfold is_owner_of at 1. cbn [snd]. destruct e as [w|].
  - destruct (Nat.eqb_spec w v) as [->|Nw]; cbn.
    + destruct (Nat.eqb_spec p x) as [->|Np]; [tauto|]. rewrite <- IH. split; [intros [K|K]; [congruence|exact K]|tauto].
    + destruct (Nat.eqb_spec p x) as [->|Np]; [|exact IH]. split; [tauto|congruence].
  - destruct (Nat.eqb_spec p x) as [->|Np]; [|exact IH]. split; [tauto|congruence].
Qed.
Lemma nodup_filter s v : NoDup (map fst s) -> NoDup (map fst (filter (is_owner_of v) s)).
Proof.
  induction s as [|[p e] s IH]; cbn; intros D; [constructor|].
  apply NoDup_cons_iff in D as [N D]. destruct (is_owner_of _ _); cbn; [|auto].
  constructor; [|auto]. intros K. apply N. apply in_map_iff in K as (e' & E & K).
  apply filter_In in K as [K _]. apply in_map_iff. eauto.
Qed.
Lemma count_members s v l : NoDup (map fst s) -> NoDup l -> (forall x, In x l <-> owned_by s x = Some v) ->
  owner_count s v = length l.
Proof.
  intros D Dl M. unfold owner_count. rewrite <- (map_length fst). apply Permutation_length.
  apply NoDup_Permutation; [now apply nodup_filter|exact Dl|].
  intros x. rewrite owned_filter by exact D. symmetry. apply M.
Qed.
Lemma count_zero s v x : NoDup (map fst s) -> owner_count s v = 0 -> owned_by s x <> Some v.
Proof.
  intros D Z K. apply owned_filter in K; [|exact D]. unfold owner_count in Z. apply length_zero_iff_nil in Z.
  now rewrite Z in K.
Qed.
Lemma count_le s v : owner_count s v <= length s.
Proof. unfold owner_count. induction s as [|e s IH]; cbn; [lia|]. destruct (is_owner_of v e); cbn; lia. Qed.

(* ---- rings *)
Definition ring (f : nat -> ptr) (o : nat) (r : list nat) : Prop :=
  lseg f (f o) r (Some o) /\ NoDup (o :: r).

Lemma ring_ext f g o r : (forall a, In a (o :: r) -> f a = g a) -> ring f o r -> ring g o r.
Proof.
  intros E [C D]. split; [|exact D]. rewrite <- (E o) by now left.
  eapply lseg_ext; [|exact C]. intros a K. apply E. now right.
Qed.
Lemma ring_rotate f o r x : ring f o r -> In x (o :: r) ->
  exists r', ring f x r' /\ forall y, In y (x :: r') <-> In y (o :: r).
Proof.
  intros [C D] [<-|K]; [exists r; split; [split; assumption|tauto]|].
  apply in_split in K as (u & w & ->).
  apply lseg_app in C as (q & C1 & C2). destruct C2 as [-> C2].
  exists (w ++ o :: u). split; [split|].
  - apply lseg_app. exists (Some o). split; [exact C2|]. split; [reflexivity|exact C1].
  - apply Permutation_NoDup with (2 := D).
    transitivity (x :: o :: u ++ w).
    + transitivity (o :: x :: u ++ w); [|apply perm_swap]. apply perm_skip. symmetry. apply Permutation_middle.
    + apply perm_skip. transitivity (o :: w ++ u); [apply perm_skip, Permutation_app_comm|apply Permutation_middle].
  - intros y. cbn. rewrite !in_app_iff. cbn. tauto.
Qed.

(* ---- destroyed owners *)
Lemma freed_born m o x :
  is_freed (Mem (nxt m) (prv m) (filter (fun b => negb (Nat.eqb b o)) (freed m))) x
  = negb (Nat.eqb x o) && is_freed m x.
Proof.
  unfold is_freed. cbn. induction (freed m) as [|b l IH]; cbn; [now rewrite andb_false_r|].
  destruct (Nat.eqb_spec b o) as [->|N]; cbn.
  - rewrite IH. destruct (Nat.eqb_spec x o); [reflexivity|]. now destruct (Nat.eqb_spec o o).
  - rewrite IH. destruct (Nat.eqb_spec x b) as [->|]; [|reflexivity].
    now apply Nat.eqb_neq in N as ->.
Qed.
Lemma freed_gone n p fr o x : is_freed (Mem n p (o :: fr)) x = Nat.eqb x o || is_freed (Mem n p fr) x.
Proof. reflexivity. Qed.
Lemma freed_nxt n n' p p' fr x : is_freed (Mem n p fr) x = is_freed (Mem n' p' fr) x.
Proof. reflexivity. Qed.

Section Inv.
Variable null : nat -> bool.

Record inv (s : owners) (st : rst) : Prop := {
  i_nd : NoDup (map fst s);
  i_ring : forall o v, owned_by s o = Some v -> null v = false /\ r_val st o = v /\
     exists r, ring (nxt (r_mem st)) o r /\ forall x, In x (o :: r) <-> owned_by s x = Some v;
  i_none : forall o, exists_in s o = true -> owned_by s o = None -> nxt (r_mem st) o = None;
  i_ok : forall o, exists_in s o = true -> is_freed (r_mem st) o = false }.

Lemma inv_nil st : inv [] st.
Proof. split; cbn; try easy. constructor. Qed.

Lemma not_exists_owned s o : exists_in s o = false -> owned_by s o = None.
Proof. intros N. destruct (owned_by s o) as [v|] eqn:E; [|reflexivity]. apply owned_exists in E. congruence. Qed.

(* a step that puts the ring o::r of v in place of the old one, all else unchanged *)
Lemma inv_change s st s' m' val' log' v :
  inv s st -> NoDup (map fst s') ->
  (forall x w, w <> v -> owned_by s' x = Some w -> owned_by s x = Some w) ->
  (forall x w, w <> v -> owned_by s x = Some w -> owned_by s' x = Some w) ->
  (forall x w, w <> v -> owned_by s x = Some w -> nxt m' x = nxt (r_mem st) x) ->
  (forall x w, w <> v -> owned_by s x = Some w -> val' x = r_val st x) ->
  (forall x, exists_in s' x = true -> is_freed m' x = false) ->
  (forall x, exists_in s' x = true -> owned_by s' x = None -> nxt m' x = None) ->
  (forall x, owned_by s' x = Some v -> null v = false /\ val' x = v) ->
  (forall x, owned_by s' x = Some v -> exists o r, ring (nxt m') o r /\ forall y, In y (o :: r) <-> owned_by s' y = Some v) ->
  inv s' (RSt m' val' log').
Proof.
  intros I D O1 O2 Fn Fv Fr Nn V R. split; cbn [r_mem r_val r_log]; auto.
  intros x w E. destruct (Nat.eq_dec w v) as [->|Nw].
  - destruct (V x E) as [V1 V2]. split; [exact V1|]. split; [exact V2|].
    destruct (R x E) as (o & r & Rg & M). destruct (ring_rotate _ _ _ x Rg) as (r' & Rg' & M'); [now apply M|].
    exists r'. split; [exact Rg'|]. intros y. rewrite M'. apply M.
  - pose proof (O1 x w Nw E) as E'. destruct (i_ring _ _ I x w E') as (Hn & Hv & r & Rg & M).
    split; [exact Hn|]. split; [rewrite (Fv x w Nw E'); exact Hv|]. exists r. split.
    + apply ring_ext with (2 := Rg). intros a K. symmetry. apply Fn with (w := w); [exact Nw|]. now apply M.
    + intros y. rewrite M. split; intros K; [now apply O2|now apply O1].
Qed.

Lemma make_ok s st o v : inv s st -> allowed null s (Make o v) = true ->
  exists st', make st o v = Ok st' /\ inv (after s (Make o v)) st' /\ r_log st' = r_log st.
Proof.
  intros I A. cbn in A. apply andb_true_iff in A as [A A3]. apply andb_true_iff in A as [A1 A2].
  apply negb_true_iff in A1, A2. apply Nat.eqb_eq in A3.
  assert (Nv : forall x, owned_by s x <> Some v) by (intros x; now apply count_zero, A3; apply i_nd with st).
  unfold make. cbn zeta. rewrite set_next_ok by (unfold born; cbn [r_mem]; rewrite freed_born, Nat.eqb_refl; reflexivity).
  cbn [bind]. eexists. split; [reflexivity|]. split; [|reflexivity].
  unfold with_mem. cbn [r_val r_log]. unfold born. cbn [r_mem r_val r_log nxt prv freed].
  assert (No : forall x w, owned_by s x = Some w -> x <> o).
  { intros x w E ->. rewrite not_exists_owned in E by exact A1. discriminate. }
  apply inv_change with (s := s) (st := st) (v := v); auto; cbn [after nxt].
  - cbn. constructor; [|apply I]. intros K. apply exists_fst in K. congruence.
  - intros x w Nw. rewrite owned_cons. destruct (Nat.eqb_spec o x); [congruence|auto].
  - intros x w Nw E. rewrite owned_cons. destruct (Nat.eqb_spec o x) as [->|]; [|exact E]. now apply No in E.
  - intros x w _ E. apply at_neq. eauto.
  - intros x w _ E. apply at_neq. eauto.
  - intros x E. rewrite (freed_nxt _ (nxt (r_mem st)) _ (prv (r_mem st))), freed_born. rewrite exists_cons in E.
    rewrite (Nat.eqb_sym o x) in E. destruct (Nat.eqb x o); cbn in *; [reflexivity|]. now apply (i_ok _ _ I).
  - intros x E. rewrite owned_cons. rewrite exists_cons in E. destruct (Nat.eqb_spec o x) as [->|]; [discriminate|].
    cbn in E. intros K. rewrite at_neq by congruence. now apply (i_none _ _ I).
  - intros x. rewrite owned_cons. destruct (Nat.eqb_spec o x) as [->|]; intros E.
    + split; [exact A2|]. apply at_eq.
    + now apply Nv in E.
  - intros x E. exists o, []. split.
    + split; [cbn; apply at_eq|]. constructor; [easy|constructor].
    + intros y. rewrite owned_cons. cbn. destruct (Nat.eqb_spec o y) as [->|N]; [tauto|].
      split; [intros [K|[]]; congruence|]. intros K. now apply Nv in K.
Qed.

Lemma copy_ok s st o p : inv s st -> allowed null s (Copy o p) = true ->
  exists st', copy st o p = Ok st' /\ inv (after s (Copy o p)) st' /\ r_log st' = r_log st.
Proof.
  intros I A. cbn in A. apply andb_true_iff in A as [A1 A]. apply negb_true_iff in A1.
  destruct (owned_by s p) as [v|] eqn:Ep; [|discriminate]. clear A.
  destruct (i_ring _ _ I p v Ep) as (Hn & Hv & r & [C D] & M).
  pose proof (owned_exists _ _ _ Ep) as Xp. pose proof (i_ok _ _ I p Xp) as Fp.
  assert (Npo : p <> o) by (intros ->; congruence).
  assert (No : forall x w, owned_by s x = Some w -> x <> o).
  { intros x w E ->. rewrite not_exists_owned in E by exact A1. discriminate. }
  assert (Nr : ~ In o (p :: r)) by (intros K; apply M in K; now apply No in K).
  unfold copy. rewrite deref_ok by exact Fp. cbn [bind]. cbn zeta. unfold if_insert_after, born. cbn [r_mem].
  rewrite next_ok by (rewrite freed_born, Fp; apply andb_false_r). cbn [bind].
  rewrite set_next_ok by (rewrite freed_born, Fp; apply andb_false_r). cbn [bind nxt prv freed].
  rewrite set_next_ok.
  2:{ rewrite (freed_nxt _ (nxt (r_mem st)) _ (prv (r_mem st))), freed_born, Nat.eqb_refl; reflexivity. }
  cbn [bind nxt prv freed]. eexists. split; [reflexivity|]. split; [|reflexivity].
  unfold with_mem. cbn [r_val r_log]. rewrite Hv.
  apply inv_change with (s := s) (st := st) (v := v); auto; cbn [after nxt]; rewrite ?Ep.
  - cbn. constructor; [|apply I]. intros K. apply exists_fst in K. congruence.
  - intros x w Nw. rewrite owned_cons. destruct (Nat.eqb_spec o x); [congruence|auto].
  - intros x w Nw E. rewrite owned_cons. destruct (Nat.eqb_spec o x) as [->|]; [|exact E]. now apply No in E.
  - intros x w Nw E. rewrite at_neq by eauto. apply at_neq. intros ->. congruence.
  - intros x w _ E. apply at_neq. eauto.
  - intros x E. rewrite (freed_nxt _ (nxt (r_mem st)) _ (prv (r_mem st))), freed_born. rewrite exists_cons in E.
    rewrite (Nat.eqb_sym o x) in E. destruct (Nat.eqb x o); cbn in *; [reflexivity|]. now apply (i_ok _ _ I).
  - intros x E. rewrite owned_cons. rewrite exists_cons in E. destruct (Nat.eqb_spec o x) as [->|]; [discriminate|].
    cbn in E. intros K. rewrite at_neq by congruence. rewrite at_neq by congruence. now apply (i_none _ _ I).
  - intros x. rewrite owned_cons. destruct (Nat.eqb_spec o x) as [->|N]; intros E.
    + split; [exact Hn|]. apply at_eq.
    + split; [exact Hn|]. rewrite at_neq by congruence. now apply (i_ring _ _ I).
  - intros x E. exists p, (o :: r). split.
    + split.
      * cbn. rewrite at_neq by exact Npo. rewrite at_eq. split; [reflexivity|]. rewrite at_eq.
        apply lseg_at; [intros K; apply Nr; now right|]. apply lseg_at; [|exact C]. now apply NoDup_cons_iff in D.
      * apply NoDup_cons_iff in D as [D1 D2]. constructor.
        -- intros [K|K]; [congruence|auto].
        -- constructor; [|exact D2]. intros K. apply Nr. now right.
    + intros y. rewrite owned_cons. specialize (M y). cbn in M |- *. destruct (Nat.eqb_spec o y) as [->|N]; [tauto|].
      rewrite <- M. tauto.
Qed.

(* the owner before p in its ring *)
Lemma before_begin_ok m p u l fuel a : lseg (nxt m) (Some a) (a :: u) (Some p) -> ~ In p (tl (a :: u)) ->
  last (a :: u) a = l -> (forall x, In x (a :: u) -> is_freed m x = false) -> length u <= fuel ->
  before_begin fuel m (Some p) (Some a) = Ok (Some l).
Proof.
  revert a fuel. induction u as [|b u IH]; intros a fuel [_ C] N L F Le.
  - cbn in C, L. subst l. destruct fuel; cbn [before_begin]; rewrite next_ok by (apply F; now left);
      cbn [bind]; rewrite C, peq_refl; reflexivity.
  - destruct fuel as [|fuel]; [cbn in Le; lia|]. cbn [before_begin]. rewrite next_ok by (apply F; now left).
    cbn [bind]. pose proof C as [C1 C2]. rewrite C1.
    assert (Nb : peq (Some b) (Some p) = false).
    { destruct (peq (Some b) (Some p)) eqn:E; [|reflexivity]. apply peq_spec in E. injection E as ->.
      exfalso. apply N. now left. }
    rewrite Nb. cbn [negb]. apply IH.
    + rewrite <- C1. exact C.
    + intros K. apply N. cbn in K |- *. now right.
    + rewrite <- L. clear. revert b. induction u as [|c u IH]; intros b; [reflexivity|].
      transitivity (last (c :: u) b); [reflexivity|]. transitivity (last (c :: u) a); [|reflexivity].
      clear. revert c. induction u as [|d u IH]; intros c; [reflexivity|]. exact (IH d).
    + intros x K. apply F. now right.
    + cbn in Le. lia.
Qed.

Lemma circle_ok st p u l fuel a k : lseg (nxt (r_mem st)) (Some a) (a :: u) (Some p) -> ~ In p (tl (a :: u)) ->
  last (a :: u) a = l -> (forall x, In x (a :: u) -> is_freed (r_mem st) x = false) ->
  (forall x, In x u -> null (r_val st x) = false) -> length u <= fuel ->
  circle null fuel st p (Some a) k 0 = Ok (Some l, k + length u, 0).
Proof.
  revert a fuel k. induction u as [|b u IH]; intros a fuel k [_ C] N L F V Le.
  - cbn in C, L. subst l. destruct fuel; cbn [circle]; rewrite next_ok by (apply F; now left);
      cbn [bind]; rewrite C, peq_refl; cbn; now rewrite Nat.add_0_r.
  - destruct fuel as [|fuel]; [cbn in Le; lia|]. cbn [circle]. rewrite next_ok by (apply F; now left).
    cbn [bind]. pose proof C as [C1 C2]. rewrite C1.
    assert (Nb : peq (Some b) (Some p) = false).
    { destruct (peq (Some b) (Some p)) eqn:E; [|reflexivity]. apply peq_spec in E. injection E as ->.
      exfalso. apply N. now left. }
    rewrite Nb. cbn [negb]. unfold is_shared. rewrite deref_ok by (apply F; right; now left). cbn [bind].
    rewrite (V b) by now left. cbn [negb]. rewrite IH.
    + cbn [length]. now rewrite Nat.add_succ_r.
    + rewrite <- C1. exact C.
    + intros K. apply N. cbn in K |- *. now right.
    + rewrite <- L. clear. revert b. induction u as [|c u IH]; intros b; [reflexivity|].
      transitivity (last (c :: u) b); [reflexivity|]. transitivity (last (c :: u) a); [|reflexivity].
      clear. revert c. induction u as [|d u IH]; intros c; [reflexivity|]. exact (IH d).
    + intros x K. apply F. now right.
    + intros x K. apply V. now right.
    + cbn in Le. lia.
Qed.

Lemma last_snoc (r : list nat) l a : last (a :: r ++ [l]) a = l.
Proof.
  transitivity (last (r ++ [l]) a); [|apply last_last]. destruct r; reflexivity.
Qed.

Lemma ring_len s st p v r : inv s st -> (forall x, In x (p :: r) <-> owned_by s x = Some v) -> NoDup (p :: r) ->
  owner_count s v = S (length r).
Proof. intros I M D. now rewrite (count_members s v (p :: r)) by (auto; apply I). Qed.

Lemma move_ok s st o p fuel : inv s st -> length s <= fuel -> allowed null s (Move o p) = true ->
  exists st', move fuel st o p = Ok st' /\ inv (after s (Move o p)) st' /\ r_log st' = r_log st.
Proof.
  intros I Lf A. cbn [allowed] in A. apply andb_true_iff in A as [A1 A]. apply negb_true_iff in A1.
  destruct (owned_by s p) as [v|] eqn:Ep; [|discriminate]. apply Nat.leb_le in A.
  destruct (i_ring _ _ I p v Ep) as (Hn & Hv & r & [C D] & M).
  pose proof (ring_len _ _ _ _ _ I M D) as L. pose proof (count_le s v) as Ls.
  destruct (exists_last (l := r)) as (r0 & l & ->); [destruct r; [cbn in L; lia|discriminate]|].
  pose proof (owned_exists _ _ _ Ep) as Xp. pose proof (i_ok _ _ I p Xp) as Fp.
  assert (Npo : p <> o) by (intros ->; congruence).
  assert (No : forall x w, owned_by s x = Some w -> x <> o).
  { intros x w E ->. rewrite not_exists_owned in E by exact A1. discriminate. }
  assert (Nr : ~ In o (p :: r0 ++ [l])) by (intros K; apply M in K; now apply No in K).
  assert (Fr : forall x, In x (p :: r0 ++ [l]) -> is_freed (r_mem st) x = false).
  { intros x K. apply M in K. apply owned_exists in K. now apply (i_ok _ _ I). }
  assert (Inl : In l (p :: r0 ++ [l])) by (right; apply in_or_app; right; now left).
  pose proof D as D0. apply NoDup_cons_iff in D as [D1 D2].
  assert (Nlp : l <> p) by (intros ->; apply D1; apply in_or_app; right; now left).
  assert (Nlo : l <> o) by (intros ->; auto).
  assert (D3 : ~ In l r0 /\ NoDup r0).
  { apply nodup_mid in D2 as (K & _ & K2). rewrite app_nil_r in K2. auto. }
  destruct D3 as [D3 D4].
  assert (Nr0 : ~ In o r0) by (intros K; apply Nr; right; apply in_or_app; now left).
  assert (Np0 : ~ In p r0) by (intros K; apply D1; apply in_or_app; now left).
  pose proof C as C0. apply lseg_app in C as (q & C1 & [-> C2]). cbn in C2.
  unfold move. rewrite deref_ok by exact Fp. cbn [bind]. cbn zeta.
  rewrite (before_begin_ok _ p (r0 ++ [l]) l).
  2:{ split; [reflexivity|]. unfold born. exact C0. }
  2:{ exact D1. }
  2:{ apply last_snoc. }
  2:{ intros x K. unfold born. cbn [r_mem]. rewrite freed_born, (Fr x K). apply andb_false_r. }
  2:{ lia. }
  cbn [bind]. unfold if_replace_after, if_erase_after, if_insert_after, born. cbn [r_mem].
  rewrite next_ok by (rewrite freed_born, (Fr l Inl); apply andb_false_r). cbn [bind nxt prv freed]. rewrite C2.
  rewrite next_ok by (rewrite freed_born, Fp; apply andb_false_r). cbn [bind nxt prv freed].
  rewrite set_next_ok by (rewrite freed_born, (Fr l Inl); apply andb_false_r). cbn [bind nxt prv freed].
  rewrite next_ok.
  2:{ rewrite (freed_nxt _ (nxt (r_mem st)) _ (prv (r_mem st))), freed_born, (Fr l Inl). apply andb_false_r. }
  cbn [bind nxt prv freed]. rewrite at_eq.
  rewrite set_next_ok.
  2:{ rewrite (freed_nxt _ (nxt (r_mem st)) _ (prv (r_mem st))), freed_born, (Fr l Inl). apply andb_false_r. }
  cbn [bind nxt prv freed].
  rewrite set_next_ok.
  2:{ rewrite (freed_nxt _ (nxt (r_mem st)) _ (prv (r_mem st))), freed_born, Nat.eqb_refl; reflexivity. }
  cbn [bind nxt prv freed].
  rewrite set_next_ok.
  2:{ rewrite (freed_nxt _ (nxt (r_mem st)) _ (prv (r_mem st))), freed_born, Fp. apply andb_false_r. }
  cbn [bind nxt prv freed]. eexists. split; [reflexivity|]. split; [|reflexivity].
  unfold with_mem. cbn [r_val r_log]. rewrite Hv.
  set (f := nxt (r_mem st)) in *.
  assert (OW : forall x, owned_by (after s (Move o p)) x =
    if Nat.eqb o x then Some v else if Nat.eqb p x then None else owned_by s x).
  { intros x. cbn [after]. rewrite !owned_cons, owned_without, Ep. destruct (Nat.eqb o x), (Nat.eqb p x); reflexivity. }
  assert (OE : forall x, exists_in (after s (Move o p)) x = Nat.eqb o x || exists_in s x).
  { intros x. cbn [after]. rewrite !exists_cons, exists_without. destruct (Nat.eqb_spec p x) as [->|]; cbn; [|reflexivity].
    rewrite Xp. now rewrite orb_true_r. }
  apply inv_change with (s := s) (st := st) (v := v); auto; cbn [nxt].
  - cbn. constructor; [|constructor].
    + intros [K|K]; [congruence|]. apply exists_fst in K. rewrite exists_without in K. apply andb_true_iff in K as [_ K].
      congruence.
    + intros K. apply exists_fst in K. rewrite exists_without, Nat.eqb_refl in K. discriminate.
    + apply nodup_without, I.
  - intros x w Nw. rewrite OW. destruct (Nat.eqb o x); [congruence|]. destruct (Nat.eqb p x); [discriminate|auto].
  - intros x w Nw E. rewrite OW. destruct (Nat.eqb_spec o x) as [->|]; [now apply No in E|].
    destruct (Nat.eqb_spec p x) as [->|]; [congruence|exact E].
  - intros x w Nw E.
    assert (Nxp : x <> p) by (intros ->; congruence).
    assert (Nxo : x <> o) by eauto.
    assert (Nxl : x <> l) by (intros ->; apply M in Inl; congruence).
    now rewrite !at_neq by assumption.
  - intros x w _ E. apply at_neq. eauto.
  - intros x E. rewrite (freed_nxt _ (nxt (r_mem st)) _ (prv (r_mem st))), freed_born. rewrite OE in E.
    rewrite (Nat.eqb_sym o x) in E. destruct (Nat.eqb x o); cbn in *; [reflexivity|]. now apply (i_ok _ _ I).
  - intros x E K. rewrite OW in K. rewrite OE in E. destruct (Nat.eqb_spec o x) as [->|Nx]; [discriminate|].
    cbn in E. destruct (Nat.eqb_spec p x) as [->|Nxp]; [apply at_eq|].
    rewrite at_neq by congruence. rewrite at_neq by congruence.
    assert (Nxl : x <> l) by (intros ->; apply M in Inl; congruence).
    rewrite !at_neq by congruence. now apply (i_none _ _ I).
  - intros x E. rewrite OW in E. split; [exact Hn|]. destruct (Nat.eqb_spec o x) as [->|Nx]; [apply at_eq|].
    destruct (Nat.eqb_spec p x) as [->|Nxp]; [discriminate|]. rewrite at_neq by congruence. now apply (i_ring _ _ I).
  - intros x _. exists o, (r0 ++ [l]). split.
    + split.
      * rewrite at_neq by congruence. rewrite at_eq. apply lseg_app. exists (Some l). split.
        -- apply lseg_at; [exact Np0|]. apply lseg_at; [exact Nr0|]. apply lseg_at; [exact D3|].
           now apply lseg_at.
        -- cbn. split; [reflexivity|]. rewrite at_neq by congruence. rewrite at_neq by congruence. apply at_eq.
      * constructor; [|exact D2]. intros K. apply Nr. now right.
    + intros y. rewrite OW. specialize (M y). cbn in M |- *. destruct (Nat.eqb_spec o y) as [->|N]; [tauto|].
      destruct (Nat.eqb_spec p y) as [->|Np].
      * split; [|discriminate]. intros [K|K]; [congruence|tauto].
      * rewrite <- M. split; intros [K|K]; auto; congruence.
Qed.

Lemma drop_ok s st o fuel : inv s st -> length s <= fuel -> allowed null s (Drop o) = true ->
  exists st', drop null fuel st o = Ok st' /\ inv (after s (Drop o)) st' /\
    r_log st' = r_log st ++ released s (Drop o).
Proof.
  intros I Lf A. cbn in A. pose proof (i_ok _ _ I o A) as Fo.
  assert (OW : forall x, owned_by (after s (Drop o)) x = if Nat.eqb o x then None else owned_by s x)
    by (intros; apply owned_without).
  assert (OE : forall x, exists_in (after s (Drop o)) x = negb (Nat.eqb o x) && exists_in s x)
    by (intros; apply exists_without).
  unfold drop. rewrite next_ok by exact Fo. cbn [bind released].
  destruct (owned_by s o) as [v|] eqn:Eo.
  - destruct (i_ring _ _ I o v Eo) as (Hn & Hv & r & [C D] & M).
    pose proof (ring_len _ _ _ _ _ I M D) as L. pose proof (count_le s v) as Ls.
    destruct r as [|x0 r'].
    + (* the last owner *)
      cbn in C. rewrite C, peq_refl. rewrite L. cbn [length Nat.eqb].
      eexists. split; [reflexivity|]. split; [|cbn; now rewrite Hv].
      unfold gone, destruct_, deallocate. cbn [r_mem r_val r_log].
      apply inv_change with (s := s) (st := st) (v := v); auto; cbn [nxt].
      * apply nodup_without, I.
      * intros x w Nw. rewrite OW. destruct (Nat.eqb o x); [discriminate|auto].
      * intros x w Nw E. rewrite OW. destruct (Nat.eqb_spec o x) as [->|]; [congruence|exact E].
      * intros x E. rewrite OE in E. apply andb_true_iff in E as [E1 E2]. apply negb_true_iff in E1.
        rewrite freed_gone, Nat.eqb_sym, E1. now apply (i_ok _ _ I).
      * intros x E K. rewrite OE in E. rewrite OW in K. apply andb_true_iff in E as [E1 E2]. apply negb_true_iff in E1.
        rewrite E1 in K. now apply (i_none _ _ I).
      * intros x E. rewrite OW in E. destruct (Nat.eqb_spec o x); [discriminate|]. apply M in E as [E|[]]. congruence.
      * intros x E. rewrite OW in E. destruct (Nat.eqb_spec o x); [discriminate|]. apply M in E as [E|[]]. congruence.
    + set (r := x0 :: r') in *.
      assert (Cx : nxt (r_mem st) o = Some x0) by (destruct C as [C _]; exact C).
      pose proof D as D0. apply NoDup_cons_iff in D as [D1 D2].
      assert (Nxo : peq (Some o) (Some x0) = false).
      { destruct (peq (Some o) (Some x0)) eqn:E; [|reflexivity]. apply peq_spec in E. injection E as <-.
        exfalso. apply D1. now left. }
      assert (Fr : forall x, In x (o :: r) -> is_freed (r_mem st) x = false).
      { intros x K. apply M in K. apply owned_exists in K. now apply (i_ok _ _ I). }
      assert (Vr : forall x, In x (o :: r) -> null (r_val st x) = false).
      { intros x K. apply M in K. destruct (i_ring _ _ I x v K) as (H1 & H2 & _). now rewrite H2. }
      destruct (exists_last (l := r)) as (r0 & l & Er); [discriminate|].
      rewrite Cx, Nxo.
      rewrite (circle_ok st o r l).
      2:{ split; [reflexivity|exact C]. }
      2:{ exact D1. }
      2:{ rewrite Er. apply last_snoc. }
      2:{ exact Fr. }
      2:{ intros x K. apply Vr. now right. }
      2:{ lia. }
      rewrite Er in *. clearbody r. subst r.
      cbn [bind Nat.add]. cbv beta iota.
      assert (Inl : In l (o :: r0 ++ [l])) by (right; apply in_or_app; right; now left).
      assert (Nlo : l <> o) by (intros ->; apply D1; apply in_or_app; right; now left).
      assert (D3 : ~ In l r0 /\ NoDup r0).
      { apply nodup_mid in D2 as (K & _ & K2). rewrite app_nil_r in K2. auto. }
      destruct D3 as [D3 D4].
      pose proof C as C0. apply lseg_app in C as (q & C1 & [-> C2]). cbn in C2.
      unfold if_erase_after. rewrite next_ok by auto. cbn [bind]. rewrite C2, next_ok by auto. cbn [bind].
      rewrite set_next_ok by auto. cbn [bind]. cbn zeta.
      rewrite L, app_length. cbn [length]. rewrite Nat.add_1_r. cbn [Nat.eqb].
      eexists. split; [reflexivity|]. split; [|cbn; now rewrite app_nil_r].
      unfold gone, with_mem, deallocate. cbn [r_mem r_val r_log nxt prv freed].
      apply inv_change with (s := s) (st := st) (v := v); auto; cbn [nxt].
      * apply nodup_without, I.
      * intros x w Nw. rewrite OW. destruct (Nat.eqb o x); [discriminate|auto].
      * intros x w Nw E. rewrite OW. destruct (Nat.eqb_spec o x) as [->|]; [congruence|exact E].
      * intros x w Nw E. apply at_neq. intros ->. apply M in Inl. congruence.
      * intros x E. rewrite OE in E. apply andb_true_iff in E as [E1 E2]. apply negb_true_iff in E1.
        rewrite freed_gone, Nat.eqb_sym, E1. now apply (i_ok _ _ I).
      * intros x E K. rewrite OE in E. rewrite OW in K. apply andb_true_iff in E as [E1 E2]. apply negb_true_iff in E1.
        rewrite E1 in K. rewrite at_neq; [now apply (i_none _ _ I)|]. intros ->. apply M in Inl. congruence.
      * intros x E. rewrite OW in E. destruct (Nat.eqb_spec o x); [discriminate|]. split; [exact Hn|].
        now apply (i_ring _ _ I).
      * intros x _. exists l, r0. split.
        -- split; [|now constructor]. rewrite at_eq. now apply lseg_at.
        -- intros y. rewrite OW. specialize (M y). cbn in M. rewrite in_app_iff in M. cbn in M |- *.
           destruct (Nat.eqb_spec o y) as [->|N].
           ++ split; [|discriminate]. intros [K|K]; [congruence|]. exfalso. apply D1. apply in_or_app. now left.
           ++ rewrite <- M. split; [tauto|]. intros [K|[K|[K|[]]]]; [congruence|tauto|tauto].
  - (* moved from *)
    rewrite (i_none _ _ I o A Eo). eexists. split; [reflexivity|]. split; [|cbn; now rewrite app_nil_r].
    unfold gone, deallocate. cbn [r_mem r_val r_log].
    assert (K : forall x w, owned_by (after s (Drop o)) x = Some w <-> owned_by s x = Some w).
    { intros x w. rewrite OW. destruct (Nat.eqb_spec o x) as [->|]; [rewrite Eo|]; split; congruence. }
    apply inv_change with (s := s) (st := st) (v := 0); auto; cbn [nxt].
    + apply nodup_without, I.
    + intros x w _. apply K.
    + intros x w _. apply K.
    + intros x E. rewrite OE in E. apply andb_true_iff in E as [E1 E2]. apply negb_true_iff in E1.
      rewrite freed_gone, Nat.eqb_sym, E1. now apply (i_ok _ _ I).
    + intros x E E0. rewrite OE in E. rewrite OW in E0. apply andb_true_iff in E as [E1 E2]. apply negb_true_iff in E1.
      rewrite E1 in E0. now apply (i_none _ _ I).
    + intros x E. apply K in E. destruct (i_ring _ _ I x 0 E) as (H1 & H2 & _). auto.
    + intros x E. apply K in E. destruct (i_ring _ _ I x 0 E) as (H1 & H2 & r & R & M). exists x, r.
      split; [exact R|]. intros y. now rewrite K.
Qed.

Lemma count_loop_ok m this u fuel a k : lseg (nxt m) (nxt m a) u (Some this) -> ~ In this u ->
  (forall x, In x (a :: u) -> is_freed m x = false) -> length u <= fuel ->
  count_loop fuel m this (Some a) k = Ok (k + length u).
Proof.
  revert a fuel k. induction u as [|b u IH]; intros a fuel k C N F Le.
  - cbn in C. destruct fuel; cbn [count_loop]; rewrite next_ok by (apply F; now left); cbn [bind];
      rewrite C, Nat.eqb_refl; now rewrite Nat.add_0_r.
  - destruct fuel as [|fuel]; [cbn in Le; lia|]. destruct C as [C1 C2]. cbn [count_loop].
    rewrite next_ok by (apply F; now left). cbn [bind]. rewrite C1.
    destruct (Nat.eqb_spec b this) as [->|_]; [exfalso; apply N; now left|]. rewrite IH.
    + cbn [length]. now rewrite Nat.add_succ_r.
    + exact C2.
    + intros K. apply N. now right.
    + intros x K. apply F. now right.
    + cbn in Le. lia.
Qed.

Lemma inv_count s st o v fuel : inv s st -> length s <= fuel -> owned_by s o = Some v ->
  count_shared fuel st o = Ok (owner_count s v).
Proof.
  intros I Lf E. destruct (i_ring _ _ I o v E) as (Hn & Hv & r & [C D] & M).
  pose proof (ring_len _ _ _ _ _ I M D) as L. pose proof (count_le s v) as Ls. rewrite L.
  apply (count_loop_ok _ o r fuel o 1); [exact C| | |lia].
  - now apply NoDup_cons_iff in D.
  - intros x K. apply M in K. apply owned_exists in K. now apply (i_ok _ _ I).
Qed.

Lemma step_ok s st op fuel : inv s st -> length s <= fuel -> allowed null s op = true ->
  exists st', r_step null fuel st op = Ok st' /\ inv (after s op) st' /\ r_log st' = r_log st ++ released s op.
Proof.
  intros I Lf A. destruct op as [o v|o p|o p|o]; cbn [r_step].
  - destruct (make_ok _ _ _ _ I A) as (st' & H1 & H2 & H3). exists st'. rewrite H3. cbn. rewrite app_nil_r. auto.
  - destruct (copy_ok _ _ _ _ I A) as (st' & H1 & H2 & H3). exists st'. rewrite H3. cbn [released]. rewrite app_nil_r. auto.
  - destruct (move_ok _ _ _ _ _ I Lf A) as (st' & H1 & H2 & H3). exists st'. rewrite H3. cbn [released]. rewrite app_nil_r. auto.
  - now apply drop_ok.
Qed.

Lemma without_len s o : length (without s o) <= length s.
Proof. unfold without. induction s as [|e s IH]; cbn; [lia|]. destruct (negb _); cbn; lia. Qed.
Lemma without_len_in s o : exists_in s o = true -> S (length (without s o)) <= length s.
Proof.
  unfold without, exists_in. induction s as [|e s IH]; cbn; [discriminate|].
  intros K. destruct (Nat.eqb (fst e) o); cbn in *.
  - pose proof (without_len s o) as W. unfold without in W. lia.
  - apply IH in K. lia.
Qed.
Lemma after_len s op : allowed null s op = true -> length (after s op) <= S (length s).
Proof.
  destruct op as [o v|o p|o p|o]; cbn [after allowed length]; intros A; try lia.
  - apply andb_true_iff in A as [_ A]. destruct (owned_by s p) eqn:E; [|discriminate].
    apply owned_exists in E. apply without_len_in in E. lia.
  - pose proof (without_len s o). lia.
Qed.

Lemma run_ok ops : forall s st fuel, inv s st -> length s + length ops <= fuel -> all_allowed null s ops = true ->
  exists st', r_run null fuel st ops = Ok st' /\ inv (after_all s ops) st' /\
    r_log st' = r_log st ++ released_all s ops /\ length (after_all s ops) <= fuel.
Proof.
  induction ops as [|op ops IH]; intros s st fuel I Lf A.
  - exists st. cbn. rewrite app_nil_r. cbn in Lf. split; [reflexivity|]. split; [exact I|]. split; [reflexivity|lia].
  - cbn [all_allowed] in A. apply andb_true_iff in A as [A1 A2]. cbn [length] in Lf.
    destruct (step_ok s st op fuel I) as (st1 & E1 & I1 & L1); [lia|exact A1|].
    pose proof (after_len s op A1) as La.
    destruct (IH (after s op) st1 fuel I1) as (st2 & E2 & I2 & L2 & L3); [lia|exact A2|].
    exists st2. cbn [r_run]. rewrite E1. cbn [bind]. cbn [after_all released_all]. rewrite L2, L1, app_assoc. auto.
Qed.

Lemma run_app ops1 ops2 : forall st fuel, r_run null fuel st (ops1 ++ ops2) =
  (st1 <- r_run null fuel st ops1 ;; r_run null fuel st1 ops2).
Proof.
  induction ops1 as [|op t IH]; intros st fuel; [reflexivity|]. cbn [app r_run].
  destruct (r_step null fuel st op) as [st1| |]; cbn [bind]; [apply IH|reflexivity|reflexivity].
Qed.

(* ---- how many releases *)
Lemma owner_count_cons s p e v : owner_count ((p, e) :: s) v = (if is_owner_of v (p, e) then 1 else 0) + owner_count s v.
Proof. unfold owner_count. cbn [filter]. now destruct (is_owner_of v (p, e)). Qed.
Lemma owner_count_without s o v : NoDup (map fst s) ->
  owner_count s v = (match owned_by s o with Some w => if Nat.eqb w v then 1 else 0 | None => 0 end) + owner_count (without s o) v.
Proof.
  induction s as [|[p e] s IH]; cbn [map]; intros D; [reflexivity|]. apply NoDup_cons_iff in D as [N D].
  specialize (IH D). rewrite owner_count_cons, owned_cons. unfold is_owner_of. cbn [snd fst].
  unfold without. cbn [filter fst]. fold (without s o). destruct (Nat.eqb_spec p o) as [->|Np]; cbn [negb].
  - assert (Z : owned_by s o = None) by (apply not_exists_owned; destruct (exists_in s o) eqn:E; [apply exists_fst in E; contradiction|reflexivity]).
    rewrite Z in IH. cbn in IH. rewrite IH. now destruct e.
  - rewrite owner_count_cons. unfold is_owner_of at 1. cbn [snd]. lia.
Qed.

Definition alive_n (s : owners) (v : nat) : nat := if Nat.eqb (owner_count s v) 0 then 0 else 1.

Lemma nodup_after s op : NoDup (map fst s) -> allowed null s op = true -> NoDup (map fst (after s op)).
Proof.
  intros D A. destruct op as [o v|o p|o p|o]; cbn [after allowed] in *.
  - apply andb_true_iff in A as [A _]. apply andb_true_iff in A as [A _]. apply negb_true_iff in A.
    cbn. constructor; [|exact D]. intros K. apply exists_fst in K. congruence.
  - apply andb_true_iff in A as [A _]. apply negb_true_iff in A.
    cbn. constructor; [|exact D]. intros K. apply exists_fst in K. congruence.
  - apply andb_true_iff in A as [A B]. apply negb_true_iff in A.
    destruct (owned_by s p) eqn:E; [|discriminate]. apply owned_exists in E.
    cbn. constructor; [|constructor].
    + intros [K|K]; [congruence|]. apply exists_fst in K. rewrite exists_without in K. apply andb_true_iff in K as [_ K].
      congruence.
    + intros K. apply exists_fst in K. rewrite exists_without, Nat.eqb_refl in K. discriminate.
    + now apply nodup_without.
  - now apply nodup_without.
Qed.

Lemma balance1 s op v : NoDup (map fst s) -> allowed null s op = true ->
  makes v [op] + alive_n s v = count_occ Nat.eq_dec (released s op) v + alive_n (after s op) v.
Proof.
  intros D A. destruct op as [o w|o p|o p|o]; cbn [after allowed released] in *; unfold makes; cbn [filter].
  - apply andb_true_iff in A as [_ A]. apply Nat.eqb_eq in A. unfold alive_n. rewrite owner_count_cons.
    unfold is_owner_of. cbn [snd]. destruct (Nat.eqb_spec w v) as [->|]; cbn; [|reflexivity]. now rewrite A.
  - apply andb_true_iff in A as [_ A]. cbn. unfold alive_n. rewrite owner_count_cons. unfold is_owner_of. cbn [snd].
    destruct (owned_by s p) as [w|] eqn:E; [|discriminate]. pose proof (owner_count_without s p v D) as W. rewrite E in W.
    destruct (Nat.eqb_spec w v) as [->|]; [|reflexivity]. cbn. rewrite W. reflexivity.
  - apply andb_true_iff in A as [_ A]. cbn. unfold alive_n. rewrite !owner_count_cons. unfold is_owner_of. cbn [snd].
    destruct (owned_by s p) as [w|] eqn:E; [|discriminate]. pose proof (owner_count_without s p v D) as W. rewrite E in W.
    rewrite W. reflexivity.
  - cbn [length]. unfold alive_n. pose proof (owner_count_without s o v D) as W.
    destruct (owned_by s o) as [w|] eqn:E.
    + destruct (Nat.eqb_spec w v) as [->|N].
      * rewrite W. destruct (owner_count (without s o) v) eqn:Z; cbn; [|reflexivity].
        destruct (Nat.eq_dec v v); [reflexivity|congruence].
      * cbn in W. rewrite W. destruct (Nat.eqb (owner_count s w) 1); cbn; [|reflexivity].
        destruct (Nat.eq_dec w v); [congruence|reflexivity].
    + cbn in W. now rewrite W.
Qed.

Lemma balance ops v : forall s, NoDup (map fst s) -> all_allowed null s ops = true ->
  makes v ops + alive_n s v = count_occ Nat.eq_dec (released_all s ops) v + alive_n (after_all s ops) v.
Proof.
  induction ops as [|op t IH]; intros s D A; [reflexivity|].
  cbn [all_allowed] in A. apply andb_true_iff in A as [A1 A2]. cbn [released_all after_all]. rewrite count_occ_app.
  pose proof (balance1 s op v D A1) as B. specialize (IH (after s op) (nodup_after s op D A1) A2).
  assert (M : makes v (op :: t) = makes v [op] + makes v t).
  { unfold makes. cbn [filter]. destruct op as [o w|? ?|? ?|?]; cbn; try reflexivity. now destruct (Nat.eqb w v). }
  lia.
Qed.

(* ---- moving the only owner *)
Lemma sole_ring s st p v : inv s st -> owned_by s p = Some v -> owner_count s v = 1 -> nxt (r_mem st) p = Some p.
Proof.
  intros I E C1. destruct (i_ring _ _ I p v E) as (Hn & Hv & r & [C D] & M).
  pose proof (ring_len _ _ _ _ _ I M D) as L. destruct r as [|x r]; [exact C|cbn in L; lia].
Qed.

Lemma move_sole_eq s st o p v fuel : inv s st -> exists_in s o = false -> owned_by s p = Some v -> owner_count s v = 1 ->
  exists n pr, move fuel st o p = Ok (RSt (Mem n pr (filter (fun b => negb (Nat.eqb b o)) (freed (r_mem st)))) (at_ (r_val st) o v) (r_log st))
    /\ n o = Some p /\ n p = None.
Proof.
  intros I A1 Ep C1. pose proof (sole_ring _ _ _ _ I Ep C1) as C.
  pose proof (owned_exists _ _ _ Ep) as Xp. pose proof (i_ok _ _ I p Xp) as Fp.
  destruct (i_ring _ _ I p v Ep) as (Hn & Hv & _).
  assert (Npo : p <> o) by (intros ->; congruence).
  unfold move. rewrite deref_ok by exact Fp. cbn [bind]. cbn zeta.
  rewrite (before_begin_ok _ p [] p).
  2:{ split; [reflexivity|]. exact C. }
  2:{ easy. }
  2:{ reflexivity. }
  2:{ intros x [<-|[]]. unfold born. cbn [r_mem]. rewrite freed_born, Fp. apply andb_false_r. }
  2:{ cbn. lia. }
  cbn [bind]. unfold if_replace_after, if_erase_after, if_insert_after, born. cbn [r_mem].
  rewrite next_ok by (rewrite freed_born, Fp; apply andb_false_r). cbn [bind nxt prv freed]. rewrite C.
  rewrite next_ok by (rewrite freed_born, Fp; apply andb_false_r). cbn [bind nxt prv freed].
  rewrite set_next_ok by (rewrite freed_born, Fp; apply andb_false_r). cbn [bind nxt prv freed].
  rewrite next_ok.
  2:{ rewrite (freed_nxt _ (nxt (r_mem st)) _ (prv (r_mem st))), freed_born, Fp. apply andb_false_r. }
  cbn [bind nxt prv freed]. rewrite at_eq, C.
  rewrite set_next_ok.
  2:{ rewrite (freed_nxt _ (nxt (r_mem st)) _ (prv (r_mem st))), freed_born, Fp. apply andb_false_r. }
  cbn [bind nxt prv freed].
  rewrite set_next_ok.
  2:{ rewrite (freed_nxt _ (nxt (r_mem st)) _ (prv (r_mem st))), freed_born, Nat.eqb_refl; reflexivity. }
  cbn [bind nxt prv freed].
  rewrite set_next_ok.
  2:{ rewrite (freed_nxt _ (nxt (r_mem st)) _ (prv (r_mem st))), freed_born, Fp. apply andb_false_r. }
  cbn [bind nxt prv freed]. unfold with_mem. cbn [r_val r_log]. rewrite Hv.
  do 2 eexists. split; [reflexivity|]. split.
  - rewrite at_neq by congruence. apply at_eq.
  - apply at_eq.
Qed.

Lemma circle_eq f st o n k w : circle null (S f) st o n k w =
  (n' <- next (r_mem st) n ;;
   if negb (peq n' (Some o)) then
     b <- is_shared null st n' ;; if b then circle null f st o n' (S k) w else circle null f st o n' k (S w)
   else Ok (n, k, w)).
Proof. reflexivity. Qed.
Lemma circle_dead st o p fuel k w : nxt (r_mem st) p = None -> circle null (S fuel) st o (Some p) k w = UB.
Proof. intros E. rewrite circle_eq. unfold next, deref. destruct (is_freed _ _); cbn; [reflexivity|]. now rewrite E. Qed.
Lemma circle_gone st o p fuel k w : is_freed (r_mem st) p = true -> circle null fuel st o (Some p) k w = UB.
Proof. intros E. destruct fuel; cbn [circle]; unfold next, deref; now rewrite E. Qed.

(* an owner o whose next p is gone or leads nowhere *)
Lemma drop_ub st o p fuel : is_freed (r_mem st) o = false -> nxt (r_mem st) o = Some p -> o <> p ->
  (is_freed (r_mem st) p = true \/ nxt (r_mem st) p = None) -> drop null (S (S fuel)) st o = UB.
Proof.
  intros Fo E N H. unfold drop. rewrite next_ok by exact Fo. cbn [bind]. rewrite E.
  assert (Q : peq (Some o) (Some p) = false).
  { destruct (peq (Some o) (Some p)) eqn:Q; [|reflexivity]. apply peq_spec in Q. congruence. }
  assert (Q' : peq (Some p) (Some o) = false).
  { destruct (peq (Some p) (Some o)) eqn:Q'; [|reflexivity]. apply peq_spec in Q'. congruence. }
  rewrite Q. rewrite circle_eq. rewrite next_ok by exact Fo. cbn [bind]. rewrite E, Q'. cbn [negb].
  unfold is_shared, deref. destruct (is_freed (r_mem st) p) eqn:Fp; [reflexivity|]. cbn [bind].
  destruct H as [H|H]; [discriminate|].
  destruct (negb (null _)); now rewrite circle_dead.
Qed.

Lemma move_sole_ub s st o p v fuel between : inv s st -> exists_in s o = false -> owned_by s p = Some v ->
  owner_count s v = 1 -> between = [] \/ between = [Drop p] ->
  r_run null (S (S fuel)) st (Move o p :: between ++ [Drop o]) = UB.
Proof.
  intros I A1 Ep C1 B. destruct (move_sole_eq s st o p v (S (S fuel)) I A1 Ep C1) as (n & pr & E & No & Np).
  pose proof (owned_exists _ _ _ Ep) as Xp. pose proof (i_ok _ _ I p Xp) as Fp.
  assert (Npo : p <> o) by (intros ->; congruence).
  assert (Fo : forall n' p' , is_freed (Mem n' p' (filter (fun b => negb (Nat.eqb b o)) (freed (r_mem st)))) o = false).
  { intros n' p'. rewrite (freed_nxt _ (nxt (r_mem st)) _ (prv (r_mem st))), freed_born, Nat.eqb_refl. reflexivity. }
  assert (Fp' : forall n' p' , is_freed (Mem n' p' (filter (fun b => negb (Nat.eqb b o)) (freed (r_mem st)))) p = false).
  { intros n' p'. rewrite (freed_nxt _ (nxt (r_mem st)) _ (prv (r_mem st))), freed_born, Fp. apply andb_false_r. }
  cbn [r_run r_step]. rewrite E. cbn [bind]. destruct B as [-> | ->]; cbn [app r_run r_step].
  - rewrite (drop_ub _ o p); [reflexivity|apply Fo|exact No|congruence|now right].
  - unfold drop at 1. cbn [r_mem]. rewrite next_ok by apply Fp'. cbn [bind nxt]. rewrite Np. cbn [bind].
    rewrite (drop_ub _ o p); [reflexivity| |exact No|congruence|left].
    + unfold gone, deallocate. cbn [r_mem nxt prv freed]. rewrite freed_gone, Fo.
      destruct (Nat.eqb_spec o p); [congruence|reflexivity].
    + unfold gone, deallocate. cbn [r_mem nxt prv freed]. rewrite freed_gone, Nat.eqb_refl. reflexivity.
Qed.

(* ... while the count says two *)
Lemma move_sole_count s st o p v fuel : inv s st -> exists_in s o = false -> owned_by s p = Some v ->
  owner_count s v = 1 -> exists st', move (S fuel) st o p = Ok st' /\ count_shared (S fuel) st' o = Ok 2.
Proof.
  intros I A1 Ep C1. destruct (move_sole_eq s st o p v (S fuel) I A1 Ep C1) as (n & pr & E & No & Np).
  pose proof (owned_exists _ _ _ Ep) as Xp. pose proof (i_ok _ _ I p Xp) as Fp.
  assert (Npo : p <> o) by (intros ->; congruence).
  assert (Fo : forall n' p' , is_freed (Mem n' p' (filter (fun b => negb (Nat.eqb b o)) (freed (r_mem st)))) o = false).
  { intros n' p'. rewrite (freed_nxt _ (nxt (r_mem st)) _ (prv (r_mem st))), freed_born, Nat.eqb_refl. reflexivity. }
  assert (Fp' : forall n' p' , is_freed (Mem n' p' (filter (fun b => negb (Nat.eqb b o)) (freed (r_mem st)))) p = false).
  { intros n' p'. rewrite (freed_nxt _ (nxt (r_mem st)) _ (prv (r_mem st))), freed_born, Fp. apply andb_false_r. }
  eexists. split; [exact E|]. unfold count_shared. cbn [count_loop r_mem]. rewrite next_ok by apply Fo.
  cbn [bind nxt]. rewrite No. destruct (Nat.eqb_spec p o) as [|_]; [congruence|].
  destruct fuel; cbn [count_loop]; rewrite next_ok by apply Fp'; cbn [bind nxt]; now rewrite Np.
Qed.

(* copying an owner that was moved from *)
Lemma copy_moved_ub s st o p fuel between : inv s st -> exists_in s o = false -> exists_in s p = true ->
  owned_by s p = None -> between = [] \/ between = [Drop o] ->
  r_run null (S (S fuel)) st (Copy o p :: between ++ [Drop p]) = UB.
Proof.
  intros I A1 Xp Ep B. pose proof (i_ok _ _ I p Xp) as Fp. pose proof (i_none _ _ I p Xp Ep) as Np.
  assert (Npo : p <> o) by (intros ->; congruence).
  assert (Fo : forall n' p' , is_freed (Mem n' p' (filter (fun b => negb (Nat.eqb b o)) (freed (r_mem st)))) o = false).
  { intros n' p'. rewrite (freed_nxt _ (nxt (r_mem st)) _ (prv (r_mem st))), freed_born, Nat.eqb_refl. reflexivity. }
  assert (Fp' : forall n' p' , is_freed (Mem n' p' (filter (fun b => negb (Nat.eqb b o)) (freed (r_mem st)))) p = false).
  { intros n' p'. rewrite (freed_nxt _ (nxt (r_mem st)) _ (prv (r_mem st))), freed_born, Fp. apply andb_false_r. }
  cbn [r_run r_step]. unfold copy. rewrite deref_ok by exact Fp. cbn [bind]. cbn zeta. unfold if_insert_after, born. cbn [r_mem].
  rewrite next_ok by apply Fp'. cbn [bind]. rewrite set_next_ok by apply Fp'. cbn [bind nxt prv freed].
  rewrite set_next_ok by apply Fo. cbn [bind nxt prv freed]. rewrite Np. unfold with_mem. cbn [r_val r_log].
  destruct B as [-> | ->]; cbn [app r_run r_step].
  - rewrite (drop_ub _ p o); [reflexivity|apply Fp'| |exact Npo|right].
    + cbn [r_mem nxt]. rewrite at_neq by exact Npo. apply at_eq.
    + cbn [r_mem nxt]. apply at_eq.
  - unfold drop at 1. cbn [r_mem]. rewrite next_ok by apply Fo. cbn [bind nxt]. rewrite at_eq. cbn [bind].
    rewrite (drop_ub _ p o); [reflexivity| | |exact Npo|left]; unfold gone, deallocate; cbn [r_mem nxt prv freed].
    + rewrite freed_gone, Fp'. destruct (Nat.eqb_spec p o); [congruence|reflexivity].
    + rewrite at_neq by exact Npo. apply at_eq.
    + rewrite freed_gone, Nat.eqb_refl. reflexivity.
Qed.
End Inv.

(* a null value: the first of two owners to go destroys it, the second does not *)
Lemma null_early null st v p o fuel : null v = true -> p <> o ->
  exists st', r_run null (S (S fuel)) st [Make p v; Copy o p; Drop p] = Ok st' /\ r_log st' = r_log st ++ [v] /\
  exists st'', r_run null (S (S fuel)) st' [Drop o] = Ok st'' /\ r_log st'' = r_log st ++ [v].
Proof.
  intros Hv N.
  assert (Fb : forall n q fr a, is_freed (Mem n q (filter (fun b => negb (Nat.eqb b a)) fr)) a = false).
  { intros n q fr a. pose proof (freed_born (Mem n q fr) a a) as K. cbn [nxt prv freed] in K. rewrite K, Nat.eqb_refl. reflexivity. }
  assert (Fc : forall n q fr a b, is_freed (Mem n q fr) b = false -> is_freed (Mem n q (filter (fun x => negb (Nat.eqb x a)) fr)) b = false).
  { intros n q fr a b Hb. pose proof (freed_born (Mem n q fr) a b) as K. cbn [nxt prv freed] in K. rewrite K, Hb. apply andb_false_r. }
  cbn [r_run r_step]. unfold make. cbn zeta. unfold born at 1. cbn [r_mem].
  rewrite set_next_ok by apply Fb. cbn [bind]. unfold with_mem, born. cbn [r_mem r_val r_log nxt prv freed].
  unfold copy at 1. cbn [r_mem]. rewrite deref_ok by apply Fb. cbn [bind]. cbn zeta. unfold born, if_insert_after. cbn [r_mem r_val r_log nxt prv freed].
  rewrite next_ok by (apply Fc, Fb). cbn [bind nxt prv freed].
  rewrite set_next_ok by (apply Fc, Fb). cbn [bind nxt prv freed].
  rewrite set_next_ok by apply Fb. cbn [bind nxt prv freed]. rewrite !at_eq.
  unfold with_mem at 1. cbn [r_val r_log].
  unfold drop. cbn [r_mem].
  rewrite next_ok by (apply Fc, Fb). cbn [bind nxt prv freed]. rewrite at_neq by exact N. rewrite at_eq.
  assert (Q1 : peq (Some p) (Some o) = false).
  { destruct (peq (Some p) (Some o)) eqn:Q; [apply peq_spec in Q; congruence|reflexivity]. }
  assert (Q2 : peq (Some o) (Some p) = false).
  { destruct (peq (Some o) (Some p)) eqn:Q; [apply peq_spec in Q; congruence|reflexivity]. }
  rewrite Q1. rewrite circle_eq. cbn [r_mem].
  rewrite next_ok by (apply Fc, Fb). cbn [bind nxt prv freed]. rewrite at_neq by exact N. rewrite at_eq, Q2. cbn [negb].
  unfold is_shared. cbn [r_mem r_val]. rewrite deref_ok by apply Fb. cbn [bind]. rewrite at_eq, Hv. cbn [negb].
  rewrite circle_eq. cbn [r_mem]. rewrite next_ok by apply Fb. cbn [bind nxt]. rewrite at_eq, peq_refl. cbn [negb bind].
  unfold if_erase_after. cbn [r_mem]. rewrite next_ok by apply Fb. cbn [bind nxt prv freed]. rewrite at_eq.
  rewrite next_ok by (apply Fc, Fb). cbn [bind nxt prv freed]. rewrite at_neq by exact N. rewrite at_eq.
  rewrite set_next_ok by apply Fb. cbn [bind nxt prv freed]. cbn zeta. cbn [Nat.eqb Nat.ltb Nat.leb unlink].
  rewrite next_ok by apply Fb. cbn [bind nxt prv freed]. rewrite at_eq.
  rewrite set_next_ok by apply Fb. cbn [bind nxt prv freed unlink].
  rewrite next_ok by apply Fb. cbn [bind nxt prv freed]. rewrite at_eq.
  rewrite set_next_ok by apply Fb. cbn [bind nxt prv freed].
  assert (U : forall f m, unlink f m None = Ok m) by (intros [|f] m; reflexivity). rewrite ?U. cbn [bind].
  eexists. split; [reflexivity|]. unfold gone, with_mem, destruct_, deallocate. cbn [r_mem r_val r_log nxt prv freed].
  rewrite !at_eq. rewrite (at_neq _ _ o _ p N), !at_eq. split; [reflexivity|].
  rewrite next_ok.
  2:{ rewrite freed_gone. rewrite Fb. destruct (Nat.eqb_spec o p); [congruence|reflexivity]. }
  cbn [bind nxt]. rewrite at_eq. eexists. split; reflexivity.
Qed.
