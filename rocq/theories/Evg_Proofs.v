From Coq Require Import List Arith Bool ZArith Lia.
From Verif Require Import Base Evg_Spec Evg_Model.
Import ListNotations.

(* ---- flags ---- *)
Lemma some_bit : forall x, x <> 0%Z -> exists k, (0 <= k)%Z /\ Z.testbit x k = true.
Proof.
  intros x Hx. destruct (Z_lt_le_dec 0 x) as [Hp|Hn].
  - exists (Z.log2 x). split; [apply Z.log2_nonneg | apply Z.bit_log2; auto].
  - exists (Z.succ (Z.log2 (Z.pred (- x)))). split.
    + pose proof (Z.log2_nonneg (Z.pred (- x))). lia.
    + apply Z.bits_above_log2_neg; lia.
Qed.
Lemma ready_met : forall all want b, ready all want b = true <-> met all want b.
Proof.
  intros [|] wnt b; unfold ready, met.
  - rewrite Z.eqb_eq. split.
    + intros H k Hk Hw. rewrite <- H in Hw. rewrite Z.land_spec in Hw. apply andb_true_iff in Hw. tauto.
    + intros H. apply Z.bits_inj'. intros k Hk. rewrite Z.land_spec.
      destruct (Z.testbit wnt k) eqn:E; [rewrite (H k Hk E); reflexivity | apply andb_false_r].
  - rewrite negb_true_iff, Z.eqb_neq. split.
    + intros H. destruct (some_bit _ H) as [k [Hk Hb]]. rewrite Z.land_spec in Hb.
      apply andb_true_iff in Hb. exists k. tauto.
    + intros [k [Hk [Hw Hb]]] E. assert (Z.testbit (Z.land b wnt) k = true) by (rewrite Z.land_spec, Hw, Hb; reflexivity).
      rewrite E, Z.bits_0 in H. discriminate.
Qed.
Lemma ready_not : forall all want b, ready all want b = false <-> ~ met all want b.
Proof. intros al wn b. rewrite <- ready_met. destruct (ready al wn b); split; congruence. Qed.
Lemma unset_spec : forall b c k, (0 <= k)%Z -> Z.testbit (unset b c) k = Z.testbit b k && negb (Z.testbit c k).
Proof. intros. unfold unset. rewrite Z.land_spec, Z.lnot_spec; auto. Qed.
Lemma met_mono : forall all want b b', (forall k, (0 <= k)%Z -> Z.testbit b k = true -> Z.testbit b' k = true) ->
  met all want b -> met all want b'.
Proof.
  intros [|] wnt b b' H; unfold met.
  - intros M k Hk Hw. auto.
  - intros [k [Hk [Hw Hb]]]. exists k. auto.
Qed.
Lemma ready_unset : forall all want b c, ready all want b = false -> ready all want (unset b c) = false.
Proof.
  intros. rewrite ready_not in *. intro M. apply H. eapply met_mono; [| exact M].
  intros k Hk. rewrite unset_spec by auto. intro E. apply andb_true_iff in E. tauto.
Qed.
Lemma to_clear_spec : forall ws k, (0 <= k)%Z -> Z.testbit (to_clear ws) k = true <->
  exists x, In x ws /\ wclear x = true /\ Z.testbit (want x) k = true.
Proof.
  induction ws as [|x ws IH]; intros k Hk; cbn [to_clear fold_right].
  - rewrite Z.bits_0. split; [discriminate | intros [x [[] _]]].
  - fold (to_clear ws). rewrite Z.lor_spec, orb_true_iff, IH by auto. split.
    + intros [H|[y [Hy H]]].
      * exists x. destruct (wclear x); [cbn; auto | rewrite Z.bits_0 in H; discriminate].
      * exists y. cbn. tauto.
    + intros [y [[<-|Hy] [C H]]].
      * left. rewrite C. auto.
      * right. exists y. auto.
Qed.

(* ---- completing ---- *)
Definition entry (w : world) (r : Z) (x : waiter) : nat * eop * Z * bool :=
  (who x, hd (SetBits 0) (todo w (who x)), r, false).
Lemma complete_spec : forall w t r e o l, todo w t = o :: l ->
  complete w t r e = World (bits w) (waiting w) (pop (todo w) t) (hist w ++ [(t, o, r, e)]).
Proof. intros. unfold complete. rewrite H. reflexivity. Qed.
Lemma complete_all_spec : forall ws w r, NoDup (map who ws) -> (forall x, In x ws -> todo w (who x) <> []) ->
  bits (complete_all w ws r) = bits w /\ waiting (complete_all w ws r) = waiting w /\
  hist (complete_all w ws r) = hist w ++ map (entry w r) ws /\
  (forall t, In t (map who ws) -> todo (complete_all w ws r) t = tl (todo w t)) /\
  (forall t, ~ In t (map who ws) -> todo (complete_all w ws r) t = todo w t).
Proof.
  induction ws as [|x ws IH]; intros w r ND NE; cbn [complete_all map].
  - rewrite app_nil_r. repeat split; auto. intros t [].
  - inversion ND as [|? ? Hx ND']; subst.
    destruct (todo w (who x)) as [|o l] eqn:E; [exfalso; apply (NE x); cbn; auto|].
    rewrite (complete_spec _ _ _ _ _ _ E).
    set (w1 := World _ _ _ _).
    assert (T : forall t, t <> who x -> todo w1 t = todo w t).
    { intros t Ht. cbn. unfold pop. destruct (t =? who x) eqn:Q; [apply Nat.eqb_eq in Q; lia | auto]. }
    destruct (IH w1 r ND') as [B [W [Hh [T1 T2]]]].
    { intros y Hy. rewrite T; [apply NE; cbn; auto|]. intro Q. apply Hx. rewrite <- Q. apply in_map; auto. }
    rewrite B, W, Hh. repeat split.
    + cbn [hist w1]. rewrite <- app_assoc. f_equal. cbn [app]. f_equal.
      * unfold entry. rewrite E. reflexivity.
      * apply map_ext_in. intros y Hy. unfold entry. rewrite T; auto.
        intro Q. apply Hx. rewrite <- Q. apply in_map; auto.
    + intros t [<-|Ht].
      * rewrite T2 by auto. cbn. unfold pop. rewrite Nat.eqb_refl. reflexivity.
      * rewrite T1 by auto. rewrite T; auto. intro Q. subst. auto.
    + intros t Ht. rewrite T2 by (intro Q; apply Ht; cbn; auto). apply T. intro Q. apply Ht. cbn. auto.
Qed.

Lemma filter_part : forall (A : Type) (f : A -> bool) l x, In x l -> In x (filter f l) \/ In x (filter (fun y => negb (f y)) l).
Proof. intros. destruct (f x) eqn:E; [left | right]; apply filter_In; rewrite ?E; auto. Qed.
Lemma NoDup_map_filter : forall (A : Type) (g : A -> nat) f l, NoDup (map g l) -> NoDup (map g (filter f l)).
Proof.
  induction l as [|a l IH]; intros ND; cbn; [constructor|]. inversion ND; subst.
  destruct (f a); cbn; auto. constructor; auto. intro Q. apply H1.
  apply in_map_iff in Q. destruct Q as [y [<- Hy]]. apply in_map. apply filter_In in Hy. tauto.
Qed.
Lemma NoDup_map_eq : forall (A : Type) (g : A -> nat) l x y, NoDup (map g l) -> In x l -> In y l -> g x = g y -> x = y.
Proof.
  induction l as [|a l IH]; intros x y ND Hx Hy E; [destruct Hx|]. inversion ND; subst.
  destruct Hx as [->|Hx], Hy as [->|Hy]; auto.
  - exfalso. apply H1. rewrite E. apply in_map; auto.
  - exfalso. apply H1. rewrite <- E. apply in_map; auto.
Qed.
Lemma NoDup_app_one : forall (A : Type) (l : list A) x, NoDup l -> ~ In x l -> NoDup (l ++ [x]).
Proof.
  intros A l x ND N. apply NoDup_rev in ND. rewrite <- (rev_involutive (l ++ [x])). apply NoDup_rev.
  rewrite rev_app_distr. cbn. constructor; auto. rewrite <- in_rev. auto.
Qed.
Lemma waiting_in : forall w t, is_waiting w t = true <-> In t (map who (waiting w)).
Proof.
  intros. unfold is_waiting. rewrite existsb_exists, in_map_iff. split.
  - intros [x [Hx E]]. apply Nat.eqb_eq in E. exists x. auto.
  - intros [x [E Hx]]. exists x. rewrite E, Nat.eqb_refl. auto.
Qed.

(* ---- the invariant ---- *)
Definition linked (w : world) (x : waiter) : Prop :=
  exists o l, todo w (who x) = o :: l /\ waits_for o = Some (wall x, want x) /\ clears o = wclear x.
Definition entry_ok (e : nat * eop * Z * bool) : Prop :=
  forall a wnt, waits_for (snd (fst (fst e))) = Some (a, wnt) -> ready a wnt (snd (fst e)) = negb (snd e).
Record inv (w : world) : Prop := {
  i_unmet : forall x, In x (waiting w) -> ready (wall x) (want x) (bits w) = false;
  i_link : forall x, In x (waiting w) -> linked w x;
  i_nodup : NoDup (map who (waiting w));
  i_hist : Forall entry_ok (hist w) }.

(* what a set does *)
Lemma set_bits_spec : forall w b, inv w ->
  let nb := Z.lor (bits w) b in
  let woken := filter (fun x => ready (wall x) (want x) nb) (waiting w) in
  let rest := filter (fun x => negb (ready (wall x) (want x) nb)) (waiting w) in
  bits (set_bits w b) = unset nb (to_clear woken) /\ waiting (set_bits w b) = rest /\
  hist (set_bits w b) = hist w ++ map (entry w nb) woken /\
  (forall t, In t (map who woken) -> todo (set_bits w b) t = tl (todo w t)) /\
  (forall t, ~ In t (map who woken) -> todo (set_bits w b) t = todo w t).
Proof.
  intros w b I nb woken rest. unfold set_bits. fold nb. fold woken. fold rest.
  set (w0 := World _ _ _ _).
  destruct (complete_all_spec woken w0 nb) as [B [W [Hh [T1 T2]]]].
  - apply NoDup_map_filter, I.
  - intros x Hx. apply filter_In in Hx. destruct (i_link _ I x) as [o [l [E _]]]; [tauto|]. cbn. congruence.
  - rewrite B, W, Hh. repeat split; auto.
Qed.
Lemma entries_ok : forall w nb ws, inv w ->
  (forall x, In x ws -> In x (waiting w) /\ ready (wall x) (want x) nb = true) -> Forall entry_ok (map (entry w nb) ws).
Proof.
  intros w nb ws I Hw. apply Forall_forall. intros e He. apply in_map_iff in He. destruct He as [x [<- Hx]].
  destruct (Hw x Hx) as [Hx1 R]. destruct (i_link _ I x Hx1) as [o [l [E [F C]]]].
  unfold entry_ok, entry. rewrite E. cbn. intros a wnt Q. rewrite F in Q. inversion Q; subst. exact R.
Qed.
Lemma set_bits_inv : forall w b, inv w -> inv (set_bits w b).
Proof.
  intros w b I. destruct (set_bits_spec w b I) as [B [W [Hh [T1 T2]]]]. cbn zeta in *.
  set (nb := Z.lor (bits w) b) in *. constructor.
  - rewrite W, B. intros x Hx. apply filter_In in Hx. destruct Hx as [Hx R].
    apply negb_true_iff in R. apply ready_unset; auto.
  - rewrite W. intros x Hx. apply filter_In in Hx. destruct Hx as [Hx R].
    destruct (i_link _ I x Hx) as [o [l [E [F C]]]]. exists o, l. rewrite T2; auto.
    intro Q. apply in_map_iff in Q. destruct Q as [y [Ey Hy]]. apply filter_In in Hy. destruct Hy as [Hy Ry].
    assert (x = y). { apply (NoDup_map_eq waiter who (waiting w)); auto. apply I. }
    subst. rewrite Ry in R. discriminate.
  - rewrite W. apply NoDup_map_filter, I.
  - rewrite Hh. apply Forall_app. split; [apply I|]. apply entries_ok; auto.
    intros x Hx. apply filter_In in Hx. tauto.
Qed.
Lemma set_bits_other : forall w b t, inv w -> ~ In t (map who (waiting w)) ->
  todo (set_bits w b) t = todo w t /\ ~ In t (map who (waiting (set_bits w b))).
Proof.
  intros w b t I N. destruct (set_bits_spec w b I) as [B [W [Hh [T1 T2]]]]. cbn zeta in *.
  assert (S1 : forall f, ~ In t (map who (filter f (waiting w)))).
  { intros f Q. apply N. apply in_map_iff in Q. destruct Q as [x [<- Hx]]. apply filter_In in Hx. apply in_map. tauto. }
  split; [apply T2, S1 | rewrite W; apply S1].
Qed.
Lemma complete_inv : forall w t o l r e, inv w -> todo w t = o :: l -> ~ In t (map who (waiting w)) ->
  entry_ok (t, o, r, e) -> inv (complete w t r e).
Proof.
  intros w t o l r e I E N K. rewrite (complete_spec _ _ _ _ _ _ E). constructor; cbn.
  - apply I.
  - intros x Hx. destruct (i_link _ I x Hx) as [o' [l' [E' FC]]]. exists o', l'. cbn. unfold pop.
    destruct (who x =? t) eqn:Q; auto. apply Nat.eqb_eq in Q. exfalso. apply N. rewrite <- Q. apply in_map; auto.
  - apply I.
  - apply Forall_app. split; [apply I | constructor; auto].
Qed.
Lemma less_inv : forall w b', inv w -> inv (World (unset (bits w) b') (waiting w) (todo w) (hist w)).
Proof.
  intros w b' I. constructor; cbn; try apply I. intros x Hx. apply ready_unset, I; auto.
Qed.
Lemma block_inv : forall w t o l wnt cl al, inv w -> todo w t = o :: l -> ~ In t (map who (waiting w)) ->
  waits_for o = Some (al, wnt) -> clears o = cl -> ready al wnt (bits w) = false ->
  inv (World (bits w) (waiting w ++ [Waiter t wnt cl al]) (todo w) (hist w)).
Proof.
  intros w t o l wnt cl al I E N F C R. constructor; cbn.
  - intros x Hx. apply in_app_or in Hx. destruct Hx as [Hx|[<-|[]]]; [apply I; auto | auto].
  - intros x Hx. apply in_app_or in Hx. destruct Hx as [Hx|[<-|[]]]; [apply (i_link _ I x Hx) | exists o, l; auto].
  - rewrite map_app. cbn. apply NoDup_app_one; [apply I | auto].
  - apply I.
Qed.
Lemma ok_plain : forall t o r e, waits_for o = None -> entry_ok (t, o, r, e).
Proof. intros. intros a wnt Q. cbn in Q. congruence. Qed.
Lemma ok_wait : forall t o r e a wnt, waits_for o = Some (a, wnt) -> ready a wnt r = negb e -> entry_ok (t, o, r, e).
Proof. intros t o r e a wnt F R a' wnt' Q. cbn in *. rewrite F in Q. inversion Q; subst. auto. Qed.

Lemma turn_inv : forall w t e w', inv w -> turn w t e = Some w' -> inv w'.
Proof.
  intros w t e w' I. unfold turn. destruct (todo w t) as [|o l] eqn:E; [discriminate|].
  destruct (is_waiting w t) eqn:Wt.
  - destruct (e && negb (patient o)); [|discriminate]. intro Q; inversion Q; subst; clear Q.
    apply waiting_in, in_map_iff in Wt. destruct Wt as [x [Ex Hx]].
    destruct (i_link _ I x Hx) as [o' [l' [E' [F C]]]]. rewrite Ex, E in E'. inversion E'; subst o' l'.
    set (w0 := World _ _ _ _).
    assert (I0 : inv w0).
    { constructor; cbn.
      - intros y Hy. apply filter_In in Hy. apply I; tauto.
      - intros y Hy. apply filter_In in Hy. apply (i_link _ I y); tauto.
      - apply NoDup_map_filter, I.
      - apply I. }
    eapply complete_inv; eauto.
    + cbn. intro Q. apply in_map_iff in Q. destruct Q as [y [Ey Hy]]. apply filter_In in Hy. destruct Hy as [_ Hy].
      rewrite Ey, Nat.eqb_refl in Hy. discriminate.
    + eapply ok_wait; eauto. cbn. apply (i_unmet _ I x Hx).
  - intro Q; inversion Q; subst; clear Q.
    assert (N : ~ In t (map who (waiting w))) by (rewrite <- waiting_in; congruence).
    destruct o as [b|b|wnt cl al d|b wnt d].
    + destruct (set_bits_other w b t I N) as [T N'].
      eapply complete_inv; [apply set_bits_inv; auto | rewrite T; eauto | auto | apply ok_plain; auto].
    + eapply complete_inv; [apply less_inv; auto | cbn; eauto | auto | apply ok_plain; auto].
    + unfold wait_bits. destruct (ready al wnt (bits w)) eqn:R.
      * eapply complete_inv; [| cbn; eauto | auto | eapply ok_wait; cbn; eauto].
        destruct cl; [apply less_inv; auto | destruct w; exact I].
      * destruct (no_wait d).
        -- eapply complete_inv; [auto | eauto | auto | eapply ok_wait; cbn; eauto].
        -- eapply block_inv; eauto.
    + unfold sync. destruct (set_bits_other w b t I N) as [T N'].
      pose proof (set_bits_inv w b I) as I1.
      destruct (ready true wnt (Z.lor (bits w) b)) eqn:R.
      * eapply complete_inv; [apply less_inv; auto | cbn; rewrite T; eauto | auto | eapply ok_wait; cbn; eauto].
      * assert (R' : ready true wnt (bits (set_bits w b)) = false).
        { destruct (set_bits_spec w b I) as [B _]. rewrite B. apply ready_unset; auto. }
        destruct (no_wait d).
        -- eapply complete_inv; [auto | rewrite T; eauto | auto | eapply ok_wait; cbn; eauto].
        -- eapply block_inv; [auto | rewrite T; eauto | auto | reflexivity | reflexivity | auto].
Qed.
Lemma run_inv : forall sched w, inv w -> inv (run w sched).
Proof.
  induction sched as [|[t e] r IH]; intros w I; cbn; auto.
  apply IH. destruct (turn w t e) eqn:E; auto. eapply turn_inv; eauto.
Qed.
Lemma start_inv : forall ps, inv (start ps).
Proof. intros. constructor; cbn; try constructor; intros x []. Qed.

(* ---- no patience, and patience for ever ---- *)
Definition hasty (o : eop) : bool := match o with WaitBits _ _ _ (Some 0) | Sync _ _ (Some 0) => true | _ => false end.
Definition pat (e : nat * eop * Z * bool) : Prop :=
  let '(_, o, _, ex) := e in match o with WaitBits _ _ _ None | Sync _ _ None => ex = false | _ => True end.
Definition calm (w : world) : Prop :=
  inv w /\ (forall x o l, In x (waiting w) -> todo w (who x) = o :: l -> hasty o = false) /\ Forall pat (hist w).
Lemma pat_plain : forall t o r, pat (t, o, r, false).
Proof. intros t [b|b|w c a [n|]|s w [n|]] r; cbn; auto. Qed.
Lemma pat_expired : forall t o r, (forall w c a, o <> WaitBits w c a None) -> (forall s w, o <> Sync s w None) -> pat (t, o, r, true).
Proof. intros t [b|b|w c a [n|]|s w [n|]] r A B; cbn; auto; exfalso; [eapply A|eapply B]; reflexivity. Qed.
Lemma complete_calm : forall w t o l r e, calm w -> todo w t = o :: l -> ~ In t (map who (waiting w)) ->
  pat (t, o, r, e) -> inv (complete w t r e) -> calm (complete w t r e).
Proof.
  intros w t o l r e [I [H P]] E N K I'. split; [exact I'|]. rewrite (complete_spec _ _ _ _ _ _ E). cbn [waiting todo hist]. split.
  - intros x o' l' Hx Q. unfold pop in Q. destruct (who x =? t) eqn:W; [|eapply H; eauto].
    apply Nat.eqb_eq in W. exfalso. apply N. rewrite <- W. apply in_map; auto.
  - apply Forall_app. split; auto.
Qed.
Lemma set_bits_calm : forall w b, calm w -> calm (set_bits w b).
Proof.
  intros w b [I [H P]]. split; [apply set_bits_inv, I|]. destruct (set_bits_spec w b I) as [B [W [Hh [T1 T2]]]]. cbn zeta in *.
  rewrite W, Hh. split.
  - intros x o l Hx Q. pose proof Hx as Hx0. apply filter_In in Hx. destruct Hx as [Hx R]. rewrite T2 in Q; [eapply H; eauto|].
    intro C. apply in_map_iff in C. destruct C as [y [Ey Hy]]. apply filter_In in Hy. destruct Hy as [Hy Ry].
    rewrite (NoDup_map_eq _ _ _ _ _ (i_nodup _ I) Hy Hx Ey) in Ry. rewrite Ry in R. discriminate.
  - apply Forall_app. split; auto. apply Forall_forall. intros e He. apply in_map_iff in He. destruct He as [x [<- _]].
    unfold entry. apply pat_plain.
Qed.
Lemma turn_calm : forall w t e w', calm w -> turn w t e = Some w' -> calm w'.
Proof.
  intros w t e w' C Q. pose proof C as [I [H P]]. pose proof (turn_inv w t e w' I Q) as I'. revert Q.
  unfold turn. destruct (todo w t) as [|o l] eqn:E; [discriminate|]. destruct (is_waiting w t) eqn:Wt.
  - destruct (e && negb (patient o)) eqn:G; [|discriminate]. intro Q; inversion Q; subst; clear Q.
    apply andb_true_iff in G. destruct G as [_ G]. apply negb_true_iff in G.
    assert (M : forall w0, ~ In t (map who (filter (fun x => negb (who x =? t)) w0))).
    { intros w0 Q. apply in_map_iff in Q. destruct Q as [y [Ey Hy]]. apply filter_In in Hy. destruct Hy as [_ Hy].
      rewrite Ey, Nat.eqb_refl in Hy. discriminate. }
    eapply complete_calm; [| exact E | apply M | | exact I'].
    + split; [|split; auto]. { constructor; cbn.
        - intros y Hy. apply filter_In in Hy. apply I; tauto.
        - intros y Hy. apply filter_In in Hy. apply (i_link _ I y); tauto.
        - apply NoDup_map_filter, I.
        - apply I. }
      cbn. intros x o' l' Hx. apply filter_In in Hx. apply H; tauto.
    + apply pat_expired; intros; intro; subst; discriminate.
  - intro Q; inversion Q; subst; clear Q.
    assert (N : ~ In t (map who (waiting w))) by (rewrite <- waiting_in; congruence).
    destruct o as [b|b|wnt cl al d|b wnt d].
    + destruct (set_bits_other w b t I N) as [T N']. eapply complete_calm; eauto using set_bits_calm. rewrite T; eauto. apply pat_plain.
    + eapply complete_calm; [| exact E | exact N | apply pat_plain | exact I']. split; [apply less_inv, I|split; auto].
    + unfold wait_bits in *. destruct (ready al wnt (bits w)) eqn:R.
      * eapply complete_calm; [| exact E | exact N | apply pat_plain | exact I'].
        split; [|split; auto]. destruct cl; [apply less_inv; auto | destruct w; exact I].
      * destruct (no_wait d) eqn:D.
        -- eapply complete_calm; eauto. destruct d as [n|]; [exact Logic.I|discriminate].
        -- split; [exact I'|]. cbn. split; [|exact P]. intros x o' l' Hx. apply in_app_or in Hx. destruct Hx as [Hx|[<-|[]]]; [apply H; auto|].
           cbn. rewrite E. intros Q. inversion Q; subst. destruct d as [[|n]|]; [discriminate|reflexivity|reflexivity].
    + destruct (set_bits_other w b t I N) as [T N']. destruct (set_bits_calm w b C) as [I1 [H1 P1]].
      unfold sync in *. destruct (ready true wnt (Z.lor (bits w) b)) eqn:R.
      * eapply complete_calm; [| cbn; rewrite T; exact E | exact N' | apply pat_plain | exact I'].
        split; [apply less_inv, I1|split; auto].
      * destruct (no_wait d) eqn:D.
        -- eapply complete_calm; [split; [exact I1|split; auto] | rewrite T; exact E | exact N' | | exact I']. destruct d as [n|]; [exact Logic.I|discriminate].
        -- split; [exact I'|]. cbn. split; [|exact P1]. intros x o' l' Hx. apply in_app_or in Hx. destruct Hx as [Hx|[<-|[]]]; [apply H1; auto|].
           cbn. rewrite T, E. intros Q. inversion Q; subst. destruct d as [[|n]|]; [discriminate|reflexivity|reflexivity].
Qed.
Lemma run_calm : forall sched w, calm w -> calm (run w sched).
Proof.
  induction sched as [|[t e] r IH]; intros w I; cbn; auto.
  apply IH. destruct (turn w t e) eqn:E; auto. eapply turn_calm; eauto.
Qed.
Lemma start_calm : forall ps, calm (start ps).
Proof. intros. split; [apply start_inv|]. split; [intros x o l []|constructor]. Qed.

(* ---- where flags come from and where they go ---- *)
Lemma taken_woken : forall w nb ws k, inv w -> (0 <= k)%Z -> (forall x, In x ws -> In x (waiting w)) ->
  existsb (takes k) (map (entry w nb) ws) = Z.testbit (to_clear ws) k.
Proof.
  intros w nb ws k I Hk. induction ws as [|x ws IH]; intros Hw; cbn [map existsb to_clear fold_right].
  - rewrite Z.bits_0. reflexivity.
  - fold (to_clear ws). rewrite IH by (intros; apply Hw; cbn; auto). rewrite Z.lor_spec. f_equal.
    destruct (i_link _ I x) as [o [l [E [F C]]]]; [apply Hw; cbn; auto|].
    unfold entry. rewrite E. cbn [hd]. rewrite <- C.
    destruct o as [b|b|wnt [|] al d|b wnt d]; cbn in *; inversion F; subst; rewrite ?Z.bits_0; reflexivity.
Qed.
Lemma turn_flags : forall w t e w', inv w -> turn w t e = Some w' -> exists o l new,
  todo w t = o :: l /\ hist w' = hist w ++ new /\
  forall k, (0 <= k)%Z -> Z.testbit (bits w') k =
    (Z.testbit (bits w) k || negb (is_waiting w t) && sets o k) && negb (existsb (takes k) new).
Proof.
  intros w t e w' I. unfold turn. destruct (todo w t) as [|o l] eqn:E; [discriminate|].
  destruct (is_waiting w t) eqn:Wt.
  - destruct (e && negb (patient o)); [|discriminate]. intro Q; inversion Q; subst; clear Q.
    exists o, l, [(t, o, bits w, true)]. split; auto. erewrite complete_spec by (cbn; eauto). cbn [hist bits]. split; auto.
    intros k Hk. apply waiting_in, in_map_iff in Wt. destruct Wt as [x [Ex Hx]].
    destruct (i_link _ I x Hx) as [o' [l' [E' [F C]]]]. rewrite Ex, E in E'. inversion E'; subst o' l'.
    destruct o as [b|b|wnt [|] al d|b wnt d]; cbn in *; try discriminate; rewrite ?orb_false_r, ?andb_true_r; reflexivity.
  - intro Q; inversion Q; subst; clear Q.
    assert (N : ~ In t (map who (waiting w))) by (rewrite <- waiting_in; congruence).
    assert (SB : forall b k, (0 <= k)%Z -> exists new, hist (set_bits w b) = hist w ++ new /\
      Z.testbit (bits (set_bits w b)) k = (Z.testbit (bits w) k || Z.testbit b k) && negb (existsb (takes k) new)).
    { intros b k Hk. destruct (set_bits_spec w b I) as [B [W [Hh [T1 T2]]]]. cbn zeta in *.
      eexists. split; [exact Hh|]. rewrite B, unset_spec, Z.lor_spec by auto.
      rewrite taken_woken; auto. intros x Hx. apply filter_In in Hx. tauto. }
    destruct o as [b|b|wnt cl al d|b wnt d].
    + destruct (set_bits_other w b t I N) as [T N'].
      destruct (set_bits_spec w b I) as [B [W [Hh [T1 T2]]]]. cbn zeta in *.
      do 2 eexists. exists (map (entry w (Z.lor (bits w) b)) (filter (fun x => ready (wall x) (want x) (Z.lor (bits w) b)) (waiting w))
                     ++ [(t, SetBits b, bits (set_bits w b), false)]).
      split; [reflexivity|]. erewrite complete_spec by (rewrite T; eauto). cbn [hist bits].
      split; [rewrite Hh, app_assoc; reflexivity|]. intros k Hk.
      rewrite existsb_app, taken_woken by (auto; intros x Hx; apply filter_In in Hx; tauto).
      rewrite B, unset_spec, Z.lor_spec by auto. cbn. rewrite orb_false_r. reflexivity.
    + do 2 eexists. exists [(t, ClearBits b, bits w, false)].
      split; [reflexivity|]. erewrite complete_spec by (cbn; eauto). cbn [hist bits clear_bits].
      split; [reflexivity|]. intros k Hk. rewrite unset_spec by auto. cbn. rewrite !orb_false_r. reflexivity.
    + unfold wait_bits. destruct (ready al wnt (bits w)) eqn:R.
      * do 2 eexists. exists [(t, WaitBits wnt cl al d, bits w, false)].
        split; [reflexivity|]. erewrite complete_spec by (cbn; eauto). cbn [hist bits].
        split; [reflexivity|]. intros k Hk. cbn. rewrite !orb_false_r.
        destruct cl; [apply unset_spec; auto | rewrite andb_true_r; reflexivity].
      * destruct (no_wait d).
        -- do 2 eexists. exists [(t, WaitBits wnt cl al d, bits w, true)].
           split; [reflexivity|]. erewrite complete_spec by (cbn; eauto). cbn [hist bits].
           split; [reflexivity|]. intros k Hk. cbn. rewrite !orb_false_r. destruct cl; cbn; rewrite andb_true_r; reflexivity.
        -- do 2 eexists. exists []. split; [reflexivity|]. cbn. rewrite app_nil_r. split; [reflexivity|].
           intros k Hk. rewrite orb_false_r, andb_true_r. reflexivity.
    + destruct (set_bits_other w b t I N) as [T N'].
      destruct (set_bits_spec w b I) as [B [W [Hh [T1 T2]]]]. cbn zeta in *.
      set (nb := Z.lor (bits w) b) in *. set (wk := filter (fun x => ready (wall x) (want x) nb) (waiting w)) in *.
      assert (Wk : forall x, In x wk -> In x (waiting w)) by (intros x Hx; apply filter_In in Hx; tauto).
      unfold sync. fold nb. destruct (ready true wnt nb) eqn:R; [|destruct (no_wait d)].
      * do 2 eexists. exists (map (entry w nb) wk ++ [(t, Sync b wnt d, nb, false)]).
        split; [reflexivity|]. erewrite complete_spec by (cbn; rewrite T; eauto). cbn [hist bits].
        split; [rewrite Hh, app_assoc; reflexivity|]. intros k Hk.
        rewrite existsb_app, taken_woken by auto. rewrite unset_spec, B, unset_spec by auto. unfold nb at 1. rewrite Z.lor_spec.
        cbn. rewrite orb_false_r, negb_orb, andb_assoc. reflexivity.
      * do 2 eexists. exists (map (entry w nb) wk ++ [(t, Sync b wnt d, bits (set_bits w b), true)]).
        split; [reflexivity|]. erewrite complete_spec by (cbn; rewrite T; eauto). cbn [hist bits].
        split; [rewrite Hh, app_assoc; reflexivity|]. intros k Hk.
        rewrite existsb_app, taken_woken by auto. rewrite B, unset_spec by auto. unfold nb at 1. rewrite Z.lor_spec.
        cbn. rewrite orb_false_r. reflexivity.
      * do 2 eexists. exists (map (entry w nb) wk). cbn [hist bits].
        split; [reflexivity|]. split; [exact Hh|]. intros k Hk.
        rewrite taken_woken by auto. rewrite B, unset_spec by auto. unfold nb at 1. rewrite Z.lor_spec. reflexivity.
Qed.

(* a set reaches every task that waits for what is there now *)
Lemma set_wakes : forall w b x o l, inv w -> In x (waiting w) -> todo w (who x) = o :: l ->
  ready (wall x) (want x) (Z.lor (bits w) b) = true ->
  In (who x, o, Z.lor (bits w) b, false) (hist (set_bits w b)) /\ todo (set_bits w b) (who x) = l /\
  ~ In (who x) (map who (waiting (set_bits w b))).
Proof.
  intros w b x o l I Hx E R. destruct (set_bits_spec w b I) as [B [W [Hh [T1 T2]]]]. cbn zeta in *.
  assert (Hf : In x (filter (fun x => ready (wall x) (want x) (Z.lor (bits w) b)) (waiting w))) by (apply filter_In; auto).
  split; [|split].
  - rewrite Hh. apply in_or_app. right. apply in_map_iff. exists x. split; auto. unfold entry. rewrite E. reflexivity.
  - rewrite T1; [rewrite E; reflexivity | apply in_map; auto].
  - rewrite W. intro Q. apply in_map_iff in Q. destruct Q as [y [Ey Hy]]. apply filter_In in Hy. destruct Hy as [Hy Ry].
    assert (y = x) by (apply (NoDup_map_eq waiter who (waiting w)); auto; apply I). subst. rewrite R in Ry. discriminate.
Qed.
Lemma turn_wakes : forall w t e w' o l b u ou lu a wnt, inv w -> todo w t = o :: l ->
  (o = SetBits b \/ exists wn d, o = Sync b wn d) -> is_waiting w t = false -> turn w t e = Some w' ->
  todo w u = ou :: lu -> is_waiting w u = true -> waits_for ou = Some (a, wnt) -> met a wnt (Z.lor (bits w) b) ->
  In (u, ou, Z.lor (bits w) b, false) (hist w') /\ todo w' u = lu /\ is_waiting w' u = false.
Proof.
  intros w t e w' o l b u ou lu a wnt I E Ho Wt Q Eu Wu F M.
  assert (N : ~ In t (map who (waiting w))) by (rewrite <- waiting_in; congruence).
  assert (Ht : u <> t) by (intro; subst; congruence).
  apply waiting_in, in_map_iff in Wu. destruct Wu as [x [Ex Hx]].
  destruct (i_link _ I x Hx) as [o' [l' [E' [F' C']]]]. rewrite Ex, Eu in E'. inversion E'; subst o' l'.
  rewrite F in F'. inversion F'; subst a wnt. apply ready_met in M.
  rewrite <- Ex in Eu. destruct (set_wakes w b x ou lu I Hx Eu M) as [H1 [H2 H3]]. rewrite Ex in *.
  destruct (set_bits_other w b t I N) as [T N'].
  assert (NW : is_waiting (set_bits w b) u = false).
  { destruct (is_waiting (set_bits w b) u) eqn:Z; auto. apply waiting_in in Z. tauto. }
  unfold turn in Q. rewrite E, Wt in Q.
  assert (P : forall w2 r ex, todo w2 t = o :: l -> todo w2 u = lu -> In (u, ou, Z.lor (bits w) b, false) (hist w2) ->
     is_waiting w2 u = false ->
     In (u, ou, Z.lor (bits w) b, false) (hist (complete w2 t r ex)) /\ todo (complete w2 t r ex) u = lu /\
     is_waiting (complete w2 t r ex) u = false).
  { intros w2 r ex A1 A2 A3 A4. rewrite (complete_spec _ _ _ _ _ _ A1). cbn. split; [apply in_or_app; auto|].
    split; [unfold pop; destruct (u =? t) eqn:Z; [apply Nat.eqb_eq in Z; lia | auto] | exact A4]. }
  destruct Ho as [Ho|[wn [d Ho]]]; subst o; injection Q as <-.
  - apply P; auto. rewrite T; auto.
  - unfold sync. destruct (ready true wn (Z.lor (bits w) b)); [|destruct (no_wait d)].
    + apply P; auto. cbn. rewrite T; auto.
    + apply P; auto. rewrite T; auto.
    + cbn. split; auto. split; auto. unfold is_waiting. cbn. rewrite existsb_app. cbn. fold (is_waiting (set_bits w b) u).
      rewrite NW. cbn. rewrite orb_false_r. apply Nat.eqb_neq. auto.
Qed.

(* ---- the meeting point ---- *)
Section barrier.
Variables (n : nat) (own : nat -> Z) (all : Z).
Hypothesis RV : rendezvous n own all.
Definition meet (K : nat) : list (list eop) := map (fun i => repeat (Sync (own i) all None) K) (seq 0 n).
Record binv (K c : nat) (w : world) : Prop := {
  b_le : c <= K;
  b_todo : forall i, i < n -> todo w i = repeat (Sync (own i) all None) (K - c);
  b_none : forall i, n <= i -> todo w i = [];
  b_done : forall i, i < n -> length (by_task i (hist w)) = c;
  b_wait : forall x, In x (waiting w) -> who x < n /\ x = Waiter (who x) all true true;
  b_bits : forall k, (0 <= k)%Z -> Z.testbit all k = true ->
    (Z.testbit (bits w) k = true <-> exists x, In x (waiting w) /\ Z.testbit (own (who x)) k = true);
  b_end : c = K -> waiting w = [];
  b_free : 0 < n -> exists i, i < n /\ ~ In i (map who (waiting w)) }.

Lemma meet_start : forall K, binv K 0 (start (meet K)).
Proof.
  intros K. constructor; cbn.
  - lia.
  - intros i Hi. unfold meet. rewrite nth_indep with (d' := repeat (Sync (own 0) all None) K) by (rewrite map_length, seq_length; auto).
    rewrite (map_nth (fun i => repeat (Sync (own i) all None) K) (seq 0 n) 0 i), seq_nth by auto.
    rewrite Nat.sub_0_r. reflexivity.
  - intros i Hi. apply nth_overflow. unfold meet. rewrite map_length, seq_length. auto.
  - auto.
  - intros x [].
  - intros k _ _. rewrite Z.bits_0. split; [discriminate | intros [x [[] _]]].
  - auto.
  - intros Hn. exists 0. auto.
Qed.
Lemma filter_all : forall (A : Type) (f : A -> bool) l, (forall x, In x l -> f x = true) -> filter f l = l.
Proof.
  induction l as [|a l IH]; intros H; cbn; auto. rewrite H by (cbn; auto). f_equal. apply IH. intros; apply H; cbn; auto.
Qed.
Lemma filter_none : forall (A : Type) (f : A -> bool) l, (forall x, In x l -> f x = false) -> filter f l = [].
Proof. induction l as [|a l IH]; intros H; cbn; auto. rewrite H by (cbn; auto). apply IH. intros; apply H; cbn; auto. Qed.
Lemma by_task_app : forall i a b, by_task i (a ++ b) = by_task i a ++ by_task i b.
Proof. intros. apply filter_app. Qed.
Lemma by_task_entries : forall w r ws i, NoDup (map who ws) ->
  length (by_task i (map (entry w r) ws)) = if existsb (fun x => who x =? i) ws then 1 else 0.
Proof.
  unfold by_task. induction ws as [|x ws IH]; intros i ND; [reflexivity|]. inversion ND; subst.
  cbn [map filter existsb]. change (fst (fst (fst (entry w r x)))) with (who x). destruct (who x =? i) eqn:E; cbn [length orb].
  - rewrite IH by auto. apply Nat.eqb_eq in E. subst. destruct (existsb _ ws) eqn:Q; auto.
    exfalso. apply H1. apply existsb_exists in Q. destruct Q as [y [Hy Ey]]. apply Nat.eqb_eq in Ey.
    apply in_map_iff. exists y. auto.
  - rewrite IH by auto. reflexivity.
Qed.
Lemma tl_repeat : forall (A : Type) (a : A) m, tl (repeat a m) = repeat a (m - 1).
Proof. intros A a [|m]; cbn; auto. rewrite Nat.sub_0_r. reflexivity. Qed.

Lemma meet_turn : forall K c w t e w', inv w -> binv K c w -> turn w t e = Some w' -> binv K c w' \/ binv K (S c) w'.
Proof.
  intros K c w t e w' I B. unfold turn. destruct (todo w t) as [|o l] eqn:E; [discriminate|].
  assert (Ht : t < n). { destruct (Nat.lt_ge_cases t n); auto. rewrite (b_none _ _ _ B) in E by auto. discriminate. }
  assert (Hc : c < K /\ o = Sync (own t) all None).
  { rewrite (b_todo _ _ _ B) in E by auto. pose proof (b_le _ _ _ B). destruct (K - c) eqn:Q; [discriminate|].
    cbn in E. inversion E. split; [lia | auto]. }
  destruct Hc as [Hc Ho]. subst o.
  destruct (is_waiting w t) eqn:Wt; [rewrite andb_false_r; discriminate|].
  assert (N : ~ In t (map who (waiting w))) by (rewrite <- waiting_in; congruence).
  intro Q; injection Q as <-. unfold sync. cbn [no_wait].
  destruct (set_bits_other w (own t) t I N) as [T N'].
  destruct (set_bits_spec w (own t) I) as [SB [SW [SH [T1 T2]]]]. cbn zeta in *.
  set (nb := Z.lor (bits w) (own t)) in *.
  set (wk := filter (fun x => ready (wall x) (want x) nb) (waiting w)) in *.
  destruct RV as [Cov Priv].
  assert (RR : forall x, In x (waiting w) -> ready (wall x) (want x) nb = ready true all nb).
  { intros x Hx. destruct (b_wait _ _ _ B x Hx) as [_ ->]. reflexivity. }
  destruct (ready true all nb) eqn:R.
  - right.
    assert (Wk : wk = waiting w). { apply filter_all. intros x Hx. auto. }
    assert (Rest : filter (fun x => negb (ready (wall x) (want x) nb)) (waiting w) = []).
    { apply filter_none. intros x Hx. rewrite (RR x Hx). reflexivity. }
    rewrite Wk in *. rewrite Rest in SW.
    assert (Everyone : forall i, i < n -> i <> t -> In i (map who (waiting w))).
    { intros i Hi Hn. destruct (Priv i Hi) as [k [Hk [Ha [Hoi Hp]]]].
      assert (M : met true all nb) by (apply ready_met; auto). specialize (M k Hk Ha).
      unfold nb in M. rewrite Z.lor_spec, (Hp t Ht) in M by auto. rewrite orb_false_r in M.
      apply (b_bits _ _ _ B) in M; auto. destruct M as [x [Hx Ho]].
      destruct (Nat.eq_dec (who x) i) as [<-|Ne]; [apply in_map; auto|].
      destruct (b_wait _ _ _ B x Hx) as [Hl _]. rewrite (Hp (who x) Hl Ne) in Ho. discriminate. }
    erewrite complete_spec by (cbn; rewrite T; eauto). cbn [bits waiting todo hist].
    constructor; cbn [bits waiting todo hist].
    + lia.
    + intros i Hi. unfold pop. destruct (i =? t) eqn:Q.
      * apply Nat.eqb_eq in Q. subst. rewrite T, (b_todo _ _ _ B), tl_repeat by auto. f_equal. lia.
      * apply Nat.eqb_neq in Q. rewrite T1, (b_todo _ _ _ B), tl_repeat by auto. f_equal. lia.
    + intros i Hi. unfold pop. destruct (i =? t) eqn:Q; [apply Nat.eqb_eq in Q; lia|].
      rewrite T2, (b_none _ _ _ B); auto. intro Z. apply in_map_iff in Z. destruct Z as [x [<- Hx]].
      destruct (b_wait _ _ _ B x Hx). lia.
    + intros i Hi. rewrite SH, !by_task_app, !app_length, (b_done _ _ _ B), by_task_entries by (auto; apply I).
      cbn. destruct (t =? i) eqn:Q; cbn.
      * apply Nat.eqb_eq in Q. subst i. change (existsb (fun x => who x =? t) (waiting w)) with (is_waiting w t).
        rewrite Wt. lia.
      * apply Nat.eqb_neq in Q. change (existsb (fun x => who x =? i) (waiting w)) with (is_waiting w i).
        rewrite (proj2 (waiting_in w i)) by (apply Everyone; auto). lia.
    + rewrite SW. intros x [].
    + rewrite SW. intros k Hk Ha. rewrite unset_spec, Ha, andb_false_r by auto. split; [discriminate | intros [x [[] _]]].
    + auto.
    + intros Hn. exists 0. rewrite SW. auto.
  - left.
    assert (Wk : wk = []). { apply filter_none. intros x Hx. auto. }
    assert (Rest : filter (fun x => negb (ready (wall x) (want x) nb)) (waiting w) = waiting w).
    { apply filter_all. intros x Hx. rewrite (RR x Hx). reflexivity. }
    rewrite Wk in *. rewrite Rest in SW. cbn [map] in *. rewrite app_nil_r in SH.
    assert (Bt : forall k, (0 <= k)%Z -> Z.testbit all k = true -> (Z.testbit (unset nb (to_clear [])) k = true <->
      exists x, In x (waiting w ++ [Waiter t all true true]) /\ Z.testbit (own (who x)) k = true)).
    { intros k Hk Ha. rewrite unset_spec by auto. cbn [to_clear fold_right]. rewrite Z.bits_0. cbn [negb]. rewrite andb_true_r.
      unfold nb. rewrite Z.lor_spec, orb_true_iff, (b_bits _ _ _ B) by auto. split.
      - intros [[x [Hx Ho]]|Ho]; [exists x; split; auto; apply in_or_app; auto |
          exists (Waiter t all true true); split; auto; apply in_or_app; cbn; auto].
      - intros [x [Hx Ho]]. apply in_app_or in Hx. destruct Hx as [Hx|[<-|[]]]; [left; exists x; auto | right; auto]. }
    constructor; cbn [bits waiting todo hist].
    + lia.
    + intros i Hi. rewrite T2, (b_todo _ _ _ B) by auto. reflexivity.
    + intros i Hi. rewrite T2, (b_none _ _ _ B) by auto. reflexivity.
    + rewrite SH. apply B.
    + rewrite SW. intros x Hx. apply in_app_or in Hx. destruct Hx as [Hx|[<-|[]]]; [apply (b_wait _ _ _ B); auto | cbn; auto].
    + rewrite SW, SB. exact Bt.
    + lia.
    + intros Hn. rewrite SW.
      destruct (forallb (fun i => existsb (Nat.eqb i) (map who (waiting w ++ [Waiter t all true true]))) (seq 0 n)) eqn:Q.
      * exfalso. rewrite ready_not in R. apply R. intros k Hk Ha.
        destruct (Cov k Hk Ha) as [i [Hi Ho]]. rewrite forallb_forall in Q.
        assert (Hin : In i (seq 0 n)) by (apply in_seq; lia). apply Q in Hin. apply existsb_exists in Hin.
        destruct Hin as [j [Hj Ej]]. apply Nat.eqb_eq in Ej. subst j. apply in_map_iff in Hj. destruct Hj as [x [Ex Hx]].
        assert (Z : Z.testbit (unset nb (to_clear [])) k = true). { apply Bt; auto. exists x. rewrite Ex. auto. }
        rewrite unset_spec in Z by auto. apply andb_true_iff in Z. tauto.
      * assert (X : exists i, In i (seq 0 n) /\ existsb (Nat.eqb i) (map who (waiting w ++ [Waiter t all true true])) = false).
        { clear - Q. induction (seq 0 n) as [|a s IH]; cbn in Q; [discriminate|].
          apply andb_false_iff in Q. destruct Q as [Q|Q]; [exists a; cbn; auto|].
          destruct (IH Q) as [i [Hi F]]. exists i. cbn. auto. }
        destruct X as [i [Hi F]]. apply in_seq in Hi. exists i. split; [lia|]. intro Z.
        rewrite <- not_true_iff_false in F. apply F. apply existsb_exists. exists i. rewrite Nat.eqb_refl. auto.
Qed.
Lemma meet_run : forall K sched w c, inv w -> binv K c w -> exists c', c <= c' /\ binv K c' (run w sched).
Proof.
  induction sched as [|[t e] r IH]; intros w c I B; cbn.
  - exists c. auto.
  - destruct (turn w t e) as [w'|] eqn:E; [|apply IH; auto].
    destruct (meet_turn _ _ _ _ _ _ I B E) as [B'|B']; destruct (IH _ _ (turn_inv _ _ _ _ I E) B') as [c' [L B2]];
      exists c'; split; auto; lia.
Qed.
Lemma meet_all : forall K sched, let w := run (start (meet K)) sched in
  exists c, c <= K /\ (forall i, i < n -> length (by_task i (hist w)) = c) /\
    (finished w <-> c = K \/ n = 0) /\ (finished w \/ exists t, turn w t false <> None).
Proof.
  intros K sched w. destruct (meet_run K sched _ 0 (start_inv _) (meet_start K)) as [c [_ B]]. fold w in B.
  exists c. split; [apply B|]. split; [apply B|].
  assert (F : c = K \/ n = 0 -> finished w).
  { intros H t. destruct (Nat.lt_ge_cases t n) as [L|G]; [|apply B; auto].
    destruct H as [->|H]; [|lia]. rewrite (b_todo _ _ _ B), Nat.sub_diag by auto. reflexivity. }
  assert (G : c < K -> 0 < n -> exists t, turn w t false <> None).
  { intros Hc Hn. destruct (b_free _ _ _ B Hn) as [i [Hi Ni]]. exists i. unfold turn.
    rewrite (b_todo _ _ _ B) by auto. destruct (K - c) eqn:Q; [lia|]. cbn [repeat].
    destruct (is_waiting w i) eqn:W; [apply waiting_in in W; tauto|]. discriminate. }
  pose proof (b_le _ _ _ B). split.
  - split; auto. intros Fi. destruct (Nat.eq_dec n 0); auto. left. specialize (Fi 0).
    rewrite (b_todo _ _ _ B) in Fi by lia. destruct (K - c) eqn:Q; [lia | discriminate].
  - destruct (Nat.eq_dec n 0); [left; auto|]. destruct (Nat.eq_dec c K); [left; auto|]. right. apply G; lia.
Qed.
End barrier.

(* ---- objects ---- *)
Record ginv (live : nat -> bool) (s : groups) : Prop := {
  g_live : forall x, live x = true <-> exists h, handle_of s x = Some (Some h);
  g_own : forall x h, handle_of s x = Some (Some h) -> made s h = true /\ h < fresh s;
  g_one : forall x y h, handle_of s x = Some (Some h) -> handle_of s y = Some (Some h) -> x = y;
  g_leak : forall h, made s h = true -> exists x, handle_of s x = Some (Some h) }.
Lemma gop_safe : forall l live s, ginv live s -> forallb plain l = true -> scoped live l = true ->
  exists live' s', gop_run s l = Ok s' /\ ginv live' s'.
Proof.
  induction l as [|o l IH]; intros live s G P Sc; cbn [gop_run].
  - eauto.
  - cbn in P. apply andb_true_iff in P. destruct P as [Po P]. destruct o as [x ok|x y|x|x]; cbn in Po; try discriminate.
    + subst ok. cbn in Sc. apply andb_true_iff in Sc. destruct Sc as [Lx Sc]. apply negb_true_iff in Lx.
      assert (Hx : forall h, handle_of s x <> Some (Some h)).
      { intros h Q. rewrite (proj2 (g_live _ _ G x)) in Lx; [discriminate | eauto]. }
      cbn [gop_run1]. eapply IH; [| exact P | exact Sc]. constructor; cbn.
      * intros z. destruct (z =? x); [split; eauto | apply G].
      * intros z h. destruct (z =? x); intro Q.
        -- inversion Q; subst. rewrite Nat.eqb_refl. auto.
        -- apply (g_own _ _ G) in Q. destruct Q as [Q1 Q2]. destruct (h =? fresh s); auto.
      * intros z y h. destruct (z =? x) eqn:Z, (y =? x) eqn:Y; intros Q1 Q2;
          try (apply Nat.eqb_eq in Z); try (apply Nat.eqb_eq in Y); subst; auto.
        -- inversion Q1; subst. apply (g_own _ _ G) in Q2. lia.
        -- inversion Q2; subst. apply (g_own _ _ G) in Q1. lia.
        -- eapply (g_one _ _ G); eauto.
      * intros h. destruct (h =? fresh s) eqn:Q.
        -- apply Nat.eqb_eq in Q. subst. exists x. rewrite Nat.eqb_refl. auto.
        -- intro M. apply (g_leak _ _ G) in M. destruct M as [z Hz]. exists z.
           destruct (z =? x) eqn:Z; [apply Nat.eqb_eq in Z; subst; exfalso; eapply Hx; eauto | auto].
    + cbn in Sc. apply andb_true_iff in Sc. destruct Sc as [Lx Sc].
      apply (g_live _ _ G) in Lx. destruct Lx as [h Hh]. cbn [gop_run1]. unfold with_handle. rewrite Hh, (proj1 (g_own _ _ G _ _ Hh)).
      eapply IH; eauto.
    + cbn in Sc. apply andb_true_iff in Sc. destruct Sc as [Lx Sc].
      apply (g_live _ _ G) in Lx. destruct Lx as [h Hh]. cbn [gop_run1]. unfold with_handle. rewrite Hh, (proj1 (g_own _ _ G _ _ Hh)).
      eapply IH; [| exact P | exact Sc]. constructor; cbn.
      * intros z. destruct (z =? x); [split; [discriminate | intros [h' Q]; discriminate] | apply G].
      * intros z h'. destruct (z =? x) eqn:Z; [discriminate|]. intro Q. destruct (h' =? h) eqn:Q2.
        -- apply Nat.eqb_eq in Q2. subst. apply Nat.eqb_neq in Z. exfalso. apply Z. eapply (g_one _ _ G); eauto.
        -- apply (g_own _ _ G _ _ Q).
      * intros z y h'. destruct (z =? x), (y =? x); try discriminate. apply G.
      * intros h'. destruct (h' =? h) eqn:Q; [discriminate|]. intro M. apply (g_leak _ _ G) in M. destruct M as [z Hz].
        exists z. destruct (z =? x) eqn:Z; auto. apply Nat.eqb_eq in Z. subst. apply Nat.eqb_neq in Q. congruence.
Qed.
Lemma ginv_start : ginv (fun _ => false) no_groups.
Proof. constructor; cbn; try discriminate. intros. split; [discriminate | intros [h Q]; discriminate]. Qed.
