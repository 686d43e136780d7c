From Coq Require Import List Arith Bool Lia.
From Verif Require Import Base Tmr_Spec Tmr_Model.
Import ListNotations.

Definition qof (t : nat) (q : list (nat * cmd)) : list cmd := map snd (filter (fun e => fst e =? t) q).
Arguments qof : simpl never.
Arguments put : simpl never.
Lemma put_same : forall (A : Type) (f : nat -> A) x a, put f x a x = a.
Proof. intros. unfold put. rewrite Nat.eqb_refl. reflexivity. Qed.
Lemma put_other : forall (A : Type) (f : nat -> A) x a i, i <> x -> put f x a i = f i.
Proof. intros. unfold put. destruct (i =? x) eqn:E; auto. apply Nat.eqb_eq in E. lia. Qed.
Lemma qof_send_same : forall t c q, qof t (q ++ [(t, c)]) = qof t q ++ [c].
Proof. intros. unfold qof. rewrite filter_app, map_app. cbn. rewrite Nat.eqb_refl. reflexivity. Qed.
Lemma qof_send_other : forall t u c q, t <> u -> qof t (q ++ [(u, c)]) = qof t q.
Proof.
  intros. unfold qof. rewrite filter_app, map_app. cbn. destruct (u =? t) eqn:E; [apply Nat.eqb_eq in E; lia|].
  cbn. rewrite app_nil_r. reflexivity.
Qed.
Lemma qof_head_same : forall t c q, qof t ((t, c) :: q) = c :: qof t q.
Proof. intros. unfold qof. cbn. rewrite Nat.eqb_refl. reflexivity. Qed.
Lemma qof_head_other : forall t u c q, t <> u -> qof t ((u, c) :: q) = qof t q.
Proof. intros. unfold qof. cbn. destruct (u =? t) eqn:E; [apply Nat.eqb_eq in E; lia | reflexivity]. Qed.

Definition doomed (l : list cmd) : Prop := exists l', l = l' ++ [CDelete] /\ ~ In CDelete l'.
Definition asleep (w : world) (t : nat) : Prop :=
  qof t (queue w) = [] /\ listed (tms w t) = false /\ (home (tms w t) = None -> mem (tms w t) = false).
Record sinv (ph : nat -> phase) (q : nat) (w : world) : Prop := {
  s_q : length (queue w) = q;
  s_mem : forall t, qof t (queue w) <> [] \/ listed (tms w t) = true -> mem (tms w t) = true;
  s_del : forall t, ~ In CDelete (qof t (queue w)) \/ doomed (qof t (queue w));
  s_out : forall o, ph o = Out -> objs w o = None;
  s_live : forall o st, ph o = Live st -> exists t, objs w o = Some (Some t) /\ mem (tms w t) = true /\
    home (tms w t) = (if st then Some o else None) /\ ~ In CDelete (qof t (queue w));
  s_dying : forall o st, ph o = Dying st -> exists t, objs w o = Some (Some t) /\
    home (tms w t) = (if st then Some o else None) /\
    (asleep w t \/ doomed (qof t (queue w)));
  s_gone : forall t, (forall o, objs w o <> Some (Some t)) ->
    asleep w t \/ home (tms w t) = None /\ doomed (qof t (queue w));
  s_one : forall o o' t, objs w o = Some (Some t) -> objs w o' = Some (Some t) -> o = o';
  s_new : forall o t, objs w o = Some (Some t) -> t < fresh w;
  s_fresh : forall t, fresh w <= t -> qof t (queue w) = [] /\ listed (tms w t) = false;
  s_period : forall t, t < fresh w -> 0 < period (tms w t) /\ (forall p, In (CPeriod p) (qof t (queue w)) -> 0 < p) }.

Lemma begin_inv : sinv (fun _ => Out) 0 begin.
Proof.
  constructor; cbn; auto; try discriminate.
  - intros t [H|H]; [exfalso; apply H; reflexivity | discriminate].
  - intros. left. repeat split.
  - intros; lia.
Qed.
Lemma doomed_snoc : forall l, ~ In CDelete l -> doomed (l ++ [CDelete]).
Proof. intros. exists l. auto. Qed.
Lemma doomed_tail : forall c l, doomed (c :: l) -> c = CDelete /\ l = [] \/ c <> CDelete /\ doomed l.
Proof.
  intros c l [l' [E N]]. destruct l' as [|c' l']; cbn in E; inversion E; subst; auto.
  right. split; [intro; subst; apply N; cbn; auto | exists l'; split; auto; intro; apply N; cbn; auto].
Qed.
Lemma doomed_ne : forall l, doomed l -> l <> [].
Proof. intros l [l' [-> _]]. destruct l'; discriminate. Qed.

(* the steps *)
Lemma step_post : forall ph q w o st u ok, sinv ph q w -> ph o = Live st -> (forall p, u = UPeriod p -> 0 < p) ->
  exists w', step w (Post o u ok) = Ok w' /\ sinv ph (if ok then S q else q) w'.
Proof.
  intros ph q w o st u ok I L Hp. destruct (s_live _ _ _ I o st L) as [t [Ho [Hm [Hh Hd]]]].
  cbn. unfold with_handle. rewrite Ho. eexists. split; [reflexivity|]. destruct ok; auto.
  assert (NC : command w u <> CDelete) by (destruct u; discriminate).
  remember (command w u) as cc eqn:Ec.
  assert (Q : forall x, x <> t -> qof x (queue w ++ [(t, cc)]) = qof x (queue w)) by (intros; apply qof_send_other; auto).
  assert (Qt : ~ In CDelete (qof t (queue w ++ [(t, cc)]))).
  { rewrite qof_send_same. intro X. apply in_app_or in X. destruct X as [X|[X|[]]]; auto. }
  constructor; cbn.
  - rewrite app_length, (s_q _ _ _ I). cbn. lia.
  - intros x. destruct (Nat.eq_dec x t) as [->|N]; [auto|]. rewrite Q by auto. apply I.
  - intros x. destruct (Nat.eq_dec x t) as [->|N]; [auto|]. rewrite Q by auto. apply I.
  - apply I.
  - intros o' st' L'. destruct (s_live _ _ _ I o' st' L') as [t' [A [B [C D]]]]. exists t'. repeat split; auto.
    destruct (Nat.eq_dec t' t) as [->|N]; [auto|]. rewrite Q by auto. auto.
  - intros o' st' L'. destruct (s_dying _ _ _ I o' st' L') as [t' [A [B C]]]. exists t'. repeat split; auto.
    destruct (Nat.eq_dec t' t) as [->|N]; [|unfold asleep in *; cbn; rewrite Q by auto; auto].
    assert (o' = o) by (eapply (s_one _ _ _ I); eauto). congruence.
  - intros x Hx. destruct (Nat.eq_dec x t) as [->|N]; [exfalso; eapply Hx; eauto|]. unfold asleep; cbn; rewrite Q by auto. apply I; auto.
  - apply I.
  - apply I.
  - intros x Hx. assert (x <> t) by (apply (s_new _ _ _ I) in Ho; lia). rewrite Q by auto. apply I; auto.
  - intros x Hx. split; [apply I; auto|]. intros p. destruct (Nat.eq_dec x t) as [->|N]; [|rewrite Q by auto; apply I; auto].
    rewrite qof_send_same. intro X. apply in_app_or in X. destruct X as [X|[X|[]]]; [eapply (s_period _ _ _ I); eauto|].
    rewrite Ec in X. destruct u; inversion X; subst. auto.
Qed.
Lemma step_endpost : forall ph q w o st, sinv ph q w -> ph o = Live st ->
  exists w', step w (EndPost o true) = Ok w' /\ sinv (put ph o (Dying st)) (S q) w'.
Proof.
  intros ph q w o st I L. destruct (s_live _ _ _ I o st L) as [t [Ho [Hm [Hh Hd]]]].
  cbn. unfold with_handle. rewrite Ho. eexists. split; [reflexivity|].
  assert (Q : forall x, x <> t -> qof x (queue w ++ [(t, CDelete)]) = qof x (queue w)) by (intros; apply qof_send_other; auto).
  assert (Qt : doomed (qof t (queue w ++ [(t, CDelete)]))) by (rewrite qof_send_same; apply doomed_snoc; auto).
  constructor; cbn.
  - rewrite app_length, (s_q _ _ _ I). cbn. lia.
  - intros x. destruct (Nat.eq_dec x t) as [->|N]; [auto|]. rewrite Q by auto. apply I.
  - intros x. destruct (Nat.eq_dec x t) as [->|N]; [auto|]. rewrite Q by auto. apply I.
  - intros o'. unfold put. destruct (o' =? o); [discriminate | apply I].
  - intros o' st'. unfold put. destruct (o' =? o) eqn:E; [discriminate|]. apply Nat.eqb_neq in E. intros L'.
    destruct (s_live _ _ _ I o' st' L') as [t' [A [B [C D]]]]. exists t'. repeat split; auto.
    assert (t' <> t) by (intro; subst; apply E; eapply (s_one _ _ _ I); eauto). rewrite Q by auto. auto.
  - intros o' st'. unfold put. destruct (o' =? o) eqn:E.
    + apply Nat.eqb_eq in E. intro Z. inversion Z; subst. exists t. auto.
    + apply Nat.eqb_neq in E. intros L'. destruct (s_dying _ _ _ I o' st' L') as [t' [A [B C]]]. exists t'. repeat split; auto.
      assert (t' <> t) by (intro; subst; apply E; eapply (s_one _ _ _ I); eauto). unfold asleep in *; cbn; rewrite Q by auto. auto.
  - intros x Hx. destruct (Nat.eq_dec x t) as [->|N]; [exfalso; eapply Hx; eauto|]. unfold asleep; cbn; rewrite Q by auto. apply I; auto.
  - apply I.
  - apply I.
  - intros x Hx. assert (x <> t) by (apply (s_new _ _ _ I) in Ho; lia). rewrite Q by auto. apply I; auto.
  - intros x Hx. split; [apply I; auto|]. intros p. destruct (Nat.eq_dec x t) as [->|N]; [|rewrite Q by auto; apply I; auto].
    rewrite qof_send_same. intro X. apply in_app_or in X. destruct X as [X|[X|[]]]; [eapply (s_period _ _ _ I); eauto | discriminate].
Qed.
Lemma step_endmem : forall ph q w o st, sinv ph q w -> ph o = Dying st -> (st = true -> q = 0) ->
  exists w', step w (EndMem o) = Ok w' /\ sinv (put ph o Out) q w'.
Proof.
  intros ph q w o st I D Hq. destruct (s_dying _ _ _ I o st D) as [t [Ho [Hh Hs]]].
  cbn [step]. rewrite Ho. eexists. split; [reflexivity|]. cbn zeta. rewrite Hh.
  assert (N : forall o' t', objs w o' = Some (Some t') -> o' <> o -> t' <> t).
  { intros o' t' H H' ->. apply H'. eapply (s_one _ _ _ I); eauto. }
  assert (Gone : forall x o', put (objs w) o None o' = Some (Some x) -> objs w o' = Some (Some x) /\ o' <> o).
  { intros x o'. unfold put. destruct (o' =? o) eqn:E; [discriminate|]. apply Nat.eqb_neq in E. auto. }
  assert (X : exists m, (match (if st then Some o else None) with
       | Some o' => if o' =? o then set_tmr w t (Tmr false (if st then Some o else None) (listed (tms w t)) (expiry (tms w t)) (period (tms w t)) (reload (tms w t))) else w
       | None => w end) = World (now w) m (fresh w) (queue w) (objs w) (ran w) /\
     (forall x, x <> t -> m x = tms w x) /\ home (m t) = (if st then Some o else None) /\ listed (m t) = listed (tms w t) /\
     period (m t) = period (tms w t) /\ (st = false -> mem (m t) = mem (tms w t))).
  { destruct st; [rewrite Nat.eqb_refl | exists (tms w); split; [destruct w; reflexivity | repeat split; auto]].
    exists (put (tms w) t (Tmr false (Some o) (listed (tms w t)) (expiry (tms w t)) (period (tms w t)) (reload (tms w t)))).
    split; [reflexivity|]. split; [intros; apply put_other; auto|]. rewrite put_same. cbn. repeat split; auto; discriminate. }
  destruct X as [m [-> [Mo [Mh [Ml [Mp Mm]]]]]].
  assert (St : st = true -> queue w = []).
  { intro. apply length_zero_iff_nil. rewrite (s_q _ _ _ I). auto. }
  assert (Lx : forall x, listed (m x) = listed (tms w x)) by (intro x; destruct (Nat.eq_dec x t) as [->|Nx]; [auto | rewrite Mo by auto; auto]).
  assert (Hx : forall x, home (m x) = home (tms w x)) by (intro x; destruct (Nat.eq_dec x t) as [->|Nx]; [congruence | rewrite Mo by auto; auto]).
  assert (Px : forall x, period (m x) = period (tms w x)) by (intro x; destruct (Nat.eq_dec x t) as [->|Nx]; [auto | rewrite Mo by auto; auto]).
  assert (Ax : forall x, asleep w x -> asleep (set_obj (World (now w) m (fresh w) (queue w) (objs w) (ran w)) o None) x).
  { intros x [A [B C]]. unfold asleep. cbn. rewrite Lx, Hx. split; [auto|]. split; auto. intro H. specialize (C H).
    destruct (Nat.eq_dec x t) as [->|Nx]; [|rewrite Mo by auto; auto]. destruct st; [congruence|]. rewrite Mm by auto. auto. }
  constructor; cbn [set_obj now tms fresh queue objs ran].
  - apply I.
  - intros x H. rewrite Lx in H. destruct (Nat.eq_dec x t) as [->|Nx]; [|rewrite Mo by auto; apply I; auto].
    destruct st; [|rewrite Mm by auto; apply I; auto]. exfalso. rewrite St in * by auto.
    destruct Hs as [[_ [F _]]|F]; [| apply doomed_ne in F; apply F; reflexivity].
    destruct H as [H|H]; [apply H; reflexivity | congruence].
  - apply I.
  - intros o'. unfold put. destruct (o' =? o); [auto | apply I].
  - intros o' st'. unfold put. destruct (o' =? o) eqn:E; [discriminate|]. apply Nat.eqb_neq in E. intros L'.
    destruct (s_live _ _ _ I o' st' L') as [t' [A [B [C F]]]]. exists t'. rewrite Mo by (eapply N; eauto). auto.
  - intros o' st'. unfold put. destruct (o' =? o) eqn:E; [discriminate|]. apply Nat.eqb_neq in E. intros L'.
    destruct (s_dying _ _ _ I o' st' L') as [t' [A [B C]]]. exists t'. rewrite Mo by (eapply N; eauto).
    split; auto. split; auto. destruct C; auto.
  - intros x Hg. rewrite Hx. destruct (Nat.eq_dec x t) as [->|Nx].
    + destruct Hs as [Hs|Hs]; [left; apply Ax; auto|]. right. split; auto. rewrite Hh. destruct st; auto. exfalso.
      rewrite St in Hs by auto. apply doomed_ne in Hs. apply Hs. reflexivity.
    + assert (G : asleep w x \/ home (tms w x) = None /\ doomed (qof x (queue w))); [|destruct G; auto].
      apply I. intros o' H. apply (Hg o'). unfold put. destruct (o' =? o) eqn:E; auto. apply Nat.eqb_eq in E. subst. congruence.
  - intros o1 o2 x H1 H2. apply Gone in H1, H2. eapply (s_one _ _ _ I); [apply H1 | apply H2].
  - intros o1 x H1. apply Gone in H1. eapply (s_new _ _ _ I); apply H1.
  - intros x H. rewrite Lx. apply I; auto.
  - intros x H. rewrite Px. apply I; auto.
Qed.
Lemma step_new : forall ph q w o p rl st, sinv ph q w -> ph o = Out -> 0 < p ->
  exists w', step w (New o p rl st true) = Ok w' /\ sinv (put ph o (Live st)) q w'.
Proof.
  intros ph q w o p rl st I Ho Hp. cbn. eexists. split; [reflexivity|].
  destruct (s_fresh _ _ _ I (fresh w) (le_n _)) as [Fq Fl].
  pose proof (s_out _ _ _ I o Ho) as Oo.
  assert (Ob : forall o' t, put (objs w) o (Some (Some (fresh w))) o' = Some (Some t) ->
     o' = o /\ t = fresh w \/ o' <> o /\ objs w o' = Some (Some t) /\ t < fresh w).
  { intros o' t. unfold put. destruct (o' =? o) eqn:E.
    - apply Nat.eqb_eq in E. intro Z; inversion Z; auto.
    - apply Nat.eqb_neq in E. intro Z. right. split; auto. split; auto. eapply (s_new _ _ _ I); eauto. }
  constructor; cbn.
  - apply I.
  - intros x H. unfold put in *. destruct (x =? fresh w) eqn:E; [reflexivity | apply I; auto].
  - apply I.
  - intros o'. unfold put. destruct (o' =? o); [discriminate | apply I].
  - intros o' st'. unfold put at 1 2. destruct (o' =? o) eqn:E.
    + intro Z. inversion Z; subst. apply Nat.eqb_eq in E. subst o'. exists (fresh w). rewrite put_same. cbn. repeat split; auto.
      rewrite Fq. auto.
    + intros L'. destruct (s_live _ _ _ I o' st' L') as [t' [A [B [C F]]]]. exists t'.
      rewrite put_other by (apply (s_new _ _ _ I) in A; lia). auto.
  - intros o' st'. unfold put at 1 2. destruct (o' =? o) eqn:E; [discriminate|].
    intros L'. destruct (s_dying _ _ _ I o' st' L') as [t' [A [B C]]]. exists t'. unfold asleep in *. cbn.
    rewrite put_other by (apply (s_new _ _ _ I) in A; lia). auto.
  - intros x Hg. destruct (Nat.eq_dec x (fresh w)) as [->|Nx].
    + exfalso. apply (Hg o). apply put_same.
    + unfold asleep in *. cbn. rewrite put_other by auto. apply I. intros o' H. apply (Hg o'). unfold put. destruct (o' =? o) eqn:E; auto.
      apply Nat.eqb_eq in E. subst. congruence.
  - intros o1 o2 x H1 H2. apply Ob in H1, H2.
    destruct H1 as [[-> E1]|[N1 [E1 L1]]], H2 as [[-> E2]|[N2 [E2 L2]]]; auto; try lia. eapply (s_one _ _ _ I); eauto.
  - intros o1 x H1. apply Ob in H1. lia.
  - intros x H. rewrite put_other by lia. apply I. lia.
  - intros x H. unfold put. destruct (x =? fresh w) eqn:E.
    + apply Nat.eqb_eq in E. subst. cbn. rewrite Fq. split; auto. intros ? [].
    + apply Nat.eqb_neq in E. apply I. lia.
Qed.
Lemma step_daemon : forall ph q w, sinv ph q w -> exists w', step w Daemon = Ok w' /\ sinv ph (pred q) w'.
Proof.
  intros ph q w I. cbn. destruct (queue w) as [|[t c] r] eqn:Eq.
  - exists w. split; auto. pose proof (s_q _ _ _ I) as L. rewrite Eq in L. cbn in L. subst q. exact I.
  - assert (Ht : qof t (queue w) = c :: qof t r) by (rewrite Eq; apply qof_head_same).
    assert (Hx : forall x, x <> t -> qof x (queue w) = qof x r) by (intros; rewrite Eq; apply qof_head_other; auto).
    assert (Hm : mem (tms w t) = true) by (apply (s_mem _ _ _ I); left; rewrite Ht; discriminate).
    rewrite Hm. eexists. split; [reflexivity|].
    assert (Dl : ~ In CDelete (qof t r) /\ (c = CDelete -> qof t r = []) \/ c <> CDelete /\ doomed (qof t r)).
    { destruct (s_del _ _ _ I t) as [D|D]; rewrite Ht in D.
      - left. cbn in D. split; [tauto|]. intro; subst; exfalso; tauto.
      - apply doomed_tail in D. destruct D as [[-> E]|D]; [left; rewrite E; cbn; auto | auto]. }
    assert (Ho : home (obey w (tms w t) c) = home (tms w t)) by (destruct c; reflexivity).
    assert (Mo : c <> CDelete -> mem (obey w (tms w t) c) = true) by (destruct c; cbn; auto; congruence).
    assert (Lo : c = CDelete -> listed (obey w (tms w t) c) = false) by (intros ->; reflexivity).
    assert (Dc : c = CDelete \/ c <> CDelete) by (destruct c; [right; discriminate|right; discriminate|right; discriminate|auto]).
    constructor; cbn.
    + pose proof (s_q _ _ _ I) as L. rewrite Eq in L. cbn in L. lia.
    + intros x H. unfold put in *. destruct (x =? t) eqn:E.
      * apply Nat.eqb_eq in E. subst. destruct Dc as [Dc|Dc]; [|auto]. exfalso.
        destruct Dl as [[_ Z]|[Z _]]; [|congruence]. destruct H as [H|H]; [apply H; auto|].
        rewrite Lo in H by auto. discriminate.
      * apply Nat.eqb_neq in E. rewrite <- Hx in H by auto. apply I; auto.
    + intros x. destruct (Nat.eq_dec x t) as [->|N]; [tauto|]. rewrite <- Hx by auto. apply I.
    + apply I.
    + intros o st L. destruct (s_live _ _ _ I o st L) as [t' [A [B [C D]]]]. exists t'. unfold put. destruct (t' =? t) eqn:E.
      * apply Nat.eqb_eq in E. subst t'. rewrite Ht in D. cbn in D. rewrite Ho. split; auto. split; [apply Mo; intro; subst; tauto|]. split; auto.
      * apply Nat.eqb_neq in E. rewrite <- Hx by auto. auto.
    + intros o st L. destruct (s_dying _ _ _ I o st L) as [t' [A [B C]]]. exists t'. destruct (Nat.eq_dec t' t) as [->|E].
      * unfold asleep in C. rewrite Ht in C. rewrite put_same, Ho. split; auto. split; auto.
        destruct C as [[C _]|C]; [congruence|]. apply doomed_tail in C. destruct C as [[Z E']|[_ C]]; auto.
        subst c. left. unfold asleep. cbn. rewrite put_same. cbn. split; auto. split; auto. intros ->. auto.
      * unfold asleep in *. cbn. rewrite put_other, <- Hx by auto. auto.
    + intros x Hg. destruct (Nat.eq_dec x t) as [->|E].
      * rewrite put_same. destruct (s_gone _ _ _ I t Hg) as [[C _]|[Hh C]]; rewrite Ht in C; [discriminate|].
        rewrite Ho. apply doomed_tail in C. destruct C as [[Z E']|[_ C]]; auto.
        subst c. left. unfold asleep. cbn. rewrite put_same. cbn. split; auto. split; auto. intros ->. auto.
      * unfold asleep. cbn. rewrite put_other, <- Hx by auto. apply I; auto.
    + apply I.
    + apply I.
    + intros x H. destruct (s_fresh _ _ _ I x H) as [A B]. assert (x <> t) by (intro; subst; rewrite Ht in A; discriminate).
      rewrite put_other, <- Hx by auto. auto.
    + intros x H. destruct (s_period _ _ _ I x H) as [A B]. unfold put. destruct (x =? t) eqn:E.
      * apply Nat.eqb_eq in E. subst x. rewrite Ht in B. split; [|intros p Hp; apply B; cbn; auto].
        destruct c; cbn; auto. apply B. cbn. auto.
      * apply Nat.eqb_neq in E. rewrite <- Hx by auto. auto.
Qed.
Lemma step_fire : forall ph q w t, sinv ph q w -> exists w', step w (Fire t) = Ok w' /\ sinv ph q w'.
Proof.
  intros ph q w t I. cbn. destruct (listed (tms w t) && (expiry (tms w t) <=? now w)) eqn:E; [|exists w; auto].
  apply andb_true_iff in E. destruct E as [L _].
  rewrite (s_mem _ _ _ I t) by auto. eexists. split; [reflexivity|].
  set (x' := Tmr _ _ _ _ _ _).
  assert (Hh : forall x, home (put (tms w) t x' x) = home (tms w x)).
  { intro x. unfold put. destruct (x =? t) eqn:E; auto. apply Nat.eqb_eq in E. subst. reflexivity. }
  assert (Hp : forall x, period (put (tms w) t x' x) = period (tms w x)).
  { intro x. unfold put. destruct (x =? t) eqn:E; auto. apply Nat.eqb_eq in E. subst. reflexivity. }
  assert (Hm : forall x, mem (tms w x) = true -> mem (put (tms w) t x' x) = true).
  { intro x. unfold put. destruct (x =? t) eqn:E; auto. }
  assert (Hl : forall x, listed (tms w x) = false -> listed (put (tms w) t x' x) = false).
  { intro x. unfold put. destruct (x =? t) eqn:E; auto. apply Nat.eqb_eq in E. subst. congruence. }
  assert (Ax : forall x, asleep w x -> asleep (World (now w) (put (tms w) t x') (fresh w) (queue w) (objs w) (ran w ++ [(t, now w)])) x).
  { intros x [A [B C]]. unfold asleep. cbn. rewrite Hh. split; [auto|]. split; auto. intro H.
    rewrite put_other; [auto | intros ->; congruence]. }
  constructor; cbn [now tms fresh queue objs ran].
  - apply I.
  - intros x H. unfold put in *. destruct (x =? t); [reflexivity | apply I; auto].
  - apply I.
  - apply I.
  - intros o st Q. destruct (s_live _ _ _ I o st Q) as [t' [A [B [C D]]]]. exists t'. rewrite Hh. auto.
  - intros o st Q. destruct (s_dying _ _ _ I o st Q) as [t' [A [B C]]]. exists t'. rewrite Hh. repeat split; auto.
    destruct C as [C|C]; auto.
  - intros x Hg. rewrite Hh. destruct (s_gone _ _ _ I x Hg) as [A|C]; auto.
  - apply I.
  - apply I.
  - intros x H. destruct (s_fresh _ _ _ I x H). auto.
  - intros x H. rewrite Hp. apply I; auto.
Qed.
Lemma step_tick : forall ph q w, sinv ph q w -> exists w', step w Tick = Ok w' /\ sinv ph q w'.
Proof. intros ph q w I. cbn. eexists. split; [reflexivity|]. constructor; cbn; apply I. Qed.

(* a careful step *)
Definition next_ph (ph : nat -> phase) (a : act) : nat -> phase :=
  match a with
  | New o _ _ st _ => put ph o (Live st)
  | EndPost o _ => match ph o with Live st => put ph o (Dying st) | _ => ph end
  | EndMem o => put ph o Out
  | _ => ph
  end.
Definition next_q (q : nat) (a : act) : nat :=
  match a with Post _ _ ok => if ok then S q else q | EndPost _ _ => S q | Daemon => pred q | _ => q end.
Lemma careful_step : forall ph q w a l, sinv ph q w -> careful ph q (a :: l) ->
  exists w', step w a = Ok w' /\ sinv (next_ph ph a) (next_q q a) w' /\ careful (next_ph ph a) (next_q q a) l.
Proof.
  intros ph q w a l I C. destruct a as [o p rl st ok|o o'|o u ok|o ok|o| |t|]; cbn in C; cbn [next_ph next_q].
  - destruct C as [Ho [Hp [-> C]]]. destruct (step_new ph q w o p rl st I Ho Hp) as [w' [E I']]. eauto.
  - destruct C.
  - destruct C as [[st L] [Hp C]]. destruct (step_post ph q w o st u ok I L Hp) as [w' [E I']]. eauto.
  - destruct C as [-> [st [L C]]]. destruct (step_endpost ph q w o st I L) as [w' [E I']]. rewrite L. eauto.
  - destruct C as [st [D [Hq C]]]. destruct (step_endmem ph q w o st I D Hq) as [w' [E I']]. eauto.
  - destruct (step_daemon ph q w I) as [w' [E I']]. eauto.
  - destruct (step_fire ph q w t I) as [w' [E I']]. eauto.
  - destruct (step_tick ph q w I) as [w' [E I']]. eauto.
Qed.
Fixpoint phases (ph : nat -> phase) (l : list act) : nat -> phase := match l with [] => ph | a :: r => phases (next_ph ph a) r end.
Fixpoint lens (q : nat) (l : list act) : nat := match l with [] => q | a :: r => lens (next_q q a) r end.
Lemma careful_run : forall l l2 ph q w, sinv ph q w -> careful ph q (l ++ l2) ->
  exists w', run w l = Ok w' /\ sinv (phases ph l) (lens q l) w' /\ careful (phases ph l) (lens q l) l2.
Proof.
  induction l as [|a l IH]; intros l2 ph q w I C; cbn [run phases lens app] in *; [eauto|].
  destruct (careful_step ph q w a (l ++ l2) I C) as [w' [E [I' C']]]. rewrite E. apply IH; auto.
Qed.

(* ---- what happens to one timer ---- *)
Definition same (x y : tmr) : Prop := listed x = listed y /\ expiry x = expiry y /\ period x = period y /\ reload x = reload y.
Definition speaks (a : act) (o : nat) : Prop :=
  match a with Post x _ _ | EndPost x _ => x = o | _ => False end.
Inductive seen (w w' : world) (t : nat) : Prop :=
  | SNothing : qof t (queue w') = qof t (queue w) -> same (tms w' t) (tms w t) -> now w <= now w' -> times t w' = times t w -> seen w w' t
  | SObey c : qof t (queue w) = c :: qof t (queue w') -> tms w' t = obey w (tms w t) c -> now w' = now w -> times t w' = times t w -> seen w w' t
  | SFire : listed (tms w t) = true -> expiry (tms w t) <= now w -> qof t (queue w') = qof t (queue w) ->
      listed (tms w' t) = reload (tms w t) -> expiry (tms w' t) = (if reload (tms w t) then expiry (tms w t) + period (tms w t) else expiry (tms w t)) ->
      period (tms w' t) = period (tms w t) -> reload (tms w' t) = reload (tms w t) ->
      now w' = now w -> times t w' = times t w ++ [now w] -> seen w w' t.
Lemma same_refl : forall x, same x x.
Proof. intros. repeat split. Qed.
Lemma seen_nothing : forall w w' t, qof t (queue w') = qof t (queue w) -> tms w' t = tms w t -> now w <= now w' -> ran w' = ran w -> seen w w' t.
Proof. intros w w' t A B C D. apply SNothing; auto; [rewrite B; apply same_refl | unfold times; rewrite D; auto]. Qed.
Lemma view_step : forall ph q w a l w' t, sinv ph q w -> careful ph q (a :: l) -> step w a = Ok w' -> t < fresh w ->
  (forall o, objs w o = Some (Some t) -> ~ speaks a o) -> t < fresh w' /\ seen w w' t.
Proof.
  intros ph q w a l w' t I C E Ht Hs. destruct a as [o p rl st ok|o o'|o u ok|o ok|o| |x|]; cbn [step] in E.
  - destruct ok; inversion E; subst; cbn; (split; [lia|]); apply seen_nothing; cbn; auto. apply put_other. lia.
  - destruct C.
  - unfold with_handle in E. destruct (objs w o) as [[t'|]|] eqn:Eo; try discriminate.
    assert (t <> t') by (intro; subst; apply (Hs o Eo); reflexivity).
    destruct ok; inversion E; subst; cbn; (split; [lia|]); apply seen_nothing; cbn; auto. apply qof_send_other; auto.
  - unfold with_handle in E. destruct (objs w o) as [[t'|]|] eqn:Eo; try discriminate.
    assert (t <> t') by (intro; subst; apply (Hs o Eo); reflexivity).
    destruct ok; inversion E; subst; cbn; (split; [lia|]); apply seen_nothing; cbn; auto. apply qof_send_other; auto.
  - destruct (objs w o) as [[t'|]|] eqn:Eo; inversion E; subst; try (cbn; split; [lia | apply seen_nothing; cbn; auto]).
    destruct (home (tms w t')) as [o'|]; [destruct (o' =? o)|]; cbn; (split; [lia|]); try (solve [apply seen_nothing; cbn; auto]).
    apply SNothing; cbn; auto. destruct (Nat.eq_dec t t') as [->|N]; [rewrite put_same; repeat split | rewrite put_other by auto; apply same_refl].
  - destruct (queue w) as [|[t' c] r] eqn:Eq.
    + inversion E; subst. split; auto. apply seen_nothing; auto.
    + destruct (mem (tms w t')); inversion E; subst. cbn. split; [lia|]. destruct (Nat.eq_dec t t') as [<-|N].
      * apply SObey with (c := c); cbn; auto; [rewrite Eq; apply qof_head_same | apply put_same].
      * apply seen_nothing; cbn; auto; [rewrite Eq; symmetry; apply qof_head_other; auto | apply put_other; auto].
  - cbn in E. destruct (listed (tms w x) && (expiry (tms w x) <=? now w)) eqn:D.
    + destruct (mem (tms w x)); inversion E; subst. cbn. split; [lia|].
      apply andb_true_iff in D. destruct D as [D1 D2]. apply Nat.leb_le in D2.
      destruct (Nat.eq_dec t x) as [<-|N].
      * apply SFire; cbn; rewrite ?put_same; cbn; auto. unfold times. cbn. rewrite filter_app, map_app. cbn. rewrite Nat.eqb_refl. reflexivity.
      * apply SNothing; cbn; auto; [rewrite put_other by auto; apply same_refl|].
        unfold times. cbn. rewrite filter_app, map_app. cbn. destruct (x =? t) eqn:Q; [apply Nat.eqb_eq in Q; lia|]. apply app_nil_r.
    + inversion E; subst. split; auto. apply seen_nothing; auto.
  - inversion E; subst. cbn. split; auto. apply seen_nothing; cbn; auto.
Qed.
(* the owner of t stays the owner as long as the program leaves it alone *)
Lemma owner_step : forall ph q w a l w' o t st, sinv ph q w -> careful ph q (a :: l) -> step w a = Ok w' ->
  ph o = Live st -> objs w o = Some (Some t) -> quiet o a = true -> objs w' o = Some (Some t) /\ next_ph ph a o = Live st.
Proof.
  intros ph q w a l w' o t st I C E L Ho Q. destruct a as [x p rl s ok|x x'|x u ok|x ok|x| |x|]; cbn [step] in E; cbn [quiet] in Q; cbn [next_ph].
  - apply negb_true_iff, Nat.eqb_neq in Q. destruct ok; inversion E; subst; cbn; rewrite !put_other by auto; auto.
  - destruct C.
  - unfold with_handle in E. destruct (objs w x) as [[t'|]|]; try discriminate. destruct ok; inversion E; subst; auto.
  - apply negb_true_iff, Nat.eqb_neq in Q. unfold with_handle in E. destruct (objs w x) as [[t'|]|]; try discriminate.
    split; [destruct ok; inversion E; subst; auto|]. destruct (ph x); auto; rewrite put_other; auto.
  - apply negb_true_iff, Nat.eqb_neq in Q. rewrite put_other by auto. split; auto.
    destruct (objs w x) as [[t'|]|]; inversion E; subst; cbn; try (rewrite put_other by auto; auto).
    destruct (home (tms w t')) as [o'|]; [destruct (o' =? x)|]; cbn; auto.
  - destruct (queue w) as [|[t' c] r]; [inversion E; subst; auto|]. destruct (mem (tms w t')); inversion E; subst; auto.
  - cbn in E. destruct (listed (tms w x) && _); [destruct (mem (tms w x))|]; inversion E; subst; auto.
  - inversion E; subst; auto.
Qed.
Lemma quiet_speaks : forall ph q w o t a, sinv ph q w -> objs w o = Some (Some t) -> quiet o a = true ->
  forall x, objs w x = Some (Some t) -> ~ speaks a x.
Proof.
  intros ph q w o t a I Ho Q x Hx. assert (x = o) by (eapply (s_one _ _ _ I); eauto). subst.
  destruct a; cbn in *; auto; intros ->; rewrite Nat.eqb_refl in Q; discriminate.
Qed.
(* induction over acts that leave the owner alone *)
Lemma quiet_run : forall (P : world -> Prop) o t st,
  (forall ph q w w', sinv ph q w -> objs w o = Some (Some t) -> t < fresh w -> P w -> seen w w' t -> P w') ->
  forall l l2 ph q w w', sinv ph q w -> careful ph q (l ++ l2) -> ph o = Live st -> objs w o = Some (Some t) ->
    forallb (quiet o) l = true -> P w -> run w l = Ok w' -> P w' /\ objs w' o = Some (Some t) /\
    sinv (phases ph l) (lens q l) w' /\ careful (phases ph l) (lens q l) l2 /\ phases ph l o = Live st.
Proof.
  intros P o t st HP. induction l as [|a l IH]; intros l2 ph q w w' I C L Ho Q Pw R; cbn in R, Q.
  - inversion R; subst. auto.
  - apply andb_true_iff in Q. destruct Q as [Qa Q].
    destruct (careful_step ph q w a (l ++ l2) I C) as [w1 [E [I' C']]]. rewrite E in R.
    destruct (owner_step _ _ _ _ _ _ _ _ _ I C E L Ho Qa) as [Ho1 L1].
    destruct (view_step _ _ _ _ _ _ t I C E (s_new _ _ _ I _ _ Ho)) as [_ S1].
    { eapply quiet_speaks; eauto. }
    apply (IH l2 (next_ph ph a) (next_q q a) w1 w'); auto. apply (HP ph q w w1); auto. exact (s_new _ _ _ I _ _ Ho).
Qed.

(* ---- a started timer ---- *)
Definition started (a p n0 : nat) (r : bool) (t : nat) (w : world) : Prop :=
  period (tms w t) = p /\ reload (tms w t) = r /\ 0 < p /\
  (qof t (queue w) = [CStart a] /\ listed (tms w t) = false /\ length (times t w) = n0 /\ a <= now w \/
   exists k, qof t (queue w) = [] /\ listed (tms w t) = true /\ length (times t w) = n0 + k /\
     expiry (tms w t) = a + (k + 1) * p /\ (r = false -> k = 0) /\ a + k * p <= now w \/
   r = false /\ qof t (queue w) = [] /\ listed (tms w t) = false /\ length (times t w) = n0 + 1 /\ a + p <= now w).
Lemma started_step : forall a p n0 r t w w', started a p n0 r t w -> seen w w' t -> started a p n0 r t w'.
Proof.
  intros a p n0 r t w w' [Hp [Hr [Pp S0]]] S1. unfold started.
  destruct S1 as [Q [S1 [S2 [S3 S4]]] N T | c Q X N T | L D Q Fl Fe Fp Fr N T].
  - rewrite S3, S4, Q, S1, S2, T. split; auto. split; auto. split; auto.
    destruct S0 as [S0|[k [S0|S0]]]; [left; intuition lia | right; exists k; left; intuition lia | right; exists k; right; intuition lia].
  - destruct S0 as [[E [Fl [F2 F3]]]|[k [[E _]|[_ [E _]]]]]; rewrite E in Q; try discriminate. inversion Q; subst c.
    rewrite X, T, N. cbn. split; auto. split; auto. split; auto. right. exists 0. left. rewrite Hp. repeat split; auto; lia.
  - destruct S0 as [[E [F1 _]]|[k [S0|[_ [E [F1 _]]]]]]; try congruence.
    destruct S0 as [E [F1 [F2 [F3 [F4 F5]]]]]. rewrite Fp, Fr, Q, Fl, Fe, T, N. rewrite Hr, Hp, F3 in *.
    rewrite app_length. cbn. split; auto. split; auto. split; auto. right. destruct r.
    + exists (k + 1). left. repeat split; auto; try lia; discriminate.
    + rewrite F4 in * by auto. exists 0. right. repeat split; auto; lia.
Qed.
Lemma started_count : forall a p n0 r t w, started a p n0 r t w ->
  n0 <= length (times t w) /\ length (times t w) - n0 <= due r p (now w - a) /\
  (idle w -> length (times t w) - n0 = due r p (now w - a)).
Proof.
  intros a p n0 r t w [Hp [Hr [Pp S0]]].
  destruct S0 as [[E [F1 [F2 F3]]]|[k [[E [F1 [F2 [F3 [F4 F5]]]]]|[-> [E [F1 [F2 F3]]]]]]].
  - split; [lia|]. split; [lia|]. intros [I1 _]. rewrite I1 in E. discriminate.
  - split; [lia|]. unfold due. destruct r.
    + assert (k <= (now w - a) / p) by (apply Nat.div_le_lower_bound; nia).
      split; [lia|]. intros [_ I2]. specialize (I2 t F1). rewrite F3 in I2.
      assert ((now w - a) / p < k + 1) by (apply Nat.div_lt_upper_bound; nia). lia.
    + rewrite F4 in * by auto. split; [lia|]. intros [_ I2]. specialize (I2 t F1). rewrite F3 in I2.
      destruct (p <=? now w - a) eqn:Z; [apply Nat.leb_le in Z; lia | lia].
  - split; [lia|]. unfold due. destruct (p <=? now w - a) eqn:Z; [lia | apply Nat.leb_gt in Z; lia].
Qed.

(* ---- a stopped timer ---- *)
Definition stopping (t : nat) (w : world) : Prop :=
  (exists l, qof t (queue w) = l ++ [CStop]) \/ qof t (queue w) = [] /\ listed (tms w t) = false.
Lemma stopping_step : forall t w w', stopping t w -> seen w w' t -> stopping t w'.
Proof.
  intros t w w' S0 S1. unfold stopping.
  destruct S1 as [Q [S1 _] N T | c Q X N T | L D Q Fl Fe Fp Fr N T].
  - rewrite Q, S1. exact S0.
  - destruct S0 as [[l E]|[E _]]; [|congruence]. rewrite E in Q. destruct l as [|c' l]; cbn in Q; inversion Q; subst.
    + right. rewrite X. auto.
    + left. exists l. auto.
  - rewrite Q. destruct S0 as [S0|[_ F]]; [auto | congruence].
Qed.
Definition silent (t : nat) (n : list nat) (w : world) : Prop := qof t (queue w) = [] /\ listed (tms w t) = false /\ times t w = n.
Lemma silent_step : forall t n w w', silent t n w -> seen w w' t -> silent t n w'.
Proof.
  intros t n w w' [A [B C]] S1. unfold silent.
  destruct S1 as [Q [S1 _] N T | c Q X N T | L D Q Fl Fe Fp Fr N T]; try congruence. rewrite Q, S1, T. auto.
Qed.

(* ---- a timer without a live object ---- *)
Definition orphan (ph : nat -> phase) (t : nat) (w : world) : Prop :=
  t < fresh w /\ forall o, objs w o = Some (Some t) -> exists st, ph o = Dying st.
Lemma orphan_step : forall ph q w a l w' t, sinv ph q w -> careful ph q (a :: l) -> step w a = Ok w' -> orphan ph t w ->
  orphan (next_ph ph a) t w' /\ seen w w' t.
Proof.
  intros ph q w a l w' t I C E [Ht O].
  assert (Sp : forall o, objs w o = Some (Some t) -> ~ speaks a o).
  { intros o Ho. destruct (O o Ho) as [st D]. destruct a; cbn in *; auto; intros ->.
    - destruct C as [[s L] _]. congruence.
    - destruct C as [_ [s [L _]]]. congruence. }
  destruct (view_step ph q w a l w' t I C E Ht Sp) as [Ht' S1]. split; auto. split; auto.
  intros o Ho. destruct a as [x p rl s ok|x x'|x u ok|x ok|x| |x|]; cbn [step] in E; cbn [next_ph]; cbn in C.
  - destruct C as [_ [_ [-> _]]]. inversion E; subst. cbn in Ho. unfold put in *. destruct (o =? x); [inversion Ho; lia | auto].
  - destruct C.
  - unfold with_handle in E. destruct (objs w x) as [[t'|]|]; try discriminate. destruct ok; inversion E; subst; auto.
  - destruct C as [-> [s [L _]]]. rewrite L. unfold with_handle in E. destruct (objs w x) as [[t'|]|] eqn:Ex; try discriminate.
    inversion E; subst. cbn in Ho. destruct (O o Ho) as [st D]. rewrite put_other; eauto. congruence.
  - destruct (objs w x) as [[t'|]|]; inversion E; subst; cbn in Ho;
      (unfold put in Ho at 1 || idtac); unfold put.
    + destruct (o =? x) eqn:Q; [|destruct (home (tms w t')) as [o'|]; [destruct (o' =? x)|]; cbn in Ho; unfold put in Ho; rewrite ?Q in Ho; auto].
      destruct (home (tms w t')) as [o'|]; [destruct (o' =? x)|]; cbn in Ho; unfold put in Ho; rewrite ?Q in Ho; discriminate.
    + destruct (o =? x) eqn:Q; [discriminate | auto].
    + destruct (o =? x) eqn:Q; [discriminate | auto].
  - destruct (queue w) as [|[t' c] r]; [inversion E; subst; auto|]. destruct (mem (tms w t')); inversion E; subst; auto.
  - cbn in E. destruct (listed (tms w x) && _); [destruct (mem (tms w x))|]; inversion E; subst; auto.
  - inversion E; subst; auto.
Qed.
Lemma orphan_run : forall l l2 ph q w t, sinv ph q w -> careful ph q (l ++ l2) -> orphan ph t w ->
  exists w', run w l = Ok w' /\ orphan (phases ph l) t w' /\ sinv (phases ph l) (lens q l) w' /\ careful (phases ph l) (lens q l) l2 /\
    forall n, silent t n w -> silent t n w'.
Proof.
  induction l as [|a l IH]; intros l2 ph q w t I C O; cbn [run phases lens app] in *.
  - exists w. auto 10.
  - destruct (careful_step ph q w a (l ++ l2) I C) as [w1 [E [I' C']]]. rewrite E.
    destruct (orphan_step ph q w a (l ++ l2) w1 t I C E O) as [O' S1].
    destruct (IH l2 _ _ w1 t I' C' O') as [w' [R [O2 [I2 [C2 S2]]]]]. exists w'. split; auto. split; auto. split; auto. split; auto.
    intros n Sn. apply S2. eapply silent_step; eauto.
Qed.
Lemma orphan_asleep : forall ph q w t, sinv ph q w -> orphan ph t w -> queue w = [] -> asleep w t.
Proof.
  intros ph q w t I [Ht O] E.
  assert (D : ~ doomed (qof t (queue w))) by (rewrite E; intro D; apply doomed_ne in D; apply D; reflexivity).
  assert (X : (exists o, objs w o = Some (Some t)) -> asleep w t).
  { intros [o Ho]. destruct (O o Ho) as [st Dy]. destruct (s_dying _ _ _ I o st Dy) as [t' [A [B C]]].
    rewrite Ho in A. inversion A; subst t'. tauto. }
  assert (Y : asleep w t \/ ~ asleep w t).
  { unfold asleep. rewrite E. destruct (listed (tms w t)), (home (tms w t)), (mem (tms w t)); cbn; try (left; repeat split; auto; fail);
      try (left; repeat split; auto; discriminate); right; intros [_ [Z1 Z2]]; try discriminate; specialize (Z2 eq_refl); discriminate. }
  destruct Y as [Y|Y]; auto. destruct (s_gone _ _ _ I t) as [G|[_ G]]; auto; [|tauto].
  intros o Ho. apply Y, X. eauto.
Qed.

(* ---- a timer nobody can stop ---- *)
Lemma run_app : forall a b w, run w (a ++ b) = match run w a with Ok w' => run w' b | UB => UB | Diverge => Diverge end.
Proof. induction a as [|x a IH]; intros b w; cbn; auto. destruct (step w x); auto. Qed.
Lemma run_ticks : forall n w, run w (repeat Tick n) = Ok (World (n + now w) (tms w) (fresh w) (queue w) (objs w) (ran w)).
Proof.
  induction n as [|n IH]; intros w; cbn [repeat run step]; [destruct w; reflexivity|]. rewrite IH. cbn. repeat f_equal. lia.
Qed.
Lemma only_ticks : forall n, forallb only_time (repeat Tick n) = true.
Proof. induction n; auto. Qed.
Lemma runs_on : forall k w t, mem (tms w t) = true -> listed (tms w t) = true -> reload (tms w t) = true ->
  exists l w', forallb only_time l = true /\ run w l = Ok w' /\ length (times t w') = length (times t w) + k.
Proof.
  induction k as [|k IH]; intros w t M L R.
  - exists [], w. repeat split. lia.
  - set (n := expiry (tms w t)).
    assert (E : exists w1, run w (repeat Tick n ++ [Fire t]) = Ok w1 /\ mem (tms w1 t) = true /\ listed (tms w1 t) = true /\
       reload (tms w1 t) = true /\ length (times t w1) = S (length (times t w))).
    { rewrite run_app, run_ticks. cbn. rewrite L. cbn.
      replace (expiry (tms w t) <=? n + now w) with true by (symmetry; apply Nat.leb_le; unfold n; lia).
      rewrite M. eexists. split; [reflexivity|]. cbn. rewrite put_same. cbn. repeat split; auto.
      unfold times. cbn. rewrite filter_app, map_app, app_length. cbn. rewrite Nat.eqb_refl. cbn. lia. }
    destruct E as [w1 [E1 [M1 [L1 [R1 T1]]]]]. destruct (IH w1 t M1 L1 R1) as [l [w' [F [Rn T]]]].
    exists ((repeat Tick n ++ [Fire t]) ++ l), w'. split; [rewrite !forallb_app, only_ticks, F; reflexivity|].
    split; [rewrite run_app, E1; auto | lia].
Qed.

(* ---- period and kind are those the program gave ---- *)
Definition pendp (l : list cmd) (p : nat) : nat := fold_left (fun p c => match c with CPeriod p' => p' | _ => p end) l p.
Definition ginv (ph : nat -> phase) (w : world) (g : nat -> option (nat * bool)) : Prop :=
  forall o st t, ph o = Live st -> objs w o = Some (Some t) ->
    g o = Some (pendp (qof t (queue w)) (period (tms w t)), reload (tms w t)).
Lemma given_step : forall ph q w a l w' g, sinv ph q w -> careful ph q (a :: l) -> step w a = Ok w' -> ginv ph w g ->
  ginv (next_ph ph a) w' (given1 g a).
Proof.
  intros ph q w a l w' g I C E G o st t L Ho.
  destruct a as [x p rl s ok|x x'|x u ok|x ok|x| |x|]; cbn [step] in E; cbn [next_ph] in L.
  - cbn in C. destruct C as [_ [_ [-> _]]]. inversion E; subst; clear E. cbn in *. destruct (Nat.eq_dec o x) as [->|N].
    + rewrite put_same in *. inversion Ho; subst. rewrite put_same. destruct (s_fresh _ _ _ I (fresh w) (le_n _)) as [-> _]. reflexivity.
    + rewrite put_other in * by auto. rewrite (put_other _ (tms w)) by (apply (s_new _ _ _ I) in Ho; lia). eapply G; eauto.
  - destruct C.
  - cbn in C. destruct C as [[sx Lx] _]. destruct (s_live _ _ _ I x sx Lx) as [tx [Hx _]].
    unfold with_handle in E. rewrite Hx in E. inversion E; subst; clear E.
    destruct ok; [|destruct u; cbn [given1]; apply (G o st t); auto].
    cbn in Ho. cbn [send queue tms]. destruct (Nat.eq_dec o x) as [->|N].
    + rewrite Hx in Ho. inversion Ho; subst tx. rewrite qof_send_same. unfold pendp. rewrite fold_left_app. cbn [fold_left].
      specialize (G x st t L Hx). destruct u; cbn; rewrite ?put_same, G; reflexivity.
    + assert (t <> tx) by (intro; subst; apply N; eapply (s_one _ _ _ I); eauto). rewrite qof_send_other by auto.
      destruct u; cbn [given1]; rewrite ?put_other by auto; eapply G; eauto.
  - cbn in C. destruct C as [-> [sx [Lx _]]]. rewrite Lx in L. destruct (s_live _ _ _ I x sx Lx) as [tx [Hx _]].
    unfold with_handle in E. rewrite Hx in E. inversion E; subst; clear E. cbn in Ho. cbn [send queue tms given1].
    destruct (Nat.eq_dec o x) as [->|N]; [rewrite put_same in L; discriminate|]. rewrite put_other in L by auto.
    assert (t <> tx) by (intro; subst; apply N; eapply (s_one _ _ _ I); eauto). rewrite qof_send_other by auto. eapply G; eauto.
  - destruct (Nat.eq_dec o x) as [->|N]; [rewrite put_same in L; discriminate|]. rewrite put_other in L by auto. cbn [given1].
    destruct (objs w x) as [[t'|]|]; inversion E; subst; clear E; cbn in Ho.
    + assert (Ho' : objs w o = Some (Some t)).
      { destruct (home (tms w t')) as [o'|]; [destruct (o' =? x)|]; cbn in Ho; rewrite put_other in Ho; auto. }
      rewrite (G o st t L Ho'). destruct (home (tms w t')) as [o'|]; [destruct (o' =? x)|]; cbn; auto.
      unfold put. destruct (t =? t') eqn:Q; auto. apply Nat.eqb_eq in Q. subst. reflexivity.
    + rewrite put_other in Ho by auto. cbn. eapply G; eauto.
    + rewrite put_other in Ho by auto. cbn. eapply G; eauto.
  - cbn [given1]. destruct (queue w) as [|[t' c] r] eqn:Eq; [inversion E; subst; eapply G; eauto|].
    destruct (mem (tms w t')); inversion E; subst; clear E. cbn in *. rewrite (G o st t L Ho), Eq. destruct (Nat.eq_dec t t') as [->|N].
    + rewrite qof_head_same, put_same. destruct c; reflexivity.
    + rewrite qof_head_other, put_other by auto. reflexivity.
  - cbn [given1]. cbn in E. destruct (listed (tms w x) && _); [destruct (mem (tms w x))|]; inversion E; subst; try (eapply G; eauto; fail).
    cbn in *. rewrite (G o st t L Ho). unfold put. destruct (t =? x) eqn:Q; auto. apply Nat.eqb_eq in Q. subst. reflexivity.
  - inversion E; subst. cbn in *. eapply G; eauto.
Qed.
Lemma given_run : forall l l2 ph q w g, sinv ph q w -> careful ph q (l ++ l2) -> ginv ph w g ->
  forall w', run w l = Ok w' -> ginv (phases ph l) w' (fold_left given1 l g).
Proof.
  induction l as [|a l IH]; intros l2 ph q w g I C G w' R; cbn [run phases fold_left app] in *; [inversion R; subst; auto|].
  destruct (careful_step ph q w a (l ++ l2) I C) as [w1 [E [I' C']]]. rewrite E in R.
  apply (IH l2 (next_ph ph a) (next_q q a) w1); auto. eapply given_step; eauto.
Qed.
