From Coq Require Import List Arith Bool ZArith Lia.
From Verif Require Import Base Lock_Spec Lock_Model.
Import ListNotations.

Lemma set_same {A} (f : nat -> A) k x : set_at f k x k = x.
Proof. unfold set_at. now rewrite Nat.eqb_refl. Qed.
Lemma set_other {A} (f : nat -> A) k x i : i <> k -> set_at f k x i = f i.
Proof. unfold set_at. intros N. now destruct (Nat.eqb_spec i k). Qed.

(* ---- counting events *)
Lemma filter_count {A} (f : A -> bool) a b : length (filter f (a ++ b)) = length (filter f a) + length (filter f b).
Proof. now rewrite filter_app, app_length. Qed.
Lemma acquired_app a b t m : acquired (a ++ b) t m = acquired a t m + acquired b t m.
Proof. apply filter_count. Qed.
Lemma released_app a b t m : released (a ++ b) t m = released a t m + released b t m.
Proof. apply filter_count. Qed.
Lemma updates_app a b v : updates (a ++ b) v = updates a v + updates b v.
Proof. apply filter_count. Qed.
Lemma exclusive_snoc tr e : exclusive tr -> (forall m t1 t2, holds (tr ++ [e]) t1 m -> holds (tr ++ [e]) t2 m -> t1 = t2) -> exclusive (tr ++ [e]).
Proof.
  intros X L p q E. destruct q as [|x q] using rev_ind.
  - rewrite app_nil_r in E. subst p. exact L.
  - clear IHq. rewrite app_assoc in E. apply app_inj_tail in E as [E _]. apply (X p q E).
Qed.
Lemma exclusive_nil : exclusive [].
Proof. intros p q E m t1 t2 H. symmetry in E. apply app_eq_nil in E as [-> ->]. unfold holds, released, acquired in H. cbn in H. lia. Qed.

(* ---- the mutexes a thread's pending destructors will give back *)
Fixpoint leaves (k : list item) : list nat :=
  match k with [] => [] | Leave m :: r => m :: leaves r | _ :: r => leaves r end.
Definition times (m : nat) (l : list nat) : nat := count_occ Nat.eq_dec l m.
Lemma times_cons m x l : times m (x :: l) = (if x =? m then 1 else 0) + times m l.
Proof. unfold times. cbn. destruct (Nat.eq_dec x m); destruct (Nat.eqb_spec x m); congruence || lia. Qed.
Lemma times_0 m l : ~ In m l <-> times m l = 0.
Proof. unfold times. rewrite (count_occ_not_In Nat.eq_dec). tauto. Qed.
Lemma unwind_leaves k : leaves (unwind k) = leaves k.
Proof.
  induction k as [|[p|m|m|v|h] k IH]; cbn; try assumption; try reflexivity. now f_equal.
Qed.

(* ---- properties of the text along an execution *)
Section Text.
  Variable P : list nat -> prog -> Prop.
  Record compositional : Prop := {
    c_seq : forall h a b, P h (Seq a b) -> P h a /\ P h b;
    c_catch : forall h a b, P h (Catch a b) -> P h a /\ P h b;
    c_guard : forall h m a, P h (Guard m a) -> P (m :: h) a;
    c_unique : forall h m x a, P h (Unique m x a) -> P h a
  }.
  Fixpoint all_do (k : list item) : Prop :=
    match k with
    | [] => True
    | Do p :: r => P (leaves r) p /\ all_do r
    | Handler p :: r => P (leaves r) p /\ all_do r
    | _ :: r => all_do r
    end.
  Hypothesis C : compositional.
  Lemma all_unwind k : all_do k -> all_do (unwind k).
  Proof. induction k as [|[p|m|m|v|h] k IH]; cbn; tauto. Qed.
  Lemma step_all K w t w' : (forall u, all_do (items w u)) -> step K w t = Some (Ok w') -> forall u, all_do (items w' u).
  Proof.
    intros A E u. pose proof (A t) as AT. unfold step in E.
    assert (G : forall w0 k, (forall i, items w0 i = items w i) -> all_do k -> all_do (items (goes w0 t k) u)).
    { intros w0 k I AK. unfold goes. cbn. destruct (Nat.eq_dec u t) as [-> |N]; [now rewrite set_same|].
      rewrite set_other by exact N. rewrite I. apply A. }
    assert (GL : forall m s e k, all_do k -> all_do (items (goes (locked w m s e) t k) u)) by (intros; apply G; [reflexivity|assumption]).
    destruct (items w t) as [|[p|m|m|v|h] k]; [discriminate E| | | | |]; cbn in AT.
    - destruct AT as [AP AK]. destruct p as [|a b|m a|m x a|m|m|v| |a h].
      + injection E as <-. now apply G.
      + injection E as <-. apply (c_seq C) in AP as [? ?]. apply G; [reflexivity|]. cbn. auto.
      + unfold do_lock in E. destruct (take _ _ _); try discriminate E. injection E as <-. apply (c_guard C) in AP.
        apply GL. cbn. auto.
      + apply (c_unique C) in AP. assert (AL : all_do (Do a :: LeaveUnique m :: k)) by (cbn; auto).
        destruct x; unfold do_lock, do_try in E.
        * destruct (take _ _ _); try discriminate E. injection E as <-. now apply GL.
        * injection E as <-. now apply G.
        * injection E as <-. now apply G.
        * destruct (take _ _ _); try discriminate E; injection E as <-; [now apply GL|now apply G].
      + unfold do_lock in E. destruct (take _ _ _); try discriminate E. injection E as <-. now apply GL.
      + unfold do_unlock in E. destruct (give _ _ _); try discriminate E. injection E as <-. now apply GL.
      + injection E as <-. apply G; [reflexivity|]. exact AK.
      + injection E as <-. apply G; [reflexivity|]. now apply all_unwind.
      + injection E as <-. apply (c_catch C) in AP as [? ?]. apply G; [reflexivity|]. cbn. auto.
    - unfold do_unlock in E. destruct (give _ _ _); try discriminate E. injection E as <-. now apply GL.
    - injection E as <-. now apply G.
    - injection E as <-. now apply G.
    - injection E as <-. destruct AT. now apply G.
  Qed.
  Lemma start_all K vs ps : Forall (P []) ps -> forall u, all_do (items (start K vs ps) u).
  Proof.
    intros F u. cbn. destruct (nth_error ps u) as [p|] eqn:E; cbn; [|exact I].
    apply nth_error_In in E. rewrite Forall_forall in F. auto.
  Qed.
End Text.

Lemma guarded_comp K : compositional (guarded K).
Proof. split; cbn; tauto. Qed.
Lemma protected_comp prot : compositional (protected prot).
Proof. split; cbn; tauto. Qed.
Lemma ordered_comp : compositional ordered.
Proof. split; cbn; tauto. Qed.

(* running, as a sequence of effective steps *)
Lemma run_inv K (I : world -> Prop) : (forall w t w', I w -> step K w t = Some (Ok w') -> I w') ->
  forall sched w w', I w -> run K w sched = Ok w' -> I w'.
Proof.
  intros H sched. induction sched as [|t r IH]; intros w w' IW E; cbn in E; [now injection E as <-|].
  destruct (step K w t) as [[w1| |]|] eqn:S1; try discriminate E; [|now apply (IH w)]. apply (IH w1); [|exact E]. now apply (H w t).
Qed.
Lemma run_app K a b w w' : run K w a = Ok w' -> run K w (a ++ b) = run K w' b.
Proof.
  revert w. induction a as [|t r IH]; intros w E; cbn in *; [now injection E as <-|].
  destruct (step K w t) as [[w1| |]|]; try discriminate E; now apply IH.
Qed.

(* ---- the invariant of guarded programs *)
Definition counts (w : world) (t m : nat) : nat := times m (leaves (items w t)).
Record inv (K : nat -> kind) (w : world) : Prop := {
  i_text : forall u, all_do (guarded K) (items w u);
  i_locks : forall m, match locks w m with
                      | Free => forall t, counts w t m = 0
                      | Held o d => 1 <= d /\ counts w o m = d /\ forall t, t <> o -> counts w t m = 0
                      | Empty => K m = KBinary /\ forall t, counts w t m = 0
                      end;
  i_bin : forall m t, K m = KBinary -> counts w t m = 0 /\ locks w m = Empty;
  i_trace : forall t m, acquired (trace w) t m = released (trace w) t m + counts w t m;
  i_excl : exclusive (trace w)
}.

Lemma counts_goes w t k u m : counts (goes w t k) u m = if u =? t then times m (leaves k) else counts w u m.
Proof. unfold counts, goes, set_at. cbn. now destruct (u =? t). Qed.

Lemma inv_start K vs ps : Forall (guarded K []) ps -> inv K (start K vs ps).
Proof.
  intros F. assert (Z : forall t m, counts (start K vs ps) t m = 0).
  { intros t m. unfold counts. cbn. now destruct (nth_error ps t). }
  split.
  - now apply start_all.
  - intros m. cbn [start locks]. destruct (K m) eqn:E; cbn [fresh]; try (intros t; apply Z). split; [reflexivity|intros t; apply Z].
  - intros m t E. split; [apply Z|]. cbn. now rewrite E.
  - intros t m. now rewrite Z.
  - exact exclusive_nil.
Qed.

Lemma holds_counts w : (forall t m, acquired (trace w) t m = released (trace w) t m + counts w t m) ->
  forall t m, holds (trace w) t m <-> 1 <= counts w t m.
Proof. intros T t m. unfold holds. rewrite T. lia. Qed.
Lemma locks_excl K w m t1 t2 : match locks w m with
                      | Free => forall t, counts w t m = 0
                      | Held o d => 1 <= d /\ counts w o m = d /\ forall t, t <> o -> counts w t m = 0
                      | Empty => K m = KBinary /\ forall t, counts w t m = 0
                      end -> 1 <= counts w t1 m -> 1 <= counts w t2 m -> t1 = t2.
Proof.
  destruct (locks w m) as [|o d|]; intros L A B.
  - rewrite L in A. lia.
  - destruct L as (_ & _ & L). destruct (Nat.eq_dec t1 o), (Nat.eq_dec t2 o); try congruence; [rewrite (L t2) in B by assumption; lia|rewrite (L t1) in A by assumption; lia|rewrite (L t1) in A by assumption; lia].
  - destruct L as [_ L]. rewrite L in A. lia.
Qed.

(* a step that keeps the locks and the pending destructors *)
Lemma inv_quiet K w w' : inv K w -> (forall u, all_do (guarded K) (items w' u)) -> (forall u m, counts w' u m = counts w u m) ->
  locks w' = locks w -> (trace w' = trace w \/ exists t v, trace w' = trace w ++ [Updated t v]) -> inv K w'.
Proof.
  intros [IT IL IB ITR IE] T C L TR.
  assert (TR' : forall t m, acquired (trace w') t m = acquired (trace w) t m /\ released (trace w') t m = released (trace w) t m).
  { intros t m. destruct TR as [-> | (a & v & ->)]; [auto|]. rewrite acquired_app, released_app. cbn. lia. }
  assert (NT : forall t m, acquired (trace w') t m = released (trace w') t m + counts w' t m).
  { intros t m. destruct (TR' t m) as [-> ->]. rewrite C. apply ITR. }
  assert (NL : forall m, match locks w' m with
                      | Free => forall t, counts w' t m = 0
                      | Held o d => 1 <= d /\ counts w' o m = d /\ forall t, t <> o -> counts w' t m = 0
                      | Empty => K m = KBinary /\ forall t, counts w' t m = 0
                      end).
  { intros m. rewrite L. specialize (IL m). destruct (locks w m) as [|o d|]; [intros t; now rewrite C|rewrite C; repeat split; try apply IL; intros t Ht; rewrite C; now apply IL|split; [apply IL|intros t; rewrite C; now apply IL]]. }
  split; try assumption.
  - intros m t E. rewrite C, L. now apply IB.
  - destruct TR as [-> | (a & v & E)]; [exact IE|]. rewrite E. apply exclusive_snoc; [exact IE|]. rewrite <- E.
    intros m t1 t2 H1 H2. apply (holds_counts w' NT) in H1, H2. exact (locks_excl K w' m t1 t2 (NL m) H1 H2).
Qed.

Lemma inv_take K w t m s k : inv K w -> (forall u, all_do (guarded K) (items (goes (locked w m s [Acquired t m]) t k) u)) ->
  K m <> KBinary -> take (K m) (locks w m) t = Got s ->
  (forall x, times x (leaves k) = (if m =? x then 1 else 0) + counts w t x) ->
  inv K (goes (locked w m s [Acquired t m]) t k).
Proof.
  intros [IT IL IB ITR IE] T NB TK C. set (w' := goes (locked w m s [Acquired t m]) t k) in *.
  assert (CC : forall u x, counts w' u x = (if (u =? t) && (m =? x) then 1 else 0) + counts w u x).
  { intros u x. unfold w'. rewrite counts_goes. destruct (Nat.eqb_spec u t) as [-> |N]; cbn [andb]; [apply C|reflexivity]. }
  assert (NT : forall u x, acquired (trace w') u x = released (trace w') u x + counts w' u x).
  { intros u x. rewrite CC. unfold w'. cbn [goes locked trace]. rewrite acquired_app, released_app, ITR. unfold acquired, released. cbn [filter].
    rewrite (Nat.eqb_sym t u). destruct ((u =? t) && (m =? x)); cbn; lia. }
  assert (NL : forall x, match locks w' x with
                      | Free => forall u, counts w' u x = 0
                      | Held o d => 1 <= d /\ counts w' o x = d /\ forall u, u <> o -> counts w' u x = 0
                      | Empty => K x = KBinary /\ forall u, counts w' u x = 0
                      end).
  { intros x. unfold w' at 1. cbn [goes locked locks]. unfold set_at. destruct (Nat.eqb_spec x m) as [-> |N].
    - specialize (IL m). unfold take in TK. destruct (locks w m) as [|o d|]; [|destruct (Nat.eqb_spec o t) as [-> |ON]|discriminate TK].
      + assert (S1 : s = Held t 1) by (destruct (K m); congruence). rewrite S1. split; [lia|]. rewrite CC, Nat.eqb_refl. cbn [andb].
        rewrite Nat.eqb_refl. split; [rewrite IL; reflexivity|]. intros u U. rewrite CC. destruct (Nat.eqb_spec u t); [contradiction|]. cbn. apply IL.
      + destruct (K m); try discriminate TK. injection TK as <-. destruct IL as (L1 & L2 & L3). split; [lia|].
        rewrite CC, !Nat.eqb_refl. cbn [andb]. split; [lia|]. intros u U. rewrite CC. destruct (Nat.eqb_spec u t); [contradiction|]. cbn. now apply L3.
      + discriminate TK.
    - specialize (IL x). assert (CX : forall u, counts w' u x = counts w u x).
      { intros u. rewrite CC. destruct (Nat.eqb_spec m x); [congruence|]. now rewrite andb_false_r. }
      destruct (locks w x) as [|o d|]; [intros u; now rewrite CX|rewrite CX; repeat split; try apply IL; intros u U; rewrite CX; now apply IL|split; [apply IL|intros u; rewrite CX; now apply IL]]. }
  split; try assumption.
  - intros x u B. assert (x <> m) by congruence. rewrite CC. destruct (Nat.eqb_spec m x); [congruence|]. rewrite andb_false_r.
    unfold w'. cbn [goes locked locks]. rewrite set_other by assumption. now apply IB.
  - unfold w'. cbn [goes locked trace]. apply exclusive_snoc; [exact IE|].
    intros x t1 t2 H1 H2. change (trace w ++ [Acquired t m]) with (trace w') in *.
    apply (holds_counts w' NT) in H1, H2. exact (locks_excl K w' x t1 t2 (NL x) H1 H2).
Qed.

Lemma inv_give K w t m k : inv K w -> items w t = Leave m :: k ->
  exists s, give (K m) (locks w m) t = Some s /\ inv K (goes (locked w m s [Released t m]) t k).
Proof.
  intros [IT IL IB ITR IE] E.
  assert (CT : counts w t m = S (times m (leaves k))) by (unfold counts; rewrite E; cbn [leaves]; rewrite times_cons, Nat.eqb_refl; reflexivity).
  pose proof (IL m) as LM. destruct (locks w m) as [|o d|] eqn:LK; [rewrite LM in CT; discriminate| |destruct LM as [_ LM]; rewrite LM in CT; discriminate].
  destruct LM as (L1 & L2 & L3). destruct (Nat.eq_dec t o) as [<- |N]; [|rewrite L3 in CT by exact N; discriminate].
  unfold give. rewrite Nat.eqb_refl. eexists. split; [reflexivity|].
  match goal with |- inv K (goes (locked w m ?x _) t k) => set (s := x) end.
  set (w' := goes (locked w m s [Released t m]) t k).
  assert (CC : forall u x, counts w u x = (if (u =? t) && (m =? x) then 1 else 0) + counts w' u x).
  { intros u x. unfold w'. rewrite counts_goes. destruct (Nat.eqb_spec u t) as [-> |N]; cbn [andb]; [|reflexivity].
    unfold counts. rewrite E. cbn [leaves]. now rewrite times_cons. }
  assert (NT : forall u x, acquired (trace w') u x = released (trace w') u x + counts w' u x).
  { intros u x. unfold w' at 1 2. cbn [goes locked trace]. rewrite acquired_app, released_app, ITR, CC. unfold acquired, released. cbn [filter].
    rewrite (Nat.eqb_sym t u). destruct ((u =? t) && (m =? x)); cbn; lia. }
  assert (CM : counts w' t m = d - 1) by (pose proof (CC t m) as H; rewrite !Nat.eqb_refl in H; cbn [andb] in H; lia).
  assert (CO : forall u, u <> t -> counts w' u m = 0).
  { intros u U. pose proof (CC u m) as H. rewrite (L3 u U) in H. lia. }
  assert (NL : forall x, match locks w' x with
                      | Free => forall u, counts w' u x = 0
                      | Held o d => 1 <= d /\ counts w' o x = d /\ forall u, u <> o -> counts w' u x = 0
                      | Empty => K x = KBinary /\ forall u, counts w' u x = 0
                      end).
  { intros x. unfold w' at 1. cbn [goes locked locks]. unfold set_at. destruct (Nat.eqb_spec x m) as [-> |N].
    - unfold s. destruct d as [|[|d]]; [lia| |].
      + intros u. destruct (Nat.eq_dec u t) as [-> |U]; [exact CM|now apply CO].
      + split; [lia|]. split; [lia|]. exact CO.
    - specialize (IL x). assert (CX : forall u, counts w' u x = counts w u x).
      { intros u. rewrite (CC u x). destruct (Nat.eqb_spec m x); [congruence|]. now rewrite andb_false_r. }
      destruct (locks w x) as [|o' d'|]; [intros u; now rewrite CX|rewrite CX; repeat split; try apply IL; intros u U; rewrite CX; now apply IL|split; [apply IL|intros u; rewrite CX; now apply IL]]. }
  split; try assumption.
  - intros u. unfold w', goes. cbn. destruct (Nat.eq_dec u t) as [-> |U]; [rewrite set_same|rewrite set_other by exact U; apply IT].
    specialize (IT t). rewrite E in IT. exact IT.
  - intros x u B. assert (XM : x <> m) by (intros ->; destruct (IB m t B); congruence).
    destruct (IB x u B) as [B1 B2]. split; [pose proof (CC u x); lia|]. unfold w'. cbn [goes locked locks]. now rewrite set_other.
  - unfold w'. cbn [goes locked trace]. apply exclusive_snoc; [exact IE|].
    intros x t1 t2 H1 H2. change (trace w ++ [Released t m]) with (trace w') in *.
    apply (holds_counts w' NT) in H1, H2. exact (locks_excl K w' x t1 t2 (NL x) H1 H2).
Qed.

(* no step of a guarded program is undefined, and each keeps the invariant *)
Lemma inv_step K w t r : inv K w -> step K w t = Some r -> exists w', r = Ok w' /\ inv K w'.
Proof.
  intros I E. pose proof (i_text K w I t) as AT. 
  assert (TX : forall w', step K w t = Some (Ok w') -> forall u, all_do (guarded K) (items w' u)).
  { intros w' E'. apply (step_all (guarded K) (guarded_comp K) K w t w'); [exact (i_text K w I)|exact E']. }
  rewrite E in TX.
  assert (Q : forall w0 k, r = Ok (goes w0 t k) -> locks w0 = locks w -> items w0 = items w ->
     (trace w0 = trace w \/ exists t v, trace w0 = trace w ++ [Updated t v]) -> leaves k = leaves (items w t) -> exists w', r = Ok w' /\ inv K w').
  { intros w0 k -> L IT0 TR LV. eexists. split; [reflexivity|]. apply (inv_quiet K w); try assumption; [now apply TX|].
    intros u m. rewrite counts_goes. unfold counts. rewrite IT0. destruct (Nat.eqb_spec u t) as [-> |]; [now rewrite LV|reflexivity]. }
  unfold step in E. destruct (items w t) as [|[p|m|m|v|h] k] eqn:IT; [discriminate E| | | | |]; cbn in AT.
  - destruct AT as [AP AK]. destruct p as [|a b|m a|m x a|m|m|v| |a h]; cbn in AP; try contradiction.
    + injection E as E. symmetry in E. eapply Q; [exact E|reflexivity|reflexivity|now left|reflexivity].
    + injection E as E. symmetry in E. eapply Q; [exact E|reflexivity|reflexivity|now left|reflexivity].
    + destruct AP as (NB & RE & _). unfold do_lock in E. destruct (take (K m) (locks w m) t) as [s| |] eqn:TK; [|discriminate E|].
      * injection E as E. subst r. eexists. split; [reflexivity|]. apply inv_take; try assumption; [now apply TX|].
        intros x. cbn [leaves]. rewrite times_cons. unfold counts. now rewrite IT.
      * exfalso. unfold take in TK. destruct (locks w m) as [|o d|] eqn:LK; try discriminate TK. pose proof (i_locks K w I m) as LM. rewrite LK in LM.
        destruct (Nat.eqb_spec o t) as [-> |]; [|discriminate TK]. destruct (K m) eqn:KM; try discriminate TK.
        destruct RE as [RE|RE]; [discriminate RE|]. apply times_0 in RE. destruct LM as (L1 & L2 & _). unfold counts in L2. rewrite IT in L2. cbn [leaves] in L2. lia.
    + injection E as E. symmetry in E. eapply Q; [exact E|reflexivity|reflexivity|now left|reflexivity].
    + injection E as E. symmetry in E. eapply Q; [exact E|reflexivity|reflexivity|now left|]. cbn [leaves]. apply unwind_leaves.
    + injection E as E. symmetry in E. eapply Q; [exact E|reflexivity|reflexivity|now left|reflexivity].
  - destruct (inv_give K w t m k I IT) as (s & G & IG). unfold do_unlock in E. rewrite G in E. injection E as <-. eexists. split; [reflexivity|exact IG].
  - injection E as E. symmetry in E. eapply Q; [exact E|reflexivity|reflexivity|now left|reflexivity].
  - injection E as E. symmetry in E. eapply Q; [exact E|reflexivity|reflexivity|right; now exists t, v|reflexivity].
  - injection E as E. symmetry in E. eapply Q; [exact E|reflexivity|reflexivity|now left|reflexivity].
Qed.
Lemma inv_run K sched : forall w, inv K w -> exists w', run K w sched = Ok w' /\ inv K w'.
Proof.
  induction sched as [|t r IH]; intros w I; cbn; [now exists w|].
  destruct (step K w t) as [x|] eqn:E; [|now apply IH]. destruct (inv_step K w t x I E) as (w1 & -> & I1). now apply IH.
Qed.

(* ---- updates are not lost *)
Record vinv (prot : nat -> nat) (vs : nat -> Z) (w : world) : Prop := {
  v_text : forall u, all_do (protected prot) (items w u);
  (* a thread between read and write holds the mutex, and has read the current value *)
  v_store : forall u, Forall (fun i => match i with Store _ => False | _ => True end) (tl (items w u)) ;
  v_reg : forall u v k, items w u = Store v :: k -> In (prot v) (leaves k) /\ regs w u = vals w v;
  v_vals : forall v, vals w v = (vs v + Z.of_nat (updates (trace w) v))%Z
}.
Definition no_store (k : list item) : Prop := Forall (fun i => match i with Store _ => False | _ => True end) k.
Lemma no_store_unwind k : no_store k -> no_store (unwind k).
Proof.
  unfold no_store. induction k as [|[p|m|m|v|h] k IH]; cbn; intros F; try assumption; inversion F; subst; try constructor; auto.
Qed.
Lemma no_store_tl k : no_store k -> no_store (tl k).
Proof. intros F. destruct k; [exact F|]. now inversion F. Qed.

Lemma vinv_step K prot vs w t w' : inv K w -> vinv prot vs w -> step K w t = Some (Ok w') -> vinv prot vs w'.
Proof.
  intros I V E. destruct V as [VT VS VR VV].
  assert (TX : forall u, all_do (protected prot) (items w' u)) by now apply (step_all _ (protected_comp prot) K w t w').
  (* steps that change neither variables nor registers *)
  assert (Q : forall w0 k, w' = goes w0 t k -> vals w0 = vals w -> regs w0 = regs w -> items w0 = items w ->
     (forall v, updates (trace w0) v = updates (trace w) v) -> no_store k -> vinv prot vs w').
  { intros w0 k -> E1 E2 E3 E4 NS. split.
    - exact TX.
    - intros u. cbn. destruct (Nat.eq_dec u t) as [-> |N]; [rewrite set_same; now apply no_store_tl|rewrite set_other by exact N; rewrite E3; apply VS].
    - intros u v k' IU. cbn in *. destruct (Nat.eq_dec u t) as [-> |N].
      + rewrite set_same in IU. rewrite IU in NS. inversion NS. contradiction.
      + rewrite set_other in IU by exact N. rewrite E3 in IU. rewrite E1, E2. now apply VR.
    - intros v. cbn [goes vals trace]. rewrite E1, E4. apply VV. }
  assert (QL : forall m s e k, w' = goes (locked w m s [e]) t k -> (forall v, updates [e] v = 0) -> no_store k -> vinv prot vs w').
  { intros m s e k EW EU NS. apply (Q (locked w m s [e]) k EW); try reflexivity; [|exact NS]. intros v. cbn [locked trace]. rewrite updates_app, EU. lia. }
  pose proof (VS t) as ST. pose proof (VT t) as AT. unfold step in E. destruct (items w t) as [|i k] eqn:IT; [discriminate E|]. cbn [tl] in ST.
  change (Forall (fun i => match i with Store _ => False | _ => True end) k) with (no_store k) in ST.
  assert (NC : forall i k, (match i with Store _ => False | _ => True end) -> no_store k -> no_store (i :: k)) by (intros; now constructor).
  destruct i as [p|m|m|v|h]; cbn in AT.
  - destruct AT as [AP AK]. destruct p as [|a b|m a|m x a|m|m|v| |a h]; cbn in AP.
    + injection E as E. eapply Q; [symmetry; exact E|reflexivity..|exact ST].
    + injection E as E. eapply Q; [symmetry; exact E|reflexivity..|]. now apply NC, NC.
    + unfold do_lock in E. destruct (take _ _ _); try discriminate E. injection E as E. eapply QL; [symmetry; exact E|reflexivity|]. now apply NC, NC.
    + assert (NS : no_store (Do a :: LeaveUnique m :: k)) by now apply NC, NC. unfold do_lock, do_try in E. destruct x.
      * destruct (take _ _ _); try discriminate E. injection E as E. eapply QL; [symmetry; exact E|reflexivity|exact NS].
      * injection E as E. eapply Q; [symmetry; exact E|reflexivity..|exact NS].
      * injection E as E. eapply Q; [symmetry; exact E|reflexivity..|exact NS].
      * destruct (take _ _ _); try discriminate E; injection E as E; [eapply QL; [symmetry; exact E|reflexivity|exact NS]|eapply Q; [symmetry; exact E|reflexivity..|exact NS]].
    + unfold do_lock in E. destruct (take _ _ _); try discriminate E. injection E as E. eapply QL; [symmetry; exact E|reflexivity|exact ST].
    + unfold do_unlock in E. destruct (give _ _ _); try discriminate E. injection E as E. eapply QL; [symmetry; exact E|reflexivity|exact ST].
    + (* the read *)
      injection E as E. subst w'. split.
      * exact TX.
      * intros u. cbn. destruct (Nat.eq_dec u t) as [-> |N]; [rewrite set_same; exact ST|rewrite set_other by exact N; apply VS].
      * intros u v' k' IU. cbn in *. destruct (Nat.eq_dec u t) as [-> |N].
        -- rewrite set_same in IU. rewrite set_same. injection IU as -> ->. auto.
        -- rewrite set_other in IU by exact N. rewrite set_other by exact N. now apply VR.
      * exact VV.
    + injection E as E. eapply Q; [symmetry; exact E|reflexivity..|]. now apply no_store_unwind.
    + injection E as E. eapply Q; [symmetry; exact E|reflexivity..|]. now apply NC, NC.
  - unfold do_unlock in E. destruct (give _ _ _); try discriminate E. injection E as E. eapply QL; [symmetry; exact E|reflexivity|exact ST].
  - injection E as E. eapply Q; [symmetry; exact E|reflexivity..|exact ST].
  - (* the write *)
    injection E as E. subst w'. destruct (VR t v k IT) as [H1 H2]. split.
    + exact TX.
    + intros u. cbn. destruct (Nat.eq_dec u t) as [-> |N]; [rewrite set_same; now apply no_store_tl|rewrite set_other by exact N; apply VS].
    + intros u v' k' IU. cbn in *. destruct (Nat.eq_dec u t) as [-> |N].
      * rewrite set_same in IU. rewrite IU in ST. inversion ST. contradiction.
      * rewrite set_other in IU by exact N. destruct (VR u v' k' IU) as [H3 H4]. split; [exact H3|]. rewrite H4.
        destruct (Nat.eq_dec v' v) as [-> |NV]; [|now rewrite set_other]. exfalso. apply N.
        apply (locks_excl K w (prot v) u t (i_locks K w I (prot v))); unfold counts.
        -- rewrite IU. cbn [leaves]. pose proof (times_0 (prot v) (leaves k')). destruct (times (prot v) (leaves k')); [exfalso; now apply H|lia].
        -- rewrite IT. cbn [leaves]. pose proof (times_0 (prot v) (leaves k)). destruct (times (prot v) (leaves k)); [exfalso; now apply H|lia].
    + intros v'. cbn [goes vals trace]. rewrite updates_app. unfold updates at 2. cbn [filter]. rewrite (Nat.eqb_sym v v'). unfold set_at.
      destruct (Nat.eqb_spec v' v) as [-> |NV]; cbn [length].
      * rewrite H2, VV. lia.
      * rewrite VV. lia.
  - injection E as E. eapply Q; [symmetry; exact E|reflexivity..|exact ST].
Qed.
Lemma vinv_start K prot vs ps : Forall (protected prot []) ps -> vinv prot vs (start K vs ps).
Proof.
  intros F. split.
  - now apply start_all.
  - intros u. cbn. destruct (nth_error ps u); cbn; constructor.
  - intros u v k. cbn. destruct (nth_error ps u); discriminate.
  - intros v. cbn. lia.
Qed.
Lemma both_run K prot vs sched : forall w, inv K w -> vinv prot vs w -> exists w', run K w sched = Ok w' /\ inv K w' /\ vinv prot vs w'.
Proof.
  induction sched as [|t r IH]; intros w I V; cbn; [now exists w|].
  destruct (step K w t) as [x|] eqn:E; [|now apply IH]. destruct (inv_step K w t x I E) as (w1 & -> & I1). apply IH; [exact I1|].
  now apply (vinv_step K prot vs w t).
Qed.

(* ---- progress *)
Fixpoint weight (k : list item) : nat :=
  match k with
  | [] => 0
  | Do p :: r => size p + weight r
  | Handler p :: r => S (size p) + weight r
  | _ :: r => 1 + weight r
  end.
Fixpoint sum_to (n : nat) (f : nat -> nat) : nat := match n with 0 => 0 | S n' => f n' + sum_to n' f end.
Definition total (n : nat) (w : world) : nat := sum_to n (fun t => weight (items w t)).

Lemma weight_unwind k : weight (unwind k) <= weight k.
Proof. induction k as [|[p|m|m|v|h] k IH]; cbn; lia. Qed.
Lemma step_weight K w t w' : step K w t = Some (Ok w') -> weight (items w' t) < weight (items w t) /\ forall u, u <> t -> items w' u = items w u.
Proof.
  intros E.
  assert (G : forall w0 k, w' = goes w0 t k -> items w0 = items w -> weight k < weight (items w t) ->
     weight (items w' t) < weight (items w t) /\ forall u, u <> t -> items w' u = items w u).
  { intros w0 k -> IE W. cbn. rewrite set_same. split; [exact W|]. intros u U. rewrite set_other by exact U. now rewrite IE. }
  unfold step in E. destruct (items w t) as [|[p|m|m|v|h] k] eqn:IT; [discriminate E| | | | |].
  - destruct p as [|a b|m a|m x a|m|m|v| |a h]; unfold do_lock, do_try, do_unlock in E; try destruct x;
      try (destruct (take _ _ _); try discriminate E); try (destruct (give _ _ _); try discriminate E);
      injection E as E; (eapply G; [symmetry; exact E|reflexivity|cbn; try lia]).
    pose proof (weight_unwind k). lia.
  - unfold do_unlock in E. destruct (give _ _ _); try discriminate E. injection E as E. eapply G; [symmetry; exact E|reflexivity|cbn; lia].
  - injection E as E. eapply G; [symmetry; exact E|reflexivity|cbn; lia].
  - injection E as E. eapply G; [symmetry; exact E|reflexivity|cbn; lia].
  - injection E as E. eapply G; [symmetry; exact E|reflexivity|cbn; lia].
Qed.
Lemma sum_lt n f g t : t < n -> (forall u, u <> t -> f u = g u) -> f t < g t -> sum_to n f < sum_to n g.
Proof.
  induction n as [|n IH]; intros T O L; [lia|]. cbn. destruct (Nat.eq_dec t n) as [-> |N].
  - assert (H : sum_to n f = sum_to n g); [|lia]. clear - O.
    assert (H : forall k, k <= n -> sum_to k f = sum_to k g); [|now apply H].
    induction k as [|k IH]; intros K; [reflexivity|]. cbn. rewrite IH by lia. rewrite O by lia. reflexivity.
  - rewrite (O n) by lia. assert (sum_to n f < sum_to n g); [|lia]. apply IH; try assumption. lia.
Qed.
Lemma step_total K n w t w' : t < n -> step K w t = Some (Ok w') -> total n w' < total n w.
Proof.
  intros T E. destruct (step_weight K w t w' E) as [A B]. apply (sum_lt n _ _ t T); [|exact A]. intros u U. now rewrite (B u U).
Qed.
(* only the first n threads have work *)
Definition idle_from (n : nat) (w : world) : Prop := forall t, n <= t -> items w t = [].
Lemma step_idle K n w t w' : idle_from n w -> step K w t = Some (Ok w') -> idle_from n w' /\ t < n.
Proof.
  intros I E. destruct (step_weight K w t w' E) as [A B].
  assert (T : t < n). { destruct (Nat.lt_ge_cases t n) as [|G]; [assumption|]. rewrite (I t G) in A. cbn in A. lia. }
  split; [|exact T]. intros u U. rewrite B by lia. now apply I.
Qed.

(* the threads do not all wait for each other *)
Lemma blocked_on K w t r : inv K w -> items w t = r -> r <> [] -> step K w t = None ->
  exists m a k o, r = Do (Guard m a) :: k /\ o <> t /\ 1 <= counts w o m.
Proof.
  intros I IT NE E. pose proof (i_text K w I t) as AT. unfold step in E. rewrite IT in *.
  destruct r as [|[p|m|m|v|h] k]; [congruence| | | | |]; try discriminate E.
  - cbn in AT. destruct AT as [AP _]. destruct p as [|a b|m a|m x a|m|m|v| |a h]; cbn in AP; try contradiction; try discriminate E.
    unfold do_lock in E. destruct AP as (NB & RE & _). destruct (take (K m) (locks w m) t) eqn:TK; try discriminate E.
    exists m, a, k. unfold take in TK. pose proof (i_locks K w I m) as LM. destruct (locks w m) as [|o d|] eqn:LK; [discriminate TK| |now destruct LM].
    destruct LM as (L1 & L2 & L3). destruct (Nat.eqb_spec o t) as [-> |N].
    + exfalso. destruct (K m) eqn:KM; try discriminate TK; destruct RE as [RE|RE]; try discriminate RE; apply times_0 in RE; unfold counts in L2; rewrite IT in L2; cbn [leaves] in L2; try lia; now apply NB.
    + exists o. repeat split; [exact N|lia].
  - unfold do_unlock in E. now destruct (give _ _ _).
Qed.

Lemma no_deadlock K n w : inv K w -> (forall u, all_do ordered (items w u)) -> idle_from n w ->
  (forall t, t < n -> step K w t = None) -> forall t, finished w t.
Proof.
  intros I OR ID ST.
  (* otherwise, from a thread that waits for m there is one that waits for a larger one *)
  assert (NX : forall t m a k, items w t = Do (Guard m a) :: k -> exists t' m' a' k', items w t' = Do (Guard m' a') :: k' /\ m < m' \/ step K w t <> None).
  { intros t m a k IT. destruct (step K w t) as [x|] eqn:E; [exists 0, 0, Skip, []; right; discriminate|].
    destruct (blocked_on K w t _ I IT ltac:(discriminate) E) as (m1 & a1 & k1 & o & EQ & ON & CO). injection EQ as <- <- <-.
    assert (IO : items w o <> []) by (intros Z; unfold counts in CO; rewrite Z in CO; cbn in CO; lia).
    assert (OL : o < n) by (destruct (Nat.lt_ge_cases o n) as [|G]; [assumption|]; now rewrite (ID o G) in IO).
    destruct (blocked_on K w o _ I eq_refl IO (ST o OL)) as (m2 & a2 & k2 & o2 & EQ2 & ON2 & CO2).
    exists o, m2, a2, k2. left. split; [exact EQ2|]. pose proof (OR o) as AO. rewrite EQ2 in AO. cbn in AO. destruct AO as [[[IN|F] _] _].
    - (* reacquisition: its own, so it is not blocked *)
      exfalso. assert (C2 : 1 <= counts w o m2).
      { unfold counts. rewrite EQ2. cbn [leaves]. pose proof (times_0 m2 (leaves k2)). destruct (times m2 (leaves k2)); [exfalso; now apply H|lia]. }
      apply ON2. now apply (locks_excl K w m2 o2 o (i_locks K w I m2)).
    - rewrite Forall_forall in F. apply F. unfold counts in CO. rewrite EQ2 in CO. cbn [leaves] in CO.
      destruct (in_dec Nat.eq_dec m (leaves k2)) as [|NI]; [assumption|]. apply times_0 in NI. lia. }
  intros t. unfold finished. destruct (items w t) as [|i r] eqn:IT; [reflexivity|]. exfalso.
  assert (TL : t < n) by (destruct (Nat.lt_ge_cases t n) as [|G]; [assumption|]; rewrite (ID t G) in IT; discriminate).
  destruct (blocked_on K w t _ I IT ltac:(discriminate) (ST t TL)) as (m & a & k & o & EQ & _ & _). rewrite EQ in IT. clear EQ o i r TL.
  (* all waited-for mutexes are bounded *)
  assert (BD : exists B, forall u m a k, items w u = Do (Guard m a) :: k -> m <= B).
  { clear - ID. assert (H : forall j, j <= n -> exists B, forall u m a k, u < j -> items w u = Do (Guard m a) :: k -> m <= B).
    { induction j as [|j IH]; intros J; [exists 0; intros; lia|]. destruct IH as [B HB]; [lia|].
      set (x := match items w j with Do (Guard m _) :: _ => m | _ => 0 end). exists (Nat.max B x). intros u m a k U IU.
      destruct (Nat.eq_dec u j) as [-> |]; [unfold x; rewrite IU; lia|]. assert (m <= B) by (apply (HB u m a k); [lia|exact IU]). lia. }
    destruct (H n (Nat.le_refl n)) as [B HB]. exists B. intros u m a k IU. apply (HB u m a k); [|exact IU].
    destruct (Nat.lt_ge_cases u n) as [|G]; [assumption|]. rewrite (ID u G) in IU. discriminate. }
  destruct BD as [B HB]. remember (B - m) as g. revert t m a k IT Heqg. induction g as [g IH] using lt_wf_ind. intros t m a k IT EG.
  destruct (NX t m a k IT) as (t' & m' & a' & k' & [[IT' L]|C]).
  - pose proof (HB _ _ _ _ IT'). apply (IH (B - m') ltac:(lia) t' m' a' k' IT'). reflexivity.
  - assert (TL : t < n) by (destruct (Nat.lt_ge_cases t n) as [|G]; [assumption|]; rewrite (ID t G) in IT; discriminate). now apply C, ST.
Qed.

(* what a fair round achieves *)
Record live (K : nat -> kind) (n : nat) (w : world) : Prop := {
  l_inv : inv K w;
  l_ord : forall u, all_do ordered (items w u);
  l_idle : idle_from n w
}.
Lemma live_step K n w t r : live K n w -> step K w t = Some r -> exists w', r = Ok w' /\ live K n w' /\ total n w' < total n w.
Proof.
  intros [I O D] E. destruct (inv_step K w t r I E) as (w' & -> & I'). exists w'. split; [reflexivity|].
  destruct (step_idle K n w t w' D E) as [D' T]. split; [|now apply (step_total K n w t)].
  split; [exact I'| |exact D']. now apply (step_all _ ordered_comp K w t w').
Qed.
Lemma round_progress K n r : forall w, live K n w ->
  exists w', run K w r = Ok w' /\ live K n w' /\ total n w' <= total n w /\
    (total n w' = total n w -> w' = w /\ forall t, In t r -> step K w t = None).
Proof.
  induction r as [|t r IH]; intros w L; cbn.
  - exists w. split; [reflexivity|]. split; [exact L|]. split; [lia|]. intros _. split; [reflexivity|]. intros t [].
  - destruct (step K w t) as [x|] eqn:E.
    + destruct (live_step K n w t x L E) as (w1 & -> & L1 & T1). destruct (IH w1 L1) as (w' & R & L' & T' & _).
      exists w'. split; [exact R|]. split; [exact L'|]. split; [lia|]. intros Z. lia.
    + destruct (IH w L) as (w' & R & L' & T' & Z). exists w'. split; [exact R|]. split; [exact L'|]. split; [exact T'|].
      intros Q. destruct (Z Q) as [-> A]. split; [reflexivity|]. intros u [<- |U]; [exact E|now apply A].
Qed.
Lemma fair_finishes K n rounds : fair_rounds n rounds -> forall w, live K n w -> total n w <= length rounds ->
  exists w', run K w (concat rounds) = Ok w' /\ inv K w' /\ forall t, finished w' t.
Proof.
  intros F. induction F as [|r rounds FR F IH]; intros w L T.
  - cbn in T. exists w. split; [reflexivity|]. destruct L as [I O D]. split; [exact I|].
    apply (no_deadlock K n w I O D). intros t TL. destruct (step K w t) as [x|] eqn:E; [|reflexivity].
    destruct (live_step K n w t x (Build_live K n w I O D) E) as (w' & _ & _ & TT). lia.
  - destruct (round_progress K n r w L) as (w1 & R & L1 & T1 & Z). destruct (Nat.eq_dec (total n w1) (total n w)) as [Q|Q].
    + destruct (Z Q) as [-> A]. destruct L as [I O D].
      assert (FN : forall t, finished w t) by (apply (no_deadlock K n w I O D); intros t TL; apply A, FR, TL).
      (* nothing is left to do *)
      assert (S0 : forall s, run K w s = Ok w).
      { induction s as [|t s IHs]; [reflexivity|]. cbn. assert (E : step K w t = None) by (unfold step; now rewrite (FN t)). now rewrite E. }
      exists w. split; [apply S0|]. now split.
    + destruct (IH w1 L1) as (w' & R' & I' & FN); [cbn in T; lia|]. exists w'. cbn [concat]. rewrite (run_app K _ _ w w1 R). split; [exact R'|]. split; [exact I'|exact FN].
Qed.
Lemma start_live K vs ps : Forall (guarded K []) ps -> Forall (ordered []) ps -> live K (length ps) (start K vs ps).
Proof.
  intros G O. split; [now apply inv_start|now apply start_all|]. intros t T. cbn. apply nth_error_None in T. now rewrite T.
Qed.
Lemma start_total K vs ps : total (length ps) (start K vs ps) = list_sum (map size ps).
Proof.
  unfold total. rewrite <- (rev_involutive ps). set (l := rev ps). clearbody l. clear ps.
  assert (H : forall tl, sum_to (length (rev l)) (fun t => weight (items (start K vs (rev l ++ tl)) t)) = list_sum (map size (rev l))).
  { induction l as [|p l IH]; intros tl; cbn [rev]; [reflexivity|]. rewrite app_length. cbn [length]. rewrite Nat.add_comm. cbn [Nat.add sum_to].
    rewrite <- app_assoc. cbn [app]. rewrite IH. rewrite map_app, list_sum_app. cbn [map list_sum fold_right].
    cbn [start items]. rewrite nth_error_app2 by lia. rewrite Nat.sub_diag. cbn. lia. }
  specialize (H []). rewrite app_nil_r in H. exact H.
Qed.

(* ---- a mutex nobody gives back *)
(* the items do not release (or touch) m *)
Fixpoint untouched (m : nat) (k : list item) : Prop :=
  match k with
  | [] => True
  | Do p :: r | Handler p :: r => ignores m p /\ untouched m r
  | Leave m' :: r => m' <> m /\ untouched m r
  | _ :: r => untouched m r
  end.
Lemma untouched_unwind m k : untouched m k -> untouched m (unwind k).
Proof. induction k as [|[p|x|x|v|h] k IH]; cbn; tauto. Qed.
Lemma stuck_step K m t d w u w' : locks w m = Held t d -> K m = KStd \/ K m = KMutex -> untouched m (items w t) ->
  step K w u = Some (Ok w') ->
  locks w' m = Held t d /\ untouched m (items w' t) /\ (forall o, acquired (trace w') o m = acquired (trace w) o m /\ released (trace w') o m = released (trace w) o m).
Proof.
  intros L KM UT E.
  assert (TK : forall x, take (K m) (Held t d) u = Got x -> False) by (intros x; unfold take; destruct (t =? u); [destruct KM as [-> | ->]|]; discriminate).
  assert (GV : u <> t -> give (K m) (Held t d) u = None) by (intros N; unfold give; destruct (Nat.eqb_spec t u); [congruence|]; destruct KM as [-> | ->]; reflexivity).
  assert (Q : forall w0 k, w' = goes w0 u k -> locks w0 = locks w -> items w0 = items w -> (trace w0 = trace w \/ exists t v, trace w0 = trace w ++ [Updated t v]) ->
     (u = t -> untouched m k) -> locks w' m = Held t d /\ untouched m (items w' t) /\ (forall o, acquired (trace w') o m = acquired (trace w) o m /\ released (trace w') o m = released (trace w) o m)).
  { intros w0 k -> E1 E2 E3 UK. cbn [goes locks items trace]. rewrite E1. split; [exact L|]. split.
    - destruct (Nat.eq_dec t u) as [-> |N]; [rewrite set_same; now apply UK|rewrite set_other by exact N; now rewrite E2].
    - intros o. destruct E3 as [-> | (a & v & ->)]; [auto|]. rewrite acquired_app, released_app. cbn. lia. }
  assert (QL : forall x s e k, x <> m -> (forall o, acquired [e] o m = 0 /\ released [e] o m = 0) -> w' = goes (locked w x s [e]) u k ->
     (u = t -> untouched m k) -> locks w' m = Held t d /\ untouched m (items w' t) /\ (forall o, acquired (trace w') o m = acquired (trace w) o m /\ released (trace w') o m = released (trace w) o m)).
  { intros x s e k N AE -> UK. cbn [goes locked locks items trace]. rewrite set_other by congruence. split; [exact L|]. split.
    - destruct (Nat.eq_dec t u) as [-> |N']; [rewrite set_same; now apply UK|now rewrite set_other by exact N'].
    - intros o. destruct (AE o). rewrite acquired_app, released_app. lia. }
  assert (NA : forall x s, x <> m -> forall o, acquired [Acquired s x] o m = 0 /\ released [Acquired s x] o m = 0).
  { intros x s N o. unfold acquired, released. cbn. destruct (Nat.eqb_spec x m); [contradiction|]. now rewrite andb_false_r. }
  assert (NR : forall x s, x <> m -> forall o, acquired [Released s x] o m = 0 /\ released [Released s x] o m = 0).
  { intros x s N o. unfold acquired, released. cbn. destruct (Nat.eqb_spec x m); [contradiction|]. now rewrite andb_false_r. }
  (* take and give of any mutex *)
  assert (DL : forall x k, do_lock K w u x k = Some (Ok w') -> (u = t -> untouched m k) ->
     locks w' m = Held t d /\ untouched m (items w' t) /\ (forall o, acquired (trace w') o m = acquired (trace w) o m /\ released (trace w') o m = released (trace w) o m)).
  { intros x k EL UK. unfold do_lock in EL. destruct (take (K x) (locks w x) u) as [s| |] eqn:TE; try discriminate EL.
    injection EL as EL. destruct (Nat.eq_dec x m) as [-> |N]; [rewrite L in TE; now destruct (TK s)|].
    apply (QL x s (Acquired u x) k N); [now apply NA|symmetry; exact EL|exact UK]. }
  assert (DU : forall x k, do_unlock K w u x k = Some (Ok w') -> (u = t -> x <> m /\ untouched m k) ->
     locks w' m = Held t d /\ untouched m (items w' t) /\ (forall o, acquired (trace w') o m = acquired (trace w) o m /\ released (trace w') o m = released (trace w) o m)).
  { intros x k EL UK. unfold do_unlock in EL. destruct (give (K x) (locks w x) u) as [s|] eqn:GE; try discriminate EL.
    injection EL as EL. destruct (Nat.eq_dec x m) as [-> |N].
    - exfalso. rewrite L in GE. destruct (Nat.eq_dec u t) as [-> |NU]; [now destruct (UK eq_refl)|rewrite GV in GE by exact NU; discriminate].
    - apply (QL x s (Released u x) k N); [now apply NR|symmetry; exact EL|intros T; now apply UK]. }
  assert (UT' : u = t -> untouched m (items w u)) by (intros ->; exact UT). unfold step in E.
  destruct (items w u) as [|[p|x|x|v|h] k] eqn:IU; [discriminate E| | | | |]; cbn in UT'.
  - destruct p as [|a b|x a|x hh a|x|x|v| |a h]; cbn in UT'.
    + injection E as E. eapply Q; [symmetry; exact E|reflexivity|reflexivity|now left|]. intros T; cbn; now apply UT'.
    + injection E as E. eapply Q; [symmetry; exact E|reflexivity|reflexivity|now left|]. intros T; cbn. destruct (UT' T). tauto.
    + eapply DL; [exact E|]. intros T. cbn. destruct (UT' T). tauto.
    + assert (UK : u = t -> untouched m (Do a :: LeaveUnique x :: k)) by (intros T; cbn; destruct (UT' T); tauto). destruct hh.
      * eapply DL; [exact E|exact UK].
      * injection E as E. eapply Q; [symmetry; exact E|reflexivity|reflexivity|now left|exact UK].
      * injection E as E. eapply Q; [symmetry; exact E|reflexivity|reflexivity|now left|exact UK].
      * unfold do_try in E. destruct (take (K x) (locks w x) u) as [s| |] eqn:TE; [|injection E as E; eapply Q; [symmetry; exact E|reflexivity|reflexivity|now left|exact UK]|discriminate E].
        apply (DL x (Do a :: LeaveUnique x :: k)); [|exact UK]. unfold do_lock. now rewrite TE.
    + eapply DL; [exact E|]. intros T. now apply UT'.
    + eapply DU; [exact E|]. intros T. now apply UT'.
    + injection E as E. eapply Q; [symmetry; exact E|reflexivity|reflexivity|now left|]. intros T; cbn; now apply UT'.
    + injection E as E. eapply Q; [symmetry; exact E|reflexivity|reflexivity|now left|]. intros T. apply untouched_unwind. now apply UT'.
    + injection E as E. eapply Q; [symmetry; exact E|reflexivity|reflexivity|now left|]. intros T; cbn. destruct (UT' T). tauto.
  - eapply DU; [exact E|]. exact UT'.
  - injection E as E. eapply Q; [symmetry; exact E|reflexivity|reflexivity|now left|exact UT'].
  - injection E as E. eapply Q; [symmetry; exact E|reflexivity|reflexivity|right; now exists u, v|exact UT'].
  - injection E as E. eapply Q; [symmetry; exact E|reflexivity|reflexivity|now left|]. intros T. now apply UT'.
Qed.
Lemma stuck_run K m t d sched : K m = KStd \/ K m = KMutex -> forall w w', locks w m = Held t d -> untouched m (items w t) ->
  run K w sched = Ok w' ->
  locks w' m = Held t d /\ (forall o, acquired (trace w') o m = acquired (trace w) o m /\ released (trace w') o m = released (trace w) o m).
Proof.
  intros KM. induction sched as [|u r IH]; intros w w' L UT E; cbn in E; [injection E as <-; auto|].
  destruct (step K w u) as [[w1| |]|] eqn:S1; try discriminate E; [|now apply IH].
  destruct (stuck_step K m t d w u w1 L KM UT S1) as (L1 & U1 & A1). destruct (IH w1 w' L1 U1 E) as [L2 A2].
  split; [exact L2|]. intros o. destruct (A1 o) as [<- <-]. apply A2.
Qed.

(* a thread that locks by unique_lock and does nothing else with the mutex *)
Lemma unique_stuck K vs ps t m a sched w : K m = KStd \/ K m = KMutex -> nth_error ps t = Some (Unique m Locking a) -> ignores m a ->
  run K (start K vs ps) sched = Ok w ->
  (items w t = [Do (Unique m Locking a)] /\ acquired (trace w) t m = 0 \/
   locks w m = Held t 1 /\ untouched m (items w t) /\ acquired (trace w) t m = 1) /\ released (trace w) t m = 0.
Proof.
  intros KM NE IG R.
  apply (run_inv K (fun w => (items w t = [Do (Unique m Locking a)] /\ acquired (trace w) t m = 0 \/
   locks w m = Held t 1 /\ untouched m (items w t) /\ acquired (trace w) t m = 1) /\ released (trace w) t m = 0)) with (sched := sched) (w := start K vs ps); [| |exact R].
  - clear w sched R. intros w u w' [[(IT & A0)|(L & UT & A1)] R0] E.
    + destruct (Nat.eq_dec u t) as [-> |N].
      * unfold step in E. rewrite IT in E. unfold do_lock in E. destruct (take (K m) (locks w m) t) as [s| |] eqn:TK; try discriminate E. injection E as <-.
        assert (S1 : s = Held t 1).
        { unfold take in TK. destruct (locks w m) as [|o d|]; [|destruct (o =? t); [|discriminate TK]|discriminate TK]; destruct KM as [KM|KM]; rewrite KM in TK; congruence. }
        cbn [goes locked locks items trace]. rewrite acquired_app, released_app, A0, R0. unfold acquired, released. cbn. rewrite !Nat.eqb_refl. cbn.
        split; [|reflexivity]. right. rewrite !set_same. cbn. auto.
      * destruct (step_weight K w u w' E) as [_ O]. split; [left; split; [rewrite (O t) by congruence; exact IT|]|];
          (* the events of u are not those of t *)
          enough (X : acquired (trace w') t m = acquired (trace w) t m /\ released (trace w') t m = released (trace w) t m) by (destruct X; congruence);
          clear - E N; unfold step in E;
          (assert (SN : forall e k w0, trace w0 = trace w ++ [e] -> match e with Acquired x _ | Released x _ => x = u | _ => True end ->
             w' = goes w0 u k -> acquired (trace w') t m = acquired (trace w) t m /\ released (trace w') t m = released (trace w) t m);
           [intros e k w0 TE EU ->; cbn [goes trace]; rewrite TE, acquired_app, released_app; unfold acquired, released; destruct e; cbn; subst;
            try (destruct (Nat.eqb_spec u t); [congruence|]); cbn; lia|]);
          (assert (ST : forall k w0, trace w0 = trace w -> w' = goes w0 u k ->
             acquired (trace w') t m = acquired (trace w) t m /\ released (trace w') t m = released (trace w) t m);
           [intros k w0 TE ->; cbn [goes trace]; rewrite TE; auto|]);
          destruct (items w u) as [|[p|x|x|v|h] k]; try discriminate E; try (destruct p as [|a b|x a|x hh a|x|x|v| |a h]; try destruct hh);
          unfold do_lock, do_try, do_unlock in E;
          repeat match type of E with context [match ?z with _ => _ end] => destruct z; try discriminate E end;
          injection E as E; first [eapply ST; [|symmetry; exact E]; reflexivity | eapply SN; [| |symmetry; exact E]; [reflexivity|exact I || reflexivity]].
    + destruct (stuck_step K m t 1 w u w' L KM UT E) as (L' & U' & A'). destruct (A' t) as [-> ->]. auto.
  - unfold start. cbn. rewrite NE. auto.
Qed.

(* ---- a mutex that nobody can take *)
Definition no_leave (m : nat) (k : list item) : Prop := Forall (fun i => i <> Leave m) k.
Lemma never_comp m : compositional (fun _ p => never_unlocks m p).
Proof. split; cbn; tauto. Qed.
Lemma no_leave_unwind m k : no_leave m k -> no_leave m (unwind k).
Proof.
  unfold no_leave. induction k as [|[p|x|x|v|h] k IH]; cbn; intros F; try assumption; inversion F; subst; try constructor; auto; discriminate.
Qed.
Lemma empty_step K m w u w' : locks w m = Empty -> (forall t, no_leave m (items w t)) -> (forall t, all_do (fun _ p => never_unlocks m p) (items w t)) ->
  step K w u = Some (Ok w') ->
  locks w' m = Empty /\ (forall t, no_leave m (items w' t)) /\ (forall o, acquired (trace w') o m = acquired (trace w) o m).
Proof.
  intros L NL AN E.
  assert (Q : forall w0 k, w' = goes w0 u k -> locks w0 m = Empty -> items w0 = items w -> (forall o, acquired (trace w0) o m = acquired (trace w) o m) -> no_leave m k ->
     locks w' m = Empty /\ (forall t, no_leave m (items w' t)) /\ (forall o, acquired (trace w') o m = acquired (trace w) o m)).
  { intros w0 k -> E1 E2 E3 NK. cbn [goes locks items trace]. split; [exact E1|]. split; [|exact E3].
    intros t. destruct (Nat.eq_dec t u) as [-> |N]; [now rewrite set_same|rewrite set_other by exact N; rewrite E2; apply NL]. }
  assert (DL : forall x k, do_lock K w u x k = Some (Ok w') -> (x <> m -> no_leave m k) ->
     locks w' m = Empty /\ (forall t, no_leave m (items w' t)) /\ (forall o, acquired (trace w') o m = acquired (trace w) o m)).
  { intros x k EL NK. unfold do_lock in EL. destruct (take (K x) (locks w x) u) as [s| |] eqn:TE; try discriminate EL.
    injection EL as EL. assert (N : x <> m) by (intros ->; rewrite L in TE; discriminate TE).
    eapply Q; [symmetry; exact EL|cbn; now rewrite set_other by congruence|reflexivity| |now apply NK].
    intros o. cbn [locked trace]. rewrite acquired_app. unfold acquired at 2. cbn. destruct (Nat.eqb_spec x m); [contradiction|]. rewrite andb_false_r. cbn. lia. }
  assert (DU : forall x k, do_unlock K w u x k = Some (Ok w') -> x <> m -> no_leave m k ->
     locks w' m = Empty /\ (forall t, no_leave m (items w' t)) /\ (forall o, acquired (trace w') o m = acquired (trace w) o m)).
  { intros x k EL N NK. unfold do_unlock in EL. destruct (give (K x) (locks w x) u) as [s|]; try discriminate EL. injection EL as EL.
    eapply Q; [symmetry; exact EL|cbn; now rewrite set_other by congruence|reflexivity| |exact NK].
    intros o. cbn [locked trace]. rewrite acquired_app. unfold acquired at 2. cbn. lia. }
  pose proof (NL u) as NU. pose proof (AN u) as AU. unfold step in E. destruct (items w u) as [|i k]; [discriminate E|].
  inversion NU as [|? ? N1 N2]; subst. change (Forall (fun i => i <> Leave m) k) with (no_leave m k) in N2.
  assert (NC : forall p, no_leave m (Do p :: k)) by (intros; constructor; [discriminate|exact N2]).
  destruct i as [p|x|x|v|h]; cbn in AU.
  - destruct AU as [AP AK]. destruct p as [|a b|x a|x hh a|x|x|v| |a h]; cbn in AP.
    + injection E as E. eapply Q; [symmetry; exact E|exact L|reflexivity|reflexivity|exact N2].
    + injection E as E. eapply Q; [symmetry; exact E|exact L|reflexivity|reflexivity|]. constructor; [discriminate|apply NC].
    + eapply DL; [exact E|]. intros N. constructor; [discriminate|]. constructor; [congruence|exact N2].
    + assert (NK : no_leave m (Do a :: LeaveUnique x :: k)) by (constructor; [discriminate|]; constructor; [discriminate|exact N2]). destruct hh.
      * eapply DL; [exact E|]. auto.
      * injection E as E. eapply Q; [symmetry; exact E|exact L|reflexivity|reflexivity|exact NK].
      * injection E as E. eapply Q; [symmetry; exact E|exact L|reflexivity|reflexivity|exact NK].
      * unfold do_try in E. destruct (take (K x) (locks w x) u) as [s| |] eqn:TE; [|injection E as E; eapply Q; [symmetry; exact E|exact L|reflexivity|reflexivity|exact NK]|discriminate E].
        apply (DL x (Do a :: LeaveUnique x :: k)); [|auto]. unfold do_lock. now rewrite TE.
    + eapply DL; [exact E|]. auto.
    + eapply DU; [exact E|exact AP|exact N2].
    + injection E as E. eapply Q; [symmetry; exact E|exact L|reflexivity|reflexivity|]. constructor; [discriminate|exact N2].
    + injection E as E. eapply Q; [symmetry; exact E|exact L|reflexivity|reflexivity|]. now apply no_leave_unwind.
    + injection E as E. eapply Q; [symmetry; exact E|exact L|reflexivity|reflexivity|]. constructor; [discriminate|]. constructor; [discriminate|exact N2].
  - eapply DU; [exact E|congruence|exact N2].
  - injection E as E. eapply Q; [symmetry; exact E|exact L|reflexivity|reflexivity|exact N2].
  - injection E as E. eapply Q; [symmetry; exact E|exact L|reflexivity| |exact N2]. intros o. cbn [trace]. rewrite acquired_app. unfold acquired at 2. cbn. lia.
  - injection E as E. eapply Q; [symmetry; exact E|exact L|reflexivity|reflexivity|exact N2].
Qed.
Lemma empty_forever K vs ps m sched w : K m = KBinary -> Forall (never_unlocks m) ps -> run K (start K vs ps) sched = Ok w ->
  locks w m = Empty /\ forall t, acquired (trace w) t m = 0.
Proof.
  intros KM F R.
  set (J := fun w => locks w m = Empty /\ (forall t, no_leave m (items w t)) /\ (forall t, all_do (fun _ p => never_unlocks m p) (items w t)) /\ forall t, acquired (trace w) t m = 0).
  assert (H : J w); [|unfold J in H; tauto].
  apply (run_inv K J) with (sched := sched) (w := start K vs ps); [| |exact R].
    - clear. unfold J. intros w t w' (L & NL & AN & A) E. destruct (empty_step K m w t w' L NL AN E) as (L' & NL' & A'). split; [exact L'|]. split; [exact NL'|]. split.
      + now apply (step_all _ (never_comp m) K w t w').
      + intros o. now rewrite A'.
    - unfold J. split; [cbn; now rewrite KM|]. split.
      + intros t. cbn. unfold no_leave. destruct (nth_error ps t); repeat constructor. discriminate.
      + split; [now apply start_all|reflexivity].
Qed.

(* ---- semaphores *)
Lemma sem_bound ops : forall s, let (s', l) := sem_run s ops in available s' + through l <= available s + releases l /\ maximum s' = maximum s /\
  (available s <= maximum s -> available s' <= maximum s).
Proof.
  induction ops as [|o r IH]; intros s; cbn [sem_run]; [cbn; lia|].
  destruct (sem_op s o) as [[s1 b]|] eqn:E; [|apply IH]. specialize (IH s1). destruct (sem_run s1 r) as [s2 l].
  destruct IH as (A & B & C). unfold sem_op in E. destruct o.
  - destruct (available s) as [|n] eqn:V; [discriminate E|]. injection E as <- <-. cbn [available maximum] in *. unfold through, releases in *. cbn. repeat split; try lia. 
  - destruct (available s) as [|n] eqn:V; injection E as <- <-; cbn [available maximum] in *; unfold through, releases in *; cbn; rewrite ?V in *; repeat split; lia.
  - injection E as <- <-. unfold through, releases in *. cbn. destruct (Nat.ltb_spec (available s) (maximum s)); cbn [available maximum] in *; repeat split; lia.
Qed.

(* the count, as long as it does not pass the maximum *)
Definition below (max v : nat) (l : list (sop * bool)) : Prop := forall p q, l = p ++ q -> v + releases p <= max + through p.
Lemma sem_exact ops : forall s, let (s', l) := sem_run s ops in below (maximum s) (available s) l ->
  available s' + through l = available s + releases l.
Proof.
  induction ops as [|o r IH]; intros s; cbn [sem_run]; [cbn; lia|].
  destruct (sem_op s o) as [[s1 b]|] eqn:E; [|apply IH]. specialize (IH s1). destruct (sem_run s1 r) as [s2 l]. intros B.
  assert (H : maximum s1 = maximum s /\ available s1 + through [(o, b)] = available s + releases [(o, b)]).
  { pose proof (B [(o, b)] l eq_refl) as B1. unfold sem_op in E. destruct o.
    - destruct (available s) as [|n] eqn:V; [discriminate E|]. injection E as <- <-. cbn. lia.
    - destruct (available s) as [|n] eqn:V; injection E as <- <-; cbn; lia.
    - injection E as <- <-. destruct (Nat.ltb_spec (available s) (maximum s)); cbn in *; lia. }
  destruct H as [M H].
  assert (TA : forall a c, through (a ++ c) = through a + through c) by (intros; apply filter_count).
  assert (RA : forall a c, releases (a ++ c) = releases a + releases c) by (intros; apply filter_count).
  change ((o, b) :: l) with ([(o, b)] ++ l) in *. rewrite TA, RA. rewrite M in IH.
  assert (IH' : available s2 + through l = available s1 + releases l); [|lia].
  apply IH. intros p q ->. pose proof (B ([(o, b)] ++ p) q (app_assoc _ _ _)) as BB. rewrite TA, RA in BB. lia.
Qed.
