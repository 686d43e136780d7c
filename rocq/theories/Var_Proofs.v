From Verif Require Import Base Vst_Model Vst_Proofs Var_Model Var_Spec.
Local Open Scope prog_scope.

Section L.
Context {V : Type}.
Context (alts : list alt) (mvd : nat -> V -> V).
Notation W := (world V (option nat)).
Notation shows := (shows (V := V) alts).

(* objects of alternative i in one variable *)
Definition hold1 (x : option (held V)) (i : nat) : nat :=
  match x with Some (Some (j, _)) => if Nat.eqb j i then 1 else 0 | _ => 0 end.

Lemma holding_cons x (s : vars V) i : holding (x :: s) i = hold1 x i + holding s i.
Proof. now destruct x as [[[j v]|]|]. Qed.

Lemma holding_upd (s : vars V) k x y i :
  nth_error s k = Some y -> holding (upd s k x) i + hold1 y i = holding s i + hold1 x i.
Proof.
  revert k; induction s as [|a t IH]; intros [|k] H; simpl in H; try discriminate.
  - injection H as ->. cbn [upd]. rewrite !holding_cons. lia.
  - cbn [upd]. rewrite !holding_cons. specialize (IH k H). lia.
Qed.

Lemma made_app (a b : list (ev V)) i : made (a ++ b) i = made a i + made b i.
Proof. induction a as [|[j v|j v] t IH]; simpl; auto; destruct (Nat.eqb j i); lia. Qed.
Lemma dead_app (a b : list (ev V)) i : dead (a ++ b) i = dead a i + dead b i.
Proof. induction a as [|[j v|j v] t IH]; simpl; auto; destruct (Nat.eqb j i); lia. Qed.

Lemma lookup_nth (s : vars V) k x : lookup s k = Some x -> nth_error s k = Some (Some x).
Proof. unfold lookup. destruct (nth_error s k); congruence. Qed.
Lemma nth_lookup (s : vars V) k x : nth_error s k = Some x -> lookup s k = x.
Proof. unfold lookup. intros H; now rewrite H. Qed.
Lemma lookup_upd (s : vars V) k x j :
  lookup (upd s k x) j = if Nat.eqb j k then (if Nat.ltb k (length s) then x else None) else lookup s j.
Proof.
  unfold lookup. destruct (Nat.eqb_spec j k) as [->|Hne].
  - destruct (Nat.ltb_spec k (length s)).
    + now rewrite nth_upd_same.
    + now rewrite (proj2 (nth_error_None _ _)) by (rewrite upd_length; lia).
  - now rewrite nth_upd_other.
Qed.

(* one variable replaced *)
Lemma shows_step l lg lg' s k y o x evs :
  shows (World l lg) s -> nth_error s k = Some y ->
  truthful o -> seen o = x -> lg' = lg ++ evs ->
  (match x with Some (Some (i, _)) => i < length alts | _ => True end) ->
  (forall i, made evs i + hold1 y i = dead evs i + hold1 x i) ->
  shows (World (upd l k o) lg') (upd s k x).
Proof.
  intros (H1 & H2 & H3 & H4) Hy Ht Hx -> Hb Hc. cbn [w_objs w_log] in *.
  split; [|split; [|split]]; cbn [w_objs w_log].
  - rewrite map_upd, H1, Hx. reflexivity.
  - now apply Forall_upd.
  - intros j i v Hl. rewrite lookup_upd in Hl. destruct (Nat.eqb_spec j k).
    + destruct (Nat.ltb k (length s)); [|discriminate]. subst x. rewrite Hl in Hb. exact Hb.
    + eapply H3; eassumption.
  - intros i. rewrite made_app, dead_app. specialize (H4 i). specialize (Hc i).
    pose proof (holding_upd s k x y i Hy). lia.
Qed.

(* what the world holds for a variable the spec knows *)
Lemma shows_at l lg s k x :
  shows (World l lg) s -> nth_error s k = Some x ->
  exists o, nth_error l k = Some o /\ seen o = x /\ truthful o.
Proof.
  intros (H1 & H2 & _) H. cbn [w_objs] in *. subst s. rewrite nth_error_map in H.
  destruct (nth_error l k) eqn:E; [|discriminate]. cbn in H. injection H as H.
  exists o. repeat split; auto. apply (proj1 (Forall_forall _ _) H2). eapply nth_error_In; eauto.
Qed.
Lemma shows_none l lg s k :
  shows (World l lg) s -> nth_error s k = Some None -> nth_error l k = Some None.
Proof.
  intros H E. destruct (shows_at l lg s k _ H E) as ([o|] & E1 & E2 & E3); auto.
  cbn in E2. destruct (o_tag o), (o_slot o); discriminate.
Qed.
Lemma shows_valueless l lg s k :
  shows (World l lg) s -> lookup s k = Some None -> nth_error l k = Some (Some (Obj Raw None)).
Proof.
  intros H E. apply lookup_nth in E.
  destruct (shows_at l lg s k _ H E) as ([[sl tg]|] & E1 & E2 & E3); [|discriminate].
  cbn in *. destruct tg, sl; try discriminate; try contradiction. exact E1.
Qed.
Lemma shows_held l lg s k i v :
  shows (World l lg) s -> lookup s k = Some (Some (i, v)) ->
  nth_error l k = Some (Some (Obj (Live i v) (Some i))) /\ i < length alts.
Proof.
  intros H E. pose proof H as (_ & _ & H3 & _). split; [|eapply H3; eassumption].
  apply lookup_nth in E. destruct (shows_at l lg s k _ H E) as ([[sl tg]|] & E1 & E2 & E3); [|discriminate].
  cbn in *. destruct tg, sl; try discriminate; try contradiction. subst. now injection E2 as -> ->.
Qed.
Lemma shows_object l lg s k x :
  shows (World l lg) s -> lookup s k = Some x ->
  exists sl tg, nth_error l k = Some (Some (Obj sl tg)) /\
    match x with Some (i, v) => sl = Live i v /\ tg = Some i /\ i < length alts
               | None => sl = Raw /\ tg = None end.
Proof.
  intros H E. destruct x as [[i v]|].
  - destruct (shows_held l lg s k i v H E). exists (Live i v), (Some i). auto.
  - pose proof (shows_valueless l lg s k H E). exists Raw, None. auto.
Qed.

(* the events of destroying what a variable holds *)
Definition bury (x : held V) : list (ev V) := match x with Some (i, v) => [Dead i v] | None => [] end.

Lemma destroy_if_valid_run l lg s k x :
  shows (World l lg) s -> lookup s k = Some x ->
  exists tg, nth_error l k = Some (Some (Obj (match x with Some (i, v) => Live i v | None => Raw end) tg)) /\
    tg = option_map fst x /\
    destroy_if_valid alts k (World l lg) =
      Val tt (World (upd l k (Some (Obj Raw tg))) (lg ++ bury x)).
Proof.
  intros H E. destruct (shows_object l lg s k x H E) as (sl & tg & Ek & Hx).
  unfold destroy_if_valid, bindp. rewrite (tag_of_run l lg k sl tg Ek).
  destruct x as [[i v]|]; cbn [bury option_map fst].
  - destruct Hx as (-> & -> & Hi). exists (Some i). split; [exact Ek|]. split; [reflexivity|].
    now apply destroy_index_live.
  - destruct Hx as (-> & ->). exists None. split; [exact Ek|]. split; [reflexivity|].
    cbn. rewrite upd_id by exact Ek. now rewrite app_nil_r.
Qed.

Lemma bury_bal (x : held V) i : made (bury x) i + hold1 (Some x) i = dead (bury x) i.
Proof. destruct x as [[j v]|]; cbn; lia. Qed.

Ltac nthu := first
  [ rewrite nth_upd_same by (rewrite ?upd_length; eapply nth_lt; eassumption); reflexivity
  | rewrite nth_upd_other by auto; eassumption
  | eassumption ].

(* --- the operations --- *)

Lemma run_new s k i v w :
  shows w s -> nth_error s k = Some None -> i < length alts ->
  exists w', var_in_place k i (ret v) w = Val tt w' /\ shows w' (upd s k (Some (Some (i, v)))).
Proof.
  intros H Hk Hi. destruct w as [l lg]. pose proof (shows_none l lg s k H Hk) as Ek.
  pose proof (nth_lt _ _ _ Ek) as Lk.
  unfold var_in_place. rewrite constructor_run by exact Ek. unfold bindp.
  set (l1 := upd l k _).
  assert (E1 : nth_error l1 k = Some (Some (Obj Raw None))) by (apply nth_upd_same; exact Lk).
  rewrite (construct_run k i (ret v) _ v l1 lg Raw None eq_refl E1).
  erewrite set_tag_run by (apply nth_upd_same; unfold l1; rewrite upd_length; exact Lk).
  eexists. split; [reflexivity|]. unfold l1. rewrite !upd_upd.
  eapply shows_step with (evs := [Made i v]); try eassumption; try reflexivity.
  intros j. cbn. destruct (Nat.eqb i j); lia.
Qed.

Lemma run_copy s k src w :
  can_copy alts s src ->
  shows w s -> nth_error s k = Some None -> lookup s src <> None ->
  exists w', var_copy alts k src w = Val tt w' /\ shows w' (upd s k (lookup s src)).
Proof.
  intros HC H Hk Hs. destruct w as [l lg]. pose proof (shows_none l lg s k H Hk) as Ek.
  pose proof (nth_lt _ _ _ Ek) as Lk.
  destruct (lookup s src) as [x|] eqn:Es; [|contradiction].
  assert (Hne : k <> src). { intros ->. apply nth_lookup in Hk. congruence. }
  destruct (shows_object l lg s src x H Es) as (sl & tg & E2 & Hx).
  unfold var_copy. rewrite constructor_run by exact Ek. unfold bindp at 1 2.
  set (l1 := upd l k _).
  assert (E1 : nth_error l1 k = Some (Some (Obj Raw None))) by (apply nth_upd_same; exact Lk).
  assert (E3 : nth_error l1 src = Some (Some (Obj sl tg))) by (unfold l1; rewrite nth_upd_other by auto; exact E2).
  rewrite (tag_of_run l1 lg src sl tg E3).
  destruct x as [[i v]|].
  - destruct Hx as (-> & -> & Hi).
    assert (Hci : trait alts a_copyable i = true) by (eapply HC; exact Es).
    rewrite (copy_storage_run alts k src i v l1 lg Raw None (Some i) Hi Hci Hne E3 E1).
    erewrite set_tag_run by (apply nth_upd_same; unfold l1; rewrite upd_length; exact Lk).
    eexists. split; [reflexivity|]. unfold l1. rewrite !upd_upd.
    eapply shows_step with (evs := [Made i v]); try eassumption; try reflexivity.
    intros j. cbn. destruct (Nat.eqb i j); lia.
  - destruct Hx as (-> & ->).
    rewrite copy_storage_none. erewrite set_tag_run by exact E1.
    eexists. split; [reflexivity|]. unfold l1. rewrite !upd_upd.
    eapply shows_step with (evs := []); try eassumption; try reflexivity; try (now rewrite app_nil_r); try exact I.
Qed.

Lemma run_move s k src w :
  shows w s -> nth_error s k = Some None -> lookup s src <> None ->
  exists w', var_move alts mvd k src w = Val tt w' /\
    shows w' (upd (upd s k (lookup s src)) src (Some None)).
Proof.
  intros H Hk Hs. destruct w as [l lg]. pose proof (shows_none l lg s k H Hk) as Ek.
  pose proof (nth_lt _ _ _ Ek) as Lk.
  destruct (lookup s src) as [x|] eqn:Es; [|contradiction].
  assert (Hne : k <> src). { intros ->. apply nth_lookup in Hk. congruence. }
  destruct (shows_object l lg s src x H Es) as (sl & tg & E2 & Hx).
  pose proof (nth_lt _ _ _ E2) as Ls.
  unfold var_move. rewrite constructor_run by exact Ek.
  set (l1 := upd l k _).
  assert (E1 : nth_error l1 k = Some (Some (Obj Raw None))) by (apply nth_upd_same; exact Lk).
  assert (E3 : nth_error l1 src = Some (Some (Obj sl tg))) by (unfold l1; rewrite nth_upd_other by auto; exact E2).
  unfold bindp at 1.
  destruct x as [[i v]|].
  - destruct Hx as (-> & -> & Hi).
    set (l2 := upd l1 src (Some (Obj (Live i (mvd i v)) (Some i)))).
    set (l3 := upd l2 k (Some (Obj (Live i v) None))).
    set (l4 := upd l3 src (Some (Obj Raw (Some i)))).
    set (lg4 := ((lg ++ [Made i v]) ++ [Dead i (mvd i v)])).
    assert (F2 : nth_error l2 k = Some (Some (Obj Raw None))) by (unfold l2; rewrite nth_upd_other by auto; exact E1).
    assert (F3 : nth_error l3 src = Some (Some (Obj (Live i (mvd i v)) (Some i)))).
    { unfold l3. rewrite nth_upd_other by auto. unfold l2. apply nth_upd_same. unfold l1. now rewrite upd_length. }
    rewrite (visit_hit alts i _ _ (World l4 lg4)); [|exact Hi| |].
    + assert (F4 : nth_error l4 src = Some (Some (Obj Raw (Some i)))).
      { unfold l4. apply nth_upd_same. eapply nth_lt; exact F3. }
      unfold bindp. rewrite (tag_of_run l4 lg4 src _ _ F4).
      assert (F4k : nth_error l4 k = Some (Some (Obj (Live i v) None))).
      { unfold l4. rewrite nth_upd_other by auto. unfold l3. apply nth_upd_same. eapply nth_lt; exact F2. }
      rewrite (set_tag_run l4 lg4 k _ _ (Some i) F4k).
      erewrite set_tag_run by (rewrite nth_upd_other by auto; exact F4).
      eexists. split; [reflexivity|].
      assert (EQ : upd (upd l4 k (Some (Obj (Live i v) (Some i)))) src (Some (Obj Raw None))
                   = upd (upd l k (Some (Obj (Live i v) (Some i)))) src (Some (Obj Raw None))).
      { unfold l4, l3, l2, l1.
        rewrite (upd_comm _ src k) by auto. rewrite !upd_upd.
        rewrite (upd_comm _ src k) by auto. rewrite !upd_upd. reflexivity. }
      rewrite EQ. unfold lg4.
      assert (S1 : shows (World (upd l k (Some (Obj (Live i v) (Some i)))) (lg ++ [Made i v]))
                         (upd s k (Some (Some (i, v))))).
      { eapply shows_step with (evs := [Made i v]); try eassumption; try reflexivity.
        intros j. cbn. destruct (Nat.eqb i j); lia. }
      eapply shows_step with (evs := [Dead i (mvd i v)]) (y := Some (Some (i, v)));
        [exact S1| |exact I|reflexivity|reflexivity|exact I|].
      * rewrite nth_upd_other by auto. now apply lookup_nth.
      * intros j. cbn. destruct (Nat.eqb i j); lia.
    + intros x Hx. unfold bindp. rewrite (tag_of_run l1 lg src _ _ E3).
      destruct (Nat.eqb_spec i x); [lia|reflexivity].
    + unfold bindp. rewrite (tag_of_run l1 lg src _ _ E3). rewrite Nat.eqb_refl.
      rewrite (construct_run k i _ _ v l2 lg Raw None (move_run (mvd i) l1 lg src i v (Some i) E3) F2).
      fold l3. rewrite (destroy_live alts l3 _ src i _ _ F3). reflexivity.
  - destruct Hx as (-> & ->).
    rewrite visit_miss.
    + unfold bindp. rewrite (tag_of_run l1 lg src _ _ E3).
      erewrite set_tag_run by exact E1.
      erewrite set_tag_run by (rewrite nth_upd_other by auto; exact E3).
      eexists. split; [reflexivity|].
      unfold l1. rewrite upd_upd.
      assert (S1 : shows (World (upd l k (Some (Obj Raw None))) lg) (upd s k (Some None))).
      { eapply shows_step with (evs := []); try eassumption; try reflexivity; try (now rewrite app_nil_r); try exact I. }
      eapply shows_step with (evs := []) (y := Some None); [exact S1| |exact I|reflexivity|now rewrite app_nil_r|exact I|].
      * rewrite nth_upd_other by auto. now apply lookup_nth.
      * reflexivity.
    + intros x Hx. unfold bindp. now rewrite (tag_of_run l1 lg src _ _ E3).
Qed.

Lemma run_destroy s k w :
  shows w s -> lookup s k <> None ->
  exists w', var_destroy alts k w = Val tt w' /\ shows w' (upd s k None).
Proof.
  intros H Hk. destruct w as [l lg]. destruct (lookup s k) as [x|] eqn:E; [|contradiction].
  destruct (destroy_if_valid_run l lg s k x H E) as (tg & Ek & _ & R).
  unfold var_destroy, bindp. rewrite R. eexists. split; [reflexivity|].
  cbn [set_obj w_objs w_log]. rewrite upd_upd.
  eapply shows_step with (evs := bury x) (y := Some x); [exact H|now apply lookup_nth|exact I|reflexivity|reflexivity|exact I|].
  intros i. rewrite bury_bal. cbn [hold1]. lia.
Qed.

Lemma first_of_type_least (l : list alt) t base i :
  first_of_type l t base = Some i <->
  exists n, i = base + n /\ (exists a, nth_error l n = Some a /\ a_type a = t) /\
    forall m a, m < n -> nth_error l m = Some a -> a_type a <> t.
Proof.
  revert base; induction l as [|a r IH]; intros base; cbn [first_of_type].
  - split; [discriminate|]. intros (n & _ & (a & Ha & _) & _). now destruct n.
  - destruct (Nat.eqb_spec (a_type a) t) as [Ht|Ht].
    + split.
      * intros [= <-]. exists 0. split; [lia|]. split; [exists a; split; [reflexivity|exact Ht]|]. intros; lia.
      * intros (n & -> & (b & Hb & Tb) & Hm). destruct n; [now rewrite Nat.add_0_r|].
        exfalso. eapply (Hm 0 a); eauto. lia.
    + rewrite IH. split.
      * intros (n & -> & (b & Hb & Tb) & Hm). exists (S n). split; [lia|]. split; [eexists; split; eassumption|].
        intros [|m] c Hlt Hc; [cbn in Hc; congruence|]. apply (Hm m); auto. lia.
      * intros (n & -> & (b & Hb & Tb) & Hm). destruct n.
        -- cbn in Hb. congruence.
        -- exists n. split; [lia|]. split; [eexists; split; eassumption|]. intros m c Hlt Hc. apply (Hm (S m)); auto. lia.
Qed.

Lemma select_distinct i a :
  NoDup (map a_type alts) -> nth_error alts i = Some a -> select_type alts (a_type a) = Some i.
Proof.
  intros Hd Ha. apply first_of_type_least. exists i. split; [reflexivity|]. split; [exists a; auto|].
  intros m b Hm Hb E. pose proof (proj1 (NoDup_nth_error (map a_type alts)) Hd m i) as N.
  rewrite !nth_error_map, Ha, Hb in N. cbn in N. rewrite E in N.
  assert (m < length (map a_type alts)) by (rewrite map_length; eapply nth_lt; exact Hb).
  specialize (N H eq_refl). lia.
Qed.

Lemma run_emplace_first s k i j a v w :
  shows w s -> lookup s k <> None -> nth_error alts i = Some a -> select_type alts (a_type a) = Some j ->
  exists w', var_emplace alts k i (ret v) w = Val tt w' /\ shows w' (upd s k (Some (Some (j, v)))).
Proof.
  intros H Hk Ha Hj. destruct w as [l lg]. destruct (lookup s k) as [x|] eqn:E; [|contradiction].
  assert (Lj : j < length alts).
  { apply first_of_type_least in Hj as (n & -> & (b & Hb & _) & _). cbn. eapply nth_lt; exact Hb. }
  destruct (destroy_if_valid_run l lg s k x H E) as (tg & Ek & _ & R).
  pose proof (nth_lt _ _ _ Ek) as Lk.
  unfold var_emplace. rewrite Ha. unfold var_emplace_type. unfold bindp. rewrite R.
  erewrite set_tag_run by (apply nth_upd_same; exact Lk). rewrite upd_upd. rewrite Hj.
  erewrite (construct_run k j (ret v)); [|reflexivity|apply nth_upd_same; exact Lk]. rewrite upd_upd.
  erewrite set_tag_run by (apply nth_upd_same; exact Lk). rewrite upd_upd.
  eexists. split; [reflexivity|].
  eapply shows_step with (evs := bury x ++ [Made j v]) (y := Some x);
    [exact H|now apply lookup_nth|reflexivity|reflexivity|now rewrite app_assoc|exact Lj|].
  intros m. rewrite made_app, dead_app. pose proof (bury_bal x m). cbn [hold1 made dead] in *. destruct (Nat.eqb j m); lia.
Qed.

Lemma first_constructible_exact n i j (v : V) :
  i <= j < i + n -> first_constructible n i (exact alts j v) = Some j.
Proof.
  revert i; induction n as [|n IH]; intros i H; [lia|]. cbn [first_constructible exact c_constructible].
  destruct (Nat.eqb_spec i j); [now subst|]. apply IH. lia.
Qed.

(* x = u where alternative i takes u *)
Lemma assign_or_init_ix_run s k i (c : source V (option nat)) v l lg x :
  shows (World l lg) s -> lookup s k = Some x -> i < length alts ->
  c_convertible c = true ->
  (forall l' lg', c_value c (World l' lg') = Val v (World l' lg')) ->
  exists lg', exists evs,
    (assign_or_init_ix alts k i c ;;; set_tag k (Some i)) (World l lg)
      = Val tt (World (upd l k (Some (Obj (Live i v) (Some i)))) lg') /\ lg' = lg ++ evs /\
    forall m, made evs m + hold1 (Some x) m = dead evs m + hold1 (Some (Some (i, v))) m.
Proof.
  intros H E Hi Hc Hv.
  destruct (shows_object l lg s k x H E) as (sl & tg & Ek & Hx). pose proof (nth_lt _ _ _ Ek) as Lk.
  unfold assign_or_init_ix, bindp. rewrite (tag_of_run l lg k sl tg Ek).
  assert (D : forall l1 lg1 tg1, nth_error l1 k = Some (Some (Obj Raw tg1)) ->
     (direct_init_helper alts k i c ;;; set_tag k (Some i)) (World l1 lg1)
       = Val tt (World (upd l1 k (Some (Obj (Live i v) (Some i)))) (lg1 ++ [Made i v]))).
  { intros l1 lg1 tg1 E1. unfold bindp.
    rewrite (direct_init_run alts k i c _ v l1 lg1 tg1 Hc (Hv l1 lg1) E1).
    erewrite set_tag_run by (apply nth_upd_same; eapply nth_lt; exact E1). now rewrite upd_upd. }
  destruct x as [[j v0]|].
  - destruct Hx as (-> & -> & Hj). destruct (Nat.eqb_spec j i) as [->|Hne].
    + unfold assignment_helper. destruct (c_assignable c).
      * rewrite (assign_run alts k i _ _ v l lg v0 (Some i) (Hv l lg) Ek).
        erewrite set_tag_run by (apply nth_upd_same; exact Lk). rewrite upd_upd.
        exists lg, []. split; [reflexivity|]. split; [now rewrite app_nil_r|].
        intros m. cbn. reflexivity.
      * unfold assignment_emplace_helper, bindp.
        rewrite (destroy_live alts l lg k i v0 (Some i) Ek). rewrite Hc.
        erewrite (construct_run k i); [|apply Hv|apply nth_upd_same; exact Lk].
        erewrite set_tag_run by (apply nth_upd_same; rewrite !upd_length; exact Lk).
        rewrite !upd_upd. exists ((lg ++ [Dead i v0]) ++ [Made i v]), [Dead i v0; Made i v].
        split; [reflexivity|]. split; [now rewrite <- app_assoc|].
        intros m. cbn. destruct (Nat.eqb i m); lia.
    + rewrite (destroy_index_live alts l lg k j v0 (Some j) Hj Ek).
      pose proof (D (upd l k (Some (Obj Raw (Some j)))) (lg ++ [Dead j v0]) (Some j)
                    (nth_upd_same _ _ _ Lk)) as R. unfold bindp in R.
      rewrite R. rewrite upd_upd.
      exists ((lg ++ [Dead j v0]) ++ [Made i v]), [Dead j v0; Made i v].
      split; [reflexivity|]. split; [now rewrite <- app_assoc|].
      intros m. cbn. destruct (Nat.eqb i m), (Nat.eqb j m); lia.
  - destruct Hx as (-> & ->). cbn [destroy_index]. unfold ret.
    pose proof (D l lg None Ek) as R. unfold bindp in R. rewrite R.
    exists (lg ++ [Made i v]), [Made i v]. split; [reflexivity|]. split; [reflexivity|].
    intros m. cbn. lia.
Qed.

Lemma run_assign s k i v w :
  shows w s -> lookup s k <> None -> i < length alts ->
  exists w', var_assign_value alts k (exact alts i v) w = Val tt w' /\
    shows w' (upd s k (Some (Some (i, v)))).
Proof.
  intros H Hk Hi. destruct w as [l lg]. destruct (lookup s k) as [x|] eqn:E; [|contradiction].
  unfold var_assign_value. rewrite first_constructible_exact by lia.
  destruct (assign_or_init_ix_run s k i (exact alts i v i) v l lg x H E Hi eq_refl) as (lg' & evs & R & -> & B).
  { reflexivity. }
  rewrite R. eexists. split; [reflexivity|].
  eapply shows_step with (y := Some x); [exact H|now apply lookup_nth|reflexivity|reflexivity|reflexivity|exact Hi|exact B].
Qed.

(* reading another variable while k changes *)
Lemma run_copy_assign s k src w :
  can_copy alts s src ->
  shows w s -> lookup s k <> None -> lookup s src <> None -> k <> src ->
  exists w', var_copy_assign alts k src w = Val tt w' /\ shows w' (upd s k (lookup s src)).
Proof.
  intros HC H Hk Hs Hne. destruct w as [l lg].
  destruct (lookup s k) as [x|] eqn:E; [|contradiction].
  destruct (lookup s src) as [y|] eqn:Es; [|contradiction].
  destruct (shows_object l lg s src y H Es) as (sl & tg & E2 & Hy).
  pose proof (destroy_if_valid_run l lg s k x H E) as (tgk & Ek & Etg & R).
  pose proof (nth_lt _ _ _ Ek) as Lk.
  unfold var_copy_assign. unfold bindp at 1. rewrite (tag_of_run l lg src sl tg E2).
  destruct y as [[i v]|].
  - destruct Hy as (-> & -> & Hi).
    assert (Hci : trait alts a_copyable i = true) by (eapply HC; exact Es).
    unfold bindp at 1.
    destruct (trait alts a_copy_assignable i) eqn:Ha.
    + (* assign_or_init *)
      set (c := Src (trait alts a_copyable i) (trait alts a_copyable i) true
                    (read_alt (V := V) (T := option nat) src i)).
      (* the source value does not change while k does *)
      assert (F : exists l1 lg1 evs, assign_or_init_ix alts k i c (World l lg) = Val tt (World l1 lg1) /\
               (exists tg1, nth_error l1 k = Some (Some (Obj (Live i v) tg1)) /\
                  upd l1 k (Some (Obj (Live i v) (Some i))) = upd l k (Some (Obj (Live i v) (Some i)))) /\
               lg1 = lg ++ evs /\
               forall m, made evs m + hold1 (Some x) m = dead evs m + hold1 (Some (Some (i, v))) m).
      { unfold assign_or_init_ix, bindp. rewrite (tag_of_run l lg k _ _ Ek). subst tgk.
        destruct x as [[j v0]|]; cbn [option_map fst] in *.
        - destruct (shows_held l lg s k j v0 H E) as (_ & Hj).
          destruct (Nat.eqb_spec j i) as [->|Hji].
          + unfold assignment_helper. cbn [c_assignable c c_value].
            rewrite (assign_run alts k i _ _ v l lg v0 (Some i) (read_run l lg src i v _ E2) Ek).
            exists (upd l k (Some (Obj (Live i v) (Some i)))), lg, []. split; [reflexivity|].
            split; [exists (Some i); split; [apply nth_upd_same; exact Lk|now rewrite upd_upd]|].
            split; [now rewrite app_nil_r|]. intros m. reflexivity.
          + rewrite (destroy_index_live alts l lg k j v0 _ Hj Ek).
            set (l2 := upd l k (Some (Obj Raw (Some j)))).
            assert (G : nth_error l2 src = Some (Some (Obj (Live i v) (Some i)))).
            { unfold l2. rewrite nth_upd_other by auto. exact E2. }
            assert (G2 : nth_error l2 k = Some (Some (Obj Raw (Some j)))) by (apply nth_upd_same; exact Lk).
            rewrite (direct_init_run alts k i c _ v l2 (lg ++ [Dead j v0]) (Some j) Hci
                       (read_run l2 _ src i v _ G) G2).
            exists (upd l2 k (Some (Obj (Live i v) (Some j)))), ((lg ++ [Dead j v0]) ++ [Made i v]), [Dead j v0; Made i v].
            split; [reflexivity|]. split.
            { exists (Some j). split; [apply nth_upd_same; eapply nth_lt; exact G2|].
              unfold l2. now rewrite !upd_upd. }
            split; [now rewrite <- app_assoc|].
            intros m. cbn. destruct (Nat.eqb i m), (Nat.eqb j m); lia.
        - cbn [destroy_index]. unfold ret.
          rewrite (direct_init_run alts k i c _ v l lg None Hci (read_run l lg src i v _ E2) Ek).
          exists (upd l k (Some (Obj (Live i v) None))), (lg ++ [Made i v]), [Made i v].
          split; [reflexivity|]. split.
          { exists None. split; [apply nth_upd_same; exact Lk|now rewrite upd_upd]. }
          split; [reflexivity|]. intros m. cbn. lia. }
      destruct F as (l1 & lg1 & evs & F1 & (tg1 & F2 & F3) & -> & B).
      erewrite (visit_index_hit alts i _ _ (World l1 (lg ++ evs)) Hi).
      * erewrite set_tag_run by exact F2. rewrite F3.
        eexists. split; [reflexivity|].
        eapply shows_step with (y := Some x); [exact H|now apply lookup_nth|reflexivity|reflexivity|reflexivity|exact Hi|exact B].
      * unfold copy_assign_functor. rewrite Ha. fold c. unfold bindp. now rewrite F1.
    + (* destroy and copy construct *)
      set (l1 := upd l k (Some (Obj Raw tgk))) in *.
      assert (G : nth_error l1 src = Some (Some (Obj (Live i v) (Some i)))).
      { unfold l1. rewrite nth_upd_other by auto. exact E2. }
      assert (G2 : nth_error l1 k = Some (Some (Obj Raw tgk))) by (apply nth_upd_same; exact Lk).
      erewrite (visit_index_hit alts i _ _
                 (World (upd l1 k (Some (Obj (Live i v) tgk))) ((lg ++ bury x) ++ [Made i v])) Hi).
      * erewrite set_tag_run by (apply nth_upd_same; eapply nth_lt; exact G2).
        unfold l1. rewrite !upd_upd. eexists. split; [reflexivity|].
        eapply shows_step with (y := Some x) (evs := bury x ++ [Made i v]);
          [exact H|now apply lookup_nth|reflexivity|reflexivity|now rewrite app_assoc|exact Hi|].
        intros m. rewrite made_app, dead_app. pose proof (bury_bal x m). cbn [hold1 made dead] in *. destruct (Nat.eqb i m); lia.
      * unfold copy_assign_functor. rewrite Ha. unfold bindp. rewrite R.
        rewrite (construct_run k i _ _ v l1 _ Raw tgk (read_run l1 _ src i v _ G) G2). reflexivity.
  - destruct Hy as (-> & ->). unfold bindp. rewrite R.
    erewrite set_tag_run by (apply nth_upd_same; exact Lk). rewrite upd_upd.
    eexists. split; [reflexivity|].
    eapply shows_step with (y := Some x) (evs := bury x);
      [exact H|now apply lookup_nth|exact I|reflexivity|reflexivity|exact I|].
    intros m. rewrite bury_bal. cbn [hold1]. lia.
Qed.

Lemma run_move_assign s k src w :
  shows w s -> lookup s k <> None -> lookup s src <> None -> k <> src ->
  exists w', var_move_assign alts mvd k src w = Val tt w' /\
    shows w' (effect alts mvd s (VMoveAssign k src)).
Proof.
  intros H Hk Hs Hne. destruct w as [l lg]. cbn [effect].
  destruct (lookup s k) as [x|] eqn:E; [|contradiction].
  destruct (lookup s src) as [y|] eqn:Es; [|contradiction].
  destruct (shows_object l lg s src y H Es) as (sl & tg & E2 & Hy).
  pose proof (destroy_if_valid_run l lg s k x H E) as (tgk & Ek & Etg & R).
  pose proof (nth_lt _ _ _ Ek) as Lk. pose proof (nth_lt _ _ _ E2) as Ls.
  unfold var_move_assign. unfold bindp at 1. rewrite (tag_of_run l lg src sl tg E2).
  destruct y as [[i v]|].
  - destruct Hy as (-> & -> & Hi). unfold bindp at 1.
    destruct (trait alts a_move_assignable i) eqn:Ha.
    + set (c := Src true true true (move_alt (V := V) (T := option nat) (mvd i) src i)).
      set (ms := Some (Obj (Live i (mvd i v)) (Some i))).
      assert (F : exists l1 lg1 evs, assign_or_init_ix alts k i c (World l lg) = Val tt (World l1 lg1) /\
               (exists tg1, nth_error l1 k = Some (Some (Obj (Live i v) tg1)) /\
                  upd l1 k (Some (Obj (Live i v) (Some i))) =
                  upd (upd l k (Some (Obj (Live i v) (Some i)))) src ms) /\
               lg1 = lg ++ evs /\
               forall m, made evs m + hold1 (Some x) m = dead evs m + hold1 (Some (Some (i, v))) m).
      { unfold assign_or_init_ix, bindp. rewrite (tag_of_run l lg k _ _ Ek). subst tgk.
        destruct x as [[j v0]|]; cbn [option_map fst] in *.
        - destruct (shows_held l lg s k j v0 H E) as (_ & Hj).
          destruct (Nat.eqb_spec j i) as [->|Hji].
          + unfold assignment_helper. cbn [c_assignable c c_value].
            set (l2 := upd l src ms).
            assert (G2 : nth_error l2 k = Some (Some (Obj (Live i v0) (Some i)))).
            { unfold l2. rewrite nth_upd_other by auto. exact Ek. }
            rewrite (assign_run alts k i _ _ v l2 lg v0 (Some i) (move_run (mvd i) l lg src i v _ E2) G2).
            exists (upd l2 k (Some (Obj (Live i v) (Some i)))), lg, []. split; [reflexivity|].
            split; [exists (Some i); split; [apply nth_upd_same; eapply nth_lt; exact G2|]|].
            { unfold l2. rewrite upd_upd. now rewrite upd_comm by auto. }
            split; [now rewrite app_nil_r|]. intros m. reflexivity.
          + rewrite (destroy_index_live alts l lg k j v0 _ Hj Ek).
            set (l2 := upd l k (Some (Obj Raw (Some j)))).
            set (l3 := upd l2 src ms).
            assert (G : nth_error l2 src = Some (Some (Obj (Live i v) (Some i)))).
            { unfold l2. rewrite nth_upd_other by auto. exact E2. }
            assert (G2 : nth_error l3 k = Some (Some (Obj Raw (Some j)))).
            { unfold l3. rewrite nth_upd_other by auto. apply nth_upd_same; exact Lk. }
            rewrite (direct_init_run alts k i c _ v l3 (lg ++ [Dead j v0]) (Some j) eq_refl
                       (move_run (mvd i) l2 _ src i v _ G) G2).
            exists (upd l3 k (Some (Obj (Live i v) (Some j)))), ((lg ++ [Dead j v0]) ++ [Made i v]), [Dead j v0; Made i v].
            split; [reflexivity|]. split.
            { exists (Some j). split; [apply nth_upd_same; eapply nth_lt; exact G2|].
              unfold l3, l2. rewrite upd_upd, (upd_comm _ src k) by auto. now rewrite upd_upd. }
            split; [now rewrite <- app_assoc|].
            intros m. cbn. destruct (Nat.eqb i m), (Nat.eqb j m); lia.
        - cbn [destroy_index]. unfold ret.
          set (l3 := upd l src ms).
          assert (G2 : nth_error l3 k = Some (Some (Obj Raw None))).
          { unfold l3. rewrite nth_upd_other by auto. exact Ek. }
          rewrite (direct_init_run alts k i c _ v l3 lg None eq_refl (move_run (mvd i) l lg src i v _ E2) G2).
          exists (upd l3 k (Some (Obj (Live i v) None))), (lg ++ [Made i v]), [Made i v].
          split; [reflexivity|]. split.
          { exists None. split; [apply nth_upd_same; eapply nth_lt; exact G2|].
            unfold l3. rewrite upd_upd. now rewrite upd_comm by auto. }
          split; [reflexivity|]. intros m. cbn. lia. }
      destruct F as (l1 & lg1 & evs & F1 & (tg1 & F2 & F3) & -> & B).
      erewrite (visit_index_hit alts i _ _ (World l1 (lg ++ evs)) Hi).
      * erewrite set_tag_run by exact F2. rewrite F3.
        eexists. split; [reflexivity|].
        assert (S1 : shows (World (upd l k (Some (Obj (Live i v) (Some i)))) (lg ++ evs)) (upd s k (Some (Some (i, v))))).
        { eapply shows_step with (y := Some x); [exact H|now apply lookup_nth|reflexivity|reflexivity|reflexivity|exact Hi|exact B]. }
        eapply shows_step with (y := Some (Some (i, v))) (evs := []);
          [exact S1| |reflexivity|reflexivity|now rewrite app_nil_r|exact Hi|].
        -- rewrite nth_upd_other by auto. now apply lookup_nth.
        -- intros m. reflexivity.
      * unfold move_assign_functor. rewrite Ha. fold c. unfold bindp. now rewrite F1.
    + set (l1 := upd l k (Some (Obj Raw tgk))) in *.
      assert (G : nth_error l1 src = Some (Some (Obj (Live i v) (Some i)))).
      { unfold l1. rewrite nth_upd_other by auto. exact E2. }
      set (l2 := upd l1 src (Some (Obj (Live i (mvd i v)) (Some i)))).
      assert (G2 : nth_error l2 k = Some (Some (Obj Raw tgk))).
      { unfold l2. rewrite nth_upd_other by auto. apply nth_upd_same; exact Lk. }
      set (l3 := upd l2 k (Some (Obj (Live i v) tgk))).
      assert (G3 : nth_error l3 src = Some (Some (Obj (Live i (mvd i v)) (Some i)))).
      { unfold l3. rewrite nth_upd_other by auto. apply nth_upd_same. eapply nth_lt; exact G. }
      set (lf := upd (upd l3 src (Some (Obj Raw (Some i)))) src (Some (Obj Raw None))).
      set (lgf := ((lg ++ bury x) ++ [Made i v]) ++ [Dead i (mvd i v)]).
      erewrite (visit_index_hit alts i _ _ (World lf lgf) Hi).
      * assert (Gf : nth_error lf k = Some (Some (Obj (Live i v) tgk))).
        { unfold lf. rewrite !nth_upd_other by auto. unfold l3. apply nth_upd_same. eapply nth_lt; exact G2. }
        erewrite set_tag_run by exact Gf. eexists. split; [reflexivity|].
        assert (EQ : upd lf k (Some (Obj (Live i v) (Some i)))
                     = upd (upd l k (Some (Obj (Live i v) (Some i)))) src (Some (Obj Raw None))).
        { unfold lf, l3, l2, l1. rewrite upd_upd. rewrite (upd_comm _ src k) by auto.
          rewrite upd_upd. rewrite (upd_comm _ src k) by auto. rewrite !upd_upd. reflexivity. }
        rewrite EQ. unfold lgf.
        assert (S1 : shows (World (upd l k (Some (Obj (Live i v) (Some i)))) ((lg ++ bury x) ++ [Made i v]))
                       (upd s k (Some (Some (i, v))))).
        { eapply shows_step with (y := Some x) (evs := bury x ++ [Made i v]);
            [exact H|now apply lookup_nth|reflexivity|reflexivity|now rewrite app_assoc|exact Hi|].
          intros m. rewrite made_app, dead_app. pose proof (bury_bal x m). cbn [hold1 made dead] in *. destruct (Nat.eqb i m); lia. }
        eapply shows_step with (y := Some (Some (i, v))) (evs := [Dead i (mvd i v)]);
          [exact S1| |exact I|reflexivity|reflexivity|exact I|].
        -- rewrite nth_upd_other by auto. now apply lookup_nth.
        -- intros m. cbn. destruct (Nat.eqb i m); lia.
      * unfold move_assign_functor. rewrite Ha. unfold bindp. rewrite R.
        rewrite (construct_run k i _ _ v l2 _ Raw tgk (move_run (mvd i) l1 _ src i v _ G) G2).
        fold l3. rewrite (destroy_live alts l3 _ src i _ _ G3).
        erewrite set_tag_run by (apply nth_upd_same; eapply nth_lt; exact G3). reflexivity.
  - destruct Hy as (-> & ->). unfold bindp. rewrite R.
    erewrite set_tag_run by (apply nth_upd_same; exact Lk). rewrite upd_upd.
    eexists. split; [reflexivity|].
    eapply shows_step with (y := Some x) (evs := bury x);
      [exact H|now apply lookup_nth|exact I|reflexivity|reflexivity|exact I|].
    intros m. rewrite bury_bal. cbn [hold1]. lia.
Qed.

Lemma run_step s p w :
  NoDup (map a_type alts) ->
  shows w s -> legal alts s p ->
  exists w', run_vop alts mvd p w = Val tt w' /\ shows w' (effect alts mvd s p).
Proof.
  intros Hd H L. destruct p as [k i v|k src|k src|k|k i v|k i v|k src|k src]; cbn [run_vop effect legal] in *.
  - destruct L. now apply run_new.
  - destruct L as (? & ? & ?). now apply run_copy.
  - destruct L. now apply run_move.
  - now apply run_destroy.
  - destruct L as (L1 & L2). destruct (nth_error alts i) as [a|] eqn:Ea.
    + eapply run_emplace_first; eauto. now apply select_distinct.
    + apply nth_error_None in Ea. unfold alt_exists in L2. lia.
  - destruct L. now apply run_assign.
  - destruct L as (? & ? & ? & ?). now apply run_copy_assign.
  - destruct L as (L1 & L2 & L3). exact (run_move_assign s k src w H L1 L2 L3).
Qed.

Lemma run_history s ops w :
  NoDup (map a_type alts) ->
  shows w s -> all_legal alts mvd s ops ->
  exists w', run_vops alts mvd ops w = Val tt w' /\ shows w' (effects alts mvd s ops).
Proof.
  intros Hd. revert s w; induction ops as [|p r IH]; intros s w H L.
  - exists w. split; [reflexivity|exact H].
  - destruct L as (L1 & L2). destruct (run_step s p w Hd H L1) as (w1 & R1 & S1).
    destruct (IH _ w1 S1 L2) as (w2 & R2 & S2). exists w2. split; [|exact S2].
    cbn [run_vops]. unfold bindp. now rewrite R1.
Qed.
End L.

Section M.
Context {V : Type}.
Context (alts : list alt) (mvd : nat -> V -> V).
Notation W := (world V (option nat)).
Notation shows := (shows (V := V) alts).

Lemma emplace_throws s k i a args w :
  shows w s -> lookup s k <> None -> nth_error alts i = Some a -> throws args ->
  exists w', var_emplace alts k i args w = Thrown w' /\ shows w' (upd s k (Some None)).
Proof.
  intros H Hk Ha Ht. destruct w as [l lg]. destruct (lookup s k) as [x|] eqn:E; [|contradiction].
  assert (exists j, select_type alts (a_type a) = Some j) as (j & Hj).
  { unfold select_type. clear -Ha. revert i Ha. generalize 0 as b. induction alts as [|c r IH]; intros b i Ha; [now destruct i|].
    cbn. destruct (Nat.eqb_spec (a_type c) (a_type a)); [eauto|]. destruct i; [cbn in Ha; congruence|]. eapply IH; exact Ha. }
  destruct (destroy_if_valid_run alts l lg s k x H E) as (tg & Ek & _ & R).
  pose proof (nth_lt _ _ _ Ek) as Lk.
  unfold var_emplace. rewrite Ha. unfold var_emplace_type. unfold bindp. rewrite R.
  erewrite set_tag_run by (apply nth_upd_same; exact Lk). rewrite upd_upd. rewrite Hj.
  unfold construct, bindp. rewrite Ht.
  eexists. split; [reflexivity|].
  eapply shows_step with (evs := bury x) (y := Some x);
    [exact H|now apply lookup_nth|exact I|reflexivity|reflexivity|exact I|].
  intros m. rewrite bury_bal. cbn [hold1]. lia.
Qed.

Lemma new_throws s k i args w :
  shows w s -> nth_error s k = Some None -> throws args ->
  var_in_place k i args w = Thrown w.
Proof.
  intros H Hk Ht. destruct w as [l lg]. pose proof (shows_none alts l lg s k H Hk) as Ek.
  unfold var_in_place. rewrite constructor_run by exact Ek.
  unfold bindp, construct, bindp. rewrite Ht. cbn [w_objs w_log]. rewrite upd_upd.
  now rewrite upd_id by exact Ek.
Qed.

Lemma first_constructible_least n i (u : nat -> source V (option nat)) j :
  first_constructible n i u = Some j <->
  (i <= j < i + n /\ c_constructible (u j) = true /\ forall m, i <= m < j -> c_constructible (u m) = false).
Proof.
  revert i; induction n as [|n IH]; intros i; cbn [first_constructible].
  - split; [discriminate|]. intros; lia.
  - destruct (c_constructible (u i)) eqn:E.
    + split.
      * intros [= <-]. split; [lia|]. split; [exact E|]. intros; lia.
      * intros (H1 & H2 & H3). destruct (Nat.eq_dec i j); [now subst|]. rewrite H3 in E by lia. discriminate.
    + rewrite IH. split.
      * intros (H1 & H2 & H3). split; [lia|]. split; [exact H2|]. intros m Hm.
        destruct (Nat.eq_dec m i); [now subst|]. apply H3. lia.
      * intros (H1 & H2 & H3). destruct (Nat.eq_dec i j) as [->|]; [congruence|].
        split; [lia|]. split; [exact H2|]. intros m Hm. apply H3. lia.
Qed.
Lemma first_constructible_spec n (u : nat -> source V (option nat)) j :
  least (fun i => c_constructible (u i) = true) n j <-> first_constructible n 0 u = Some j.
Proof.
  rewrite first_constructible_least. unfold least. split.
  - intros (H1 & H2 & H3). split; [lia|]. split; [exact H2|]. intros m Hm.
    destruct (c_constructible (u m)) eqn:E; [|reflexivity]. exfalso. eapply H3; [|exact E]. lia.
  - intros (H1 & H2 & H3). split; [lia|]. split; [exact H2|]. intros m Hm E. rewrite H3 in E by lia. discriminate.
Qed.

Lemma broken_run l lg k j :
  nth_error l k = Some (Some (Obj Raw (Some j))) -> j < length alts -> trait alts a_trivial j = false ->
  broken alts (World (V := V) l lg) k j.
Proof.
  intros Ek Hj Ht.
  assert (D : destroy_if_valid alts k (World l lg) = Undef).
  { unfold destroy_if_valid, bindp. rewrite (tag_of_run l lg k _ _ Ek). cbn [destroy_index].
    destruct (Nat.ltb_spec j (length alts)); [|lia]. rewrite (destroy_raw alts l lg k j _ Ek). now rewrite Ht. }
  split; [|split; [|split]].
  - apply (tag_of_run l lg k _ _ Ek).
  - unfold var_get, bindp. rewrite (tag_of_run l lg k _ _ Ek), Nat.eqb_refl. now apply (read_raw l lg k j (Some j)).
  - unfold var_destroy, bindp. now rewrite D.
  - intros i args Hi. unfold var_emplace. destruct (nth_error alts i) eqn:E; [|apply nth_error_None in E; lia].
    unfold var_emplace_type, bindp. now rewrite D.
Qed.

Lemma assign_throws_other s k j v0 i u w :
  shows w s -> lookup s k = Some (Some (j, v0)) -> trait alts a_trivial j = false ->
  least (fun i => c_constructible (u i) = true) (length alts) i -> i <> j ->
  c_convertible (u i) = true -> throws (c_value (u i)) ->
  exists w', var_assign_value alts k u w = Thrown w' /\ broken alts w' k j.
Proof.
  intros H E Ht Hl Hne Hc Hv. destruct w as [l lg]. apply first_constructible_spec in Hl.
  destruct (shows_held alts l lg s k j v0 H E) as (Ek & Hj). pose proof (nth_lt _ _ _ Ek) as Lk.
  unfold var_assign_value. rewrite Hl. unfold bindp at 1. unfold assign_or_init_ix, bindp.
  rewrite (tag_of_run l lg k _ _ Ek). destruct (Nat.eqb_spec j i); [congruence|].
  rewrite (destroy_index_live alts l lg k j v0 _ Hj Ek).
  set (w' := World _ _).
  assert (D : direct_init_helper alts k i (u i) w' = Thrown w').
  { unfold direct_init_helper, assignment_emplace_helper, assign_at, construct, bindp.
    rewrite Hc. destruct (trait alts a_trivial i); now rewrite Hv. }
  rewrite D. exists w'. split; [reflexivity|]. apply broken_run; auto. apply nth_upd_same; exact Lk.
Qed.

Lemma assign_throws_empty s k i u w :
  shows w s -> lookup s k = Some None ->
  least (fun i => c_constructible (u i) = true) (length alts) i ->
  c_convertible (u i) = true -> throws (c_value (u i)) ->
  var_assign_value alts k u w = Thrown w.
Proof.
  intros H E Hl Hc Hv. destruct w as [l lg]. apply first_constructible_spec in Hl.
  pose proof (shows_valueless alts l lg s k H E) as Ek.
  unfold var_assign_value. rewrite Hl. unfold bindp at 1. unfold assign_or_init_ix, bindp.
  rewrite (tag_of_run l lg k _ _ Ek). cbn [destroy_index ret].
  unfold direct_init_helper, assignment_emplace_helper, assign_at, construct, bindp.
  rewrite Hc. destruct (trait alts a_trivial i); cbn; now rewrite Hv.
Qed.

Lemma assign_throws_same s k v0 i u w :
  shows w s -> lookup s k = Some (Some (i, v0)) ->
  least (fun i => c_constructible (u i) = true) (length alts) i ->
  c_assignable (u i) = true -> throws (c_value (u i)) ->
  var_assign_value alts k u w = Thrown w.
Proof.
  intros H E Hl Hc Hv. destruct w as [l lg]. apply first_constructible_spec in Hl.
  destruct (shows_held alts l lg s k i v0 H E) as (Ek & Hi).
  unfold var_assign_value. rewrite Hl. unfold bindp at 1. unfold assign_or_init_ix, bindp.
  rewrite (tag_of_run l lg k _ _ Ek). rewrite Nat.eqb_refl.
  unfold assignment_helper. rewrite Hc. unfold assign_at, bindp. now rewrite Hv.
Qed.

Lemma assign_throws_same_replace s k v0 i u w :
  shows w s -> lookup s k = Some (Some (i, v0)) -> trait alts a_trivial i = false ->
  least (fun i => c_constructible (u i) = true) (length alts) i ->
  c_assignable (u i) = false -> c_convertible (u i) = true -> throws (c_value (u i)) ->
  exists w', var_assign_value alts k u w = Thrown w' /\ broken alts w' k i.
Proof.
  intros H E Ht Hl Ha Hc Hv. destruct w as [l lg]. apply first_constructible_spec in Hl.
  destruct (shows_held alts l lg s k i v0 H E) as (Ek & Hi). pose proof (nth_lt _ _ _ Ek) as Lk.
  unfold var_assign_value. rewrite Hl. unfold bindp at 1. unfold assign_or_init_ix, bindp.
  rewrite (tag_of_run l lg k _ _ Ek). rewrite Nat.eqb_refl.
  unfold assignment_helper. rewrite Ha. unfold bindp.
  rewrite (destroy_live alts l lg k i v0 (Some i) Ek).
  unfold assignment_emplace_helper, construct, bindp. rewrite Hc, Hv.
  eexists. split; [reflexivity|]. apply broken_run; auto. apply nth_upd_same; exact Lk.
Qed.

Lemma assign_run_any s k i v u w :
  shows w s -> lookup s k <> None ->
  least (fun i => c_constructible (u i) = true) (length alts) i ->
  c_convertible (u i) = true -> makes (c_value (u i)) v ->
  exists w', var_assign_value alts k u w = Val tt w' /\ shows w' (upd s k (Some (Some (i, v)))).
Proof.
  intros H Hk Hl Hc Hv. destruct w as [l lg]. destruct (lookup s k) as [x|] eqn:E; [|contradiction].
  assert (Hi : i < length alts) by apply Hl. apply first_constructible_spec in Hl.
  unfold var_assign_value. rewrite Hl.
  destruct (assign_or_init_ix_run alts s k i (u i) v l lg x H E Hi Hc) as (lg' & evs & R & -> & B).
  { intros; apply Hv. }
  rewrite R. eexists. split; [reflexivity|].
  eapply shows_step with (y := Some x); [exact H|now apply lookup_nth|reflexivity|reflexivity|reflexivity|exact Hi|exact B].
Qed.

Lemma assign_aborts s k j v0 i u w :
  shows w s -> lookup s k = Some (Some (j, v0)) ->
  least (fun i => c_constructible (u i) = true) (length alts) i -> i <> j ->
  c_convertible (u i) = false -> var_assign_value alts k u w = Abort.
Proof.
  intros H E Hl Hne Hc. destruct w as [l lg]. apply first_constructible_spec in Hl.
  destruct (shows_held alts l lg s k j v0 H E) as (Ek & Hj).
  unfold var_assign_value. rewrite Hl. unfold bindp at 1. unfold assign_or_init_ix, bindp.
  rewrite (tag_of_run l lg k _ _ Ek). destruct (Nat.eqb_spec j i); [congruence|].
  rewrite (destroy_index_live alts l lg k j v0 _ Hj Ek). unfold direct_init_helper. now rewrite Hc.
Qed.

Lemma converting_run s k i v u w :
  shows w s -> nth_error s k = Some None ->
  least (fun i => c_constructible (u i) = true) (length alts) i -> makes (c_value (u i)) v ->
  exists w', var_converting alts k u w = Val tt w' /\ shows w' (upd s k (Some (Some (i, v)))).
Proof.
  intros H Hk (Hi & Hci & Hm) Hv. destruct w as [l lg]. pose proof (shows_none alts l lg s k H Hk) as Ek.
  pose proof (nth_lt _ _ _ Ek) as Lk.
  unfold var_converting. rewrite constructor_run by exact Ek. unfold bindp at 1.
  set (l1 := upd l k _).
  assert (E1 : nth_error l1 k = Some (Some (Obj Raw None))) by (apply nth_upd_same; exact Lk).
  rewrite (visit_hit alts i _ _ (World (upd l1 k (Some (Obj (Live i v) None))) (lg ++ [Made i v])) Hi).
  - erewrite set_tag_run by (apply nth_upd_same; eapply nth_lt; exact E1).
    eexists. split; [reflexivity|]. unfold l1. rewrite !upd_upd.
    eapply shows_step with (evs := [Made i v]); try eassumption; try reflexivity.
    intros j. cbn. destruct (Nat.eqb i j); lia.
  - intros x Hx. destruct (c_constructible (u x)) eqn:Ex; [|reflexivity]. exfalso. eapply Hm; eassumption.
  - rewrite Hci. unfold bindp. rewrite (construct_run k i _ _ v l1 lg Raw None (Hv _) E1). reflexivity.
Qed.

Lemma self_copy_assign s k i v w :
  shows w s -> lookup s k = Some (Some (i, v)) ->
  (trait alts a_copy_assignable i = true -> var_copy_assign alts k k w = Val tt w) /\
  (trait alts a_copy_assignable i = false -> var_copy_assign alts k k w = Undef).
Proof.
  intros H E. destruct w as [l lg]. destruct (shows_held alts l lg s k i v H E) as (Ek & Hi).
  pose proof (nth_lt _ _ _ Ek) as Lk. split; intros Ha.
  - unfold var_copy_assign, bindp at 1 2. rewrite (tag_of_run l lg k _ _ Ek).
    rewrite (visit_index_hit alts i _ _ (World l lg) Hi).
    + rewrite (set_tag_run l lg k _ _ (Some i) Ek). now rewrite upd_id by exact Ek.
    + unfold copy_assign_functor. rewrite Ha. unfold assign_or_init_ix, bindp.
      rewrite (tag_of_run l lg k _ _ Ek), Nat.eqb_refl.
      unfold assignment_helper. cbn [c_assignable c_value].
      rewrite (assign_run alts k i _ _ v l lg v (Some i) (read_run l lg k i v _ Ek) Ek).
      unfold ret. now rewrite upd_id by exact Ek.
  - unfold var_copy_assign, bindp at 1 2. rewrite (tag_of_run l lg k _ _ Ek).
    rewrite (visit_index_undef alts i); [reflexivity|exact Hi|].
    unfold copy_assign_functor. rewrite Ha. unfold destroy_if_valid, bindp.
    rewrite (tag_of_run l lg k _ _ Ek). rewrite (destroy_index_live alts l lg k i v _ Hi Ek).
    unfold construct, bindp.
    erewrite read_raw; [reflexivity|]. apply nth_upd_same; exact Lk.
Qed.
Lemma self_assign_valueless s k w :
  shows w s -> lookup s k = Some None ->
  var_copy_assign alts k k w = Val tt w /\ var_move_assign alts mvd k k w = Val tt w.
Proof.
  intros H E. destruct w as [l lg]. pose proof (shows_valueless alts l lg s k H E) as Ek.
  split; [unfold var_copy_assign|unfold var_move_assign]; unfold destroy_if_valid, bindp;
    rewrite !(tag_of_run l lg k _ _ Ek); cbn [destroy_index ret];
    rewrite (set_tag_run l lg k _ _ None Ek); now rewrite upd_id by exact Ek.
Qed.
Lemma self_move_assign s k i v w :
  shows w s -> lookup s k = Some (Some (i, v)) -> trait alts a_move_assignable i = false ->
  var_move_assign alts mvd k k w = Undef.
Proof.
  intros H E Ha. destruct w as [l lg]. destruct (shows_held alts l lg s k i v H E) as (Ek & Hi).
  pose proof (nth_lt _ _ _ Ek) as Lk.
  unfold var_move_assign, bindp at 1 2. rewrite (tag_of_run l lg k _ _ Ek).
  rewrite (visit_index_undef alts i); [reflexivity|exact Hi|].
  unfold move_assign_functor. rewrite Ha. unfold destroy_if_valid, bindp.
  rewrite (tag_of_run l lg k _ _ Ek). rewrite (destroy_index_live alts l lg k i v _ Hi Ek).
  unfold construct, move_alt, bindp.
  erewrite read_raw; [reflexivity|]. apply nth_upd_same; exact Lk.
Qed.

Lemma copy_uncopyable s k src i v w :
  shows w s -> nth_error s k = Some None -> lookup s src = Some (Some (i, v)) ->
  trait alts a_copyable i = false -> trait alts a_trivial i = false ->
  exists w', var_copy alts k src w = Val tt w' /\ broken alts w' k i.
Proof.
  intros H Hk Es Hc Ht. destruct w as [l lg]. pose proof (shows_none alts l lg s k H Hk) as Ek.
  pose proof (nth_lt _ _ _ Ek) as Lk.
  assert (Hne : k <> src). { intros ->. apply nth_lookup in Hk. congruence. }
  destruct (shows_held alts l lg s src i v H Es) as (E2 & Hi).
  unfold var_copy. rewrite constructor_run by exact Ek. unfold bindp at 1 2.
  set (l1 := upd l k _).
  assert (E1 : nth_error l1 k = Some (Some (Obj Raw None))) by (apply nth_upd_same; exact Lk).
  assert (E3 : nth_error l1 src = Some (Some (Obj (Live i v) (Some i)))) by (unfold l1; rewrite nth_upd_other by auto; exact E2).
  rewrite (tag_of_run l1 lg src _ _ E3). rewrite copy_storage_skip by exact Hc.
  erewrite set_tag_run by exact E1. eexists. split; [reflexivity|].
  apply broken_run; auto. apply nth_upd_same. eapply nth_lt; exact E1.
Qed.

(* access *)
Lemma access s k x w :
  shows w s -> lookup s k = Some x ->
  var_index k w = Val (option_map fst x) w /\
  var_valueless k w = Val (match x with None => true | Some _ => false end) w /\
  (forall i, var_get_if k i w =
     Val (match x with Some (j, v) => if Nat.eqb j i then Some v else None | None => None end) w) /\
  (forall i, var_get k i w =
     match x with Some (j, v) => if Nat.eqb j i then Val v w else Thrown w | None => Thrown w end).
Proof.
  intros H E. destruct w as [l lg]. destruct (shows_object alts l lg s k x H E) as (sl & tg & Ek & Hx).
  unfold var_index, var_valueless, var_get_if, var_get, bindp. rewrite !(tag_of_run l lg k _ _ Ek).
  destruct x as [[j v]|].
  - destruct Hx as (-> & -> & Hj). repeat split; intros i; destruct (Nat.eqb_spec j i) as [<-|]; try reflexivity;
      now rewrite (read_run l lg k j v _ Ek).
  - destruct Hx as (-> & ->). repeat split.
Qed.
Lemma access_type s k x w i a :
  shows w s -> lookup s k = Some x -> NoDup (map a_type alts) -> nth_error alts i = Some a ->
  var_holds alts k (a_type a) w = Val (match x with Some (j, _) => Nat.eqb j i | None => false end) w /\
  var_get_type alts k (a_type a) w =
    match x with Some (j, v) => if Nat.eqb j i then Val v w else Thrown w | None => Thrown w end.
Proof.
  intros H E Hd Ha. pose proof (select_distinct alts i a Hd Ha) as Hs. split.
  - destruct w as [l lg]. destruct (shows_object alts l lg s k x H E) as (sl & tg & Ek & Hx).
    unfold var_holds, bindp. rewrite (tag_of_run l lg k _ _ Ek), Hs.
    destruct x as [[j v]|]; [destruct Hx as (_ & -> & _)|destruct Hx as (_ & ->)]; reflexivity.
  - unfold var_get_type. rewrite Hs. now apply (access s k x w H E).
Qed.

Lemma visit_index_held s k x w f :
  shows w s -> lookup s k = Some x ->
  var_visit_index alts k f w =
    match x with
    | Some (i, _) => match f i w with
                     | Val b w' => Val (if b : bool then Some i else None) w'
                     | Thrown w' => Thrown w' | Abort => Abort | Undef => Undef
                     end
    | None => Val None w
    end.
Proof.
  intros H E. destruct w as [l lg]. destruct (shows_object alts l lg s k x H E) as (sl & tg & Ek & Hx).
  unfold var_visit_index, bindp. rewrite (tag_of_run l lg k _ _ Ek).
  destruct x as [[i v]|].
  - destruct Hx as (-> & -> & Hi). destruct (f i (World l lg)) as [[|] w'|w'| |] eqn:F.
    + now apply visit_index_hit.
    + now apply visit_index_no.
    + now apply visit_index_thrown.
    + unfold visit_index, visit. rewrite (visit_from_at _ 0 i); [|lia|].
      * now rewrite Nat.eqb_refl, F.
      * intros y Hy. destruct (Nat.eqb_spec y i); [lia|reflexivity].
    + now apply visit_index_undef.
  - destruct Hx as (-> & ->). apply visit_index_none.
Qed.

Lemma visit_first s k x w f w' :
  shows w s -> lookup s k = Some x -> alts <> [] ->
  (f 0 w = Val true w' -> var_visit alts k f w = Val (Some 0) w') /\
  (f 0 w = Undef -> var_visit alts k f w = Undef) /\
  (f 0 w = Thrown w' -> var_visit alts k f w = Thrown w').
Proof.
  intros H E Hn. destruct w as [l lg]. destruct (shows_object alts l lg s k x H E) as (sl & tg & Ek & Hx).
  assert (L : 0 < length alts) by (destruct alts; [contradiction|cbn; lia]).
  unfold var_visit, bindp. rewrite (get_obj_run l lg k _ Ek). split; [|split]; intros F.
  - apply visit_hit; auto. intros; lia.
  - eapply visit_undef; eauto. intros; lia.
  - eapply visit_thrown; eauto. intros; lia.
Qed.

Lemma visit_reads s k x w :
  shows w s -> lookup s k = Some x -> alts <> [] ->
  var_visit alts k (fun i => v <- read_alt k i ;; ret true) w =
  match x with Some (0, _) => Val (Some 0) w | _ => Undef end.
Proof.
  intros H E Hn. pose proof (visit_first s k x w (fun i => v <- read_alt k i ;; ret true) w H E Hn) as (F1 & F2 & _).
  destruct w as [l lg]. destruct (shows_object alts l lg s k x H E) as (sl & tg & Ek & Hx).
  destruct x as [[[|i] v]|].
  - apply F1. destruct Hx as (-> & _). unfold bindp. now rewrite (read_run l lg k 0 v _ Ek).
  - apply F2. destruct Hx as (-> & _). unfold read_alt, bindp. now rewrite (get_obj_run l lg k _ Ek).
  - apply F2. destruct Hx as (-> & _). unfold bindp. now rewrite (read_raw l lg k 0 _ Ek).
Qed.

Lemma shows_start n : shows (World (repeat None n) []) (repeat None n).
Proof.
  split; [|split; [|split]]; cbn [w_objs w_log].
  - induction n; cbn; congruence.
  - apply Forall_forall. intros x Hx. apply repeat_spec in Hx. now subst.
  - intros k i v Hl. unfold lookup in Hl. destruct (nth_error (repeat None n) k) eqn:E; [|discriminate].
    apply nth_error_In, repeat_spec in E. now subst.
  - intros i. cbn. induction n; cbn; auto.
Qed.
Lemma holding_none (s : vars V) : (forall k, lookup s k = None) -> forall i, holding s i = 0.
Proof.
  induction s as [|x r IH]; intros H i; [reflexivity|]. rewrite holding_cons.
  pose proof (H 0) as H0. unfold lookup in H0. cbn in H0. subst x. cbn. apply IH. intros k. apply (H (S k)).
Qed.
End M.
