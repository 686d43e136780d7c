From Verif Require Import Base Vst_Model Vst_Proofs Opt_Model Opt_Spec.
Local Open Scope prog_scope.

Section L.
Context {V : Type}.
Context (a : alt) (mvd : V -> V).
Notation W := (world V bool).

Definition ohold1 (x : option (option V)) : nat := match x with Some (Some _) => 1 | _ => 0 end.
Lemma oholding_cons x (s : opts V) : oholding (x :: s) = ohold1 x + oholding s.
Proof. now destruct x as [[v|]|]. Qed.
Lemma oholding_upd (s : opts V) k x y :
  nth_error s k = Some y -> oholding (upd s k x) + ohold1 y = oholding s + ohold1 x.
Proof.
  revert k; induction s as [|b t IH]; intros [|k] H; simpl in H; try discriminate.
  - injection H as ->. cbn [upd]. rewrite !oholding_cons. lia.
  - cbn [upd]. rewrite !oholding_cons. specialize (IH k H). lia.
Qed.
Lemma omade_app (x y : list (ev V)) : omade (x ++ y) = omade x + omade y.
Proof. induction x as [|[j v|j v] t IH]; simpl; auto. Qed.
Lemma odead_app (x y : list (ev V)) : odead (x ++ y) = odead x + odead y.
Proof. induction x as [|[j v|j v] t IH]; simpl; auto. Qed.

Lemma olookup_nth (s : opts V) k x : olookup s k = Some x -> nth_error s k = Some (Some x).
Proof. unfold olookup. destruct (nth_error s k); congruence. Qed.
Lemma nth_olookup (s : opts V) k x : nth_error s k = Some x -> olookup s k = x.
Proof. unfold olookup. intros H; now rewrite H. Qed.

Lemma oshows_step l lg (s : opts V) k y o x evs :
  oshows (World l lg) s -> nth_error s k = Some y -> otruthful o -> oseen o = x ->
  omade evs + ohold1 y = odead evs + ohold1 x ->
  oshows (World (upd l k o) (lg ++ evs)) (upd s k x).
Proof.
  intros (H1 & H2 & H4) Hy Ht Hx Hc. cbn [w_objs w_log] in *.
  split; [|split]; cbn [w_objs w_log].
  - rewrite map_upd, H1, Hx. reflexivity.
  - now apply Forall_upd.
  - rewrite omade_app, odead_app. pose proof (oholding_upd s k x y Hy). lia.
Qed.

Lemma oshows_at l lg (s : opts V) k x :
  oshows (World l lg) s -> nth_error s k = Some x ->
  exists o, nth_error l k = Some o /\ oseen o = x /\ otruthful o.
Proof.
  intros (H1 & H2 & _) H. cbn [w_objs] in *. subst s. rewrite nth_error_map in H.
  destruct (nth_error l k) eqn:E; [|discriminate]. cbn in H. injection H as H.
  exists o. repeat split; auto. apply (proj1 (Forall_forall _ _) H2). eapply nth_error_In; eauto.
Qed.
Lemma oshows_none l lg (s : opts V) k :
  oshows (World l lg) s -> nth_error s k = Some None -> nth_error l k = Some None.
Proof.
  intros H E. destruct (oshows_at l lg s k _ H E) as ([o|] & E1 & E2 & E3); auto.
  cbn in E2. destruct (o_tag o), (o_slot o); discriminate.
Qed.
Definition slot_of (x : option V) : slot V := match x with Some v => Live 0 v | None => Raw end.
Definition is_some (x : option V) : bool := match x with Some _ => true | None => false end.
Lemma oshows_obj l lg (s : opts V) k x :
  oshows (World l lg) s -> olookup s k = Some x ->
  nth_error l k = Some (Some (Obj (slot_of x) (is_some x))).
Proof.
  intros H E. apply olookup_nth in E.
  destruct (oshows_at l lg s k _ H E) as ([[sl tg]|] & E1 & E2 & E3); [|discriminate].
  cbn in *. destruct tg, sl; try discriminate; try contradiction; subst; injection E2 as <-; exact E1.
Qed.

Definition obury (x : option V) : list (ev V) := match x with Some v => [Dead 0 v] | None => [] end.
Lemma odestroy_value_run l lg k x :
  nth_error l k = Some (Some (Obj (slot_of x) (is_some x))) ->
  opt_destroy_value a k (World l lg) = Val tt (World (upd l k (Some (Obj Raw (is_some x)))) (lg ++ obury x)).
Proof.
  intros Ek. unfold opt_destroy_value, bindp. rewrite (tag_of_run l lg k _ _ Ek).
  destruct x as [v|]; cbn [is_some slot_of obury] in *.
  - apply destroy_live. exact Ek.
  - unfold ret. rewrite upd_id by exact Ek. now rewrite app_nil_r.
Qed.

Ltac step y evs := eapply oshows_step with (y := y) (evs := evs).

Lemma run_odefault (s : opts V) k w :
  oshows w s -> nth_error s k = Some None ->
  exists w', opt_default k w = Val tt w' /\ oshows w' (upd s k (Some None)).
Proof.
  intros H Hk. destruct w as [l lg]. pose proof (oshows_none l lg s k H Hk) as Ek.
  unfold opt_default. rewrite constructor_run by exact Ek. eexists. split; [reflexivity|].
  rewrite <- (app_nil_r lg). eapply oshows_step with (evs := []); try eassumption; reflexivity.
Qed.

Lemma run_onew (s : opts V) k v w :
  oshows w s -> nth_error s k = Some None ->
  exists w', opt_in_place k (ret v) w = Val tt w' /\ oshows w' (upd s k (Some (Some v))).
Proof.
  intros H Hk. destruct w as [l lg]. pose proof (oshows_none l lg s k H Hk) as Ek.
  pose proof (nth_lt _ _ _ Ek) as Lk.
  unfold opt_in_place. rewrite constructor_run by exact Ek. unfold bindp.
  erewrite (construct_run k 0 (ret v)); [|reflexivity|apply nth_upd_same; exact Lk].
  rewrite upd_upd. erewrite set_tag_run by (apply nth_upd_same; exact Lk). rewrite upd_upd.
  eexists. split; [reflexivity|]. eapply oshows_step; try eassumption; reflexivity.
Qed.

Lemma run_ocopy (s : opts V) k src w :
  oshows w s -> nth_error s k = Some None -> olookup s src <> None ->
  exists w', opt_copy k src w = Val tt w' /\ oshows w' (upd s k (olookup s src)).
Proof.
  intros H Hk Hs. destruct w as [l lg]. pose proof (oshows_none l lg s k H Hk) as Ek.
  pose proof (nth_lt _ _ _ Ek) as Lk.
  destruct (olookup s src) as [x|] eqn:Es; [|contradiction].
  assert (Hne : k <> src). { intros ->. apply nth_olookup in Hk. congruence. }
  pose proof (oshows_obj l lg s src x H Es) as E2.
  unfold opt_copy. rewrite constructor_run by exact Ek. unfold bindp.
  set (l1 := upd l k _).
  assert (E1 : nth_error l1 k = Some (Some (Obj Raw false))) by (apply nth_upd_same; exact Lk).
  assert (E3 : nth_error l1 src = Some (Some (Obj (slot_of x) (is_some x)))) by (unfold l1; rewrite nth_upd_other by auto; exact E2).
  rewrite (tag_of_run l1 lg src _ _ E3). destruct x as [v|]; cbn [is_some slot_of] in *.
  - rewrite (construct_run k 0 _ _ v l1 lg Raw false (read_run l1 lg src 0 v true E3) E1).
    erewrite tag_of_run by (rewrite nth_upd_other by auto; exact E3).
    erewrite set_tag_run by (apply nth_upd_same; eapply nth_lt; exact E1).
    eexists. split; [reflexivity|]. unfold l1. rewrite !upd_upd.
    eapply oshows_step; try eassumption; reflexivity.
  - unfold ret at 1. rewrite (tag_of_run l1 lg src _ _ E3).
    erewrite set_tag_run by exact E1. eexists. split; [reflexivity|]. unfold l1. rewrite !upd_upd.
    rewrite <- (app_nil_r lg). eapply oshows_step; try eassumption; reflexivity.
Qed.

Lemma run_omove (s : opts V) k src w :
  oshows w s -> nth_error s k = Some None -> olookup s src <> None ->
  exists w', opt_move mvd k src w = Val tt w' /\
    oshows w' (upd (upd s k (olookup s src)) src (option_map (option_map mvd) (olookup s src))).
Proof.
  intros H Hk Hs. destruct w as [l lg]. pose proof (oshows_none l lg s k H Hk) as Ek.
  pose proof (nth_lt _ _ _ Ek) as Lk.
  destruct (olookup s src) as [x|] eqn:Es; [|contradiction].
  assert (Hne : k <> src). { intros ->. apply nth_olookup in Hk. congruence. }
  pose proof (oshows_obj l lg s src x H Es) as E2. pose proof (nth_lt _ _ _ E2) as Ls.
  unfold opt_move. rewrite constructor_run by exact Ek. unfold bindp.
  set (l1 := upd l k _).
  assert (E1 : nth_error l1 k = Some (Some (Obj Raw false))) by (apply nth_upd_same; exact Lk).
  assert (E3 : nth_error l1 src = Some (Some (Obj (slot_of x) (is_some x)))) by (unfold l1; rewrite nth_upd_other by auto; exact E2).
  rewrite (tag_of_run l1 lg src _ _ E3).
  assert (Hs2 : nth_error (upd s k (Some x)) src = Some (Some x)).
  { rewrite nth_upd_other by auto. now apply olookup_nth. }
  destruct x as [v|]; cbn [is_some slot_of option_map] in *.
  - set (l2 := upd l1 src (Some (Obj (Live 0 (mvd v)) true))).
    assert (G1 : nth_error l2 k = Some (Some (Obj Raw false))) by (unfold l2; rewrite nth_upd_other by auto; exact E1).
    rewrite (construct_run k 0 _ _ v l2 lg Raw false (move_run mvd l1 lg src 0 v true E3) G1).
    assert (G2 : nth_error (upd l2 k (Some (Obj (Live 0 v) false))) src = Some (Some (Obj (Live 0 (mvd v)) true))).
    { rewrite nth_upd_other by auto. apply nth_upd_same. eapply nth_lt; exact E3. }
    rewrite (tag_of_run _ _ src _ _ G2).
    erewrite set_tag_run by (apply nth_upd_same; eapply nth_lt; exact G1).
    eexists. split; [reflexivity|]. rewrite upd_upd. unfold l2. rewrite (upd_comm _ src k) by auto.
    unfold l1. rewrite upd_upd. rewrite <- (app_nil_r (lg ++ _)).
    eapply oshows_step; [|exact Hs2|reflexivity|reflexivity|reflexivity].
    eapply oshows_step; try eassumption; reflexivity.
  - unfold ret at 1. rewrite (tag_of_run l1 lg src _ _ E3).
    erewrite set_tag_run by exact E1. eexists. split; [reflexivity|]. unfold l1. rewrite !upd_upd.
    rewrite <- (app_nil_r lg).
    rewrite (upd_id (upd s k (Some None)) src (Some None) Hs2).
    eapply oshows_step; try eassumption; reflexivity.
Qed.

Lemma run_odestroy (s : opts V) k w :
  oshows w s -> olookup s k <> None ->
  exists w', opt_destroy a k w = Val tt w' /\ oshows w' (upd s k None).
Proof.
  intros H Hk. destruct w as [l lg]. destruct (olookup s k) as [x|] eqn:E; [|contradiction].
  pose proof (oshows_obj l lg s k x H E) as Ek.
  unfold opt_destroy, bindp. rewrite (odestroy_value_run l lg k x Ek).
  eexists. split; [reflexivity|]. cbn [w_objs w_log]. rewrite upd_upd.
  eapply oshows_step; [exact H|apply olookup_nth; exact E|exact I|reflexivity|]. now destruct x.
Qed.

Lemma run_oreset (s : opts V) k w :
  oshows w s -> olookup s k <> None ->
  exists w', opt_reset a k w = Val tt w' /\ oshows w' (upd s k (Some None)).
Proof.
  intros H Hk. destruct w as [l lg]. destruct (olookup s k) as [x|] eqn:E; [|contradiction].
  pose proof (oshows_obj l lg s k x H E) as Ek. pose proof (nth_lt _ _ _ Ek) as Lk.
  unfold opt_reset, bindp. rewrite (odestroy_value_run l lg k x Ek).
  erewrite set_tag_run by (apply nth_upd_same; exact Lk). rewrite upd_upd.
  eexists. split; [reflexivity|].
  eapply oshows_step; [exact H|apply olookup_nth; exact E|exact I|reflexivity|]. now destruct x.
Qed.

Lemma run_oemplace (s : opts V) k v w :
  oshows w s -> olookup s k <> None ->
  exists w', opt_emplace a k (ret v) w = Val tt w' /\ oshows w' (upd s k (Some (Some v))).
Proof.
  intros H Hk. destruct w as [l lg]. destruct (olookup s k) as [x|] eqn:E; [|contradiction].
  pose proof (oshows_obj l lg s k x H E) as Ek. pose proof (nth_lt _ _ _ Ek) as Lk.
  unfold opt_emplace, bindp. rewrite (odestroy_value_run l lg k x Ek).
  erewrite (construct_run k 0 (ret v)); [|reflexivity|apply nth_upd_same; exact Lk]. rewrite upd_upd.
  erewrite set_tag_run by (apply nth_upd_same; exact Lk). rewrite upd_upd.
  eexists. split; [reflexivity|]. rewrite <- app_assoc.
  eapply oshows_step; [exact H|apply olookup_nth; exact E|reflexivity|reflexivity|].
  destruct x; reflexivity.
Qed.

(* the assignment of a value whose evaluation may change other variables (moving from one) *)
Lemma oassign_run k (c : source V bool) l lg x v l' :
  nth_error l k = Some (Some (Obj (slot_of x) (is_some x))) ->
  c_convertible c = true ->
  (forall l0 lg0, (forall j, j <> k -> nth_error l0 j = nth_error l j) -> length l0 = length l ->
     c_value c (World l0 lg0) = Val v (World (l' l0) lg0)) ->
  (forall l0, nth_error (l' l0) k = nth_error l0 k) ->
  (forall l0 o, l' (upd l0 k o) = upd (l' l0) k o) ->
  exists evs, opt_assign_value a k c (World l lg) =
      Val tt (World (upd (l' l) k (Some (Obj (Live 0 v) true))) (lg ++ evs)) /\
    omade evs + ohold1 (Some x) = odead evs + 1.
Proof.
  intros Ek Hc Hv Hl1 Hl2. pose proof (nth_lt _ _ _ Ek) as Lk.
  assert (Lk' : k < length (l' l)).
  { apply nth_error_Some. rewrite Hl1. congruence. }
  unfold opt_assign_value, bindp. rewrite (tag_of_run l lg k _ _ Ek).
  unfold assign_or_init. destruct x as [v0|]; cbn [is_some slot_of] in *.
  - unfold assignment_helper. destruct (c_assignable c).
    + rewrite (assign_run (opt_alts a) k 0 _ _ v (l' l) lg v0 true); [| |rewrite Hl1; exact Ek].
      * erewrite set_tag_run by (apply nth_upd_same; exact Lk'). rewrite upd_upd.
        exists []. rewrite app_nil_r. split; [reflexivity|]. reflexivity.
      * now apply Hv.
    + unfold assignment_emplace_helper, bindp. rewrite (destroy_live (opt_alts a) l lg k 0 v0 true Ek). rewrite Hc.
      rewrite (construct_run k 0 (c_value c) _ v (l' (upd l k (Some (Obj Raw true)))) (lg ++ [Dead 0 v0]) Raw true).
      * erewrite set_tag_run by (apply nth_upd_same; rewrite Hl2, upd_length; exact Lk').
        rewrite Hl2, !upd_upd. exists [Dead 0 v0; Made 0 v]. rewrite <- app_assoc. split; reflexivity.
      * apply Hv; [|now rewrite upd_length]. intros j Hj. now rewrite nth_upd_other.
      * rewrite Hl1. apply nth_upd_same; exact Lk.
  - unfold bindp. rewrite (destroy_raw (opt_alts a) l lg k 1 false Ek). cbn [trait opt_alts nth_error a_trivial].
    rewrite (direct_init_run (opt_alts a) k 0 c _ v (l' l) lg false); [|exact Hc|now apply Hv|rewrite Hl1; exact Ek].
    erewrite set_tag_run by (apply nth_upd_same; exact Lk'). rewrite upd_upd.
    exists [Made 0 v]. split; reflexivity.
Qed.

Lemma run_oassign (s : opts V) k v w :
  oshows w s -> olookup s k <> None ->
  exists w', opt_assign_value a k (Src true true true (ret v)) w = Val tt w' /\ oshows w' (upd s k (Some (Some v))).
Proof.
  intros H Hk. destruct w as [l lg]. destruct (olookup s k) as [x|] eqn:E; [|contradiction].
  pose proof (oshows_obj l lg s k x H E) as Ek.
  destruct (oassign_run k (Src true true true (ret v)) l lg x v (fun l => l) Ek eq_refl) as (evs & R & B).
  { reflexivity. } { reflexivity. } { reflexivity. }
  rewrite R. eexists. split; [reflexivity|].
  eapply oshows_step; [exact H|apply olookup_nth; exact E|reflexivity|reflexivity|exact B].
Qed.

Lemma run_ocopy_assign (s : opts V) k src w :
  a_copyable a = true ->
  oshows w s -> olookup s k <> None -> olookup s src <> None -> k <> src ->
  exists w', opt_copy_assign a k src w = Val tt w' /\ oshows w' (upd s k (olookup s src)).
Proof.
  intros Hc H Hk Hs Hne. pose proof (run_oreset s k w H Hk) as RS.
  destruct w as [l lg]. destruct (olookup s k) as [x|] eqn:E; [|contradiction].
  destruct (olookup s src) as [y|] eqn:Es; [|contradiction].
  pose proof (oshows_obj l lg s k x H E) as Ek. pose proof (oshows_obj l lg s src y H Es) as E2.
  unfold opt_copy_assign. unfold bindp at 1. rewrite (tag_of_run l lg src _ _ E2).
  destruct y as [v|]; cbn [is_some slot_of] in *; [|exact RS].
  destruct (oassign_run k (Src (a_copyable a) (a_copyable a) (a_copy_assignable a) (read_alt src 0))
              l lg x v (fun l => l) Ek Hc) as (evs & R & B).
  { intros l0 lg0 Hl _. cbn [c_value]. eapply read_run. rewrite Hl by auto. exact E2. }
  { reflexivity. } { reflexivity. }
  rewrite R. eexists. split; [reflexivity|].
  eapply oshows_step; [exact H|apply olookup_nth; exact E|reflexivity|reflexivity|exact B].
Qed.

Lemma run_omove_assign (s : opts V) k src w :
  oshows w s -> olookup s k <> None -> olookup s src <> None -> k <> src ->
  exists w', opt_move_assign a mvd k src w = Val tt w' /\
    oshows w' (upd (upd s k (olookup s src)) src (option_map (option_map mvd) (olookup s src))).
Proof.
  intros H Hk Hs Hne. pose proof (run_oreset s k w H Hk) as RS.
  destruct w as [l lg]. destruct (olookup s k) as [x|] eqn:E; [|contradiction].
  destruct (olookup s src) as [y|] eqn:Es; [|contradiction].
  pose proof (oshows_obj l lg s k x H E) as Ek. pose proof (oshows_obj l lg s src y H Es) as E2.
  unfold opt_move_assign. unfold bindp at 1. rewrite (tag_of_run l lg src _ _ E2).
  assert (Hs2 : nth_error (upd s k (Some y)) src = Some (Some y)).
  { rewrite nth_upd_other by auto. now apply olookup_nth. }
  destruct y as [v|]; cbn [is_some slot_of option_map] in *.
  - destruct (oassign_run k (Src true true (a_move_assignable a) (move_alt mvd src 0))
              l lg x v (fun l => upd l src (Some (Obj (Live 0 (mvd v)) true))) Ek eq_refl) as (evs & R & B).
    { intros l0 lg0 Hl _. cbn [c_value]. eapply move_run. rewrite Hl by auto. exact E2. }
    { intros l0. now rewrite nth_upd_other by auto. }
    { intros l0 o. now rewrite upd_comm by auto. }
    rewrite R. eexists. split; [reflexivity|]. rewrite upd_comm by auto. rewrite <- (app_nil_r (lg ++ evs)).
    eapply oshows_step; [|exact Hs2|reflexivity|reflexivity|reflexivity].
    eapply oshows_step; [exact H|apply olookup_nth; exact E|reflexivity|reflexivity|exact B].
  - rewrite (upd_id (upd s k (Some None)) src (Some None) Hs2). exact RS.
Qed.

Lemma run_ostep (s : opts V) p w :
  oshows w s -> olegal a s p ->
  exists w', run_oop a mvd p w = Val tt w' /\ oshows w' (oeffect mvd s p).
Proof.
  intros H L. destruct p as [k|k v|k src|k src|k|k|k v|k src|k src|k v]; cbn [run_oop oeffect olegal] in *.
  - now apply run_odefault.
  - now apply run_onew.
  - destruct L as (? & ? & ?). now apply run_ocopy.
  - destruct L. now apply run_omove.
  - now apply run_odestroy.
  - now apply run_oreset.
  - now apply run_oassign.
  - destruct L as (? & ? & ? & ?). now apply run_ocopy_assign.
  - destruct L as (? & ? & ?). now apply run_omove_assign.
  - now apply run_oemplace.
Qed.
Lemma run_ohistory (s : opts V) ops w :
  oshows w s -> oall_legal a mvd s ops ->
  exists w', run_oops a mvd ops w = Val tt w' /\ oshows w' (oeffects mvd s ops).
Proof.
  revert s w; induction ops as [|p r IH]; intros s w H L.
  - exists w. split; [reflexivity|exact H].
  - destruct L as (L1 & L2). destruct (run_ostep s p w H L1) as (w1 & R1 & S1).
    destruct (IH _ w1 S1 L2) as (w2 & R2 & S2). exists w2. split; [|exact S2].
    cbn [run_oops]. unfold bindp. now rewrite R1.
Qed.
Lemma oshows_start n : oshows (World (repeat None n) []) (repeat (@None (option V)) n).
Proof.
  split; [|split]; cbn [w_objs w_log].
  - induction n; cbn; congruence.
  - apply Forall_forall. intros x Hx. apply repeat_spec in Hx. now subst.
  - cbn. induction n; cbn; auto.
Qed.
Lemma oholding_none (s : opts V) : (forall k, olookup s k = None) -> oholding s = 0.
Proof.
  induction s as [|x r IH]; intros H; [reflexivity|]. rewrite oholding_cons.
  pose proof (H 0) as H0. unfold olookup in H0. cbn in H0. subst x. cbn. apply IH. intros k. apply (H (S k)).
Qed.

(* access *)
Lemma oaccess (s : opts V) k x w :
  oshows w s -> olookup s k = Some x ->
  opt_has_value k w = Val (is_some x) w /\
  opt_value k w = match x with Some v => Val v w | None => Thrown w end /\
  opt_deref k w = match x with Some v => Val v w | None => Undef end /\
  forall d, opt_value_or k d w = Val (match x with Some v => v | None => d end) w.
Proof.
  intros H E. destruct w as [l lg]. pose proof (oshows_obj l lg s k x H E) as Ek.
  unfold opt_has_value, opt_value, opt_deref, opt_value_or, bindp.
  rewrite !(tag_of_run l lg k _ _ Ek). destruct x as [v|]; cbn [is_some slot_of] in *.
  - rewrite (read_run l lg k 0 v true Ek). auto.
  - rewrite (read_raw l lg k 0 false Ek). auto.
Qed.

Lemma ocompare {U} (s : opts V) k x w (op : V -> U -> bool) u :
  oshows w s -> olookup s k = Some x ->
  opt_eq op k u w = Val (match x with Some v => op v u | None => false end) w /\
  opt_ne op k u w = Val (match x with Some v => op v u | None => true end) w /\
  opt_rel op k u w = Val (match x with Some v => op v u | None => false end) w.
Proof.
  intros H E. destruct (oaccess s k x w H E) as (A & _ & D & _).
  unfold opt_has_value in A. unfold opt_eq, opt_ne, opt_rel, bindp. rewrite A. destruct x; cbn [is_some]; [rewrite D|]; auto.
Qed.
Lemma ocompare_opt (s : opts V) k k2 x y w (op : V -> V -> bool) :
  oshows w s -> olookup s k = Some x -> olookup s k2 = Some y ->
  opt_eq_opt op k k2 w =
    Val (match x, y with Some v, Some v2 => op v v2 | None, None => true | _, _ => false end) w.
Proof.
  intros H E E2. destruct (oaccess s k x w H E) as (A & _ & D & _).
  destruct (oaccess s k2 y w H E2) as (A2 & _ & D2 & _).
  unfold opt_has_value in *. unfold opt_eq_opt, bindp. rewrite A, A2. destruct x, y; cbn [is_some andb]; [rewrite D, D2| | |]; auto.
Qed.
Lemma ohash {Hh} (s : opts V) k x w (h : V -> Hh) :
  oshows w s -> olookup s k = Some x ->
  opt_hash h k w = match x with Some v => Val (h v) w | None => Undef end.
Proof.
  intros H E. destruct (oaccess s k x w H E) as (_ & _ & D & _).
  unfold opt_hash, bindp. rewrite D. now destruct x.
Qed.

(* exceptions *)
Lemma obroken_run l lg k :
  nth_error l k = Some (Some (Obj Raw true)) -> a_trivial a = false -> obroken a (World (V := V) l lg) k.
Proof.
  intros Ek Ht.
  assert (D : opt_destroy_value a k (World l lg) = Undef).
  { unfold opt_destroy_value, bindp. rewrite (tag_of_run l lg k _ _ Ek).
    rewrite (destroy_raw (opt_alts a) l lg k 0 true Ek). cbn. now rewrite Ht. }
  split; [|split; [|split; [|split]]].
  - apply (tag_of_run l lg k _ _ Ek).
  - unfold opt_value, bindp. rewrite (tag_of_run l lg k _ _ Ek). now apply (read_raw l lg k 0 true).
  - unfold opt_destroy, bindp. now rewrite D.
  - unfold opt_reset, bindp. now rewrite D.
  - intros args. unfold opt_emplace, bindp. now rewrite D.
Qed.

Lemma onew_throws (s : opts V) k args w :
  oshows w s -> nth_error s k = Some None -> othrows args -> opt_in_place k args w = Thrown w.
Proof.
  intros H Hk Ht. destruct w as [l lg]. pose proof (oshows_none l lg s k H Hk) as Ek.
  unfold opt_in_place. rewrite constructor_run by exact Ek.
  unfold bindp, construct, bindp. rewrite Ht. cbn [w_objs w_log]. rewrite upd_upd.
  now rewrite upd_id by exact Ek.
Qed.
Lemma oemplace_throws (s : opts V) k x args w :
  oshows w s -> olookup s k = Some x -> othrows args ->
  (x = None -> opt_emplace a k args w = Thrown w) /\
  (x <> None -> a_trivial a = false ->
   exists w', opt_emplace a k args w = Thrown w' /\ obroken a w' k).
Proof.
  intros H E Ht. destruct w as [l lg]. pose proof (oshows_obj l lg s k x H E) as Ek.
  pose proof (nth_lt _ _ _ Ek) as Lk.
  split; intros Hx.
  - subst x. unfold opt_emplace, bindp. rewrite (odestroy_value_run l lg k None Ek).
    cbn [is_some obury]. rewrite upd_id by exact Ek. rewrite app_nil_r. unfold construct, bindp. now rewrite Ht.
  - intros Htr. destruct x as [v|]; [|contradiction].
    unfold opt_emplace, bindp. rewrite (odestroy_value_run l lg k (Some v) Ek).
    unfold construct, bindp. rewrite Ht. eexists. split; [reflexivity|].
    apply obroken_run; [apply nth_upd_same; exact Lk|exact Htr].
Qed.
Lemma oassign_throws (s : opts V) k x c w :
  oshows w s -> olookup s k = Some x -> c_convertible c = true -> othrows (c_value c) ->
  (x = None \/ c_assignable c = true -> opt_assign_value a k c w = Thrown w) /\
  (x <> None -> c_assignable c = false -> a_trivial a = false ->
   exists w', opt_assign_value a k c w = Thrown w' /\ obroken a w' k).
Proof.
  intros H E Hc Ht. destruct w as [l lg]. pose proof (oshows_obj l lg s k x H E) as Ek.
  pose proof (nth_lt _ _ _ Ek) as Lk.
  unfold opt_assign_value, bindp. rewrite (tag_of_run l lg k _ _ Ek). split; intros Hx.
  - destruct x as [v|]; cbn [is_some slot_of] in *.
    + destruct Hx as [Hx|Hx]; [discriminate|]. cbn [assign_or_init]. unfold assignment_helper. rewrite Hx.
      unfold assign_at, bindp. now rewrite Ht.
    + cbn [assign_or_init]. unfold bindp.
      rewrite (destroy_raw (opt_alts a) l lg k 1 false Ek). cbn [trait opt_alts nth_error a_trivial].
      unfold direct_init_helper, assignment_emplace_helper, assign_at, construct, bindp. rewrite Hc.
      destruct (trait (opt_alts a) a_trivial 0); now rewrite Ht.
  - intros Ha Htr. destruct x as [v|]; [|contradiction]. cbn [is_some slot_of assign_or_init] in *.
    unfold assignment_helper. rewrite Ha. unfold bindp.
    rewrite (destroy_live (opt_alts a) l lg k 0 v true Ek).
    unfold assignment_emplace_helper, construct, bindp. rewrite Hc, Ht.
    eexists. split; [reflexivity|]. apply obroken_run; [apply nth_upd_same; exact Lk|exact Htr].
Qed.
Lemma oself (s : opts V) k x w :
  oshows w s -> olookup s k = Some x ->
  (x = None \/ a_copy_assignable a = true -> opt_copy_assign a k k w = Val tt w) /\
  (x <> None -> a_copy_assignable a = false -> a_copyable a = true -> opt_copy_assign a k k w = Undef).
Proof.
  intros H E. destruct w as [l lg]. pose proof (oshows_obj l lg s k x H E) as Ek.
  pose proof (nth_lt _ _ _ Ek) as Lk.
  unfold opt_copy_assign, bindp. rewrite (tag_of_run l lg k _ _ Ek). split; intros Hx.
  - destruct x as [v|]; cbn [is_some slot_of] in *.
    + destruct Hx as [Hx|Hx]; [discriminate|].
      unfold opt_assign_value, bindp. rewrite (tag_of_run l lg k _ _ Ek). cbn [assign_or_init].
      unfold assignment_helper. cbn [c_assignable c_value]. rewrite Hx.
      rewrite (assign_run (opt_alts a) k 0 _ _ v l lg v true (read_run l lg k 0 v true Ek) Ek).
      erewrite set_tag_run by (apply nth_upd_same; exact Lk). rewrite upd_upd. now rewrite upd_id by exact Ek.
    + unfold opt_reset, bindp. rewrite (odestroy_value_run l lg k None Ek). cbn [is_some obury].
      erewrite set_tag_run by (apply nth_upd_same; exact Lk). rewrite upd_upd, app_nil_r.
      now rewrite upd_id by exact Ek.
  - intros Ha Hc. destruct x as [v|]; [|contradiction]. cbn [is_some slot_of] in *.
    unfold opt_assign_value, bindp. rewrite (tag_of_run l lg k _ _ Ek). cbn [assign_or_init].
    unfold assignment_helper. cbn [c_assignable]. rewrite Ha. unfold bindp.
    rewrite (destroy_live (opt_alts a) l lg k 0 v true Ek).
    unfold assignment_emplace_helper, construct, bindp. cbn [c_convertible c_value]. rewrite Hc.
    erewrite read_raw; [reflexivity|]. apply nth_upd_same; exact Lk.
Qed.
End L.
