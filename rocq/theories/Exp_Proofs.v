From Verif Require Import Base Vst_Model Vst_Proofs Exp_Model Exp_Spec.
Local Open Scope prog_scope.

Section L.
Context {V : Type}.
Context (t e : alt).
Notation W := (world V bool).
Notation alts := (exp_alts t e).

Definition ehold1 (x : option (bool * V)) (b : bool) : nat :=
  match x with Some (c, _) => if Bool.eqb c b then 1 else 0 | None => 0 end.
Lemma eholding_cons x (s : exps V) b : eholding (x :: s) b = ehold1 x b + eholding s b.
Proof. now destruct x as [[c v]|]. Qed.
Lemma eholding_upd (s : exps V) k x y b :
  nth_error s k = Some y -> eholding (upd s k x) b + ehold1 y b = eholding s b + ehold1 x b.
Proof.
  revert k; induction s as [|c r IH]; intros [|k] H; simpl in H; try discriminate.
  - injection H as ->. cbn [upd]. rewrite !eholding_cons. lia.
  - cbn [upd]. rewrite !eholding_cons. specialize (IH k H). lia.
Qed.
Lemma emade_app (x y : list (ev V)) b : emade (x ++ y) b = emade x b + emade y b.
Proof. induction x as [|[j v|j v] r IH]; simpl; auto. destruct (Bool.eqb (side j) b); simpl; lia. Qed.
Lemma edead_app (x y : list (ev V)) b : edead (x ++ y) b = edead x b + edead y b.
Proof. induction x as [|[j v|j v] r IH]; simpl; auto. destruct (Bool.eqb (side j) b); simpl; lia. Qed.

Lemma elookup_nth (s : exps V) k x : elookup s k = Some x -> nth_error s k = Some (Some x).
Proof. unfold elookup. destruct (nth_error s k); congruence. Qed.
Lemma nth_elookup (s : exps V) k x : nth_error s k = Some x -> elookup s k = x.
Proof. unfold elookup. intros H; now rewrite H. Qed.

Lemma eshows_step l lg (s : exps V) k y o x evs :
  eshows (World l lg) s -> nth_error s k = Some y -> etruthful o -> eseen o = x ->
  (forall b, emade evs b + ehold1 y b = edead evs b + ehold1 x b) ->
  eshows (World (upd l k o) (lg ++ evs)) (upd s k x).
Proof.
  intros (H1 & H2 & H4) Hy Ht Hx Hc. cbn [w_objs w_log] in *.
  split; [|split]; cbn [w_objs w_log].
  - rewrite map_upd, H1, Hx. reflexivity.
  - now apply Forall_upd.
  - intros b. rewrite emade_app, edead_app. pose proof (eholding_upd s k x y b Hy).
    specialize (H4 b). specialize (Hc b). lia.
Qed.
Lemma eshows_at l lg (s : exps V) k x :
  eshows (World l lg) s -> nth_error s k = Some x ->
  exists o, nth_error l k = Some o /\ eseen o = x /\ etruthful o.
Proof.
  intros (H1 & H2 & _) H. cbn [w_objs] in *. subst s. rewrite nth_error_map in H.
  destruct (nth_error l k) eqn:E; [|discriminate]. cbn in H. injection H as H.
  exists o. repeat split; auto. apply (proj1 (Forall_forall _ _) H2). eapply nth_error_In; eauto.
Qed.
Lemma eshows_none l lg (s : exps V) k :
  eshows (World l lg) s -> nth_error s k = Some None -> nth_error l k = Some None.
Proof.
  intros H E. destruct (eshows_at l lg s k _ H E) as ([o|] & E1 & E2 & E3); auto.
  cbn in E2, E3. now destruct (o_slot o).
Qed.
Definition ix (b : bool) : nat := if b then 0 else 1.
Lemma eshows_obj l lg (s : exps V) k b v :
  eshows (World l lg) s -> elookup s k = Some (b, v) ->
  nth_error l k = Some (Some (Obj (Live (ix b) v) b)).
Proof.
  intros H E. apply elookup_nth in E.
  destruct (eshows_at l lg s k _ H E) as ([[sl tg]|] & E1 & E2 & E3); [|discriminate].
  cbn in *. destruct sl; try contradiction. injection E2 as -> ->. subst i. exact E1.
Qed.
Lemma edestroy_held_run (l : list (option (obj V bool))) lg k b v :
  nth_error l k = Some (Some (Obj (Live (ix b) v) b)) ->
  exp_destroy_held t e k (World l lg) = Val tt (World (upd l k (Some (Obj Raw b))) (lg ++ [Dead (ix b) v])).
Proof.
  intros Ek. unfold exp_destroy_held, bindp. rewrite (tag_of_run l lg k _ _ Ek).
  destruct b; now apply destroy_live.
Qed.

Lemma run_enew (s : exps V) k v w (b : bool) :
  eshows w s -> nth_error s k = Some None ->
  exists w', (if b then exp_value k (ret v) else exp_error k (ret v)) w = Val tt w' /\
    eshows w' (upd s k (Some (b, v))).
Proof.
  intros H Hk. destruct w as [l lg]. pose proof (eshows_none l lg s k H Hk) as Ek.
  pose proof (nth_lt _ _ _ Ek) as Lk.
  destruct b; [unfold exp_value|unfold exp_error]; rewrite constructor_run by exact Ek; unfold bindp;
    (erewrite (construct_run k _ (ret v)); [|reflexivity|apply nth_upd_same; exact Lk]);
    rewrite upd_upd; (erewrite set_tag_run by (apply nth_upd_same; exact Lk)); rewrite upd_upd;
    (eexists; split; [reflexivity|]); (eapply eshows_step; try eassumption; try reflexivity);
    intros [|]; reflexivity.
Qed.

Lemma run_ecopy (s : exps V) k src w :
  eshows w s -> nth_error s k = Some None -> ecan_copy t e s src ->
  exists w', exp_copy t e k src w = Val tt w' /\ eshows w' (upd s k (elookup s src)).
Proof.
  intros H Hk Hc. destruct w as [l lg]. pose proof (eshows_none l lg s k H Hk) as Ek.
  pose proof (nth_lt _ _ _ Ek) as Lk. unfold ecan_copy in Hc.
  destruct (elookup s src) as [[b v]|] eqn:Es; [|contradiction].
  assert (Hne : k <> src). { intros ->. apply nth_elookup in Hk. congruence. }
  pose proof (eshows_obj l lg s src b v H Es) as E2.
  unfold exp_copy. rewrite constructor_run by exact Ek. unfold bindp.
  set (l1 := upd l k _).
  assert (E1 : nth_error l1 k = Some (Some (Obj Raw false))) by (apply nth_upd_same; exact Lk).
  assert (E3 : nth_error l1 src = Some (Some (Obj (Live (ix b) v) b))) by (unfold l1; rewrite nth_upd_other by auto; exact E2).
  rewrite (tag_of_run l1 lg src _ _ E3).
  change (if b then 0 else 1) with (ix b).
  rewrite (copy_storage_run alts k src (ix b) v l1 lg Raw false b); auto.
  - erewrite tag_of_run by (rewrite nth_upd_other by auto; exact E3).
    erewrite set_tag_run by (apply nth_upd_same; eapply nth_lt; exact E1).
    eexists. split; [reflexivity|]. unfold l1. rewrite !upd_upd.
    eapply eshows_step; try eassumption; try reflexivity. intros c. destruct b, c; reflexivity.
  - destruct b; cbn; lia.
  - destruct b; cbn; exact Hc.
Qed.
Lemma run_emove (s : exps V) k src w :
  eshows w s -> nth_error s k = Some None -> ecan_copy t e s src ->
  exists w', exp_move t e k src w = Val tt w' /\ eshows w' (upd s k (elookup s src)).
Proof. exact (run_ecopy s k src w). Qed.

Lemma run_edestroy (s : exps V) k w :
  eshows w s -> elookup s k <> None ->
  exists w', exp_destroy t e k w = Val tt w' /\ eshows w' (upd s k None).
Proof.
  intros H Hk. destruct w as [l lg]. destruct (elookup s k) as [[b v]|] eqn:E; [|contradiction].
  pose proof (eshows_obj l lg s k b v H E) as Ek.
  unfold exp_destroy, bindp. rewrite (edestroy_held_run l lg k b v Ek).
  eexists. split; [reflexivity|]. cbn [w_objs w_log]. rewrite upd_upd.
  eapply eshows_step; [exact H|apply elookup_nth; exact E|exact I|reflexivity|]. intros c. destruct b, c; reflexivity.
Qed.

Lemma run_eemplace (s : exps V) k v w :
  eshows w s -> elookup s k <> None ->
  exists w', exp_emplace t e k (ret v) w = Val tt w' /\ eshows w' (upd s k (Some (true, v))).
Proof.
  intros H Hk. destruct w as [l lg]. destruct (elookup s k) as [[b v0]|] eqn:E; [|contradiction].
  pose proof (eshows_obj l lg s k b v0 H E) as Ek. pose proof (nth_lt _ _ _ Ek) as Lk.
  unfold exp_emplace, bindp. rewrite (edestroy_held_run l lg k b v0 Ek).
  erewrite (construct_run k 0 (ret v)); [|reflexivity|apply nth_upd_same; exact Lk]. rewrite upd_upd.
  erewrite set_tag_run by (apply nth_upd_same; exact Lk). rewrite upd_upd.
  eexists. split; [reflexivity|]. rewrite <- app_assoc.
  eapply eshows_step; [exact H|apply elookup_nth; exact E|reflexivity|reflexivity|].
  intros c. destruct b, c; reflexivity.
Qed.

(* value (i = 0, other = 1) or error (i = 1, other = 0) assignment *)
Lemma eassign_or_init k (c : source V bool) l lg b v0 d v :
  nth_error l k = Some (Some (Obj (Live (ix b) v0) b)) -> c_convertible c = true ->
  (forall w, c_value c w = Val v w) ->
  exists evs, assign_or_init alts k (ix d) (ix (negb d)) (Bool.eqb b d) c (World l lg) =
      Val tt (World (upd l k (Some (Obj (Live (ix d) v) b))) (lg ++ evs)) /\
    forall q, emade evs q + ehold1 (Some (b, v0)) q = edead evs q + ehold1 (Some (d, v)) q.
Proof.
  intros Ek Hc Hv. pose proof (nth_lt _ _ _ Ek) as Lk. unfold assign_or_init.
  destruct (Bool.eqb b d) eqn:Eb.
  - apply Bool.eqb_prop in Eb. subst d. unfold assignment_helper. destruct (c_assignable c).
    + rewrite (assign_run alts k (ix b) _ _ v l lg v0 b (Hv _) Ek). exists []. rewrite app_nil_r.
      split; [reflexivity|]. intros q. reflexivity.
    + unfold assignment_emplace_helper, bindp. rewrite (destroy_live alts l lg k (ix b) v0 b Ek). rewrite Hc.
      erewrite (construct_run k (ix b)); [|apply Hv|apply nth_upd_same; exact Lk].
      rewrite upd_upd. exists [Dead (ix b) v0; Made (ix b) v]. rewrite <- app_assoc. split; [reflexivity|].
      intros q. destruct b, q; reflexivity.
  - assert (b = negb d) by (destruct b, d; try discriminate; reflexivity). subst b.
    unfold bindp. rewrite (destroy_live alts l lg k _ v0 _ Ek).
    erewrite (direct_init_run alts k (ix d) c _ v); [|exact Hc|apply Hv|apply nth_upd_same; exact Lk].
    rewrite upd_upd. exists [Dead (ix (negb d)) v0; Made (ix d) v]. rewrite <- app_assoc. split; [reflexivity|].
    intros q. destruct d, q; reflexivity.
Qed.

Lemma run_eassign (s : exps V) k c v w (d : bool) :
  eshows w s -> elookup s k <> None -> c_convertible c = true -> (forall w, c_value c w = Val v w) ->
  exists w', (if d then exp_assign t e k c else exp_assign_error t e k c) w = Val tt w' /\
    eshows w' (upd s k (Some (d, v))).
Proof.
  intros H Hk Hc Hv. destruct w as [l lg]. destruct (elookup s k) as [[b v0]|] eqn:E; [|contradiction].
  pose proof (eshows_obj l lg s k b v0 H E) as Ek. pose proof (nth_lt _ _ _ Ek) as Lk.
  destruct (eassign_or_init k c l lg b v0 d v Ek Hc Hv) as (evs & R & B).
  assert (Hgoal : eshows (World (upd l k (Some (Obj (Live (ix d) v) d))) (lg ++ evs)) (upd s k (Some (d, v)))).
  { eapply eshows_step; [exact H|apply elookup_nth; exact E|destruct d; reflexivity|reflexivity|exact B]. }
  eexists. split; [|exact Hgoal].
  destruct d; [unfold exp_assign|unfold exp_assign_error]; unfold bindp; rewrite (tag_of_run l lg k _ _ Ek).
  - assert (Q : Bool.eqb b true = b) by now destruct b. rewrite Q in R. cbn [ix negb] in R. rewrite R.
    erewrite tag_of_run by (apply nth_upd_same; exact Lk).
    destruct b; [reflexivity|]. erewrite set_tag_run by (apply nth_upd_same; exact Lk). now rewrite upd_upd.
  - assert (Q : Bool.eqb b false = negb b) by now destruct b. rewrite Q in R. cbn [ix negb] in R. rewrite R.
    erewrite tag_of_run by (apply nth_upd_same; exact Lk).
    destruct b; [|reflexivity]. erewrite set_tag_run by (apply nth_upd_same; exact Lk). now rewrite upd_upd.
Qed.

Lemma run_estep (s : exps V) p w :
  eshows w s -> elegal t e s p ->
  exists w', run_eop t e p w = Val tt w' /\ eshows w' (eeffect s p).
Proof.
  intros H L. destruct p as [k v|k v|k src|k src|k|k v|k v|k v]; cbn [run_eop eeffect elegal] in *.
  - now apply (run_enew s k v w true).
  - now apply (run_enew s k v w false).
  - destruct L. now apply run_ecopy.
  - destruct L. now apply run_emove.
  - now apply run_edestroy.
  - now apply (run_eassign s k (Src true true (a_copy_assignable t) (ret v)) v w true).
  - now apply (run_eassign s k (Src true true (a_copy_assignable e) (ret v)) v w false).
  - now apply run_eemplace.
Qed.
Lemma run_ehistory (s : exps V) ops w :
  eshows w s -> eall_legal t e s ops ->
  exists w', run_eops t e ops w = Val tt w' /\ eshows w' (eeffects s ops).
Proof.
  revert s w; induction ops as [|p r IH]; intros s w H L.
  - exists w. split; [reflexivity|exact H].
  - destruct L as (L1 & L2). destruct (run_estep s p w H L1) as (w1 & R1 & S1).
    destruct (IH _ w1 S1 L2) as (w2 & R2 & S2). exists w2. split; [|exact S2].
    cbn [run_eops]. unfold bindp. now rewrite R1.
Qed.
Lemma eshows_start n : eshows (World (repeat None n) []) (repeat (@None (bool * V)) n).
Proof.
  split; [|split]; cbn [w_objs w_log].
  - induction n; cbn; congruence.
  - apply Forall_forall. intros x Hx. apply repeat_spec in Hx. now subst.
  - intros b. cbn. induction n; cbn; auto.
Qed.
Lemma eholding_none (s : exps V) : (forall k, elookup s k = None) -> forall b, eholding s b = 0.
Proof.
  induction s as [|x r IH]; intros H b; [reflexivity|]. rewrite eholding_cons.
  pose proof (H 0) as H0. unfold elookup in H0. cbn in H0. subst x. cbn. apply IH. intros k. apply (H (S k)).
Qed.

Lemma read_other l lg k i j v (tg : bool) :
  nth_error l k = Some (Some (Obj (Live i v) tg)) -> j <> i -> read_alt (V := V) k j (World l lg) = Undef.
Proof.
  intros Ek Hne. unfold read_alt, bindp. rewrite (get_obj_run l lg k _ Ek). cbn [o_slot].
  destruct (Nat.eqb_spec j i); [congruence|reflexivity].
Qed.
Lemma eaccess (s : exps V) k b v w :
  eshows w s -> elookup s k = Some (b, v) ->
  exp_has_value k w = Val b w /\
  exp_get k w = (if b then Val v w else Thrown w) /\
  exp_deref k w = (if b then Val v w else Undef) /\
  exp_get_error k w = (if b then Undef else Val v w) /\
  forall d, exp_value_or k d w = Val (if b then v else d) w.
Proof.
  intros H E. destruct w as [l lg]. pose proof (eshows_obj l lg s k b v H E) as Ek.
  unfold exp_has_value, exp_get, exp_deref, exp_get_error, exp_value_or, bindp.
  rewrite !(tag_of_run l lg k _ _ Ek). destruct b; cbn [ix] in Ek.
  - rewrite (read_run l lg k 0 v true Ek), (read_other l lg k 0 1 v true Ek) by lia. auto.
  - rewrite (read_run l lg k 1 v false Ek), (read_other l lg k 1 0 v false Ek) by lia. auto.
Qed.

Definition ealt (b : bool) : alt := if b then t else e.
Lemma ebroken_run l lg k b :
  nth_error l k = Some (Some (Obj Raw b)) -> a_trivial (ealt b) = false -> ebroken t e (World (V := V) l lg) k b.
Proof.
  intros Ek Ht.
  assert (D : exp_destroy_held t e k (World l lg) = Undef).
  { unfold exp_destroy_held, bindp. rewrite (tag_of_run l lg k _ _ Ek). cbn [ealt] in Ht.
    destruct b; cbn [ealt] in Ht; rewrite (destroy_raw alts l lg k _ _ Ek); cbn; now rewrite Ht. }
  split; [apply (tag_of_run l lg k _ _ Ek)|]. split; [|split].
  - destruct b; unfold exp_get, exp_get_error, bindp; rewrite ?(tag_of_run l lg k _ _ Ek); now apply (read_raw l lg k _ _ Ek).
  - unfold exp_destroy, bindp. now rewrite D.
  - intros args. unfold exp_emplace, bindp. now rewrite D.
Qed.
Lemma eemplace_throws (s : exps V) k b v args w :
  eshows w s -> elookup s k = Some (b, v) -> ethrows args -> a_trivial (ealt b) = false ->
  exists w', exp_emplace t e k args w = Thrown w' /\ ebroken t e w' k b.
Proof.
  intros H E Ht Hr. destruct w as [l lg]. pose proof (eshows_obj l lg s k b v H E) as Ek.
  pose proof (nth_lt _ _ _ Ek) as Lk.
  unfold exp_emplace, bindp. rewrite (edestroy_held_run l lg k b v Ek). unfold construct, bindp. rewrite Ht.
  eexists. split; [reflexivity|]. apply ebroken_run; [apply nth_upd_same; exact Lk|exact Hr].
Qed.
Lemma enew_throws (s : exps V) k args w (b : bool) :
  eshows w s -> nth_error s k = Some None -> ethrows args ->
  (if b then exp_value k args else exp_error k args) w = Thrown w.
Proof.
  intros H Hk Ht. destruct w as [l lg]. pose proof (eshows_none l lg s k H Hk) as Ek.
  destruct b; [unfold exp_value|unfold exp_error]; rewrite constructor_run by exact Ek;
    unfold bindp, construct, bindp; rewrite Ht; cbn [w_objs w_log]; rewrite upd_upd;
    now rewrite upd_id by exact Ek.
Qed.
Lemma eassign_throws (s : exps V) k c w (b d : bool) v :
  eshows w s -> elookup s k = Some (b, v) -> c_convertible c = true -> ethrows (c_value c) ->
  (b = d -> c_assignable c = true ->
   (if d then exp_assign t e k c else exp_assign_error t e k c) w = Thrown w) /\
  (b <> d \/ c_assignable c = false -> a_trivial (ealt b) = false ->
   exists w', (if d then exp_assign t e k c else exp_assign_error t e k c) w = Thrown w' /\ ebroken t e w' k b).
Proof.
  intros H E Hc Ht. destruct w as [l lg]. pose proof (eshows_obj l lg s k b v H E) as Ek.
  pose proof (nth_lt _ _ _ Ek) as Lk.
  assert (A : b = d -> c_assignable c = true ->
     assign_or_init alts k (ix d) (ix (negb d)) (Bool.eqb b d) c (World l lg) = Thrown (World l lg)).
  { intros <- Ha. rewrite Bool.eqb_reflx. cbn [assign_or_init]. unfold assignment_helper. rewrite Ha.
    unfold assign_at, bindp. now rewrite Ht. }
  assert (B : b <> d \/ c_assignable c = false ->
     assign_or_init alts k (ix d) (ix (negb d)) (Bool.eqb b d) c (World l lg) =
     Thrown (World (upd l k (Some (Obj Raw b))) (lg ++ [Dead (ix b) v]))).
  { intros Q. destruct (Bool.eqb b d) eqn:Eb; cbn [assign_or_init].
    - apply Bool.eqb_prop in Eb. subst d. destruct Q as [Q|Q]; [congruence|].
      unfold assignment_helper. rewrite Q. unfold bindp. rewrite (destroy_live alts l lg k _ v _ Ek).
      unfold assignment_emplace_helper, construct, bindp. now rewrite Hc, Ht.
    - assert (b = negb d) by (destruct b, d; try discriminate; reflexivity). subst b.
      unfold bindp. rewrite (destroy_live alts l lg k _ v _ Ek).
      unfold direct_init_helper, assignment_emplace_helper, assign_at, construct, bindp. rewrite Hc.
      destruct (trait alts a_trivial (ix d)); now rewrite Ht. }
  assert (U : (if d then exp_assign t e k c else exp_assign_error t e k c) (World l lg) =
     (assign_or_init alts k (ix d) (ix (negb d)) (Bool.eqb b d) c ;;;
      h <- tag_of k ;; if Bool.eqb h d then ret tt else set_tag k d) (World l lg)).
  { destruct d; [unfold exp_assign|unfold exp_assign_error]; unfold bindp; rewrite (tag_of_run l lg k _ _ Ek);
      destruct b; cbn [ix negb Bool.eqb]; (destruct (assign_or_init _ _ _ _ _ _ _) as [? ?|?| |]; auto;
      unfold bindp; destruct (tag_of k w) as [[|] ?|?| |]; reflexivity). }
  split.
  - intros Q Ha. rewrite U. unfold bindp. now rewrite (A Q Ha).
  - intros Q Hr. rewrite U. unfold bindp. rewrite (B Q). eexists. split; [reflexivity|].
    apply ebroken_run; [apply nth_upd_same; exact Lk|exact Hr].
Qed.

Lemma emove_only (s : exps V) k src b v w :
  eshows w s -> nth_error s k = Some None -> elookup s src = Some (b, v) ->
  a_copyable (ealt b) = false -> a_trivial (ealt b) = false ->
  exists w', exp_move t e k src w = Val tt w' /\ exp_copy t e k src w = Val tt w' /\ ebroken t e w' k b.
Proof.
  intros H Hk Es Hc Ht. destruct w as [l lg]. pose proof (eshows_none l lg s k H Hk) as Ek.
  pose proof (nth_lt _ _ _ Ek) as Lk.
  assert (Hne : k <> src). { intros ->. apply nth_elookup in Hk. congruence. }
  pose proof (eshows_obj l lg s src b v H Es) as E2.
  change (exp_move (V := V) t e k src) with (exp_copy (V := V) t e k src).
  unfold exp_copy. rewrite constructor_run by exact Ek. unfold bindp.
  set (l1 := upd l k _).
  assert (E1 : nth_error l1 k = Some (Some (Obj Raw false))) by (apply nth_upd_same; exact Lk).
  assert (E3 : nth_error l1 src = Some (Some (Obj (Live (ix b) v) b))) by (unfold l1; rewrite nth_upd_other by auto; exact E2).
  rewrite (tag_of_run l1 lg src _ _ E3).
  rewrite (copy_storage_skip alts k src (if b then 0 else 1)) by (destruct b; cbn; exact Hc).
  rewrite (tag_of_run l1 lg src _ _ E3). erewrite set_tag_run by exact E1.
  eexists. split; [reflexivity|]. split; [reflexivity|].
  apply ebroken_run; [apply nth_upd_same; eapply nth_lt; exact E1|exact Ht].
Qed.
End L.
