(* Timers: safety of careful programs, what a started timer does, and what stopping, destroying and
   copying do not promise. *)
From Coq Require Import List Arith Bool Lia.
From Verif Require Import Base Tmr_Spec Tmr_Model Tmr_Proofs.
Import ListNotations.

Ltac show_careful := cbn; repeat first [exact I | reflexivity | lia | (intros; discriminate) | (eexists; reflexivity) | (eexists; split; [reflexivity|]) | split].

(* ---- C302: a careful program is never undefined, and a timer on the heap is freed when its object
   is gone and the timer task has worked off its queue. *)
Theorem C302_safe : forall l, careful (fun _ => Out) 0 l -> exists w, run begin l = Ok w /\
  (queue w = [] -> forall t, home (tms w t) = None -> (forall o, objs w o <> Some (Some t)) -> mem (tms w t) = false).
Proof.
  intros l C. rewrite <- (app_nil_r l) in C. destruct (careful_run l [] _ _ _ begin_inv C) as [w [R [I _]]].
  exists w. split; auto. intros Q t H G. destruct (s_gone _ _ _ I t G) as [[_ [_ S0]]|[_ D]]; auto.
  rewrite Q in D. apply doomed_ne in D. exfalso. apply D. reflexivity.
Qed.
Print Assumptions C302_safe.
Example C302_case : careful (fun _ => Out) 0
  [New 0 5 true false true; New 1 3 false true true; Post 0 UStart true; Daemon; Post 1 UStart true; Tick; EndPost 1 true; Daemon; Daemon;
   EndMem 1; EndPost 0 true; EndMem 0; Fire 0; Daemon].
Proof. show_careful. Qed.

(* ---- C303: once the timer task has worked off its queue after a timer's destructor ran, the
   callback never runs again. *)
Theorem C303_destroyed : forall a o b c w0 t w1 w2, careful (fun _ => Out) 0 (a ++ EndPost o true :: b ++ c) ->
  run begin a = Ok w0 -> objs w0 o = Some (Some t) -> run w0 (EndPost o true :: b) = Ok w1 -> queue w1 = [] ->
  run w1 c = Ok w2 -> times t w2 = times t w1.
Proof.
  intros a o b c w0 t w1 w2 C R0 Ho R1 Q R2.
  destruct (careful_run a _ _ _ _ begin_inv C) as [w0' [R0' [I0 C0]]]. rewrite R0 in R0'. inversion R0'; subst w0'.
  destruct (careful_step _ _ _ _ _ I0 C0) as [wd [E [Id Cd]]].
  assert (O : orphan (next_ph (phases (fun _ => Out) a) (EndPost o true)) t wd).
  { cbn in C0. destruct C0 as [_ [st [L _]]]. cbn [next_ph]. rewrite L.
    cbn in E. unfold with_handle in E. rewrite Ho in E. inversion E; subst wd. split; [exact (s_new _ _ _ I0 _ _ Ho)|].
    cbn. intros x Hx. assert (x = o) by (eapply (s_one _ _ _ I0); eauto). subst. exists st. apply put_same. }
  cbn [run] in R1. rewrite E in R1.
  destruct (orphan_run b c _ _ _ t Id Cd O) as [w1' [R1' [O1 [I1 [C1 _]]]]]. rewrite R1 in R1'. inversion R1'; subst w1'.
  destruct (orphan_asleep _ _ _ t I1 O1 Q) as [A [B _]].
  rewrite <- (app_nil_r c) in C1. destruct (orphan_run c [] _ _ _ t I1 C1 O1) as [w2' [R2' [_ [_ [_ S2]]]]].
  rewrite R2 in R2'. inversion R2'; subst w2'. apply (S2 (times t w1)). repeat split; auto.
Qed.
Print Assumptions C303_destroyed.
Example C303_case :
  careful (fun _ => Out) 0 ([New 0 2 true false true; Post 0 UStart true; Daemon; Tick; Tick] ++ EndPost 0 true :: [Fire 0; EndMem 0; Daemon] ++ [Tick; Tick; Fire 0]) /\
  exists w1, run begin ([New 0 2 true false true; Post 0 UStart true; Daemon; Tick; Tick] ++ EndPost 0 true :: [Fire 0; EndMem 0; Daemon]) = Ok w1 /\
    queue w1 = [] /\ times 0 w1 = [2].
Proof.
  split; [show_careful|].
  eexists. split; [cbv; reflexivity|]. split; reflexivity.
Qed.

(* ---- C304: once the timer task has worked off its queue after stop(), the callback does not run
   until the program says something to the timer again. *)
Theorem C304_stopped : forall a o b c w0 t w1 w2, careful (fun _ => Out) 0 (a ++ Post o UStop true :: b ++ c) ->
  run begin a = Ok w0 -> objs w0 o = Some (Some t) -> forallb (quiet o) (b ++ c) = true ->
  run w0 (Post o UStop true :: b) = Ok w1 -> queue w1 = [] -> run w1 c = Ok w2 ->
  active w1 t = false /\ times t w2 = times t w1.
Proof.
  intros a o b c w0 t w1 w2 C R0 Ho Qt R1 Q R2. rewrite forallb_app in Qt. apply andb_true_iff in Qt. destruct Qt as [Qb Qc].
  destruct (careful_run a _ _ _ _ begin_inv C) as [w0' [R0' [I0 C0]]]. rewrite R0 in R0'. inversion R0'; subst w0'.
  destruct (careful_step _ _ _ _ _ I0 C0) as [wd [E [Id Cd]]].
  assert (L : exists st, phases (fun _ => Out) a o = Live st) by (cbn in C0; tauto). destruct L as [st L].
  cbn [run] in R1. rewrite E in R1. cbn in E. unfold with_handle in E. rewrite Ho in E. inversion E; subst wd. clear E.
  assert (S0 : stopping t (send w0 t CStop)). { left. exists (qof t (queue w0)). cbn. apply qof_send_same. }
  destruct (quiet_run (stopping t) o t st) with (l := b) (l2 := c) (ph := phases (fun _ => Out) a)
    (q := S (lens 0 a)) (w := send w0 t CStop) (w' := w1) as [S1 [Ho1 [I1 [C1 L1]]]]; auto.
  { intros. eapply stopping_step; eauto. }
  destruct S1 as [[l S1]|[A B]]; [rewrite Q in S1; destruct l; discriminate|].
  split; [exact B|]. rewrite <- (app_nil_r c) in C1.
  destruct (quiet_run (silent t (times t w1)) o t st) with (l := c) (l2 := @nil act) (ph := phases (phases (fun _ => Out) a) b)
    (q := lens (S (lens 0 a)) b) (w := w1) (w' := w2) as [S2 _]; auto.
  { intros. eapply silent_step; eauto. }
  { repeat split; auto. }
  apply S2.
Qed.
Print Assumptions C304_stopped.
Example C304_case :
  careful (fun _ => Out) 0 ([New 0 2 true false true; Post 0 UStart true; Daemon; Tick; Tick; Fire 0] ++ Post 0 UStop true :: [Tick; Daemon] ++ [Tick; Tick; Tick; Fire 0]) /\
  exists w1, run begin ([New 0 2 true false true; Post 0 UStart true; Daemon; Tick; Tick; Fire 0] ++ Post 0 UStop true :: [Tick; Daemon]) = Ok w1 /\
    queue w1 = [] /\ times 0 w1 = [2] /\ objs w1 0 = Some (Some 0).
Proof.
  split; [show_careful|].
  eexists. split; [cbv; reflexivity|]. repeat split.
Qed.

(* ---- C305: a dormant timer that is started (or reset) has, some ticks later, run its callback
   at most as often as is due; and exactly so often whenever the timer task has nothing to do. *)
Theorem C305_started : forall a o u b w0 t w1 p rel, careful (fun _ => Out) 0 (a ++ Post o u true :: b) -> u = UStart \/ u = UReset ->
  run begin a = Ok w0 -> objs w0 o = Some (Some t) -> queue w0 = [] -> active w0 t = false ->
  forallb (quiet o) b = true -> run w0 (Post o u true :: b) = Ok w1 -> given a o = Some (p, rel) ->
  let n := length (times t w1) - length (times t w0) in
  let d := due rel p (now w1 - now w0) in
  length (times t w0) <= length (times t w1) /\ n <= d /\ (idle w1 -> n = d).
Proof.
  intros a o u b w0 t w1 p rel C U R0 Ho Q A Qb R1 Gv. cbn zeta.
  destruct (careful_run a _ _ _ _ begin_inv C) as [w0' [R0' [I0 C0]]]. rewrite R0 in R0'. inversion R0'; subst w0'.
  destruct (careful_step _ _ _ _ _ I0 C0) as [wd [E [Id Cd]]].
  assert (L : exists st, phases (fun _ => Out) a o = Live st) by (cbn in C0; tauto). destruct L as [st L].
  assert (GG : (p, rel) = (period (tms w0 t), reload (tms w0 t))).
  { assert (G0 : ginv (fun _ => Out) begin (fun _ => None)) by (intros ? ? ? Z; discriminate).
    pose proof (given_run a _ _ _ _ _ begin_inv C G0 w0 R0 o st t L Ho) as G1. unfold given in Gv. rewrite Gv, Q in G1. inversion G1. reflexivity. }
  inversion GG; subst p rel. clear GG Gv.
  cbn [run] in R1. rewrite E in R1. cbn in E. unfold with_handle in E. rewrite Ho in E. inversion E; subst wd. clear E.
  assert (S0 : started (now w0) (period (tms w0 t)) (length (times t w0)) (reload (tms w0 t)) t (send w0 t (command w0 u))).
  { split; [reflexivity|]. split; [reflexivity|]. split; [apply (s_period _ _ _ I0), (s_new _ _ _ I0 _ _ Ho)|].
    left. cbn [send queue tms now]. rewrite qof_send_same, Q. cbn. unfold times. cbn. split; [destruct U; subst u; reflexivity|]. auto. }
  rewrite <- (app_nil_r b) in Cd.
  destruct (quiet_run (started (now w0) (period (tms w0 t)) (length (times t w0)) (reload (tms w0 t)) t) o t st) with (l := b) (l2 := @nil act)
    (ph := phases (fun _ => Out) a) (q := S (lens 0 a)) (w := send w0 t (command w0 u)) (w' := w1) as [S1 _]; auto.
  { intros. eapply started_step; eauto. }
  apply (started_count (now w0) _ _ _ t w1 S1).
Qed.
Print Assumptions C305_started.
Example C305_case : let a := [New 0 2 true false true; Tick] in let b := [Tick; Daemon; Tick; Tick; Fire 0; Tick; Fire 0; Tick] in
  careful (fun _ => Out) 0 (a ++ Post 0 UStart true :: b) /\ forallb (quiet 0) b = true /\ given a 0 = Some (2, true) /\
  exists w1, run begin (a ++ Post 0 UStart true :: b) = Ok w1 /\ times 0 w1 = [4; 5] /\ idle w1 /\ now w1 = 6.
Proof.
  cbn zeta. split; [show_careful|]. split; [reflexivity|]. split; [reflexivity|].
  eexists. split; [cbv; reflexivity|]. repeat split. intros [|t]; cbv; [lia | discriminate].
Qed.

(* ---- C306: stop() and the destructor only give orders: a callback that is due runs after them. *)
Theorem C306_callback_after_stop_refuted : forall a w o t, careful (fun _ => Out) 0 a -> run begin a = Ok w ->
  objs w o = Some (Some t) -> active w t = true -> expiry (tms w t) <= now w ->
  exists w', run w [Post o UStop true; Fire t] = Ok w' /\ times t w' = times t w ++ [now w].
Proof.
  intros a w o t C R Ho A D. rewrite <- (app_nil_r a) in C. destruct (careful_run a [] _ _ _ begin_inv C) as [w0 [R0 [I _]]].
  rewrite R in R0. inversion R0; subst w0. pose proof (s_mem _ _ _ I t (or_intror A)) as M. unfold active in A. apply Nat.leb_le in D.
  cbn. unfold with_handle. rewrite Ho. cbn. rewrite A, D, M. cbn. eexists. split; [reflexivity|].
  unfold times. cbn. rewrite filter_app, map_app. cbn. rewrite Nat.eqb_refl. reflexivity.
Qed.
Print Assumptions C306_callback_after_stop_refuted.
Theorem C306_callback_after_destructor_refuted : forall a w o t, careful (fun _ => Out) 0 a -> run begin a = Ok w ->
  objs w o = Some (Some t) -> home (tms w t) = None -> active w t = true -> expiry (tms w t) <= now w ->
  exists w', run w [EndPost o true; EndMem o; Fire t] = Ok w' /\ times t w' = times t w ++ [now w] /\ objs w' o = None.
Proof.
  intros a w o t C R Ho Hh A D. rewrite <- (app_nil_r a) in C. destruct (careful_run a [] _ _ _ begin_inv C) as [w0 [R0 [I _]]].
  rewrite R in R0. inversion R0; subst w0. pose proof (s_mem _ _ _ I t (or_intror A)) as M. unfold active in A. apply Nat.leb_le in D.
  cbn. unfold with_handle. rewrite Ho. cbn. rewrite Ho, Hh. cbn. rewrite A, D, M. cbn. eexists. split; [reflexivity|].
  split; [|apply put_same].
  unfold times. cbn. rewrite filter_app, map_app. cbn. rewrite Nat.eqb_refl. reflexivity.
Qed.
Print Assumptions C306_callback_after_destructor_refuted.
Example C306_case : let a := [New 0 2 true false true; Post 0 UStart true; Daemon; Tick; Tick] in
  careful (fun _ => Out) 0 a /\ exists w, run begin a = Ok w /\ active w 0 = true /\ expiry (tms w 0) <= now w /\
    home (tms w 0) = None /\ objs w 0 = Some (Some 0).
Proof. cbn zeta. split; [show_careful|]. eexists. split; [cbv; reflexivity|]. repeat split; cbv; lia. Qed.

(* ---- C307: if the destructor's command finds no room in time, the timer is never deleted: an
   auto-reload timer goes on calling back for ever. *)
Theorem C307_lost_delete_refuted : forall a w o t k, careful (fun _ => Out) 0 a -> run begin a = Ok w ->
  objs w o = Some (Some t) -> home (tms w t) = None -> active w t = true -> reload (tms w t) = true ->
  exists w1 l w', run w [EndPost o false; EndMem o] = Ok w1 /\ objs w1 o = None /\ queue w1 = queue w /\
    forallb only_time l = true /\ run w1 l = Ok w' /\ length (times t w') = length (times t w) + k.
Proof.
  intros a w o t k C R Ho Hh A Rl. rewrite <- (app_nil_r a) in C. destruct (careful_run a [] _ _ _ begin_inv C) as [w0 [R0 [I _]]].
  rewrite R in R0. inversion R0; subst w0. pose proof (s_mem _ _ _ I t (or_intror A)) as M.
  exists (set_obj w o None). destruct (runs_on k (set_obj w o None) t M A Rl) as [l [w' [F [Rn T]]]].
  exists l, w'. cbn. unfold with_handle. rewrite Ho, Ho, Hh. rewrite put_same. repeat split; auto.
Qed.
Print Assumptions C307_lost_delete_refuted.
Example C307_case : let a := [New 0 2 true false true; Post 0 UStart true; Daemon] in
  careful (fun _ => Out) 0 a /\ exists w, run begin a = Ok w /\ active w 0 = true /\ reload (tms w 0) = true /\ home (tms w 0) = None.
Proof. cbn zeta. split; [show_careful|]. eexists. split; [cbv; reflexivity|]. repeat split. Qed.

(* ---- C308: a timer<true> takes its storage away without waiting for the timer task, which then
   uses it. *)
Theorem C308_static_storage_refuted : forall a w o t, careful (fun _ => Out) 0 a -> run begin a = Ok w ->
  objs w o = Some (Some t) -> home (tms w t) = Some o -> queue w = [] ->
  run w [EndPost o true; EndMem o; Daemon] = UB /\
  (active w t = true -> expiry (tms w t) <= now w -> run w [EndPost o true; EndMem o; Fire t] = UB).
Proof.
  intros a w o t C R Ho Hh Q. split.
  - cbn. unfold with_handle. rewrite Ho. cbn. rewrite Ho, Hh, Nat.eqb_refl. cbn. rewrite Q. cbn. rewrite put_same. reflexivity.
  - intros A D. unfold active in A. apply Nat.leb_le in D.
    cbn. unfold with_handle. rewrite Ho. cbn. rewrite Ho, Hh, Nat.eqb_refl. cbn. rewrite put_same. cbn. rewrite A, D. reflexivity.
Qed.
Print Assumptions C308_static_storage_refuted.
Example C308_case : let a := [New 0 2 true true true; Post 0 UStart true; Daemon; Tick; Tick] in
  careful (fun _ => Out) 0 a /\ exists w, run begin a = Ok w /\ active w 0 = true /\ expiry (tms w 0) <= now w /\
    home (tms w 0) = Some 0 /\ queue w = [] /\
    (* with the timer task in between it is safe *)
    exists w', run w [EndPost 0 true; Daemon; EndMem 0; Daemon; Fire 0] = Ok w'.
Proof.
  cbn zeta. split; [show_careful|]. eexists. split; [cbv; reflexivity|]. repeat split; try (cbv; lia). eexists. cbv. reflexivity.
Qed.

(* ---- C309: copies delete the same timer twice; a timer whose creation failed holds a null handle. *)
Theorem C309_copied_timer_refuted : forall a w o x t, careful (fun _ => Out) 0 a -> run begin a = Ok w ->
  objs w o = Some (Some t) -> home (tms w t) = None -> queue w = [] -> x <> o ->
  run w [Copy x o; EndPost x true; EndMem x; EndPost o true; EndMem o; Daemon; Daemon] = UB /\
  run w [Copy x o; EndPost x true; EndMem x; Post o UStart true; Daemon; Daemon] = UB.
Proof.
  intros a w o x t C R Ho Hh Q N.
  assert (E : (o =? x) = false) by (apply Nat.eqb_neq; auto).
  split; cbn; rewrite Ho; cbn; unfold with_handle; cbn; rewrite put_same; cbn; rewrite put_same, Hh; cbn; unfold with_handle; cbn;
    unfold put at 1; rewrite E; unfold put at 1; rewrite E; rewrite Ho; cbn.
  - unfold put at 1; rewrite E; unfold put at 1; rewrite E, Ho, Hh. cbn. rewrite Q. cbn.
    destruct (mem (tms w t)); cbn; rewrite ?put_same; cbn; rewrite ?Hh; reflexivity.
  - rewrite Q. cbn. destruct (mem (tms w t)); cbn; rewrite ?put_same; cbn; rewrite ?Hh; reflexivity.
Qed.
Print Assumptions C309_copied_timer_refuted.
Theorem C309_failed_creation_refuted : forall w o p rl st u ok,
  run w [New o p rl st false; Post o u ok] = UB /\ run w [New o p rl st false; EndPost o ok] = UB.
Proof. intros. split; cbn; unfold with_handle; cbn; rewrite put_same; reflexivity. Qed.
Print Assumptions C309_failed_creation_refuted.
Example C309_case : let a := [New 0 2 true false true] in
  careful (fun _ => Out) 0 a /\ exists w, run begin a = Ok w /\ objs w 0 = Some (Some 0) /\ home (tms w 0) = None /\ queue w = [] /\
  exists w', run w [Post 0 UStart true; Daemon] = Ok w'.
Proof. cbn zeta. split; [show_careful|]. eexists. split; [cbv; reflexivity|]. repeat split. eexists. cbv. reflexivity. Qed.

(* ---- C310: setting the period of a dormant timer starts it. *)
Theorem C310_period_starts_refuted : forall a w o t p, careful (fun _ => Out) 0 a -> run begin a = Ok w ->
  objs w o = Some (Some t) -> mem (tms w t) = true -> queue w = [] ->
  exists w', run w [Post o (UPeriod p) true; Daemon] = Ok w' /\ active w' t = true /\ expiry (tms w' t) = now w + p.
Proof.
  intros a w o t p C R Ho M Q. cbn. unfold with_handle. rewrite Ho. cbn. rewrite Q. cbn. rewrite M.
  eexists. split; [reflexivity|]. unfold active. cbn. rewrite put_same. split; reflexivity.
Qed.
Print Assumptions C310_period_starts_refuted.
Example C310_case : let a := [New 0 2 true false true] in
  careful (fun _ => Out) 0 a /\ exists w, run begin a = Ok w /\ active w 0 = false /\ mem (tms w 0) = true /\ queue w = [].
Proof. cbn zeta. split; [show_careful|]. eexists. split; [cbv; reflexivity|]. repeat split. Qed.

(* ---- C311: active() tells what the timer task has done, not what the program has asked for. *)
Theorem C311_active_after_start_refuted : forall a w o t u, careful (fun _ => Out) 0 a -> run begin a = Ok w ->
  objs w o = Some (Some t) -> exists w', run w [Post o u true] = Ok w' /\ active w' t = active w t.
Proof. intros a w o t u C R Ho. cbn. unfold with_handle. rewrite Ho. eexists. split; reflexivity. Qed.
Print Assumptions C311_active_after_start_refuted.
Example C311_case : let a := [New 0 2 true false true] in
  careful (fun _ => Out) 0 a /\ exists w, run begin a = Ok w /\ active w 0 = false /\ objs w 0 = Some (Some 0) /\
  exists w', run w [Post 0 UStart true; Daemon] = Ok w' /\ active w' 0 = true.
Proof. cbn zeta. split; [show_careful|]. eexists. split; [cbv; reflexivity|]. repeat split. eexists. split; [cbv; reflexivity|]. reflexivity. Qed.
