(* Event groups: nobody waits for what is there, flags are neither lost nor invented, sync is a
   meeting point, and objects. *)
From Coq Require Import List Arith Bool ZArith Lia.
From Verif Require Import Base Evg_Spec Evg_Model Evg_Proofs.
Import ListNotations.

(* ---- C296: a task that cannot go on waits for flags that are not there; and an answer contains
   the flags asked for exactly if the time did not run out. *)
Theorem C296_blocked : forall ps sched t e o l, let w := run (start ps) sched in
  todo w t = o :: l -> turn w t e = None ->
  exists all want, waits_for o = Some (all, want) /\ ~ met all want (bits w).
Proof.
  intros ps sched t e o l w E Q. assert (I : inv w) by apply run_inv, start_inv.
  unfold turn in Q. rewrite E in Q. destruct (is_waiting w t) eqn:W; [|discriminate].
  apply waiting_in, in_map_iff in W. destruct W as [x [Ex Hx]].
  destruct (i_link _ I x Hx) as [o' [l' [E' [F C]]]]. rewrite Ex, E in E'. inversion E'; subst.
  exists (wall x), (want x). split; auto. apply ready_not. apply I; auto.
Qed.
Print Assumptions C296_blocked.
Theorem C296_answers : forall ps sched t o r expired all want,
  In (t, o, r, expired) (hist (run (start ps) sched)) -> waits_for o = Some (all, want) ->
  (met all want r <-> expired = false).
Proof.
  intros ps sched t o r ex al wnt Hin F. assert (I : inv (run (start ps) sched)) by apply run_inv, start_inv.
  pose proof (proj1 (Forall_forall _ _) (i_hist _ I) _ Hin al wnt F) as R. cbn in R.
  rewrite <- ready_met, R. destruct ex; split; cbn; congruence.
Qed.
Print Assumptions C296_answers.
Example C296_case :
  let w := run (start [[WaitBits 3 true true None]; [SetBits 1; SetBits 2]]) [(0, false); (1, false)] in
  turn w 0 true = None /\ bits w = 1%Z /\
  hist (run w [(1, false)]) = [(1, SetBits 1, 1%Z, false); (0, WaitBits 3 true true None, 3%Z, false); (1, SetBits 2, 0%Z, false)].
Proof. repeat split. Qed.
(* a wait without patience never blocks, and one for ever is never answered with a time-out *)
Theorem C296_no_patience : forall ps sched t e o l, let w := run (start ps) sched in
  todo w t = o :: l -> (exists want c all, o = WaitBits want c all (Some 0)) \/ (exists s want, o = Sync s want (Some 0)) ->
  exists w', turn w t e = Some w' /\ todo w' t = l.
Proof.
  intros ps sched t e o l w E Ho. assert (I : inv w) by apply run_inv, start_inv.
  assert (N : is_waiting w t = false).
  { destruct (run_calm sched _ (start_calm ps)) as [_ [H _]]. destruct (is_waiting w t) eqn:W; [|reflexivity].
    apply waiting_in, in_map_iff in W. destruct W as [x [Ex Hx]]. rewrite <- Ex in E. pose proof (H x o l Hx E) as Q.
    destruct Ho as [(wn & c & al & ->)|(s & wn & ->)]; discriminate. }
  unfold turn. rewrite E, N. eexists. split; [reflexivity|].
  destruct Ho as [(wn & c & al & ->)|(s & wn & ->)].
  - unfold wait_bits. cbn [no_wait]. destruct (ready al wn (bits w)); unfold complete; cbn; rewrite E; cbn; unfold pop; rewrite Nat.eqb_refl, E; reflexivity.
  - assert (N' : ~ In t (map who (waiting w))) by (rewrite <- waiting_in, N; discriminate).
    destruct (set_bits_other w s t I N') as [T _].
    unfold sync. cbn [no_wait]. destruct (ready true wn _); unfold complete; cbn [todo bits waiting hist]; rewrite T, E; cbn; unfold pop; rewrite Nat.eqb_refl, T, E; reflexivity.
Qed.
Print Assumptions C296_no_patience.
Theorem C296_for_ever : forall ps sched t o r expired,
  In (t, o, r, expired) (hist (run (start ps) sched)) ->
  (exists want c all, o = WaitBits want c all None) \/ (exists s want, o = Sync s want None) -> expired = false.
Proof.
  intros ps sched t o r ex Hin Ho. destruct (run_calm sched _ (start_calm ps)) as [_ [_ H]].
  rewrite Forall_forall in H. specialize (H _ Hin). destruct Ho as [(wn & c & al & ->)|(s & wn & ->)]; exact H.
Qed.
Print Assumptions C296_for_ever.
(* a task that waits with a limit comes back when its time is over, with the flags there are then,
   leaves them as they are, and no longer waits *)
Theorem C296_time_out : forall ps sched t o l, let w := run (start ps) sched in
  todo w t = o :: l -> turn w t false = None ->
  (exists want c all n, o = WaitBits want c all (Some n)) \/ (exists s want n, o = Sync s want (Some n)) ->
  exists w', turn w t true = Some w' /\ todo w' t = l /\ (forall u, u <> t -> todo w' u = todo w u) /\
    bits w' = bits w /\ hist w' = hist w ++ [(t, o, bits w, true)] /\
    (forall x, In x (waiting w') <-> In x (waiting w) /\ who x <> t).
Proof.
  intros ps sched t o l w E Q Ho. unfold turn in *. rewrite E in *.
  destruct (is_waiting w t) eqn:W; [|discriminate].
  assert (P : patient o = false) by (destruct Ho as [(wn & c & al & n & ->)|(s & wn & n & ->)]; reflexivity).
  rewrite P. cbn. eexists. split; [reflexivity|]. unfold complete. cbn. rewrite E. cbn.
  split; [unfold pop; rewrite Nat.eqb_refl, E; reflexivity|].
  split; [intros u U; unfold pop; apply Nat.eqb_neq in U; rewrite U; reflexivity|].
  repeat split; auto.
  - apply filter_In in H. tauto.
  - apply filter_In in H. destruct H as [_ H]. apply negb_true_iff, Nat.eqb_neq in H. exact H.
  - intros [H1 H2]. apply filter_In. split; [exact H1|]. apply negb_true_iff, Nat.eqb_neq. exact H2.
Qed.
Print Assumptions C296_time_out.
Example C296_case2 : let w := run (start [[WaitBits 1 true true (Some 0); WaitBits 1 true true (Some 3)]]) [(0, true); (0, false)] in
  hist w = [(0, WaitBits 1 true true (Some 0), 0%Z, true)] /\ is_waiting w 0 = true /\
  hist (run w [(0, true)]) = [(0, WaitBits 1 true true (Some 0), 0%Z, true); (0, WaitBits 1 true true (Some 3), 0%Z, true)].
Proof. repeat split. Qed.

(* ---- C297: after a turn a flag is there exactly if it was there or was set by the operation that
   started, and no operation that completed took it; a set reaches every task that waits for what
   is there then. *)
Theorem C297_flags : forall ps sched t e w', let w := run (start ps) sched in
  turn w t e = Some w' -> exists o l new, todo w t = o :: l /\ hist w' = hist w ++ new /\
  forall k, (0 <= k)%Z -> Z.testbit (bits w') k =
    (Z.testbit (bits w) k || negb (is_waiting w t) && sets o k) && negb (existsb (takes k) new).
Proof. intros. apply turn_flags with (e := e); auto. apply run_inv, start_inv. Qed.
Print Assumptions C297_flags.
Theorem C297_reaches_all : forall ps sched t e w' o l b u ou lu all want, let w := run (start ps) sched in
  todo w t = o :: l -> (o = SetBits b \/ exists wn d, o = Sync b wn d) -> is_waiting w t = false -> turn w t e = Some w' ->
  todo w u = ou :: lu -> is_waiting w u = true -> waits_for ou = Some (all, want) -> met all want (Z.lor (bits w) b) ->
  In (u, ou, Z.lor (bits w) b, false) (hist w') /\ todo w' u = lu /\ is_waiting w' u = false.
Proof.
  intros ps sched t e w' o l b u ou lu al wnt w E Ho Wt Q Eu Wu F M.
  apply (turn_wakes w t e w' o l b u ou lu al wnt); auto. apply run_inv, start_inv.
Qed.
Print Assumptions C297_reaches_all.
Example C297_case :
  let w := run (start [[WaitBits 1 true false None]; [WaitBits 3 false true None]; [SetBits 7]]) [(0, false); (1, false)] in
  is_waiting w 0 = true /\ is_waiting w 1 = true /\ bits (run w [(2, false)]) = 6%Z /\
  hist (run w [(2, false)]) = [(0, WaitBits 1 true false None, 7%Z, false); (1, WaitBits 3 false true None, 7%Z, false); (2, SetBits 7, 6%Z, false)].
Proof. repeat split. Qed.

(* ---- C298: tasks that meet at sync() stay together: at every moment all have come back from the
   same number of calls, and until they are done some task can go on. *)
Theorem C298_meeting : forall n own all K sched, rendezvous n own all ->
  let w := run (start (map (fun i => repeat (Sync (own i) all None) K) (seq 0 n))) sched in
  exists c, c <= K /\ (forall i, i < n -> length (by_task i (hist w)) = c) /\
    (finished w <-> c = K \/ n = 0) /\ (finished w \/ exists t, turn w t false <> None).
Proof. intros n own all K sched RV. exact (meet_all n own all RV K sched). Qed.
Print Assumptions C298_meeting.
Example C298_case : rendezvous 3 (fun i => Z.shiftl 1 (Z.of_nat i)) 7 /\
  (let w := run (start (map (fun i => repeat (Sync (Z.shiftl 1 (Z.of_nat i)) 7 None) 2) (seq 0 3)))
       [(1, false); (1, true); (0, false); (2, false); (2, false)] in
   map (fun i => length (by_task i (hist w))) [0; 1; 2] = [1; 1; 1] /\ bits w = 4%Z).
Proof.
  split; [|split; reflexivity]. split.
  - intros k Hk H. assert (k = 0 \/ k = 1 \/ k = 2)%Z.
    { destruct (Z_lt_le_dec k 3); [lia|]. exfalso.
      rewrite Z.bits_above_log2 in H; [discriminate | lia | change (Z.log2 7) with 2%Z; lia]. }
    destruct H0 as [H0|[H0|H0]]; subst k; [exists 0 | exists 1 | exists 2]; split; try lia; reflexivity.
  - intros i Hi. exists (Z.of_nat i). split; [lia|].
    destruct i as [|[|[|]]]; try lia; (split; [reflexivity|]; split; [reflexivity|]);
      intros [|[|[|]]] Hj Hn; try lia; reflexivity.
Qed.

(* ---- C299: a flag is not a token: one set releases every task that waits for it, also when all
   of them clear it on exit. *)
Theorem C299_one_flag_many_tasks_refuted : forall ps sched t e w' l b u1 u2 l1 l2 want all d1 d2, let w := run (start ps) sched in
  todo w t = SetBits b :: l -> is_waiting w t = false -> turn w t e = Some w' -> met all want (Z.lor (bits w) b) ->
  todo w u1 = WaitBits want true all d1 :: l1 -> is_waiting w u1 = true ->
  todo w u2 = WaitBits want true all d2 :: l2 -> is_waiting w u2 = true ->
  In (u1, WaitBits want true all d1, Z.lor (bits w) b, false) (hist w') /\
  In (u2, WaitBits want true all d2, Z.lor (bits w) b, false) (hist w').
Proof.
  intros ps sched t e w' l b u1 u2 l1 l2 wnt al d1 d2 w E Wt Q M E1 W1 E2 W2.
  split; [apply (C297_reaches_all ps sched t e w' (SetBits b) l b u1 (WaitBits wnt true al d1) l1 al wnt) | apply (C297_reaches_all ps sched t e w' (SetBits b) l b u2 (WaitBits wnt true al d2) l2 al wnt)]; auto.
Qed.
Print Assumptions C299_one_flag_many_tasks_refuted.
Example C299_case :
  let w := run (start [[WaitBits 1 true true None]; [WaitBits 1 true true None]; [SetBits 1]]) [(0, false); (1, false)] in
  is_waiting w 0 = true /\ is_waiting w 1 = true /\ met true 1 (Z.lor (bits w) 1) /\
  length (hist (run w [(2, false)])) = 3 /\ bits (run w [(2, false)]) = 0%Z.
Proof. repeat split. intros k Hk. cbn [bits]. auto. Qed.

(* ---- C300: event_group objects that are not copied and whose creation succeeded are usable for
   their whole life, and a group of the operating system exists exactly as long as its object. *)
Theorem C300_life : forall l, forallb plain l = true -> scoped (fun _ => false) l = true ->
  exists s', gop_run no_groups l = Ok s' /\
    (forall h, made s' h = true <-> exists x, handle_of s' x = Some (Some h)) /\
    (forall x y h, handle_of s' x = Some (Some h) -> handle_of s' y = Some (Some h) -> x = y).
Proof.
  intros l P Sc. destruct (gop_safe l _ _ ginv_start P Sc) as [live [s' [R G]]]. exists s'. split; auto. split.
  - intros h. split; [apply G | intros [x Hx]; apply (g_own _ _ G _ _ Hx)].
  - apply G.
Qed.
Print Assumptions C300_life.
Example C300_case : let l := [GNew 0 true; GNew 1 true; GUse 0; GEnd 1; GUse 0; GNew 1 true; GUse 1] in
  forallb plain l = true /\ scoped (fun _ => false) l = true.
Proof. split; reflexivity. Qed.

(* ---- C301: an event_group object can be copied, and its creation can fail; then the program is
   undefined although scoping was respected. *)
Theorem C301_copied_group_refuted : forall l s x y h, gop_run no_groups l = Ok s -> handle_of s y = Some (Some h) -> x <> y ->
  made s h = true ->
  gop_run s [GCopy x y; GEnd x; GUse y] = UB /\ gop_run s [GCopy x y; GEnd y; GUse x] = UB /\
  gop_run s [GCopy x y; GEnd x; GEnd y] = UB /\ gop_run s [GCopy x y; GEnd y; GEnd x] = UB.
Proof.
  intros l s x y h _ Hy N M. assert (E1 : (y =? x) = false) by (apply Nat.eqb_neq; auto).
  assert (E2 : (x =? y) = false) by (apply Nat.eqb_neq; auto).
  repeat split; cbn; rewrite Hy; cbn; unfold with_handle; cbn; rewrite ?Nat.eqb_refl, ?E1, ?E2, ?Hy, ?M; cbn;
    rewrite ?Nat.eqb_refl, ?E1, ?E2, ?Hy; cbn; rewrite ?Nat.eqb_refl; reflexivity.
Qed.
Print Assumptions C301_copied_group_refuted.
Theorem C301_failed_creation_refuted : forall l s x, gop_run no_groups l = Ok s ->
  gop_run s [GNew x false; GUse x] = UB /\ gop_run s [GNew x false; GEnd x] = UB.
Proof. intros. split; cbn; unfold with_handle; cbn; rewrite Nat.eqb_refl; reflexivity. Qed.
Print Assumptions C301_failed_creation_refuted.
Example C301_case : exists s, gop_run no_groups [GNew 0 true] = Ok s /\ handle_of s 0 = Some (Some 0) /\ made s 0 = true /\
  scoped (fun _ => false) [GNew 0 true; GCopy 1 0; GEnd 1; GUse 0] = true.
Proof. eexists. repeat split. Qed.
