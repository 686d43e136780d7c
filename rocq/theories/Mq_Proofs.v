(* Proofs about the message queues. *)
From Coq Require Import List Arith Bool Lia ZArith QArith.
From Verif Require Import Base MachInt Lock_Model Mq_Spec Mq_Model.
Import ListNotations.

Local Open Scope nat_scope.

Section Hist.
Context {V : Type}.
Implicit Types (h : history V) (q : list V) (o : qop V).

Lemma ideal_app cap q h1 q1 h2 q2 : ideal cap q h1 q1 -> ideal cap q1 h2 q2 -> ideal cap q (h1 ++ h2) q2.
Proof. induction 1; cbn; [auto|]. intros H1. econstructor; [eassumption|]. now apply IHideal. Qed.
Lemma allowed_bound cap q o a q1 : allowed cap q o a q1 -> length q <= cap -> length q1 <= cap.
Proof. destruct 1; rewrite ?app_length; cbn in *; lia. Qed.
Lemma ideal_bound cap q h q1 : ideal cap q h q1 -> length q <= cap -> length q1 <= cap.
Proof. induction 1; [auto|]. intros L. apply IHideal. eapply allowed_bound; eauto. Qed.
Lemma sent_app h1 h2 : sent (h1 ++ h2) = sent h1 ++ sent h2.
Proof. apply flat_map_app. Qed.
Lemma received_app h1 h2 : received (h1 ++ h2) = received h1 ++ received h2.
Proof. apply flat_map_app. Qed.
Lemma ideal_fifo cap q h q1 : ideal cap q h q1 -> received h ++ q1 = q ++ sent h.
Proof.
  induction 1 as [q|q t o a q1 h q2 A I IH]; [cbn; now rewrite app_nil_r|].
  change (received ((t, o, a) :: h)) with (match a with Received (Some v) => [v] | _ => [] end ++ received h).
  change (sent ((t, o, a) :: h)) with (match a with Sent true => value o | _ => [] end ++ sent h).
  destruct A; cbn [value app] in *; rewrite <- ?app_assoc in IH; cbn [app] in *; congruence || auto.
Qed.
Lemma by_task_app t h1 h2 : by_task t (h1 ++ h2) = by_task t h1 ++ by_task t h2.
Proof. apply filter_app. Qed.

Lemma attempt_allowed cap q o e a q1 : length q <= cap -> attempt cap q o e = Some (a, q1) -> allowed cap q o a q1.
Proof.
  intros L. unfold attempt. destruct o as [v|v n|v| |n|]; try destruct (Nat.ltb_spec (length q) cap) as [E|E].
  - intros [= <- <-]. now constructor.
  - discriminate.
  - intros [= <- <-]. now constructor.
  - destruct ((n =? 0) || e); [|discriminate]. intros [= <- <-]. constructor. lia.
  - intros [= <- <-]. now constructor.
  - intros [= <- <-]. constructor. lia.
  - destruct q; [discriminate|]. intros [= <- <-]. constructor.
  - destruct q; [discriminate|]. intros [= <- <-]. constructor.
  - destruct q; [|intros [= <- <-]; constructor]. destruct ((n =? 0) || e); [|discriminate]. intros [= <- <-]. constructor.
  - destruct q; [|intros [= <- <-]; constructor]. destruct ((n =? 0) || e); [|discriminate]. intros [= <- <-]. constructor.
  - intros [= <- <-]. constructor.
  - intros [= <- <-]. constructor.
Qed.

Record good cap (ps : list (list (qop V))) (w : world) : Prop := {
  g_ideal : ideal cap [] (hist w) (buffer w);
  g_bound : length (buffer w) <= cap;
  g_order : forall t, nth t ps [] = ops (by_task t (hist w)) ++ todo w t
}.
Lemma good_start cap ps : good cap ps (start ps).
Proof. split; cbn; [constructor|lia|reflexivity]. Qed.
Lemma good_turn cap ps w t e w' : good cap ps w -> turn cap w t e = Some w' -> good cap ps w'.
Proof.
  intros G T. unfold turn in T. destruct (todo w t) as [|o r] eqn:E; [discriminate|].
  destruct (attempt cap (buffer w) o e) as [[a q]|] eqn:A; [|discriminate]. injection T as <-.
  apply attempt_allowed in A; [|apply G]. split; cbn [hist buffer todo].
  - eapply ideal_app; [apply G|]. econstructor; [exact A|constructor].
  - eapply allowed_bound; [exact A|apply G].
  - intros t'. rewrite by_task_app. unfold by_task at 2. cbn [filter fst]. unfold set_at, ops. rewrite map_app. destruct (t =? t') eqn:Q.
    + apply Nat.eqb_eq in Q. subst t'. rewrite Nat.eqb_refl. rewrite (g_order _ _ _ G t), E. cbn. now rewrite <- app_assoc.
    + rewrite Nat.eqb_sym, Q. cbn. rewrite app_nil_r. apply (g_order _ _ _ G).
Qed.
Lemma good_run cap ps sched : forall w, good cap ps w -> good cap ps (run cap w sched).
Proof.
  induction sched as [|(t, e) r IH]; cbn; [auto|]. intros w G. apply IH.
  destruct (turn cap w t e) eqn:T; [|exact G]. eapply good_turn; eauto.
Qed.
Lemma run_app cap s1 : forall (w : @world V) s2, run cap w (s1 ++ s2) = run cap (run cap w s1) s2.
Proof. induction s1 as [|(t, e) r IH]; cbn; auto. Qed.

(* ---- producers' order *)
Lemma sent_by_tag (tag : V -> nat) t h :
  (forall t' o a, In (t', o, a) h -> forall v, In v (value o) -> tag v = t') ->
  filter (fun v => tag v =? t) (sent h) = sent (by_task t h).
Proof.
  induction h as [|[[t' o] a] h IH]; [reflexivity|]. intros H. cbn [sent flat_map by_task filter fst].
  assert (HT : forall t'' o' a', In (t'', o', a') h -> forall v, In v (value o') -> tag v = t'') by (intros ? ? ? I; eapply H; right; exact I).
  rewrite filter_app. fold (sent h). rewrite (IH HT). clear IH.
  assert (F : forall v, In v (match a with Sent true => value o | _ => [] end) -> tag v = t').
  { intros v. destruct a as [[]| |]; cbn; try contradiction. intros I. eapply (H t' o); [now left|exact I]. }
  destruct (t' =? t) eqn:E.
  - cbn [sent flat_map]. fold (sent (by_task t h)). f_equal. apply Nat.eqb_eq in E. subst t'.
    induction (match a with Sent true => value o | _ => [] end) as [|v l IHl]; [reflexivity|]. cbn. rewrite (F v (or_introl eq_refl)), Nat.eqb_refl.
    f_equal. apply IHl. intros v' I. apply F. now right.
  - assert (N : forall l : list V, (forall v, In v l -> tag v = t') -> filter (fun v => tag v =? t) l = []).
    { induction l as [|v l IHl]; [reflexivity|]. intros G. cbn. rewrite (G v (or_introl eq_refl)), E. apply IHl. intros v' I. apply G. now right. }
    rewrite (N _ F). reflexivity.
Qed.
Lemma in_history_program cap ps w t o a : good cap ps w -> In (t, o, a) (hist w) -> In o (nth t ps []).
Proof.
  intros G I. rewrite (g_order _ _ _ G t). apply in_or_app. left. unfold ops, by_task. apply in_map_iff. exists (t, o, a). split; [reflexivity|].
  apply filter_In. split; [exact I|]. cbn. apply Nat.eqb_refl.
Qed.
(* without timeouts nothing sent is refused *)
Lemma ideal_sent cap q h q1 : ideal cap q h q1 -> (forall e, In e h -> match snd (fst e) with SendFor _ _ | SendIsr _ => False | _ => True end) ->
  sent h = flat_map value (ops h).
Proof.
  induction 1 as [q|q t o a q1 h q2 A I IH]; [reflexivity|]. intros N. change (flat_map value (ops ((t, o, a) :: h))) with (value o ++ flat_map value (ops h)).
  change (sent ((t, o, a) :: h)) with (match a with Sent true => value o | _ => [] end ++ sent h).
  rewrite <- IH by (intros e J; apply N; now right). specialize (N _ (or_introl eq_refl)). cbn in N. destruct A; try contradiction; reflexivity.
Qed.

(* ---- progress *)
Definition left_sends (n : nat) (w : @world V) : nat := length (filter is_send (concat (map (todo w) (seq 0 n)))).
Definition left_receives (n : nat) (w : @world V) : nat := length (filter is_receive (concat (map (todo w) (seq 0 n)))).
Definition left_all (n : nat) (w : @world V) : nat := length (concat (map (todo w) (seq 0 n))).
Record busy cap n (w : @world V) : Prop := {
  b_way : forall t, one_way (todo w t);
  b_none : forall t, n <= t -> todo w t = [];
  b_balance : left_sends n w + length (buffer w) = left_receives n w;
  b_room : length (buffer w) <= cap
}.
Lemma concat_update (f : nat -> list (qop V)) t o r (P : qop V -> bool) : f t = o :: r -> forall n s, s <= t < s + n ->
  length (filter P (concat (map f (seq s n)))) =
  (if P o then 1 else 0) + length (filter P (concat (map (set_at f t r) (seq s n)))).
Proof.
  intros E. induction n as [|n IH]; intros s L; [lia|]. cbn [seq map concat]. rewrite !filter_app, !app_length.
  destruct (Nat.eq_dec s t) as [-> |N].
  - unfold set_at at 1. rewrite Nat.eqb_refl, E. cbn [filter].
    assert (X : map f (seq (S t) n) = map (set_at f t r) (seq (S t) n)).
    { apply map_ext_in. intros i I. apply in_seq in I. unfold set_at. now rewrite (proj2 (Nat.eqb_neq i t)) by lia. }
    rewrite <- X. destruct (P o); cbn [length]; lia.
  - unfold set_at at 1. rewrite (proj2 (Nat.eqb_neq s t)) by lia. rewrite IH by lia. lia.
Qed.
Lemma filter_all {A} (l : list A) : filter (fun _ => true) l = l.
Proof. induction l; cbn; congruence. Qed.
Lemma one_way_tail (o : qop V) r : one_way (o :: r) -> one_way r.
Proof. intros [H|H]; [left|right]; intros o' I; apply H; now right. Qed.
Lemma busy_turn cap n w t e w' : busy cap n w -> turn cap w t e = Some w' -> busy cap n w' /\ S (left_all n w') = left_all n w.
Proof.
  intros B T. unfold turn in T. destruct (todo w t) as [|o r] eqn:E; [discriminate|].
  assert (L : t < n) by (destruct (Nat.lt_ge_cases t n); [assumption|]; rewrite (b_none _ _ _ B) in E by assumption; discriminate).
  destruct (attempt cap (buffer w) o e) as [[a q]|] eqn:A; [|discriminate]. injection T as <-.
  pose proof (b_way _ _ _ B t) as W. rewrite E in W.
  assert (K : is_send o = true \/ is_receive o = true) by (destruct W as [W|W]; [left|right]; apply W; now left).
  assert (C : forall P, length (filter P (concat (map (todo w) (seq 0 n)))) =
    (if P o then 1 else 0) + length (filter P (concat (map (set_at (todo w) t r) (seq 0 n))))) by (intros P; apply concat_update; [exact E|lia]).
  split.
  - split; cbn [hist buffer todo].
    + intros t'. unfold set_at. destruct (t' =? t); [now apply one_way_tail with o|apply B].
    + intros t' G. unfold set_at. rewrite (proj2 (Nat.eqb_neq t' t)) by lia. now apply (b_none _ _ _ B).
    + pose proof (b_balance _ _ _ B) as BB. unfold left_sends, left_receives in *. rewrite (C is_send), (C is_receive) in BB. cbn [todo].
      destruct o; cbn in K; try (destruct K; discriminate); unfold attempt in A.
      * destruct (length (buffer w) <? cap) eqn:R; [|discriminate]. injection A as <- <-. rewrite app_length. cbn [is_send is_receive length] in *. lia.
      * destruct (buffer w) as [|v q']; [discriminate|]. injection A as <- <-. cbn [is_send is_receive length] in *. lia.
    + apply attempt_allowed in A; [|apply B]. eapply allowed_bound; [exact A|apply B].
  - unfold left_all. cbn [todo]. specialize (C (fun _ => true)). rewrite !filter_all in C. now rewrite C.
Qed.
Lemma filter_positive (P : qop V -> bool) l : 0 < length (filter P l) -> exists o, In o l /\ P o = true.
Proof.
  intros H. destruct (filter P l) as [|o r] eqn:E; [cbn in H; lia|]. exists o. apply filter_In. rewrite E. now left.
Qed.
Lemma someone (P : qop V -> bool) n w : 0 < length (filter P (concat (map (todo (V := V) w) (seq 0 n)))) ->
  exists t o, t < n /\ In o (todo w t) /\ P o = true.
Proof.
  intros H. destruct (filter_positive P _ H) as (o & I & PO). apply in_concat in I. destruct I as (l & IL & IO).
  apply in_map_iff in IL. destruct IL as (t & <- & IS). apply in_seq in IS. exists t, o. split; [lia|auto].
Qed.
Lemma busy_some_turn cap n w : busy cap n w -> 1 <= cap -> left_all n w <> 0 -> exists t, t < n /\ forall e, turn cap w t e <> None.
Proof.
  intros B C1 L.
  assert (T : 0 < left_sends n w \/ 0 < left_receives n w).
  { assert (0 < left_all n w) as P by lia. unfold left_all in P. rewrite <- (filter_all (concat _)) in P. apply someone in P. destruct P as (t & o & TN & I & _).
    assert (forall Q : qop V -> bool, Q o = true -> 0 < length (filter Q (concat (map (todo w) (seq 0 n))))) as F.
    { intros Q QO. assert (In o (filter Q (concat (map (todo w) (seq 0 n))))) as IN.
      { apply filter_In. split; [|exact QO]. apply in_concat. exists (todo w t). split; [apply in_map, in_seq; lia|exact I]. }
      destruct (filter Q _); [contradiction|cbn; lia]. }
    destruct (b_way _ _ _ B t) as [W|W]; [left|right]; apply F, W, I. }
  pose proof (b_balance _ _ _ B) as BB. pose proof (b_room _ _ _ B) as BR.
  destruct (Nat.eq_dec (length (buffer w)) 0) as [Z|NZ].
  - (* empty: a producer can send *)
    assert (P : 0 < left_sends n w) by lia. apply someone in P. destruct P as (t & o & TN & I & S1). exists t. split; [exact TN|]. intros e.
    destruct (b_way _ _ _ B t) as [W|W].
    + unfold turn. destruct (todo w t) as [|o1 r] eqn:E; [contradiction|]. specialize (W o1 (or_introl eq_refl)). destruct o1; try discriminate. unfold attempt.
      rewrite (proj2 (Nat.ltb_lt _ _)) by lia. discriminate.
    + specialize (W o I). destruct o; discriminate.
  - (* a consumer can receive *)
    assert (P : 0 < left_receives n w) by lia. apply someone in P. destruct P as (t & o & TN & I & S1). exists t. split; [exact TN|]. intros e.
    destruct (b_way _ _ _ B t) as [W|W].
    + specialize (W o I). destruct o; discriminate.
    + unfold turn. destruct (todo w t) as [|o1 r] eqn:E; [contradiction|]. specialize (W o1 (or_introl eq_refl)). destruct o1; try discriminate. cbn.
      destruct (buffer w); [cbn in NZ; lia|discriminate].
Qed.
Lemma busy_run cap n sched : forall w, busy cap n w -> busy cap n (run cap w sched) /\ left_all n (run cap w sched) <= left_all n w.
Proof.
  induction sched as [|(t, e) r IH]; cbn; [auto|]. intros w B. destruct (turn cap w t e) eqn:T; [|apply IH, B].
  destruct (busy_turn _ _ _ _ _ _ B T) as [B' L]. destruct (IH _ B') as [B2 L2]. split; [exact B2|lia].
Qed.
(* a round in which every task has a turn gets on *)
Lemma busy_round cap n r : forall w, busy cap n w -> 1 <= cap -> left_all n w <> 0 -> (forall t, t < n -> exists b, In (t, b) r) ->
  left_all n (run cap w r) < left_all n w.
Proof.
  intros w B C L H. destruct (busy_some_turn cap n w B C L) as (t & TN & E). destruct (H t TN) as (b & I). clear H.
  revert B L E I. induction r as [|(t', e') r IH]; [contradiction|]. intros B L E I. cbn [run].
  destruct (turn cap w t' e') as [w'|] eqn:T.
  - destruct (busy_turn _ _ _ _ _ _ B T) as [B' L']. destruct (busy_run cap n r _ B') as [_ LR]. lia.
  - destruct I as [[= -> ->]|I]; [now destruct (E b)|]. apply IH; assumption || exact I.
Qed.
Lemma busy_rounds cap n rounds : forall w, busy cap n w -> 1 <= cap -> all_served n rounds -> left_all n w <= length rounds ->
  left_all n (run cap w (concat rounds)) = 0.
Proof.
  induction rounds as [|r rs IH]; intros w B C F L; [cbn in *; lia|]. inversion F as [|? ? F1 F2]; subst. cbn [concat]. rewrite run_app.
  destruct (busy_run cap n r w B) as [B1 L1]. apply IH; [exact B1|exact C|exact F2|].
  destruct (Nat.eq_dec (left_all n w) 0) as [Z|NZ]; [lia|]. pose proof (busy_round cap n r w B C NZ F1). cbn in L. lia.
Qed.
Lemma nth_seq (ps : list (list (qop V))) : map (fun t => nth t ps []) (seq 0 (length ps)) = ps.
Proof.
  apply nth_ext with (d := nth 0 ps []) (d' := []); [now rewrite map_length, seq_length|]. intros i I. rewrite map_length, seq_length in I.
  rewrite (map_nth (fun t => nth t ps [])). now rewrite seq_nth.
Qed.
Lemma busy_start cap (ps : list (list (qop V))) : Forall one_way ps -> sends ps = receives ps -> busy cap (length ps) (start ps).
Proof.
  intros F E. split; cbn.
  - intros t. destruct (Nat.lt_ge_cases t (length ps)).
    + rewrite Forall_forall in F. apply F, nth_In, H.
    + rewrite nth_overflow by exact H. left. intros o [].
  - intros t L. now apply nth_overflow.
  - unfold left_sends, left_receives. cbn [todo start]. rewrite nth_seq. unfold sends, receives in E. lia.
  - lia.
Qed.
Lemma left_start (ps : list (list (qop V))) : left_all (length ps) (start ps) = length (concat ps).
Proof. unfold left_all. cbn [todo start]. now rewrite nth_seq. Qed.
Lemma left_none cap n w : busy cap n w -> left_all n w = 0 -> finished w /\ buffer w = [].
Proof.
  intros B L. assert (F : forall t, todo w t = []).
  { intros t. destruct (Nat.lt_ge_cases t n) as [T|T]; [|now apply (b_none _ _ _ B)].
    destruct (todo w t) as [|o r] eqn:E; [reflexivity|]. exfalso. unfold left_all in L.
    assert (I : In o (concat (map (todo w) (seq 0 n)))). { apply in_concat. exists (todo w t). split; [apply in_map, in_seq; lia|rewrite E; now left]. }
    destruct (concat _); [contradiction|discriminate]. }
  split; [exact F|]. pose proof (b_balance _ _ _ B) as BB. unfold left_receives, left_sends in BB.
  assert (Z : concat (map (todo w) (seq 0 n)) = []) by (apply length_zero_iff_nil; exact L). rewrite Z in BB. cbn in BB. apply length_zero_iff_nil. exact BB.
Qed.
End Hist.
