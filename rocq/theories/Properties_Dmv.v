(* Deques and queues made by move construction (C462-C464).  [left v]: the value a move leaves in
   an object holding v. *)
From Verif Require Import Base Deque_Spec Deque_Model Deque_Proofs Dmv_Model.

Lemma holds_own {A} N (q : deque A) l : holds N q l -> forall x l', l = x :: l' ->
  nth_error (arr q) (mfront q) = Some (Slot x true).
Proof.
  intros H x l' ->. pose proof (h_front _ _ _ H).
  destruct H as [P C F L B E El]. specialize (El 0 x).
  replace (ring N (mfront q) 0) with (mfront q) in El by ringsolve. apply El. reflexivity.
Qed.

(* ---- C462: the new deque answers size() and empty() as the old one did. *)
Theorem C462_same_size : forall A left N (d : A) ops q m, 0 < N -> history_ok N ops [] ->
  do_ops true ops (dq_init N d) = Ok q -> move_deque true left q = Ok m ->
  mv_size m = length (seq_run ops []) /\ mv_empty m = (match seq_run ops [] with [] => true | _ => false end).
Proof.
  intros A left N d ops q m HN Ho E M. destruct (reachable true N d ops) as (q1 & E1 & Hh); auto.
  rewrite E in E1. injection E1 as <-. unfold move_deque in M. cbn in M. injection M as <-.
  destruct (holds_observe true N q _ Hh) as (O1 & O2 & _). split; [|exact O1].
  rewrite <- O2. reflexivity.
Qed.
Print Assumptions C462_same_size.
(* and the move itself is defined for trivial elements *)
Theorem C462_defined : forall A left N (d : A) ops, 0 < N -> history_ok N ops [] ->
  exists q m, do_ops true ops (dq_init N d) = Ok q /\ move_deque true left q = Ok m.
Proof.
  intros A left N d ops HN Ho. destruct (reachable true N d ops) as (q1 & E1 & Hh); auto.
  exists q1. eexists. split; [exact E1|reflexivity].
Qed.
Print Assumptions C462_defined.
Example C462_case :
  let ops := [PushBack 1; PushBack 2; PopFront; PushBack 3; PushBack 4] in
  history_ok 3 ops [] /\
  exists q m, do_ops true ops (dq_init 3 0) = Ok q /\ move_deque true (fun x => x) q = Ok m /\ mv_size m = 3.
Proof. cbn. repeat split; try lia; try discriminate. do 2 eexists. repeat split. Qed.

(* ---- C463: the elements of the new deque are its own.  Not so: front() refers to the element
   of the old deque that was moved from ... *)
Theorem C463_moved_from_value_refuted : forall A triv left N (d : A) ops q m x l', 0 < N ->
  (triv = true \/ Forall constructs ops) -> history_ok N ops [] -> seq_run ops [] = x :: l' ->
  do_ops triv ops (dq_init N d) = Ok q -> move_deque triv left q = Ok m ->
  mv_front_value triv m = Ok (left x).
Proof.
  intros A triv left N d ops q m x l' HN Ht Ho Hl E M. destruct (reachable triv N d ops) as (q1 & E1 & Hh); auto.
  rewrite E in E1. injection E1 as <-. pose proof (holds_own N q _ Hh x l' Hl) as Hx.
  unfold move_deque in M. destruct (triv || forallb alive (arr q)); [|discriminate]. injection M as <-.
  unfold mv_front_value. cbn. unfold load, rd. rewrite nth_error_map, Hx. reflexivity.
Qed.
Print Assumptions C463_moved_from_value_refuted.
(* ... and is undefined once the old deque is gone. *)
Theorem C463_source_gone_refuted : forall A triv left (q : deque A) m,
  move_deque triv left q = Ok m ->
  mv_front_value triv (source_gone m) = UB /\ mv_pop triv (source_gone m) = UB /\
  forall v, mv_push (source_gone m) v = UB.
Proof.
  intros A triv left q m M. unfold move_deque in M. destruct (triv || forallb alive (arr q)); [|discriminate].
  injection M as <-. repeat split.
Qed.
Print Assumptions C463_source_gone_refuted.
(* Elements with destructors: moving a deque from which an element was just popped is undefined,
   all N objects are moved, the destroyed ones too. *)
Theorem C463_popped_refuted : forall A left N (d : A) ops q, 0 < N -> Forall constructs ops ->
  history_ok N (ops ++ [PopFront]) [] -> do_ops false (ops ++ [PopFront]) (dq_init N d) = Ok q ->
  move_deque false left q = UB.
Proof.
  intros A left N d ops q HN Ht Ho E.
  assert (Ho1 : history_ok N ops [] /\ seq_run ops [] <> []).
  { clear E Ht q. assert (G : forall l, history_ok N (ops ++ [PopFront]) l -> history_ok N ops l /\ seq_run ops l <> []).
    { clear Ho. induction ops as [|o os IH]; intros l H; cbn in *; [tauto|].
      destruct H as [H1 H2]. destruct (IH _ H2). tauto. }
    exact (G [] Ho). }
  destruct Ho1 as [Ho1 Hne]. destruct (reachable false N d ops) as (q1 & E1 & Hh); auto.
  rewrite do_ops_app, E1 in E. cbn in E.
  destruct (seq_run ops []) as [|x l'] eqn:Hl; [congruence|].
  pose proof (holds_own N q1 _ Hh x l' eq_refl) as Hx.
  unfold pop_front, destroy, rd in E. rewrite Hx in E. cbn in E.
  assert (Hlt : mfront q1 < length (arr q1)) by (apply nth_error_Some; congruence).
  rewrite wr_ok in E by exact Hlt. cbn in E. injection E as <-.
  assert (D : forall m i, i < length m -> forallb alive (upd m i (Slot x false)) = false).
  { clear. induction m as [|s m IH]; intros [|i] H; cbn in *; try lia.
    rewrite IH by lia. apply andb_false_r. }
  unfold move_deque. cbn [arr orb]. rewrite D by exact Hlt. reflexivity.
Qed.
Print Assumptions C463_popped_refuted.
Example C463_case :
  exists q m, do_ops false [PushBackMove 7; EmplaceBack 8] (dq_init 3 0) = Ok q /\
    move_deque false (fun _ => 0) q = Ok m /\ mv_front_value false m = Ok 0 /\
    exists q', do_ops false ([PushBackMove 7; EmplaceBack 8] ++ [PopFront]) (dq_init 3 0) = Ok q' /\
    history_ok 3 ([PushBackMove 7; EmplaceBack 8] ++ [PopFront]) [].
Proof. do 2 eexists. repeat split; cbn; try lia; try discriminate. eexists. repeat split; try lia; try discriminate. Qed.

(* ---- C464: the new deque is circular.  Not so: its pointers never roll over at the end of the
   old deque's array, so that pushing and popping N + 1 times is undefined, whatever it held. *)
Definition in_theirs {A} (N : nat) (m : moved A) (b : nat) : Prop :=
  length (own m) = N /\ (exists a, theirs m = Some a /\ length a = N) /\ mv_back m = Theirs b /\
  exists f, mv_front m = Theirs f.

Lemma push_moves {A} N (m : moved A) b v : in_theirs N m b ->
  (b < N /\ exists m', mv_push m v = Ok m' /\ in_theirs N m' (b + 1)) \/ (N <= b /\ mv_push m v = UB).
Proof.
  intros (Lo & (a & Ea & La) & Eb & f & Ef). unfold mv_push, step. rewrite Eb. cbn [array_at]. rewrite Ea. cbn [bind index].
  destruct (Nat.ltb_spec b (length a)) as [Hb|Hb].
  - left. split; [lia|]. cbn [bind]. rewrite construct_ok by lia. cbn [bind with_array]. eexists. split; [reflexivity|].
    unfold in_theirs. cbn. split; [exact Lo|]. split; [eexists; split; [reflexivity|]|split; [reflexivity|now exists f]].
    clear -La. subst N. generalize (Slot v true). generalize b. induction a as [|s a IH]; intros [|i] w; cbn; auto.
  - right. split; [lia|reflexivity].
Qed.

Lemma pop_moves {A} N (m : moved A) b : in_theirs N m b ->
  mv_pop true m = UB \/ exists m', mv_pop true m = Ok m' /\ in_theirs N m' b.
Proof.
  intros (Lo & (a & Ea & La) & Eb & f & Ef). unfold mv_pop. rewrite Ef. cbn [array_at index]. rewrite Ea. cbn [bind].
  unfold destroy, rd. destruct (nth_error a f) as [s|] eqn:En; [|left; reflexivity]. cbn [bind with_array].
  assert (Hf : f < length a) by (apply nth_error_Some; congruence).
  unfold step. cbn [mv_front]. rewrite Ef. cbn [array_at theirs bind index].
  destruct (Nat.ltb_spec f (length a)); [|lia]. cbn [bind]. right. eexists. split; [reflexivity|].
  unfold in_theirs. cbn. split; [exact Lo|]. split; [now exists a|]. split; [exact Eb|]. now exists (f + 1).
Qed.

Theorem C464_no_rollover_refuted : forall A left N (d v : A) ops q m, 0 < N -> history_ok N ops [] ->
  do_ops true ops (dq_init N d) = Ok q -> move_deque true left q = Ok m ->
  mv_rounds true (S N) v m = UB.
Proof.
  intros A left N d v ops q m HN Ho E M. destruct (reachable true N d ops) as (q1 & E1 & Hh); auto.
  rewrite E in E1. injection E1 as <-. unfold move_deque in M. cbn in M. injection M as <-.
  assert (I : in_theirs N (Moved (arr q) (Some (map (fun s => Slot (left (sval s)) (alive s)) (arr q)))
    (Theirs (mfront q)) (Theirs (mback q)) (mempty q)) (mback q)).
  { unfold in_theirs. cbn. pose proof (h_cap _ _ _ Hh). split; [assumption|].
    split; [eexists; split; [reflexivity|]; now rewrite map_length|]. split; [reflexivity|]. now exists (mfront q). }
  revert I. match goal with |- context [mv_rounds _ _ _ ?x] => generalize x end. generalize (mback q) as b.
  assert (G : forall k m0 b, in_theirs N m0 b -> N < b + k -> mv_rounds true k v m0 = UB \/ N < b).
  { induction k as [|k IH]; intros m0 b I Hk; [right; lia|]. cbn [mv_rounds].
    destruct (push_moves N m0 b v I) as [(Hb & m1 & -> & I1)|(Hb & ->)]; [|left; reflexivity]. cbn [bind].
    destruct (pop_moves N m1 (b + 1) I1) as [->|(m2 & -> & I2)]; [left; reflexivity|]. cbn [bind].
    destruct (IH m2 (b + 1) I2 ltac:(lia)); [now left|right; lia]. }
  intros b m0 I. destruct (le_lt_dec b N) as [Hb|Hb].
  - destruct (G (S N) m0 b I ltac:(lia)); [assumption|lia].
  - cbn [mv_rounds]. destruct (push_moves N m0 b v I) as [(Hb' & _)|(_ & ->)]; [lia|reflexivity].
Qed.
Print Assumptions C464_no_rollover_refuted.
(* The deque moved from, by contrast, goes on for any number of rounds when it has room (C19). *)
Example C464_case :
  history_ok 3 [PushBack 1] [] /\ history_ok 3 ([PushBack 1] ++ concat (repeat [PushBackMove 5; PopFront] 4)) [] /\
  exists q m, do_ops true [PushBack 1] (dq_init 3 0) = Ok q /\ move_deque true (fun x => x) q = Ok m /\
    (exists m2, mv_rounds true 2 5 m = Ok m2) /\ mv_rounds true 4 5 m = UB.
Proof.
  repeat split; try (cbn; lia); try discriminate. do 2 eexists. split; [reflexivity|]. split; [reflexivity|].
  split; [eexists; reflexivity|reflexivity].
Qed.
