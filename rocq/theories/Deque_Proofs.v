From Verif Require Import Base BaseLemmas Deque_Model Deque_Spec.
Local Open Scope res_scope.

(* position i of the ring of N slots *)
Definition ring (N f i : nat) : nat := if f + i <? N then f + i else f + i - N.

Record holds {A} (N : nat) (q : deque A) (l : list A) : Prop := Holds {
  h_pos : 0 < N;
  h_cap : length (arr q) = N;
  h_front : mfront q < N;
  h_len : length l <= N;
  h_back : mback q = ring N (mfront q) (length l) \/ (length l = N /\ mback q = mfront q);
  h_empty : mempty q = match l with [] => true | _ => false end;
  h_elems : forall i v, nth_error l i = Some v -> nth_error (arr q) (ring N (mfront q) i) = Some (Slot v true) }.

Lemma ring_lt N f i : f < N -> i <= N -> ring N f i < N \/ (i = N /\ ring N f i = f).
Proof. intros. unfold ring. destruct (Nat.ltb_spec (f + i) N); lia. Qed.

Ltac ringsolve := unfold ring, cap in *;
  repeat (match goal with
          | |- context [?a <? ?b] => destruct (Nat.ltb_spec a b)
          | |- context [?a =? ?b] => destruct (Nat.eqb_spec a b)
          | H : context [?a <? ?b] |- _ => destruct (Nat.ltb_spec a b)
          | H : context [?a =? ?b] |- _ => destruct (Nat.eqb_spec a b)
          end); try lia.

Lemma back_eq {A} N (q : deque A) l : holds N q l -> mback q = ring N (mfront q) (length l).
Proof. intros H. destruct (h_back _ _ _ H) as [|[E1 E2]]; [assumption|]. pose proof (h_front _ _ _ H). ringsolve. Qed.

Lemma ring_inj N f i j : f < N -> i < N -> j < N -> ring N f i = ring N f j -> i = j.
Proof. intros. ringsolve. Qed.

Lemma wr_ok {A} (m : list A) i v : i < length m -> wr m i v = Ok (upd m i v).
Proof. intros. unfold wr. destruct (Nat.ltb_spec i (length m)); [reflexivity|lia]. Qed.

Lemma construct_ok {A} (m : list (slot A)) i v : i < length m -> construct m i v = Ok (upd m i (Slot v true)).
Proof. apply wr_ok. Qed.

Lemma rd_lt {A} (m : list A) i : i < length m -> exists x, rd m i = Ok x /\ nth_error m i = Some x.
Proof.
  intros H. unfold rd. destruct (nth_error m i) as [x|] eqn:E; [eauto|]. apply nth_error_None in E. lia.
Qed.

Lemma assign_ok {A} triv (m : list (slot A)) i v : i < length m ->
  triv = true \/ (exists w, nth_error m i = Some (Slot w true)) -> assign triv m i v = Ok (upd m i (Slot v true)).
Proof.
  intros Hi H. unfold assign. destruct (rd_lt m i Hi) as (x & -> & E). cbn [bind].
  replace (alive x || triv) with true; [apply wr_ok; exact Hi|].
  destruct H as [->|(w & E')]; [now rewrite orb_true_r|]. rewrite E in E'. injection E' as ->. reflexivity.
Qed.

Lemma load_ok {A} triv (m : list (slot A)) i v : nth_error m i = Some (Slot v true) -> load triv m i = Ok v.
Proof. intros E. unfold load, rd. rewrite E. reflexivity. Qed.

Lemma destroy_ok {A} triv (m : list (slot A)) i v : nth_error m i = Some (Slot v true) ->
  exists m', destroy triv m i = Ok m' /\ length m' = length m /\
    (forall j, j <> i -> nth_error m' j = nth_error m j).
Proof.
  intros E. unfold destroy, rd. rewrite E. cbn [bind]. destruct triv; [eauto|]. cbn [alive sval].
  assert (i < length m) by (apply nth_error_Some; congruence). rewrite wr_ok by assumption.
  eexists. split; [reflexivity|]. split; [apply upd_length|]. intros j Hj. apply nth_error_upd_neq. congruence.
Qed.

(* adding at the back *)
Lemma add_back {A} N (q : deque A) l v : holds N q l -> length l < N ->
  mback q < length (arr q) /\
  holds N (Deque (upd (arr q) (mback q) (Slot v true)) (mfront q) (rollover q (mback q + 1)) false) (l ++ [v]).
Proof.
  intros H Hl. pose proof (back_eq _ _ _ H) as Hb. destruct H as [P C F L _ E El].
  assert (Hlt : mback q < N) by (rewrite Hb; ringsolve).
  split; [lia|]. constructor; cbn [arr mfront mback mempty].
  - exact P.
  - rewrite upd_length. exact C.
  - exact F.
  - rewrite app_length. cbn. lia.
  - rewrite app_length. cbn [length]. left. unfold rollover, cap. rewrite C, Hb. clear - P F Hl. ringsolve.
  - destruct l; reflexivity.
  - intros i w Hi. rewrite nth_error_upd, C.
    destruct (Nat.lt_ge_cases i (length l)) as [Hlt'|Hge].
    + rewrite nth_error_app1 in Hi by assumption. specialize (El _ _ Hi).
      destruct (Nat.eqb_spec (mback q) (ring N (mfront q) i)) as [Heq|_]; [|exact El].
      rewrite Hb in Heq. apply ring_inj in Heq; lia.
    + rewrite nth_error_app2 in Hi by assumption.
      destruct (i - length l) as [|k] eqn:Ei; [|destruct k; discriminate]. injection Hi as ->.
      replace i with (length l) by lia. rewrite <- Hb, Nat.eqb_refl.
      destruct (Nat.ltb_spec (mback q) N); [reflexivity|lia].
Qed.

Lemma dec_lt {A} N (q : deque A) i : cap q = N -> 0 < N -> i < N -> decrement q i < N.
Proof. intros. unfold decrement. ringsolve. Qed.

(* adding at the front *)
Lemma add_front {A} N (q : deque A) l v : holds N q l -> length l < N ->
  let f := decrement q (mfront q) in
  f < length (arr q) /\ holds N (Deque (upd (arr q) f (Slot v true)) f (mback q) false) (v :: l).
Proof.
  intros H Hl f. pose proof (back_eq _ _ _ H) as Hb. destruct H as [P C F L _ E El].
  assert (Hf : f < N) by (apply dec_lt; [exact C|lia|lia]).
  assert (Hring : forall i, i < N -> ring N f (S i) = ring N (mfront q) i).
  { intros i Hi. subst f. unfold decrement, cap. rewrite C. ringsolve. }
  split; [lia|]. constructor; cbn [arr mfront mback mempty].
  - exact P.
  - rewrite upd_length. exact C.
  - exact Hf.
  - cbn. lia.
  - left. cbn [length]. rewrite Hring by lia. exact Hb.
  - reflexivity.
  - intros i w Hi. rewrite nth_error_upd, C. destruct i as [|i].
    + injection Hi as ->. replace (ring N f 0) with f by ringsolve. rewrite Nat.eqb_refl.
      destruct (Nat.ltb_spec f N); [reflexivity|lia].
    + cbn in Hi. assert (i < length l) by (apply nth_error_Some; congruence).
      rewrite Hring by lia. specialize (El _ _ Hi).
      destruct (Nat.eqb_spec f (ring N (mfront q) i)) as [Heq|_]; [|exact El].
      rewrite <- (Hring i) in Heq by lia. replace f with (ring N f 0) in Heq at 1 by ringsolve.
      apply ring_inj in Heq; lia.
Qed.

Lemma removelast_length {A} (l : list A) : length (removelast l) = length l - 1.
Proof. induction l as [|x [|y l] IH]; cbn in *; lia. Qed.
Lemma nth_error_removelast {A} (l : list A) i : i < length l - 1 -> nth_error (removelast l) i = nth_error l i.
Proof.
  revert i. induction l as [|x [|y l] IH]; intros i H; cbn in H; try lia.
  destruct i as [|i]; [reflexivity|]. cbn [removelast nth_error]. apply IH. cbn. lia.
Qed.

(* dropping from the back *)
Lemma drop_back {A} triv N (q : deque A) l : holds N q l -> l <> [] ->
  exists q', pop_back triv q = Ok (true, q') /\ holds N q' (removelast l).
Proof.
  intros H Hl. pose proof (back_eq _ _ _ H) as Hb. destruct H as [P C F L _ E El].
  assert (Hlen : 0 < length l) by (destruct l; [congruence|cbn; lia]).
  assert (Hd : decrement q (mback q) = ring N (mfront q) (length l - 1)).
  { unfold decrement, cap. rewrite C, Hb. ringsolve. }
  destruct (nth_error l (length l - 1)) as [v|] eqn:Ev; [|apply nth_error_None in Ev; lia].
  unfold pop_back. rewrite Hd.
  destruct (destroy_ok triv (arr q) _ v (El _ _ Ev)) as (m' & -> & Lm & Hm). cbn [bind].
  eexists. split; [reflexivity|]. constructor; cbn [arr mfront mback mempty].
  - exact P.
  - lia.
  - exact F.
  - rewrite removelast_length. lia.
  - left. rewrite removelast_length. reflexivity.
  - assert (G : removelast l = [] <-> length l = 1).
    { pose proof (removelast_length l). split; intros Q; [rewrite Q in H; cbn in H; lia|].
      destruct (removelast l); [reflexivity|cbn in H; lia]. }
    destruct (Nat.eqb_spec (mfront q) (ring N (mfront q) (length l - 1))) as [Heq|Hne].
    + replace (removelast l) with (@nil A); [reflexivity|]. symmetry. apply G.
      replace (mfront q) with (ring N (mfront q) 0) in Heq at 1 by ringsolve. apply ring_inj in Heq; lia.
    + rewrite E. destruct (removelast l) eqn:Q; [|destruct l; [congruence|reflexivity]].
      exfalso. apply Hne. assert (length l = 1) by (apply G; reflexivity). rewrite H. ringsolve.
  - intros i w Hi. assert (i < length (removelast l)) by (apply nth_error_Some; congruence).
    rewrite removelast_length in H. rewrite nth_error_removelast in Hi by assumption.
    rewrite Hm; [apply El; exact Hi|]. intros Heq. apply ring_inj in Heq; lia.
Qed.

(* dropping from the front *)
Lemma drop_front {A} triv N (q : deque A) l : holds N q l -> l <> [] ->
  exists q', pop_front triv q = Ok (true, q') /\ holds N q' (tl l).
Proof.
  intros H Hl. pose proof (back_eq _ _ _ H) as Hb. destruct H as [P C F L _ E El].
  destruct l as [|v l]; [congruence|]. cbn [tl length] in *.
  unfold pop_front. pose proof (El 0 v eq_refl) as E0. replace (ring N (mfront q) 0) with (mfront q) in E0 by ringsolve.
  destruct (destroy_ok triv (arr q) _ v E0) as (m' & -> & Lm & Hm). cbn [bind].
  set (f := rollover q (mfront q + 1)).
  assert (Hf : f < N) by (subst f; unfold rollover; ringsolve).
  assert (Hring : forall i, i < N -> ring N f i = ring N (mfront q) (S i)).
  { intros i Hi. subst f. unfold rollover. ringsolve. }
  eexists. split; [reflexivity|]. constructor; cbn [arr mfront mback mempty].
  - exact P.
  - lia.
  - exact Hf.
  - lia.
  - left. rewrite Hring by lia. exact Hb.
  - assert (G : f = mback q <-> l = []).
    { rewrite Hb, <- Hring by lia. replace f with (ring N f 0) at 1 by ringsolve. split.
      - intros Q. apply ring_inj in Q; try lia. destruct l; [reflexivity|cbn in Q; lia].
      - intros ->. reflexivity. }
    destruct (Nat.eqb_spec f (mback q)) as [Heq|Hne].
    + apply G in Heq. subst l. reflexivity.
    + rewrite E. destruct l; [exfalso; apply Hne, G; reflexivity|reflexivity].
  - intros i w Hi. assert (i < length l) by (apply nth_error_Some; congruence).
    rewrite Hring by lia. rewrite Hm; [apply (El (S i)); exact Hi|].
    intros Heq. replace (mfront q) with (ring N (mfront q) 0) in Heq at 2 by ringsolve. apply ring_inj in Heq; lia.
Qed.

Lemma do_op_ok {A} triv N (q : deque A) l o : holds N q l -> allowed N o l ->
  triv = true \/ constructs o ->
  exists q', do_op triv o q = Ok q' /\ holds N q' (seq_step o l).
Proof.
  intros H Ha Ht. destruct o as [v|v|v|v| |]; cbn [do_op seq_step allowed constructs] in *.
  - destruct (add_back N q l v H Ha) as [Hb Hh]. unfold push_back.
    rewrite assign_ok; [|assumption|left; destruct Ht; [assumption|contradiction]]. cbn [bind]. eauto.
  - destruct (add_back N q l v H Ha) as [Hb Hh]. unfold push_back_move. rewrite construct_ok by assumption. cbn [bind]. eauto.
  - destruct (add_back N q l v H Ha) as [Hb Hh]. unfold emplace_back. rewrite construct_ok by assumption. cbn [bind]. eauto.
  - destruct (add_front N q l v H Ha) as [Hb Hh]. unfold push_front.
    rewrite assign_ok; [|assumption|left; destruct Ht; [assumption|contradiction]]. cbn [bind]. eauto.
  - destruct (drop_back triv N q l H Ha) as (q' & -> & Hh). cbn [bind]. eauto.
  - destruct (drop_front triv N q l H Ha) as (q' & -> & Hh). cbn [bind]. eauto.
Qed.

Lemma do_ops_ok {A} triv N ops : (triv = true \/ Forall constructs ops) -> forall (q : deque A) l,
  holds N q l -> history_ok N ops l -> exists q', do_ops triv ops q = Ok q' /\ holds N q' (seq_run ops l).
Proof.
  intros Ht. induction ops as [|o ops IH]; intros q l H Ho; cbn [do_ops seq_run].
  - eauto.
  - destruct Ho as [Ha Ho].
    destruct (do_op_ok triv N q l o H Ha) as (q' & -> & H').
    { destruct Ht as [|Ht]; [left; assumption|right; inversion Ht; assumption]. }
    cbn [bind]. apply IH; auto. destruct Ht as [|Ht]; [left; assumption|right; inversion Ht; assumption].
Qed.

Lemma init_holds {A} N (d : A) : 0 < N -> holds N (dq_init N d) [].
Proof.
  intros. constructor; cbn.
  - assumption.
  - apply repeat_length.
  - assumption.
  - lia.
  - left. ringsolve.
  - reflexivity.
  - intros [|i] v; discriminate.
Qed.

Lemma hd_nth {A} (l : list A) : hd_error l = nth_error l 0.
Proof. destruct l; reflexivity. Qed.

(* what can be observed *)
Lemma holds_observe {A} triv N (q : deque A) l : holds N q l ->
  dq_empty q = (match l with [] => true | _ => false end) /\ dq_size q = length l /\
  (forall x l', l = x :: l' -> dq_front triv q = Ok x) /\
  (forall x l', l = l' ++ [x] -> dq_back triv q = Ok x).
Proof.
  intros H. pose proof (back_eq _ _ _ H) as Hb. destruct H as [P C F L _ E El].
  split; [exact E|]. split; [|split].
  - unfold dq_size, dq_empty. rewrite E. destruct l as [|v l]; [reflexivity|].
    unfold raw_size, cap. rewrite C, Hb. cbn [length] in *. ringsolve.
  - intros x l' ->. unfold dq_front. apply load_ok. pose proof (El 0 x eq_refl) as E0.
    replace (ring N (mfront q) 0) with (mfront q) in E0 by ringsolve. exact E0.
  - intros x l' ->. unfold dq_back. apply load_ok.
    assert (Ev : nth_error (l' ++ [x]) (length l') = Some x).
    { rewrite nth_error_app2, Nat.sub_diag by lia. reflexivity. }
    apply El in Ev. rewrite app_length in Hb. cbn [length] in Hb. rewrite app_length in L. cbn in L.
    replace (decrement q (mback q)) with (ring N (mfront q) (length l')); [exact Ev|].
    unfold decrement, cap. rewrite C, Hb. ringsolve.
Qed.

Lemma seq_run_app {A} (a b : list (dop A)) l : seq_run (a ++ b) l = seq_run b (seq_run a l).
Proof. revert l. induction a; intros; cbn; auto. Qed.

Lemma do_ops_app {A} triv (a b : list (dop A)) q : do_ops triv (a ++ b) q = (q' <- do_ops triv a q ;; do_ops triv b q').
Proof. revert q. induction a as [|o a IH]; intros q; cbn; [reflexivity|]. destruct (do_op triv o q); cbn; auto. Qed.

Lemma reachable {A} triv N (d : A) ops : 0 < N -> (triv = true \/ Forall constructs ops) -> history_ok N ops [] ->
  exists q, do_ops triv ops (dq_init N d) = Ok q /\ holds N q (seq_run ops []).
Proof. intros. apply do_ops_ok; auto. now apply init_holds. Qed.

Lemma C19_main {A} triv N (d : A) ops : 0 < N -> (triv = true \/ Forall constructs ops) -> history_ok N ops [] ->
  exists q, do_ops triv ops (dq_init N d) = Ok q /\
  let l := seq_run ops [] in
  dq_empty q = (match l with [] => true | _ => false end) /\ dq_size q = length l /\
  (forall x l', l = x :: l' -> dq_front triv q = Ok x) /\
  (forall x l', l = l' ++ [x] -> dq_back triv q = Ok x).
Proof.
  intros. destruct (reachable triv N d ops) as (q & E & Hh); auto. exists q. split; [exact E|].
  now apply (holds_observe triv N).
Qed.

(* assigning to the destroyed element of a slot used before *)
Lemma seq_pairs {A} (v : A) k : seq_run (concat (repeat [PushBackMove v; PopFront] k)) [] = [].
Proof. induction k; cbn; auto. Qed.

Definition dead_upto {A} (m : list (slot A)) (k : nat) : Prop :=
  forall i, i < k -> exists w, nth_error m i = Some (Slot w false).

Lemma pairs_state {A} (v : A) m k N : length m = N -> k < N -> dead_upto m k ->
  exists m', do_ops false [PushBackMove v; PopFront] (Deque m k k true)
             = Ok (Deque m' (if Nat.eqb (k + 1) N then 0 else k + 1) (if Nat.eqb (k + 1) N then 0 else k + 1) true) /\
    length m' = N /\ dead_upto m' (k + 1).
Proof.
  intros Lm Hk Hd. cbn [do_ops do_op]. unfold push_back_move. cbn [arr mback mfront].
  rewrite construct_ok by lia. cbn [bind snd]. unfold pop_front; cbn [arr mfront mback mempty].
  unfold destroy, rd. rewrite nth_error_upd_eq by lia. cbn [bind alive sval].
  rewrite wr_ok by (rewrite upd_length; lia). cbn [bind snd]. unfold rollover, cap; cbn [arr]. rewrite !upd_length, Lm.
  rewrite Nat.eqb_refl. eexists. split; [reflexivity|]. split; [now rewrite !upd_length|].
  intros i Hi. rewrite nth_error_upd, !upd_length.
  destruct (Nat.eqb_spec k i) as [->|Hne].
  - destruct (Nat.ltb_spec i (length m)); [eauto|lia].
  - rewrite nth_error_upd_neq by congruence. apply Hd. lia.
Qed.

Lemma pairs_run {A} (v : A) N : forall k m j, length m = N -> j + k = N -> 0 < k -> dead_upto m j ->
  exists m', do_ops false (concat (repeat [PushBackMove v; PopFront] k)) (Deque m j j true) = Ok (Deque m' 0 0 true) /\
    length m' = N /\ dead_upto m' N.
Proof.
  induction k as [|k IH]; intros m j Lm Hjk Hk Hd; [lia|].
  cbn [repeat concat]. rewrite do_ops_app.
  destruct (pairs_state v m j N Lm ltac:(lia) Hd) as (m' & -> & Lm' & Hd'). cbn [bind].
  destruct k as [|k].
  - replace (Nat.eqb (j + 1) N) with true by (symmetry; apply Nat.eqb_eq; lia). cbn. exists m'.
    split; [reflexivity|]. split; [exact Lm'|]. replace N with (j + 1) by lia. exact Hd'.
  - replace (Nat.eqb (j + 1) N) with false by (symmetry; apply Nat.eqb_neq; lia).
    apply IH; auto; lia.
Qed.

Lemma C19_reuse {A} N (d v w : A) : 0 < N ->
  history_ok N (concat (repeat [PushBackMove v; PopFront] N) ++ [PushBack w]) [] /\
  do_ops false (concat (repeat [PushBackMove v; PopFront] N) ++ [PushBack w]) (dq_init N d) = UB.
Proof.
  intros HN. split.
  - assert (G : forall k tail, history_ok N tail [] ->
      history_ok N (concat (repeat [PushBackMove v; PopFront] k) ++ tail) []).
    { induction k; intros tail Ht; cbn; [exact Ht|]. split; [exact HN|]. split; [discriminate|]. apply IHk. exact Ht. }
    apply G. cbn. auto.
  - rewrite do_ops_app. unfold dq_init.
    destruct (pairs_run v N N (repeat (Slot d true) N) 0) as (m' & -> & Lm & Hd); auto.
    + apply repeat_length.
    + intros i Hi. lia.
    + cbn [bind do_ops do_op]. unfold push_back, assign; cbn [arr mback].
      destruct (Hd 0 HN) as [x E]. unfold rd. rewrite E. reflexivity.
Qed.

(* ---- iteration ---- *)
Lemma visit_ok {A} triv N (q : deque A) l : holds N q l -> length l < N -> forall k fuel,
  k <= length l -> length l - k < fuel ->
  visit triv fuel q (ring N (mfront q) k) = Ok (skipn k l).
Proof.
  intros H Hl k fuel. pose proof (back_eq _ _ _ H) as Hb. destruct H as [P C F L _ E El].
  revert k. induction fuel as [|fuel IH]; intros k Hk Hf; [lia|]. cbn [visit]. rewrite Hb.
  destruct (Nat.eqb_spec (ring N (mfront q) k) (ring N (mfront q) (length l))) as [Heq|Hne].
  - apply ring_inj in Heq; try lia. subst k. now rewrite skipn_all.
  - assert (k < length l) by (destruct (Nat.eq_dec k (length l)); [subst; congruence|lia]).
    destruct (nth_error l k) as [v|] eqn:Ev; [|apply nth_error_None in Ev; lia].
    rewrite (load_ok triv (arr q) _ v) by (apply El; exact Ev). cbn [bind].
    replace (increment q (ring N (mfront q) k)) with (ring N (mfront q) (S k)).
    + rewrite IH by lia. cbn [bind]. f_equal. symmetry.
      clear - Ev. revert k Ev. induction l as [|x l IHl]; intros [|k] Ev; cbn in *; try discriminate.
      * congruence.
      * now apply IHl.
    + unfold increment, rollover. ringsolve.
Qed.

Lemma iterate_ok {A} triv N (q : deque A) l : holds N q l -> length l < N -> iterate triv q = Ok l.
Proof.
  intros H Hl. unfold iterate. pose proof (h_cap _ _ _ H) as C. pose proof (h_front _ _ _ H).
  pose proof (visit_ok triv N q l H Hl 0 (S (cap q)) ltac:(lia) ltac:(unfold cap; lia)) as G.
  replace (ring N (mfront q) 0) with (mfront q) in G by ringsolve. exact G.
Qed.

Lemma iterate_full {A} triv N (q : deque A) l : holds N q l -> length l = N -> iterate triv q = Ok [].
Proof.
  intros H Hl. pose proof (back_eq _ _ _ H) as Hb. destruct H as [P C F L _ E El].
  unfold iterate. cbn [visit]. rewrite Hb. destruct (Nat.eqb_spec (mfront q) (ring N (mfront q) (length l))); [reflexivity|].
  exfalso. apply n. ringsolve.
Qed.

Lemma visit_back_ok {A} triv N (q : deque A) l : holds N q l -> length l < N -> forall k fuel,
  k <= length l -> k < fuel -> visit_back triv fuel q (ring N (mfront q) k) = Ok (rev (firstn k l)).
Proof.
  intros H Hl k fuel. destruct H as [P C F L _ E El]. revert k.
  induction fuel as [|fuel IH]; intros k Hk Hf; [lia|]. cbn [visit_back].
  destruct k as [|k].
  - replace (ring N (mfront q) 0) with (mfront q) by ringsolve. rewrite Nat.eqb_refl. reflexivity.
  - destruct (Nat.eqb_spec (ring N (mfront q) (S k)) (mfront q)) as [Heq|_].
    { replace (mfront q) with (ring N (mfront q) 0) in Heq at 2 by ringsolve. apply ring_inj in Heq; lia. }
    replace (decrement q (ring N (mfront q) (S k))) with (ring N (mfront q) k) by (unfold decrement; ringsolve).
    destruct (nth_error l k) as [v|] eqn:Ev; [|apply nth_error_None in Ev; lia].
    rewrite (load_ok triv (arr q) _ v) by (apply El; exact Ev). cbn [bind]. rewrite IH by lia. cbn [bind]. f_equal.
    assert (G : firstn (S k) l = firstn k l ++ [v]).
    { clear - Ev. revert k Ev. induction l as [|x l IHl]; intros [|k] Ev; cbn in *; try discriminate.
      - congruence.
      - f_equal. now apply IHl. }
    rewrite G, rev_app_distr. reflexivity.
Qed.

Lemma iterate_back_ok {A} triv N (q : deque A) l : holds N q l -> length l < N -> iterate_back triv q = Ok (rev l).
Proof.
  intros H Hl. unfold iterate_back. rewrite (back_eq _ _ _ H). pose proof (h_cap _ _ _ H).
  rewrite (visit_back_ok triv N q l H Hl) by (unfold cap; lia). now rewrite firstn_all.
Qed.

Lemma C20_iter {A} triv N (d : A) ops : 0 < N -> (triv = true \/ Forall constructs ops) -> history_ok N ops [] ->
  length (seq_run ops []) < N ->
  exists q, do_ops triv ops (dq_init N d) = Ok q /\ iterate triv q = Ok (seq_run ops []) /\
    iterate_back triv q = Ok (rev (seq_run ops [])).
Proof.
  intros. destruct (reachable triv N d ops) as (q & E & Hh); auto. exists q. split; [exact E|].
  split; [now apply (iterate_ok triv N)|now apply (iterate_back_ok triv N)].
Qed.

Lemma C20_full {A} triv N (d : A) ops : 0 < N -> (triv = true \/ Forall constructs ops) -> history_ok N ops [] ->
  length (seq_run ops []) = N ->
  exists q, do_ops triv ops (dq_init N d) = Ok q /\ dq_size q = N /\ iterate triv q = Ok [].
Proof.
  intros. destruct (reachable triv N d ops) as (q & E & Hh); auto. exists q. split; [exact E|].
  split; [|now apply (iterate_full triv N q (seq_run ops []))].
  destruct (holds_observe triv N q _ Hh) as (_ & -> & _). assumption.
Qed.

(* ---- full and empty ---- *)
Lemma C21_push {A} N (d v : A) ops : 1 < N -> history_ok N ops [] -> length (seq_run ops []) = N ->
  exists q q', do_ops true ops (dq_init N d) = Ok q /\ push_back true q v = Ok (true, q') /\ dq_size q' = 1.
Proof.
  intros HN Ho Hl. destruct (reachable true N d ops) as (q & E & Hh); auto; [lia|].
  pose proof (back_eq _ _ _ Hh) as Hb. pose proof (h_cap _ _ _ Hh) as C. pose proof (h_front _ _ _ Hh) as F.
  assert (Hbf : mback q = mfront q) by (rewrite Hb, Hl; ringsolve).
  exists q. unfold push_back. rewrite assign_ok by (auto; lia). cbn [bind]. eexists. split; [exact E|]. split; [reflexivity|].
  unfold dq_size, dq_empty, raw_size, cap; cbn [mempty mback mfront arr]. rewrite upd_length, Hbf.
  unfold rollover. ringsolve.
Qed.

Lemma C21_pop {A} N (d v : A) ops : 1 < N -> history_ok N ops [] -> seq_run ops [] = [] ->
  exists q q1 q2, do_ops true ops (dq_init N d) = Ok q /\ pop_front true q = Ok (true, q1) /\
    push_back true q1 v = Ok (true, q2) /\ dq_size q2 = N.
Proof.
  intros HN Ho Hl. destruct (reachable true N d ops) as (q & E & Hh); auto; [lia|]. rewrite Hl in Hh.
  pose proof (back_eq _ _ _ Hh) as Hb. pose proof (h_cap _ _ _ Hh) as C. pose proof (h_front _ _ _ Hh) as F.
  assert (Hbf : mback q = mfront q) by (rewrite Hb; cbn [length]; ringsolve).
  exists q. unfold pop_front, destroy. destruct (rd_lt (arr q) (mfront q) ltac:(lia)) as (x & -> & _). cbn [bind].
  eexists _, _. split; [exact E|]. split; [reflexivity|]. unfold push_back; cbn [arr mback mfront].
  rewrite assign_ok by (auto; lia). cbn [bind]. split; [reflexivity|].
  unfold dq_size, dq_empty, raw_size, cap; cbn [mempty mback mfront arr]. rewrite upd_length, Hbf.
  unfold rollover, cap; cbn [arr]. ringsolve.
Qed.

(* ---- fronts ---- *)
Lemma C22_main {A} N (d v : A) ops : 0 < N -> history_ok N ops [] -> length (seq_run ops []) < N ->
  exists q q', do_ops true ops (dq_init N d) = Ok q /\ push_front true q v = Ok (true, q') /\
    dq_front true q' = Ok v /\ dq_size q' = S (dq_size q) /\
    forall x l', seq_run ops [] = l' ++ [x] -> dq_back true q' = Ok x.
Proof.
  intros HN Ho Hl. destruct (reachable true N d ops) as (q & E & Hh); auto. exists q.
  destruct (add_front N q _ v Hh Hl) as [Hb Hh']. unfold push_front. rewrite assign_ok by auto. cbn [bind].
  eexists. split; [exact E|]. split; [reflexivity|].
  destruct (holds_observe true N _ _ Hh') as (_ & S1 & F1 & B1). destruct (holds_observe true N _ _ Hh) as (_ & S0 & _).
  rewrite S1, S0. split; [apply (F1 _ (seq_run ops [])); reflexivity|]. split; [reflexivity|].
  intros x l' El. apply (B1 x (v :: l')). rewrite El. reflexivity.
Qed.

Lemma C22_rest {A} N (d v : A) ops : 0 < N -> history_ok N ops [] -> length (seq_run ops []) < N ->
  exists q q' q2, do_ops true ops (dq_init N d) = Ok q /\ push_front true q v = Ok (true, q') /\
    (S (length (seq_run ops [])) < N -> iterate true q' = Ok (v :: seq_run ops [])) /\
    pop_front true q' = Ok (true, q2) /\ iterate true q2 = Ok (seq_run ops []) /\ dq_size q2 = dq_size q.
Proof.
  intros HN Ho Hl. destruct (reachable true N d ops) as (q & E & Hh); auto. exists q.
  destruct (add_front N q _ v Hh Hl) as [Hb Hh']. unfold push_front. rewrite assign_ok by auto. cbn [bind].
  destruct (drop_front true N _ _ Hh') as (q2 & P & H2); [discriminate|].
  eexists. exists q2. split; [exact E|]. split; [reflexivity|].
  split; [intros Hs; apply (iterate_ok true N); auto|]. split; [exact P|].
  split; [now apply (iterate_ok true N)|].
  destruct (holds_observe true N _ _ Hh) as (_ & -> & _). destruct (holds_observe true N _ _ H2) as (_ & -> & _). reflexivity.
Qed.

Lemma C22_emplace {A} N (d v x : A) l' ops : 0 < N -> history_ok N ops [] -> seq_run ops [] = x :: l' -> length l' + 1 < N ->
  exists q q' q2, do_ops true ops (dq_init N d) = Ok q /\ emplace_front q v = Ok q' /\
    dq_size q' = 2 + length l' /\ pop_front true q' = Ok (true, q2) /\ iterate true q2 = Ok (v :: l').
Proof.
  intros HN Ho El Hl. destruct (reachable true N d ops) as (q & E & Hh); auto. rewrite El in Hh. exists q.
  pose proof (back_eq _ _ _ Hh) as Hb. destruct Hh as [P C F L _ Em Els]. cbn [length] in *.
  unfold emplace_front. rewrite construct_ok by lia. cbn [bind].
  eexists _, _. split; [exact E|]. split; [reflexivity|]. split.
  { unfold dq_size, dq_empty, raw_size, cap, decrement, cap; cbn [mempty mback mfront arr]. rewrite upd_length, Hb, C. ringsolve. }
  unfold pop_front, destroy; cbn [arr mfront mback mempty].
  assert (Hdec : decrement q (mfront q) < N) by (apply dec_lt; [exact C|lia|lia]).
  destruct (rd_lt (upd (arr q) (mfront q) (Slot v true)) (decrement q (mfront q))) as (y & -> & _); [rewrite upd_length; lia|].
  cbn [bind]. split; [reflexivity|]. apply (iterate_ok true N); [|cbn; lia]. unfold rollover, cap; cbn [arr]. rewrite upd_length, C.
  replace (if decrement q (mfront q) + 1 =? N then 0 else decrement q (mfront q) + 1) with (mfront q)
    by (unfold decrement, cap; rewrite C; ringsolve).
  constructor; cbn [arr mfront mback mempty].
  - exact P.
  - now rewrite upd_length.
  - exact F.
  - cbn. lia.
  - left. exact Hb.
  - destruct (Nat.eqb_spec (mfront q) (mback q)) as [Heq|]; [|reflexivity].
    exfalso. rewrite Hb in Heq. replace (mfront q) with (ring N (mfront q) 0) in Heq at 1 by ringsolve.
    apply ring_inj in Heq; lia.
  - intros i w Hi. rewrite nth_error_upd, C. destruct i as [|i].
    + injection Hi as ->. replace (ring N (mfront q) 0) with (mfront q) by ringsolve. rewrite Nat.eqb_refl.
      destruct (Nat.ltb_spec (mfront q) N); [reflexivity|lia].
    + assert (i < length l') by (apply nth_error_Some; cbn in Hi; congruence).
      destruct (Nat.eqb_spec (mfront q) (ring N (mfront q) (S i))) as [Heq|]; [|apply Els; exact Hi].
      replace (mfront q) with (ring N (mfront q) 0) in Heq at 1 by ringsolve. apply ring_inj in Heq; lia.
Qed.

(* ---------- the queue ---------- *)
Definition qd {A} (o : qop A) : dop A :=
  match o with QPush v => PushBack v | QPushMove v => PushBackMove v | QEmplace v => EmplaceBack v | QPop => PopFront end.
Lemma q_run_ok {A} triv N : forall (ops : list (qop A)) q l, (triv = true \/ Forall qconstructs ops) ->
  holds N q l ->
  (forall a o b, ops = a ++ o :: b ->
    match o with QPop => pops a < length (l ++ pushed a) | _ => length (l ++ pushed a) - pops a < N end) ->
  exists q', q_run triv ops q = Ok (firstn (pops ops) (l ++ pushed ops), q') /\
    holds N q' (skipn (pops ops) (l ++ pushed ops)) /\ pops ops <= length (l ++ pushed ops).
Proof.
  induction ops as [|o ops IH]; intros q l Ht H W.
  - cbn [q_run pops pushed firstn skipn]. exists q. rewrite app_nil_r. split; auto. split; auto. lia.
  - assert (triv = true \/ Forall qconstructs ops) as Ht'.
    { destruct Ht as [|Ht]; [auto|right; now inversion Ht]. }
    assert (allowed N (qd o) l) as Ha.
    { specialize (W [] o ops eq_refl). cbn in W. rewrite app_nil_r in W.
      destruct o; cbn; try lia. destruct l; cbn in W; [lia|discriminate]. }
    destruct (do_op_ok triv N q l (qd o) H Ha) as (q1 & E1 & H1).
    { destruct Ht as [|Ht]; [auto|right]. inversion Ht as [|? ? Hc]; subst. destruct o; cbn in *; auto. }
    destruct o as [v|v|v|]; cbn [qd do_op seq_step] in *; cbn [q_run pops pushed].
    1-3: destruct (IH q1 (l ++ [v]) Ht' H1) as (q' & E & HH & HL);
      [intros a o b ->; specialize (W (_ :: a) o b eq_refl); cbn [pops pushed] in W; rewrite <- app_assoc; exact W|];
      rewrite <- app_assoc in E, HH, HL; cbn [app] in E, HH, HL; exists q'; split; [|split; auto].
    + unfold q_push. destruct (push_back triv q v) as [[ok qq]| |]; try discriminate. cbn [bind] in *. now injection E1 as ->.
    + unfold q_push_move. destruct (push_back_move q v) as [[ok qq]| |]; try discriminate. cbn [bind] in *. now injection E1 as ->.
    + unfold q_emplace. rewrite E1. exact E.
    + destruct l as [|x l]; [cbn in Ha; congruence|]. cbn [tl] in H1.
      destruct (holds_observe triv N q (x :: l) H) as (_ & _ & HF & _). rewrite (HF x l eq_refl). cbn [bind].
      unfold q_pop. destruct (pop_front triv q) as [[ok qq]| |]; try discriminate. cbn [bind] in *. injection E1 as ->.
      destruct (IH q1 l Ht' H1) as (q' & E & HH & HL).
      { intros a o b ->. specialize (W (QPop :: a) o b eq_refl). cbn [pops pushed app length] in W. destruct o; lia. }
      cbn [snd]. rewrite E. cbn [bind app firstn skipn length]. exists q'. split; auto. split; auto. lia.
Qed.
Lemma C19_fifo_lemma {A} triv N (d : A) ops : 0 < N -> (triv = true \/ Forall qconstructs ops) -> within N ops ->
  exists q, q_run triv ops (dq_init N d) = Ok (firstn (pops ops) (pushed ops), q) /\
    dq_size q = length (pushed ops) - pops ops /\
    (forall x, nth_error (pushed ops) (pops ops) = Some x -> dq_front triv q = Ok x).
Proof.
  intros HN Ht W. destruct (q_run_ok triv N ops (dq_init N d) [] Ht (init_holds N d HN) W) as (q & E & H & L).
  cbn [app] in *. exists q. split; auto. destruct (holds_observe triv N q _ H) as (_ & HS & F & _).
  split; [rewrite HS; apply skipn_length|]. intros x Hx.
  assert (skipn (pops ops) (pushed ops) = x :: skipn (S (pops ops)) (pushed ops)) as ES.
  { clear -Hx. revert Hx. generalize (pops ops) (pushed ops). intros n l. revert n.
    induction l as [|y l IH]; intros [|n] Hx; cbn in *; try discriminate; [now injection Hx as ->|]. now apply IH. }
  now apply (F x _ ES).
Qed.
