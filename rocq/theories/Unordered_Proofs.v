(* Proofs about the model in Unordered_Model.v. *)
From Verif Require Import Base BaseLemmas Unordered_Spec Unordered_Model.
Local Open Scope res_scope.

(* ================= the table ================= *)
Lemma NoDup_app_l {A} (l l' : list A) : NoDup (l ++ l') -> NoDup l.
Proof.
  induction l as [|a l IH]; intros H; [constructor|]. cbn in H. inversion H; subst. constructor; [|auto].
  intros I. apply H2. apply in_or_app. now left.
Qed.
(* checking [fits] on a concrete list of keys *)
Lemma fits_check {K} N (idx : K -> nat) U : 
  forallb (fun b => Nat.ltb (length (filter (fun k => Nat.eqb (idx k) b) U)) (N - b)) (seq 0 N) = true -> fits N idx U.
Proof.
  intros H b ks Hb Hnd Hin Hf. rewrite forallb_forall in H. specialize (H b). apply Nat.ltb_lt in H; [|apply in_seq; lia].
  apply Nat.le_lt_trans with (2 := H). apply NoDup_incl_length; [exact Hnd|]. intros k Ik. apply filter_In.
  split; [exact (Hin k Ik)|]. rewrite Forall_forall in Hf. apply Nat.eqb_eq. exact (Hf k Ik).
Qed.
Section Table.
Context {K C : Type} (keqb : K -> K -> bool) (null : K) (hash : K -> N) (w : N).
Context (ckey : C -> K) (csparse : C -> nat -> bool).
Hypothesis Hk : forall a b, keqb a b = true <-> a = b.
Hypothesis Hsp : forall c n, csparse c n = true -> is_empty keqb null ckey c = true.

Notation empty_c := (is_empty keqb null ckey).
Notation idx s := (index hash w s).

Definition live (s : list C) (i : nat) (k : K) : Prop := exists c, nth_error s i = Some c /\ ckey c = k /\ k <> null.
Definition sparse (s : list C) (j n : nat) : Prop := exists c, nth_error s j = Some c /\ csparse c n = true.
Definition stop (s : list C) (j : nat) : Prop :=
  exists c, nth_error s j = Some c /\ empty_c c = true /\ forall n, csparse c n = false.
Definition member (s : list C) (n j : nat) : Prop := exists k, live s j k /\ idx s k = n.

Definition reachable (s : list C) : Prop := forall i k, live s i k ->
  idx s k <= i /\ forall j, idx s k <= j < i -> member s (idx s k) j \/ sparse s j (idx s k).
Definition contiguous (s : list C) : Prop := forall i k, live s i k ->
  idx s k <= i /\ forall j, idx s k <= j < i -> member s (idx s k) j.
Definition unique (s : list C) : Prop := forall i j k, live s i k -> live s j k -> i = j.
Definition ends (s : list C) : Prop := 0 < length s /\ stop s (length s - 1).

Lemma contiguous_reachable s : contiguous s -> reachable s.
Proof. intros H i k L. destruct (H i k L) as [A B]. split; [exact A|]. intros j J. left. auto. Qed.

Lemma keqb_refl a : keqb a a = true. Proof. now apply Hk. Qed.
Lemma keqb_neq a b : a <> b -> keqb a b = false.
Proof. intros H. destruct (keqb a b) eqn:E; [|reflexivity]. apply Hk in E. contradiction. Qed.
Lemma keqb_false a b : keqb a b = false -> a <> b.
Proof. intros H E. subst. rewrite keqb_refl in H. discriminate. Qed.
Lemma empty_true c : empty_c c = true <-> ckey c = null.
Proof. unfold is_empty. apply Hk. Qed.
Lemma empty_false c : empty_c c = false <-> ckey c <> null.
Proof. unfold is_empty. split; [apply keqb_false | apply keqb_neq]. Qed.
Lemma live_of s i c : nth_error s i = Some c -> empty_c c = false -> live s i (ckey c).
Proof. intros H E. exists c. apply empty_false in E. auto. Qed.
Lemma live_key s i c k : live s i k -> nth_error s i = Some c -> ckey c = k /\ k <> null.
Proof. intros (c' & H & E & D) H'. rewrite H in H'. injection H' as <-. auto. Qed.
Lemma live_lt s i k : live s i k -> i < length s.
Proof. intros (c & H & _). apply nth_error_Some. congruence. Qed.
Lemma live_fun s i k k' : live s i k -> live s i k' -> k = k'.
Proof. intros (c & H & E & _) (c' & H' & E' & _). congruence. Qed.
Lemma live_not_sparse s i k n : live s i k -> ~ sparse s i n.
Proof.
  intros (c & H & E & D) (c' & H' & S). rewrite H in H'. injection H' as <-.
  apply Hsp, empty_true in S. congruence.
Qed.
Lemma stop_not_live s i k : stop s i -> ~ live s i k.
Proof.
  intros (c & H & E & _) L. destruct (live_key _ _ _ _ L H) as [A B]. apply empty_true in E. congruence.
Qed.
Lemma stop_not_sparse s i n : stop s i -> ~ sparse s i n.
Proof. intros (c & H & _ & E) (c' & H' & S). rewrite H in H'. injection H' as <-. rewrite E in S. discriminate. Qed.

(* ---- skip_sparse *)
Lemma skip_spec s n : ends s -> forall fuel p, p <= length s - 1 -> length s - p <= fuel ->
  exists q, skip_sparse csparse fuel s p n = Ok q /\ p <= q <= length s - 1 /\ ~ sparse s q n /\
    forall j, p <= j < q -> sparse s j n.
Proof.
  intros [H0 Hs]. induction fuel as [|f IH]; intros p Hp Hf; [lia|]. cbn [skip_sparse].
  destruct (rd_lt s p) as (c & Hc & ->); [lia|]. cbn [bind].
  destruct (Nat.eqb_spec p (length s)); [lia|]. rewrite andb_true_r.
  destruct (csparse c n) eqn:E.
  - assert (p <> length s - 1).
    { intros ->. apply (stop_not_sparse _ _ n Hs). exists c. auto. }
    destruct (IH (p + 1)) as (q & -> & Hq & Hn & Hb); [lia|lia|]. exists q. split; [reflexivity|].
    split; [lia|]. split; [exact Hn|]. intros j Hj. destruct (Nat.eq_dec j p) as [->|]; [exists c; auto|].
    apply Hb. lia.
  - exists p. split; [reflexivity|]. split; [lia|]. split; [|intros; lia].
    intros (c' & H' & E'). rewrite Hc in H'. injection H' as <-. congruence.
Qed.

(* ---- find *)
Lemma find_loop_spec s x : ends s -> reachable s -> x <> null ->
  forall fuel it, idx s x <= it <= length s - 1 -> length s - it <= fuel -> ~ sparse s it (idx s x) ->
  (forall i, live s i x -> it <= i) ->
  (exists i, find_loop keqb null hash w ckey csparse fuel s (idx s x) x it = Ok (Some i) /\ live s i x) \/
  (find_loop keqb null hash w ckey csparse fuel s (idx s x) x it = Ok None /\ forall i, ~ live s i x).
Proof.
  intros He Hr Hx. pose proof He as [H0 Hs]. induction fuel as [|f IH]; intros it Hit Hf Hsn Hb; [lia|].
  cbn [find_loop]. unfold local_more. destruct (Nat.eqb_spec it (length s)); [lia|].
  destruct (rd_lt s it) as (c & Hc & Hrd); [lia|]. rewrite Hrd. cbn [bind].
  destruct (csparse c (idx s x)) eqn:Es; [exfalso; apply Hsn; exists c; auto|].
  destruct (empty_c c) eqn:Ee.
  { cbn [bind]. right. split; [reflexivity|]. intros i L. pose proof (Hb _ L).
    assert (it <> i). { intros ->. destruct (live_key _ _ _ _ L Hc) as [A B]. apply empty_true in Ee. congruence. }
    destruct (Hr _ _ L) as [_ G]. destruct (G it ltac:(lia)) as [(k & L' & _)|S]; [|exact (Hsn S)].
    destruct (live_key _ _ _ _ L' Hc) as [A B]. apply empty_true in Ee. congruence. }
  cbn [bind]. pose proof (live_of _ _ _ Hc Ee) as Lc.
  destruct (Nat.eqb_spec (idx s x) (idx s (ckey c))) as [E|E].
  - destruct (keqb x (ckey c)) eqn:Ex.
    + apply Hk in Ex. subst x. left. exists it. auto.
    + apply keqb_false in Ex. unfold local_next.
      assert (it <> length s - 1) by (intros ->; exact (stop_not_live _ _ _ Hs Lc)).
      destruct (skip_spec s (idx s x) He (S (length s)) (it + 1)) as (q & -> & Hq & Hnq & Hbq); [lia|lia|].
      cbn [bind]. apply IH; [lia|lia|exact Hnq|].
      intros i L. pose proof (Hb _ L). assert (i <> it). { intros ->. apply Ex. exact (live_fun _ _ _ _ L Lc). }
      destruct (le_lt_dec q i); [assumption|]. exfalso. apply (live_not_sparse _ _ _ (idx s x) L). apply Hbq. lia.
  - right. split; [reflexivity|]. intros i L. pose proof (Hb _ L).
    assert (i <> it). { intros ->. apply E. now rewrite (live_fun _ _ _ _ L Lc). }
    destruct (Hr _ _ L) as [_ G]. destruct (G it ltac:(lia)) as [(k & L' & Ek)|S]; [|exact (Hsn S)].
    apply E. now rewrite (live_fun _ _ _ _ Lc L').
Qed.

Lemma index_lt (s : list C) k : 0 < length s -> idx s k < length s.
Proof.
  intros H. unfold index, index_of.
  enough ((((N.of_nat bucket_depth * hash k) mod 2 ^ w) mod N.of_nat (length s) < N.of_nat (length s))%N) by lia.
  apply N.mod_lt. lia.
Qed.

Lemma find_spec s x : ends s -> reachable s -> x <> null ->
  (exists i, find_ll keqb null hash w ckey csparse s x = Ok (Some i) /\ live s i x) \/
  (find_ll keqb null hash w ckey csparse s x = Ok None /\ forall i, ~ live s i x).
Proof.
  intros He Hr Hx. unfold find_ll. rewrite keqb_neq by exact Hx. unfold local_begin.
  pose proof He as [H0 Hs]. pose proof (index_lt s x H0).
  destruct (skip_spec s (idx s x) He (S (length s)) (idx s x)) as (q & -> & Hq & Hnq & Hbq); [lia|lia|].
  cbn [bind]. apply find_loop_spec; try assumption; [lia|].
  intros i L. destruct (Hr _ _ L) as [A _]. destruct (le_lt_dec q i); [assumption|].
  exfalso. apply (live_not_sparse _ _ _ (idx s x) L). apply Hbq. lia.
Qed.
Lemma find_found s x i : ends s -> reachable s -> unique s -> live s i x ->
  find_ll keqb null hash w ckey csparse s x = Ok (Some i).
Proof.
  intros He Hr Hu L. assert (x <> null) by (destruct L as (c & _ & _ & D); exact D).
  destruct (find_spec s x He Hr H) as [(j & -> & L')|[_ N]]; [|now exfalso; apply (N i)].
  now rewrite (Hu _ _ _ L L').
Qed.
Lemma find_none s x : ends s -> reachable s -> (forall i, ~ live s i x) ->
  find_ll keqb null hash w ckey csparse s x = Ok None.
Proof.
  intros He Hr N. destruct (keqb x null) eqn:E; [unfold find_ll; now rewrite E|].
  destruct (find_spec s x He Hr (keqb_false _ _ E)) as [(i & _ & L)|[-> _]]; [now exfalso; apply (N i)|reflexivity].
Qed.

(* ---- insert_precheck *)
Definition run_before (s : list C) (n it : nat) (k : K) : Prop :=
  forall j, n <= j < it -> exists k', live s j k' /\ idx s k' = n /\ k' <> k.

Lemma precheck_loop_spec s k : ends s -> forall fuel it, idx s k <= it <= length s - 1 -> length s - it <= fuel ->
  run_before s (idx s k) it k ->
  let r := precheck_loop keqb null hash w ckey fuel s (idx s k) k false it in
  (exists p c, r = Ok (Some p, true) /\ idx s k <= p <= length s - 1 /\ nth_error s p = Some c /\
     empty_c c = true /\ run_before s (idx s k) p k) \/
  (exists p, r = Ok (Some p, false) /\ live s p k) \/
  (exists p k', r = Ok (None, false) /\ idx s k <= p /\ live s p k' /\ idx s k' <> idx s k /\ run_before s (idx s k) p k).
Proof.
  intros He. pose proof He as [H0 Hs]. induction fuel as [|f IH]; intros it Hit Hf Hb; [lia|].
  cbn [precheck_loop]. destruct (rd_lt s it) as (c & Hc & ->); [lia|]. cbn [bind].
  destruct (empty_c c) eqn:Ee.
  { left. exists it, c. repeat split; try assumption; lia. }
  pose proof (live_of _ _ _ Hc Ee) as Lc. destruct (Nat.eqb_spec it (length s)); [lia|]. cbn [orb].
  destruct (Nat.eqb_spec (idx s (ckey c)) (idx s k)) as [E|E]; cbn [negb andb].
  - destruct (keqb k (ckey c)) eqn:Ek.
    + apply Hk in Ek. right; left. exists it. rewrite Ek. split; [reflexivity|]. exact Lc.
    + apply keqb_false in Ek.
      assert (it <> length s - 1) by (intros ->; exact (stop_not_live _ _ _ Hs Lc)).
      apply IH; [lia|lia|]. intros j Hj. destruct (Nat.eq_dec j it) as [->|]; [|apply Hb; lia].
      exists (ckey c). auto.
  - right; right. exists it, (ckey c). repeat split; try assumption; lia.
Qed.
Lemma precheck_spec s k : ends s -> k <> null ->
  let r := insert_precheck keqb null hash w ckey s k false in
  (exists p c, r = Ok (Some p, true) /\ idx s k <= p <= length s - 1 /\ nth_error s p = Some c /\
     empty_c c = true /\ run_before s (idx s k) p k) \/
  (exists p, r = Ok (Some p, false) /\ live s p k) \/
  (exists p k', r = Ok (None, false) /\ idx s k <= p /\ live s p k' /\ idx s k' <> idx s k /\ run_before s (idx s k) p k).
Proof.
  intros He Hn. unfold insert_precheck. rewrite keqb_neq by exact Hn.
  pose proof (index_lt s k (proj1 He)). apply precheck_loop_spec; [exact He|lia|lia|]. intros j Hj; lia.
Qed.

(* ---- writing one slot *)
Lemma idx_upd (s : list C) i c : idx (upd s i c) = idx s.
Proof. unfold index. now rewrite upd_length. Qed.
Lemma live_upd s i c x j : i < length s ->
  (live (upd s i c) j x <-> (j = i /\ ckey c = x /\ x <> null) \/ (j <> i /\ live s j x)).
Proof.
  intros Hi. unfold live. split.
  - intros (c' & H & E & D). rewrite nth_error_upd in H. destruct (Nat.eqb_spec i j) as [<-|].
    + destruct (Nat.ltb_spec i (length s)); [|lia]. injection H as <-. left. auto.
    + right. split; [lia|]. exists c'. auto.
  - intros [(-> & E & D)|(D & c' & H & E & D')].
    + exists c. split; [|auto]. now apply nth_error_upd_eq.
    + exists c'. split; [|auto]. now rewrite nth_error_upd_neq by lia.
Qed.

(* ---- inserting *)
Lemma insert_unique s k p c' : p < length s -> unique s -> (forall i, ~ live s i k) -> ckey c' = k ->
  unique (upd s p c').
Proof.
  intros Hp Hu Ha Hc i j x Li Lj.
  apply (live_upd _ _ _ _ _ Hp) in Li. apply (live_upd _ _ _ _ _ Hp) in Lj.
  destruct Li as [(-> & E & _)|(Di & Li)]; destruct Lj as [(-> & E' & _)|(Dj & Lj)].
  - reflexivity.
  - exfalso. apply (Ha j). congruence.
  - exfalso. apply (Ha i). congruence.
  - exact (Hu _ _ _ Li Lj).
Qed.
Lemma insert_ends s p c' : p < length s - 1 -> ends s -> ends (upd s p c').
Proof.
  intros Hp [H0 (c & H & E)]. unfold ends. rewrite upd_length. split; [exact H0|].
  exists c. rewrite nth_error_upd_neq by lia. auto.
Qed.
Lemma member_upd s p c' n j : p < length s -> ckey c' <> null -> idx s (ckey c') = n \/ p <> j ->
  member s n j -> member (upd s p c') n j.
Proof.
  intros Hp Hc Hn (k & L & E). unfold member. rewrite idx_upd. destruct (Nat.eq_dec j p) as [->|D].
  - exists (ckey c'). split; [apply (live_upd _ _ _ _ _ Hp); auto|]. destruct Hn as [A|A]; [exact A|congruence].
  - exists k. split; [apply (live_upd _ _ _ _ _ Hp); auto|exact E].
Qed.
Lemma insert_contiguous s k p c c' : contiguous s -> idx s k <= p -> nth_error s p = Some c ->
  empty_c c = true -> run_before s (idx s k) p k -> k <> null -> ckey c' = k -> contiguous (upd s p c').
Proof.
  intros Hco Hp Hc He Hrun Hkn Hc'. assert (Hpl : p < length s) by (apply nth_error_Some; congruence).
  intros i x L. rewrite idx_upd. apply (live_upd _ _ _ _ _ Hpl) in L. destruct L as [(-> & E & _)|(D & L)].
  - rewrite Hc' in E. subst x. split; [exact Hp|]. intros j Hj. destruct (Hrun j Hj) as (k' & L' & E' & _).
    apply member_upd; [exact Hpl|congruence|right; lia|]. exists k'. auto.
  - destruct (Hco _ _ L) as [A B]. split; [exact A|]. intros j Hj. specialize (B j Hj).
    apply member_upd; [exact Hpl|congruence|right|exact B]. intros ->.
    destruct B as (k' & L' & _). destruct (live_key _ _ _ _ L' Hc) as [F G]. apply empty_true in He. congruence.
Qed.
Lemma present_found s k p : contiguous s -> live s p k ->
  (forall q c, idx s k <= q -> nth_error s q = Some c -> empty_c c = true -> ~ run_before s (idx s k) q k) /\
  (forall q k', idx s k <= q -> live s q k' -> idx s k' <> idx s k -> ~ run_before s (idx s k) q k).
Proof.
  intros Hco L. destruct (Hco _ _ L) as [A B].
  assert (G : forall q, idx s k <= q -> (~ member s (idx s k) q) -> ~ run_before s (idx s k) q k).
  { intros q Hq Hn Hr. destruct (lt_eq_lt_dec p q) as [[D|<-]|D].
    - destruct (Hr p ltac:(lia)) as (k' & L' & _ & Dk). apply Dk. exact (live_fun _ _ _ _ L' L).
    - apply Hn. exists k. auto.
    - apply Hn, B. lia. }
  split.
  - intros q c Hq Hc He. apply G; [exact Hq|]. intros (k' & L' & _).
    destruct (live_key _ _ _ _ L' Hc) as [F G']. apply empty_true in He. congruence.
  - intros q k' Hq L' D. apply G; [exact Hq|]. intros (k2 & L2 & E2). apply D.
    now rewrite (live_fun _ _ _ _ L' L2).
Qed.
Lemma run_keys s n k : unique s -> forall p, n <= p -> run_before s n p k ->
  exists ks, NoDup ks /\ ~ In k ks /\ length ks = p - n /\ Forall (fun x => idx s x = n) ks /\
    forall x, In x ks -> exists j, n <= j < p /\ live s j x.
Proof.
  intros Hu. induction p as [|p IH]; intros Hp Hr.
  { exists []. split; [constructor|]. split; [intros []|]. split; [cbn; lia|]. split; [constructor|intros x []]. }
  destruct (Nat.eq_dec n (S p)) as [->|].
  { exists []. split; [constructor|]. split; [intros []|]. split; [cbn; lia|]. split; [constructor|intros x []]. }
  destruct IH as (ks & N & Nk & Hl & Hf & Hj); [lia|intros j Hj; apply Hr; lia|].
  destruct (Hr p ltac:(lia)) as (x & L & E & D). exists (x :: ks).
  split; [|split; [|split; [|split]]].
  - constructor; [|exact N]. intros I. destruct (Hj _ I) as (j & J & L'). specialize (Hu _ _ _ L L'). lia.
  - intros [A|A]; [congruence|contradiction].
  - cbn [length]. lia.
  - constructor; assumption.
  - intros y [<-|I]; [exists p; split; [lia|exact L]|]. destruct (Hj _ I) as (j & J & L'). exists j. split; [lia|exact L'].
Qed.
Lemma run_room s U k p : ends s -> unique s -> idx s k <= p -> run_before s (idx s k) p k -> fits (length s) (idx s) U ->
  In k U -> (forall i x, live s i x -> In x U) -> p < length s - 1.
Proof.
  intros [H0 _] Hu Hp Hr Hf Hi HU. destruct (run_keys s (idx s k) k Hu p Hp Hr) as (ks & N & Nk & Hl & Hfa & Hj).
  assert (length (k :: ks) < length s - idx s k).
  { apply (Hf (idx s k)).
    - apply index_lt. exact H0.
    - now constructor.
    - intros x [<-|I]; [exact Hi|]. destruct (Hj _ I) as (j & _ & L). exact (HU _ _ L).
    - now constructor. }
  cbn [length] in *. lia.
Qed.

(* ---- scanning a run of a bucket, whatever the rest of the table holds *)
Lemma skip_none s n p fuel c : nth_error s p = Some c -> csparse c n = false -> skip_sparse csparse (S fuel) s p n = Ok p.
Proof. intros H E. cbn [skip_sparse]. rewrite (rd_ok _ _ _ H). cbn [bind]. now rewrite E. Qed.
Lemma skip_off s n fuel : skip_sparse csparse (S fuel) s (length s) n = UB.
Proof. cbn [skip_sparse]. unfold rd. rewrite (proj2 (nth_error_None s (length s)) (le_n _)). reflexivity. Qed.
Lemma live_cell s i k n : live s i k -> exists c, nth_error s i = Some c /\ ckey c = k /\ csparse c n = false /\ empty_c c = false.
Proof.
  intros (c & H & E & D). exists c. split; [exact H|]. split; [exact E|].
  assert (empty_c c = false) by (apply empty_false; congruence). split; [|assumption].
  destruct (csparse c n) eqn:S; [|reflexivity]. apply Hsp in S. congruence.
Qed.

Definition closed_at (s : list C) (n t : nat) : Prop :=
  exists c, nth_error s t = Some c /\ csparse c n = false /\ (empty_c c = true \/ idx s (ckey c) <> n).

Lemma find_stops s x t : x <> null -> idx s x <= t -> run_before s (idx s x) t x -> closed_at s (idx s x) t ->
  find_ll keqb null hash w ckey csparse s x = Ok None.
Proof.
  intros Hx Ht Hr (ct & Hct & Hst & Hcl). assert (Htl : t < length s) by (apply nth_error_Some; congruence).
  assert (G : forall fuel it, idx s x <= it <= t -> t - it < fuel ->
    find_loop keqb null hash w ckey csparse fuel s (idx s x) x it = Ok None).
  { induction fuel as [|f IH]; intros it Hit Hf; [lia|]. cbn [find_loop]. unfold local_more.
    destruct (Nat.eqb_spec it (length s)); [lia|]. destruct (Nat.eq_dec it t) as [->|D].
    - rewrite (rd_ok _ _ _ Hct). cbn [bind]. rewrite Hst. destruct (empty_c ct); [reflexivity|].
      destruct Hcl as [Hcl|Hcl]; [discriminate|]. destruct (Nat.eqb_spec (idx s x) (idx s (ckey ct))); [congruence|reflexivity].
    - destruct (Hr it ltac:(lia)) as (k & L & E & Dk). destruct (live_cell _ _ _ (idx s x) L) as (c & Hc & Ec & Sc & Ee).
      rewrite (rd_ok _ _ _ Hc). cbn [bind]. rewrite Sc, Ee, Ec, E, Nat.eqb_refl. cbn [bind].
      rewrite keqb_neq by congruence. unfold local_next.
      assert (exists c', nth_error s (it + 1) = Some c' /\ csparse c' (idx s x) = false) as (c' & Hc' & Sc').
      { destruct (Nat.eq_dec (it + 1) t) as [->|]; [exists ct; auto|].
        destruct (Hr (it + 1) ltac:(lia)) as (k' & L' & _). destruct (live_cell _ _ _ (idx s x) L') as (c' & ? & _ & ? & _).
        exists c'. auto. }
      rewrite (skip_none s (idx s x) (it + 1) (length s) c' Hc' Sc'). cbn [bind]. apply IH; lia. }
  unfold find_ll. rewrite keqb_neq by exact Hx. unfold local_begin.
  assert (exists c', nth_error s (idx s x) = Some c' /\ csparse c' (idx s x) = false) as (c' & Hc' & Sc').
  { destruct (Nat.eq_dec (idx s x) t) as [E|]; [rewrite E; exists ct; rewrite <- E; split; [rewrite E; exact Hct|exact Hst]|].
    destruct (Hr (idx s x) ltac:(lia)) as (k' & L' & _). destruct (live_cell _ _ _ (idx s x) L') as (c' & ? & _ & ? & _).
    exists c'. auto. }
  rewrite (skip_none s (idx s x) _ (length s) c' Hc' Sc'). cbn [bind]. apply G; lia.
Qed.
Lemma find_off s x : x <> null -> 0 < length s -> run_before s (idx s x) (length s) x ->
  find_ll keqb null hash w ckey csparse s x = UB.
Proof.
  intros Hx H0 Hr. pose proof (index_lt s x H0) as Hlt.
  assert (G : forall fuel it, idx s x <= it < length s -> length s - it < fuel ->
    find_loop keqb null hash w ckey csparse fuel s (idx s x) x it = UB).
  { induction fuel as [|f IH]; intros it Hit Hf; [lia|]. cbn [find_loop]. unfold local_more.
    destruct (Nat.eqb_spec it (length s)); [lia|].
    destruct (Hr it ltac:(lia)) as (k & L & E & Dk). destruct (live_cell _ _ _ (idx s x) L) as (c & Hc & Ec & Sc & Ee).
    rewrite (rd_ok _ _ _ Hc). cbn [bind]. rewrite Sc, Ee, Ec, E, Nat.eqb_refl. cbn [bind].
    rewrite keqb_neq by congruence. unfold local_next. destruct (Nat.eq_dec (it + 1) (length s)) as [El|].
    - rewrite El, skip_off. reflexivity.
    - destruct (Hr (it + 1) ltac:(lia)) as (k' & L' & _). destruct (live_cell _ _ _ (idx s x) L') as (c' & Hc' & _ & Sc' & _).
      rewrite (skip_none s (idx s x) (it + 1) (length s) c' Hc' Sc'). cbn [bind]. apply IH; lia. }
  unfold find_ll. rewrite keqb_neq by exact Hx. unfold local_begin.
  destruct (Hr (idx s x) ltac:(lia)) as (k' & L' & _). destruct (live_cell _ _ _ (idx s x) L') as (c' & Hc' & _ & Sc' & _).
  rewrite (skip_none s (idx s x) _ (length s) c' Hc' Sc'). cbn [bind]. apply G; lia.
Qed.
Lemma precheck_run s k t : k <> null -> idx s k <= t -> run_before s (idx s k) t k ->
  insert_precheck keqb null hash w ckey s k false =
  match nth_error s t with
  | None => UB
  | Some c => if empty_c c then Ok (Some t, true)
              else if negb (Nat.eqb (idx s (ckey c)) (idx s k)) then Ok (None, false)
              else insert_precheck keqb null hash w ckey s k false
  end \/ length s < t.
Proof.
  intros Hx Ht Hr. destruct (le_lt_dec t (length s)) as [Hl|]; [|now right]. left.
  destruct (nth_error s t) as [ct|] eqn:Hct.
  - destruct (empty_c ct) eqn:Ect; [|destruct (Nat.eqb_spec (idx s (ckey ct)) (idx s k)) as [|Di]; cbn [negb]; [reflexivity|]].
    all: assert (Htl : t < length s) by (apply nth_error_Some; congruence).
    all: unfold insert_precheck; rewrite keqb_neq by exact Hx.
    all: match goal with |- precheck_loop _ _ _ _ _ _ _ _ _ _ _ = ?r => enough (G : forall fuel it, idx s k <= it <= t -> t - it < fuel ->
      precheck_loop keqb null hash w ckey fuel s (idx s k) k false it = r) by (apply G; lia) end.
    all: induction fuel as [|f IH]; intros it Hit Hf; [lia|]; cbn [precheck_loop].
    all: destruct (Nat.eq_dec it t) as [->|D].
    1, 3: rewrite (rd_ok _ _ _ Hct); cbn [bind]; rewrite Ect; try reflexivity.
    1: destruct (Nat.eqb_spec (idx s (ckey ct)) (idx s k)); [congruence|]; cbn [negb]; rewrite orb_true_r; reflexivity.
    all: destruct (Hr it ltac:(lia)) as (k' & L & E & Dk); destruct (live_cell _ _ _ (idx s k) L) as (c & Hc & Ec & Sc & Ee);
      rewrite (rd_ok _ _ _ Hc); cbn [bind]; rewrite Ee, Ec, E, Nat.eqb_refl; destruct (Nat.eqb_spec it (length s)); [lia|];
      cbn [negb orb andb]; rewrite keqb_neq by congruence; apply IH; lia.
  - apply nth_error_None in Hct. assert (t = length s) by lia. subst t.
    unfold insert_precheck; rewrite keqb_neq by exact Hx.
    enough (G : forall fuel it, idx s k <= it <= length s -> length s - it < fuel ->
      precheck_loop keqb null hash w ckey fuel s (idx s k) k false it = UB) by (apply G; lia).
    induction fuel as [|f IH]; intros it Hit Hf; [lia|]; cbn [precheck_loop].
    destruct (Nat.eq_dec it (length s)) as [->|D].
    + unfold rd. rewrite (proj2 (nth_error_None s (length s)) (le_n _)). reflexivity.
    + destruct (Hr it ltac:(lia)) as (k' & L & E & Dk); destruct (live_cell _ _ _ (idx s k) L) as (c & Hc & Ec & Sc & Ee).
      rewrite (rd_ok _ _ _ Hc); cbn [bind]; rewrite Ee, Ec, E, Nat.eqb_refl; destruct (Nat.eqb_spec it (length s)); [lia|].
      cbn [negb orb andb]; rewrite keqb_neq by congruence; apply IH; lia.
Qed.

(* ---- iterating over the whole table reads past its end *)
Lemma skip_empty_spec s : forall fuel it, it <= length s -> length s - it < fuel ->
  skip_empty keqb null ckey fuel s it = UB \/
  exists q, skip_empty keqb null ckey fuel s it = Ok q /\ it <= q < length s.
Proof.
  induction fuel as [|f IH]; intros it Hit Hf; [lia|]. cbn [skip_empty].
  destruct (rd s it) as [c| |] eqn:Hc; [|left; reflexivity|unfold rd in Hc; destruct (nth_error s it); discriminate].
  apply rd_inv in Hc. assert (it < length s) by (apply nth_error_Some; congruence). cbn [bind].
  destruct (Nat.eqb_spec it (length s)); [lia|]. rewrite andb_true_r. destruct (empty_c c).
  - destruct (IH (it + 1)) as [->|(q & -> & Hq)]; [lia|lia|left; reflexivity|]. right. exists q. split; [reflexivity|lia].
  - right. exists it. split; [reflexivity|lia].
Qed.
Lemma iterate_off s : iterate keqb null ckey s = UB.
Proof.
  assert (G : forall fuel it, it < length s -> length s - it <= fuel -> visit keqb null ckey fuel s it = UB).
  { induction fuel as [|f IH]; intros it Hit Hf; [lia|]. cbn [visit]. destruct (Nat.eqb_spec it (length s)); [lia|].
    destruct (skip_empty_spec s (S (length s)) (it + 1)) as [->|(q & -> & Hq)]; [lia|lia|reflexivity|].
    cbn [bind]. rewrite IH by lia. reflexivity. }
  unfold iterate. destruct (skip_empty_spec s (S (length s)) 0) as [->|(q & -> & Hq)]; [lia|lia|reflexivity|].
  cbn [bind]. apply G; lia.
Qed.

(* ---- iterating over a bucket *)
Definition run_of (s : list C) (n e : nat) : Prop := n <= e /\ (forall j, n <= j < e -> member s n j) /\ ~ member s n e.
Lemma local_iter_spec s n e : ends s -> (forall j n, ~ sparse s j n) -> n < length s -> run_of s n e ->
  local_iter keqb null hash w ckey csparse s n = Ok (seq n (e - n)).
Proof.
  intros He Hns Hn (Hle & Hin & Hout). pose proof He as [H0 Hs].
  assert (Hel : e <= length s - 1).
  { destruct (le_lt_dec e (length s - 1)); [assumption|]. exfalso.
    destruct (Hin (length s - 1) ltac:(lia)) as (k & L & _). exact (stop_not_live _ _ _ Hs L). }
  assert (Sk : forall p, p <= length s - 1 -> forall n0, skip_sparse csparse (S (length s)) s p n0 = Ok p).
  { intros p Hp n0. destruct (rd_lt s p) as (c & Hc & _); [lia|]. apply (skip_none s n0 p (length s) c Hc).
    destruct (csparse c n0) eqn:E; [|reflexivity]. exfalso. apply (Hns p n0). exists c. auto. }
  assert (G : forall fuel it, n <= it <= e -> e - it < fuel ->
    local_loop keqb null hash w ckey csparse fuel s n it = Ok (seq it (e - it))).
  { induction fuel as [|f IH]; intros it Hit Hf; [lia|]. cbn [local_loop]. unfold local_more.
    destruct (Nat.eqb_spec it (length s)); [lia|]. destruct (rd_lt s it) as (c & Hc & ->); [lia|]. cbn [bind].
    destruct (csparse c n) eqn:Sc; [exfalso; apply (Hns it n); exists c; auto|].
    destruct (Nat.eq_dec it e) as [->|D].
    - rewrite Nat.sub_diag. cbn [seq]. destruct (empty_c c) eqn:Ee; [reflexivity|].
      destruct (Nat.eqb_spec n (idx s (ckey c))) as [E|]; [|reflexivity].
      exfalso. apply Hout. exists (ckey c). split; [now apply live_of|congruence].
    - destruct (Hin it ltac:(lia)) as (k & L & E). destruct (live_key _ _ _ _ L Hc) as [Ek Dk].
      rewrite (proj2 (empty_false c)) by congruence. rewrite Ek, E, Nat.eqb_refl. cbn [bind]. unfold local_next.
      rewrite Sk by lia. cbn [bind]. rewrite IH by lia. cbn [bind].
      replace (e - it) with (S (e - (it + 1))) by lia. cbn [seq]. now rewrite (Nat.add_comm it 1). }
  unfold local_iter, local_begin. rewrite Sk by lia. cbn [bind]. apply G; lia.
Qed.
Lemma run_exists s n : ends s -> n < length s -> exists e, run_of s n e.
Proof.
  intros [H0 Hs] Hn.
  assert (D : forall j, member s n j \/ ~ member s n j).
  { intros j. destruct (nth_error s j) as [c|] eqn:Hc.
    - destruct (empty_c c) eqn:Ee.
      + right. intros (k & L & _). destruct (live_key _ _ _ _ L Hc). apply empty_true in Ee. congruence.
      + destruct (Nat.eq_dec (idx s (ckey c)) n) as [E|E].
        * left. exists (ckey c). split; [now apply live_of|exact E].
        * right. intros (k & L & E'). destruct (live_key _ _ _ _ L Hc). congruence.
    - right. intros (k & (c & Hc' & _) & _). congruence. }
  assert (G : forall m a, n <= a -> length s - 1 - a <= m -> a <= length s - 1 -> (forall j, n <= j < a -> member s n j) -> exists e, run_of s n e).
  { induction m as [|m IH]; intros a Ha Hm Hal Hin.
    - exists a. split; [exact Ha|]. split; [exact Hin|]. intros (k & L & _). replace a with (length s - 1) in L by lia.
      exact (stop_not_live _ _ _ Hs L).
    - destruct (D a) as [M|M].
      + assert (a <> length s - 1). { intros ->. destruct M as (k & L & _). exact (stop_not_live _ _ _ Hs L). }
        apply (IH (a + 1)); [lia|lia|lia|]. intros j Hj. destruct (Nat.eq_dec j a) as [->|]; [exact M|apply Hin; lia].
      + exists a. split; [exact Ha|]. split; [exact Hin|exact M]. }
  apply (G (length s) n); [lia|lia|lia|intros; lia].
Qed.
End Table.

(* ================= association lists ================= *)
Section Assoc.
Context {K V : Type} (keqb : K -> K -> bool).
Hypothesis Hk : forall a b, keqb a b = true <-> a = b.

Lemma alookup_in k v (l : list (K * V)) : alookup keqb k l = Some v -> In (k, v) l.
Proof.
  induction l as [|[k' v'] l IH]; cbn; [discriminate|]. destruct (keqb k k') eqn:E.
  - apply Hk in E. subst. intros [= ->]. auto.
  - auto.
Qed.
Lemma in_alookup k v (l : list (K * V)) : NoDup (map fst l) -> In (k, v) l -> alookup keqb k l = Some v.
Proof.
  induction l as [|[k' v'] l IH]; cbn; [intros _ []|]. intros N H. inversion N as [|? ? N1 N2]; subst.
  destruct H as [[= -> ->]|H]; [now rewrite (proj2 (Hk k k) eq_refl)|].
  destruct (keqb k k') eqn:E; [|auto]. apply Hk in E. subst k'. exfalso. apply N1.
  apply (in_map fst) in H. exact H.
Qed.
Lemma alookup_none k (l : list (K * V)) : alookup keqb k l = None <-> forall v, ~ In (k, v) l.
Proof.
  split.
  - induction l as [|[k' v'] l IH]; cbn; [intros _ v []|]. destruct (keqb k k') eqn:E; [discriminate|].
    intros H v [[= -> ->]|I]; [rewrite (proj2 (Hk k k) eq_refl) in E; discriminate|exact (IH H v I)].
  - intros H. destruct (alookup keqb k l) as [v|] eqn:E; [|reflexivity]. exfalso. exact (H v (alookup_in _ _ _ E)).
Qed.
Lemma in_aremove k x v (l : list (K * V)) : In (x, v) (aremove keqb k l) <-> x <> k /\ In (x, v) l.
Proof.
  unfold aremove. rewrite filter_In. cbn [fst]. rewrite negb_true_iff.
  split; intros [A B]; split; auto.
  - intros ->. rewrite (proj2 (Hk k k) eq_refl) in B. discriminate.
  - destruct (keqb k x) eqn:E; [|reflexivity]. apply Hk in E. congruence.
Qed.
Lemma aremove_nodup k (l : list (K * V)) : NoDup (map fst l) -> NoDup (map fst (aremove keqb k l)).
Proof.
  unfold aremove. induction l as [|[k' v'] l IH]; cbn; [constructor|]. intros N; inversion N as [|? ? N1 N2]; subst.
  destruct (keqb k k'); cbn; [auto|]. constructor; [|auto]. intros I. apply N1. apply in_map_iff in I.
  destruct I as ((a & b) & E & I). apply filter_In in I. cbn in E. subst.
  destruct I as [I _]. apply (in_map fst) in I. exact I.
Qed.
Lemma in_aset k v x y (l : list (K * V)) : In (x, y) (aset keqb k v l) <-> (x = k /\ y = v) \/ (x <> k /\ In (x, y) l).
Proof.
  unfold aset. cbn [In]. rewrite in_aremove. split.
  - intros [[= -> ->]|H]; auto.
  - intros [(-> & ->)|H]; auto.
Qed.
Lemma aset_nodup k v (l : list (K * V)) : NoDup (map fst l) -> NoDup (map fst (aset keqb k v l)).
Proof.
  intros N. cbn. constructor; [|now apply aremove_nodup]. intros I. apply in_map_iff in I.
  destruct I as ((a & b) & E & I). cbn in E. subst a. apply in_aremove in I. destruct I as [I _]. congruence.
Qed.
Lemma present_false k (l : list (K * V)) : present keqb k l = false <-> forall v, ~ In (k, v) l.
Proof. rewrite <- alookup_none. unfold present. destruct (alookup keqb k l); split; congruence. Qed.
Lemma present_true k (l : list (K * V)) : present keqb k l = true <-> exists v, In (k, v) l.
Proof.
  unfold present. destruct (alookup keqb k l) as [v|] eqn:E.
  - split; [intros _; exists v; now apply alookup_in|reflexivity].
  - split; [discriminate|]. intros [v I]. exfalso. exact (proj1 (alookup_none k l) E v I).
Qed.
End Assoc.

(* ================= the map ================= *)
Section Map.
Context {K : Type} (keqb : K -> K -> bool) (null : K) (hash : K -> N) (w : N).
Hypothesis Hk : forall a b, keqb a b = true <-> a = b.
Notation cell := (K * N)%type.
Notation spar := (is_sparse keqb null).
Notation mlive := (live null (@fst K N)).
Notation mends := (ends keqb null (@fst K N) spar).
Notation mcontig := (contiguous null hash w (@fst K N)).
Notation mreach := (reachable null hash w (@fst K N) spar).
Notation muniq := (unique null (@fst K N)).
Notation idx s := (index hash w s).

Lemma sparse_empty c n : spar c n = true -> is_empty keqb null fst c = true.
Proof. unfold is_sparse. destruct (is_empty keqb null fst c); [reflexivity|discriminate]. Qed.

Definition holds (s : list cell) (l : list (K * N)) : Prop :=
  NoDup (map fst l) /\ forall k v, In (k, v) l <-> k <> null /\ exists i, nth_error s i = Some (k, v).

Lemma holds_live s l k : holds s l -> ((exists v, In (k, v) l) <-> exists i, mlive s i k).
Proof.
  intros [_ H]. split.
  - intros (v & I). apply H in I. destruct I as (D & i & E). exists i, (k, v). auto.
  - intros (i & (k' & v) & E & E2 & D). cbn in E2. subst k'. exists v. apply H. split; [exact D|]. now exists i.
Qed.
Lemma holds_null s l v : holds s l -> ~ In (null, v) l.
Proof. intros [_ H] I. apply H in I. destruct I as [D _]. congruence. Qed.
Lemma not_present_live s l k : holds s l -> present keqb k l = false -> forall i, ~ mlive s i k.
Proof.
  intros H P i L. destruct (proj2 (holds_live s l k H)) as (v & I); [now exists i|].
  exact (proj1 (present_false keqb Hk k l) P v I).
Qed.
Lemma present_live s l k : holds s l -> present keqb k l = true -> exists i, mlive s i k.
Proof. intros H P. apply (holds_live s l k H). now apply (present_true keqb Hk). Qed.

Lemma map_find_spec s l k : mends s -> mreach s -> muniq s -> holds s l ->
  map_find keqb null hash w s k = Ok (alookup keqb k l).
Proof.
  intros He Hr Hu Hh. unfold map_find. destruct (present keqb k l) eqn:P.
  - destruct (present_live s l k Hh P) as (i & L).
    rewrite (find_found keqb null hash w fst spar Hk sparse_empty s k i He Hr Hu L). cbn [bind].
    destruct L as ((k' & v) & E & E2 & D). cbn in E2. subst k'. rewrite (rd_ok _ _ _ E). cbn [bind snd].
    do 2 f_equal. symmetry. apply (in_alookup keqb Hk); [apply Hh|]. apply Hh. split; [exact D|]. now exists i.
  - rewrite (find_none keqb null hash w fst spar Hk sparse_empty s k He Hr (not_present_live s l k Hh P)). cbn [bind].
    symmetry. f_equal. unfold present in P. destruct (alookup keqb k l); congruence.
Qed.

(* a new key written to an empty slot *)
Lemma holds_insert s l k v p c : holds s l -> nth_error s p = Some c -> is_empty keqb null fst c = true -> k <> null ->
  (forall i, ~ mlive s i k) -> holds (upd s p (k, v)) (aset keqb k v l).
Proof.
  intros [N H] Hc He Hkn Ha. assert (Hp : p < length s) by (apply nth_error_Some; congruence).
  split; [now apply aset_nodup|]. intros x y. rewrite (in_aset keqb Hk). split.
  - intros [(-> & ->)|(D & I)].
    + split; [exact Hkn|]. exists p. now apply nth_error_upd_eq.
    + apply H in I. destruct I as (Dx & i & E). split; [exact Dx|]. exists i.
      rewrite nth_error_upd_neq; [exact E|]. intros ->. rewrite E in Hc. injection Hc as <-.
      apply (empty_true keqb null fst Hk) in He. cbn in He. congruence.
  - intros (D & i & E). rewrite nth_error_upd in E. destruct (Nat.eqb_spec p i) as [->|].
    + destruct (Nat.ltb_spec i (length s)); [|lia]. injection E as -> ->. auto.
    + right. split; [|apply H; split; [exact D|now exists i]].
      intros ->. apply (Ha i). exists (k, y). auto.
Qed.
(* a new value for a key that is there *)
Lemma holds_assign s l k v v0 p : holds s l -> nth_error s p = Some (k, v0) -> k <> null -> muniq s ->
  holds (upd s p (k, v)) (aset keqb k v l).
Proof.
  intros [N H] Hc Hkn Hu. assert (Hp : p < length s) by (apply nth_error_Some; congruence).
  split; [now apply aset_nodup|]. intros x y. rewrite (in_aset keqb Hk). split.
  - intros [(-> & ->)|(D & I)].
    + split; [exact Hkn|]. exists p. now apply nth_error_upd_eq.
    + apply H in I. destruct I as (Dx & i & E). split; [exact Dx|]. exists i.
      rewrite nth_error_upd_neq; [exact E|]. intros ->. rewrite E in Hc. congruence.
  - intros (D & i & E). rewrite nth_error_upd in E. destruct (Nat.eqb_spec p i) as [->|Dp].
    + destruct (Nat.ltb_spec i (length s)); [|lia]. injection E as -> ->. auto.
    + right. split; [|apply H; split; [exact D|now exists i]].
      intros ->. apply Dp. apply (Hu _ _ k); [exists (k, v0); auto|exists (k, y); auto].
Qed.
(* assigning keeps the keys *)
Lemma live_assign (s : list cell) p k v v0 : nth_error s p = Some (k, v0) ->
  forall j x, mlive (upd s p (k, v)) j x <-> mlive s j x.
Proof.
  intros Hc j x. assert (Hp : p < length s) by (apply nth_error_Some; congruence).
  rewrite (live_upd null fst _ _ _ _ _ Hp). cbn [fst]. split.
  - intros [(-> & -> & D)|[_ L]]; [|exact L]. exists (x, v0). auto.
  - intros L. destruct (Nat.eq_dec j p) as [->|]; [|auto]. left.
    destruct (live_key _ _ _ _ _ _ L Hc) as [A B]. cbn in A. auto.
Qed.

(* ---- C23 *)
Definition inv1 (U : list K) (s : list cell) (l : list (K * N)) : Prop :=
  mends s /\ mcontig s /\ muniq s /\ holds s l /\ forall i k, mlive s i k -> In k U.

Lemma inv1_assign U s l k v v0 p : inv1 U s l -> nth_error s p = Some (k, v0) -> k <> null ->
  inv1 U (upd s p (k, v)) (aset keqb k v l).
Proof.
  intros (He & Hc & Hu & Hh & HU) E D. pose proof (live_assign s p k v v0 E) as LA.
  split; [|split; [|split; [|split]]].
  - destruct He as [H0 (c & Hs & Ee & Es)]. unfold ends. rewrite upd_length. split; [exact H0|].
    exists c. rewrite nth_error_upd_neq; [auto|]. intros ->. rewrite E in Hs. injection Hs as <-.
    apply (empty_true keqb null fst Hk) in Ee. cbn in Ee. congruence.
  - intros i x L. apply LA in L. rewrite idx_upd. destruct (Hc _ _ L) as [A B]. split; [exact A|].
    intros j Hj. destruct (B j Hj) as (k' & L' & E'). exists k'. rewrite idx_upd. split; [now apply LA|exact E'].
  - intros i j x Li Lj. apply LA in Li. apply LA in Lj. exact (Hu _ _ _ Li Lj).
  - now apply (holds_assign s l k v v0).
  - intros i x L. apply LA in L. exact (HU _ _ L).
Qed.

Lemma map_insert_spec U s l k v : inv1 U s l -> fits (length s) (idx s) U -> In k U ->
  exists p ok s', map_insert keqb null hash w s k v = Ok (p, ok, s') /\ length s' = length s /\
    (present keqb k l = true -> ok = false) /\ (k = null -> ok = false) /\
    inv1 U s' (if ok then aset keqb k v l else l).
Proof.
  intros Hi Hf HI. pose proof Hi as (He & Hc & Hu & Hh & HU). unfold map_insert, map_insert_dup.
  destruct (keqb k null) eqn:En.
  { unfold insert_precheck. rewrite En. cbn [bind]. exists None, false, s.
    split; [reflexivity|]. split; [reflexivity|]. split; [reflexivity|]. split; [reflexivity|exact Hi]. }
  pose proof (keqb_false keqb Hk _ _ En) as Hkn.
  destruct (precheck_spec keqb null hash w fst spar Hk s k He Hkn)
    as [(p & c & -> & Hp & Hn & Hem & Hr)|[(p & -> & L)|(p & k' & -> & Hp & L & Hd & Hr)]]; cbn [bind].
  - assert (Ha : forall i, ~ mlive s i k).
    { intros i L. destruct (present_found keqb null hash w fst Hk s k i Hc L) as [A _].
      exact (A p c (proj1 Hp) Hn Hem Hr). }
    pose proof (run_room keqb null hash w fst spar s U k p He Hu (proj1 Hp) Hr Hf HI HU) as Hroom.
    rewrite wr_ok by lia. cbn [bind]. exists (Some p), true, (upd s p (k, v)).
    split; [reflexivity|]. split; [apply upd_length|]. split; [|split; [contradiction|]].
    + intros P. exfalso. destruct (present_live s l k Hh P) as (i & L). exact (Ha i L).
    + split; [|split; [|split; [|split]]].
      * now apply insert_ends.
      * now apply (insert_contiguous keqb null hash w fst Hk s k p c).
      * apply (insert_unique null fst s k); auto; lia.
      * now apply (holds_insert s l k v p c).
      * intros i x Lx. apply (live_upd null fst) in Lx; [|lia]. cbn in Lx.
        destruct Lx as [(_ & -> & _)|[_ Lx]]; [exact HI|exact (HU _ _ Lx)].
  - exists (Some p), false, s.
    split; [reflexivity|]. split; [reflexivity|]. split; [reflexivity|]. split; [reflexivity|exact Hi].
  - exists None, false, s. split; [reflexivity|]. split; [reflexivity|]. split; [reflexivity|]. split; [contradiction|exact Hi].
Qed.
Lemma do_iop_spec U s l o : inv1 U s l -> fits (length s) (idx s) U -> In (op_key o) U ->
  exists ok s', do_iop keqb null hash w o s = Ok (ok, s') /\ length s' = length s /\
    (present keqb (op_key o) l = true -> ok = op_old o) /\ (op_key o = null -> ok = false) /\
    inv1 U s' (if ok then aset keqb (op_key o) (op_val o) l else l).
Proof.
  intros Hi Hf HI. destruct o as [k v|k v|k v]; cbn [op_key op_val op_old] in *; unfold do_iop.
  - destruct (map_insert_spec U s l k v Hi Hf HI) as (p & ok & s' & -> & R). cbn [bind]. exists ok, s'. auto.
  - change (map_try_emplace keqb null hash w s k v) with (map_insert keqb null hash w s k v).
    destruct (map_insert_spec U s l k v Hi Hf HI) as (p & ok & s' & -> & R). cbn [bind]. exists ok, s'. auto.
  - unfold map_insert_or_assign. pose proof Hi as (He & Hc & Hu & Hh & HU).
    destruct (present keqb k l) eqn:P.
    + destruct (present_live s l k Hh P) as (i & L).
      rewrite (find_found keqb null hash w fst spar Hk sparse_empty s k i He
        (contiguous_reachable null hash w fst spar s Hc) Hu L). cbn [bind].
      destruct L as ((k' & v0) & E & E2 & D). cbn in E2. subst k'. rewrite (rd_ok _ _ _ E). cbn [bind fst].
      assert (i < length s) by (apply nth_error_Some; congruence). rewrite wr_ok by assumption. cbn [bind].
      exists true, (upd s i (k, v)). split; [reflexivity|]. split; [apply upd_length|]. split; [reflexivity|].
      split; [contradiction|]. now apply (inv1_assign U s l k v v0).
    + rewrite (find_none keqb null hash w fst spar Hk sparse_empty s k He
        (contiguous_reachable null hash w fst spar s Hc) (not_present_live s l k Hh P)). cbn [bind].
      destruct (map_insert_spec U s l k v Hi Hf HI) as (p & ok & s' & -> & A & _ & B). cbn [bind]. exists ok, s'.
      split; [reflexivity|]. split; [exact A|]. split; [discriminate|exact B].
Qed.
Lemma do_iops_spec U : forall ops s l, inv1 U s l -> fits (length s) (idx s) U -> incl (map op_key ops) U ->
  exists rs s' l', do_iops keqb null hash w ops s = Ok (rs, s') /\ length s' = length s /\
    story keqb null ops rs l l' /\ inv1 U s' l'.
Proof.
  induction ops as [|o ops IH]; intros s l Hi Hf HI.
  { exists [], s, l. split; [reflexivity|]. split; [reflexivity|]. split; [constructor|exact Hi]. }
  cbn [do_iops]. destruct (do_iop_spec U s l o Hi Hf) as (ok & s1 & -> & E1 & A & B & I1).
  { apply HI. cbn. auto. }
  cbn [bind]. destruct (IH s1 _ I1) as (rs & s2 & l' & -> & E2 & S & I2).
  { unfold index in *. rewrite E1. exact Hf. }
  { intros x I. apply HI. cbn. auto. }
  cbn [bind]. exists (ok :: rs), s2, l'. split; [reflexivity|]. split; [lia|]. split; [|exact I2].
  constructor; auto.
Qed.

Lemma init_dead storage i k : ~ mlive (map_init null storage) i k.
Proof.
  intros (c & H & E & D). unfold map_init in H. rewrite nth_error_map in H.
  destruct (nth_error storage i); [|discriminate]. injection H as <-. cbn in E. congruence.
Qed.
Lemma init_ends storage : clear_end storage -> mends (map_init null storage).
Proof.
  intros (H0 & c & Hc & Hm). unfold ends, map_init. rewrite map_length. split; [exact H0|].
  exists (set_null null c). rewrite nth_error_map, Hc. split; [reflexivity|]. split.
  - unfold is_empty, set_null. cbn. now apply Hk.
  - intros n. unfold is_sparse, set_null. cbn [snd]. rewrite Hm. now rewrite andb_false_r.
Qed.
Lemma init_holds storage : holds (map_init null storage) [].
Proof.
  split; [constructor|]. intros k v. split; [intros []|]. intros (D & i & E).
  exfalso. apply (init_dead storage i k). exists (k, v). auto.
Qed.

Lemma C23_main storage ops : clear_end storage -> fits (length storage) (index_of hash w (length storage)) (map op_key ops) ->
  exists rs s l, do_iops keqb null hash w ops (map_init null storage) = Ok (rs, s) /\ story keqb null ops rs [] l /\
    forall k, map_find keqb null hash w s k = Ok (alookup keqb k l).
Proof.
  intros Hc Hf. destruct (do_iops_spec (map op_key ops) ops (map_init null storage) []) as (rs & s & l & E & _ & S & I).
  - split; [now apply init_ends|]. split; [intros i k L; now apply init_dead in L|].
    split; [intros i j k L; now apply init_dead in L|]. split; [apply init_holds|]. intros i k L; now apply init_dead in L.
  - unfold index, map_init. rewrite map_length. exact Hf.
  - apply incl_refl.
  - exists rs, s, l. split; [exact E|]. split; [exact S|]. intros k. destruct I as (He & Hc' & Hu & Hh & _).
    apply map_find_spec; auto. now apply contiguous_reachable.
Qed.

Lemma C24_present_lemma storage ops : clear_end storage -> fits (length storage) (index_of hash w (length storage)) (map op_key ops) ->
  exists rs s, do_iops keqb null hash w ops (map_init null storage) = Ok (rs, s) /\
    forall k v x, map_find keqb null hash w s k = Ok (Some v) ->
    exists i, nth_error s i = Some (k, v) /\
      map_insert keqb null hash w s k x = Ok (Some i, false, s) /\
      map_try_emplace keqb null hash w s k x = Ok (Some i, false, s) /\
      map_try_emplace0 keqb null hash w s k = Ok (Some i, false, s) /\
      map_at keqb null hash w s k = Ok (i, s).
Proof.
  intros Hc Hf. destruct (do_iops_spec (map op_key ops) ops (map_init null storage) []) as (rs & s & l & E & _ & S & I).
  - split; [now apply init_ends|]. split; [intros i k L; now apply init_dead in L|].
    split; [intros i j k L; now apply init_dead in L|]. split; [apply init_holds|]. intros i k L; now apply init_dead in L.
  - unfold index, map_init. rewrite map_length. exact Hf.
  - apply incl_refl.
  - exists rs, s. split; [exact E|]. intros k v x F. destruct I as (He & Hc' & Hu & Hh & _).
    pose proof (contiguous_reachable null hash w fst spar s Hc') as Hre.
    rewrite (map_find_spec s l k He Hre Hu Hh) in F. injection F as F.
    assert (P : present keqb k l = true) by (unfold present; now rewrite F).
    destruct (present_live s l k Hh P) as (i & L). exists i.
    assert (Ei : nth_error s i = Some (k, v)).
    { destruct L as ((k' & v0) & En & E2 & D). cbn in E2. subst k'. rewrite En. do 2 f_equal.
      pose proof (map_find_spec s l k) as M. rewrite F in M. unfold map_find in M.
      rewrite (find_found keqb null hash w fst spar Hk sparse_empty s k i He Hre Hu) in M by (exists (k, v0); auto).
      cbn [bind] in M. rewrite (rd_ok _ _ _ En) in M. cbn [bind snd] in M. specialize (M He Hre Hu Hh). congruence. }
    split; [exact Ei|].
    assert (Pc : insert_precheck keqb null hash w fst s k false = Ok (Some i, false)).
    { assert (Hkn : k <> null) by (destruct L as (c & _ & A & B); congruence).
      destruct (precheck_spec keqb null hash w fst spar Hk s k He Hkn)
        as [(p & c & Q & Hp & Hn & Hem & Hr)|[(p & Q & Lp)|(p & k' & Q & Hp & Lp & Hd & Hr)]].
      - exfalso. destruct (present_found keqb null hash w fst Hk s k i Hc' L) as [A _]. exact (A p c (proj1 Hp) Hn Hem Hr).
      - rewrite Q. do 3 f_equal. exact (Hu _ _ _ Lp L).
      - exfalso. destruct (present_found keqb null hash w fst Hk s k i Hc' L) as [_ A]. exact (A p k' Hp Lp Hd Hr). }
    unfold map_insert, map_insert_dup, map_try_emplace, map_try_emplace0, map_at. rewrite Pc. cbn [bind].
    rewrite (find_found keqb null hash w fst spar Hk sparse_empty s k i He Hre Hu L). cbn [bind]. auto.
Qed.

(* ---- C24, C25 *)
Definition blocked (s : list cell) : Prop := forall i k, mlive s i k -> i < idx s k + bucket_depth.
Definition inv2 (s : list cell) (l : list (K * N)) : Prop :=
  mends s /\ mreach s /\ muniq s /\ holds s l /\ blocked s.
Definition aligned (s : list cell) : Prop :=
  (exists m, length s = 4 * m) /\ length s <= 64 /\ (2 <= w)%N.

Lemma idx_mult s : aligned s -> forall k, exists q, idx s k = 4 * q.
Proof.
  intros ((m & Hm) & _ & Hw) k. unfold index, index_of. rewrite Hm.
  exists (N.to_nat ((hash k mod 2 ^ (w - 2)) mod N.of_nat m)%N).
  replace (2 ^ w)%N with (4 * 2 ^ (w - 2))%N by (change 4%N with (2 ^ 2)%N; rewrite <- N.pow_add_r; f_equal; lia).
  change (N.of_nat bucket_depth) with 4%N.
  assert (P : (2 ^ (w - 2) <> 0)%N) by (apply N.pow_nonzero; lia).
  rewrite N.mul_mod_distr_l by (try exact P; lia).
  replace (N.of_nat (4 * m)) with (4 * N.of_nat m)%N by lia.
  destruct (N.eq_dec (N.of_nat m) 0) as [E|E].
  - rewrite E. change (4 * 0)%N with 0%N. assert (Z0 : forall a, (a mod 0 = a)%N) by (intros []; reflexivity).
    rewrite !Z0. lia.
  - rewrite N.mul_mod_distr_l by (try exact E; lia). lia.
Qed.
Lemma same_block s a b j : aligned s -> idx s a <= j < idx s a + 4 -> idx s b <= j < idx s b + 4 -> idx s a = idx s b.
Proof. intros H A B. destruct (idx_mult s H a) as [q Hq]. destruct (idx_mult s H b) as [r Hr]. lia. Qed.
Lemma block_fits s k : aligned s -> 0 < length s -> idx s k + 4 <= length s.
Proof.
  intros H H0. destruct (idx_mult s H k) as [q Hq]. pose proof (index_lt hash w s k H0).
  destruct H as ((m & Hm) & _). lia.
Qed.
Lemma aligned_upd s i c : aligned s -> aligned (upd s i c).
Proof. unfold aligned. rewrite upd_length. auto. Qed.

Lemma run_load s l n p k : muniq s -> holds s l -> n <= p -> run_before null hash w fst s n p k ->
  p - n <= load_of (idx s) n l.
Proof.
  intros Hu Hh Hp Hr. destruct (run_keys null hash w fst s n k Hu p Hp Hr) as (ks & N & _ & Hl & Hf & Hj).
  rewrite <- Hl. unfold load_of. rewrite <- (map_length fst). apply NoDup_incl_length; [exact N|].
  intros x I. destruct (Hj x I) as (j & _ & L). destruct (proj2 (holds_live s l x Hh)) as (v & Iv); [now exists j|].
  apply in_map_iff. exists (x, v). split; [reflexivity|]. apply filter_In. split; [exact Iv|]. cbn [fst].
  rewrite Forall_forall in Hf. rewrite (Hf x I). apply Nat.eqb_refl.
Qed.

Lemma room_slot s l k p : aligned s -> mends s -> muniq s -> holds s l -> idx s k <= p ->
  run_before null hash w fst s (idx s k) p k ->
  load_of (idx s) (idx s k) l < (if Nat.eqb (idx s k + 4) (length s) then 4 - 1 else 4) ->
  p < idx s k + 4 /\ p < length s - 1.
Proof.
  intros Ha [H0 _] Hu Hh Hp Hr Hroom. pose proof (run_load s l (idx s k) p k Hu Hh Hp Hr) as HL.
  pose proof (block_fits s k Ha H0). destruct (Nat.eqb_spec (idx s k + 4) (length s)); [lia|].
  destruct (idx_mult s Ha k) as [q Hq]. destruct Ha as ((m & Hm) & _). lia.
Qed.

Lemma sparse_upd_neq s p c' j n : p <> j -> sparse spar s j n -> sparse spar (upd s p c') j n.
Proof. intros D (c & H & E). exists c. rewrite nth_error_upd_neq by exact D. auto. Qed.

(* the slot a new key goes to, and the invariant afterwards *)
Lemma new_key s l k : inv2 s l -> aligned s -> k <> null -> present keqb k l = false ->
  load_of (idx s) (idx s k) l < (if Nat.eqb (idx s k + 4) (length s) then 4 - 1 else 4) ->
  exists p c, insert_precheck keqb null hash w fst s k false = Ok (Some p, true) /\ nth_error s p = Some c /\
    p < length s /\ forall v, inv2 (upd s p (k, v)) (aset keqb k v l).
Proof.
  intros (He & Hre & Hu & Hh & Hb) Ha Hkn P Hroom. pose proof (not_present_live s l k Hh P) as Hab.
  destruct (precheck_spec keqb null hash w fst spar Hk s k He Hkn)
    as [(p & c & E & Hp & Hn & Hem & Hr)|[(p & E & L)|(p & k' & E & Hp & L & Hd & Hr)]].
  - destruct (room_slot s l k p Ha He Hu Hh (proj1 Hp) Hr Hroom) as [Hp1 Hp2].
    exists p, c. split; [exact E|]. split; [exact Hn|]. split; [lia|]. intros v.
    assert (Hpl : p < length s) by lia.
    split; [now apply insert_ends|]. split; [|split; [|split]].
    + intros i x L. rewrite idx_upd. apply (live_upd null fst _ _ _ _ _ Hpl) in L. cbn [fst] in L.
      destruct L as [(-> & <- & _)|(D & L)].
      * split; [lia|]. intros j Hj. left. destruct (Hr j Hj) as (k' & L' & E' & _).
        exists k'. rewrite idx_upd. split; [|exact E']. apply (live_upd null fst _ _ _ _ _ Hpl). right. split; [lia|exact L'].
      * destruct (Hre _ _ L) as [A B]. split; [exact A|]. intros j Hj. destruct (Nat.eq_dec j p) as [->|Dj].
        -- left. exists k. rewrite idx_upd. split; [apply (live_upd null fst _ _ _ _ _ Hpl); auto|].
           apply (same_block s k x p Ha); [lia|]. pose proof (Hb _ _ L). unfold bucket_depth in *. lia.
        -- destruct (B j Hj) as [(k' & L' & E')|S].
           ++ left. exists k'. rewrite idx_upd. split; [apply (live_upd null fst _ _ _ _ _ Hpl); auto|exact E'].
           ++ right. apply sparse_upd_neq; [lia|exact S].
    + apply (insert_unique null fst s k); auto.
    + now apply (holds_insert s l k v p c).
    + intros i x L. rewrite idx_upd. apply (live_upd null fst _ _ _ _ _ Hpl) in L. cbn [fst] in L.
      destruct L as [(-> & <- & _)|(D & L)]; [exact Hp1|exact (Hb _ _ L)].
  - exfalso. exact (Hab p L).
  - exfalso. pose proof (run_load s l (idx s k) p k Hu Hh Hp Hr) as HL.
    assert (p < idx s k + 4) by (destruct (Nat.eqb (idx s k + 4) (length s)); lia).
    apply Hd. apply (same_block s k' k p Ha); [|lia]. destruct (Hre _ _ L) as [A _]. pose proof (Hb _ _ L).
    unfold bucket_depth in *. lia.
Qed.

Lemma inv2_assign s l k v v0 p : inv2 s l -> nth_error s p = Some (k, v0) -> k <> null ->
  inv2 (upd s p (k, v)) (aset keqb k v l).
Proof.
  intros (He & Hre & Hu & Hh & Hb) E D. pose proof (live_assign s p k v v0 E) as LA.
  assert (Lp : mlive s p k) by (exists (k, v0); auto).
  split; [|split; [|split; [|split]]].
  - destruct He as [H0 Hs]. unfold ends. rewrite upd_length. split; [exact H0|].
    assert (p <> length s - 1) by (intros ->; exact (stop_not_live keqb null fst spar Hk _ _ _ Hs Lp)).
    destruct Hs as (c & Hs & Ee). exists c. rewrite nth_error_upd_neq by assumption. auto.
  - intros i x L. apply LA in L. rewrite idx_upd. destruct (Hre _ _ L) as [A B]. split; [exact A|].
    intros j Hj. destruct (B j Hj) as [(k' & L' & E')|S].
    + left. exists k'. rewrite idx_upd. split; [now apply LA|exact E'].
    + right. apply sparse_upd_neq; [|exact S]. intros ->.
      exact (live_not_sparse keqb null fst spar Hk sparse_empty _ _ _ _ Lp S).
  - intros i j x Li Lj. apply LA in Li. apply LA in Lj. exact (Hu _ _ _ Li Lj).
  - now apply (holds_assign s l k v v0).
  - intros i x L. apply LA in L. rewrite idx_upd. exact (Hb _ _ L).
Qed.

(* removing a key: the slots of its bucket may change *)
Lemma inv2_remove s s' l k i : inv2 s l -> aligned s -> mlive s i k -> length s' = length s ->
  (forall j, j <> i -> ~ (idx s k <= j < i /\ sparse spar s j (idx s k)) -> nth_error s' j = nth_error s j) ->
  (forall j x, mlive s' j x <-> j <> i /\ mlive s j x) ->
  (forall i' j x, mlive s i' x -> idx s x = idx s k -> i' <> i -> idx s k <= j < i' ->
     sparse spar s j (idx s k) \/ j = i -> sparse spar s' j (idx s k)) ->
  inv2 s' (aremove keqb k l).
Proof.
  intros (He & Hre & Hu & Hh & Hb) Ha Li Hl Hsame Hlive Hkeep.
  assert (Hidx : forall x, idx s' x = idx s x) by (intros x; unfold index; now rewrite Hl).
  pose proof He as [H0 Hs]. destruct (Hre _ _ Li) as [Ai Bi].
  assert (Hil : i < length s - 1).
  { pose proof (live_lt null fst s i k Li). assert (i <> length s - 1); [|lia].
    intros ->. exact (stop_not_live keqb null fst spar Hk _ _ _ Hs Li). }
  split; [|split; [|split; [|split]]].
  - unfold ends. rewrite Hl. split; [exact H0|]. destruct Hs as (c & Hc & Hs). exists c.
    rewrite Hsame; [auto|lia|]. intros [A _]. lia.
  - intros i' x L. apply Hlive in L. destruct L as [D L]. rewrite !Hidx. destruct (Hre _ _ L) as [A B].
    split; [exact A|]. intros j Hj. pose proof (Hb _ _ L) as Bx. pose proof (Hb _ _ Li) as Bk. unfold bucket_depth in *.
    destruct (Nat.eq_dec (idx s x) (idx s k)) as [Ex|Ex].
    + assert (Dec : sparse spar s j (idx s k) \/ ~ sparse spar s j (idx s k)).
      { unfold sparse. destruct (nth_error s j) as [c|]; [|right; intros (c & ? & _); discriminate].
        destruct (spar c (idx s k)) eqn:Sc; [left; eauto|]. right. intros (c' & [= <-] & Sc'). congruence. }
      destruct Dec as [Sj|NSj].
      { right. rewrite Ex. apply (Hkeep i' j x L Ex D); [lia|auto]. }
      destruct (Nat.eq_dec j i) as [->|Dj].
      { right. rewrite Ex. apply (Hkeep i' i x L Ex D); [lia|auto]. }
      destruct (B j Hj) as [(k' & L' & E')|S]; [|rewrite Ex in S; contradiction].
      left. exists k'. rewrite Hidx. split; [apply Hlive; auto|exact E'].
    + assert (nth_error s' j = nth_error s j).
      { apply Hsame.
        - intros ->. apply Ex. apply (same_block s x k i Ha); lia.
        - intros [Hj2 _]. apply Ex. apply (same_block s x k j Ha); lia. }
      destruct (B j Hj) as [(k' & L' & E')|(c & Hc & Sc)].
      * left. exists k'. rewrite Hidx. split; [|exact E']. destruct L' as (c & Hc & Ec). exists c. rewrite H. auto.
      * right. exists c. rewrite H. auto.
  - intros a b x La Lb. apply Hlive in La. apply Hlive in Lb. apply (Hu _ _ x); tauto.
  - destruct Hh as [N Hh]. split; [now apply aremove_nodup|]. intros x v. rewrite (in_aremove keqb Hk), Hh. split.
    + intros (Dx & Dn & j & E). split; [exact Dn|]. exists j. rewrite Hsame; [exact E| |].
      * intros ->. apply Dx. destruct (live_key _ _ _ _ _ _ Li E) as [A _]. cbn in A. auto.
      * intros (_ & S). apply (live_not_sparse keqb null fst spar Hk sparse_empty s j x (idx s k)); [|exact S].
        exists (x, v). auto.
    + intros (Dn & j & E). assert (L : mlive s' j x) by (exists (x, v); auto).
      apply Hlive in L. destruct L as [Dj L]. assert (x <> k).
      { intros ->. apply Dj. exact (Hu _ _ _ L Li). }
      split; [assumption|]. split; [exact Dn|]. exists j. rewrite Hsame in E; [exact E|exact Dj|].
      intros (_ & S). exact (live_not_sparse keqb null fst spar Hk sparse_empty s j x (idx s k) L S).
  - intros j x L. apply Hlive in L. rewrite Hidx. apply Hb. tauto.
Qed.

Lemma marked_set v b : marked (set_marked v b) = b.
Proof. unfold marked, set_marked. rewrite N.testbit_0_r. reflexivity. Qed.
Lemma mbucket_set v n : n < 64 -> mbucket (set_mbucket v n) = n.
Proof.
  intros H. unfold mbucket, set_mbucket. rewrite N.mod_small with (a := N.of_nat n) by lia.
  assert (v mod 2 < 2)%N by (apply N.mod_lt; lia).
  replace (v mod 2 + 2 * N.of_nat n + 128 * (v / 128))%N with (v mod 2 + (N.of_nat n + v / 128 * 64) * 2)%N by lia.
  rewrite N.div_add by lia. rewrite (N.div_small (v mod 2)) by assumption. rewrite N.add_0_l, N.mod_add by lia.
  rewrite N.mod_small by lia. lia.
Qed.
Lemma marked_set_mbucket v n : marked (set_mbucket v n) = marked v.
Proof.
  unfold marked, set_mbucket. rewrite !N.bit0_odd.
  rewrite !N.odd_add, !N.odd_mul. cbn [N.odd andb]. rewrite !xorb_false_r.
  rewrite <- !N.bit0_odd. apply (N.mod_pow2_bits_low v 1 0). lia.
Qed.

Lemma prune_spec n : 0 < n -> forall p s, n <= p <= length s ->
  exists s' q, prune_sparse keqb null s n p = Ok s' /\ length s' = length s /\ n <= q <= p /\
    (forall j, j < q \/ p <= j -> nth_error s' j = nth_error s j) /\
    (forall j, q <= j < p -> sparse spar s j n /\
       exists c, nth_error s j = Some c /\ nth_error s' j = Some (fst c, set_marked (snd c) false)).
Proof.
  intros Hn. induction p as [|p IH]; intros s Hp; [lia|]. cbn [prune_sparse].
  destruct (rd_lt s p) as (c & Hc & ->); [lia|]. cbn [bind].
  destruct (spar c n && negb (S p =? n)) eqn:E.
  - apply andb_prop in E. destruct E as [Es En]. apply negb_true_iff, Nat.eqb_neq in En.
    unfold gc_sparse. rewrite (rd_ok _ _ _ Hc). cbn [bind]. rewrite wr_ok by lia. cbn [bind].
    set (c' := (fst c, set_marked (snd c) false)).
    destruct (IH (upd s p c')) as (s' & q & -> & Hl & Hq & Hout & Hin); [rewrite upd_length; lia|].
    rewrite upd_length in Hl. exists s', q. split; [reflexivity|]. split; [exact Hl|]. split; [lia|]. split.
    + intros j Hj. rewrite Hout by lia. apply nth_error_upd_neq. lia.
    + intros j Hj. destruct (Nat.eq_dec j p) as [->|D].
      * split; [exists c; auto|]. exists c. split; [exact Hc|]. rewrite Hout by lia. apply nth_error_upd_eq. lia.
      * destruct (Hin j ltac:(lia)) as ((d & Hd & Sd) & e & He & Hs).
        rewrite nth_error_upd_neq in Hd, He by lia. split; [exists d; auto|]. exists e. auto.
  - exists s, (S p). split; [reflexivity|]. split; [reflexivity|]. split; [lia|]. split; [reflexivity|intros; lia].
Qed.

Lemma live_null_cell s i (v : N) j x : i < length s -> mlive (upd s i (null, v)) j x <-> j <> i /\ mlive s j x.
Proof.
  intros Hi. rewrite (live_upd null fst _ _ _ _ _ Hi). cbn [fst]. split.
  - intros [(_ & <- & D)|H]; [congruence|exact H].
  - intros H. right. exact H.
Qed.
Lemma null_cell_empty (v : N) : is_empty keqb null fst (null, v) = true.
Proof. unfold is_empty. cbn. now apply Hk. Qed.

Lemma erase_ll_spec s l k i : inv2 s l -> aligned s -> mlive s i k -> idx s k <> 0 ->
  exists s', erase_ll keqb null s i (idx s k) = Ok s' /\ length s' = length s /\ inv2 s' (aremove keqb k l).
Proof.
  intros Hi Ha Li H0k. pose proof Hi as (He & Hre & Hu & Hh & Hb). pose proof He as [H0 Hs].
  assert (Hil : i < length s - 1).
  { pose proof (live_lt null fst s i k Li). assert (i <> length s - 1); [|lia].
    intros ->. exact (stop_not_live keqb null fst spar Hk _ _ _ Hs Li). }
  destruct (Hre _ _ Li) as [Ai _]. pose proof Li as ((k' & v) & Hc & E & D). cbn in E. subst k'.
  unfold erase_ll. rewrite (rd_ok _ _ _ Hc). cbn [bind]. rewrite wr_ok by lia. cbn [bind].
  unfold set_null. cbn [snd]. rewrite upd_length. destruct (Nat.eqb_spec (i + 1) (length s)); [lia|].
  set (s1 := upd s i (null, v)). assert (H1 : nth_error s1 i = Some (null, v)) by (apply nth_error_upd_eq; lia).
  assert (L1 : length s1 = length s) by apply upd_length.
  destruct (rd_lt s1 (i + 1)) as (c' & Hc' & ->); [lia|]. cbn [bind].
  assert (Hc'' : nth_error s (i + 1) = Some c') by (unfold s1 in Hc'; rewrite nth_error_upd_neq in Hc' by lia; exact Hc').
  destruct (is_null_not_sparse keqb null c') eqn:En.
  - unfold is_null_not_sparse in En. apply andb_prop in En. destruct En as [Ee Em]. apply negb_true_iff in Em.
    unfold gc_sparse at 1. rewrite (rd_ok _ _ _ H1). cbn [bind fst snd]. rewrite wr_ok by lia. cbn [bind].
    set (s2 := upd s1 i (null, set_marked v false)).
    assert (L2 : length s2 = length s) by (unfold s2; rewrite upd_length; exact L1).
    assert (S2 : s2 = upd s i (null, set_marked v false)).
    { apply nth_error_ext. intros j. unfold s2, s1. rewrite !nth_error_upd, upd_length. destruct (Nat.eqb i j); reflexivity. }
    destruct (prune_spec (idx s k) ltac:(lia) i s2) as (s' & q & -> & Hl & Hq & Hout & Hin); [lia|].
    exists s'. split; [reflexivity|]. split; [lia|].
    assert (Hsp2 : forall j n, j <> i -> sparse spar s2 j n <-> sparse spar s j n).
    { intros j n0 Dj. rewrite S2. unfold sparse. rewrite nth_error_upd_neq by lia. reflexivity. }
    assert (Hlast : forall i' x, mlive s i' x -> idx s x = idx s k -> i' <> i -> i' < q).
    { intros i' x L Ex Di. destruct (Hre _ _ L) as [A B].
      destruct (lt_eq_lt_dec i' i) as [[Lt| ->]|Gt]; [|congruence|].
      - destruct (le_lt_dec q i'); [|assumption]. exfalso.
        destruct (Hin i' ltac:(lia)) as (Sp & _). apply Hsp2 in Sp; [|lia].
        exact (live_not_sparse keqb null fst spar Hk sparse_empty _ _ _ _ L Sp).
      - exfalso. apply (empty_true keqb null fst Hk) in Ee.
        destruct (Nat.eq_dec i' (i + 1)) as [->|D'].
        + destruct (live_key _ _ _ _ _ _ L Hc'') as [F G]. congruence.
        + destruct (B (i + 1) ltac:(lia)) as [(k2 & L2' & _)|(c2 & Hc2 & Sc2)].
          * destruct (live_key _ _ _ _ _ _ L2' Hc'') as [F G]. congruence.
          * rewrite Hc'' in Hc2. injection Hc2 as <-. unfold is_sparse in Sc2. rewrite Em in Sc2.
            rewrite andb_false_r in Sc2. discriminate. }
    apply (inv2_remove s s' l k i); auto; try lia.
    + intros j Dj Nj. destruct (le_lt_dec q j) as [Lq|Lq]; [destruct (le_lt_dec i j)|].
      * rewrite Hout by lia. rewrite S2. apply nth_error_upd_neq. lia.
      * exfalso. apply Nj. split; [lia|]. apply Hsp2; [lia|]. apply Hin. lia.
      * rewrite Hout by lia. rewrite S2. apply nth_error_upd_neq. lia.
    + intros j x. rewrite <- (live_null_cell s i (set_marked v false) j x) by lia. rewrite <- S2. split.
      * intros (c & Hcj & Ex & Dx). destruct (le_lt_dec q j) as [Lq|Lq]; [destruct (le_lt_dec i j)|].
        -- exists c. rewrite <- Hout by lia. auto.
        -- destruct (Hin j ltac:(lia)) as ((d & Hd & Sd) & e & Hej & Hsj). rewrite Hsj in Hcj. injection Hcj as <-.
           rewrite Hd in Hej. injection Hej as <-. apply sparse_empty, (empty_true keqb null fst Hk) in Sd. cbn in Ex. congruence.
        -- exists c. rewrite <- Hout by lia. auto.
      * intros L. assert (Hnj : ~ (q <= j < i)).
        { intros Hj. destruct (Hin j Hj) as (Sp & _).
          exact (live_not_sparse keqb null fst spar Hk sparse_empty _ _ _ _ L Sp). }
        destruct L as (c & Hcj & Ex). exists c. rewrite Hout by lia. auto.
    + intros i' j x L Ex Di Hj Sj. pose proof (Hlast i' x L Ex Di).
      destruct Sj as [Sj|Sj]; [|lia]. apply (Hsp2 j (idx s k)) in Sj; [|lia]. destruct Sj as (c & Hcj & Sc).
      exists c. rewrite Hout by lia. auto.
  - rewrite (rd_ok _ _ _ H1). cbn [bind fst snd]. rewrite wr_ok by lia. cbn [bind].
    set (v' := set_mbucket (set_marked v true) (idx s k)). set (s' := upd s1 i (null, v')).
    assert (S' : s' = upd s i (null, v')).
    { apply nth_error_ext. intros j. unfold s', s1. rewrite !nth_error_upd, upd_length. destruct (Nat.eqb i j); reflexivity. }
    exists s'. split; [reflexivity|]. split; [rewrite S'; apply upd_length|]. rewrite S'.
    assert (Hsi : sparse spar (upd s i (null, v')) i (idx s k)).
    { exists (null, v'). split; [apply nth_error_upd_eq; lia|]. unfold is_sparse. rewrite null_cell_empty. cbn [snd andb].
      unfold v'. rewrite marked_set_mbucket, marked_set. cbn [andb].
      pose proof (index_lt hash w s k H0). destruct Ha as (_ & H64 & _).
      rewrite mbucket_set by lia. apply Nat.eqb_refl. }
    apply (inv2_remove s _ l k i); auto.
    + apply upd_length.
    + intros j Dj _. apply nth_error_upd_neq. lia.
    + intros j x. apply live_null_cell. lia.
    + intros i' j x L Ex Di Hj Sj. destruct (Nat.eq_dec j i) as [->|Dj]; [exact Hsi|].
      destruct Sj as [Sj|Sj]; [|contradiction]. apply sparse_upd_neq; [lia|exact Sj].
Qed.

(* ---- gc_active *)
Lemma gc_loop_spec s n pos : pos < length s -> (forall j, n <= j < pos -> member null hash w fst s n j \/ sparse spar s j n) ->
  forall fuel it, n <= it <= pos -> pos - it < fuel -> (forall j, n <= j < it -> member null hash w fst s n j) ->
  gc_loop keqb null fuel s n pos it = Ok (pos, s) \/
  exists q c a, n <= q < pos /\ gc_loop keqb null fuel s n pos it = Ok (q, upd (upd s q a) pos c) /\
    nth_error s q = Some c /\ spar c n = true /\ nth_error s pos = Some a /\
    forall j, n <= j < q -> member null hash w fst s n j.
Proof.
  intros Hpos Hrun. induction fuel as [|f IH]; intros it Hit Hf Hbef; [lia|]. cbn [gc_loop].
  destruct (Nat.eqb_spec it (length s)); [lia|]. cbn [negb andb].
  destruct (Nat.ltb_spec it pos); [|left; reflexivity].
  destruct (rd_lt s it) as (c & Hc & ->); [lia|]. cbn [bind].
  destruct (is_empty keqb null fst c) eqn:Ee.
  - destruct (Hrun it ltac:(lia)) as [(k & L & _)|(c' & Hc' & Sc)].
    { exfalso. apply (empty_true keqb null fst Hk) in Ee. destruct (live_key _ _ _ _ _ _ L Hc). congruence. }
    rewrite Hc in Hc'. injection Hc' as <-. pose proof Sc as Sc0. unfold is_sparse in Sc.
    rewrite Ee in Sc. cbn [andb] in Sc. apply andb_prop in Sc. destruct Sc as [Sm Sb]. rewrite Sm, Sb. cbn [negb andb].
    destruct (rd_lt s pos) as (a & Hpa & ->); [lia|]. cbn [bind]. rewrite wr_ok by lia. cbn [bind].
    rewrite wr_ok by (rewrite upd_length; lia). cbn [bind]. right. exists it, c, a. repeat split; auto; lia.
  - apply IH; [lia|lia|]. intros j Hj. destruct (Nat.eq_dec j it) as [->|]; [|apply Hbef; lia].
    destruct (Hrun it ltac:(lia)) as [M|(c' & Hc' & Sc)]; [exact M|].
    rewrite Hc in Hc'. injection Hc' as <-. apply sparse_empty in Sc. congruence.
Qed.

Lemma gc_spec s l k i : inv2 s l -> aligned s -> mlive s i k ->
  exists q s', gc_active keqb null hash w s i = Ok (q, s') /\ length s' = length s /\ inv2 s' l /\ mlive s' q k.
Proof.
  intros Hi Ha Li. pose proof Hi as (He & Hre & Hu & Hh & Hb). pose proof He as [H0 Hs].
  assert (Hil : i < length s - 1).
  { pose proof (live_lt null fst s i k Li). assert (i <> length s - 1); [|lia].
    intros ->. exact (stop_not_live keqb null fst spar Hk _ _ _ Hs Li). }
  destruct (Hre _ _ Li) as [Ai Bi]. pose proof Li as ((k' & v) & Hc & E & D). cbn in E. subst k'.
  unfold gc_active. rewrite (rd_ok _ _ _ Hc). cbn [bind fst].
  destruct (gc_loop_spec s (idx s k) i ltac:(lia) Bi (S (length s)) (idx s k)) as [->|(q & c & a & Hq & -> & Hcq & Sc & Ha' & Hbef)];
    [lia|lia|intros; lia|..].
  { exists i, s. auto. }
  rewrite Hc in Ha'. injection Ha' as <-. set (s' := upd (upd s q (k, v)) i c).
  assert (Nth : forall j, nth_error s' j = if Nat.eqb j i then Some c else if Nat.eqb j q then Some (k, v) else nth_error s j).
  { intros j. unfold s'. rewrite !nth_error_upd, upd_length. rewrite (Nat.eqb_sym j i), (Nat.eqb_sym j q).
    destruct (Nat.ltb_spec i (length s)); [|lia]. destruct (Nat.ltb_spec q (length s)); [|lia]. reflexivity. }
  assert (Ln : length s' = length s) by (unfold s'; rewrite !upd_length; reflexivity).
  assert (Hidx : forall x, idx s' x = idx s x) by (intros x; unfold index; now rewrite Ln).
  assert (Nc : fst c = null) by (apply (empty_true keqb null fst Hk); exact (sparse_empty _ _ Sc)).
  assert (LA : forall j x, mlive s' j x <-> (j = q /\ x = k) \/ (j <> q /\ j <> i /\ mlive s j x)).
  { intros j x. unfold live. setoid_rewrite Nth. destruct (Nat.eqb_spec j i) as [->|Dj].
    - split.
      + intros (c0 & [= <-] & E0 & D0). congruence.
      + intros [(E0 & _)|(_ & E0 & _)]; [lia|congruence].
    - destruct (Nat.eqb_spec j q) as [->|Dq].
      + split; [intros (c0 & [= <-] & E0 & D0); cbn in E0; auto|]. intros [(_ & ->)|(A & _)]; [exists (k, v); auto|congruence].
      + split; [intros H; auto|]. intros [(A & _)|(_ & _ & H)]; [congruence|exact H]. }
  pose proof (Hb _ _ Li) as Bk. unfold bucket_depth in *.
  assert (Mq : member null hash w fst s' (idx s k) q) by (exists k; rewrite Hidx; split; [apply LA; auto|reflexivity]).
  assert (Keep : forall j n, j <> q -> j <> i -> member null hash w fst s n j -> member null hash w fst s' n j).
  { intros j n Dq Di (x & L & Ex). exists x. rewrite Hidx. split; [apply LA; auto|exact Ex]. }
  exists q, s'. split; [reflexivity|]. split; [exact Ln|]. split; [|apply LA; auto].
  split; [|split; [|split; [|split]]].
  - unfold ends. rewrite Ln. split; [exact H0|]. destruct Hs as (d & Hd & Hs). exists d. split; [|exact Hs].
    rewrite Nth. destruct (Nat.eqb_spec (length s - 1) i); [lia|]. destruct (Nat.eqb_spec (length s - 1) q); [lia|]. exact Hd.
  - intros j x L. rewrite !Hidx. apply LA in L. destruct L as [(-> & ->)|(Dq & Di & L)].
    + split; [lia|]. intros j Hj. left. apply Keep; [lia|lia|apply Hbef; lia].
    + destruct (Hre _ _ L) as [A B]. split; [exact A|]. intros t Ht. pose proof (Hb _ _ L) as Bx. unfold bucket_depth in Bx.
      destruct (Nat.eq_dec t q) as [->|Dt].
      { left. replace (idx s x) with (idx s k); [exact Mq|]. apply (same_block s k x q Ha); lia. }
      destruct (Nat.eq_dec t i) as [->|Dti].
      { right. replace (idx s x) with (idx s k); [|apply (same_block s k x i Ha); lia].
        exists c. rewrite Nth, Nat.eqb_refl. auto. }
      destruct (B t Ht) as [M|(d & Hd & Sd)]; [left; now apply Keep|].
      right. exists d. split; [|exact Sd]. rewrite Nth. destruct (Nat.eqb_spec t i); [lia|]. destruct (Nat.eqb_spec t q); [lia|]. exact Hd.
  - intros a b x La Lb. apply LA in La. apply LA in Lb.
    destruct La as [(-> & ->)|(A1 & A2 & La)]; destruct Lb as [(-> & E2)|(B1 & B2 & Lb)]; try reflexivity.
    + exfalso. apply B2. exact (Hu _ _ _ Lb Li).
    + subst x. exfalso. apply A2. exact (Hu _ _ _ La Li).
    + exact (Hu _ _ _ La Lb).
  - destruct Hh as [Nd Hh]. split; [exact Nd|]. intros x y. rewrite Hh. split; intros (Dx & j & Ej); split; auto.
    + destruct (Nat.eq_dec j i) as [->|Di].
      * rewrite Hc in Ej. injection Ej as <- <-. exists q. rewrite Nth, Nat.eqb_refl.
        destruct (Nat.eqb_spec q i); [lia|reflexivity].
      * exists j. rewrite Nth. destruct (Nat.eqb_spec j i); [lia|]. destruct (Nat.eqb_spec j q) as [->|]; [|exact Ej].
        rewrite Hcq in Ej. injection Ej as ->. cbn in Nc. congruence.
    + rewrite Nth in Ej. destruct (Nat.eqb j i).
      * injection Ej as ->. cbn in Nc. congruence.
      * destruct (Nat.eqb j q); [injection Ej as <- <-; now exists i|now exists j].
  - intros j x L. rewrite Hidx. apply LA in L. destruct L as [(-> & ->)|(_ & _ & L)]; [unfold bucket_depth; lia|exact (Hb _ _ L)].
Qed.

(* ---- the histories *)
Lemma upd_upd {A} (s : list A) p a b : upd (upd s p a) p b = upd s p b.
Proof. apply nth_error_ext. intros j. rewrite !nth_error_upd, upd_length. destruct (Nat.eqb p j); reflexivity. Qed.

Lemma init_inv2 storage : clear_end storage -> inv2 (map_init null storage) [].
Proof.
  intros Hc. split; [now apply init_ends|]. split; [intros i k L; now apply init_dead in L|].
  split; [intros i j k L; now apply init_dead in L|]. split; [apply init_holds|]. intros i k L; now apply init_dead in L.
Qed.

Lemma do_mop_spec s l o : inv2 s l -> aligned s -> mop_ok keqb null (length s) bucket_depth (idx s) o l ->
  exists s', do_mop keqb null hash w o s = Ok (mop_answer keqb o l, s') /\ length s' = length s /\
    inv2 s' (mop_step keqb o l).
Proof.
  intros Hi Ha Hok. pose proof Hi as (He & Hre & Hu & Hh & Hb). destruct o as [k v|k v|k v|k v|k|k|]; cbn in *.
  - destruct Hok as (Hn & P & R). destruct (new_key s l k Hi Ha Hn P R) as (p & c & E & Hc & Hp & Hinv).
    unfold map_insert, map_insert_dup. rewrite E. cbn [bind]. rewrite wr_ok by exact Hp. cbn [bind].
    eexists. split; [reflexivity|]. split; [apply upd_length|apply Hinv].
  - destruct Hok as (Hn & P & R). destruct (new_key s l k Hi Ha Hn P R) as (p & c & E & Hc & Hp & Hinv).
    unfold map_try_emplace. rewrite E. cbn [bind]. rewrite wr_ok by exact Hp. cbn [bind].
    eexists. split; [reflexivity|]. split; [apply upd_length|apply Hinv].
  - destruct Hok as (Hn & R). unfold map_insert_or_assign. destruct (present keqb k l) eqn:P.
    + destruct (present_live s l k Hh P) as (i & L).
      rewrite (find_found keqb null hash w fst spar Hk sparse_empty s k i He Hre Hu L). cbn [bind].
      destruct L as ((k' & v0) & E & E2 & D). cbn in E2. subst k'. rewrite (rd_ok _ _ _ E). cbn [bind fst].
      assert (i < length s) by (apply nth_error_Some; congruence). rewrite wr_ok by assumption. cbn [bind].
      eexists. split; [reflexivity|]. split; [apply upd_length|]. now apply (inv2_assign s l k v v0).
    + rewrite (find_none keqb null hash w fst spar Hk sparse_empty s k He Hre (not_present_live s l k Hh P)). cbn [bind].
      destruct (new_key s l k Hi Ha Hn P (R eq_refl)) as (p & c & E & Hc & Hp & Hinv).
      unfold map_insert, map_insert_dup. rewrite E. cbn [bind]. rewrite wr_ok by exact Hp. cbn [bind].
      eexists. split; [reflexivity|]. split; [apply upd_length|apply Hinv].
  - destruct Hok as (Hn & R). unfold map_store, map_at. destruct (present keqb k l) eqn:P.
    + destruct (present_live s l k Hh P) as (i & L).
      rewrite (find_found keqb null hash w fst spar Hk sparse_empty s k i He Hre Hu L). cbn [bind].
      destruct L as ((k' & v0) & E & E2 & D). cbn in E2. subst k'. rewrite (rd_ok _ _ _ E). cbn [bind fst].
      assert (i < length s) by (apply nth_error_Some; congruence). rewrite wr_ok by assumption. cbn [bind].
      eexists. split; [reflexivity|]. split; [apply upd_length|]. now apply (inv2_assign s l k v v0).
    + rewrite (find_none keqb null hash w fst spar Hk sparse_empty s k He Hre (not_present_live s l k Hh P)). cbn [bind].
      destruct (new_key s l k Hi Ha Hn P (R eq_refl)) as (p & c & E & Hc & Hp & Hinv).
      unfold map_try_emplace0. rewrite E. cbn [bind]. rewrite (rd_ok _ _ _ Hc). cbn [bind]. rewrite wr_ok by exact Hp. cbn [bind].
      rewrite (rd_ok _ p (k, snd c)) by (apply nth_error_upd_eq; exact Hp). cbn [bind fst].
      rewrite wr_ok by (rewrite upd_length; exact Hp). cbn [bind]. rewrite upd_upd.
      eexists. split; [reflexivity|]. split; [apply upd_length|apply Hinv].
  - unfold map_erase. destruct (present keqb k l) eqn:P.
    + destruct (present_live s l k Hh P) as (i & L).
      rewrite (find_found keqb null hash w fst spar Hk sparse_empty s k i He Hre Hu L). cbn [bind].
      destruct (erase_ll_spec s l k i Hi Ha L (Hok eq_refl)) as (s' & -> & Ln & I). cbn [bind]. exists s'. auto.
    + rewrite (find_none keqb null hash w fst spar Hk sparse_empty s k He Hre (not_present_live s l k Hh P)). cbn [bind].
      exists s. split; [reflexivity|]. split; [reflexivity|].
      replace (aremove keqb k l) with l; [exact Hi|].
      unfold aremove. symmetry. pose proof (proj1 (present_false keqb Hk k l) P) as Q. clear - Q Hk.
      induction l as [|[x y] l IH]; [reflexivity|]. cbn. destruct (keqb k x) eqn:E.
      * apply Hk in E. subst. exfalso. apply (Q y). now left.
      * cbn. f_equal. apply IH. intros v I. apply (Q v). now right.
  - destruct (present keqb k l) eqn:P.
    + destruct (present_live s l k Hh P) as (i & L).
      rewrite (find_found keqb null hash w fst spar Hk sparse_empty s k i He Hre Hu L). cbn [bind].
      destruct (gc_spec s l k i Hi Ha L) as (q & s' & -> & Ln & I & _). cbn [bind]. exists s'. auto.
    + rewrite (find_none keqb null hash w fst spar Hk sparse_empty s k He Hre (not_present_live s l k Hh P)). cbn [bind].
      exists s. auto.
  - exists (map_clear null s). split; [reflexivity|]. split; [apply map_length|]. apply init_inv2.
    destruct He as [H0 (c & Hc & Ee & Es)]. split; [exact H0|]. exists c. split; [exact Hc|].
    specialize (Es (mbucket (snd c))). unfold is_sparse in Es. rewrite Ee, Nat.eqb_refl, andb_true_r in Es. exact Es.
Qed.
Lemma do_mops_spec : forall ops s l, inv2 s l -> aligned s ->
  mhistory_ok keqb null (length s) bucket_depth (idx s) ops l ->
  exists s', do_mops keqb null hash w ops s = Ok (manswers keqb ops l, s') /\ inv2 s' (mrun keqb ops l).
Proof.
  induction ops as [|o ops IH]; intros s l Hi Ha Hok; [exists s; auto|]. cbn [mhistory_ok] in Hok. destruct Hok as [Ho Hok].
  destruct (do_mop_spec s l o Hi Ha Ho) as (s1 & E & Ln & I1). cbn [do_mops]. rewrite E. cbn [bind].
  destruct (IH s1 (mop_step keqb o l) I1) as (s' & -> & I').
  - unfold aligned in *. now rewrite Ln.
  - unfold index in *. rewrite Ln. exact Hok.
  - cbn [bind]. exists s'. auto.
Qed.

Lemma live_keys_nodup s : muniq s -> NoDup (live_keys keqb null s).
Proof.
  unfold live_keys. induction s as [|c s IH]; [constructor|]. intros Hu. cbn [filter].
  assert (Hu' : muniq s). { intros i j x Li Lj. apply eq_add_S. apply (Hu (S i) (S j) x); assumption. }
  destruct (is_empty keqb null fst c) eqn:E; cbn [negb]; [auto|]. cbn [map]. constructor; [|auto].
  intros I. apply in_map_iff in I. destruct I as (d & Ed & I). apply filter_In in I. destruct I as [I _].
  apply In_nth_error in I. destruct I as (n & Hn). apply (empty_false keqb null fst Hk) in E.
  specialize (Hu 0 (S n) (fst c)). discriminate Hu.
  - exists c. auto.
  - exists d. cbn. auto.
Qed.
Lemma live_keys_in s k : In k (live_keys keqb null s) <-> exists i, mlive s i k.
Proof.
  unfold live_keys. rewrite in_map_iff. split.
  - intros (c & Ec & I). apply filter_In in I. destruct I as [I E]. apply In_nth_error in I. destruct I as (n & Hn).
    apply negb_true_iff, (empty_false keqb null fst Hk) in E. exists n, c. subst. auto.
  - intros (i & c & Hc & Ec & D). exists c. split; [exact Ec|]. apply filter_In. split; [exact (nth_error_In _ _ Hc)|].
    apply negb_true_iff, (empty_false keqb null fst Hk). congruence.
Qed.
Lemma size_spec s l : muniq s -> holds s l -> tsize keqb null fst s = length l.
Proof.
  intros Hu Hh. unfold tsize. rewrite <- (map_length fst), <- (map_length fst l).
  apply Permutation_length, NoDup_Permutation; [now apply live_keys_nodup|apply Hh|].
  intros k. rewrite (live_keys_in s k), <- (holds_live s l k Hh), in_map_iff. split.
  - intros (v & I). exists (k, v). auto.
  - intros ((k' & v) & E & I). cbn in E. subst. now exists v.
Qed.

Lemma C25_main storage ops m : clear_end storage -> length storage = 4 * m -> m <= 16 -> (2 <= w)%N ->
  mhistory_ok keqb null (length storage) bucket_depth (index_of hash w (length storage)) ops [] ->
  exists s, do_mops keqb null hash w ops (map_init null storage) = Ok (manswers keqb ops [], s) /\
    (forall k, map_find keqb null hash w s k = Ok (alookup keqb k (mrun keqb ops []))) /\
    NoDup (live_keys keqb null s) /\ tsize keqb null fst s = length (mrun keqb ops []).
Proof.
  intros Hc Hm H16 Hw Hok. assert (Ln : length (map_init null storage) = length storage) by apply map_length.
  destruct (do_mops_spec ops (map_init null storage) []) as (s & E & He & Hre & Hu & Hh & _).
  - now apply init_inv2.
  - split; [exists m; lia|]. split; [lia|exact Hw].
  - unfold index. rewrite Ln. exact Hok.
  - exists s. split; [exact E|]. split; [|split].
    + intros k. now apply map_find_spec.
    + now apply live_keys_nodup.
    + now apply size_spec.
Qed.


(* ---- C69, C70 *)
Lemma mhistory_app N0 d ix (a b : list (mop K N)) : forall l, mhistory_ok keqb null N0 d ix (a ++ b) l <->
  mhistory_ok keqb null N0 d ix a l /\ mhistory_ok keqb null N0 d ix b (mrun keqb a l).
Proof. induction a as [|o a IH]; intros l; cbn [mhistory_ok app mrun]; [tauto|]. rewrite IH. tauto. Qed.
Lemma mrun_app (a b : list (mop K N)) : forall l, mrun keqb (a ++ b) l = mrun keqb b (mrun keqb a l).
Proof. induction a as [|o a IH]; intros l; cbn [app mrun]; auto. Qed.
Lemma manswers_app (a b : list (mop K N)) : forall l, manswers keqb (a ++ b) l = manswers keqb a l ++ manswers keqb b (mrun keqb a l).
Proof. induction a as [|o a IH]; intros l; cbn [app mrun manswers]; [reflexivity|]. now rewrite IH. Qed.
Lemma alookup_remove x k (l : list (K * N)) : alookup keqb x (aremove keqb k l) = if keqb k x then None else alookup keqb x l.
Proof.
  induction l as [|[y v] l IH]; cbn [aremove filter alookup fst]; [now destruct (keqb k x)|].
  destruct (keqb k y) eqn:E; cbn [negb].
  - apply Hk in E. subst y. unfold aremove in IH. rewrite IH. destruct (keqb k x) eqn:Ex; [reflexivity|].
    destruct (keqb x k) eqn:Ex'; [|reflexivity]. apply Hk in Ex'. subst. rewrite (keqb_refl keqb Hk) in Ex. discriminate.
  - cbn [alookup]. unfold aremove in IH. rewrite IH. destruct (keqb x y) eqn:Ex; [|reflexivity]. apply Hk in Ex. subst y. now rewrite E.
Qed.
Lemma alookup_set x k v (l : list (K * N)) : alookup keqb x (aset keqb k v l) = if keqb x k then Some v else alookup keqb x l.
Proof.
  unfold aset. cbn [alookup]. destruct (keqb x k) eqn:E; [reflexivity|]. rewrite alookup_remove.
  destruct (keqb k x) eqn:E'; [|reflexivity]. apply Hk in E'. subst. rewrite (keqb_refl keqb Hk) in E. discriminate.
Qed.

Lemma history_step storage ops m o : clear_end storage -> length storage = 4 * m -> m <= 16 -> (2 <= w)%N ->
  mhistory_ok keqb null (length storage) bucket_depth (index_of hash w (length storage)) (ops ++ [o]) [] ->
  exists s s', do_mops keqb null hash w ops (map_init null storage) = Ok (manswers keqb ops [], s) /\
    do_mop keqb null hash w o s = Ok (mop_answer keqb o (mrun keqb ops []), s') /\
    (forall x, map_find keqb null hash w s x = Ok (alookup keqb x (mrun keqb ops []))) /\
    (forall x, map_find keqb null hash w s' x = Ok (alookup keqb x (mop_step keqb o (mrun keqb ops [])))) /\
    tsize keqb null fst s = length (mrun keqb ops []) /\
    tsize keqb null fst s' = length (mop_step keqb o (mrun keqb ops [])).
Proof.
  intros Hc Hm H16 Hw Hok0. pose proof Hok0 as Hok. apply mhistory_app in Hok. destruct Hok as [Hok _].
  destruct (C25_main storage ops m Hc Hm H16 Hw Hok) as (s & E & F & _ & T).
  destruct (C25_main storage (ops ++ [o]) m Hc Hm H16 Hw Hok0) as (s' & E' & F' & _ & T').
  rewrite mrun_app, manswers_app in *. cbn [mrun manswers] in *.
  exists s, s'. split; [exact E|]. split; [|auto].
  clear - E E'. revert E E'. generalize (map_init null storage). generalize (manswers keqb ops []). generalize (mop_answer keqb o (mrun keqb ops [])).
  intros ans. induction ops as [|o' ops IH]; intros rs s0 E E'.
  - cbn in E. injection E as <- <-. cbn in E'. destruct (do_mop keqb null hash w o s0) as [[r s1]| |]; cbn in E'; try discriminate.
    injection E' as -> ->. reflexivity.
  - cbn [app do_mops] in E, E'. destruct (do_mop keqb null hash w o' s0) as [[r s1]| |]; cbn [bind] in E, E'; try discriminate.
    destruct (do_mops keqb null hash w ops s1) as [[rs1 s2]| |] eqn:E1; cbn [bind] in E; try discriminate. injection E as <- <-.
    destruct (do_mops keqb null hash w (ops ++ [o]) s1) as [[rs2 s3]| |] eqn:E2; cbn [bind] in E'; try discriminate.
    cbn [app] in E'. injection E' as -> ->. exact (IH rs1 s1 E1 E2).
Qed.
Lemma C70_gc_lemma storage ops m k : clear_end storage -> length storage = 4 * m -> m <= 16 -> (2 <= w)%N ->
  mhistory_ok keqb null (length storage) bucket_depth (index_of hash w (length storage)) ops [] ->
  exists s s', do_mops keqb null hash w ops (map_init null storage) = Ok (manswers keqb ops [], s) /\
    do_mop keqb null hash w (MGc k) s = Ok (present keqb k (mrun keqb ops []), s') /\
    (forall x, map_find keqb null hash w s' x = map_find keqb null hash w s x) /\
    tsize keqb null fst s' = tsize keqb null fst s.
Proof.
  intros Hc Hm H16 Hw Hok. destruct (history_step storage ops m (MGc k) Hc Hm H16 Hw) as (s & s' & E & D & F & F' & T & T').
  - apply mhistory_app. split; [exact Hok|]. cbn. auto.
  - exists s, s'. split; [exact E|]. split; [exact D|]. split; [intros x; rewrite F, F'; reflexivity|]. rewrite T, T'. reflexivity.
Qed.
Lemma C69_main storage ops m k v o : clear_end storage -> length storage = 4 * m -> m <= 16 -> (2 <= w)%N ->
  mhistory_ok keqb null (length storage) bucket_depth (index_of hash w (length storage)) ops [] ->
  k <> null -> present keqb k (mrun keqb ops []) = false ->
  load_of (index_of hash w (length storage)) (index_of hash w (length storage) k) (mrun keqb ops []) <
    (if Nat.eqb (index_of hash w (length storage) k + 4) (length storage) then 3 else 4) ->
  In o [MInsert k v; MTryEmplace k v; MInsertOrAssign k v; MStore k v] ->
  exists s s', do_mops keqb null hash w ops (map_init null storage) = Ok (manswers keqb ops [], s) /\
    do_mop keqb null hash w o s = Ok (true, s') /\ map_find keqb null hash w s' k = Ok (Some v) /\
    forall x, x <> k -> map_find keqb null hash w s' x = map_find keqb null hash w s x.
Proof.
  intros Hc Hm H16 Hw Hok Hkn Hp Hload Ho. destruct (history_step storage ops m o Hc Hm H16 Hw) as (s & s' & E & D & F & F' & _).
  - apply mhistory_app. split; [exact Hok|]. cbn [mhistory_ok]. split; [|exact I].
    cbn in Ho. destruct Ho as [<-|[<-|[<-|[<-|[]]]]]; cbn [mop_ok]; unfold bucket_depth in *; auto.
  - assert (Hstep : mop_step keqb o (mrun keqb ops []) = aset keqb k v (mrun keqb ops []) /\ mop_answer keqb o (mrun keqb ops []) = true).
    { cbn in Ho. destruct Ho as [<-|[<-|[<-|[<-|[]]]]]; split; reflexivity. }
    destruct Hstep as [Hst Han]. rewrite Hst in F'. rewrite Han in D.
    exists s, s'. split; [exact E|]. split; [exact D|]. split.
    + rewrite F', alookup_set, (keqb_refl keqb Hk). reflexivity.
    + intros x Dx. rewrite F, F', alookup_set, (keqb_neq keqb Hk) by exact Dx. reflexivity.
Qed.
Lemma C70_clear_lemma storage ops1 ops2 m : clear_end storage -> length storage = 4 * m -> m <= 16 -> (2 <= w)%N ->
  mhistory_ok keqb null (length storage) bucket_depth (index_of hash w (length storage)) ops1 [] ->
  mhistory_ok keqb null (length storage) bucket_depth (index_of hash w (length storage)) ops2 [] ->
  exists s, do_mops keqb null hash w (ops1 ++ MClear :: ops2) (map_init null storage) =
      Ok (manswers keqb ops1 [] ++ true :: manswers keqb ops2 [], s) /\
    (forall k, map_find keqb null hash w s k = Ok (alookup keqb k (mrun keqb ops2 []))) /\
    tsize keqb null fst s = length (mrun keqb ops2 []).
Proof.
  intros Hc Hm H16 Hw H1 H2. destruct (C25_main storage (ops1 ++ MClear :: ops2) m Hc Hm H16 Hw) as (s & E & F & _ & T).
  - apply mhistory_app. split; [exact H1|]. cbn [mhistory_ok mop_step]. split; [exact I|exact H2].
  - rewrite mrun_app, manswers_app in *. cbn [mrun manswers mop_step mop_answer] in *. exists s. auto.
Qed.

Lemma C24_main storage ops m : clear_end storage -> length storage = 4 * m -> m <= 16 -> (2 <= w)%N ->
  mhistory_ok keqb null (length storage) bucket_depth (index_of hash w (length storage)) ops [] ->
  exists s, do_mops keqb null hash w ops (map_init null storage) = Ok (manswers keqb ops [], s) /\
    NoDup (live_keys keqb null s).
Proof. intros A B C D E. destruct (C25_main storage ops m A B C D E) as (s & E1 & _ & E2 & _). exists s. auto. Qed.
Lemma C24_ins storage ops : clear_end storage -> fits (length storage) (index_of hash w (length storage)) (map op_key ops) ->
  exists rs s, do_iops keqb null hash w ops (map_init null storage) = Ok (rs, s) /\ NoDup (live_keys keqb null s).
Proof.
  intros Hc Hf. destruct (do_iops_spec (map op_key ops) ops (map_init null storage) []) as (rs & s & l & E & _ & S & I).
  - split; [now apply init_ends|]. split; [intros i k L; now apply init_dead in L|].
    split; [intros i j k L; now apply init_dead in L|]. split; [apply init_holds|]. intros i k L; now apply init_dead in L.
  - unfold index, map_init. rewrite map_length. exact Hf.
  - apply incl_refl.
  - exists rs, s. split; [exact E|]. destruct I as (_ & _ & Hu & _). now apply live_keys_nodup.
Qed.
Lemma C25_find storage ops m : clear_end storage -> length storage = 4 * m -> m <= 16 -> (2 <= w)%N ->
  mhistory_ok keqb null (length storage) bucket_depth (index_of hash w (length storage)) ops [] ->
  exists s, do_mops keqb null hash w ops (map_init null storage) = Ok (manswers keqb ops [], s) /\
    forall k, map_find keqb null hash w s k = Ok (alookup keqb k (mrun keqb ops [])).
Proof. intros A B C D E. destruct (C25_main storage ops m A B C D E) as (s & E1 & E2 & _). exists s. auto. Qed.
Lemma C70_size_lemma storage ops m : clear_end storage -> length storage = 4 * m -> m <= 16 -> (2 <= w)%N ->
  mhistory_ok keqb null (length storage) bucket_depth (index_of hash w (length storage)) ops [] ->
  exists s, do_mops keqb null hash w ops (map_init null storage) = Ok (manswers keqb ops [], s) /\
    tsize keqb null fst s = length (mrun keqb ops []) /\
    tempty keqb null fst s = (match mrun keqb ops [] with [] => true | _ => false end).
Proof.
  intros A B C D E. destruct (C25_main storage ops m A B C D E) as (s & E1 & _ & _ & E2). exists s. split; [exact E1|]. split; [exact E2|].
  assert (G : tempty keqb null fst s = Nat.eqb (tsize keqb null fst s) 0).
  { unfold tempty, tsize. clear. induction s as [|c s IH]; [reflexivity|]. cbn [forallb filter]. destruct (is_empty keqb null fst c); [exact IH|reflexivity]. }
  rewrite G, E2. destruct (mrun keqb ops []); reflexivity.
Qed.
Lemma C25_one storage ops m k : clear_end storage -> length storage = 4 * m -> m <= 16 -> (2 <= w)%N ->
  mhistory_ok keqb null (length storage) bucket_depth (index_of hash w (length storage)) ops [] ->
  index_of hash w (length storage) k <> 0 ->
  exists s s' b, do_mops keqb null hash w ops (map_init null storage) = Ok (manswers keqb ops [], s) /\
    map_erase keqb null hash w s k = Ok (b, s') /\
    (b = true <-> exists v, map_find keqb null hash w s k = Ok (Some v)) /\
    map_find keqb null hash w s' k = Ok None /\
    forall x, x <> k -> map_find keqb null hash w s' x = map_find keqb null hash w s x.
Proof.
  intros Hc Hm H16 Hw Hok Hi. destruct (history_step storage ops m (MErase k) Hc Hm H16 Hw) as (s & s' & E & D & F & F' & _).
  - apply mhistory_app. split; [exact Hok|]. cbn [mhistory_ok mop_ok]. auto.
  - exists s, s', (present keqb k (mrun keqb ops [])). split; [exact E|]. split; [exact D|]. cbn [mop_step] in F'. split; [|split].
    + rewrite F. unfold present. destruct (alookup keqb k (mrun keqb ops [])) as [v|].
      * split; [intros _; now exists v|reflexivity].
      * split; [discriminate|]. intros (v & H). discriminate.
    + rewrite F', alookup_remove, (keqb_refl keqb Hk). reflexivity.
    + intros x Dx. rewrite F, F', alookup_remove, (keqb_neq keqb Hk) by (intros ->; now apply Dx). reflexivity.
Qed.

(* ---- keys of one bucket inserted into fresh storage *)
Definition filled (storage : list cell) (n : nat) (kvs : list (K * N)) (s : list cell) : Prop :=
  length s = length storage /\ forall j, nth_error s j =
    if (Nat.leb n j && Nat.ltb j (n + length kvs))%bool then nth_error kvs (j - n) else nth_error (map_init null storage) j.
Notation bucket_keys N0 := (bucket_keys null (index_of hash w N0)).

Lemma filled_slot storage n kvs s i kv : filled storage n kvs s -> nth_error kvs i = Some kv -> nth_error s (n + i) = Some kv.
Proof.
  intros [_ H] E. rewrite H. assert (i < length kvs) by (apply nth_error_Some; congruence).
  destruct (Nat.leb_spec n (n + i)); [|lia]. destruct (Nat.ltb_spec (n + i) (n + length kvs)); [|lia]. cbn [andb].
  replace (n + i - n) with i by lia. exact E.
Qed.
Lemma filled_out storage n kvs s j : filled storage n kvs s -> j < n \/ n + length kvs <= j ->
  nth_error s j = nth_error (map_init null storage) j.
Proof.
  intros [_ H] E. rewrite H. destruct (Nat.leb_spec n j); destruct (Nat.ltb_spec j (n + length kvs)); cbn [andb]; try reflexivity; lia.
Qed.
Lemma filled_run storage n kvs s x e : filled storage n kvs s -> bucket_keys (length storage) n kvs ->
  e <= n + length kvs -> (forall i kv, n + i < e -> nth_error kvs i = Some kv -> fst kv <> x) ->
  run_before null hash w fst s n e x.
Proof.
  intros Hf [_ Hb] He Hx j Hj. destruct (nth_error kvs (j - n)) as [kv|] eqn:E.
  - pose proof (filled_slot storage n kvs s _ _ Hf E) as Hs. replace (n + (j - n)) with j in Hs by lia.
    rewrite Forall_forall in Hb. destruct (Hb kv (nth_error_In _ _ E)) as [D I].
    exists (fst kv). split; [exists kv; auto|]. split; [|apply (Hx (j - n)); [lia|exact E]].
    unfold index. destruct Hf as [-> _]. exact I.
  - exfalso. apply nth_error_None in E. lia.
Qed.
Lemma init_cell storage j : j < length storage -> exists v, nth_error (map_init null storage) j = Some (null, v).
Proof.
  intros H. unfold map_init. rewrite nth_error_map. destruct (nth_error storage j) as [c|] eqn:E; [|apply nth_error_None in E; lia].
  exists (snd c). reflexivity.
Qed.

Lemma fill_step storage n done kv s : filled storage n done s -> bucket_keys (length storage) n (done ++ [kv]) ->
  n + length done < length storage ->
  exists s', map_insert keqb null hash w s (fst kv) (snd kv) = Ok (Some (n + length done), true, s') /\ filled storage n (done ++ [kv]) s'.
Proof.
  intros Hf Hb Hl. pose proof Hb as [Hnd Hfa]. destruct kv as [k v]. cbn [fst snd].
  assert (Hkn : k <> null /\ index_of hash w (length storage) k = n).
  { rewrite Forall_forall in Hfa. apply (Hfa (k, v)). apply in_or_app. right. now left. }
  destruct Hkn as [Hkn Hn].
  assert (Hi : idx s k = n) by (unfold index; destruct Hf as [-> _]; exact Hn).
  assert (Hb' : bucket_keys (length storage) n done).
  { split; [rewrite map_app in Hnd; exact (NoDup_app_l _ _ Hnd)|]. apply Forall_app in Hfa. apply Hfa. }
  assert (Hr : run_before null hash w fst s n (n + length done) k).
  { apply (filled_run storage n done s k); auto. intros i kv _ E Ek. rewrite map_app in Hnd.
    apply NoDup_remove_2 in Hnd. rewrite app_nil_r in Hnd. apply Hnd. cbn [fst]. rewrite <- Ek. apply (in_map fst). exact (nth_error_In _ _ E). }
  destruct (init_cell storage (n + length done) Hl) as (v0 & Hv0).
  assert (Hc : nth_error s (n + length done) = Some (null, v0)) by (rewrite (filled_out storage n done s); [exact Hv0|exact Hf|lia]).
  rewrite <- Hi in Hr at 1.
  destruct (precheck_run keqb null hash w fst spar Hk sparse_empty s k (n + length done) Hkn ltac:(lia) Hr) as [E|E];
    [|destruct Hf as [Hf _]; lia].
  rewrite Hc, null_cell_empty in E. unfold map_insert, map_insert_dup. rewrite E. cbn [bind].
  destruct Hf as [Hlen Hf]. rewrite wr_ok by lia. cbn [bind]. eexists. split; [reflexivity|].
  split; [rewrite upd_length; exact Hlen|]. intros j. rewrite nth_error_upd. destruct (Nat.eqb_spec (n + length done) j) as [<-|D].
  - destruct (Nat.ltb_spec (n + length done) (length s)); [|lia]. rewrite app_length. cbn [length].
    destruct (Nat.leb_spec n (n + length done)); [|lia]. destruct (Nat.ltb_spec (n + length done) (n + (length done + 1))); [|lia].
    cbn [andb]. replace (n + length done - n) with (length done) by lia. rewrite nth_error_app2 by lia. now rewrite Nat.sub_diag.
  - rewrite Hf. rewrite app_length. cbn [length]. destruct (Nat.leb_spec n j); cbn [andb]; [|reflexivity].
    destruct (Nat.ltb_spec j (n + length done)); destruct (Nat.ltb_spec j (n + (length done + 1))); try lia; [|reflexivity].
    rewrite nth_error_app1 by lia. reflexivity.
Qed.
Lemma fill_all storage n : forall todo done s, filled storage n done s -> bucket_keys (length storage) n (done ++ todo) ->
  n + length (done ++ todo) <= length storage ->
  exists s', (forall more, do_mops keqb null hash w (inserts todo ++ more) s =
      ' (rs, s'') <- do_mops keqb null hash w more s' ;; Ok (repeat true (length todo) ++ rs, s'')) /\
    filled storage n (done ++ todo) s'.
Proof.
  induction todo as [|kv todo IH]; intros done s Hf Hb Hl.
  - exists s. split; [|now rewrite app_nil_r]. intros more. cbn. destruct (do_mops keqb null hash w more s) as [[rs s']| |]; reflexivity.
  - rewrite app_length in Hl. cbn [length] in Hl.
    destruct (fill_step storage n done kv s Hf) as (s1 & E1 & Hf1).
    + destruct Hb as [A B]. split.
      * rewrite map_app in *. cbn [map] in *. apply (NoDup_app_l _ (map fst todo)). rewrite <- app_assoc. exact A.
      * apply Forall_app in B. destruct B as [B1 B2]. inversion B2; subst. apply Forall_app. split; [exact B1|]. constructor; auto.
    + lia.
    + destruct (IH (done ++ [kv]) s1 Hf1) as (s2 & E2 & Hf2).
      * rewrite <- app_assoc. exact Hb.
      * rewrite <- app_assoc, app_length. cbn [app length]. lia.
      * rewrite <- app_assoc in Hf2. exists s2. split; [|exact Hf2]. intros more. cbn [inserts map app do_mops do_mop length repeat].
        rewrite E1. cbn [bind]. change (map (fun kv0 => MInsert (fst kv0) (snd kv0)) todo) with (inserts todo).
        rewrite E2. destruct (do_mops keqb null hash w more s2) as [[rs s']| |]; reflexivity.
Qed.
Lemma filled_init storage n : filled storage n [] (map_init null storage).
Proof.
  split; [apply map_length|]. intros j. cbn [length]. destruct (Nat.leb_spec n j); destruct (Nat.ltb_spec j (n + 0)); cbn [andb]; try reflexivity; lia.
Qed.
Lemma fill storage n kvs : bucket_keys (length storage) n kvs -> n + length kvs <= length storage ->
  exists s, (forall more, do_mops keqb null hash w (inserts kvs ++ more) (map_init null storage) =
      ' (rs, s') <- do_mops keqb null hash w more s ;; Ok (repeat true (length kvs) ++ rs, s')) /\
    filled storage n kvs s.
Proof. intros Hb Hl. apply (fill_all storage n kvs [] (map_init null storage) (filled_init storage n) Hb Hl). Qed.

Lemma find_in_run s x t c : x <> null -> idx s x <= t -> run_before null hash w fst s (idx s x) t x ->
  nth_error s t = Some c -> fst c = x -> find_ll keqb null hash w fst spar s x = Ok (Some t).
Proof.
  intros Hx Ht Hr Hc Ex. assert (Htl : t < length s) by (apply nth_error_Some; congruence).
  assert (Lt : mlive s t x) by (exists c; auto).
  assert (Any : forall it, idx s x <= it <= t -> exists k, mlive s it k /\ idx s k = idx s x /\ (it < t -> k <> x) /\ (it = t -> k = x)).
  { intros it Hit. destruct (Nat.eq_dec it t) as [->|D].
    - exists x. repeat split; auto. lia.
    - destruct (Hr it ltac:(lia)) as (k & L & E & Dk). exists k. repeat split; auto. lia. }
  assert (G : forall fuel it, idx s x <= it <= t -> t - it < fuel ->
    find_loop keqb null hash w fst spar fuel s (idx s x) x it = Ok (Some t)).
  { induction fuel as [|f IH]; intros it Hit Hf; [lia|]. cbn [find_loop]. unfold local_more.
    destruct (Nat.eqb_spec it (length s)); [lia|]. destruct (Any it Hit) as (k & L & E & D1 & D2).
    destruct (live_cell keqb null fst spar Hk sparse_empty _ _ _ (idx s x) L) as (c0 & Hc0 & Ec & Sc & Ee).
    rewrite (rd_ok _ _ _ Hc0). cbn [bind]. rewrite Sc, Ee, Ec, E, Nat.eqb_refl. cbn [bind].
    destruct (Nat.eq_dec it t) as [->|D].
    - rewrite (D2 eq_refl). rewrite (proj2 (Hk x x) eq_refl). reflexivity.
    - rewrite (keqb_neq keqb Hk) by (intros ->; apply D1; [lia|reflexivity]). unfold local_next.
      destruct (Any (it + 1) ltac:(lia)) as (k' & L' & _).
      destruct (live_cell keqb null fst spar Hk sparse_empty _ _ _ (idx s x) L') as (c' & Hc' & _ & Sc' & _).
      rewrite (skip_none spar s (idx s x) (it + 1) (length s) c' Hc' Sc'). cbn [bind]. apply IH; lia. }
  unfold find_ll. rewrite (keqb_neq keqb Hk) by exact Hx. unfold local_begin.
  destruct (Any (idx s x) ltac:(lia)) as (k' & L' & _).
  destruct (live_cell keqb null fst spar Hk sparse_empty _ _ _ (idx s x) L') as (c' & Hc' & _ & Sc' & _).
  rewrite (skip_none spar s (idx s x) _ (length s) c' Hc' Sc'). cbn [bind]. apply G; lia.
Qed.

(* erasing a key that has a successor in its bucket *)
Definition tomb (v : N) (n : nat) : cell := (null, set_mbucket (set_marked v true) n).
Lemma nodup_other (kvs : list (K * N)) i k v : NoDup (map fst kvs) -> nth_error kvs i = Some (k, v) ->
  forall j kv, nth_error kvs j = Some kv -> j <> i -> fst kv <> k.
Proof.
  intros Hnd E j kv Ej D Ek. apply D. rewrite NoDup_nth_error in Hnd. apply Hnd.
  - rewrite map_length. apply nth_error_Some. congruence.
  - rewrite !nth_error_map, E, Ej. cbn. congruence.
Qed.
Lemma filled_index storage n kvs s i k v : filled storage n kvs s -> bucket_keys (length storage) n kvs ->
  nth_error kvs i = Some (k, v) -> k <> null /\ idx s k = n.
Proof.
  intros Hf [_ Hb] E. rewrite Forall_forall in Hb. destruct (Hb _ (nth_error_In _ _ E)) as [A B]. cbn in *.
  split; [exact A|]. unfold index. destruct Hf as [-> _]. exact B.
Qed.
Lemma filled_find storage n kvs s i k v : filled storage n kvs s -> bucket_keys (length storage) n kvs ->
  nth_error kvs i = Some (k, v) -> find_ll keqb null hash w fst spar s k = Ok (Some (n + i)).
Proof.
  intros Hf Hb E. destruct (filled_index _ _ _ _ _ _ _ Hf Hb E) as [Hn Hi].
  apply (find_in_run s k (n + i) (k, v)); auto; [lia| |exact (filled_slot _ _ _ _ _ _ Hf E)].
  rewrite Hi. assert (i < length kvs) by (apply nth_error_Some; congruence).
  apply (filled_run storage n kvs s k (n + i) Hf Hb); [lia|]. intros j kv Hj Ej. destruct Hb as [Hnd _].
  apply (nodup_other kvs i k v Hnd E j kv Ej). lia.
Qed.
Lemma filled_erase storage n kvs s i k v : filled storage n kvs s -> bucket_keys (length storage) n kvs ->
  nth_error kvs i = Some (k, v) -> S i < length kvs -> n + length kvs <= length storage ->
  map_erase keqb null hash w s k = Ok (true, upd s (n + i) (tomb v n)).
Proof.
  intros Hf Hb E Hi Hl. unfold map_erase. rewrite (filled_find _ _ _ _ _ _ _ Hf Hb E). cbn [bind].
  destruct (filled_index _ _ _ _ _ _ _ Hf Hb E) as [Hn Hidx]. rewrite Hidx.
  pose proof (filled_slot _ _ _ _ _ _ Hf E) as Hs. pose proof Hf as [Hlen _].
  unfold erase_ll. rewrite (rd_ok _ _ _ Hs). cbn [bind]. rewrite wr_ok by lia. cbn [bind]. unfold set_null. cbn [snd].
  rewrite upd_length. destruct (Nat.eqb_spec (n + i + 1) (length s)); [lia|].
  destruct (nth_error kvs (S i)) as [[k2 v2]|] eqn:E2; [|apply nth_error_None in E2; lia].
  pose proof (filled_slot _ _ _ _ _ _ Hf E2) as Hs2. replace (n + S i) with (n + i + 1) in Hs2 by lia.
  rewrite (rd_ok _ (n + i + 1) (k2, v2)) by (rewrite nth_error_upd_neq by lia; exact Hs2). cbn [bind].
  destruct (filled_index _ _ _ _ _ _ _ Hf Hb E2) as [Hn2 _].
  unfold is_null_not_sparse. rewrite (proj2 (empty_false keqb null fst Hk (k2, v2))) by exact Hn2. cbn [andb].
  rewrite (rd_ok _ (n + i) (null, v)) by (apply nth_error_upd_eq; lia). cbn [bind fst snd].
  rewrite wr_ok by (rewrite upd_length; lia). cbn [bind]. rewrite upd_upd. reflexivity.
Qed.

Lemma tomb_empty v n : is_empty keqb null fst (tomb v n) = true.
Proof. apply null_cell_empty. Qed.

(* C24: erase and insert again *)
Lemma C24_dup storage a va b vb vb' n : bucket_keys (length storage) n [(a, va); (b, vb)] -> n + 2 <= length storage ->
  exists s, do_mops keqb null hash w [MInsert a va; MInsert b vb; MErase a; MInsert b vb'] (map_init null storage) =
      Ok ([true; true; true; true], s) /\ ~ NoDup (live_keys keqb null s).
Proof.
  intros Hb Hl. destruct (fill storage n _ Hb Hl) as (s & E & Hf).
  assert (Ha : nth_error [(a, va); (b, vb)] 0 = Some (a, va)) by reflexivity.
  assert (Hbb : nth_error [(a, va); (b, vb)] 1 = Some (b, vb)) by reflexivity.
  destruct (filled_index _ _ _ _ _ _ _ Hf Hb Hbb) as [Hbn Hbi]. pose proof Hf as [Hlen _].
  pose proof (filled_slot _ _ _ _ _ _ Hf Ha) as Sa. pose proof (filled_slot _ _ _ _ _ _ Hf Hbb) as Sb.
  pose proof (filled_erase _ _ _ _ _ _ _ Hf Hb Ha ltac:(cbn; lia) Hl) as Ee.
  rewrite Nat.add_0_r in *. set (s1 := upd s n (tomb va n)) in *.
  assert (L1 : length s1 = length s) by apply upd_length.
  assert (S1 : nth_error s1 n = Some (tomb va n)) by (apply nth_error_upd_eq; lia).
  assert (Hi1 : idx s1 b = n) by (unfold s1; rewrite idx_upd; exact Hbi).
  destruct (precheck_run keqb null hash w fst spar Hk sparse_empty s1 b n Hbn ltac:(lia)) as [Ep|Ep]; [intros j Hj; lia| |lia].
  rewrite S1, tomb_empty in Ep.
  change [MInsert a va; MInsert b vb; MErase a; MInsert b vb'] with (inserts [(a, va); (b, vb)] ++ [MErase a; MInsert b vb']).
  rewrite E. cbn [do_mops do_mop]. rewrite Ee. cbn [bind]. unfold map_insert, map_insert_dup. rewrite Ep. cbn [bind].
  rewrite wr_ok by lia. cbn [bind]. eexists. split; [reflexivity|]. unfold s1. rewrite upd_upd.
  intros Hnd. unfold live_keys in Hnd.
  assert (G : forall (l : list cell) i j x y, i < j -> nth_error l i = Some (b, x) -> nth_error l j = Some (b, y) ->
    ~ NoDup (map fst (filter (fun c => negb (is_empty keqb null fst c)) l))).
  { clear - Hbn Hk. induction l as [|c l IH]; intros i j x y Hij Hi Hj N; [destruct i; discriminate|].
    destruct j as [|j]; [lia|]. cbn [nth_error] in Hj. cbn [filter] in N. destruct i as [|i].
    - cbn in Hi. injection Hi as ->. rewrite (proj2 (empty_false keqb null fst Hk (b, x))) in N by exact Hbn. cbn [negb map fst] in N.
      inversion N as [|? ? N1 N2]; subst. apply N1. apply in_map_iff. exists (b, y). split; [reflexivity|].
      apply filter_In. split; [exact (nth_error_In _ _ Hj)|]. now rewrite (proj2 (empty_false keqb null fst Hk (b, y))) by exact Hbn.
    - cbn [nth_error] in Hi. destruct (negb (is_empty keqb null fst c)); cbn [map] in N; [inversion N; subst|].
      + apply (IH i j x y); auto; lia.
      + apply (IH i j x y); auto; lia. }
  apply (G (upd s n (b, vb')) n (n + 1) vb' vb); [lia|apply nth_error_upd_eq; lia| |exact Hnd].
  rewrite nth_error_upd_neq by lia. exact Sb.
Qed.

(* C25: bucket numbers beyond 6 bits *)
Lemma C25_high storage a va b vb n : bucket_keys (length storage) n [(a, va); (b, vb)] -> n + 2 <= length storage -> 64 <= n ->
  exists s, do_mops keqb null hash w [MInsert a va; MInsert b vb; MErase a] (map_init null storage) = Ok ([true; true; true], s) /\
    map_find keqb null hash w s b = Ok None /\ In b (live_keys keqb null s).
Proof.
  intros Hb Hl H64. destruct (fill storage n _ Hb Hl) as (s & E & Hf).
  assert (Ha : nth_error [(a, va); (b, vb)] 0 = Some (a, va)) by reflexivity.
  assert (Hbb : nth_error [(a, va); (b, vb)] 1 = Some (b, vb)) by reflexivity.
  destruct (filled_index _ _ _ _ _ _ _ Hf Hb Hbb) as [Hbn Hbi]. pose proof Hf as [Hlen _].
  pose proof (filled_slot _ _ _ _ _ _ Hf Hbb) as Sb.
  pose proof (filled_erase _ _ _ _ _ _ _ Hf Hb Ha ltac:(cbn; lia) Hl) as Ee. rewrite Nat.add_0_r in Ee.
  set (s1 := upd s n (tomb va n)) in *.
  change [MInsert a va; MInsert b vb; MErase a] with (inserts [(a, va); (b, vb)] ++ [MErase a]).
  rewrite E. cbn [do_mops do_mop]. rewrite Ee. cbn [bind]. exists s1. split; [reflexivity|].
  assert (Hi1 : idx s1 b = n) by (unfold s1; rewrite idx_upd; exact Hbi). split.
  - unfold map_find. rewrite (find_stops keqb null hash w fst spar Hk sparse_empty s1 b n); [reflexivity|exact Hbn|lia| |].
    + intros j Hj. lia.
    + exists (tomb va n). split; [apply nth_error_upd_eq; lia|]. split; [|left; apply tomb_empty].
      unfold is_sparse, tomb. cbn [snd]. rewrite Hi1.
      assert (mbucket (set_mbucket (set_marked va true) n) < 64).
      { unfold mbucket. enough ((set_mbucket (set_marked va true) n / 2) mod 64 < 64)%N by lia. apply N.mod_lt. lia. }
      destruct (Nat.eqb_spec (mbucket (set_mbucket (set_marked va true) n)) n); [lia|]. apply andb_false_r.
  - apply live_keys_in. exists (n + 1), (b, vb). split; [|auto]. unfold s1. rewrite nth_error_upd_neq by lia. exact Sb.
Qed.

(* C25: a key of another bucket takes the place of the erased key *)
Lemma C25_steal storage kvs n i k v b vb x vx : bucket_keys (length storage) n kvs -> n + length kvs <= length storage ->
  nth_error kvs i = Some (k, v) -> nth_error kvs (S i) = Some (b, vb) -> 0 < i ->
  x <> null -> index_of hash w (length storage) x = n + i ->
  exists s, do_mops keqb null hash w (inserts kvs ++ [MErase k; MInsert x vx]) (map_init null storage) =
      Ok (repeat true (length kvs) ++ [true; true], s) /\
    map_find keqb null hash w s b = Ok None /\ In b (live_keys keqb null s).
Proof.
  intros Hb Hl Ek Eb Hi0 Hxn Hxi. destruct (fill storage n _ Hb Hl) as (s & E & Hf).
  assert (Hlen2 : S i < length kvs) by (apply nth_error_Some; congruence). pose proof Hf as [Hlen _].
  destruct (filled_index _ _ _ _ _ _ _ Hf Hb Eb) as [Hbn Hbi].
  pose proof (filled_slot _ _ _ _ _ _ Hf Eb) as Sb.
  pose proof (filled_erase _ _ _ _ _ _ _ Hf Hb Ek Hlen2 Hl) as Ee. set (s1 := upd s (n + i) (tomb v n)) in *.
  assert (L1 : length s1 = length s) by apply upd_length.
  assert (Hx1 : idx s1 x = n + i) by (unfold index; rewrite L1, Hlen; exact Hxi).
  destruct (precheck_run keqb null hash w fst spar Hk sparse_empty s1 x (n + i) Hxn ltac:(lia)) as [Ep|Ep]; [intros j Hj; lia| |lia].
  assert (S1 : nth_error s1 (n + i) = Some (tomb v n)) by (apply nth_error_upd_eq; lia).
  rewrite S1, tomb_empty in Ep.
  rewrite E. cbn [do_mops do_mop]. rewrite Ee. cbn [bind]. unfold map_insert, map_insert_dup. rewrite Ep. cbn [bind].
  rewrite wr_ok by lia. cbn [bind]. eexists. split; [reflexivity|]. unfold s1. rewrite upd_upd.
  set (s2 := upd s (n + i) (x, vx)). split.
  - assert (Hb2 : idx s2 b = n) by (unfold s2; rewrite idx_upd; exact Hbi).
    unfold map_find. rewrite (find_stops keqb null hash w fst spar Hk sparse_empty s2 b (n + i)); [reflexivity|exact Hbn|lia| |].
    + rewrite Hb2. destruct Hb as [Hnd Hfa]. intros j Hj.
      destruct (filled_run storage n kvs s b (n + i) Hf (conj Hnd Hfa) ltac:(lia)) with (j := j) as (k' & L & Ei & D).
      * intros t kv Ht Et. apply (nodup_other kvs (S i) b vb Hnd Eb t kv Et). lia.
      * exact Hj.
      * exists k'. unfold s2. rewrite idx_upd. split; [|auto]. apply (live_upd null fst); [lia|]. right. split; [lia|exact L].
    + exists (x, vx). split; [apply nth_error_upd_eq; lia|]. split.
      * unfold is_sparse. rewrite (proj2 (empty_false keqb null fst Hk (x, vx))) by exact Hxn. reflexivity.
      * right. cbn [fst]. unfold s2. rewrite !idx_upd. unfold index in *. rewrite Hlen, Hxi. rewrite Hlen in Hbi. lia.
  - apply live_keys_in. exists (n + S i), (b, vb). split; [|auto]. unfold s2. rewrite nth_error_upd_neq by lia. exact Sb.
Qed.

(* C25: the only key of bucket 0 *)
Lemma C25_zero storage a va : bucket_keys (length storage) 0 [(a, va)] -> 0 < length storage ->
  (1 < length storage -> exists c, nth_error storage 1 = Some c /\ marked (snd c) = false) ->
  do_mops keqb null hash w [MInsert a va; MErase a] (map_init null storage) = UB.
Proof.
  intros Hb Hl Hc. destruct (fill storage 0 _ Hb ltac:(cbn; lia)) as (s & E & Hf).
  assert (Ha : nth_error [(a, va)] 0 = Some (a, va)) by reflexivity.
  change [MInsert a va; MErase a] with (inserts [(a, va)] ++ [MErase a]). rewrite E. cbn [do_mops do_mop].
  unfold map_erase. rewrite (filled_find _ _ _ _ _ _ _ Hf Hb Ha). cbn [bind].
  destruct (filled_index _ _ _ _ _ _ _ Hf Hb Ha) as [Hn ->]. pose proof Hf as [Hlen _].
  pose proof (filled_slot _ _ _ _ _ _ Hf Ha) as Hs. cbn [Nat.add] in *.
  unfold erase_ll. rewrite (rd_ok _ _ _ Hs). cbn [bind]. rewrite wr_ok by lia. cbn [bind Nat.add]. rewrite upd_length.
  destruct (Nat.eqb_spec 1 (length s)) as [E1|E1].
  - cbn [bind]. unfold gc_sparse at 1. rewrite (rd_ok _ 0 (set_null null (a, va))) by (apply nth_error_upd_eq; lia).
    cbn [bind]. rewrite wr_ok by (rewrite upd_length; lia). reflexivity.
  - destruct Hc as (c & Hc & Hm); [lia|].
    assert (H1 : nth_error s 1 = Some (null, snd c)).
    { rewrite (filled_out storage 0 [(a, va)] s); [|exact Hf|cbn; lia]. unfold map_init. rewrite nth_error_map, Hc. reflexivity. }
    rewrite (rd_ok _ 1 (null, snd c)) by (rewrite nth_error_upd_neq by lia; exact H1). cbn [bind].
    unfold is_null_not_sparse. rewrite null_cell_empty. cbn [snd andb]. rewrite Hm. cbn [negb].
    unfold gc_sparse at 1. rewrite (rd_ok _ 0 (set_null null (a, va))) by (apply nth_error_upd_eq; lia).
    cbn [bind]. rewrite wr_ok by (rewrite upd_length; lia). reflexivity.
Qed.

(* C23: a bucket filled up to the end of the table *)
Lemma C23_end storage kvs n x vx : bucket_keys (length storage) n kvs -> n + length kvs = length storage -> 0 < length storage ->
  x <> null -> index_of hash w (length storage) x = n -> ~ In x (map fst kvs) ->
  exists s, do_mops keqb null hash w (inserts kvs) (map_init null storage) = Ok (repeat true (length kvs), s) /\
    map_find keqb null hash w s x = UB /\ map_insert keqb null hash w s x vx = UB.
Proof.
  intros Hb Hl H0 Hxn Hxi Hni. destruct (fill storage n _ Hb ltac:(lia)) as (s & E & Hf). specialize (E []).
  rewrite app_nil_r in E. cbn [do_mops bind] in E. rewrite app_nil_r in E. exists s. split; [exact E|]. pose proof Hf as [Hlen _].
  assert (Hx : idx s x = n) by (unfold index; rewrite Hlen; exact Hxi).
  assert (Hr : run_before null hash w fst s (idx s x) (length s) x).
  { rewrite Hx. apply (filled_run storage n kvs s x (length s) Hf Hb); [lia|]. intros i kv _ Ei Ek. apply Hni. rewrite <- Ek.
    apply in_map. exact (nth_error_In _ _ Ei). }
  split.
  - unfold map_find. rewrite (find_off keqb null hash w fst spar Hk sparse_empty s x Hxn); [reflexivity|lia|exact Hr].
  - unfold map_insert, map_insert_dup.
    destruct (precheck_run keqb null hash w fst spar Hk sparse_empty s x (length s) Hxn ltac:(lia) Hr) as [Ep|Ep]; [|lia].
    rewrite (proj2 (nth_error_None s (length s)) (le_n _)) in Ep. rewrite Ep. reflexivity.
Qed.
(* C23: the storage is not initialised *)
Lemma C23_uninit N0 k : k <> null -> index_of hash w N0 k < 64 -> 0 < N0 ->
  exists storage, length storage = N0 /\ map_find keqb null hash w (map_init null storage) k = UB.
Proof.
  intros Hkn Hi H0. set (n := index_of hash w N0 k) in *. exists (repeat (tomb 0 n) N0). split; [apply repeat_length|].
  set (s := map_init null (repeat (tomb 0 n) N0)). assert (Ln : length s = N0) by (unfold s, map_init; rewrite map_length, repeat_length; reflexivity).
  assert (Hs : forall j, j < N0 -> nth_error s j = Some (tomb 0 n)).
  { intros j Hj. unfold s, map_init. rewrite nth_error_map. rewrite (nth_error_nth' _ (tomb 0 n)) by (rewrite repeat_length; exact Hj).
    rewrite nth_repeat. reflexivity. }
  assert (Hn : n < N0). { unfold n. change (index_of hash w N0 k) with (index_of hash w N0 k).
    pose proof (index_lt hash w s k ltac:(lia)) as H. unfold index in H. rewrite Ln in H. exact H. }
  assert (Sp : spar (tomb 0 n) n = true).
  { unfold is_sparse. rewrite tomb_empty. unfold tomb. cbn [snd andb]. rewrite marked_set_mbucket, marked_set. cbn [andb].
    rewrite mbucket_set by exact Hi. apply Nat.eqb_refl. }
  assert (G : forall fuel p, p <= N0 -> N0 - p < fuel -> skip_sparse spar fuel s p n = UB).
  { induction fuel as [|f IH]; intros p Hp Hf; [lia|]. cbn [skip_sparse]. destruct (Nat.eq_dec p N0) as [->|].
    - unfold rd. rewrite (proj2 (nth_error_None s N0)) by lia. reflexivity.
    - rewrite (rd_ok _ _ _ (Hs p ltac:(lia))). cbn [bind]. rewrite Sp. destruct (Nat.eqb_spec p (length s)); [lia|].
      cbn [negb andb]. apply IH; lia. }
  unfold map_find, find_ll. rewrite (keqb_neq keqb Hk) by exact Hkn. unfold index. rewrite Ln. fold n. unfold local_begin.
  rewrite G by lia. reflexivity.
Qed.
(* operator[] when the slot belongs to another bucket *)
Lemma C69_null storage kvs n i k v x vx : bucket_keys (length storage) n kvs -> n + length kvs <= length storage ->
  nth_error kvs i = Some (k, v) -> 0 < i -> x <> null -> index_of hash w (length storage) x = n + i ->
  exists s, do_mops keqb null hash w (inserts kvs) (map_init null storage) = Ok (repeat true (length kvs), s) /\
    map_insert keqb null hash w s x vx = Ok (None, false, s) /\ map_store keqb null hash w s x vx = UB.
Proof.
  intros Hb Hl Ek Hi Hxn Hxi. destruct (fill storage n _ Hb Hl) as (s & E & Hf). specialize (E []).
  rewrite app_nil_r in E. cbn [do_mops bind] in E. rewrite app_nil_r in E. exists s. split; [exact E|]. pose proof Hf as [Hlen _].
  assert (Hil : i < length kvs) by (apply nth_error_Some; congruence).
  assert (Hx : idx s x = n + i) by (unfold index; rewrite Hlen; exact Hxi).
  destruct (filled_index _ _ _ _ _ _ _ Hf Hb Ek) as [Hkn Hki]. pose proof (filled_slot _ _ _ _ _ _ Hf Ek) as Sk.
  destruct (precheck_run keqb null hash w fst spar Hk sparse_empty s x (n + i) Hxn ltac:(lia)) as [Ep|Ep]; [intros j Hj; lia| |lia].
  rewrite Sk in Ep. rewrite (proj2 (empty_false keqb null fst Hk (k, v))) in Ep by exact Hkn. cbn [fst] in Ep.
  rewrite Hki, Hx in Ep. destruct (Nat.eqb_spec n (n + i)); [lia|]. cbn [negb] in Ep.
  split; [unfold map_insert, map_insert_dup; rewrite Ep; reflexivity|].
  unfold map_store, map_at.
  rewrite (find_stops keqb null hash w fst spar Hk sparse_empty s x (n + i) Hxn ltac:(lia)); [|intros j Hj; lia|].
  - cbn [bind]. unfold map_try_emplace0. rewrite Ep. reflexivity.
  - exists (k, v). split; [exact Sk|]. split.
    + unfold is_sparse. rewrite (proj2 (empty_false keqb null fst Hk (k, v))) by exact Hkn. reflexivity.
    + right. cbn [fst]. lia.
Qed.
End Map.

(* ================= the set ================= *)
Section Set_.
Context {K : Type} (keqb : K -> K -> bool) (null : K) (hash : K -> N) (w : N).
Hypothesis Hk : forall a b, keqb a b = true <-> a = b.
Notation slive := (live null (@skey K)).
Notation sends := (ends keqb null (@skey K) (@ssparse K)).
Notation scontig := (contiguous null hash w (@skey K)).
Notation suniq := (unique null (@skey K)).
Notation smember := (member null hash w (@skey K)).
Notation idx s := (index hash w s).
Notation sfind := (find_ll keqb null hash w (@skey K) (@ssparse K)).

Lemma ss_empty (c : K) n : ssparse c n = true -> is_empty keqb null (@skey K) c = true.
Proof. discriminate. Qed.
Lemma ss_never (s : list K) j n : ~ sparse (@ssparse K) s j n.
Proof. intros (c & _ & E). discriminate. Qed.

Definition sinv (U : list K) (s : list K) : Prop :=
  sends s /\ scontig s /\ suniq s /\ forall i k, slive s i k -> In k U.

Lemma sreach_c s : scontig s -> reachable null hash w (@skey K) (@ssparse K) s.
Proof. apply contiguous_reachable. Qed.
Lemma contains_live U s k i : sinv U s -> slive s i k -> set_contains keqb null hash w s k = Ok true.
Proof.
  intros (He & Hc & Hu & _) L. unfold set_contains, contains.
  rewrite (find_found keqb null hash w skey ssparse Hk ss_empty s k i He (sreach_c s Hc) Hu L). reflexivity.
Qed.
Lemma contains_dead U s k : sinv U s -> (forall i, ~ slive s i k) -> set_contains keqb null hash w s k = Ok false.
Proof.
  intros (He & Hc & Hu & _) D. unfold set_contains, contains.
  rewrite (find_none keqb null hash w skey ssparse Hk ss_empty s k He (sreach_c s Hc) D). reflexivity.
Qed.
Lemma live_dec (s : list K) k : (exists i, slive s i k) \/ forall i, ~ slive s i k.
Proof.
  destruct (keqb k null) eqn:En.
  { right. intros i (c & _ & _ & D). apply Hk in En. contradiction. }
  pose proof (keqb_false keqb Hk _ _ En) as Hkn. induction s as [|c s IH].
  - right. intros [|i] (c & H & _); discriminate.
  - destruct (keqb c k) eqn:E.
    + apply Hk in E. subst. left. exists 0, k. auto.
    + destruct IH as [(i & L)|D]; [left; exists (S i); exact L|]. right. intros [|i] L.
      * destruct L as (c' & [= <-] & Ec & _). unfold skey in Ec. apply (keqb_false keqb Hk _ _ E). exact Ec.
      * exact (D i L).
Qed.

Lemma set_insert_spec U s k : sinv U s -> fits (length s) (idx s) U -> In k U ->
  exists p ok s', set_insert keqb null hash w s k = Ok (p, ok, s') /\ length s' = length s /\ sinv U s' /\
    (forall x, (exists i, slive s' i x) <-> (exists i, slive s i x) \/ (x = k /\ ok = true)) /\
    ((exists i, slive s i k) -> ok = false).
Proof.
  intros Hi Hf HI. pose proof Hi as (He & Hc & Hu & HU). unfold set_insert. destruct (keqb k null) eqn:En.
  { unfold insert_precheck. rewrite En. cbn [bind]. exists None, false, s. split; [reflexivity|]. split; [reflexivity|]. split; [exact Hi|].
    split; [|reflexivity]. intros x. split; [auto|]. intros [H|[_ H]]; [exact H|discriminate]. }
  pose proof (keqb_false keqb Hk _ _ En) as Hkn.
  assert (Same : forall p : option nat, exists (p' : option nat) (ok : bool) (s' : list K), Ok (p, false, s) = Ok (p', ok, s') /\ length s' = length s /\ sinv U s' /\
    (forall x, (exists i, slive s' i x) <-> (exists i, slive s i x) \/ (x = k /\ ok = true)) /\
    ((exists i, slive s i k) -> ok = false)).
  { intros p. exists p, false, s. split; [reflexivity|]. split; [reflexivity|]. split; [exact Hi|]. split; [|reflexivity].
    intros x. split; [auto|]. intros [H|[_ H]]; [exact H|discriminate]. }
  destruct (precheck_spec keqb null hash w skey ssparse Hk s k He Hkn)
    as [(p & c & -> & Hp & Hn & Hem & Hr)|[(p & -> & L)|(p & k' & -> & Hp & L & Hd & Hr)]]; cbn [bind]; [|apply Same..].
  assert (Ha : forall i, ~ slive s i k).
  { intros i L. destruct (present_found keqb null hash w skey Hk s k i Hc L) as [A _]. exact (A p c (proj1 Hp) Hn Hem Hr). }
  pose proof (run_room keqb null hash w skey ssparse s U k p He Hu (proj1 Hp) Hr Hf HI HU) as Hroom.
  rewrite wr_ok by lia. cbn [bind]. exists (Some p), true, (upd s p k). split; [reflexivity|]. split; [apply upd_length|].
  assert (Hpl : p < length s) by lia. split; [|split].
  - split; [now apply insert_ends|]. split; [now apply (insert_contiguous keqb null hash w skey Hk s k p c)|].
    split; [now apply (insert_unique null skey s k)|].
    intros i x Lx. apply (live_upd null skey _ _ _ _ _ Hpl) in Lx. destruct Lx as [(_ & <- & _)|[_ Lx]]; [exact HI|exact (HU _ _ Lx)].
  - intros x. split.
    + intros (i & Lx). apply (live_upd null skey _ _ _ _ _ Hpl) in Lx. destruct Lx as [(_ & <- & _)|[_ Lx]]; [auto|left; now exists i].
    + intros [(i & Lx)|[-> _]].
      * exists i. apply (live_upd null skey _ _ _ _ _ Hpl). right. split; [|exact Lx]. intros ->.
        destruct (live_key _ _ _ _ _ _ Lx Hn) as [A B]. apply (empty_true keqb null skey Hk) in Hem. congruence.
      * exists p. apply (live_upd null skey _ _ _ _ _ Hpl). left. auto.
  - intros (i & L). exfalso. exact (Ha i L).
Qed.

(* the bucket as the local iterator shows it *)
Lemma set_bucket_spec U s n : sinv U s -> n < length s ->
  exists e, run_of null hash w skey s n e /\ e <= length s - 1 /\
    set_bucket keqb null hash w s n = Ok (map (fun i => nth i s null) (seq n (e - n))).
Proof.
  intros (He & _) Hn. destruct (run_exists keqb null hash w skey ssparse Hk s n He Hn) as (e & Hr). exists e. split; [exact Hr|].
  split.
  - destruct (le_lt_dec e (length s - 1)); [assumption|]. exfalso. destruct Hr as (_ & Hin & _). destruct He as [H0 Hs].
    destruct (Hin (length s - 1) ltac:(lia)) as (k & L & _). exact (stop_not_live keqb null skey ssparse Hk _ _ _ Hs L).
  - unfold set_bucket. rewrite (local_iter_spec keqb null hash w skey ssparse Hk s n e He (ss_never s) Hn Hr). reflexivity.
Qed.
Lemma live_nth (s : list K) i k : slive s i k -> nth i s null = k.
Proof. intros (c & H & E & _). rewrite (nth_error_nth _ _ null H). exact E. Qed.

Lemma bucket_nth (s : list K) n m j : j < m -> nth j (map (fun i => nth i s null) (seq n m)) null = nth (n + j) s null.
Proof.
  intros Hj. rewrite (nth_indep _ null ((fun i0 => nth i0 s null) 0)) by (rewrite map_length, seq_length; lia).
  rewrite (map_nth (fun i0 => nth i0 s null)). now rewrite seq_nth by lia.
Qed.

(* the element of slot [p], the last of the bucket, moved to slot [i], where [k] was *)
Lemma sinv_move U s s' k i p : sinv U s -> slive s i k -> i <= p -> p < length s - 1 -> smember s (idx s k) p ->
  ~ smember s (idx s k) (p + 1) -> length s' = length s ->
  (forall j, nth_error s' j = if Nat.eqb j p then Some null else if Nat.eqb j i then nth_error s p else nth_error s j) ->
  sinv U s' /\ forall x, (exists j, slive s' j x) <-> x <> k /\ exists j, slive s j x.
Proof.
  intros (He & Hc & Hu & HU) Li Hip Hp (kp & Lp & Ep) Hlast Hl Hn.
  assert (Hidx : forall x, idx s' x = idx s x) by (intros x; unfold index; now rewrite Hl).
  assert (LA : forall j x, slive s' j x <-> j <> p /\ ((j = i /\ x = kp) \/ (j <> i /\ slive s j x))).
  { intros j x. unfold live at 1. rewrite Hn. destruct (Nat.eqb_spec j p) as [->|D].
    - split; [intros (c & [= <-] & E & D); unfold skey in E; congruence|intros [A _]; congruence].
    - destruct (Nat.eqb_spec j i) as [->|Di].
      + split.
        * intros H. split; [exact D|]. left. split; [reflexivity|]. exact (live_fun null skey _ _ _ _ H Lp).
        * intros [_ [[_ ->]|[A _]]]; [exact Lp|congruence].
      + split; [intros H; auto|]. intros [_ [[A _]|[_ H]]]; [congruence|exact H]. }
  assert (Past : forall j x, slive s j x -> idx s x = idx s k -> j <= p).
  { intros j x L E. destruct (le_lt_dec j p) as [|G]; [assumption|]. exfalso. apply Hlast.
    destruct (Nat.eq_dec j (p + 1)) as [->|]; [exists x; auto|]. destruct (Hc _ _ L) as [A B]. rewrite E in B. apply B.
    destruct (Hc _ _ Lp) as [A' _]. lia. }
  split; [split; [|split; [|split]]|].
  - destruct He as [H0 (c & Hcc & Hs)]. unfold ends. rewrite Hl. split; [exact H0|]. exists c. split; [|exact Hs]. rewrite Hn.
    destruct (Nat.eqb_spec (length s - 1) p); [lia|]. destruct (Nat.eqb_spec (length s - 1) i); [lia|exact Hcc].
  - assert (Mem : forall j n, j <> p -> smember s n j -> (j = i -> n = idx s k) -> smember s' n j).
    { intros j n D (x & L & E) Hi. destruct (Nat.eq_dec j i) as [->|Di].
      - exists kp. rewrite Hidx. split; [apply LA; auto|]. rewrite (Hi eq_refl). exact Ep.
      - exists x. rewrite Hidx. split; [apply LA; auto|exact E]. }
    intros j x L. rewrite !Hidx. apply LA in L. destruct L as [D [[-> ->]|[Di L]]].
    + destruct (Hc _ _ Li) as [A B]. rewrite Ep. split; [exact A|]. intros t Ht. apply Mem; [lia|apply B; lia|lia].
    + destruct (Hc _ _ L) as [A B]. split; [exact A|]. intros t Ht. pose proof (B t Ht) as M. apply Mem; [|exact M|].
      * intros ->. destruct M as (y & Ly & Ey). assert (idx s x = idx s k).
        { rewrite <- Ey. rewrite (live_fun null skey _ _ _ _ Ly Lp). exact Ep. }
        pose proof (Past _ _ L H). lia.
      * intros ->. destruct M as (y & Ly & Ey). rewrite <- Ey. now rewrite (live_fun null skey _ _ _ _ Ly Li).
  - intros a b x La Lb. apply LA in La. apply LA in Lb. destruct La as [Da [[-> ->]|[Ea La]]]; destruct Lb as [Db [[-> E2]|[Eb Lb]]]; auto.
    + exfalso. apply Db. exact (Hu _ _ _ Lb Lp).
    + exfalso. subst x. apply Da. exact (Hu _ _ _ La Lp).
    + exact (Hu _ _ _ La Lb).
  - intros j x L. apply LA in L. destruct L as [_ [[_ ->]|[_ L]]]; [exact (HU _ _ Lp)|exact (HU _ _ L)].
  - intros x. split.
    + intros (j & L). apply LA in L. destruct L as [D [[-> ->]|[Di L]]].
      * split; [|now exists p]. intros ->. apply D. exact (Hu _ _ _ Li Lp).
      * split; [|now exists j]. intros ->. apply Di. exact (Hu _ _ _ L Li).
    + intros (Dx & j & L). assert (j <> i) by (intros ->; apply Dx; exact (live_fun null skey _ _ _ _ L Li)).
      destruct (Nat.eq_dec j p) as [->|Dp].
      * exists i. apply LA. split; [auto|]. left. split; [reflexivity|]. exact (live_fun null skey _ _ _ _ L Lp).
      * exists j. apply LA. auto.
Qed.

Lemma upd_id {A} (s : list A) i x : nth_error s i = Some x -> upd s i x = s.
Proof. apply upd_same. Qed.

Lemma erase_self U s k i : sinv U s -> slive s i k -> 
  (forall c, nth_error s (i + 1) = Some c -> is_empty keqb null skey c = false -> idx s c <> i) ->
  erase_and_gc keqb null hash w skey (fun _ => null) s i = Ok (upd s i null).
Proof.
  intros (He & Hc & Hu & HU) Li Hne. pose proof He as [H0 Hs].
  assert (Hil : i < length s - 1).
  { pose proof (live_lt null skey s i k Li). assert (i <> length s - 1); [|lia].
    intros ->. exact (stop_not_live keqb null skey ssparse Hk _ _ _ Hs Li). }
  unfold erase_and_gc. destruct (rd_lt s i) as (c & Hci & ->); [lia|]. cbn [bind]. rewrite wr_ok by lia. cbn [bind].
  set (s1 := upd s i null). assert (L1 : length s1 = length s) by apply upd_length.
  destruct (rd_lt s1 (i + 1)) as (d & Hd & Hrd); [lia|]. rewrite Hrd. cbn [bind].
  assert (Hd0 : nth_error s (i + 1) = Some d) by (unfold s1 in Hd; rewrite nth_error_upd_neq in Hd by lia; exact Hd).
  destruct (is_empty keqb null skey d) eqn:Ed; [reflexivity|].
  rewrite L1. cbn [bucket_last]. rewrite Hrd. cbn [bind].
  assert (idx s1 (skey d) <> i).
  { unfold s1. rewrite idx_upd. unfold skey. exact (Hne d Hd0 Ed). }
  destruct (Nat.eqb_spec i (idx s1 (skey d))); [congruence|]. cbn [andb bind].
  replace (i + 1 - 1) with i by lia. assert (Hi1 : nth_error s1 i = Some null) by (apply nth_error_upd_eq; lia).
  rewrite (rd_ok _ _ _ Hi1). cbn [bind]. rewrite wr_ok by lia. cbn [bind]. rewrite (upd_id s1 i null Hi1).
  rewrite wr_ok by lia. now rewrite (upd_id s1 i null Hi1).
Qed.

Lemma set_erase_spec U s k : sinv U s -> (exists i, slive s i k) -> set_end_key keqb null hash w s k ->
  exists s', set_erase keqb null hash w s k = Ok (true, s') /\ length s' = length s /\ sinv U s' /\
    forall x, (exists j, slive s' j x) <-> x <> k /\ exists j, slive s j x.
Proof.
  intros Hi (i & Li) (l & Hl & Hend). pose proof Hi as (He & Hc & Hu & HU). pose proof He as [H0 Hs].
  set (n := idx s k) in *. assert (Hn : n < length s) by (unfold n; apply index_lt; exact H0).
  destruct (set_bucket_spec U s n Hi Hn) as (e & (Hne & Hin & Hout) & Hel & Hl'). rewrite Hl' in Hl. injection Hl as Hl.
  destruct (Hc _ _ Li) as [Ani Bni]. fold n in Ani, Bni.
  assert (Hie : i < e).
  { destruct (le_lt_dec e i) as [G|]; [|assumption]. exfalso. apply Hout. destruct (Nat.eq_dec e i) as [->|]; [exists k; auto|]. apply Bni. lia. }
  assert (Hmem : forall j, n <= j < e -> exists y, slive s j y /\ idx s y = n) by exact Hin.
  unfold set_erase. rewrite (find_found keqb null hash w skey ssparse Hk ss_empty s k i He (sreach_c s Hc) Hu Li). cbn [bind].
  destruct Hend as [(l' & El)|((l' & El) & Hnull)].
  - (* last *)
    assert (i = e - 1).
    { assert (Hlen : length l' = e - n - 1).
      { rewrite El in Hl. apply (f_equal (@length K)) in Hl. rewrite map_length, seq_length, app_length in Hl. cbn in Hl. lia. }
      rewrite El in Hl. apply (f_equal (fun l0 => nth (e - n - 1) l0 null)) in Hl.
      rewrite app_nth2 in Hl by lia. replace (e - n - 1 - length l') with 0 in Hl by lia. cbn [nth] in Hl.
      assert (nth (e - 1) s null = k).
      { rewrite bucket_nth in Hl by lia. replace (n + (e - n - 1)) with (e - 1) in Hl by lia. exact Hl. }
      destruct (Hmem (e - 1) ltac:(lia)) as (y & Ly & _). rewrite (live_nth _ _ _ Ly) in H. subst y. exact (Hu _ _ _ Li Ly). }
    rewrite (erase_self U s k i Hi Li).
    + cbn [bind]. exists (upd s i null). split; [reflexivity|]. split; [apply upd_length|].
      apply (sinv_move U s (upd s i null) k i i Hi Li); auto; try lia.
      * replace (i + 1) with e by lia. exact Hout.
      * apply upd_length.
      * intros j. rewrite nth_error_upd. rewrite (Nat.eqb_sym j i). destruct (Nat.eqb i j) eqn:E; [|reflexivity].
        destruct (Nat.ltb_spec i (length s)); [reflexivity|lia].
    + intros c Hci Ee Ei. replace (i + 1) with e in Hci by lia. pose proof (live_of keqb null skey Hk s e c Hci Ee) as Lc.
      destruct (Hc _ _ Lc) as [A B]. unfold skey in A, B. rewrite Ei in A, B. destruct (B i ltac:(lia)) as (y & Ly & Ey).
      apply Hout. exists c. split; [exact Lc|]. rewrite <- (live_fun null skey _ _ _ _ Li Ly) in Ey. fold n in Ey. unfold skey. congruence.
  - (* first *)
    assert (i = n).
    { rewrite El in Hl. destruct (e - n) as [|m] eqn:Em; [lia|]. cbn [seq map] in Hl. injection Hl as Hl _.
      destruct (Hmem n ltac:(lia)) as (y & Ly & _). rewrite (live_nth _ _ _ Ly) in Hl. subst y. exact (Hu _ _ _ Li Ly). }
    subst i. unfold erase_and_gc. destruct (rd_lt s n) as (c & Hci & ->); [lia|]. cbn [bind]. rewrite wr_ok by lia. cbn [bind].
    set (s1 := upd s n null). assert (L1 : length s1 = length s) by apply upd_length.
    assert (N1 : forall j, j <> n -> nth_error s1 j = nth_error s j) by (intros j D; apply nth_error_upd_neq; lia).
    destruct (rd_lt s1 (n + 1)) as (d & Hd & Hrd); [lia|]. rewrite Hrd. cbn [bind].
    assert (Move : forall s', length s' = length s ->
      (forall j, nth_error s' j = if Nat.eqb j (e - 1) then Some null else if Nat.eqb j n then nth_error s (e - 1) else nth_error s j) ->
      length s' = length s /\ sinv U s' /\ forall x, (exists j, slive s' j x) <-> x <> k /\ exists j, slive s j x).
    { intros s' Hl1 Hn1. split; [exact Hl1|]. apply (sinv_move U s s' k n (e - 1) Hi Li); auto; try lia.
      - apply Hin. lia.
      - replace (e - 1 + 1) with e by lia. exact Hout. }
    destruct (is_empty keqb null skey d) eqn:Ed.
    + cbn [bind]. exists s1. split; [reflexivity|]. apply Move; [exact L1|]. 
      assert (e = n + 1).
      { destruct (Nat.eq_dec e (n + 1)); [assumption|]. destruct (Hmem (n + 1) ltac:(lia)) as (y & Ly & _).
        rewrite N1 in Hd by lia. destruct (live_key _ _ _ _ _ _ Ly Hd). apply (empty_true keqb null skey Hk) in Ed. congruence. }
      intros j. unfold s1. rewrite nth_error_upd. replace (e - 1) with n by lia. rewrite (Nat.eqb_sym j n).
      destruct (Nat.eqb n j) eqn:E; [|reflexivity]. destruct (Nat.ltb_spec n (length s)); [reflexivity|lia].
    + assert (Last : forall fuel pos, n < pos <= e -> e - pos < fuel -> bucket_last hash w skey fuel s1 n pos = Ok e).
      { induction fuel as [|f IH]; intros pos Hpos Hf; [lia|]. cbn [bucket_last].
        destruct (rd_lt s1 pos) as (g & Hg & ->); [lia|]. cbn [bind]. rewrite N1 in Hg by lia.
        destruct (Nat.ltb_spec pos (length s1)); [|lia]. rewrite andb_true_r. unfold s1 at 1. rewrite idx_upd.
        destruct (Nat.eq_dec pos e) as [->|D].
        - destruct (Nat.eqb_spec n (idx s (skey g))) as [E|]; [|reflexivity]. exfalso.
          destruct (is_empty keqb null skey g) eqn:Eg.
          + apply (empty_true keqb null skey Hk) in Eg. apply Hnull. rewrite <- Eg. unfold skey in *. symmetry. exact E.
          + apply Hout. exists (skey g). split; [exact (live_of keqb null skey Hk s e g Hg Eg)|congruence].
        - destruct (Hmem pos ltac:(lia)) as (y & Ly & Ey). destruct (live_key _ _ _ _ _ _ Ly Hg) as [Eg _].
          rewrite Eg, Ey, Nat.eqb_refl. apply IH; lia. }
      assert (Hen : n + 1 <= e).
      { lia. }
      rewrite L1. rewrite Last by lia. cbn [bind].
      destruct (rd_lt s1 (e - 1)) as (g & Hg & ->); [lia|]. cbn [bind].
      assert (H1n : nth_error s1 n = Some null) by (apply nth_error_upd_eq; lia). rewrite (rd_ok _ _ _ H1n). cbn [bind].
      rewrite wr_ok by lia. cbn [bind]. rewrite wr_ok by (rewrite upd_length; lia). cbn [bind].
      eexists. split; [reflexivity|]. apply Move; [rewrite !upd_length; exact L1|].
      intros j. rewrite !nth_error_upd, !upd_length. unfold s1 at 3. rewrite nth_error_upd, L1.
      rewrite (Nat.eqb_sym j (e - 1)), (Nat.eqb_sym j n).
      destruct (Nat.ltb_spec n (length s)); [|lia]. destruct (Nat.ltb_spec (e - 1) (length s)); [|lia].
      destruct (Nat.eqb_spec n j) as [<-|D].
      * destruct (Nat.eqb_spec (e - 1) n) as [E|E].
        -- rewrite E in Hg. congruence.
        -- rewrite N1 in Hg by lia. congruence.
      * reflexivity.
Qed.

Lemma set_init_inv (U storage : list K) : 0 < length storage -> sinv U (set_init null storage).
Proof.
  intros H0. assert (D : forall i k, ~ slive (set_init null storage) i k).
  { intros i k (c & H & E & D). unfold set_init in H. rewrite nth_error_map in H. destruct (nth_error storage i); [|discriminate].
    injection H as <-. unfold skey in E. congruence. }
  split; [|split; [|split]].
  - unfold ends, set_init. rewrite map_length. split; [exact H0|]. exists null. rewrite nth_error_map.
    destruct (nth_error storage (length storage - 1)) eqn:E; [|apply nth_error_None in E; lia].
    split; [reflexivity|]. split; [unfold is_empty, skey; now apply Hk|reflexivity].
  - intros i k L. now apply D in L.
  - intros i j k L. now apply D in L.
  - intros i k L. now apply D in L.
Qed.
Lemma end_key_live U s k : sinv U s -> set_end_key keqb null hash w s k -> exists i, slive s i k.
Proof.
  intros Hi (l & Hl & Hend). pose proof Hi as (He & _). pose proof He as [H0 _].
  destruct (set_bucket_spec U s (idx s k) Hi (index_lt hash w s k H0)) as (e & (Hne & Hin & Hout) & Hel & Hl').
  rewrite Hl' in Hl. injection Hl as Hl.
  assert (I : In k l) by (destruct Hend as [(l' & ->)|((l' & ->) & _)]; [apply in_or_app; right; now left|now left]).
  rewrite <- Hl in I. apply in_map_iff in I. destruct I as (j & Ej & Ij). apply in_seq in Ij.
  destruct (Hin j ltac:(lia)) as (y & Ly & _). rewrite (live_nth _ _ _ Ly) in Ej. subst y. now exists j.
Qed.
Lemma set_reach_inv N0 U s : 0 < N0 -> fits N0 (index_of hash w N0) U -> set_reach keqb null hash w N0 U s -> sinv U s /\ length s = N0.
Proof.
  intros H0 Hf R. induction R as [storage Hl|s k p ok s' R [IH Hl] HI E|s k r s' R [IH Hl] Hend E].
  - split; [apply set_init_inv; lia|unfold set_init; rewrite map_length; exact Hl].
  - destruct (set_insert_spec U s k IH) as (p' & ok' & s2 & E2 & L2 & I2 & _); [unfold index; rewrite Hl; exact Hf|exact HI|].
    rewrite E in E2. injection E2 as <- <- <-. split; [exact I2|lia].
  - destruct (set_erase_spec U s k IH (end_key_live U s k IH Hend) Hend) as (s2 & E2 & L2 & I2 & _).
    rewrite E in E2. injection E2 as _ <-. split; [exact I2|lia].
Qed.

Lemma contains_iff U s x b : sinv U s -> (set_contains keqb null hash w s x = Ok b <-> (b = true <-> exists i, slive s i x)).
Proof.
  intros Hi. destruct (live_dec s x) as [(i & L)|D].
  - rewrite (contains_live U s x i Hi L). split.
    + intros [= <-]. split; [intros _; now exists i|reflexivity].
    + intros H. f_equal. symmetry. apply H. now exists i.
  - rewrite (contains_dead U s x Hi D). split.
    + intros [= <-]. split; [discriminate|]. intros (i & L). exfalso. exact (D i L).
    + intros H. destruct b; [|reflexivity]. destruct (proj1 H eq_refl) as (i & L). exfalso. exact (D i L).
Qed.

Lemma C26_main N0 U s k : 0 < N0 -> fits N0 (index_of hash w N0) U -> set_reach keqb null hash w N0 U s ->
  set_end_key keqb null hash w s k ->
  exists s', set_erase keqb null hash w s k = Ok (true, s') /\ set_contains keqb null hash w s k = Ok true /\
    set_contains keqb null hash w s' k = Ok false /\
    forall x, x <> k -> set_contains keqb null hash w s' x = set_contains keqb null hash w s x.
Proof.
  intros H0 Hf R Hend. destruct (set_reach_inv N0 U s H0 Hf R) as [Hi Hl].
  pose proof (end_key_live U s k Hi Hend) as Lk.
  destruct (set_erase_spec U s k Hi Lk Hend) as (s' & E & L' & I' & Hx). exists s'. split; [exact E|].
  split; [apply (contains_iff U s k true Hi); tauto|].
  split; [apply (contains_iff U s' k false I'); split; [discriminate|]; intros H; apply Hx in H; now destruct H|].
  intros x D. destruct (live_dec s x) as [(i & L)|Dx].
  - rewrite (contains_live U s x i Hi L). apply (contains_iff U s' x true I'). split; [|reflexivity].
    intros _. apply Hx. split; [exact D|now exists i].
  - rewrite (contains_dead U s x Hi Dx). apply (contains_iff U s' x false I'). split; [discriminate|].
    intros H. apply Hx in H. destruct H as [_ (i & L)]. exfalso. exact (Dx i L).
Qed.
Lemma C26_insert N0 U s k : 0 < N0 -> fits N0 (index_of hash w N0) U -> set_reach keqb null hash w N0 U s -> In k U ->
  exists p ok s', set_insert keqb null hash w s k = Ok (p, ok, s') /\
    (set_contains keqb null hash w s k = Ok true -> ok = false) /\ (ok = false -> s' = s) /\
    (ok = true -> set_contains keqb null hash w s' k = Ok true) /\
    forall x, x <> k -> set_contains keqb null hash w s' x = set_contains keqb null hash w s x.
Proof.
  intros H0 Hf R HI. destruct (set_reach_inv N0 U s H0 Hf R) as [Hi Hl].
  destruct (set_insert_spec U s k Hi) as (p & ok & s' & E & L' & I' & Hx & Hd); [unfold index; rewrite Hl; exact Hf|exact HI|].
  exists p, ok, s'. split; [exact E|]. split; [|split; [|split]].
  - intros C. apply Hd. apply (contains_iff U s k true Hi) in C. apply C. reflexivity.
  - intros ->. unfold set_insert in E. destruct (insert_precheck keqb null hash w skey s k false) as [[q b]| |]; try discriminate.
    cbn [bind] in E. destruct b; [|congruence]. destruct q; [|discriminate]. destruct (wr s n k); discriminate.
  - intros ->. apply (contains_iff U s' k true I'). split; [|reflexivity]. intros _. apply Hx. auto.
  - intros x D. destruct (live_dec s x) as [(i & L)|Dx].
    + rewrite (contains_live U s x i Hi L). apply (contains_iff U s' x true I'). split; [|reflexivity].
      intros _. apply Hx. left. now exists i.
    + rewrite (contains_dead U s x Hi Dx). apply (contains_iff U s' x false I'). split; [discriminate|].
      intros H. apply Hx in H. destruct H as [(i & L)|[A _]]; [exfalso; exact (Dx i L)|congruence].
Qed.

(* bucket iteration and count *)
Lemma set_bucket_keys N0 U s n : 0 < N0 -> fits N0 (index_of hash w N0) U -> set_reach keqb null hash w N0 U s -> n < N0 ->
  exists l, set_bucket keqb null hash w s n = Ok l /\ NoDup l /\
    forall x, In x l <-> idx s x = n /\ set_contains keqb null hash w s x = Ok true.
Proof.
  intros H0 Hf R Hn. destruct (set_reach_inv N0 U s H0 Hf R) as [Hi Hl]. pose proof Hi as (He & Hc & Hu & HU).
  destruct (set_bucket_spec U s n Hi ltac:(lia)) as (e & (Hne & Hin & Hout) & Hel & E). eexists. split; [exact E|]. split.
  - apply NoDup_nth with (d := null). rewrite map_length, seq_length. intros i j Hi' Hj' Eq. rewrite !bucket_nth in Eq by assumption.
    destruct (Hin (n + i) ltac:(lia)) as (y & Ly & _). destruct (Hin (n + j) ltac:(lia)) as (z & Lz & _).
    rewrite (live_nth _ _ _ Ly), (live_nth _ _ _ Lz) in Eq. subst z. pose proof (Hu _ _ _ Ly Lz). lia.
  - intros x. rewrite (contains_iff U s x true Hi). rewrite in_map_iff. split.
    + intros (j & Ej & Ij). apply in_seq in Ij. destruct (Hin j ltac:(lia)) as (y & Ly & Ey). rewrite (live_nth _ _ _ Ly) in Ej. subst y.
      split; [exact Ey|]. split; [intros _; now exists j|reflexivity].
    + intros (Ex & [Hx _]). destruct (Hx eq_refl) as (j & L). exists j. split; [exact (live_nth _ _ _ L)|]. apply in_seq.
      destruct (Hc _ _ L) as [A B]. rewrite Ex in A, B. split; [exact A|]. destruct (le_lt_dec e j) as [G|]; [|lia]. exfalso.
      apply Hout. destruct (Nat.eq_dec e j) as [->|]; [exists x; auto|apply B; lia].
Qed.
Lemma set_count_spec N0 U s x : 0 < N0 -> fits N0 (index_of hash w N0) U -> set_reach keqb null hash w N0 U s ->
  exists b, set_contains keqb null hash w s x = Ok b /\
    count keqb null hash w skey ssparse s x = Ok (if b then 1 else 0).
Proof.
  intros H0 Hf R. destruct (set_reach_inv N0 U s H0 Hf R) as [Hi Hl]. pose proof Hi as (He & Hc & Hu & HU).
  assert (Hn : idx s x < length s) by (apply index_lt; lia). set (n := idx s x) in *.
  destruct (run_exists keqb null hash w skey ssparse Hk s n He Hn) as (e & Hr).
  unfold count. fold n. rewrite (local_iter_spec keqb null hash w skey ssparse Hk s n e He (ss_never s) Hn Hr). cbn [bind].
  destruct Hr as (Hne & Hin & Hout).
  set (f := fun i => match nth_error s i with Some c => keqb x (skey c) | None => false end).
  assert (Ff : forall i, n <= i < e -> f i = true -> slive s i x).
  { intros i Hi' Fi. unfold f in Fi. destruct (Hin i Hi') as (y & (c & Hci & Ec & D) & _). rewrite Hci in Fi. apply Hk in Fi.
    exists c. split; [exact Hci|]. split; congruence. }
  destruct (live_dec s x) as [(i & L)|D].
  - exists true. split; [exact (contains_live U s x i Hi L)|]. f_equal.
    assert (Hie : n <= i < e).
    { destruct (Hc _ _ L) as [A B]. fold n in A, B. split; [exact A|]. destruct (le_lt_dec e i) as [G|]; [|assumption]. exfalso.
      apply Hout. destruct (Nat.eq_dec e i) as [->|]; [exists x; auto|apply B; lia]. }
    assert (P : forall l, NoDup l -> (forall j, In j l -> n <= j < e) -> (In i l -> length (filter f l) = 1) /\ (~ In i l -> length (filter f l) = 0)).
    { induction l as [|a l IH]; intros Hnd Hb; [split; [intros []|reflexivity]|]. inversion Hnd; subst.
      destruct IH as [I1 I2]; [assumption|intros j Hj; apply Hb; now right|]. cbn [filter].
      destruct (f a) eqn:Fa.
      - assert (a = i) by (apply (Hu a i x); [apply Ff; [apply Hb; now left|exact Fa]|exact L]). subst a. split.
        + intros _. cbn [length]. now rewrite I2.
        + intros N. exfalso. apply N. now left.
      - assert (a <> i). { intros ->. unfold f in Fa. destruct L as (c & Hci & Ec & Dn). rewrite Hci, Ec in Fa.
          rewrite (keqb_refl keqb Hk) in Fa. discriminate. }
        split; [intros [->|Q]; [congruence|now apply I1]|]. intros Q. apply I2. intros Q'. apply Q. now right. }
    apply (P (seq n (e - n))); [apply seq_NoDup|intros j Hj; apply in_seq in Hj; lia|apply in_seq; lia].
  - exists false. split; [exact (contains_dead U s x Hi D)|]. f_equal.
    assert (P : forall l, (forall j, In j l -> n <= j < e) -> length (filter f l) = 0).
    { induction l as [|a l IH]; intros Hb; [reflexivity|]. cbn [filter]. destruct (f a) eqn:Fa.
      - exfalso. apply (D a). apply Ff; [apply Hb; now left|exact Fa].
      - apply IH. intros j Hj. apply Hb. now right. }
    apply P. intros j Hj. apply in_seq in Hj. lia.
Qed.

(* a key in the middle of its bucket: the keys after it are lost *)
Lemma C26_middle N0 U s k l1 l2 : 0 < N0 -> fits N0 (index_of hash w N0) U -> set_reach keqb null hash w N0 U s ->
  set_bucket keqb null hash w s (idx s k) = Ok (l1 ++ k :: l2) -> l1 <> [] ->
  exists s', set_erase keqb null hash w s k = Ok (true, s') /\
    forall x, In x l2 -> set_contains keqb null hash w s x = Ok true /\ set_contains keqb null hash w s' x = Ok false.
Proof.
  intros H0 Hf R Hl Hl1. destruct (set_reach_inv N0 U s H0 Hf R) as [Hi HN]. pose proof Hi as (He & Hc & Hu & HU). pose proof He as [H0' Hs].
  set (n := idx s k) in *. assert (Hn : n < length s) by (unfold n; apply index_lt; exact H0').
  destruct (set_bucket_spec U s n Hi Hn) as (e & (Hne & Hin & Hout) & Hel & Hl'). rewrite Hl' in Hl. injection Hl as Hl.
  assert (Hlen : e - n = length l1 + S (length l2)).
  { apply (f_equal (@length K)) in Hl. rewrite map_length, seq_length, app_length in Hl. exact Hl. }
  assert (Hnth : forall j, j < e - n -> nth (n + j) s null = nth j (l1 ++ k :: l2) null).
  { intros j Hj. rewrite <- Hl. now rewrite bucket_nth by exact Hj. }
  assert (Hlv : forall j, j < e - n -> slive s (n + j) (nth j (l1 ++ k :: l2) null) /\ idx s (nth j (l1 ++ k :: l2) null) = n).
  { intros j Hj. destruct (Hin (n + j) ltac:(lia)) as (y & Ly & Ey). rewrite <- Hnth by exact Hj. rewrite (live_nth _ _ _ Ly). auto. }
  set (i := n + length l1). assert (Li : slive s i k).
  { destruct (Hlv (length l1) ltac:(lia)) as [A _]. rewrite app_nth2, Nat.sub_diag in A by lia. exact A. }
  assert (0 < length l1) by (destruct l1; [congruence|cbn; lia]).
  unfold set_erase. rewrite (find_found keqb null hash w skey ssparse Hk ss_empty s k i He (sreach_c s Hc) Hu Li). cbn [bind].
  rewrite (erase_self U s k i Hi Li).
  - cbn [bind]. exists (upd s i null). split; [reflexivity|]. intros x Ix.
    apply In_nth with (d := null) in Ix. destruct Ix as (m & Hm & Ex).
    assert (Lx : slive s (n + (length l1 + S m)) x /\ idx s x = n).
    { destruct (Hlv (length l1 + S m) ltac:(lia)) as [A B]. rewrite app_nth2_plus in A, B. cbn [nth] in A, B. rewrite Ex in A, B. auto. }
    destruct Lx as [Lx Ix]. split; [exact (contains_live U s x _ Hi Lx)|].
    unfold set_contains, contains. rewrite (find_stops keqb null hash w skey ssparse Hk ss_empty (upd s i null) x i); [reflexivity| | | |].
    + destruct Lx as (c & _ & _ & D). exact D.
    + rewrite idx_upd. lia.
    + rewrite idx_upd, Ix. intros j Hj. destruct (Hin j ltac:(lia)) as (y & Ly & Ey). exists y. rewrite idx_upd.
      split; [apply (live_upd null skey); [apply (live_lt null skey) in Li; exact Li|]; right; split; [lia|exact Ly]|].
      split; [exact Ey|]. intros ->. pose proof (Hu _ _ _ Lx Ly). lia.
    + exists null. split; [apply nth_error_upd_eq; apply (live_lt null skey) in Li; exact Li|]. split; [reflexivity|]. left.
      unfold is_empty, skey. now apply Hk.
  - intros c Hci Ee Ei. destruct (Nat.eq_dec (i + 1) e) as [E|E].
    + pose proof (live_of keqb null skey Hk s (i + 1) c Hci Ee) as Lc. destruct (Hc _ _ Lc) as [A B]. unfold skey in A, B. rewrite Ei in A, B.
      destruct (B i ltac:(lia)) as (y & Ly & Ey). rewrite <- (live_fun null skey _ _ _ _ Li Ly) in Ey. fold n in Ey. unfold i in Ey. lia.
    + destruct (Hin (i + 1) ltac:(unfold i in *; lia)) as (y & Ly & Ey). destruct (live_key _ _ _ _ _ _ Ly Hci) as [A _]. unfold skey in A.
      subst y. unfold i in Ei. lia.
Qed.
(* the null key's bucket: erasing the first of two keys runs off the table *)
Lemma C26_null N0 a b n : index_of hash w N0 null = n -> index_of hash w N0 a = n -> index_of hash w N0 b = n ->
  n + 2 < N0 -> a <> null -> b <> null -> a <> b ->
  forall storage, length storage = N0 ->
  exists s, (' (_, _, s1) <- set_insert keqb null hash w (set_init null storage) a ;;
             ' (_, _, s2) <- set_insert keqb null hash w s1 b ;; Ok s2) = Ok s /\
    set_contains keqb null hash w s a = Ok true /\ set_contains keqb null hash w s b = Ok true /\
    set_erase keqb null hash w s a = UB.
Proof.
  intros Hnl Ha Hb Hn Han Hbn Hab storage Hl. set (s0 := set_init null storage).
  assert (L0 : length s0 = N0) by (unfold s0, set_init; rewrite map_length; exact Hl).
  assert (N0' : forall j, j < N0 -> nth_error s0 j = Some null).
  { intros j Hj. unfold s0, set_init. rewrite nth_error_map. destruct (nth_error storage j) eqn:E; [reflexivity|]. apply nth_error_None in E. lia. }
  assert (I0 : forall x, idx s0 x = index_of hash w N0 x) by (intros x; unfold index; now rewrite L0).
  destruct (precheck_run keqb null hash w skey ssparse Hk ss_empty s0 a n Han) as [Ep|Ep]; [rewrite I0; lia|rewrite I0; intros j Hj; lia| |lia].
  rewrite N0' in Ep by lia. assert (En : is_empty keqb null skey null = true) by (unfold is_empty, skey; now apply Hk). rewrite En in Ep.
  unfold set_insert at 1. fold s0. rewrite Ep. cbn [bind]. rewrite wr_ok by lia. cbn [bind]. set (s1 := upd s0 n a).
  assert (L1 : length s1 = N0) by (unfold s1; rewrite upd_length; exact L0).
  assert (I1 : forall x, idx s1 x = index_of hash w N0 x) by (intros x; unfold index; now rewrite L1).
  assert (Hs1 : nth_error s1 n = Some a) by (apply nth_error_upd_eq; lia).
  assert (Hs1' : nth_error s1 (n + 1) = Some null) by (unfold s1; rewrite nth_error_upd_neq by lia; apply N0'; lia).
  destruct (precheck_run keqb null hash w skey ssparse Hk ss_empty s1 b (n + 1) Hbn) as [Eq|Eq]; [rewrite I1; lia| | |lia].
  { rewrite I1, Hb. intros j Hj. replace j with n by lia. exists a. split; [exists a; auto|]. split; [rewrite I1; exact Ha|exact Hab]. }
  rewrite Hs1', En in Eq. unfold set_insert. rewrite Eq. cbn [bind]. rewrite wr_ok by lia. cbn [bind]. set (s := upd s1 (n + 1) b).
  exists s. split; [reflexivity|].
  assert (Ls : length s = N0) by (unfold s; rewrite upd_length; exact L1).
  assert (Is : forall x, idx s x = index_of hash w N0 x) by (intros x; unfold index; now rewrite Ls).
  assert (Hsa : nth_error s n = Some a) by (unfold s; rewrite nth_error_upd_neq by lia; exact Hs1).
  assert (Hsb : nth_error s (n + 1) = Some b) by (apply nth_error_upd_eq; lia).
  assert (Hsr : forall j, j < N0 -> j <> n -> j <> n + 1 -> nth_error s j = Some null).
  { intros j Hj D1 D2. unfold s, s1. rewrite !nth_error_upd_neq by lia. apply N0'. exact Hj. }
  assert (La : slive s n a) by (exists a; auto). assert (Lb : slive s (n + 1) b) by (exists b; auto).
  assert (Lx : forall j x, slive s j x -> (j = n /\ x = a) \/ (j = n + 1 /\ x = b)).
  { intros j x L. destruct (Nat.eq_dec j n) as [->|]; [left; split; [reflexivity|exact (live_fun null skey _ _ _ _ L La)]|].
    destruct (Nat.eq_dec j (n + 1)) as [->|]; [right; split; [reflexivity|exact (live_fun null skey _ _ _ _ L Lb)]|].
    exfalso. pose proof (live_lt null skey s j x L). destruct (live_key _ _ _ _ _ _ L (Hsr j ltac:(lia) ltac:(lia) ltac:(lia))) as [A B]. unfold skey in A. congruence. }
  assert (Hi : sinv [a; b] s).
  { split; [|split; [|split]].
    - split; [lia|]. exists null. rewrite Ls. split; [apply Hsr; lia|]. split; [exact En|reflexivity].
    - intros j x L. rewrite Is. destruct (Lx _ _ L) as [[-> ->]|[-> ->]].
      + rewrite Ha. split; [lia|intros; lia].
      + rewrite Hb. split; [lia|]. intros t Ht. replace t with n by lia. exists a. split; [exact La|rewrite Is; exact Ha].
    - intros i j x Li Lj. destruct (Lx _ _ Li) as [[-> ->]|[-> ->]]; destruct (Lx _ _ Lj) as [[-> E]|[-> E]]; congruence.
    - intros j x L. destruct (Lx _ _ L) as [[_ ->]|[_ ->]]; cbn; auto. }
  split; [exact (contains_live _ s a n Hi La)|]. split; [exact (contains_live _ s b (n + 1) Hi Lb)|].
  destruct Hi as (He & Hc & Hu & _).
  unfold set_erase. rewrite (find_found keqb null hash w skey ssparse Hk ss_empty s a n He (sreach_c s Hc) Hu La). cbn [bind].
  unfold erase_and_gc. rewrite (rd_ok _ _ _ Hsa). cbn [bind]. rewrite wr_ok by lia. cbn [bind].
  set (t := upd s n null). assert (Lt : length t = N0) by (unfold t; rewrite upd_length; exact Ls).
  assert (Htb : nth_error t (n + 1) = Some b) by (unfold t; rewrite nth_error_upd_neq by lia; exact Hsb).
  rewrite (rd_ok _ _ _ Htb). cbn [bind]. rewrite (proj2 (empty_false keqb null skey Hk b)) by exact Hbn. rewrite Lt.
  assert (G : forall fuel pos, n < pos <= N0 -> N0 - pos < fuel -> bucket_last hash w skey fuel t n pos = UB).
  { induction fuel as [|f IH]; intros pos Hp Hf; [lia|]. cbn [bucket_last]. destruct (Nat.eq_dec pos N0) as [->|D].
    - unfold rd. rewrite (proj2 (nth_error_None t N0)) by lia. reflexivity.
    - destruct (rd_lt t pos) as (c & Hcp & ->); [lia|]. cbn [bind]. 
      assert (idx t (skey c) = n).
      { unfold index. rewrite Lt. unfold t in Hcp. rewrite nth_error_upd_neq in Hcp by lia. unfold skey.
        destruct (Nat.eq_dec pos (n + 1)) as [->|]; [rewrite Hsb in Hcp; injection Hcp as <-; exact Hb|].
        rewrite Hsr in Hcp by lia. injection Hcp as <-. exact Hnl. }
      rewrite H, Nat.eqb_refl. destruct (Nat.ltb_spec pos (length t)); [|lia]. apply IH; lia. }
  rewrite G by lia. reflexivity.
Qed.
End Set_.
