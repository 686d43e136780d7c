(* Proofs about Algo_Model.v. *)
From Verif Require Import Base BaseLemmas Swap_Model Swap_Spec Swap_Proofs Heap_Model Heap_Spec
  Heap_Proofs Algo_Model Algo_Spec.
Local Open Scope res_scope.

Lemma range_len_ok first last : first <= last -> range_len first last = Ok (last - first).
Proof. intros H. unfold range_len. destruct (Nat.ltb_spec last first); [lia|reflexivity]. Qed.

Ltac bcase := repeat match goal with
  | |- context[Nat.leb ?a ?b] => destruct (Nat.leb_spec a b)
  | |- context[Nat.ltb ?a ?b] => destruct (Nat.ltb_spec a b)
  | |- context[Nat.eqb ?a ?b] => destruct (Nat.eqb_spec a b)
  end; cbn [andb orb negb].

Section P.
Context {A : Type}.

(* ---------------- fill ---------------- *)
Lemma fill_n_spec v : forall n (m : list A) f, f + n <= length m ->
  exists m', fill_n m f n v = Ok (m', f + n) /\ length m' = length m /\
    forall i, nth_error m' i = if Nat.leb f i && Nat.ltb i (f + n) then Some v else nth_error m i.
Proof.
  induction n as [|n IH]; intros m f H; cbn [fill_n].
  - exists m. replace (f + 0) with f by lia. repeat split; auto. intros i. bcase; auto; lia.
  - rewrite wr_ok by lia. cbn [bind].
    destruct (IH (upd m f v) (S f)) as (m' & R & L & E); [rewrite upd_length; lia|].
    exists m'. rewrite upd_length in L. replace (f + S n) with (S f + n) by lia.
    split; auto. split; auto. intros i. rewrite E, nth_error_upd. bcase; auto; lia.
Qed.

Lemma fill_spec (m : list A) f l v : f <= l -> l <= length m ->
  exists m', fill m f l v = Ok m' /\ length m' = length m /\
    forall i, nth_error m' i = if Nat.leb f i && Nat.ltb i l then Some v else nth_error m i.
Proof.
  intros H1 H2. unfold fill. rewrite range_len_ok by auto. cbn [bind].
  destruct (fill_n_spec v (l - f) m f) as (m' & R & L & E); [lia|]. rewrite R. cbn [bind fst].
  exists m'. split; auto. split; auto. intros i. rewrite E. now replace (f + (l - f)) with l by lia.
Qed.

(* ---------------- copy ---------------- *)
Lemma copy_n_spec : forall n (m : list A) f d,
  f + n <= length m -> d + n <= length m -> d <= f \/ f + n <= d ->
  exists m', copy_n m f n d = Ok (m', d + n) /\ moved m m' f n d.
Proof.
  induction n as [|n IH]; intros m f d H1 H2 H3; cbn [copy_n].
  - exists m. replace (d + 0) with d by lia. split; auto. split; auto.
    intros i. bcase; auto; lia.
  - destruct (rd_lt m f) as (x & Hx & ->); [lia|]. cbn [bind].
    rewrite wr_ok by lia. cbn [bind].
    destruct (IH (upd m d x) (S f) (S d)) as (m' & R & L & E); try (rewrite upd_length; lia); [lia|].
    exists m'. rewrite upd_length in L. replace (d + S n) with (S d + n) by lia.
    split; auto. split; auto. intros i. rewrite E, !nth_error_upd.
    replace (S f + (i - S d)) with (f + S (i - S d)) by lia.
    bcase; try lia; auto; try (f_equal; lia).
    all: replace (f + (i - d)) with f by lia; auto.
Qed.

Lemma copy_spec (m : list A) f l d :
  f <= l -> l <= length m -> d + (l - f) <= length m -> d <= f \/ l <= d ->
  exists m', copy m f l d = Ok (m', d + (l - f)) /\ moved m m' f (l - f) d.
Proof.
  intros H1 H2 H3 H4. unfold copy. rewrite range_len_ok by auto. cbn [bind].
  apply copy_n_spec; lia.
Qed.

Lemma copy_backward_loop_spec : forall n (m : list A) l d,
  n <= l -> n <= d -> l <= length m -> d <= length m -> l <= d \/ d <= l - n ->
  exists m', copy_backward_loop n m l d = Ok (m', d - n) /\ moved m m' (l - n) n (d - n).
Proof.
  induction n as [|n IH]; intros m l d H1 H2 H3 H4 H5; cbn [copy_backward_loop].
  - exists m. replace (d - 0) with d by lia. split; auto. split; auto. intros i. bcase; auto; lia.
  - destruct l as [|l]; [lia|]. destruct d as [|d]; [lia|].
    destruct (rd_lt m l) as (x & Hx & ->); [lia|]. cbn [bind].
    rewrite wr_ok by lia. cbn [bind].
    destruct (IH (upd m d x) l d) as (m' & R & L & E); try (rewrite ?upd_length; lia).
    exists m'. rewrite upd_length in L. cbn [Nat.sub]. split; auto. split; auto.
    intros i. rewrite E, !nth_error_upd.
    bcase; try lia; auto.
    all: replace (l - n + (i - (d - n))) with l by lia; auto.
Qed.

Lemma copy_backward_spec (m : list A) f l dl :
  f <= l -> l <= length m -> l - f <= dl <= length m -> l <= dl \/ dl <= f ->
  exists m', copy_backward m f l dl = Ok (m', dl - (l - f)) /\
    moved m m' f (l - f) (dl - (l - f)).
Proof.
  intros H1 H2 H3 H4. unfold copy_backward. rewrite range_len_ok by auto. cbn [bind].
  destruct (copy_backward_loop_spec (l - f) m l dl) as (m' & R & E); try lia.
  exists m'. split; auto. now replace (l - (l - f)) with f in E by lia.
Qed.

(* ---------------- searching ---------------- *)
Lemma find_if_loop_spec p : forall n (m : list A) f l,
  f + n = l -> l <= length m ->
  exists r, find_if_loop n m f l p = Ok r /\ first_such m f l (fun x => p x = true) r.
Proof.
  induction n as [|n IH]; intros m f l H1 H2; cbn [find_if_loop].
  - exists l. split; auto. repeat split; intros; lia.
  - destruct (rd_lt m f) as (x & Hx & ->); [lia|]. cbn [bind].
    destruct (p x) eqn:E.
    + exists f. split; auto. repeat split; try lia. intros _. eauto.
    + destruct (IH m (S f) l) as (r & R & [G1 [G2 G3]]); [lia|lia|].
      exists r. split; auto. split; [lia|]. split; auto.
      intros j y Hj Hy. destruct (Nat.eq_dec j f) as [->|]; [congruence|].
      apply (G2 j); auto; lia.
Qed.

Lemma find_if_spec p (m : list A) f l :
  f <= l -> l <= length m ->
  exists r, find_if m f l p = Ok r /\ first_such m f l (fun x => p x = true) r.
Proof.
  intros H1 H2. unfold find_if. rewrite range_len_ok by auto. cbn [bind].
  apply find_if_loop_spec; lia.
Qed.

Lemma inner_of_spec (p : A -> A -> bool) x s :
  inner_of p x s = true <-> exists y, In y s /\ p x y = true.
Proof.
  induction s as [|y s IH]; cbn [inner_of].
  - split; [discriminate|]. intros (y & [] & _).
  - destruct (p x y) eqn:E.
    + split; auto. intros _. exists y. split; [now left|auto].
    + rewrite IH. split; intros (z & Hz & Hp).
      * exists z. split; [now right|auto].
      * destruct Hz as [<-|Hz]; [congruence|]. eauto.
Qed.

Lemma first_such_iff (m : list A) f l (P Q : A -> Prop) r :
  (forall x, P x <-> Q x) -> first_such m f l P r -> first_such m f l Q r.
Proof.
  intros H [G1 [G2 G3]]. split; auto. split.
  - intros j x Hj Hx HQ. apply (G2 j x Hj Hx). now apply H.
  - intros Hr. destruct (G3 Hr) as (x & Hx & HP). exists x. split; auto. now apply H.
Qed.

Lemma find_first_of_spec p (m : list A) f l s :
  f <= l -> l <= length m ->
  exists r, find_first_of p m f l s = Ok r /\
    first_such m f l (fun x => exists y, In y s /\ p x y = true) r.
Proof.
  intros H1 H2. unfold find_first_of.
  destruct (find_if_spec (fun x => inner_of p x s) m f l H1 H2) as (r & R & G).
  exists r. split; auto. eapply first_such_iff; [|exact G]. intros x. apply inner_of_spec.
Qed.

Lemma find_last_of_loop_spec p s : forall n (m : list A) f l,
  f + n = l -> l < length m ->
  exists r, find_last_of_loop n p m f l s = Ok r /\ f <= r <= l /\
    (forall j x, r < j <= l -> nth_error m j = Some x -> forall y, In y s -> p x y = false) /\
    (f < r -> exists x y, nth_error m r = Some x /\ In y s /\ p x y = true).
Proof.
  induction n as [|n IH]; intros m f l H1 H2; cbn [find_last_of_loop].
  - exists f. split; auto. repeat split; intros; lia.
  - destruct (rd_lt m l) as (x & Hx & ->); [lia|]. cbn [bind].
    destruct (inner_of p x s) eqn:E.
    + exists l. split; auto. split; [lia|]. split; [intros; lia|]. intros _.
      apply inner_of_spec in E. destruct E as (y & Hy & Hp). eauto.
    + destruct (IH m f (l - 1)) as (r & R & G1 & G2 & G3); [lia|lia|].
      exists r. split; auto. split; [lia|]. split; auto.
      intros j z Hj Hz y Hy. destruct (Nat.eq_dec j l) as [->|].
      * assert (z = x) by congruence; subst z. destruct (p x y) eqn:Ep; auto.
        assert (inner_of p x s = true) by (apply inner_of_spec; eauto). congruence.
      * apply (G2 j); auto; lia.
Qed.

Lemma find_last_of_spec p (m : list A) f l s :
  f <= l -> l < length m ->
  exists r, find_last_of p m f l s = Ok r /\ f <= r <= l /\
    (forall j x, r < j <= l -> nth_error m j = Some x -> forall y, In y s -> p x y = false) /\
    (f < r -> exists x y, nth_error m r = Some x /\ In y s /\ p x y = true).
Proof.
  intros H1 H2. unfold find_last_of. rewrite range_len_ok by auto. cbn [bind].
  apply find_last_of_loop_spec; lia.
Qed.

Lemma search_at_spec (p : A -> A -> bool) (m : list A) l : forall s it,
  it <= l -> l <= length m ->
  exists r, search_at p m it l s = Ok r /\
    match r with
    | Found => occurs_at (fun x y => p x y = true) m l s it
    | TextEnd => l < it + length s
    | Mismatch => it < l /\ ~ occurs_at (fun x y => p x y = true) m l s it
    end.
Proof.
  induction s as [|y s IH]; intros it H1 H2; cbn [search_at].
  - exists Found. split; auto. split; [simpl; lia|]. intros [|j]; discriminate.
  - destruct (Nat.eqb_spec it l) as [->|Hne].
    + exists TextEnd. split; auto. simpl; lia.
    + destruct (rd_lt m it) as (x & Hx & ->); [lia|]. cbn [bind].
      destruct (p x y) eqn:E.
      * destruct (IH (S it)) as (r & R & G); [lia|auto|].
        exists r. split; auto. destruct r.
        -- destruct G as [G1 G2]. split; [simpl; lia|].
           intros [|j] z Hz; simpl in Hz.
           ++ exists x. injection Hz as <-. replace (it + 0) with it by lia. auto.
           ++ destruct (G2 j z Hz) as (w & Hw & Hp). exists w.
              replace (it + S j) with (S it + j) by lia. auto.
        -- simpl; lia.
        -- split; [lia|]. intros [O1 O2]. apply (proj2 G). split; [simpl in O1; lia|].
           intros j z Hz. destruct (O2 (S j) z Hz) as (w & Hw & Hp). exists w.
           replace (S it + j) with (it + S j) by lia. auto.
      * exists Mismatch. split; auto. split; [lia|]. intros [O1 O2].
        destruct (O2 0 y eq_refl) as (w & Hw & Hp).
        replace (it + 0) with it in Hw by lia. congruence.
Qed.

Lemma search_loop_spec (p : A -> A -> bool) (m : list A) l s : forall fuel f,
  f <= l -> l <= length m -> l - f < fuel ->
  exists r, search_loop fuel p m f l s = Ok r /\ f <= r <= l /\
    (forall j, f <= j < r -> ~ occurs_at (fun x y => p x y = true) m l s j) /\
    (r < l \/ s = [] -> occurs_at (fun x y => p x y = true) m l s r).
Proof.
  induction fuel as [|fuel IH]; intros f H1 H2 H3; [lia|]. cbn [search_loop].
  destruct (search_at_spec p m l s f H1 H2) as (r & R & G). rewrite R. cbn [bind].
  destruct r.
  - exists f. split; auto. split; [lia|]. split; [intros; lia|auto].
  - exists l. split; auto. split; [lia|]. split.
    + intros j Hj [O1 _]. lia.
    + intros [?|E]; [lia|]. rewrite E in G. simpl in G. lia.
  - destruct G as [Hfl G]. destruct (IH (S f)) as (r & R2 & G1 & G2 & G3); [lia|auto|lia|].
    exists r. split; auto. split; [lia|]. split; auto.
    intros j Hj. destruct (Nat.eq_dec j f) as [->|]; [exact G|]. apply G2; lia.
Qed.

Lemma search_spec (p : A -> A -> bool) (m : list A) f l s :
  f <= l -> l <= length m ->
  exists r, search p m f l s = Ok r /\ f <= r <= l /\
    (forall j, f <= j < r -> ~ occurs_at (fun x y => p x y = true) m l s j) /\
    (r < l \/ s = [] -> occurs_at (fun x y => p x y = true) m l s r).
Proof.
  intros H1 H2. unfold search. rewrite range_len_ok by auto. cbn [bind].
  apply search_loop_spec; auto; lia.
Qed.

(* ---------------- equal, mismatch ---------------- *)
Section EqMis.
Variable eqb : A -> A -> bool.
Hypothesis eqb_ok : forall x y, eqb x y = true <-> x = y.

Lemma mismatch_loop_spec : forall n (m1 : list A) i1 (m2 : list A) i2,
  i1 + n <= length m1 -> i2 + n <= length m2 ->
  exists k, mismatch_loop n eqb m1 i1 m2 i2 = Ok (i1 + k, i2 + k) /\ k <= n /\
    (forall j, j < k -> agree m1 i1 m2 i2 j) /\ (k < n -> ~ agree m1 i1 m2 i2 k).
Proof.
  induction n as [|n IH]; intros m1 i1 m2 i2 H1 H2; cbn [mismatch_loop].
  - exists 0. rewrite !Nat.add_0_r. repeat split; auto; intros; lia.
  - destruct (rd_lt m1 i1) as (x & Hx & ->); [lia|].
    destruct (rd_lt m2 i2) as (y & Hy & ->); [lia|]. cbn [bind].
    destruct (eqb x y) eqn:E.
    + apply eqb_ok in E. subst y.
      destruct (IH m1 (S i1) m2 (S i2)) as (k & R & G1 & G2 & G3); [lia|lia|].
      exists (S k). rewrite R. split; [now rewrite !Nat.add_succ_r|]. split; [lia|]. split.
      * intros [|j] Hj.
        -- exists x. rewrite !Nat.add_0_r. auto.
        -- destruct (G2 j ltac:(lia)) as (z & Z1 & Z2). exists z.
           rewrite !Nat.add_succ_r. auto.
      * intros Hk (z & Z1 & Z2). apply G3; [lia|]. exists z.
        rewrite !Nat.add_succ_r in *. auto.
    + exists 0. rewrite !Nat.add_0_r. split; auto. split; [lia|]. split; [intros; lia|].
      intros _ (z & Z1 & Z2). rewrite Nat.add_0_r in Z1, Z2.
      assert (eqb x y = true) by (apply eqb_ok; congruence). congruence.
Qed.

Lemma mismatch_spec (m1 : list A) f1 l1 (m2 : list A) f2 :
  f1 <= l1 -> l1 <= length m1 -> f2 + (l1 - f1) <= length m2 ->
  exists k, mismatch eqb m1 f1 l1 m2 f2 = Ok (f1 + k, f2 + k) /\ k <= l1 - f1 /\
    (forall j, j < k -> agree m1 f1 m2 f2 j) /\ (k < l1 - f1 -> ~ agree m1 f1 m2 f2 k).
Proof.
  intros H1 H2 H3. unfold mismatch. rewrite range_len_ok by auto. cbn [bind].
  apply mismatch_loop_spec; lia.
Qed.

Lemma equal_loop_mismatch : forall n (m1 : list A) i1 (m2 : list A) i2,
  i1 + n <= length m1 -> i2 + n <= length m2 ->
  exists b, equal_loop n eqb m1 i1 m2 i2 = Ok b /\
    (b = true <-> forall j, j < n -> agree m1 i1 m2 i2 j).
Proof.
  induction n as [|n IH]; intros m1 i1 m2 i2 H1 H2; cbn [equal_loop].
  - exists true. split; auto. split; auto. intros; lia.
  - destruct (rd_lt m1 i1) as (x & Hx & ->); [lia|].
    destruct (rd_lt m2 i2) as (y & Hy & ->); [lia|]. cbn [bind].
    destruct (eqb x y) eqn:E.
    + apply eqb_ok in E. subst y.
      destruct (IH m1 (S i1) m2 (S i2)) as (b & R & G); [lia|lia|].
      exists b. split; auto. rewrite G. split.
      * intros H [|j] Hj.
        -- exists x. rewrite !Nat.add_0_r. auto.
        -- destruct (H j ltac:(lia)) as (z & Z1 & Z2). exists z. rewrite !Nat.add_succ_r. auto.
      * intros H j Hj. destruct (H (S j) ltac:(lia)) as (z & Z1 & Z2). exists z.
        rewrite !Nat.add_succ_r in *. auto.
    + exists false. split; auto. split; [discriminate|]. intros H.
      destruct (H 0 ltac:(lia)) as (z & Z1 & Z2). rewrite Nat.add_0_r in Z1, Z2.
      assert (eqb x y = true) by (apply eqb_ok; congruence). congruence.
Qed.

Lemma equal_spec (m1 : list A) f1 l1 (m2 : list A) f2 :
  f1 <= l1 -> l1 <= length m1 -> f2 + (l1 - f1) <= length m2 ->
  exists b, equal eqb m1 f1 l1 m2 f2 = Ok b /\
    (b = true <-> forall j, j < l1 - f1 -> agree m1 f1 m2 f2 j).
Proof.
  intros H1 H2 H3. unfold equal. rewrite range_len_ok by auto. cbn [bind].
  apply equal_loop_mismatch; lia.
Qed.
End EqMis.

(* ---------------- min_element, max_element ---------------- *)

Section Order.
Variable comp : A -> A -> bool.
Hypothesis SWO : strict_weak_order comp.

Lemma swo_flip : strict_weak_order (fun a b => comp b a).
Proof.
  split.
  - apply (swo_irrefl _ SWO).
  - intros x y z H1 H2. eapply (swo_trans _ SWO); eauto.
  - intros x y z H1 H2 H3 H4. destruct (swo_incomp _ SWO x y z); auto.
Qed.

(* y below x, x not below... : strictness passes through incomparability *)
Lemma lt_le_trans x y z : comp x y = true -> comp z y = false -> comp x z = true.
Proof.
  intros H1 H2. destruct (comp x z) eqn:E; auto.
  exfalso. assert (comp x y = false) by (apply (ge_trans comp SWO) with z; auto). congruence.
Qed.

Lemma min_element_loop_spec : forall n (m : list A) f s g,
  f <= s < g -> g + n <= length m -> first_least comp m f g s ->
  exists r, min_element_loop n comp m s g = Ok r /\ first_least comp m f (g + n) r.
Proof.
  induction n as [|n IH]; intros m f s g H1 H2 (G1 & xs & Hs & G2 & G3); cbn [min_element_loop].
  - exists s. split; auto. replace (g + 0) with g by lia. split; auto. exists xs. auto.
  - destruct (rd_lt m g) as (xg & Hg & ->); [lia|].
    rewrite (rd_ok _ _ _ Hs). cbn [bind].
    replace (g + S n) with (S g + n) by lia.
    destruct (comp xg xs) eqn:E.
    + apply IH; [lia|lia|]. split; [lia|]. exists xg. split; auto. split.
      * intros j y Hj Hy. destruct (Nat.eq_dec j g) as [->|].
        -- assert (y = xg) by congruence; subst. apply (swo_irrefl _ SWO).
        -- destruct (comp y xg) eqn:E2; auto.
           assert (comp y xs = true) by (eapply (swo_trans _ SWO); eauto).
           rewrite (G2 j y) in H by (auto; lia). congruence.
      * intros j y Hj Hy. apply (lt_le_trans xg xs y); auto. apply (G2 j); auto; lia.
    + apply IH; [lia|lia|]. split; [lia|]. exists xs. split; auto. split; auto.
      intros j y Hj Hy. destruct (Nat.eq_dec j g) as [->|].
      * congruence.
      * apply (G2 j); auto; lia.
Qed.

Lemma min_element_spec (m : list A) f l :
  f < l -> l <= length m ->
  exists r, min_element comp m f l = Ok r /\ first_least comp m f l r.
Proof.
  intros H1 H2. unfold min_element. destruct (Nat.eqb_spec f l); [lia|].
  rewrite range_len_ok by lia. cbn [bind].
  destruct (rd_lt m f) as (x & Hx & _); [lia|].
  destruct (min_element_loop_spec (l - f - 1) m f f (S f)) as (r & R & G); [lia|lia| |].
  - split; [lia|]. exists x. split; auto. split.
    + intros j y Hj Hy. assert (j = f) by lia; subst. assert (y = x) by congruence; subst.
      apply (swo_irrefl _ SWO).
    + intros; lia.
  - exists r. split; auto. now replace (S f + (l - f - 1)) with l in G by lia.
Qed.
End Order.

Lemma max_loop_flip comp : forall n (m : list A) s g,
  max_element_loop comp n m s g = min_element_loop n (fun a b => comp b a) m s g \/
  exists i, nth_error m i = None /\ g <= i < g + n \/ nth_error m i = None /\ i = s.
Proof.
  induction n as [|n IH]; intros m s g; cbn [max_element_loop min_element_loop]; [now left|].
  unfold rd at 1. destruct (nth_error m s) as [xs|] eqn:Es; [|right; exists s; auto].
  unfold rd at 1. destruct (nth_error m g) as [xg|] eqn:Eg; [|right; exists g; left; split; [auto|lia]].
  rewrite (rd_ok _ _ _ Eg), (rd_ok _ _ _ Es). cbn [bind].
  destruct (IH m (if comp xs xg then g else s) (S g)) as [->|(i & [[H1 H2]|[H1 H2]])].
  - now left.
  - right. exists i. left. split; auto; lia.
  - destruct (comp xs xg); [congruence|congruence].
Qed.

Lemma max_element_spec_full (comp : A -> A -> bool) (m : list A) f l :
  strict_weak_order comp -> f < l -> l <= length m ->
  exists r, max_element comp m f l = Ok r /\ first_least (fun a b => comp b a) m f l r.
Proof.
  intros SWO H1 H2. unfold max_element. destruct (Nat.eqb_spec f l); [lia|].
  destruct (Nat.ltb_spec l f); [lia|].
  destruct (min_element_spec (fun a b => comp b a) (swo_flip comp SWO) m f l H1 H2) as (r & R & G).
  unfold min_element in R. destruct (Nat.eqb_spec f l); [lia|].
  rewrite range_len_ok in R by lia. cbn [bind] in R.
  exists r. split; auto.
  destruct (max_loop_flip comp (l - f - 1) m f (S f)) as [->|(i & Hi)]; auto.
  exfalso. assert (nth_error m i <> None); [|intuition].
  apply nth_error_Some. lia.
Qed.

Lemma minmax_empty (comp : A -> A -> bool) (m : list A) i :
  min_element comp m i i = Ok i /\ max_element comp m i i = Ok i.
Proof. unfold min_element, max_element. now rewrite Nat.eqb_refl. Qed.

Lemma clamp_spec (comp : A -> A -> bool) v lo hi :
  strict_weak_order comp -> comp hi lo = false ->
  exists r, clamp comp v lo hi = Ok r /\ comp r lo = false /\ comp hi r = false /\
    (comp v lo = false -> comp hi v = false -> r = v) /\
    (comp v lo = true -> r = lo) /\ (comp hi v = true -> r = hi).
Proof.
  intros SWO H. unfold clamp. rewrite H.
  destruct (comp v lo) eqn:E1.
  - exists lo. split; auto. split; [apply (swo_irrefl _ SWO)|]. split; auto.
    split; [discriminate|]. split; auto. intros E2.
    assert (comp hi lo = true) by (eapply (swo_trans _ SWO); eauto). congruence.
  - destruct (comp hi v) eqn:E2.
    + exists hi. split; auto. split; auto. split; [apply (swo_irrefl _ SWO)|].
      split; [congruence|]. split; [discriminate|auto].
    + exists v. repeat split; auto; discriminate.
Qed.

(* ---------------- reverse ---------------- *)
Lemma reverse_loop_spec (swp : swapper A) : exchanges swp -> forall fuel (m : list A) f l,
  f <= l -> l <= length m -> l - f < fuel ->
  exists m', reverse_loop fuel swp m f l = Ok m' /\ length m' = length m /\
    forall i, nth_error m' i = if Nat.leb f i && Nat.ltb i l
                               then nth_error m (f + l - 1 - i) else nth_error m i.
Proof.
  intros EX. induction fuel as [|fuel IH]; intros m f l H1 H2 H3; [lia|]. cbn [reverse_loop].
  destruct (Nat.eqb_spec f l) as [->|Hne].
  - exists m. split; auto. split; auto. intros i. bcase; auto; lia.
  - destruct l as [|l]; [lia|].
    destruct (Nat.eqb_spec f l) as [->|Hne2].
    + exists m. split; auto. split; auto. intros i. bcase; auto; try lia. f_equal; lia.
    + destruct (rd_lt m f) as (x & Hx & _); [lia|].
      destruct (rd_lt m l) as (y & Hy & _); [lia|].
      rewrite (ex_swap _ EX m f l x y) by auto. cbn [bind].
      destruct (IH (upd (upd m f y) l x) (S f) l) as (m' & R & L & E);
        try (rewrite ?upd_length; lia).
      rewrite !upd_length in L. exists m'. split; auto. split; auto.
      intros i. rewrite E, !nth_error_upd, !upd_length.
      bcase; try lia; auto; try (f_equal; lia).
      * replace (f + S l - 1 - i) with f by lia. auto.
      * replace (f + S l - 1 - i) with l by lia. auto.
Qed.

Lemma reverse_spec (swp : swapper A) (m : list A) f l :
  exchanges swp -> f <= l -> l <= length m ->
  exists m', reverse swp m f l = Ok m' /\ length m' = length m /\
    forall i, nth_error m' i = if Nat.leb f i && Nat.ltb i l
                               then nth_error m (f + l - 1 - i) else nth_error m i.
Proof.
  intros EX H1 H2. unfold reverse. rewrite range_len_ok by auto. cbn [bind].
  apply reverse_loop_spec; auto; lia.
Qed.

Lemma reverse_whole (swp : swapper A) (m : list A) :
  exchanges swp -> reverse swp m 0 (length m) = Ok (rev m).
Proof.
  intros EX. destruct (reverse_spec swp m 0 (length m) EX) as (m' & -> & L & E); try lia.
  f_equal. apply nth_error_ext. intros i. rewrite E.
  destruct (Nat.ltb_spec i (length m)) as [H|H]; bcase; try lia.
  - assert (Hn : forall (l : list A) k, k < length l -> nth_error (rev l) k = nth_error l (length l - 1 - k)).
    { clear. intros l k Hk. destruct (rd_lt l (length l - 1 - k)) as (x & Hx & _); [lia|].
      rewrite Hx. rewrite (nth_error_nth' _ x) by (now rewrite rev_length).
      rewrite rev_nth by auto. f_equal.
      replace (length l - S k) with (length l - 1 - k) by lia.
      apply nth_error_nth; auto. }
    rewrite Hn by auto. f_equal; lia.
  - rewrite (proj2 (nth_error_None m i)) by lia.
    symmetry. apply nth_error_None. rewrite rev_length. lia.
Qed.
End P.

Lemma accumulate_loop_spec {A B} (op : B -> A -> B) : forall n (m : list A) f init,
  f + n <= length m ->
  accumulate_loop n op m f init = Ok (fold_left op (firstn n (skipn f m)) init).
Proof.
  induction n as [|n IH]; intros m f init H; cbn [accumulate_loop]; [reflexivity|].
  destruct (rd_lt m f) as (x & Hx & ->); [lia|]. cbn [bind].
  rewrite IH by lia.
  assert (E : skipn f m = x :: skipn (S f) m).
  { clear -Hx. revert f Hx; induction m as [|h t IHm]; intros [|f] Hx; simpl in *; try discriminate.
    - now injection Hx as ->.
    - now apply IHm. }
  rewrite E. reflexivity.
Qed.

Lemma accumulate_spec {A B} (op : B -> A -> B) (m : list A) f l init :
  f <= l -> l <= length m ->
  accumulate op m f l init = Ok (fold_left op (firstn (l - f) (skipn f m)) init).
Proof.
  intros H1 H2. unfold accumulate. rewrite range_len_ok by auto. cbn [bind].
  apply accumulate_loop_spec. lia.
Qed.
