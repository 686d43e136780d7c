(* Proofs about Heap_Model.v. *)
From Verif Require Import Base BaseLemmas Swap_Model Swap_Spec Swap_Proofs Heap_Model Heap_Spec.
Local Open Scope res_scope.

(* ---------------- parent arithmetic ---------------- *)

Lemma parent_lt k i : 1 <= k -> 0 < i -> (i - 1) / k < i.
Proof.
  intros Hk Hi. apply Nat.le_lt_trans with (i - 1); [|lia].
  apply Nat.div_le_upper_bound; nia.
Qed.

Lemma parent_iff k i p :
  1 <= k -> 0 < i -> ((i - 1) / k = p <-> p * k + 1 <= i < p * k + 1 + k).
Proof.
  intros Hk Hi. split.
  - intros <-. pose proof (Nat.div_mod (i - 1) k ltac:(lia)) as E.
    pose proof (Nat.mod_upper_bound (i - 1) k ltac:(lia)). nia.
  - intros H. symmetry. apply Nat.div_unique with (i - 1 - p * k); nia.
Qed.

(* ---------------- strict weak orders ---------------- *)

Section Order.
Context {A : Type} (comp : A -> A -> bool) (SWO : strict_weak_order comp).

Lemma swo_asym x y : comp x y = true -> comp y x = false.
Proof.
  intros H. destruct (comp y x) eqn:E; auto.
  rewrite <- (swo_irrefl _ SWO x). symmetry. eapply swo_trans; eauto.
Qed.

(* "comp x y = false" (y does not beat x) is transitive. *)
Lemma ge_trans x y z : comp x y = false -> comp y z = false -> comp x z = false.
Proof.
  intros H1 H2. destruct (comp x z) eqn:E; auto. exfalso.
  destruct (comp y x) eqn:E1.
  - rewrite (swo_trans _ SWO _ _ _ E1 E) in H2. discriminate.
  - destruct (comp z y) eqn:E2.
    + rewrite (swo_trans _ SWO _ _ _ E E2) in H1. discriminate.
    + destruct (swo_incomp _ SWO x y z) as [F _]; auto. congruence.
Qed.

Lemma ge_refl x : comp x x = false.
Proof. apply (swo_irrefl _ SWO). Qed.

(* y is strictly below x and y not beaten by z: x not beaten by z *)
Lemma gt_ge x y z : comp y x = true -> comp y z = false -> comp x z = false.
Proof. intros H1 H2. apply ge_trans with y; auto. now apply swo_asym. Qed.
End Order.

(* ---------------- swap ---------------- *)

Lemma swap_at_nth {A} (l : list A) a b x y i :
  nth_error l a = Some x -> nth_error l b = Some y ->
  nth_error (upd (upd l a y) b x) i =
    if Nat.eqb i b then Some x else if Nat.eqb i a then Some y else nth_error l i.
Proof.
  intros Ha Hb.
  assert (a < length l) by (apply nth_error_Some; congruence).
  assert (b < length l) by (apply nth_error_Some; congruence).
  rewrite !nth_error_upd, upd_length.
  destruct (Nat.eqb_spec b i) as [->|Hn].
  - rewrite Nat.eqb_refl. destruct (Nat.ltb_spec i (length l)); [reflexivity|lia].
  - destruct (Nat.eqb_spec i b); [lia|].
    destruct (Nat.eqb_spec a i) as [->|Hn2].
    + rewrite Nat.eqb_refl. destruct (Nat.ltb_spec i (length l)); [reflexivity|lia].
    + destruct (Nat.eqb_spec i a); [lia|reflexivity].
Qed.

Section Proofs.
Context {A : Type} (swp : swapper A) (EX : exchanges swp).
Context (comp : A -> A -> bool) (SWO : strict_weak_order comp).
Variable k : nat.
Hypothesis Hk : 1 <= k.

Notation par i := ((i - 1) / k).

(* Edge (parent i, i) is fine in l. *)
Definition edge_ok (l : list A) (i : nat) : Prop :=
  forall x y, nth_error l i = Some x -> nth_error l (par i) = Some y -> comp y x = false.

(* ---------------- restore_up ---------------- *)

Definition up_inv (n : nat) (l : list A) (cur : nat) : Prop :=
  (forall i, 0 < i < n -> i <> cur -> edge_ok l i) /\
  (forall i x y, 0 < cur -> 0 < i < n -> par i = cur ->
     nth_error l i = Some x -> nth_error l (par cur) = Some y -> comp y x = false).

Lemma restore_up_loop_spec n : forall fuel l cur,
  cur < fuel -> cur < n -> n <= length l -> up_inv n l cur ->
  exists l' c', restore_up_loop swp comp k fuel l cur = Ok (l', c') /\
    is_heap comp k n l' /\ Permutation l l' /\ c' <= cur /\
    (c' = cur -> l' = l) /\
    (forall i, n <= i -> nth_error l' i = nth_error l i).
Proof.
  induction fuel as [|fuel IH]; intros l cur Hf Hc Hn [I1 I2]; [lia|].
  cbn [restore_up_loop].
  destruct (Nat.eqb_spec cur 0) as [->|Hcur].
  - exists l, 0. repeat split; auto. intros i x y Hi. apply I1; lia.
  - destruct (Nat.eqb_spec k 0) as [|_]; [lia|].
    pose proof (parent_lt k cur Hk ltac:(lia)) as Hp.
    set (p := par cur) in *.
    destruct (rd_lt l p) as (yv & Hy & ->); [lia|].
    destruct (rd_lt l cur) as (xv & Hx & ->); [lia|]. cbn [bind].
    destruct (comp yv xv) eqn:E.
    + rewrite (ex_swap _ EX _ _ _ _ _ (Nat.neq_sym _ _ (Nat.lt_neq _ _ Hp)) Hx Hy). cbn [bind].
      set (l1 := upd (upd l cur yv) p xv).
      assert (Hl1 : forall i, nth_error l1 i =
        if Nat.eqb i p then Some xv else if Nat.eqb i cur then Some yv else nth_error l i)
        by (intros i; apply swap_at_nth; auto).
      assert (Hlen : length l1 = length l) by (unfold l1; now rewrite !upd_length).
      destruct (IH l1 p) as (l' & c' & R & Hh & HP & Hle & _ & Hfr); try lia.
      * (* invariant at p *)
        assert (Hge : comp xv yv = false) by (apply (swo_asym comp SWO); auto).
        split.
        -- intros i Hi Hne x y Hix Hiy.
           rewrite Hl1 in Hix, Hiy.
           destruct (Nat.eqb_spec i p) as [|_]; [lia|].
           destruct (Nat.eqb_spec i cur) as [->|Hic].
           ++ fold p in Hiy. rewrite Nat.eqb_refl in Hiy. congruence.
           ++ destruct (Nat.eqb_spec (par i) p) as [Ep|Ep].
              ** injection Hiy as <-.
                 assert (comp yv x = false) as H
                   by (apply (I1 i); auto; rewrite Ep; auto).
                 apply (gt_ge comp SWO) with yv; auto.
              ** destruct (Nat.eqb_spec (par i) cur) as [Ec|Ec].
                 --- injection Hiy as <-. apply (I2 i x yv); auto; lia.
                 --- apply (I1 i); auto.
        -- intros i x y Hp0 Hi Hpi Hix Hiy.
           rewrite Hl1 in Hix, Hiy.
           pose proof (parent_lt k p Hk Hp0) as Hpp.
           destruct (Nat.eqb_spec (par p) p) as [|_]; [lia|].
           destruct (Nat.eqb_spec (par p) cur) as [|_]; [lia|].
           assert (Hgp : comp y yv = false) by (apply (I1 p); auto; lia).
           destruct (Nat.eqb_spec i p) as [->|Hip].
           { pose proof (parent_lt k p Hk Hp0). lia. }
           destruct (Nat.eqb_spec i cur) as [->|Hic].
           ++ injection Hix as <-. exact Hgp.
           ++ apply (ge_trans comp SWO) with yv; auto.
              apply (I1 i); auto. rewrite Hpi; auto.
      * exists l', c'. split; [exact R|]. split; [exact Hh|]. split; [|split; [lia|split; [lia|]]].
        -- rewrite <- HP. apply swap_perm; auto.
        -- intros i Hi. rewrite Hfr by lia. rewrite Hl1.
           destruct (Nat.eqb_spec i p); [lia|]. destruct (Nat.eqb_spec i cur); [lia|]. reflexivity.
    + exists l, cur. repeat split; auto.
      intros i x y Hi Hix Hiy.
      destruct (Nat.eq_dec i cur) as [->|Hic].
      * fold p in Hiy. congruence.
      * apply (I1 i); auto.
Qed.

(* [n] elements, the first [n-1] of which form a heap. *)
Lemma restore_up_spec l n :
  0 < n <= length l -> is_heap comp k (n - 1) l ->
  exists l' b, restore_up swp comp k l n = Ok (l', b) /\
    is_heap comp k n l' /\ Permutation l l' /\ (b = true -> l' = l) /\
    (forall i, n <= i -> nth_error l' i = nth_error l i).
Proof.
  intros Hn Hh. destruct n as [|m]; [lia|]. cbn [restore_up].
  destruct (restore_up_loop_spec (S m) (S m) l m) as (l' & c' & R & H1 & H2 & H3 & H4 & H5); try lia.
  - split.
    + intros i Hi Hne x y. apply Hh. lia.
    + intros i x y Hm Hi Hpi Hx Hy.
      assert ((i - 1) / k < i) by (apply parent_lt; lia). lia.
  - rewrite R. cbn [bind fst snd]. exists l', (Nat.eqb c' m). split; [reflexivity|].
    split; [auto|]. split; [auto|]. split; [|auto].
    intros Hb. apply Nat.eqb_eq in Hb. auto.
Qed.

(* ---------------- max_element ---------------- *)

Lemma max_element_loop_spec l : forall m largest first,
  largest < first -> first + m <= length l ->
  exists r, max_element_loop comp m l largest first = Ok r /\
    (r = largest \/ first <= r < first + m) /\
    (forall x y, nth_error l r = Some x ->
       (nth_error l largest = Some y -> comp x y = false) /\
       (forall i, first <= i < first + m -> nth_error l i = Some y -> comp x y = false)).
Proof.
  induction m as [|m IH]; intros largest first Hlt Hlen; cbn [max_element_loop].
  - exists largest. split; auto. split; auto. intros x y Hx; split.
    + intros Hy. assert (x = y) by congruence. subst. apply (ge_refl comp SWO).
    + intros i Hi; lia.
  - destruct (rd_lt l largest) as (xv & Hx & ->); [lia|].
    destruct (rd_lt l first) as (yv & Hy & ->); [lia|]. cbn [bind].
    destruct (IH (if comp xv yv then first else largest) (S first)) as (r & R & Hr & Hm).
    { destruct (comp xv yv); lia. } { lia. }
    exists r. split; [exact R|]. split.
    { destruct Hr as [->|Hr]; [destruct (comp xv yv)|]; lia. }
    intros x y Hrx.
    destruct (Hm x y Hrx) as [_ Hm2].
    assert (Hchosen : forall z, nth_error l (if comp xv yv then first else largest) = Some z ->
              comp x z = false) by (intros z Hz; destruct (Hm x z Hrx) as [H _]; auto).
    destruct (comp xv yv) eqn:E.
    + assert (Hxy : comp x yv = false) by auto.
      assert (Hge : comp yv xv = false) by (apply (swo_asym comp SWO); auto).
      split.
      * intros Hl. assert (y = xv) by congruence; subst y.
        apply (ge_trans comp SWO) with yv; auto.
      * intros i Hi Hiy. destruct (Nat.eq_dec i first) as [->|Hne].
        -- assert (y = yv) by congruence; subst; auto.
        -- apply (Hm2 i); auto; lia.
    + assert (Hxx : comp x xv = false) by auto.
      split.
      * intros Hl. assert (y = xv) by congruence; subst; auto.
      * intros i Hi Hiy. destruct (Nat.eq_dec i first) as [->|Hne].
        -- assert (y = yv) by congruence; subst. apply (ge_trans comp SWO) with xv; auto.
        -- apply (Hm2 i); auto; lia.
Qed.

Lemma max_element_spec l first last :
  first < last -> last <= length l ->
  exists r, max_element comp l first last = Ok r /\ first <= r < last /\
    (forall x y i, nth_error l r = Some x -> first <= i < last ->
       nth_error l i = Some y -> comp x y = false).
Proof.
  intros H1 H2. unfold max_element.
  destruct (Nat.eqb_spec first last); [lia|].
  destruct (Nat.ltb_spec last first); [lia|].
  destruct (max_element_loop_spec l (last - first - 1) first (S first)) as (r & R & Hr & Hm); try lia.
  exists r. split; [exact R|]. split; [lia|].
  intros x y i Hx Hi Hy. destruct (Hm x y Hx) as [Ha Hb].
  destruct (Nat.eq_dec i first) as [->|Hne]; [apply Ha; auto|].
  apply (Hb i); auto; lia.
Qed.

(* ---------------- restore_down ---------------- *)

(* All edges whose parent index is at least [s] hold, except those below [cur];
   and the parent of cur (if >= s) dominates cur's children. *)
Definition down_inv (s n : nat) (l : list A) (cur : nat) : Prop :=
  (forall i, 0 < i < n -> s <= par i -> par i <> cur -> edge_ok l i) /\
  (forall i x y, 0 < cur -> 0 < i < n -> par i = cur -> s <= par cur ->
     nth_error l i = Some x -> nth_error l (par cur) = Some y -> comp y x = false).

Lemma restore_down_spec s n : forall fuel l cur,
  n - cur < fuel -> s <= cur -> n <= length l -> down_inv s n l cur ->
  exists l', restore_down swp comp k fuel l n cur = Ok l' /\
    (forall i, 0 < i < n -> s <= par i -> edge_ok l' i) /\
    Permutation l l' /\
    (forall i, i < s \/ n <= i -> nth_error l' i = nth_error l i).
Proof.
  induction fuel as [|fuel IH]; intros l cur Hf Hs Hn [I1 I2]; [lia|].
  cbn [restore_down].
  destruct (Nat.leb_spec n (cur * k + 1)) as [Hleaf|Hnl].
  - exists l. split; auto. split; [|split; auto].
    intros i Hi Hsi. apply I1; auto.
    intros E. apply parent_iff in E; lia.
  - assert (Hcn : cur < n) by nia.
    destruct (max_element_spec l (cur * k + 1) (Nat.min (cur * k + 1 + k) n))
      as (r & -> & Hr & Hmax); [lia|lia|]. cbn [bind].
    destruct (rd_lt l cur) as (xv & Hx & ->); [lia|].
    destruct (rd_lt l r) as (yv & Hy & ->); [lia|]. cbn [bind].
    assert (Hpr : par r = cur) by (apply parent_iff; lia).
    assert (Hcr : cur < r) by nia.
    assert (Hch : forall i x, 0 < i < n -> par i = cur -> nth_error l i = Some x ->
              comp yv x = false).
    { intros i x Hi Hpi Hix. apply parent_iff in Hpi; [|lia|lia].
      apply (Hmax yv x i); auto. lia. }
    destruct (comp xv yv) eqn:E.
    + rewrite (ex_swap _ EX _ _ _ _ _ (Nat.neq_sym _ _ (Nat.lt_neq _ _ Hcr)) Hy Hx). cbn [bind].
      set (l1 := upd (upd l r xv) cur yv).
      assert (Hl1 : forall i, nth_error l1 i =
        if Nat.eqb i cur then Some yv else if Nat.eqb i r then Some xv else nth_error l i)
        by (intros i; apply swap_at_nth; auto).
      assert (Hlen : length l1 = length l) by (unfold l1; now rewrite !upd_length).
      destruct (IH l1 r) as (l' & R & Hh & HP & Hfr); try lia.
      * split.
        -- intros i Hi Hsi Hpi x y Hix Hiy. rewrite Hl1 in Hix, Hiy.
           destruct (Nat.eqb_spec i cur) as [->|Hic].
           ++ (* edge (par cur, cur) : par cur >= s *)
              injection Hix as <-.
              assert (par cur < cur) by (apply parent_lt; lia).
              destruct (Nat.eqb_spec (par cur) cur); [lia|].
              destruct (Nat.eqb_spec (par cur) r); [lia|].
              apply (I2 r yv y); auto; lia.
           ++ destruct (Nat.eqb_spec i r) as [->|Hir].
              ** rewrite Hpr, Nat.eqb_refl in Hiy. injection Hix as <-. injection Hiy as <-.
                 apply (swo_asym comp SWO); auto.
              ** destruct (Nat.eqb_spec (par i) cur) as [Ec|Ec].
                 --- injection Hiy as <-. apply (Hch i); auto.
                 --- destruct (Nat.eqb_spec (par i) r); [lia|]. apply (I1 i); auto.
        -- intros i x y Hr0 Hi Hpi Hsp Hix Hiy. rewrite Hl1 in Hix, Hiy.
           rewrite Hpr, Nat.eqb_refl in Hiy. injection Hiy as <-.
           assert (par i < i) by (apply parent_lt; lia).
           destruct (Nat.eqb_spec i cur); [lia|].
           destruct (Nat.eqb_spec i r); [lia|].
           apply (I1 i); auto; try lia. rewrite Hpi; auto.
      * exists l'. split; [exact R|]. split; [exact Hh|]. split.
        -- rewrite <- HP. apply swap_perm; auto.
        -- intros i Hi. rewrite Hfr by lia. rewrite Hl1.
           destruct (Nat.eqb_spec i cur); [lia|]. destruct (Nat.eqb_spec i r); [lia|]. reflexivity.
    + exists l. split; auto. split; [|split; auto].
      intros i Hi Hsi x y Hix Hiy.
      destruct (Nat.eq_dec (par i) cur) as [Ec|Ec].
      * rewrite Ec in Hiy. assert (y = xv) by congruence; subst y.
        apply (ge_trans comp SWO) with yv; auto. apply (Hch i); auto.
      * apply (I1 i); auto.
Qed.

(* ---------------- pop ---------------- *)

Lemma heap_root_greatest n l m :
  is_heap comp k n l -> n <= length l -> nth_error l 0 = Some m ->
  forall i x, i < n -> nth_error l i = Some x -> comp m x = false.
Proof.
  intros Hh Hn H0. induction i as [i IH] using lt_wf_ind. intros x Hi Hx.
  destruct (Nat.eq_dec i 0) as [->|Hi0].
  - assert (x = m) by congruence; subst. apply (ge_refl comp SWO).
  - assert (Hp : par i < i) by (apply parent_lt; lia).
    destruct (rd_lt l (par i)) as (y & Hy & _); [lia|].
    apply (ge_trans comp SWO) with y.
    + apply (IH (par i)); auto; lia.
    + apply (Hh i x y); auto; lia.
Qed.

Lemma heap_pop_spec l n m :
  2 <= n \/ keeps_self swp -> 0 < n <= length l -> is_heap comp k n l -> nth_error l 0 = Some m ->
  exists l', heap_pop swp comp k l n = Ok l' /\
    is_heap comp k (n - 1) l' /\ Permutation l l' /\
    nth_error l' (n - 1) = Some m /\
    (forall i, n <= i -> nth_error l' i = nth_error l i).
Proof.
  intros Hself Hn Hh H0. destruct n as [|n']; [lia|]. cbn [heap_pop].
  destruct (rd_lt l n') as (z & Hz & _); [lia|].
  assert (Rsw : swp l 0 n' = Ok (upd (upd l 0 z) n' m)).
  { destruct (Nat.eq_dec n' 0) as [->|Hn0].
    - destruct Hself as [Hs|Hs]; [lia|]. rewrite (Hs _ _ _ H0).
      assert (z = m) by congruence; subst z. now rewrite !(upd_same l 0 m H0).
    - apply (ex_swap _ EX); auto. }
  rewrite Rsw. cbn [bind].
  set (l1 := upd (upd l 0 z) n' m).
  assert (Hl1 : forall i, nth_error l1 i =
        if Nat.eqb i n' then Some m else if Nat.eqb i 0 then Some z else nth_error l i)
    by (intros i; apply swap_at_nth; auto).
  assert (Hlen : length l1 = length l) by (unfold l1; now rewrite !upd_length).
  destruct (restore_down_spec 0 n' (S (S n')) l1 0) as (l' & R & H1 & H2 & H3); try lia.
  - split.
    + intros i Hi _ Hpi x y Hix Hiy. rewrite Hl1 in Hix, Hiy.
      assert (par i < i) by (apply parent_lt; lia).
      destruct (Nat.eqb_spec i n'); [lia|]. destruct (Nat.eqb_spec i 0); [lia|].
      destruct (Nat.eqb_spec (par i) n'); [lia|]. destruct (Nat.eqb_spec (par i) 0); [lia|].
      apply (Hh i); auto; lia.
    + intros; lia.
  - exists l'. split; [exact R|]. replace (S n' - 1) with n' by lia. split; [|split; [|split]].
    + intros i x y Hi. apply H1; auto; lia.
    + rewrite <- H2. apply swap_perm; auto.
    + rewrite H3 by lia. rewrite Hl1, Nat.eqb_refl. reflexivity.
    + intros i Hi. rewrite H3 by lia. rewrite Hl1.
      destruct (Nat.eqb_spec i n'); [lia|]. destruct (Nat.eqb_spec i 0); [lia|]. reflexivity.
Qed.

(* ---------------- make ---------------- *)

Lemma make_loop_spec n : forall i l,
  n <= length l ->
  (forall j, 0 < j < n -> S i <= par j -> edge_ok l j) ->
  exists l', make_loop swp comp k l n i = Ok l' /\
    (forall j, 0 < j < n -> edge_ok l' j) /\ Permutation l l' /\
    (forall j, n <= j -> nth_error l' j = nth_error l j).
Proof.
  induction i as [|i IH]; intros l Hn Hinv.
  - destruct (restore_down_spec 0 n (S n) l 0) as (l1 & R & H1 & H2 & H3); try lia.
    + split; [|intros; lia]. intros j Hj _ Hpj. apply Hinv; auto; lia.
    + cbn [make_loop]. rewrite R. cbn [bind]. exists l1. split; auto. split; auto.
      intros j Hj. apply H1; auto; lia.
  - destruct (restore_down_spec (S i) n (S n) l (S i)) as (l1 & R & H1 & H2 & H3); try lia.
    + split.
      * intros j Hj Hsj Hpj. apply Hinv; auto; lia.
      * intros j x y H0 Hj Hpj Hs Hx Hy.
        assert (par (S i) < S i) by (apply parent_lt; lia). lia.
    + cbn [make_loop]. rewrite R. cbn [bind].
      destruct (IH l1) as (l2 & R2 & G1 & G2 & G3).
      * rewrite <- (Permutation_length H2). exact Hn.
      * intros j Hj Hsj. apply H1; auto.
      * exists l2. split; auto. split; auto. split.
        -- now rewrite H2.
        -- intros j Hj. rewrite G3 by auto. apply H3; auto.
Qed.

Lemma heap_make_spec l n :
  0 < n <= length l ->
  exists l', heap_make swp comp k l n = Ok l' /\ is_heap comp k n l' /\ Permutation l l' /\
    (forall j, n <= j -> nth_error l' j = nth_error l j).
Proof.
  intros Hn. unfold heap_make.
  destruct (Nat.eqb_spec n 0); [lia|]. destruct (Nat.eqb_spec k 0); [lia|].
  destruct (make_loop_spec n ((n - 1) / k) l) as (l' & R & H1 & H2 & H3); try lia.
  - intros j Hj Hpj.
    assert (par j <= (n - 1) / k) by (apply Nat.div_le_mono; lia). lia.
  - exists l'. split; auto. split; auto. intros i x y Hi. apply H1; auto.
Qed.
End Proofs.

(* ---------------- the free functions ---------------- *)

Lemma push_heap_correct {A} (swp : swapper A) (comp : A -> A -> bool) (l : list A) :
  exchanges swp -> strict_weak_order comp -> l <> [] -> is_heap comp 2 (length l - 1) l ->
  exists l', push_heap swp comp l = Ok l' /\ is_heap comp 2 (length l') l' /\ Permutation l l'.
Proof.
  intros EX SWO Hne Hh. unfold push_heap.
  destruct l as [|a t]; [congruence|].
  destruct (restore_up_spec swp EX comp SWO 2 ltac:(lia) (a :: t) (length (a :: t)))
    as (l' & b & R & H1 & H2 & _ & _); [simpl; lia|exact Hh|].
  rewrite R. cbn [bind fst]. exists l'. split; auto. split; auto.
  rewrite <- (Permutation_length H2). exact H1.
Qed.


Lemma removelast_nth {A} (l : list A) i :
  i < length l - 1 -> nth_error (removelast l) i = nth_error l i.
Proof.
  revert i; induction l as [|a t IH]; intros i Hi; [simpl in Hi; lia|].
  destruct t as [|b t]; [simpl in Hi; lia|].
  destruct i as [|i]; [reflexivity|]. cbn [removelast nth_error]. apply IH.
  simpl in *; lia.
Qed.

Lemma removelast_length {A} (l : list A) : length (removelast l) = length l - 1.
Proof.
  induction l as [|a t IH]; [reflexivity|].
  destruct t as [|b t]; [reflexivity|]. cbn [removelast length] in *. lia.
Qed.

Lemma removelast_app_last {A} (l : list A) m :
  l <> [] -> nth_error l (length l - 1) = Some m -> l = removelast l ++ [m].
Proof.
  intros Hne Hm. rewrite (app_removelast_last m Hne) at 1. f_equal. f_equal.
  rewrite (app_removelast_last m Hne) in Hm.
  rewrite app_length, removelast_length in Hm. simpl in Hm.
  rewrite nth_error_app2 in Hm; rewrite removelast_length in *; [|lia].
  replace (length l - 1 + 1 - 1 - (length l - 1)) with 0 in Hm by lia.
  simpl in Hm. congruence.
Qed.

Lemma is_heap_removelast {A} (comp : A -> A -> bool) k (l : list A) :
  1 <= k -> is_heap comp k (length l - 1) l ->
  is_heap comp k (length (removelast l)) (removelast l).
Proof.
  intros Hk H i x y Hi Hx Hy. rewrite removelast_length in Hi.
  assert ((i - 1) / k < i) by (apply parent_lt; lia).
  rewrite removelast_nth in Hx, Hy by lia. apply (H i); auto.
Qed.

(* ---------------- priority queue ---------------- *)

Lemma is_heap_app {A} (comp : A -> A -> bool) k (l l2 : list A) :
  1 <= k -> is_heap comp k (length l) l -> is_heap comp k (length l) (l ++ l2).
Proof.
  intros Hk H i x y Hi Hx Hy.
  assert ((i - 1) / k < i) by (apply parent_lt; lia).
  rewrite nth_error_app1 in Hx, Hy by lia. apply (H i); auto.
Qed.

Lemma pq_push_correct {A} (swp : swapper A) (comp : A -> A -> bool) cap (c : list A) v :
  exchanges swp -> strict_weak_order comp -> is_heap comp 2 (length c) c -> length c < cap ->
  exists c', pq_push swp comp cap c v = Ok c' /\ is_heap comp 2 (length c') c' /\
    Permutation (v :: c) c'.
Proof.
  intros EX SWO Hh Hc. unfold pq_push.
  destruct (Nat.leb_spec cap (length c)); [lia|].
  destruct (push_heap_correct swp comp (c ++ [v]) EX SWO) as (c' & R & H1 & H2).
  - destruct c; discriminate.
  - rewrite app_length. simpl. replace (length c + 1 - 1) with (length c) by lia.
    apply is_heap_app; auto.
  - exists c'. split; auto. split; auto. rewrite <- H2. apply Permutation_cons_append.
Qed.

Lemma pq_pop_correct {A} (swp : swapper A) (comp : A -> A -> bool) (c : list A) :
  exchanges swp -> strict_weak_order comp -> is_heap comp 2 (length c) c -> c <> [] ->
  exists t c', pq_top c = Ok t /\ pq_pop swp comp c = Ok c' /\
    is_heap comp 2 (length c') c' /\ Permutation c (t :: c') /\ greatest comp t c.
Proof.
  intros EX SWO Hh Hne. destruct c as [|t r]; [congruence|].
  destruct r as [|t2 r].
  { (* a single element: swapped with itself, then dropped *)
    exists t, []. split; [reflexivity|]. split; [|split; [|split; [|split]]].
    - unfold pq_pop, pop_heap. cbn [length heap_pop].
      destruct (ex_self _ EX [t] 0 t eq_refl) as (y & ->). reflexivity.
    - intros i x y Hi; simpl in Hi; lia.
    - reflexivity.
    - now left.
    - intros x [<-|[]]. apply (ge_refl comp SWO). }
  set (c := t :: t2 :: r) in *.
  assert (H0 : nth_error c 0 = Some t) by reflexivity.
  assert (Hlen : 2 <= length c) by (simpl; lia).
  destruct (heap_pop_spec swp EX comp SWO 2 ltac:(lia) c (length c) t) as (l' & R & H1 & H2 & H3 & _);
    [left; lia|lia|exact Hh|exact H0|].
  assert (Hl' : length l' = length c) by (symmetry; now apply Permutation_length).
  assert (Hl'ne : l' <> []) by (destruct l'; simpl in *; [lia|congruence]).
  exists t, (removelast l'). split; [reflexivity|]. split; [|split; [|split; [|split]]].
  - unfold pq_pop, pop_heap. rewrite R. cbn [bind]. destruct l'; [congruence|reflexivity].
  - apply is_heap_removelast; [lia|]. rewrite Hl'. exact H1.
  - rewrite H2. rewrite (removelast_app_last l' t Hl'ne) at 1.
    + symmetry. apply Permutation_cons_append.
    + rewrite Hl'. exact H3.
  - left; reflexivity.
  - intros x Hx. destruct (In_nth_error _ _ Hx) as [i Hi].
    apply (heap_root_greatest comp SWO 2 ltac:(lia) (length c) c t Hh ltac:(lia) H0 i); auto.
    apply nth_error_Some. congruence.
Qed.

Lemma bag_run_perm {A} (comp : A -> A -> bool) b h b' b0 :
  bag_run comp b h b' -> Permutation b0 b -> bag_run comp b0 h b'.
Proof.
  intros H. revert b0.
  induction H as [b b' HP|b v h b' H IH|b m rest h b' HP Hg H IH]; intros b0 P0.
  - constructor. now rewrite P0.
  - constructor. apply IH. now apply perm_skip.
  - apply bag_pop with m rest.
    + now rewrite P0.
    + destruct Hg as [Hin Hg]. split.
      * apply (Permutation_in m (Permutation_sym P0)). exact Hin.
      * intros x Hx. apply Hg. apply (Permutation_in x P0). exact Hx.
    + exact H.
Qed.

Lemma pq_run_correct {A} (swp : swapper A) (comp : A -> A -> bool) cap os : forall (c : list A),
  exchanges swp -> strict_weak_order comp -> is_heap comp 2 (length c) c -> length c <= cap ->
  pq_legal cap (length c) os = true ->
  exists c', pq_run swp comp cap c os = Ok c' /\ is_heap comp 2 (length c') c' /\
    length c' <= cap /\ bag_run comp c (map op_to_bag os) c'.
Proof.
  induction os as [|o os IH]; intros c EX SWO Hh Hcap HL.
  - exists c. simpl. repeat split; auto. constructor. reflexivity.
  - destruct o as [v|]; cbn [pq_legal] in HL; apply andb_prop in HL; destruct HL as [HL1 HL2];
      apply Nat.ltb_lt in HL1; cbn [pq_run pq_step map op_to_bag].
    + destruct (pq_push_correct swp comp cap c v EX SWO Hh HL1) as (c1 & -> & H1 & H2). cbn [bind].
      assert (Hl : length c1 = S (length c)) by (rewrite <- (Permutation_length H2); reflexivity).
      destruct (IH c1) as (c' & R & G1 & G2 & G3); auto; try lia.
      { now rewrite Hl. }
      exists c'. split; auto. split; auto. split; auto. constructor.
      eapply bag_run_perm; eauto.
    + destruct (pq_pop_correct swp comp c EX SWO Hh) as (t & c1 & Ht & -> & H1 & H2 & H3).
      { destruct c; simpl in *; [lia|congruence]. }
      cbn [bind].
      assert (Hl : S (length c1) = length c) by (rewrite (Permutation_length H2); reflexivity).
      destruct (IH c1) as (c' & R & G1 & G2 & G3); auto; try lia.
      { replace (length c1) with (length c - 1) by lia. exact HL2. }
      exists c'. split; auto. split; auto. split; auto.
      apply bag_pop with t c1; auto.
Qed.

Lemma pq_drain_correct {A} (swp : swapper A) (comp : A -> A -> bool) : forall n (c : list A),
  exchanges swp -> strict_weak_order comp -> is_heap comp 2 (length c) c -> length c <= n ->
  exists out, pq_drain swp comp n c = Ok out /\ Permutation c out /\ priority_sorted comp out.
Proof.
  induction n as [|n IH]; intros c EX SWO Hh Hn.
  - destruct c; [|simpl in Hn; lia]. exists []. repeat split; constructor.
  - destruct c as [|a t].
    + exists []. repeat split; constructor.
    + set (c := a :: t) in *.
      destruct (pq_pop_correct swp comp c EX SWO Hh) as (m & c1 & Ht & R & H1 & H2 & [Hin H3]);
        [discriminate|].
      assert (length c = S (length c1)) by (rewrite (Permutation_length H2); reflexivity).
      destruct (IH c1) as (out & R2 & G1 & G2); auto; [lia|].
      exists (m :: out). cbn [pq_drain]. change (pq_empty c) with false.
      rewrite Ht, R. cbn [bind]. rewrite R2. cbn [bind].
      split; auto. split.
      * rewrite H2. now apply perm_skip.
      * split; auto. intros y Hy. apply H3.
        apply (Permutation_in y (Permutation_sym H2)). right.
        apply (Permutation_in y (Permutation_sym G1)). exact Hy.
Qed.

(* ---------------- erase ---------------- *)

Lemma removelast_upd_perm {A} (c : list A) i b v :
  nth_error c (length c - 1) = Some b -> nth_error c i = Some v ->
  Permutation c (v :: removelast (upd c i b)).
Proof.
  intros Hb Hv.
  assert (Hne : c <> []) by (destruct c; [destruct i; discriminate|congruence]).
  assert (Hi : i < length c) by (apply nth_error_Some; congruence).
  assert (Hupd : nth_error (upd c i b) (length c - 1) = Some b).
  { rewrite nth_error_upd. destruct (Nat.eqb_spec i (length c - 1)); auto.
    destruct (Nat.ltb_spec i (length c)); [auto|lia]. }
  assert (Hune : upd c i b <> []).
  { intros E. apply (f_equal (@length A)) in E. rewrite upd_length in E.
    destruct c; simpl in *; [congruence|lia]. }
  apply (Permutation_cons_inv (a := b)).
  transitivity (v :: upd c i b); [apply upd_perm; auto|].
  rewrite (removelast_app_last (upd c i b) b Hune) at 1 by (now rewrite upd_length).
  transitivity (v :: b :: removelast (upd c i b)).
  - apply perm_skip. symmetry. apply Permutation_cons_append.
  - apply perm_swap.
Qed.

Lemma pq_erase_correct {A} (swp : swapper A) (comp : A -> A -> bool) (c : list A) i v :
  exchanges swp -> strict_weak_order comp -> nth_error c i = Some v -> 2 <= length c ->
  exists c', pq_erase swp comp c i = Ok c' /\ is_heap comp 2 (length c') c' /\
    Permutation c (v :: c').
Proof.
  intros EX SWO Hv Hlen.
  assert (Hi : i < length c) by (apply nth_error_Some; congruence).
  destruct (rd_lt c (length c - 1)) as (b & Hb & Rb); [lia|].
  destruct (heap_make_spec swp EX comp SWO 2 ltac:(lia) (removelast (upd c i b))
              (length (removelast (upd c i b)))) as (c' & R & H1 & H2 & _).
  { rewrite removelast_length, upd_length. lia. }
  exists c'. split; [|split].
  - unfold pq_erase. destruct c as [|a t] eqn:Ec; [simpl in *; lia|]. rewrite <- Ec in *.
    rewrite Rb. cbn [bind]. rewrite wr_ok by lia. cbn [bind]. exact R.
  - rewrite <- (Permutation_length H2). exact H1.
  - rewrite (removelast_upd_perm c i b v Hb Hv). now apply perm_skip.
Qed.

Lemma find_if_idx_spec {A} (f : A -> bool) (l : list A) :
  (find_if_idx f l = length l /\ forall x, In x l -> f x = false) \/
  (exists v, nth_error l (find_if_idx f l) = Some v /\ f v = true /\
     find_if_idx f l < length l /\
     forall j y, j < find_if_idx f l -> nth_error l j = Some y -> f y = false).
Proof.
  induction l as [|a t IH]; cbn [find_if_idx].
  - left; split; [reflexivity|]. intros x [].
  - destruct (f a) eqn:Ha.
    + right. exists a. repeat split; auto; simpl; try lia.
    + destruct IH as [[E H]|(v & H1 & H2 & H3 & H4)].
      * left. simpl. split; [lia|]. intros x [<-|Hx]; auto.
      * right. exists v. simpl. repeat split; auto; [lia|].
        intros [|j] y Hj Hy; simpl in *; [congruence|]. apply (H4 j); auto; lia.
Qed.

Lemma pq_erase_if_correct {A} (swp : swapper A) (comp : A -> A -> bool) (c : list A) f :
  exchanges swp -> strict_weak_order comp -> length c <> 1 -> is_heap comp 2 (length c) c ->
  exists c' r, pq_erase_if swp comp c f = Ok (c', r) /\ is_heap comp 2 (length c') c' /\
    (r = true <-> exists x, In x c /\ f x = true) /\
    (r = false -> c' = c) /\
    (r = true -> exists v, f v = true /\ Permutation c (v :: c')).
Proof.
  intros EX SWO Hlen Hh. unfold pq_erase_if.
  destruct (find_if_idx_spec f c) as [[E H]|(v & H1 & H2 & H3 & _)].
  - rewrite E, Nat.eqb_refl. exists c, false. split; auto. split; auto. split; [|split; [auto|discriminate]].
    split; [discriminate|]. intros (x & Hx & Hf). rewrite H in Hf; auto.
  - destruct (Nat.eqb_spec (find_if_idx f c) (length c)); [lia|].
    destruct (pq_erase_correct swp comp c (find_if_idx f c) v EX SWO H1) as (c' & -> & G1 & G2); [lia|].
    cbn [bind]. exists c', true. split; auto. split; auto. split; [|split; [discriminate|eauto]].
    split; auto. intros _. exists v. split; auto. eapply nth_error_In; eauto.
Qed.

(* emplace of an element that rises: the one it passed first ends up last *)
Lemma pq_emplace_rises {A} (swp : swapper A) (comp : A -> A -> bool) cap (c : list A) v y :
  exchanges swp -> strict_weak_order comp -> is_heap comp 2 (length c) c -> length c < cap ->
  nth_error c ((length c - 1) / 2) = Some y -> comp y v = true ->
  exists c', pq_emplace swp comp cap c v = Ok (c', y).
Proof.
  intros EX SWO Hh Hc Hy Hr. unfold pq_emplace, pq_push.
  destruct (Nat.leb_spec cap (length c)); [lia|].
  unfold push_heap, restore_up. rewrite app_length. simpl length.
  replace (length c + 1) with (S (length c)) by lia.
  assert (Hlast : nth_error (c ++ [v]) (length c) = Some v).
  { rewrite nth_error_app2 by lia. now rewrite Nat.sub_diag. }
  assert (E : length c <> 0).
  { intros E. destruct c; [|discriminate]. destruct ((length (@nil A) - 1) / 2); discriminate. }
  assert (Hp : (length c - 1) / 2 < length c) by (apply parent_lt; lia).
  set (p := (length c - 1) / 2) in *.
  change (restore_up_loop swp comp 2 (S (length c)) (c ++ [v]) (length c)) with
    (if Nat.eqb (length c) 0 then Ok (c ++ [v], length c) else
     a <- rd (c ++ [v]) p ;; b <- rd (c ++ [v]) (length c) ;;
     if comp a b then l' <- swp (c ++ [v]) (length c) p ;; restore_up_loop swp comp 2 (length c) l' p
     else Ok (c ++ [v], length c)).
  destruct (Nat.eqb_spec (length c) 0); [lia|].
  rewrite (rd_ok (c ++ [v]) p y) by (rewrite nth_error_app1; auto). cbn [bind].
  rewrite (rd_ok _ _ _ Hlast). cbn [bind]. rewrite Hr.
  assert (Hy' : nth_error (c ++ [v]) p = Some y) by (rewrite nth_error_app1; auto).
  rewrite (ex_swap _ EX _ _ _ _ _ (Nat.neq_sym _ _ (Nat.lt_neq _ _ Hp)) Hlast Hy'). cbn [bind].
  set (l1 := upd (upd (c ++ [v]) (length c) y) p v).
  assert (Hl1 : forall i, nth_error l1 i =
    if Nat.eqb i p then Some v else if Nat.eqb i (length c) then Some y else nth_error (c ++ [v]) i)
    by (intros i; apply swap_at_nth; auto; lia).
  assert (Hlen : length l1 = S (length c)) by (unfold l1; rewrite !upd_length, app_length; simpl; lia).
  destruct (restore_up_loop_spec swp EX comp SWO 2 ltac:(lia) (S p) (length c) l1 p)
    as (l' & c' & R & _ & HP & _ & _ & Fr); try lia.
  { split.
    - intros i Hi Hne x z Hix Hiz.
      assert (Hpar : (i - 1) / 2 < i) by (apply parent_lt; lia).
      rewrite Hl1 in Hix, Hiz.
      destruct (Nat.eqb_spec i p); [lia|]. destruct (Nat.eqb_spec i (length c)); [lia|].
      destruct (Nat.eqb_spec ((i - 1) / 2) p); [lia|]. destruct (Nat.eqb_spec ((i - 1) / 2) (length c)); [lia|].
      rewrite nth_error_app1 in Hix, Hiz by lia. apply (Hh i x z); auto; lia.
    - intros i x z H0 Hi Hpi. pose proof (parent_lt 2 i ltac:(lia) ltac:(lia)). lia. }
  rewrite R. cbn [bind fst].
  assert (HL : length l' = S (length c)) by (rewrite <- (Permutation_length HP); exact Hlen).
  rewrite HL. replace (S (length c) - 1) with (length c) by lia.
  assert (Hz : nth_error l' (length c) = Some y).
  { rewrite Fr by lia. rewrite Hl1. destruct (Nat.eqb_spec (length c) p); [lia|]. now rewrite Nat.eqb_refl. }
  destruct l' as [|a l']; [discriminate|]. rewrite (rd_ok _ _ _ Hz). cbn [bind]. eauto.
Qed.

Lemma pq_emplace_value {A} (swp : swapper A) (comp : A -> A -> bool) cap (c : list A) v :
  exchanges swp -> strict_weak_order comp -> is_heap comp 2 (length c) c -> length c < cap ->
  (forall y, nth_error c ((length c - 1) / 2) = Some y -> comp y v = false) ->
  exists c', pq_emplace swp comp cap c v = Ok (c', v) /\ c' = c ++ [v].
Proof.
  intros EX SWO Hh Hc Hy. unfold pq_emplace, pq_push.
  destruct (Nat.leb_spec cap (length c)); [lia|].
  unfold push_heap, restore_up. rewrite app_length. simpl length.
  replace (length c + 1) with (S (length c)) by lia. cbn [restore_up_loop].
  assert (Hlast : nth_error (c ++ [v]) (length c) = Some v).
  { rewrite nth_error_app2 by lia. now rewrite Nat.sub_diag. }
  assert (Hfin : match c ++ [v] with [] => UB | _ :: _ => rd (c ++ [v]) (length (c ++ [v]) - 1) end
                 = Ok v).
  { rewrite app_length. simpl length. replace (length c + 1 - 1) with (length c) by lia.
    rewrite (rd_ok _ _ _ Hlast). destruct c; reflexivity. }
  destruct (Nat.eqb_spec (length c) 0) as [E|E].
  - cbn [bind fst]. rewrite Hfin. cbn [bind]. eauto.
  - replace (Nat.eqb 2 0) with false by reflexivity.
    assert (Hp : (length c - 1) / 2 < length c) by (apply parent_lt; lia).
    destruct (rd_lt c ((length c - 1) / 2)) as (y & Hpy & _); [exact Hp|].
    rewrite (rd_ok (c ++ [v]) ((length c - 1) / 2) y) by (rewrite nth_error_app1; auto).
    cbn [bind]. rewrite (rd_ok _ _ _ Hlast). cbn [bind].
    rewrite (Hy y Hpy). cbn [bind fst]. rewrite Hfin. cbn [bind]. eauto.
Qed.

(* ---------------- statements used by Properties_Heap.v ---------------- *)

Lemma push_heap_correct_k {A} (swp : swapper A) (comp : A -> A -> bool) (k n : nat) (l : list A) :
  exchanges swp -> strict_weak_order comp -> 1 <= k -> 0 < n <= length l -> is_heap comp k (n - 1) l ->
  exists l' unmoved, restore_up swp comp k l n = Ok (l', unmoved) /\
    is_heap comp k n l' /\ Permutation l l' /\ (unmoved = true -> l' = l) /\
    (forall i, n <= i -> nth_error l' i = nth_error l i).
Proof. intros EX SWO Hk. apply restore_up_spec; auto. Qed.

Lemma pop_heap_correct_k {A} (swp : swapper A) (comp : A -> A -> bool) (k n : nat) (l : list A) :
  exchanges swp -> strict_weak_order comp -> 2 <= n \/ keeps_self swp -> 1 <= k -> 0 < n <= length l ->
  is_heap comp k n l ->
  exists m l', nth_error l 0 = Some m /\ heap_pop swp comp k l n = Ok l' /\
    nth_error l' (n - 1) = Some m /\
    (forall i x, i < n -> nth_error l i = Some x -> comp m x = false) /\
    is_heap comp k (n - 1) l' /\ Permutation l l' /\
    (forall i, n <= i -> nth_error l' i = nth_error l i).
Proof.
  intros EX SWO Hself Hk Hn Hh. destruct (rd_lt l 0) as (m & Hm & _); [lia|].
  destruct (heap_pop_spec swp EX comp SWO k Hk l n m Hself Hn Hh Hm) as (l' & R & H1 & H2 & H3 & H4).
  exists m, l'. repeat split; auto.
  intros i x Hi Hx. apply (heap_root_greatest comp SWO k Hk n l m Hh ltac:(lia) Hm i x Hi Hx).
Qed.

Lemma pop_heap_correct {A} (swp : swapper A) (comp : A -> A -> bool) (l : list A) :
  exchanges swp -> strict_weak_order comp -> 2 <= length l \/ (l <> [] /\ keeps_self swp) -> is_heap comp 2 (length l) l ->
  exists m rest, pop_heap swp comp l = Ok (rest ++ [m]) /\ nth_error l 0 = Some m /\
    greatest comp m l /\ is_heap comp 2 (length rest) rest /\ Permutation l (rest ++ [m]).
Proof.
  intros EX SWO Hne Hh.
  assert (Hlen : 0 < length l) by (destruct Hne as [|[Hne _]]; [lia|destruct l; simpl; [congruence|lia]]).
  assert (Hself : 2 <= length l \/ keeps_self swp) by tauto.
  destruct (pop_heap_correct_k swp comp 2 (length l) l EX SWO Hself) as (m & l' & H0 & R & H1 & H2 & H3 & H4 & _);
    auto; try lia.
  assert (Hl' : length l' = length l) by (symmetry; now apply Permutation_length).
  assert (Hne' : l' <> []) by (destruct l'; simpl in *; [lia|congruence]).
  exists m, (removelast l').
  rewrite <- (removelast_app_last l' m Hne') by (rewrite Hl'; exact H1).
  split; [exact R|]. split; auto. split; [split|split; auto].
  - eapply nth_error_In; eauto.
  - intros x Hx. destruct (In_nth_error _ _ Hx) as [i Hi]. apply (H2 i); auto.
    apply nth_error_Some; congruence.
  - apply is_heap_removelast; [lia|]. now rewrite Hl'.
Qed.

Lemma pop_heap_class_types {A} (comp : A -> A -> bool) (l : list A) :
  strict_weak_order comp -> l <> [] -> is_heap comp 2 (length l) l ->
  exists m rest, pop_heap temp_swap comp l = Ok (rest ++ [m]) /\ nth_error l 0 = Some m /\
    greatest comp m l /\ is_heap comp 2 (length rest) rest /\ Permutation l (rest ++ [m]).
Proof.
  intros SWO Hne. apply pop_heap_correct; auto using temp_swap_exchanges, temp_swap_keeps_self.
Qed.

Lemma pop_heap_single_int comp x : pop_heap xor_swap comp [x] = Ok [0%Z].
Proof.
  unfold pop_heap. cbn [length heap_pop]. rewrite (xor_swap_self [x] 0 x eq_refl). reflexivity.
Qed.

Lemma make_heap_correct {A} (swp : swapper A) (comp : A -> A -> bool) (k : nat) (l : list A) :
  exchanges swp -> strict_weak_order comp -> 1 <= k -> l <> [] ->
  exists l', make_heap swp comp k l = Ok l' /\ is_heap comp k (length l') l' /\ Permutation l l'.
Proof.
  intros EX SWO Hk Hne.
  destruct (heap_make_spec swp EX comp SWO k Hk l (length l)) as (l' & R & H1 & H2 & _).
  { destruct l; simpl; [congruence|lia]. }
  exists l'. split; auto. split; auto. rewrite <- (Permutation_length H2). exact H1.
Qed.

Lemma bag_run_length {A} (comp : A -> A -> bool) os : forall (c c' : list A),
  bag_run comp c (map op_to_bag os) c' -> length c' + pops os = length c + pushes os.
Proof.
  induction os as [|[v|] os IH]; intros c c' H; simpl in H |- *; inversion H; subst.
  - match goal with P : Permutation _ _ |- _ => apply Permutation_length in P end. lia.
  - match goal with P : bag_run _ _ _ _ |- _ => apply IH in P end. simpl in *. lia.
  - match goal with P : bag_run _ _ _ _ |- _ => apply IH in P end.
    match goal with P : Permutation _ _ |- _ => apply Permutation_length in P end. simpl in *. lia.
Qed.

Lemma pq_history_correct {A} (swp : swapper A) (comp : A -> A -> bool) cap (os : list (pq_op A)) :
  exchanges swp -> strict_weak_order comp -> pq_legal cap 0 os = true ->
  exists c, pq_run swp comp cap [] os = Ok c /\
    bag_run comp [] (map op_to_bag os) c /\
    pq_size c + pops os = pushes os /\
    (pq_empty c = false -> exists t, pq_top c = Ok t /\ greatest comp t c) /\
    (exists out, pq_drain swp comp (pq_size c) c = Ok out /\ Permutation c out /\
       priority_sorted comp out).
Proof.
  intros EX SWO HL.
  destruct (pq_run_correct swp comp cap os [] EX SWO) as (c & R & H1 & H2 & H3); auto.
  { intros i x y Hi; simpl in Hi; lia. } { simpl; lia. }
  exists c. split; auto. split; auto. split; [|split].
  - apply bag_run_length in H3. simpl in H3. exact H3.
  - intros He. assert (Hne : c <> []) by (destruct c; [discriminate|congruence]).
    destruct (pq_pop_correct swp comp c EX SWO H1 Hne) as (t & c1 & Ht & _ & _ & _ & Hg). eauto.
  - apply pq_drain_correct; auto.
Qed.

Lemma pq_erase_last_ub {A} (swp : swapper A) (comp : A -> A -> bool) (x : A) f :
  f x = true -> pq_erase_if swp comp [x] f = UB.
Proof. intros H. unfold pq_erase_if. simpl. rewrite H. reflexivity. Qed.

(* Boolean check of is_heap, for the concrete examples. *)
Definition is_heapb {A} (comp : A -> A -> bool) (k n : nat) (l : list A) : bool :=
  forallb (fun i => match nth_error l i, nth_error l ((i - 1) / k) with
                    | Some x, Some y => negb (comp y x)
                    | _, _ => true
                    end) (seq 1 (n - 1)).

Lemma is_heapb_sound {A} (comp : A -> A -> bool) k n (l : list A) :
  is_heapb comp k n l = true -> is_heap comp k n l.
Proof.
  intros H i x y Hi Hx Hy. unfold is_heapb in H. rewrite forallb_forall in H.
  specialize (H i ltac:(apply in_seq; lia)). rewrite Hx, Hy in H.
  now apply negb_true_iff in H.
Qed.
