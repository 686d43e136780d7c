From Verif Require Import Base BaseLemmas Swap_Model Swap_Spec Swap_Proofs Tup_Model Tup_Spec.

(* ---------- sequences ---------- *)
Lemma at_index_nth {A} (l : list A) i : at_index i l = nth_error l i.
Proof. revert i; induction l as [|x r IH]; intros [|i]; simpl; auto. Qed.
Lemma match_count_occ t l : match_count t l = count_occ Nat.eq_dec l t.
Proof.
  induction l as [|x r IH]; simpl; auto. destruct (Nat.eqb_spec t x), (Nat.eq_dec x t); try congruence; lia.
Qed.
Lemma match_rest_lt t l r : match_rest t l = Some r -> r < length l.
Proof.
  induction l as [|x q IH]; simpl; [discriminate|]. destruct (Nat.eqb t x).
  - intros [= <-]; lia.
  - intros H. apply IH in H. lia.
Qed.
Lemma first_at_nil {A} (x : A) i : ~ first_at x [] i.
Proof. intros (H & _). now destruct i. Qed.
Lemma first_at_cons {A} (x y : A) l i :
  first_at x (y :: l) i <-> (i = 0 /\ y = x) \/ (y <> x /\ exists j, i = S j /\ first_at x l j).
Proof.
  split.
  - intros (H1 & H2). destruct i as [|j].
    + left. cbn in H1. split; congruence.
    + right. split.
      * intros ->. exact (H2 0 ltac:(lia) eq_refl).
      * exists j. split; [reflexivity|]. split; [exact H1|]. intros q Hq. apply (H2 (S q)). lia.
  - intros [(-> & ->)|(Hn & j & -> & H1 & H2)].
    + split; [reflexivity|]. intros j Hj; lia.
    + split; [exact H1|]. intros [|q] Hq; cbn; [congruence|]. apply H2. lia.
Qed.
Lemma first_index_ok t l i : first_index_of_type t l = Some i <-> first_at t l i.
Proof.
  revert i; induction l as [|x r IH]; intros i; unfold first_index_of_type; cbn [match_rest].
  - split; [discriminate|]. intros H. now apply first_at_nil in H.
  - rewrite first_at_cons. cbn [length]. destruct (Nat.eqb_spec t x) as [->|Hn].
    + replace (S (length r) - 1 - length r) with 0 by lia. split.
      * intros [= <-]. auto.
      * intros [(-> & _)|(C & _)]; [reflexivity|congruence].
    + unfold first_index_of_type in IH. destruct (match_rest t r) as [q|] eqn:E.
      * pose proof (match_rest_lt _ _ _ E). split.
        -- intros [= <-]. right. split; [congruence|]. exists (length r - 1 - q). split; [lia|].
           now apply IH.
        -- intros [(_ & C)|(_ & j & -> & H1)]; [congruence|]. apply IH in H1. injection H1 as <-. f_equal. lia.
      * split; [discriminate|]. intros [(_ & C)|(_ & j & -> & H1)]; [congruence|]. apply IH in H1. discriminate.
Qed.
Lemma first_index_none t l : first_index_of_type t l = None <-> ~ In t l.
Proof.
  unfold first_index_of_type. induction l as [|x r IH]; cbn [match_rest In].
  - tauto.
  - destruct (Nat.eqb_spec t x) as [->|Hn].
    + split; [discriminate|]. intros H; exfalso; apply H; auto.
    + destruct (match_rest t r) as [q|].
      * split; [discriminate|]. intros H. assert (~ In t r) by tauto. now apply IH in H0.
      * split; [|reflexivity]. intros _ [C|C]; [congruence|]. now apply (proj1 IH).
Qed.

Lemma items_app_pos {A} (x : A) (r : list A) n k :
  combine (seq n k) (x :: r) = match k with 0 => [] | S j => (n, x) :: combine (seq (S n) j) r end.
Proof. destruct k; reflexivity. Qed.

Lemma selector_ok {A} (eval : A -> nat -> bool) proj (l : list A) n :
  let c := filter (fun p => eval (snd p) (fst p)) (combine (seq n (length l)) l) in
  let z := selector (n + length l) eval proj l in
  sel_indices z = map fst c /\ sel_types z = map snd c /\
  sel_projected z = map (fun p => proj (snd p)) c /\
  sel_selected z = map (fun p => (fst p, proj (snd p))) c.
Proof.
  revert n; induction l as [|x r IH]; intros n; [now repeat split|].
  specialize (IH (S n)). cbn zeta in *. cbn [length]. rewrite items_app_pos. cbn [filter fst snd selector].
  replace (n + S (length r)) with (S n + length r) by lia.
  replace (S n + length r - 1 - length r) with n by lia.
  destruct IH as (I1 & I2 & I3 & I4).
  destruct (eval x n); cbn [map fst snd sel_indices sel_types sel_projected sel_selected].
  - rewrite I1, I2, I3, I4. now repeat split.
  - now repeat split.
Qed.
Lemma value_selector_ok {A} (eval : A -> nat -> bool) (l : list A) n :
  value_selector (n + length l) eval l =
  map snd (filter (fun p => eval (snd p) (fst p)) (combine (seq n (length l)) l)).
Proof.
  revert n; induction l as [|x r IH]; intros n; [reflexivity|].
  cbn [length]. rewrite items_app_pos. cbn [filter fst snd value_selector].
  replace (n + S (length r)) with (S n + length r) by lia.
  replace (S n + length r - 1 - length r) with n by lia.
  rewrite IH. destruct (eval x n); reflexivity.
Qed.
Lemma filter_le {A} (f : A -> bool) l : length (filter f l) <= length l.
Proof. induction l as [|x r IH]; cbn; auto. destruct (f x); cbn; lia. Qed.
Lemma filter_all {A} (f : A -> bool) l : length (filter f l) = length l <-> Forall (fun x => f x = true) l.
Proof.
  induction l as [|x r IH]; cbn; [split; constructor|].
  pose proof (filter_le f r).
  destruct (f x) eqn:E; cbn.
  - split.
    + intros Q. constructor; [exact E|]. apply IH. lia.
    + intros Q. inversion Q; subst. apply IH in H3. lia.
  - split; [lia|]. intros Q. inversion Q; congruence.
Qed.
Lemma items_length {A} (l : list A) : length (items l) = length l.
Proof. unfold items. rewrite combine_length, seq_length. lia. Qed.
Lemma nth_items {A} (l : list A) i : nth_error (items l) i = option_map (fun x => (i, x)) (nth_error l i).
Proof.
  unfold items. change i with (0 + i) at 2. generalize 0 as n.
  revert i; induction l as [|x r IH]; intros i n.
  - cbn. now destruct i.
  - cbn [length]. rewrite items_app_pos. destruct i as [|i]; cbn [nth_error option_map].
    + repeat f_equal. lia.
    + rewrite IH. replace (S n + i) with (n + S i) by lia. reflexivity.
Qed.
Lemma in_items {A} (l : list A) i x : In (i, x) (items l) <-> nth_error l i = Some x.
Proof.
  split.
  - intros H. apply In_nth_error in H. destruct H as (j & H). rewrite nth_items in H.
    destruct (nth_error l j) eqn:E; [|discriminate]. cbn in H. injection H as -> ->. exact E.
  - intros H. apply (nth_error_In _ i). rewrite nth_items, H. reflexivity.
Qed.
Lemma filter_pos_count {A} (f : A -> bool) (l : list A) n :
  length (filter (fun p => f (snd p)) (combine (seq n (length l)) l)) = length (filter f l).
Proof.
  revert n; induction l as [|x r IH]; intros n; [reflexivity|].
  cbn [length]. rewrite items_app_pos. cbn [filter snd]. destruct (f x); cbn [length]; now rewrite IH.
Qed.
Lemma count_filter {A} (dec : forall x y : A, {x = y} + {x <> y}) eqb v (l : list A) :
  (forall x y, eqb x y = true <-> x = y) -> length (filter (fun j => eqb v j) l) = count_occ dec l v.
Proof.
  intros He. induction l as [|x r IH]; cbn; auto. destruct (dec x v) as [->|Hn].
  - rewrite (proj2 (He v v) eq_refl). cbn. now rewrite IH.
  - destruct (eqb v x) eqn:E; [apply He in E; congruence|exact IH].
Qed.

Lemma make_integer_sequence_ok n is : make_integer_sequence n is = seq 0 n ++ is.
Proof.
  revert is; induction n as [|m IH]; intros is; [reflexivity|].
  cbn [make_integer_sequence]. rewrite IH. rewrite seq_S. cbn. now rewrite <- app_assoc.
Qed.
Lemma make_reverse_ok nn n is : n <= nn -> is = rev (seq 0 (nn - n)) ->
  make_reverse_integer_sequence nn n is = rev (seq 0 nn).
Proof.
  revert is; induction n as [|m IH]; intros is Hn ->; cbn [make_reverse_integer_sequence].
  - now rewrite Nat.sub_0_r.
  - apply IH; [lia|]. replace (nn - m) with (S (nn - S m)) by lia. rewrite seq_S, rev_app_distr. reflexivity.
Qed.
Lemma indices_reverser_ok {A} (l : list A) : indices_reverser l = rev l.
Proof. induction l as [|x r IH]; cbn; auto. unfold append. now rewrite IH. Qed.

Lemma are_trivial_ok trivial l : are_trivial trivial l = true <-> Forall (fun t => trivial t = true) l.
Proof.
  induction l as [|x r IH]; cbn; [split; auto|]. rewrite andb_true_iff, IH. split.
  - intros (A & B). now constructor.
  - intros H. inversion H; auto.
Qed.
Lemma are_same_ok t l : are_same t l = true <-> Forall (fun x => x = t) l.
Proof.
  unfold are_same. induction l as [|x r IH]; cbn; [split; auto|]. rewrite andb_true_iff, IH, Nat.eqb_eq. split.
  - intros (A & B). now constructor.
  - intros H. inversion H; auto.
Qed.
Lemma largest_from_ok size t l :
  (forall u, In u (t :: l) -> size u <= size (largest_from size t l)) /\
  exists pre post, t :: l = pre ++ largest_from size t l :: post /\
    forall u, In u pre -> size u < size (largest_from size t l).
Proof.
  revert t; induction l as [|u r IH]; intros t; cbn [largest_from].
  - split.
    + intros u [->|[]]. lia.
    + exists [], []. split; [reflexivity|]. intros u [].
  - destruct (Nat.leb_spec (size u) (size t)) as [L|L].
    + destruct (IH t) as (I1 & pre & post & I2 & I3). split.
      * intros v [->|[->|Hv]].
        -- apply I1; now left.
        -- pose proof (I1 t (or_introl eq_refl)). lia.
        -- apply I1; now right.
      * destruct pre as [|p pre]; cbn in I2; injection I2 as I2 I4.
        -- exists [], (u :: post). cbn. rewrite <- I2, I4. split; [reflexivity|]. intros v [].
        -- subst p. exists (t :: u :: pre), post. cbn. rewrite I4 at 1. split; [reflexivity|].
           intros v [->|[->|Hv]].
           ++ apply I3; now left.
           ++ pose proof (I3 t (or_introl eq_refl)). lia.
           ++ apply I3; now right.
    + destruct (IH u) as (I1 & pre & post & I2 & I3). split.
      * intros v [->|[->|Hv]].
        -- pose proof (I1 u (or_introl eq_refl)). lia.
        -- apply I1; now left.
        -- apply I1; now right.
      * exists (t :: pre), post. cbn. rewrite I2 at 1. split; [reflexivity|].
        intros v [->|Hv]; [|now apply I3]. pose proof (I1 u (or_introl eq_refl)). lia.
Qed.

(* ---------- visitors ---------- *)
Lemma takes_cons {A S} (f : functor A S) i x r s : forall z s',
  takes f ((i, x) :: r) s z s' <->
  (f i x s = (true, s') /\ z = Z.of_nat i) \/ exists s1, f i x s = (false, s1) /\ takes f r s1 z s'.
Proof.
  intros z s'. split.
  - intros [(-> & H)|(pre & j & y & post & s1 & E & H & Hf & ->)].
    + inversion H; subst. right. exists s1. split; [assumption|]. left. auto.
    + destruct pre as [|[j0 y0] pre]; cbn in E.
      * injection E as -> -> ->. inversion H; subst. left. auto.
      * injection E as -> -> ->. inversion H; subst. right. eexists. split; [eassumption|].
        right. exists pre, j, y, post, s1. auto.
  - intros [(Hf & ->)|(s1 & Hf & [(-> & H)|(pre & j & y & post & s2 & -> & H & Hg & ->)])].
    + right. exists [], i, x, r, s. repeat split; auto. constructor.
    + left. split; auto. econstructor; eauto.
    + right. exists ((i, x) :: pre), j, y, post, s2. repeat split; auto. econstructor; eauto.
Qed.
Lemma takes_nil {A S} (f : functor A S) s z s' : takes f [] s z s' <-> z = (-1)%Z /\ s' = s.
Proof.
  split.
  - intros [(-> & H)|(pre & j & y & post & s1 & E & _)].
    + inversion H; auto.
    + now destruct pre.
  - intros (-> & ->). left. split; auto. constructor.
Qed.
Lemma takes_fun {A S} (f : functor A S) calls : forall s z1 s1 z2 s2,
  takes f calls s z1 s1 -> takes f calls s z2 s2 -> z1 = z2 /\ s1 = s2.
Proof.
  induction calls as [|[i x] r IH]; intros s z1 s1 z2 s2 H1 H2.
  - apply takes_nil in H1, H2. destruct H1, H2. subst; auto.
  - apply takes_cons in H1, H2.
    destruct H1 as [(A1 & B1)|(u1 & A1 & B1)], H2 as [(A2 & B2)|(u2 & A2 & B2)]; rewrite A1 in A2;
      try discriminate; injection A2 as A2; subst; auto. eapply IH; eauto.
Qed.
Lemma combine_nth {A} (l : list A) i x : nth_error l i = Some x ->
  combine (seq i (length l - i)) (skipn i l) = (i, x) :: combine (seq (S i) (length l - S i)) (skipn (S i) l).
Proof.
  intros H. assert (Hl : i < length l) by (apply nth_error_Some; congruence).
  assert (E : skipn i l = x :: skipn (S i) l).
  { clear Hl. revert i H; induction l as [|y r IH]; intros [|i] H; cbn in H; try discriminate.
    - now injection H as ->.
    - cbn. now apply IH. }
  rewrite E, items_app_pos. replace (length l - i) with (S (length l - S i)) by lia. reflexivity.
Qed.
Lemma visit_from_ok {A S} (f : functor A S) (l : list A) n i s :
  n = length l - i -> i <= length l ->
  takes f (combine (seq i n) (skipn i l)) s (fst (visit_from f l n i s)) (snd (visit_from f l n i s)).
Proof.
  revert i s; induction n as [|n IH]; intros i s Hn Hi; cbn [visit_from].
  - cbn. apply takes_nil. auto.
  - rewrite at_index_nth. destruct (nth_error l i) as [x|] eqn:E.
    + rewrite Hn. rewrite (combine_nth _ _ _ E). apply takes_cons.
      destruct (f i x s) as [[|] s1] eqn:Ef; cbn [fst snd].
      * left. auto.
      * right. exists s1. split; [reflexivity|]. replace (length l - Datatypes.S i) with n by lia.
        replace (i + 1) with (Datatypes.S i) by lia. apply IH; lia.
    + apply nth_error_None in E. lia.
Qed.
Lemma visit_ok {A S} (f : functor A S) (l : list A) s :
  takes f (items l) s (fst (visit f l s)) (snd (visit f l s)).
Proof. unfold visit, items. apply (visit_from_ok f l (length l) 0); lia. Qed.
Lemma rev_items_S {A} (l : list A) j x : nth_error l j = Some x ->
  rev (items (firstn (S j) l)) = (j, x) :: rev (items (firstn j l)).
Proof.
  intros E. assert (Hl : j < length l) by (apply nth_error_Some; congruence).
  assert (F : firstn (S j) l = firstn j l ++ [x]).
  { clear Hl. revert j E; induction l as [|y r IH]; intros [|j] H; cbn in H; try discriminate.
    - now injection H as ->.
    - cbn. f_equal. now apply IH. }
  unfold items. rewrite F, app_length, firstn_length_le by lia. cbn [length].
  rewrite Nat.add_1_r, seq_S. 
  assert (C : forall (u v : list nat) (p q : list A), length u = length p -> combine (u ++ v) (p ++ q) = combine u p ++ combine v q).
  { induction u as [|a u IH]; intros v [|b p] q H; cbn in *; try lia; auto. f_equal. apply IH. lia. }
  rewrite C by (rewrite seq_length, firstn_length_le; lia). rewrite rev_app_distr. reflexivity.
Qed.
Lemma visit_reverse_from_ok {A S} (f : functor A S) (l : list A) i s :
  i <= length l ->
  takes f (rev (items (firstn i l))) s (fst (visit_reverse_from f l i s)) (snd (visit_reverse_from f l i s)).
Proof.
  revert s; induction i as [|j IH]; intros s Hi; cbn [visit_reverse_from].
  - cbn. apply takes_nil. auto.
  - rewrite at_index_nth. destruct (nth_error l j) as [x|] eqn:E.
    + rewrite (rev_items_S _ _ _ E). apply takes_cons.
      destruct (f j x s) as [[|] s1] eqn:Ef; cbn [fst snd].
      * left. auto.
      * right. exists s1. split; [reflexivity|]. apply IH; lia.
    + apply nth_error_None in E. lia.
Qed.
Lemma visit_reverse_ok {A S} (f : functor A S) (l : list A) s :
  takes f (rev (items l)) s (fst (visit_reverse f l s)) (snd (visit_reverse f l s)).
Proof.
  unfold visit_reverse. pose proof (visit_reverse_from_ok f l (length l) s ltac:(lia)) as H.
  now rewrite firstn_all in H.
Qed.
Lemma forward_from {A S} (f : functor A S) (l : list A) n s :
  takes f (combine (seq n (length l)) l) s
    (fst (snd (functor_mover (forward_call (n + length l) f) l ((-1)%Z, s))))
    (snd (snd (functor_mover (forward_call (n + length l) f) l ((-1)%Z, s)))).
Proof.
  revert n s; induction l as [|x r IH]; intros n s; cbn [functor_mover].
  - cbn. apply takes_nil. auto.
  - cbn [length]. rewrite items_app_pos. apply takes_cons.
    assert (E : forward_call (n + Datatypes.S (length r)) f (length r) x ((-1)%Z, s) =
       let '(b, s') := f n x s in if b : bool then (true, (Z.of_nat n, s')) else (false, ((-1)%Z, s'))).
    { unfold forward_call. now replace (n + Datatypes.S (length r) - (length r + 1)) with n by lia. }
    rewrite E. destruct (f n x s) as [[|] s1] eqn:Ef; cbn [fst snd].
    + left. auto.
    + right. exists s1. split; [reflexivity|].
      replace (n + Datatypes.S (length r)) with (Datatypes.S n + length r) by lia. apply IH.
Qed.
Lemma forward_ok {A S} (f : functor A S) (l : list A) s :
  takes f (items l) s (fst (forward_invoke f l s)) (snd (forward_invoke f l s)).
Proof. exact (forward_from f l 0 s). Qed.
Lemma forward_visit {A S} (f : functor A S) (l : list A) s : forward_invoke f l s = visit f l s.
Proof.
  destruct (takes_fun f _ _ _ _ _ _ (forward_ok f l s) (visit_ok f l s)) as (H1 & H2).
  destruct (forward_invoke f l s), (visit f l s). cbn in *. congruence.
Qed.

(* ---------- tuple ---------- *)
Section T.
Context {V : Type} (is_empty : nat -> bool) (init : nat -> V).
Lemma get_nth (tu : tuple V) i :
  get init i tu = option_map (fun tc => first_of init (fst tc) (snd tc)) (nth_error tu i).
Proof. revert i; induction tu as [|[t c] b IH]; intros [|i]; cbn; auto. Qed.
Lemma make_tuple_ok sparse types args tu :
  make_tuple is_empty sparse types args = Some tu ->
  length types = length args /\ types_of tu = types /\
  (forall t v, In (t, v) (combine types args) -> sparse = true -> is_empty t = true -> v = init t) ->
  map (fun tc => first_of init (fst tc) (snd tc)) tu = args.
Proof.
  revert args tu; induction types as [|t ts IH]; intros [|v vs] tu H; cbn in H; try discriminate.
  - injection H as <-. auto.
  - destruct (make_tuple is_empty sparse ts vs) as [b|] eqn:E; [|discriminate]. injection H as <-.
    intros (L & T & Hi). cbn in L, T. injection T as T. cbn [map fst snd]. f_equal.
    + unfold store. destruct sparse, (is_empty t) eqn:Q; cbn; auto.
      symmetry. apply Hi; cbn; auto.
    + apply (IH _ _ E). repeat split; auto. intros t' v' I'. apply Hi. cbn. auto.
Qed.
Lemma make_tuple_types sparse types args (tu : tuple V) :
  make_tuple is_empty sparse types args = Some tu -> length types = length args /\ types_of tu = types.
Proof.
  revert args tu; induction types as [|t ts IH]; intros [|v vs] tu H; cbn in H; try discriminate.
  - injection H as <-. auto.
  - destruct (make_tuple is_empty sparse ts vs) as [b|] eqn:E; [|discriminate]. injection H as <-.
    destruct (IH _ _ E) as (L & T). cbn [length]. split; [lia|]. change (types_of ((t, store is_empty sparse t v) :: b)) with (t :: types_of b). now rewrite T.
Qed.
Lemma make_tuple_some sparse types (args : list V) :
  length types = length args -> exists tu, make_tuple is_empty sparse types args = Some tu.
Proof.
  revert args; induction types as [|t ts IH]; intros [|v vs] L; cbn in L; try discriminate.
  - cbn. eauto.
  - destruct (IH vs ltac:(lia)) as (b & E). cbn. rewrite E. eauto.
Qed.
Lemma gets_ok (tu : tuple V) is :
  Forall (fun i => i < length tu) is ->
  gets init tu is = Some (map (fun i => nth i (map (fun tc => first_of init (fst tc) (snd tc)) tu) (init 0)) is).
Proof.
  induction is as [|i r IH]; intros H; [reflexivity|]. inversion H as [|? ? H1 H2]; subst. cbn [gets map].
  rewrite (IH H2), get_nth. destruct (nth_error tu i) as [tc|] eqn:E.
  - cbn. do 2 f_equal. symmetry. apply nth_error_nth. rewrite nth_error_map, E. reflexivity.
  - apply nth_error_None in E. lia.
Qed.
Lemma map_nth_seq {A} (l : list A) d : map (fun i => nth i l d) (seq 0 (length l)) = l.
Proof.
  induction l as [|x r IH]; [reflexivity|]. cbn [length]. rewrite <- cons_seq, <- seq_shift. cbn [map nth].
  rewrite map_map. cbn [nth]. now rewrite IH.
Qed.
Lemma apply_ok {R} (f : list V -> R) (tu : tuple V) :
  apply init f tu = Some (f (map (fun tc => first_of init (fst tc) (snd tc)) tu)).
Proof.
  unfold apply, make_index_sequence. rewrite make_integer_sequence_ok, app_nil_r, gets_ok.
  - f_equal. f_equal. pose proof (map_nth_seq (map (fun tc => first_of init (fst tc) (snd tc)) tu) (init 0)) as H.
    now rewrite map_length in H.
  - apply Forall_forall. intros i Hi. apply in_seq in Hi. lia.
Qed.
Lemma put_ok (tu tu' : tuple V) i v :
  put i v tu = Some tu' ->
  types_of tu' = types_of tu /\ (forall j, j <> i -> get init j tu' = get init j tu) /\
  exists t c, nth_error tu i = Some (t, c) /\
    nth_error tu' i = Some (t, match c with Stored _ => Stored v | Absent => Absent end).
Proof.
  revert i tu'; induction tu as [|[t c] b IH]; intros [|i] tu' H; cbn in H; try discriminate.
  - injection H as <-. split; [reflexivity|]. split.
    + intros [|j] Hj; [congruence|]. reflexivity.
    + exists t, c. auto.
  - destruct (put i v b) as [b'|] eqn:E; [|discriminate]. injection H as <-.
    destruct (IH _ _ E) as (I1 & I2 & I3). split; [cbn; f_equal; exact I1|]. split; [|exact I3].
    intros [|j] Hj; [reflexivity|]. cbn. apply I2. lia.
Qed.
Lemma put_some (tu : tuple V) i v : i < length tu -> exists tu', put i v tu = Some tu'.
Proof.
  revert i; induction tu as [|[t c] b IH]; intros [|i] H; cbn in H; try lia.
  - cbn. eauto.
  - destruct (IH i ltac:(lia)) as (b' & E). cbn. rewrite E. eauto.
Qed.
Lemma tuple_element_nth types i : tuple_element i types = nth_error types i.
Proof. revert i; induction types as [|x r IH]; intros [|i]; cbn; auto. Qed.

Definition elements (tu : tuple V) : list (nat * V) := map (fun tc => (fst tc, first_of init (fst tc) (snd tc))) tu.
Lemma items_map {A B} (g : A -> B) (l : list A) : items (map g l) = map (fun p => (fst p, g (snd p))) (items l).
Proof.
  unfold items. rewrite map_length. generalize 0 as n.
  induction l as [|x r IH]; intros n; [reflexivity|]. cbn [map length]. rewrite !items_app_pos. cbn [map fst snd].
  now rewrite IH.
Qed.
Lemma takes_map {A B S} (g : A -> B) (f : functor B S) (h : functor A S) calls s z s' :
  (forall i x st, In (i, x) calls -> h i x st = f i (g x) st) ->
  takes h calls s z s' -> takes f (map (fun p => (fst p, g (snd p))) calls) s z s'.
Proof.
  revert s; induction calls as [|[i x] r IH]; intros s Hh H.
  - apply takes_nil in H. cbn. now apply takes_nil.
  - apply takes_cons in H. cbn [map fst snd]. apply takes_cons. rewrite Hh in H by now left.
    destruct H as [H|(s1 & H1 & H2)]; [now left|]. right. exists s1. split; auto. apply IH; auto.
    intros; apply Hh; now right.
Qed.
Lemma tuple_visit_ok {S} (f : functor (nat * V) S) (tu : tuple V) s z s' :
  tu <> [] -> takes f (items (elements tu)) s z s' ->
  tuple_visit init f tu s = (negb (Z.eqb z 0), s').
Proof.
  intros Hn H. unfold tuple_visit.
  set (h := fun i (tc : nat * cell V) st => match get init i tu with Some v => f i (fst tc, v) st | None => (false, st) end).
  pose proof (visit_ok h tu s) as Hv.
  assert (Q : takes f (items (elements tu)) s (fst (visit h tu s)) (snd (visit h tu s))).
  { unfold elements. rewrite items_map. eapply (takes_map (fun tc : nat * cell V => (fst tc, first_of init (fst tc) (snd tc))) f h); [|exact Hv].
    intros i x st Hi. apply in_items in Hi. unfold h. rewrite get_nth, Hi. reflexivity. }
  destruct (takes_fun f _ _ _ _ _ _ H Q) as (-> & ->).
  destruct tu as [|p q]; [contradiction|]. destruct (visit h (p :: q) s). reflexivity.
Qed.
Lemma nth_types (tu : tuple V) i : nth_error (types_of tu) i = option_map fst (nth_error tu i).
Proof. unfold types_of. apply nth_error_map. Qed.
End T.

(* ---------- pair ---------- *)
Section P.
Context {A B : Type} (eqa lta : A -> A -> bool) (eqb ltb : B -> B -> bool).
Lemma total_weak {C} (eq lt : C -> C -> bool) : total_order eq lt -> weak_order lt.
Proof.
  intros (E & I & T & X). repeat split; auto. intros x y z H1 H2.
  destruct (lt x z) eqn:Q; auto. destruct (X x y) as [C1|[->|C1]]; [congruence|congruence|].
  assert (lt y z = true) by (eapply T; eauto). congruence.
Qed.
Lemma lt_asym {C} (lt : C -> C -> bool) x y : weak_order lt -> lt x y = true -> lt y x = false.
Proof.
  intros (I & T & _) H. destruct (lt y x) eqn:Q; auto. pose proof (T _ _ _ H Q). rewrite I in H0. discriminate.
Qed.
Lemma pair_lt_weak : weak_order lta -> weak_order ltb -> weak_order (pair_lt lta ltb).
Proof.
  intros Wa Wb. pose proof Wa as (Ia & Ta & Na). pose proof Wb as (Ib & Tb & Nb). repeat split.
  - intros [a b]. unfold pair_lt. cbn. now rewrite Ia, Ib.
  - intros [a1 b1] [a2 b2] [a3 b3]. unfold pair_lt. cbn [fst snd].
    destruct (lta a1 a2) eqn:E1.
    + intros _. destruct (lta a2 a3) eqn:E2; [intros _; now rewrite (Ta _ _ _ E1 E2)|].
      destruct (lta a3 a2) eqn:E3; [discriminate|]. intros _.
      destruct (lta a1 a3) eqn:E4; [reflexivity|]. pose proof (Na _ _ _ E4 E3). congruence.
    + destruct (lta a2 a1) eqn:E2; [discriminate|]. intros Hb. destruct (lta a2 a3) eqn:E3.
      * intros _. destruct (lta a1 a3) eqn:E4; [reflexivity|]. pose proof (Na _ _ _ E2 E4). congruence.
      * destruct (lta a3 a2) eqn:E4; [discriminate|]. intros Hc.
        rewrite (Na _ _ _ E1 E3), (Na _ _ _ E4 E2). now apply Tb with b2.
  - intros [a1 b1] [a2 b2] [a3 b3]. unfold pair_lt. cbn [fst snd].
    destruct (lta a1 a2) eqn:E1; [discriminate|]. destruct (lta a2 a1) eqn:E2.
    + intros _. destruct (lta a2 a3) eqn:E3; [discriminate|]. intros Hc. rewrite (Na _ _ _ E1 E3).
      destruct (lta a3 a1) eqn:E4; [reflexivity|]. pose proof (Na _ _ _ E3 E4). congruence.
    + intros Hb. destruct (lta a2 a3) eqn:E3; [discriminate|]. rewrite (Na _ _ _ E1 E3).
      destruct (lta a3 a2) eqn:E4.
      * intros _. destruct (lta a3 a1) eqn:E5; [reflexivity|]. pose proof (Na _ _ _ E5 E1). congruence.
      * intros Hc. rewrite (Na _ _ _ E4 E2). now apply Nb with b2.
Qed.
Lemma pair_lt_lex l r : total_order eqa lta ->
  pair_lt lta ltb l r = true <-> lta (fst l) (fst r) = true \/ (fst l = fst r /\ ltb (snd l) (snd r) = true).
Proof.
  intros Ta. pose proof (total_weak _ _ Ta) as Wa. destruct Ta as (E & I & T & X). destruct l as [a1 b1], r as [a2 b2].
  unfold pair_lt. cbn [fst snd]. destruct (lta a1 a2) eqn:E1; [tauto|]. destruct (lta a2 a1) eqn:E2.
  - split; [discriminate|]. intros [C|(-> & _)]; [discriminate|]. rewrite I in E2. discriminate.
  - split.
    + intros H. right. split; auto. destruct (X a1 a2) as [C|[C|C]]; congruence.
    + intros [C|(_ & C)]; [discriminate|exact C].
Qed.
Lemma pair_total : total_order eqa lta -> total_order eqb ltb ->
  total_order (pair_eq eqa eqb) (pair_lt lta ltb).
Proof.
  intros Ta Tb. pose proof (pair_lt_weak (total_weak _ _ Ta) (total_weak _ _ Tb)) as (I & T & _).
  split; [|split; [exact I|split; [exact T|]]].
  - intros [a1 b1] [a2 b2]. unfold pair_eq. cbn. rewrite andb_true_iff. destruct Ta as (Ea & _), Tb as (Eb & _).
    rewrite Ea, Eb. split; [intros (-> & ->); reflexivity|intros [= -> ->]; auto].
  - intros [a1 b1] [a2 b2]. rewrite !pair_lt_lex by assumption. cbn [fst snd].
    destruct Ta as (_ & _ & _ & Xa), Tb as (_ & _ & _ & Xb).
    destruct (Xa a1 a2) as [C|[->|C]]; auto. destruct (Xb b1 b2) as [C|[->|C]]; auto.
Qed.
Lemma pair_ne_eq l r : pair_ne eqa eqb l r = negb (pair_eq eqa eqb l r).
Proof. unfold pair_ne, pair_eq. now rewrite negb_andb. Qed.
End P.

Lemma combine_at {A B} (u : list A) (p : list B) i t v : nth_error (combine u p) i = Some (t, v) ->
  nth_error u i = Some t /\ nth_error p i = Some v.
Proof.
  revert p i; induction u as [|a u IHu]; intros [|b p] [|q] Hq; cbn in Hq; try discriminate.
  - injection Hq as -> ->. auto.
  - cbn; now apply IHu.
Qed.
Lemma tuple_elements {V} is_empty (init : nat -> V) sparse types args tu :
  fits is_empty init types args -> make_tuple is_empty sparse types args = Some tu ->
  map (fun tc => first_of init (fst tc) (snd tc)) tu = args.
Proof.
  intros (L & Hi) E. destruct (make_tuple_types is_empty sparse types args tu E) as (_ & T).
  apply (make_tuple_ok is_empty init sparse types args tu E). repeat split; auto.
  intros t v Hin _ He. apply In_nth_error in Hin. destruct Hin as (i & Hin).
  destruct (combine_at _ _ _ _ _ Hin). eapply Hi; eauto.
Qed.
Lemma tuple_pairs {V} is_empty (init : nat -> V) sparse types args tu :
  fits is_empty init types args -> make_tuple is_empty sparse types args = Some tu ->
  elements init tu = combine types args.
Proof.
  intros F E. destruct (make_tuple_types is_empty sparse types args tu E) as (_ & T).
  pose proof (tuple_elements is_empty init sparse types args tu F E) as M.
  unfold types_of in T. rewrite <- T, <- M. unfold elements. clear.
  induction tu as [|x r IH]; cbn; congruence.
Qed.
