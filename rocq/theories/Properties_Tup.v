(* C103-C111: parameter packs, visitors, tuple and pair. *)
From Verif Require Import Base BaseLemmas Swap_Model Swap_Spec Swap_Proofs Tup_Model Tup_Spec Tup_Proofs.
From Coq Require Import Permutation.

(* ---------- C103: type sequences ---------- *)

Theorem C103_type_at_index (l : list nat) i : at_index i l = nth_error l i.
Proof. apply at_index_nth. Qed.
Theorem C103_first_index t l i : first_index_of_type t l = Some i <-> first_at t l i.
Proof. apply first_index_ok. Qed.
Theorem C103_absent t l : first_index_of_type t l = None <-> ~ In t l.
Proof. apply first_index_none. Qed.
Theorem C103_match_count t l : match_count t l = count_occ Nat.eq_dec l t.
Proof. apply match_count_occ. Qed.
(* get<T> compiles exactly when T occurs once. *)
Theorem C103_single t l i :
  single_index_of_type t l = Some i <-> nth_error l i = Some t /\ count_occ Nat.eq_dec l t = 1.
Proof.
  unfold single_index_of_type. rewrite match_count_occ. destruct (Nat.eqb_spec (count_occ Nat.eq_dec l t) 1) as [E|E].
  - rewrite first_index_ok. split.
    + intros (H & _). auto.
    + intros (H & _). split; [exact H|]. intros j Hj Hl.
      apply nth_error_split in H. destruct H as (p & q & -> & Hp).
      rewrite count_occ_app in E. cbn in E. destruct (Nat.eq_dec t t); [|congruence].
      rewrite nth_error_app1 in Hl by lia. apply nth_error_In in Hl.
      apply (count_occ_In Nat.eq_dec) in Hl. lia.
  - split; [discriminate|]. intros (_ & C). contradiction.
Qed.
Theorem C103_contains_type t l : contains_type t l = true <-> In t l.
Proof.
  unfold contains_type. pose proof (selector_ok (fun x _ => Nat.eqb x t) (fun x => x) l 0) as (_ & _ & _ & H).
  cbn [Nat.add] in H. rewrite H, map_length, (filter_pos_count (fun x => Nat.eqb x t)).
  rewrite negb_true_iff, Nat.eqb_neq. split.
  - intros Q. destruct (filter (fun x => Nat.eqb x t) l) as [|y r] eqn:E; [contradiction|].
    assert (In y (filter (fun x => Nat.eqb x t) l)) by (rewrite E; now left).
    apply filter_In in H0. destruct H0 as (H0 & H1). apply Nat.eqb_eq in H1. now subst.
  - intros Hi. assert (In t (filter (fun x => Nat.eqb x t) l)) by (apply filter_In; split; auto; apply Nat.eqb_refl).
    destruct (filter (fun x => Nat.eqb x t) l); [contradiction|discriminate].
Qed.
Example C103_case :
  first_index_of_type 5 [3; 5; 7; 5] = Some 1 /\ first_at 5 [3; 5; 7; 5] 1 /\ match_count 5 [3; 5; 7; 5] = 2 /\
  single_index_of_type 5 [3; 5; 7; 5] = None /\ single_index_of_type 7 [3; 5; 7; 5] = Some 2 /\
  contains_type 9 [3; 5; 7; 5] = false.
Proof. repeat split. intros [|j] Hj; cbn; [congruence|lia]. Qed.

(* ---------- C104: selection ---------- *)

(* The selector keeps exactly the types whose evaluator holds, in order, with their positions. *)
Theorem C104_selected {A} (eval : A -> nat -> bool) proj (l : list A) :
  sel_indices (selector (length l) eval proj l) = map fst (chosen eval l) /\
  sel_types (selector (length l) eval proj l) = map snd (chosen eval l) /\
  sel_projected (selector (length l) eval proj l) = map (fun p => proj (snd p)) (chosen eval l) /\
  sel_selected (selector (length l) eval proj l) = map (fun p => (fst p, proj (snd p))) (chosen eval l).
Proof. exact (selector_ok eval proj l 0). Qed.
Theorem C104_where {A} (p : A -> bool) (l : list A) : where_types (fun x _ => p x) l = filter p l.
Proof.
  unfold where_types. pose proof (C104_selected (fun x _ => p x) (fun x => x) l) as (_ & H & _). rewrite H. clear H.
  unfold chosen, items. generalize 0 as n. induction l as [|x r IH]; intros n; [reflexivity|].
  cbn [length]. rewrite items_app_pos. cbn [filter fst snd]. destruct (p x); cbn [map snd]; now rewrite IH.
Qed.
Theorem C104_all {A} (eval : A -> nat -> bool) proj (l : list A) :
  sel_all eval proj l = true <-> forall i x, nth_error l i = Some x -> eval x i = true.
Proof.
  unfold sel_all. pose proof (C104_selected eval proj l) as (_ & _ & _ & H). rewrite H, map_length, Nat.eqb_eq.
  rewrite <- (items_length l). unfold chosen. rewrite filter_all, Forall_forall. split.
  - intros Q i x Hi. apply in_items in Hi. exact (Q (i, x) Hi).
  - intros Q [i x] Hi. apply in_items in Hi. exact (Q i x Hi).
Qed.
Example C104_case :
  sel_indices (selector 4 (fun t _ => Nat.even t) (fun t => t) [4; 7; 8; 10]) = [0; 2; 3] /\
  sel_selected (selector 4 (fun t i => Nat.even (t + i)) S [4; 7; 8; 10]) = [(0, 5); (1, 8); (2, 9)] /\
  where_types (fun t _ => Nat.even t) [4; 7; 8; 10] = [4; 8; 10] /\
  sel_all (fun t _ => Nat.even t) (fun t => t) [4; 7; 8; 10] = false.
Proof. repeat split. Qed.

(* ---------- C105: value sequences ---------- *)

Theorem C105_get {A} (l : list A) i : at_index i l = nth_error l i /\ first l = hd_error l.
Proof. split; [apply at_index_nth|]. now destruct l. Qed.
Theorem C105_where {A} (p : A -> bool) (l : list A) : where_values (fun x _ => p x) l = filter p l.
Proof.
  unfold where_values. rewrite (value_selector_ok _ l 0). generalize 0 as n.
  induction l as [|x r IH]; intros n; [reflexivity|].
  cbn [length]. rewrite items_app_pos. cbn [filter fst snd]. destruct (p x); cbn [map snd]; now rewrite IH.
Qed.
Theorem C105_contains {A} (eqb : A -> A -> bool) v (l : list A) :
  (forall x y, eqb x y = true <-> x = y) -> NoDup l -> values_contains eqb v l = true <-> In v l.
Proof.
  intros He Hd. unfold values_contains. rewrite C105_where, Nat.eqb_eq. split.
  - intros H. destruct (filter (eqb v) l) as [|y r] eqn:E; [discriminate|].
    assert (Q : In y (filter (eqb v) l)) by (rewrite E; now left).
    apply filter_In in Q. destruct Q as (Q1 & Q2). apply He in Q2. now subst.
  - intros Hi. destruct (in_split _ _ Hi) as (p & q & ->). apply NoDup_remove_2 in Hd.
    rewrite filter_app. cbn [filter]. rewrite (proj2 (He v v) eq_refl).
    assert (N : forall m, ~ In v m -> filter (eqb v) m = []).
    { induction m as [|y m IH]; intros Hm; [reflexivity|]. cbn. destruct (eqb v y) eqn:E.
      - apply He in E. subst. exfalso. apply Hm. now left.
      - apply IH. intros C. apply Hm. now right. }
    rewrite !N; [reflexivity| |]; intros C; apply Hd, in_or_app; auto.
Qed.
(* A value that occurs twice or more is reported as absent. *)
Theorem C231_contains_duplicate_refuted {A} (dec : forall x y : A, {x = y} + {x <> y}) (eqb : A -> A -> bool) v (l : list A) :
  (forall x y, eqb x y = true <-> x = y) ->
  (values_contains eqb v l = true <-> count_occ dec l v = 1) /\
  (2 <= count_occ dec l v -> In v l /\ values_contains eqb v l = false).
Proof.
  intros He. unfold values_contains. rewrite C105_where, (count_filter dec) by exact He.
  split; [apply Nat.eqb_eq|]. intros H. split.
  - apply (count_occ_In dec). lia.
  - apply Nat.eqb_neq. lia.
Qed.
Example C105_case :
  where_values (fun v _ => Nat.even v) [4; 7; 4] = [4; 4] /\ values_contains Nat.eqb 7 [4; 7; 4] = true /\
  values_contains Nat.eqb 4 [4; 7; 4] = false /\ 2 <= count_occ Nat.eq_dec [4; 7; 4] 4 /\ NoDup [4; 7].
Proof. repeat split; auto. repeat constructor; cbn; intuition congruence. Qed.

(* ---------- C106: integer sequences ---------- *)

Theorem C106_make_index_sequence n : make_index_sequence n = seq 0 n.
Proof. unfold make_index_sequence. rewrite make_integer_sequence_ok. apply app_nil_r. Qed.
Theorem C106_make_reverse n : make_reverse_index_sequence n = rev (seq 0 n).
Proof. apply make_reverse_ok; [lia|]. now rewrite Nat.sub_diag. Qed.
Theorem C106_reverser {A} (l : list A) : indices_reverser l = rev l.
Proof. apply indices_reverser_ok. Qed.
Example C106_case :
  make_index_sequence 4 = [0; 1; 2; 3] /\ make_reverse_index_sequence 4 = [3; 2; 1; 0] /\
  indices_reverser [5; 1; 7] = [7; 1; 5].
Proof. repeat split. Qed.

(* ---------- C107: visitors ---------- *)

(* The functor is called on the items from the first on (visit) or from the last on
   (visit_reverse), until it gives true; the result is the position it gave true at, else -1.
   This fixes the result and the calls made. *)
Theorem C107_visit {A S} (f : functor A S) (l : list A) s z s' :
  visit f l s = (z, s') <-> takes f (items l) s z s'.
Proof.
  pose proof (visit_ok f l s) as H. split.
  - intros E. now rewrite E in H.
  - intros E. destruct (takes_fun f _ _ _ _ _ _ E H) as (-> & ->). now destruct (visit f l s).
Qed.
Theorem C107_visit_reverse {A S} (f : functor A S) (l : list A) s z s' :
  visit_reverse f l s = (z, s') <-> takes f (rev (items l)) s z s'.
Proof.
  pose proof (visit_reverse_ok f l s) as H. split.
  - intros E. now rewrite E in H.
  - intros E. destruct (takes_fun f _ _ _ _ _ _ E H) as (-> & ->). now destruct (visit_reverse f l s).
Qed.
Theorem C107_forward_invoker {A S} (f : functor A S) (l : list A) s z s' :
  forward_invoke f l s = (z, s') <-> takes f (items l) s z s'.
Proof. rewrite forward_visit. apply C107_visit. Qed.
(* For a functor without state: the least (greatest) position that satisfies it. *)
Theorem C107_first {A} (p : nat -> A -> bool) (l : list A) i :
  fst (visit (fun j x _ => (p j x, tt)) l tt) = Z.of_nat i <->
  (exists x, nth_error l i = Some x /\ p i x = true) /\
  forall j x, j < i -> nth_error l j = Some x -> p j x = false.
Proof.
  set (f := fun (j : nat) (x : A) (_ : unit) => (p j x, tt)).
  assert (R : forall c (s s' : unit), rejected f c s s' <-> Forall (fun q => p (fst q) (snd q) = false) c).
  { induction c as [|[j x] c IH]; intros [] [].
    - split; constructor.
    - split.
      + intros Q. inversion Q as [|? ? ? ? ? ? F1 F2]; subst. unfold f in F1. injection F1 as F1. constructor; [exact F1|].
        now apply (IH s1 tt).
      + intros Q. inversion Q; subst. cbn in *. apply rej_cons with tt; [unfold f; now rewrite H1|]. now apply IH. }
  pose proof (visit_ok f l tt) as H. destruct (visit f l tt) as [z []] eqn:E. cbn [fst snd] in *. split.
  - intros ->. destruct H as [(C & _)|(pre & j & x & post & [] & Hi & Hr & Hf & Hz)]; [lia|].
    apply Nat2Z.inj in Hz. subst j. apply R in Hr. rewrite Forall_forall in Hr.
    assert (Ei : nth_error (items l) (length pre) = Some (i, x)).
    { rewrite Hi, nth_error_app2, Nat.sub_diag by lia. reflexivity. }
    rewrite nth_items in Ei. destruct (nth_error l (length pre)) eqn:En; [|discriminate].
    cbn in Ei. injection Ei as Ei ->. rewrite <- Ei in *. split.
    + exists x. split; [exact En|]. unfold f in Hf. now injection Hf.
    + intros j y Hj Hy. apply (Hr (j, y)).
      assert (Q : nth_error (items l) j = Some (j, y)) by (rewrite nth_items, Hy; reflexivity).
      rewrite Hi, nth_error_app1 in Q by lia. eapply nth_error_In; eauto.
  - intros ((x & Hx & Hp) & Hj).
    destruct H as [(-> & Hr)|(pre & j & y & post & [] & Hi & Hr & Hf & ->)].
    + apply R in Hr. rewrite Forall_forall in Hr. apply in_items in Hx. specialize (Hr _ Hx). cbn in Hr. congruence.
    + f_equal. apply R in Hr. rewrite Forall_forall in Hr.
      assert (Hy : In (j, y) (items l)) by (rewrite Hi; apply in_or_app; right; now left). apply in_items in Hy.
      assert (Ei : nth_error (items l) (length pre) = Some (j, y)).
      { rewrite Hi, nth_error_app2, Nat.sub_diag by lia. reflexivity. }
      rewrite nth_items in Ei. destruct (nth_error l (length pre)) eqn:En; [|discriminate].
      cbn in Ei. injection Ei as Ei ->. unfold f in Hf. injection Hf as Hf.
      destruct (Nat.lt_trichotomy j i) as [L|[L|L]]; [|exact L|].
      * rewrite (Hj j y L Hy) in Hf. discriminate.
      * exfalso. assert (Q : nth_error (items l) i = Some (i, x)) by (rewrite nth_items, Hx; reflexivity).
        rewrite Hi, nth_error_app1 in Q by lia. apply nth_error_In in Q. specialize (Hr _ Q). cbn in Hr. congruence.
Qed.
Example C107_case :
  visit (fun i x s => (Nat.ltb 6 x, s ++ [i])) [5; 7; 9] [] = (1%Z, [0; 1]) /\
  visit_reverse (fun i x s => (Nat.ltb 6 x, s ++ [i])) [5; 7; 4] [] = (1%Z, [2; 1]) /\
  forward_invoke (fun i x s => (Nat.ltb 10 x, s ++ [i])) [5; 7; 9] [] = ((-1)%Z, [0; 1; 2]) /\
  takes (fun i x s => (Nat.ltb 6 x, s ++ [i])) (items [5; 7; 9]) [] 1 [0; 1].
Proof. repeat split. apply C107_visit. reflexivity. Qed.

(* ---------- C108: tuple ---------- *)

Theorem C108_get {V} is_empty (init : nat -> V) sparse types args :
  fits is_empty init types args ->
  exists tu, make_tuple is_empty sparse types args = Some tu /\
    (forall i, get init i tu = nth_error args i) /\
    forall i, tuple_element i types = nth_error types i.
Proof.
  intros F. destruct (make_tuple_some is_empty sparse types args (proj1 F)) as (tu & E). exists tu. split; [exact E|].
  split.
  - intros i. rewrite get_nth, <- (tuple_elements _ _ _ _ _ _ F E), nth_error_map. reflexivity.
  - apply tuple_element_nth.
Qed.
(* get<T> for a type that occurs once gives the argument at its position. *)
Theorem C108_get_type {V} is_empty (init : nat -> V) sparse types args tu t i :
  fits is_empty init types args -> make_tuple is_empty sparse types args = Some tu ->
  nth_error types i = Some t -> count_occ Nat.eq_dec types t = 1 ->
  get_type init t tu = nth_error args i.
Proof.
  intros F E Ht Hc. destruct (make_tuple_types is_empty sparse types args tu E) as (_ & T).
  unfold get_type. rewrite T, (proj2 (C103_single t types i) (conj Ht Hc)).
  now rewrite get_nth, <- (tuple_elements _ _ _ _ _ _ F E), nth_error_map.
Qed.
(* apply calls f with the elements in order; make_from_tuple is apply with a constructor. *)
Theorem C108_apply {V R} is_empty (init : nat -> V) sparse types args tu (f : list V -> R) :
  fits is_empty init types args -> make_tuple is_empty sparse types args = Some tu ->
  apply init f tu = Some (f args).
Proof. intros F E. rewrite apply_ok. do 2 f_equal. exact (tuple_elements _ _ _ _ _ _ F E). Qed.
Theorem C108_piecewise_pair {A B V} is_empty (init : nat -> V) s1 s2 types1 types2 args1 args2 t1 t2
    (ca : list V -> A) (cb : list V -> B) :
  fits is_empty init types1 args1 -> make_tuple is_empty s1 types1 args1 = Some t1 ->
  fits is_empty init types2 args2 -> make_tuple is_empty s2 types2 args2 = Some t2 ->
  pair_piecewise init ca cb t1 t2 = Some (ca args1, cb args2).
Proof.
  intros F1 E1 F2 E2. unfold pair_piecewise.
  now rewrite (C108_apply is_empty init s1 types1 args1 t1 ca F1 E1), (C108_apply is_empty init s2 types2 args2 t2 cb F2 E2).
Qed.
(* Assignment through get<i> changes element i to the value, and no other. *)
Theorem C108_assign {V} is_empty (init : nat -> V) sparse types args tu t i v :
  fits is_empty init types args -> make_tuple is_empty sparse types args = Some tu ->
  nth_error types i = Some t -> (is_empty t = true -> v = init t) ->
  exists tu', put i v tu = Some tu' /\
    forall j, get init j tu' = nth_error (upd args i v) j.
Proof.
  intros F E Ht Hv. destruct (make_tuple_types is_empty sparse types args tu E) as (L & T).
  pose proof (tuple_elements _ _ _ _ _ _ F E) as M.
  assert (Li : i < length tu). { rewrite <- (map_length fst tu). fold (types_of tu). rewrite T. apply nth_error_Some. congruence. }
  destruct (put_some tu i v Li) as (tu' & P). exists tu'. split; [exact P|].
  destruct (put_ok init tu tu' i v P) as (_ & O & t' & c & N1 & N2). intros j.
  destruct (Nat.eq_dec j i) as [->|Hj].
  - assert (t' = t). { rewrite <- T in Ht. rewrite nth_types, N1 in Ht. cbn in Ht. congruence. } subst t'.
    rewrite nth_error_upd_eq. 2:{ rewrite <- M, map_length. exact Li. }
    rewrite get_nth, N2. cbn. destruct c; cbn; [reflexivity|].
    assert (is_empty t = true); [|f_equal; symmetry; auto].
    clear - E N1. revert args tu i E N1. induction types as [|x ts IH]; intros [|a vs] tu i E N1; cbn in E; try discriminate.
    + injection E as <-. now destruct i.
    + destruct (make_tuple is_empty sparse ts vs) as [b|] eqn:Q; [|discriminate]. injection E as <-.
      destruct i as [|i]; cbn in N1.
      * injection N1 as -> N1. unfold store in N1. now destruct sparse, (is_empty t).
      * eapply IH; eauto.
  - rewrite nth_error_upd_neq by auto. rewrite (O j Hj), get_nth, <- M, nth_error_map. reflexivity.
Qed.
Example C108_case :
  let e := fun t => Nat.eqb t 3 in let d := fun t => t in
  fits e d [7; 3; 8] [70; 3; 80] /\
  make_tuple e true [7; 3; 8] [70; 3; 80] = Some [(7, Stored 70); (3, Absent); (8, Stored 80)] /\
  get d 1 [(7, Stored 70); (3, Absent); (8, Stored 80)] = Some 3 /\
  get_type d 8 [(7, Stored 70); (3, Absent); (8, Stored 80)] = Some 80 /\
  apply d (fun l => l) [(7, Stored 70); (3, Absent); (8, Stored 80)] = Some [70; 3; 80] /\
  put 2 81 [(7, Stored 70); (3, Absent); (8, Stored 80)] = Some [(7, Stored 70); (3, Absent); (8, Stored 81)].
Proof.
  repeat split. intros i t v H1 H2 H3. destruct i as [|[|[|i]]]; cbn in *;
    try (injection H1 as <-; discriminate); try congruence; destruct i; discriminate.
Qed.

(* ---------- C109: tuple::visit ---------- *)

(* visit calls f on the elements in order until it gives true; z is the index at which it did, or
   -1.  The result of visit is whether z is not 0. *)
Theorem C109_visit {V S} is_empty (init : nat -> V) sparse types args tu (f : functor (nat * V) S) s z s' :
  fits is_empty init types args -> make_tuple is_empty sparse types args = Some tu ->
  takes f (items (combine types args)) s z s' -> (0 < z)%Z ->
  tuple_visit init f tu s = (true, s').
Proof.
  intros F E H Hz. rewrite <- (tuple_pairs _ _ _ _ _ _ F E) in H.
  rewrite (tuple_visit_ok init f tu s z s'); auto.
  - destruct (Z.eqb_spec z 0); [lia|reflexivity].
  - intros ->. apply takes_nil in H. lia.
Qed.
(* An empty tuple: f is not called, and nothing was accepted. *)
Theorem C109_empty {V S} (init : nat -> V) (f : functor (nat * V) S) s : tuple_visit init f [] s = (false, s).
Proof. reflexivity. Qed.
(* It should tell whether some element was accepted: it says no when the first one was, and yes
   when a non-empty tuple has none. *)
Theorem C232_first_accepted_refuted {V S} is_empty (init : nat -> V) sparse types args tu (f : functor (nat * V) S) s s' :
  fits is_empty init types args -> make_tuple is_empty sparse types args = Some tu ->
  takes f (items (combine types args)) s 0 s' -> tuple_visit init f tu s = (false, s').
Proof.
  intros F E H. rewrite <- (tuple_pairs _ _ _ _ _ _ F E) in H.
  rewrite (tuple_visit_ok init f tu s 0 s'); auto. intros ->. apply takes_nil in H. destruct H; discriminate.
Qed.
Theorem C232_none_accepted_refuted {V S} is_empty (init : nat -> V) sparse types args tu (f : functor (nat * V) S) s s' :
  fits is_empty init types args -> make_tuple is_empty sparse types args = Some tu -> types <> [] ->
  takes f (items (combine types args)) s (-1) s' -> tuple_visit init f tu s = (true, s').
Proof.
  intros F E Hn H. rewrite <- (tuple_pairs _ _ _ _ _ _ F E) in H.
  rewrite (tuple_visit_ok init f tu s (-1) s'); auto. intros ->.
  destruct (make_tuple_types is_empty sparse types args [] E) as (_ & T). now subst.
Qed.
Example C109_case :
  let tu := [(7, Stored 70); (8, Stored 80)] in
  let is v := fun (i : nat) (x : nat * nat) (s : list nat) => (Nat.eqb (snd x) v, s ++ [i]) in
  make_tuple (fun _ => false) false [7; 8] [70; 80] = Some tu /\
  tuple_visit (fun t => t) (is 80) tu [] = (true, [0; 1]) /\
  tuple_visit (fun t => t) (is 70) tu [] = (false, [0]) /\
  tuple_visit (fun t => t) (is 90) tu [] = (true, [0; 1]) /\
  takes (is 70) (items (combine [7; 8] [70; 80])) [] 0 [0].
Proof. repeat split. apply C107_visit. reflexivity. Qed.

(* ---------- C110: pair ---------- *)

Theorem C110_equality {A B} (eqa : A -> A -> bool) (eqb : B -> B -> bool) l r :
  (forall x y, eqa x y = true <-> x = y) -> (forall x y, eqb x y = true <-> x = y) ->
  (pair_eq eqa eqb l r = true <-> l = r) /\ (pair_ne eqa eqb l r = true <-> l <> r).
Proof.
  intros Ha Hb. destruct l as [a b], r as [a' b'].
  assert (E : pair_eq eqa eqb (a, b) (a', b') = true <-> (a, b) = (a', b')).
  { unfold pair_eq. cbn. rewrite andb_true_iff, Ha, Hb. split; [intros (-> & ->); auto|intros [= -> ->]; auto]. }
  split; [exact E|]. rewrite pair_ne_eq, negb_true_iff. rewrite <- E.
  destruct (pair_eq eqa eqb (a, b) (a', b')); split; congruence.
Qed.
(* < is the lexicographic order: a strict total order when both members' are. *)
Theorem C110_lexicographic {A B} eqa (lta : A -> A -> bool) (ltb : B -> B -> bool) a b a' b' :
  total_order eqa lta ->
  pair_lt lta ltb (a, b) (a', b') = true <-> lta a a' = true \/ (a = a' /\ ltb b b' = true).
Proof. intros T. now apply (pair_lt_lex eqa lta). Qed.
Theorem C110_total_order {A B} eqa (lta : A -> A -> bool) eqb (ltb : B -> B -> bool) :
  total_order eqa lta -> total_order eqb ltb -> total_order (pair_eq eqa eqb) (pair_lt lta ltb).
Proof. apply pair_total. Qed.
Theorem C110_weak_order {A B} (lta : A -> A -> bool) (ltb : B -> B -> bool) :
  weak_order lta -> weak_order ltb -> weak_order (pair_lt lta ltb).
Proof. apply pair_lt_weak. Qed.
Theorem C110_greater {A B} (lta : A -> A -> bool) (ltb : B -> B -> bool) l r :
  pair_gt lta ltb l r = pair_lt lta ltb r l.
Proof. reflexivity. Qed.
(* swap exchanges two pairs. *)
Theorem C110_swap {A B} (firsts : list A) (seconds : list B) x y a b a' b' :
  nth_error firsts x = Some a -> nth_error seconds x = Some b ->
  nth_error firsts y = Some a' -> nth_error seconds y = Some b' ->
  pair_swap firsts seconds x y = Ok (upd (upd firsts x a') y a, upd (upd seconds x b') y b).
Proof.
  intros. unfold pair_swap. rewrite (temp_swap_any firsts x y a a') by assumption. cbn [bind].
  now rewrite (temp_swap_any seconds x y b b') by assumption.
Qed.
Theorem C110_swap_int firsts seconds x y a b a' b' :
  x <> y ->
  nth_error firsts x = Some a -> nth_error seconds x = Some b ->
  nth_error firsts y = Some a' -> nth_error seconds y = Some b' ->
  pair_swap_int firsts seconds x y = Ok (upd (upd firsts x a') y a, upd (upd seconds x b') y b).
Proof.
  intros. unfold pair_swap_int. rewrite (xor_swap_distinct firsts x y a a') by assumption. cbn [bind].
  now rewrite (xor_swap_distinct seconds x y b b') by assumption.
Qed.
(* Swapping a pair of integers with itself sets both members to zero. *)
Theorem C233_swap_int_self_refuted firsts seconds x a b :
  nth_error firsts x = Some a -> nth_error seconds x = Some b ->
  pair_swap_int firsts seconds x x = Ok (upd firsts x 0%Z, upd seconds x 0%Z).
Proof.
  intros. unfold pair_swap_int. rewrite (xor_swap_self firsts x a) by assumption. cbn [bind].
  now rewrite (xor_swap_self seconds x b) by assumption.
Qed.
Example C110_case :
  total_order Z.eqb Z.ltb /\
  pair_lt Z.ltb Z.ltb (3, 9)%Z (4, 1)%Z = true /\ pair_lt Z.ltb Z.ltb (3, 9)%Z (3, 1)%Z = false /\
  pair_swap_int [3; 4]%Z [5; 6]%Z 0 1 = Ok ([4; 3]%Z, [6; 5]%Z) /\
  pair_swap_int [3; 4]%Z [5; 6]%Z 0 0 = Ok ([0; 4]%Z, [0; 6]%Z).
Proof.
  split; [|repeat split]. split; [apply Z.eqb_eq|]. split; [apply Z.ltb_irrefl|]. split.
  - intros x y z. rewrite !Z.ltb_lt. lia.
  - intros x y. rewrite !Z.ltb_lt. lia.
Qed.

(* ---------- C111: properties of all types of a pack ---------- *)

(* largest_type is the first of the types that have the greatest size. *)
Theorem C111_largest size l t :
  largest_type size l = Some t ->
  (forall u, In u l -> size u <= size t) /\
  exists pre post, l = pre ++ t :: post /\ forall u, In u pre -> size u < size t.
Proof. destruct l as [|x r]; [discriminate|]. intros [= <-]. apply largest_from_ok. Qed.
Theorem C111_largest_exists size l : l <> [] -> exists t, largest_type size l = Some t.
Proof. destruct l; [contradiction|]. cbn. eauto. Qed.
Theorem C111_are_trivial trivial l : are_trivial trivial l = true <-> forall t, In t l -> trivial t = true.
Proof. rewrite are_trivial_ok. apply Forall_forall. Qed.
Theorem C111_are_same t l : are_same t l = true <-> forall u, In u l -> u = t.
Proof. rewrite are_same_ok. apply Forall_forall. Qed.
Example C111_case :
  largest_type (fun t => Nat.modulo t 10) [13; 28; 38; 5] = Some 28 /\
  are_trivial Nat.even [4; 6; 7] = false /\ are_same 4 [4; 4] = true /\ are_same 4 [4; 5] = false.
Proof. repeat split. Qed.

Print Assumptions C103_type_at_index.
Print Assumptions C103_first_index.
Print Assumptions C103_absent.
Print Assumptions C103_match_count.
Print Assumptions C103_single.
Print Assumptions C103_contains_type.
Print Assumptions C104_selected.
Print Assumptions C104_where.
Print Assumptions C104_all.
Print Assumptions C105_get.
Print Assumptions C105_where.
Print Assumptions C105_contains.
Print Assumptions C231_contains_duplicate_refuted.
Print Assumptions C106_make_index_sequence.
Print Assumptions C106_make_reverse.
Print Assumptions C106_reverser.
Print Assumptions C107_visit.
Print Assumptions C107_visit_reverse.
Print Assumptions C107_forward_invoker.
Print Assumptions C107_first.
Print Assumptions C108_get.
Print Assumptions C108_get_type.
Print Assumptions C108_apply.
Print Assumptions C108_piecewise_pair.
Print Assumptions C108_assign.
Print Assumptions C109_visit.
Print Assumptions C109_empty.
Print Assumptions C232_first_accepted_refuted.
Print Assumptions C232_none_accepted_refuted.
Print Assumptions C110_equality.
Print Assumptions C110_lexicographic.
Print Assumptions C110_total_order.
Print Assumptions C110_weak_order.
Print Assumptions C110_greater.
Print Assumptions C110_swap.
Print Assumptions C110_swap_int.
Print Assumptions C233_swap_int_self_refuted.
Print Assumptions C111_largest.
Print Assumptions C111_largest_exists.
Print Assumptions C111_are_trivial.
Print Assumptions C111_are_same.
