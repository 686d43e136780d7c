(* Lemmas about the vocabulary of Base.v. *)
From Verif Require Import Base.

Lemma upd_length {A} (l : list A) i x : length (upd l i x) = length l.
Proof. revert i; induction l as [|h t IH]; intros [|i]; simpl; auto. Qed.

Lemma nth_error_upd_eq {A} (l : list A) i x :
  i < length l -> nth_error (upd l i x) i = Some x.
Proof.
  revert i; induction l as [|h t IH]; intros [|i]; simpl; intros H; try lia; auto.
  apply IH; lia.
Qed.

Lemma nth_error_upd_neq {A} (l : list A) i j x :
  i <> j -> nth_error (upd l i x) j = nth_error l j.
Proof.
  revert i j; induction l as [|h t IH]; intros [|i] [|j]; simpl; intros H;
    try reflexivity; try congruence.
  apply IH; congruence.
Qed.

Lemma nth_error_upd {A} (l : list A) i j x :
  nth_error (upd l i x) j =
  if Nat.eqb i j then (if Nat.ltb i (length l) then Some x else None) else nth_error l j.
Proof.
  destruct (Nat.eqb_spec i j) as [->|Hne].
  - destruct (Nat.ltb_spec j (length l)).
    + now apply nth_error_upd_eq.
    + apply nth_error_None. rewrite upd_length. lia.
  - now apply nth_error_upd_neq.
Qed.

Lemma upd_app_l {A} (l1 l2 : list A) i x :
  i < length l1 -> upd (l1 ++ l2) i x = upd l1 i x ++ l2.
Proof.
  revert i; induction l1 as [|h t IH]; intros [|i] H; simpl in *; try lia; auto.
  f_equal. apply IH; lia.
Qed.

Lemma upd_app_r {A} (l1 l2 : list A) i x :
  length l1 <= i -> upd (l1 ++ l2) i x = l1 ++ upd l2 (i - length l1) x.
Proof.
  revert i; induction l1 as [|h t IH]; intros i H; simpl in *.
  - now rewrite Nat.sub_0_r.
  - destruct i as [|i]; [lia|]. simpl. f_equal. apply IH; lia.
Qed.

Lemma upd_same {A} (l : list A) i x : nth_error l i = Some x -> upd l i x = l.
Proof.
  revert i; induction l as [|h t IH]; intros [|i]; simpl; intros H; auto; try congruence.
  f_equal; auto.
Qed.

Lemma nth_error_ext {A} (l1 l2 : list A) :
  (forall i, nth_error l1 i = nth_error l2 i) -> l1 = l2.
Proof.
  revert l2; induction l1 as [|h t IH]; intros [|h2 t2] H; auto.
  - specialize (H 0); discriminate.
  - specialize (H 0); discriminate.
  - pose proof (H 0) as H0; simpl in H0. injection H0 as ->.
    f_equal. apply IH. intros i. exact (H (S i)).
Qed.

Lemma rd_ok {A} (l : list A) i x : nth_error l i = Some x -> rd l i = Ok x.
Proof. unfold rd; intros ->; reflexivity. Qed.

Lemma rd_inv {A} (l : list A) i x : rd l i = Ok x -> nth_error l i = Some x.
Proof. unfold rd; destruct (nth_error l i); intros H; congruence. Qed.

Lemma rd_lt {A} (l : list A) i : i < length l -> exists x, nth_error l i = Some x /\ rd l i = Ok x.
Proof.
  intros H. destruct (nth_error l i) as [x|] eqn:E.
  - exists x; split; auto. now apply rd_ok.
  - apply nth_error_None in E. lia.
Qed.

Lemma wr_ok {A} (l : list A) i x : i < length l -> wr l i x = Ok (upd l i x).
Proof. intros H. unfold wr. destruct (Nat.ltb_spec i (length l)); [reflexivity|lia]. Qed.

Lemma wr_inv {A} (l l' : list A) i x : wr l i x = Ok l' -> i < length l /\ l' = upd l i x.
Proof.
  unfold wr. destruct (Nat.ltb_spec i (length l)); intros H0; [injection H0 as <-|discriminate]; auto.
Qed.

Lemma bind_ok {A B} (m : result A) (f : A -> result B) b :
  bind m f = Ok b -> exists a, m = Ok a /\ f a = Ok b.
Proof. destruct m as [a| |]; simpl; intros H; try discriminate. eauto. Qed.

Lemma nth_error_split_at {A} (l : list A) i x :
  nth_error l i = Some x -> l = firstn i l ++ x :: skipn (S i) l.
Proof.
  revert i; induction l as [|h t IH]; intros [|i]; simpl; intros H; try discriminate.
  - congruence.
  - f_equal. now apply IH.
Qed.

Lemma upd_split {A} (l : list A) i x :
  i < length l -> upd l i x = firstn i l ++ x :: skipn (S i) l.
Proof.
  revert i; induction l as [|h t IH]; intros [|i]; simpl; intros H; try lia; auto.
  f_equal. apply IH; lia.
Qed.

Lemma upd_perm {A} (l : list A) i x y :
  nth_error l i = Some x -> Permutation (y :: l) (x :: upd l i y).
Proof.
  intros H.
  assert (Hi : i < length l) by (apply nth_error_Some; congruence).
  rewrite (upd_split _ _ _ Hi).
  rewrite (nth_error_split_at _ _ _ H) at 1.
  transitivity (y :: x :: firstn i l ++ skipn (S i) l).
  - apply perm_skip. symmetry. apply Permutation_middle.
  - transitivity (x :: y :: firstn i l ++ skipn (S i) l); [apply perm_swap|].
    apply perm_skip. apply Permutation_middle.
Qed.

(* Exchanging two elements of an array permutes it. *)
Lemma swap_perm {A} (l : list A) i j x y :
  nth_error l i = Some x -> nth_error l j = Some y ->
  Permutation l (upd (upd l i y) j x).
Proof.
  intros Hi Hj.
  destruct (Nat.eq_dec i j) as [->|Hne].
  - assert (x = y) as -> by congruence.
    rewrite (upd_same l j y Hj). rewrite (upd_same l j y Hj). reflexivity.
  - apply (Permutation_cons_inv (a := y)).
    transitivity (x :: upd l i y); [now apply upd_perm|].
    apply upd_perm. rewrite nth_error_upd_neq; auto.
Qed.
