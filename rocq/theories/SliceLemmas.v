(* Lemmas about contiguous pieces of a list (firstn/skipn ranges). *)
From Verif Require Import Base.

Definition sl {A} (m : list A) (i j : nat) : list A := firstn (j - i) (skipn i m).

Lemma sl_length {A} (m : list A) i j : i <= j -> j <= length m -> length (sl m i j) = j - i.
Proof. intros. unfold sl. rewrite firstn_length, skipn_length. lia. Qed.

Lemma sl_nil {A} (m : list A) i j : j <= i -> sl m i j = [].
Proof. intros. unfold sl. replace (j - i) with 0 by lia. reflexivity. Qed.

Lemma nth_error_firstn {A} (l : list A) n i :
  nth_error (firstn n l) i = if Nat.ltb i n then nth_error l i else None.
Proof.
  revert n i; induction l as [|a t IH]; intros [|n] [|i]; simpl; auto.
  - now destruct (Nat.ltb (S i) (S n)).
  - rewrite IH. reflexivity.
Qed.

Lemma nth_error_skipn {A} (l : list A) n i :
  nth_error (skipn n l) i = nth_error l (n + i).
Proof.
  revert n; induction l as [|a t IH]; intros [|n]; simpl; auto.
  now destruct i.
Qed.

Lemma nth_error_sl {A} (m : list A) i j x :
  nth_error (sl m i j) x = if Nat.ltb x (j - i) then nth_error m (i + x) else None.
Proof. unfold sl. rewrite nth_error_firstn, nth_error_skipn. reflexivity. Qed.

Lemma list_ext {A} (l1 l2 : list A) :
  (forall i, nth_error l1 i = nth_error l2 i) -> l1 = l2.
Proof.
  revert l2; induction l1 as [|h t IH]; intros [|h2 t2] H; auto.
  - specialize (H 0); discriminate.
  - specialize (H 0); discriminate.
  - pose proof (H 0) as H0; simpl in H0. injection H0 as ->.
    f_equal. apply IH. intros i. exact (H (S i)).
Qed.

Lemma sl_split {A} (m : list A) i j k :
  i <= j -> j <= k -> k <= length m -> sl m i k = sl m i j ++ sl m j k.
Proof.
  intros H1 H2 H3. apply list_ext. intros x.
  destruct (Nat.ltb_spec x (j - i)).
  - rewrite nth_error_app1 by (rewrite sl_length; lia).
    rewrite !nth_error_sl.
    destruct (Nat.ltb_spec x (k - i)); [|lia]. destruct (Nat.ltb_spec x (j - i)); [|lia]. reflexivity.
  - rewrite nth_error_app2 by (rewrite sl_length; lia).
    rewrite sl_length by lia. rewrite !nth_error_sl.
    destruct (Nat.ltb_spec x (k - i)); destruct (Nat.ltb_spec (x - (j - i)) (k - j)); try lia; auto.
    f_equal. lia.
Qed.

(* overwriting d at offset e *)
Definition overwrite {A} (m : list A) (e : nat) (d : list A) : list A :=
  firstn e m ++ d ++ skipn (e + length d) m.

Lemma overwrite_length {A} (m : list A) e d :
  e + length d <= length m -> length (overwrite m e d) = length m.
Proof.
  intros. unfold overwrite. rewrite !app_length, firstn_length, skipn_length. lia.
Qed.

Lemma nth_error_overwrite {A} (m : list A) e d x :
  e + length d <= length m ->
  nth_error (overwrite m e d) x =
    if Nat.ltb x e then nth_error m x
    else if Nat.ltb x (e + length d) then nth_error d (x - e) else nth_error m x.
Proof.
  intros H. unfold overwrite.
  destruct (Nat.ltb_spec x e).
  - rewrite nth_error_app1 by (rewrite firstn_length; lia).
    rewrite nth_error_firstn. destruct (Nat.ltb_spec x e); [auto|lia].
  - rewrite nth_error_app2 by (rewrite firstn_length; lia).
    rewrite firstn_length, Nat.min_l by lia.
    destruct (Nat.ltb_spec x (e + length d)).
    + rewrite nth_error_app1 by lia. reflexivity.
    + rewrite nth_error_app2 by lia. rewrite nth_error_skipn. f_equal. lia.
Qed.

Lemma sl_overwrite_append {A} (m : list A) i e d :
  i <= e -> e + length d <= length m ->
  sl (overwrite m e d) i (e + length d) = sl m i e ++ d.
Proof.
  intros H1 H2. apply list_ext. intros x.
  rewrite nth_error_sl, nth_error_overwrite by lia.
  destruct (Nat.ltb_spec x (e - i)).
  - rewrite nth_error_app1 by (rewrite sl_length; lia). rewrite nth_error_sl.
    destruct (Nat.ltb_spec x (e + length d - i)); [|lia].
    destruct (Nat.ltb_spec (i + x) e); [|lia]. destruct (Nat.ltb_spec x (e - i)); [auto|lia].
  - rewrite nth_error_app2 by (rewrite sl_length; lia). rewrite sl_length by lia.
    destruct (Nat.ltb_spec x (e + length d - i)).
    + destruct (Nat.ltb_spec (i + x) e); [lia|].
      destruct (Nat.ltb_spec (i + x) (e + length d)); [|lia]. f_equal; lia.
    + symmetry. apply nth_error_None. lia.
Qed.

Lemma sl_overwrite_disjoint {A} (m : list A) i j e d :
  e + length d <= length m -> j <= e \/ e + length d <= i ->
  sl (overwrite m e d) i j = sl m i j.
Proof.
  intros H1 H2. apply list_ext. intros x. rewrite !nth_error_sl.
  destruct (Nat.ltb_spec x (j - i)); auto.
  rewrite nth_error_overwrite by lia.
  destruct (Nat.ltb_spec (i + x) e); auto.
  destruct (Nat.ltb_spec (i + x) (e + length d)); auto. lia.
Qed.
