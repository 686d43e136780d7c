(* Proofs about Swap_Model.v. *)
From Verif Require Import Base BaseLemmas Swap_Model Swap_Spec.
Local Open Scope res_scope.

Lemma temp_swap_any {A} (l : list A) a b x y :
  nth_error l a = Some x -> nth_error l b = Some y ->
  temp_swap l a b = Ok (upd (upd l a y) b x).
Proof.
  intros Ha Hb. unfold temp_swap.
  rewrite (rd_ok _ _ _ Ha), (rd_ok _ _ _ Hb). simpl.
  rewrite wr_ok by (apply nth_error_Some; congruence). simpl.
  rewrite wr_ok; [reflexivity|]. rewrite upd_length. apply nth_error_Some; congruence.
Qed.

Lemma upd_upd {A} (l : list A) a x y : upd (upd l a x) a y = upd l a y.
Proof. revert a; induction l as [|h t IH]; intros [|a]; simpl; auto. now rewrite IH. Qed.

Lemma upd_comm {A} (l : list A) a b x y :
  a <> b -> upd (upd l a x) b y = upd (upd l b y) a x.
Proof.
  revert a b; induction l as [|h t IH]; intros [|a] [|b] H; simpl; auto; try lia.
  now rewrite IH by lia.
Qed.

Lemma temp_swap_keeps_self {A} : keeps_self (@temp_swap A).
Proof.
  intros l a x H. rewrite (temp_swap_any _ _ _ _ _ H H), upd_upd. f_equal. now apply upd_same.
Qed.

Lemma temp_swap_exchanges {A} : exchanges (@temp_swap A).
Proof.
  split.
  - intros; now apply temp_swap_any.
  - intros l a x H. exists x. rewrite (temp_swap_keeps_self _ _ _ H). f_equal.
    symmetry; now apply upd_same.
Qed.

Lemma xor_into_ok l a b x y :
  nth_error l a = Some x -> nth_error l b = Some y ->
  xor_into l a b = Ok (upd l a (Z.lxor x y)).
Proof.
  intros Ha Hb. unfold xor_into. rewrite (rd_ok _ _ _ Ha), (rd_ok _ _ _ Hb). cbn [bind].
  apply wr_ok. apply nth_error_Some; congruence.
Qed.

Lemma xor_swap_distinct l a b x y :
  a <> b -> nth_error l a = Some x -> nth_error l b = Some y ->
  xor_swap l a b = Ok (upd (upd l a y) b x).
Proof.
  intros Hab Ha Hb. unfold xor_swap.
  assert (La : a < length l) by (apply nth_error_Some; congruence).
  assert (Lb : b < length l) by (apply nth_error_Some; congruence).
  rewrite (xor_into_ok _ _ _ _ _ Ha Hb). cbn [bind].
  rewrite (xor_into_ok (upd l a (Z.lxor x y)) b a y (Z.lxor x y)); cbn [bind].
  2:{ rewrite nth_error_upd_neq by auto. exact Hb. }
  2:{ apply nth_error_upd_eq; auto. }
  rewrite (xor_into_ok _ a b (Z.lxor x y) (Z.lxor y (Z.lxor x y))).
  2:{ rewrite nth_error_upd_neq by auto. now apply nth_error_upd_eq. }
  2:{ apply nth_error_upd_eq. now rewrite upd_length. }
  f_equal.
  rewrite (upd_comm _ b a) by auto. rewrite upd_upd.
  assert (E1 : Z.lxor y (Z.lxor x y) = x).
  { rewrite (Z.lxor_comm x y), <- Z.lxor_assoc, Z.lxor_nilpotent. apply Z.lxor_0_l. }
  rewrite E1. f_equal. f_equal.
  rewrite (Z.lxor_comm x y), Z.lxor_assoc, Z.lxor_nilpotent. apply Z.lxor_0_r.
Qed.

Lemma xor_swap_self l a x : nth_error l a = Some x -> xor_swap l a a = Ok (upd l a 0%Z).
Proof.
  intros Ha. unfold xor_swap.
  assert (La : a < length l) by (apply nth_error_Some; congruence).
  rewrite (xor_into_ok _ _ _ _ _ Ha Ha). cbn [bind]. rewrite Z.lxor_nilpotent.
  assert (H0 : nth_error (upd l a 0%Z) a = Some 0%Z) by (now apply nth_error_upd_eq).
  rewrite (xor_into_ok _ _ _ _ _ H0 H0). cbn [bind]. rewrite Z.lxor_nilpotent, upd_upd.
  rewrite (xor_into_ok _ _ _ _ _ H0 H0). now rewrite Z.lxor_nilpotent, upd_upd.
Qed.

Lemma xor_swap_exchanges : exchanges xor_swap.
Proof.
  split.
  - intros; now apply xor_swap_distinct.
  - intros l a x H. exists 0%Z. now apply xor_swap_self with x.
Qed.
