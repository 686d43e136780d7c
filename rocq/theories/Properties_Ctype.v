(* Character classification: C133-C138. *)
From Coq Require Import ZArith Lia List Bool.
From Verif Require Import Ctype_Spec Charconv_Model Ctype_Model Ctype_Proofs.
Import ListNotations.
Local Open Scope Z_scope.

(* the functions of cctype.h *)
Theorem C133_cctype ch :
  (c_isupper ch = true <-> In ch (members Upper)) /\
  (c_islower ch = true <-> In ch (members Lower)) /\
  (c_isalpha ch = true <-> In ch (members Alpha)) /\
  (c_isdigit ch = true <-> In ch (members Digit)).
Proof. split; [|split; [|split]]; [apply c_isupper_ok|apply c_islower_ok|apply c_isalpha_ok|apply c_isdigit_ok]. Qed.
Print Assumptions C133_cctype.
Example C133_case : c_isalpha 122 = true /\ c_isalpha 123 = false /\ c_isupper 64 = false /\ c_isdigit (-1) = false.
Proof. repeat split. Qed.

(* isspace(int) knows the space character only *)
Theorem C240_isspace_refuted ch :
  In ch (members Space) -> (c_isspace ch = true <-> ch = 32).
Proof. intros _. unfold c_isspace. lia. Qed.
Print Assumptions C240_isspace_refuted.
Theorem C134_isspace_only_spaces ch : c_isspace ch = true -> In ch (members Space).
Proof. unfold c_isspace. intros H. apply Z.eqb_eq in H as ->. now left. Qed.
Print Assumptions C134_isspace_only_spaces.
Example C134_case : In 10 (members Space) /\ c_isspace 10 = false.
Proof. split; [cbn; tauto|reflexivity]. Qed.

(* isspace(ch, locale) *)
Theorem C135_isspace_locale ch : isspace_loc ch = true <-> In ch (members Space).
Proof.
  unfold isspace_loc. rewrite pieces. split.
  - intros [[_ H]|[[[H _]|(_ & H & _)]|[[H _]|(_ & H & _)]]]; try discriminate H; exact H.
  - intros H. left. split; [reflexivity|exact H].
Qed.
Print Assumptions C135_isspace_locale.
Example C135_case : isspace_loc 11 = true /\ isspace_loc 14 = false /\ isspace_loc (-1) = false.
Proof. repeat split. Qed.

(* ctype::is(m, ch) for masks of space, digit, xdigit and upper *)
Theorem C136_is m ch :
  Z.land m (bit Alpha) = 0 -> Z.land m (bit Punct) = 0 -> Z.land m (bit Lower) = 0 ->
  (is m ch = true <-> exists k, Z.land m (bit k) <> 0 /\ In ch (members k)).
Proof.
  intros NA NP NL. rewrite pieces. split.
  - intros [[H I]|[[[H I]|(_ & H & I)]|[[H I]|(_ & H & _)]]];
      [exists Space|exists Xdigit|exists Digit|exists Upper|apply has_land in H; contradiction];
      apply has_land in H; auto.
  - intros (k & H & I). pose proof H as H0. apply has_land in H. destruct k; cbn [members] in I.
    + left; auto.
    + right; left. destruct (has m Xdigit) eqn:E; [left|right]; auto using digits_sub.
    + contradiction.
    + contradiction.
    + right; right; left; auto.
    + contradiction.
    + right; left; left; auto.
Qed.
Print Assumptions C136_is.
(* the categories of a mask are told apart: each has a bit, and no two share one *)
Theorem C136_apart : forall k k', bit k <> 0 /\ (k <> k' -> Z.land (bit k) (bit k') = 0).
Proof. intros [] []; split; try discriminate; intro H; try reflexivity; destruct H; reflexivity. Qed.
Print Assumptions C136_apart.
Example C136_case :
  Z.land 83 (bit Alpha) = 0 /\ Z.land 83 (bit Punct) = 0 /\ Z.land 83 (bit Lower) = 0 /\
  is 83 102 = true /\ is 83 103 = false /\ is 83 71 = true /\ is 83 32 = true.
Proof. repeat split. Qed.

(* the other categories *)
Theorem C137_is_lower_refuted ch : is (bit Lower) ch = true <-> ch = 97.
Proof.
  rewrite pieces. cbn. split.
  - intros [[H _]|[[[H _]|(_ & H & _)]|[[H _]|(_ & _ & H)]]]; try discriminate H; exact H.
  - intros ->. right. right. right. auto.
Qed.
Print Assumptions C137_is_lower_refuted.
Theorem C137_is_upper_lower_refuted ch :
  In ch (members Lower) -> is (Z.lor (bit Upper) (bit Lower)) ch = false.
Proof.
  intros I. destruct (is (Z.lor (bit Upper) (bit Lower)) ch) eqn:E; [|reflexivity]. exfalso.
  apply pieces in E. cbn in E. destruct E as [[H _]|[[[H _]|(_ & H & _)]|[[_ H]|(H & _ & _)]]]; try discriminate H.
  apply c_isupper_ok in H. apply c_islower_ok in I. unfold c_isupper, c_islower in *. lia.
Qed.
Print Assumptions C137_is_upper_lower_refuted.
Theorem C137_is_alpha_punct_refuted m ch :
  (forall k, k <> Alpha -> k <> Punct -> Z.land m (bit k) = 0) -> is m ch = false.
Proof.
  intros N. destruct (is m ch) eqn:E; [|reflexivity]. exfalso. apply pieces in E.
  destruct E as [[H _]|[[[H _]|(_ & H & _)]|[[H _]|(_ & H & _)]]]; apply has_land in H; apply H; apply N; discriminate.
Qed.
Print Assumptions C137_is_alpha_punct_refuted.
Example C137_case : is (bit Lower) 98 = false /\ is (bit Alpha) 65 = false /\ is (bit Punct) 33 = false /\
  In 98 (members Lower) /\ In 65 (members Alpha) /\ In 33 (members Punct) /\
  (forall k, k <> Alpha -> k <> Punct -> Z.land 12 (bit k) = 0).
Proof. repeat split; try (cbn; tauto). intros []; try reflexivity; congruence. Qed.

(* digits and their values, in every base *)
Theorem C138_from_char base c v : 2 <= base <= 36 -> -128 <= c < 256 ->
  (from_char base c = Some v <-> digit_of c v /\ v < base).
Proof. intros. apply from_char_spec; lia. Qed.
Print Assumptions C138_from_char.
Theorem C138_to_char base v : 2 <= base <= 36 -> 0 <= v < base ->
  nth_error digits_lower (Z.to_nat v) = Some (to_char base false v) /\
  nth_error digits_upper (Z.to_nat v) = Some (to_char base true v).
Proof. intros Hb Hv. destruct (to_char_spec base v Hb Hv) as (A & B & _). auto. Qed.
Print Assumptions C138_to_char.
Theorem C138_round_trip base upper v : 2 <= base <= 36 -> 0 <= v < base ->
  from_char base (to_char base upper v) = Some v /\ from_char_raw base (to_char base upper v) = v.
Proof.
  intros Hb Hv. destruct (to_char_spec base v Hb Hv) as (A & B & C & D).
  assert (DL : digit_of (to_char base upper v) v) by (split; [lia|destruct upper; auto]).
  split; [|destruct upper; auto]. apply from_char_spec; [exact Hb| |split; [exact DL|lia]].
  assert (R : forallb (fun c => (0 <=? c) && (c <? 256)) (digits_lower ++ digits_upper) = true) by reflexivity.
  rewrite forallb_forall in R. 
  assert (I : In (to_char base upper v) (digits_lower ++ digits_upper)).
  { apply in_or_app. destruct upper; [right|left]; eapply nth_error_In; eauto. }
  specialize (R _ I). lia.
Qed.
Print Assumptions C138_round_trip.
Example C138_case : from_char 16 70 = Some 15 /\ from_char 16 102 = Some 15 /\ from_char 16 103 = None /\
  to_char 36 true 35 = 90 /\ from_char 8 56 = None.
Proof. repeat split. Qed.
