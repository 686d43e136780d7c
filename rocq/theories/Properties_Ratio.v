(* C56: ratio arithmetic. *)
From Coq Require Import ZArith QArith Lia.
From Verif Require Import Ratio_Spec Ratio_Model Ratio_Proofs.
Local Open Scope Z_scope.

(* C56 (there is no ratio_subtract and no comparison in this library).  Whenever the
   quotient, product or sum of two ratios compiles it is the exact rational result, in lowest
   terms, with a denominator that is not zero. *)
Theorem C56_ratio_arithmetic_exact : forall r1 r2 r : ratio, snd r1 <> 0 -> snd r2 <> 0 ->
  (fst r2 <> 0 -> ratio_divide r1 r2 = Some r ->
     snd r <> 0 /\ (value r == value r1 / value r2)%Q /\ lowest_terms (fst r) (snd r)) /\
  (ratio_multiply r1 r2 = Some r ->
     snd r <> 0 /\ (value r == value r1 * value r2)%Q /\ lowest_terms (fst r) (snd r)) /\
  (ratio_add r1 r2 = Some r ->
     snd r <> 0 /\ (value r == value r1 + value r2)%Q /\ lowest_terms (fst r) (snd r)).
Proof.
  intros r1 r2 r D1 D2. split; [|split].
  - intros N2 H. now apply divide_inv.
  - intros H. now apply multiply_inv.
  - intros H. now apply add_inv.
Qed.
Print Assumptions C56_ratio_arithmetic_exact.

(* and it compiles when the intermediate products are representable *)
Theorem C56_ratio_arithmetic_compiles : forall r1 r2 : ratio, snd r1 <> 0 -> snd r2 <> 0 ->
  (fst r2 <> 0 -> fits (snd r2 * fst r1) -> fits (snd r1 * fst r2) -> exists r, ratio_divide r1 r2 = Some r) /\
  (fits (fst r1 * fst r2) -> fits (snd r2 * snd r1) -> exists r, ratio_multiply r1 r2 = Some r) /\
  (fits (fst r1 * snd r2) -> fits (fst r2 * snd r1) -> fits (snd r1 * snd r2) ->
   fits (fst r1 * snd r2 + fst r2 * snd r1) -> exists r, ratio_add r1 r2 = Some r).
Proof.
  intros r1 r2 D1 D2. split; [|split].
  - intros. now apply divide_ok.
  - intros. now apply multiply_ok.
  - intros. now apply add_ok.
Qed.
Print Assumptions C56_ratio_arithmetic_compiles.

(* ::type is the same number in lowest terms; with positive arguments both parts stay positive *)
Theorem C56_type_reduces : forall n d, d <> 0 -> fits n -> fits d ->
  exists r, type (n, d) = Some r /\ (value r == frac n d)%Q /\ lowest_terms (fst r) (snd r) /\
            (0 < n -> 0 < d -> 0 < fst r /\ 0 < snd r).
Proof.
  intros n d D Fn Fd. destruct (type_ok n d Fn Fd D) as (r & H). exists r. split; [exact H|].
  destruct (type_inv n d r D H) as (_ & V & L). split; [exact V|]. split; [exact L|].
  intros N P. now apply (type_pos n d).
Qed.
Print Assumptions C56_type_reduces.

(* the greatest common divisor, up to its sign *)
Theorem C56_gcd : forall a b, fits a -> fits b -> exists g, gcd a b = Some g /\ Z.abs g = Z.gcd a b.
Proof. exact gcd_ok. Qed.
Print Assumptions C56_gcd.

(* The ratio itself is not reduced: num and den keep any common factor, unlike std::ratio. *)
Theorem C201_num_den_not_reduced_refuted : forall k n d, 1 < k -> n <> 0 ->
  ~ lowest_terms (num (k * n, k * d)) (den (k * n, k * d)).
Proof.
  intros k n d K N. unfold lowest_terms, num, den. cbn [fst snd]. rewrite Z.gcd_mul_mono_l, Z.abs_eq by lia.
  pose proof (Z.gcd_nonneg n d). assert (Z.gcd n d <> 0) by (intros E; apply Z.gcd_eq_0_l in E; contradiction). nia.
Qed.
Print Assumptions C201_num_den_not_reduced_refuted.

(* With a negative numerator the sign may move to the denominator: minus one half, however
   written, reduces to 1/-2. *)
Theorem C201_sign_moves_to_denominator_refuted : forall k, 0 < k < 2 ^ 62 -> type (- k, 2 * k) = Some (1, -2).
Proof.
  intros k K. unfold type. cbn [fst snd].
  assert (G : gcd (- k) (2 * k) = Some (- k)).
  { assert (Q0 : Z.quot (- k) (2 * k) = 0) by (rewrite Z.quot_opp_l by lia; rewrite Z.quot_small by lia; reflexivity).
    assert (R0 : Z.rem (- k) (2 * k) = - k) by (rewrite Z.rem_opp_l by lia; rewrite Z.rem_small by lia; reflexivity).
    assert (Q1 : Z.quot (2 * k) (- k) = -2) by (replace (2 * k) with ((-2) * (- k)) by ring; apply Z.quot_mul; lia).
    assert (R1 : Z.rem (2 * k) (- k) = 0) by (replace (2 * k) with ((-2) * (- k)) by ring; apply Z.rem_mul; lia).
    change (gcd (- k) (2 * k)) with
      (if 2 * k =? 0 then Some (- k) else obind (rem64 (- k) (2 * k)) (fun r =>
         if r =? 0 then Some (2 * k) else obind (rem64 (2 * k) r) (fun r2 => gcd_ 128 r r2))).
    unfold rem64. destruct (Z.eqb_spec (2 * k) 0); [lia|]. rewrite Q0, R0. cbn [obind in64 andb Z.leb Z.ltb Z.compare].
    change (in64 0) with (Some 0). cbn [obind].
    destruct (Z.eqb_spec (- k) 0); [lia|]. rewrite Q1, R1. change (in64 (-2)) with (Some (-2)). cbn [obind].
    change (gcd_ 128 (- k) 0) with (Some (- k)). reflexivity. }
  rewrite G. cbn [obind]. unfold div64. destruct (Z.eqb_spec (- k) 0); [lia|].
  rewrite Z.quot_same by lia. change (in64 1) with (Some 1). cbn [obind].
  replace (2 * k) with ((-2) * (- k)) by ring. rewrite Z.quot_mul by lia. reflexivity.
Qed.
Print Assumptions C201_sign_moves_to_denominator_refuted.

(* 5/6 divided by 10/9, times 10/9, plus 1/-4; minutes in milliseconds *)
Example C56_case :
  ratio_divide (5, 6) (10, 9) = Some (3, 4) /\ ratio_multiply (5, 6) (10, 9) = Some (25, 27) /\
  ratio_add (5, 6) (1, -4) = Some (7, 12) /\ ratio_divide (60, 1) (1, 1000) = Some (60000, 1) /\
  (value (3, 4)%Z == value (5, 6)%Z / value (10, 9)%Z)%Q /\
  ratio_multiply (2 ^ 40, 1) (2 ^ 40, 1) = None /\ type (-3, 6) = Some (1, -2) /\
  gcd 7540113804746346429 4660046610375530309 = Some 1.
Proof. repeat split; vm_compute; reflexivity. Qed.
