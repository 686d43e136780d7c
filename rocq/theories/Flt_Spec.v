(* What reading a decimal fraction means, and which number a binary floating point format holds
   for it.  Nothing here mentions the code. *)
From Coq Require Import List ZArith QArith Qabs Qpower.
From Verif Require Import Charconv_Spec.
Import ListNotations.
Local Open Scope Z_scope.

(* A format of IEEE 754: how many binary digits a significand has, and the power of two all
   finite numbers stay below. *)
Record fmt := Fmt { prec : Z; emax : Z }.
Definition binary32 : fmt := Fmt 24 128.
Definition binary64 : fmt := Fmt 53 1024.
Definition std_fmt (fm : fmt) : Prop := fm = binary32 \/ fm = binary64.
(* The exponent of the smallest number above zero. *)
Definition emin (fm : fmt) : Z := 3 - emax fm - prec fm.

Definition pow2 (e : Z) : Q := Qpower (inject_Z 2) e.
(* x is m times 2^e, in the format. *)
Definition written_as (fm : fmt) (x : Q) (m e : Z) : Prop :=
  Z.abs m < 2 ^ prec fm /\ emin fm <= e <= emax fm - prec fm /\ (x == inject_Z m * pow2 e)%Q.
Definition representable (fm : fmt) (x : Q) : Prop := exists m e, written_as fm x m e.
Definition even_significand (fm : fmt) (x : Q) : Prop := exists m e, written_as fm x (2 * m) e.

(* f is the number of the format nearest to x; of two equally near ones, that with the even
   significand. *)
Definition nearest (fm : fmt) (x f : Q) : Prop :=
  representable fm f /\
  forall g, representable fm g -> ~ (g == f)%Q ->
    (Qabs (x - f) < Qabs (x - g))%Q \/
    ((Qabs (x - f) == Qabs (x - g))%Q /\ even_significand fm f).

(* The text is an optional minus sign, the digits [ip], then nothing more or a decimal point and
   the digits [fp], as many as there are; [rest] follows. *)
Definition decimal_text (text sign ip : list Z) (fp : option (list Z)) (ds rest : list Z) : Prop :=
  text = sign ++ ip ++ (match fp with None => [] | Some f => 46 :: f end) ++ rest /\
  (sign = [45] \/ sign = []) /\
  spells 10 (ip ++ match fp with None => [] | Some f => f end) ds /\
  no_digit_head 10 rest /\ hd_error rest <> Some 46.
Definition places (fp : option (list Z)) : nat := match fp with None => 0 | Some f => length f end.
Definition ndigits (ip : list Z) (fp : option (list Z)) : nat := (length ip + places fp)%nat.
(* The number it writes. *)
Definition ten_to (k : nat) : positive := Z.to_pos (10 ^ Z.of_nat k).
Definition dec_num (sign ds : list Z) : Z := match sign with [] => value_of 10 ds | _ => - value_of 10 ds end.
Definition dec_value (sign ds : list Z) (k : nat) : Q := dec_num sign ds # ten_to k.

(* The relative error of one rounding. *)
Definition eps (fm : fmt) : Q := 1 # Z.to_pos (2 ^ prec fm).
Fixpoint qpow (x : Q) (n : nat) : Q := match n with O => 1%Q | S n => (x * qpow x n)%Q end.
(* f is x up to the errors of a roundings above and b roundings below a fraction bar:
   x (1-eps)^a / (1+eps)^b <= f <= x (1+eps)^a / (1-eps)^b. *)
Definition within (fm : fmt) (a b : nat) (x f : Q) : Prop :=
  (qpow (1 - eps fm) a * x <= qpow (1 + eps fm) b * f)%Q /\
  (qpow (1 - eps fm) b * f <= qpow (1 + eps fm) a * x)%Q.

(* Digits one more than a significand holds: 167772171 and 90071992547409931. *)
Definition long_digits (fm : fmt) : list Z :=
  if prec fm =? 24 then [1; 6; 7; 7; 7; 2; 1; 7; 1] else [9; 0; 0; 7; 1; 9; 9; 2; 5; 4; 7; 4; 0; 9; 9; 3; 1].
Definition long_text (fm : fmt) : list Z := map (fun d => 48 + d) (long_digits fm).
