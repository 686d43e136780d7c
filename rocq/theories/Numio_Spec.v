(* What reading a number means.  Only the notion of a numeral is used, nothing of the code. *)
From Coq Require Import List ZArith.
From Verif Require Import MachInt Charconv_Spec.
Import ListNotations.
Local Open Scope Z_scope.

(* The text is an optional sign (a minus, for signed types only), the maximal run [pre] of
   digits of the base, with values ds, and the rest. *)
Definition number_text (t : ity) (base : Z) (text sign pre ds rest : list Z) : Prop :=
  text = sign ++ pre ++ rest /\
  (sign = [45] /\ sgn t = true \/ sign = [] /\ (sgn t = true -> hd_error text <> Some 45)) /\
  spells base pre ds /\ no_digit_head base rest.
(* The number written. *)
Definition signed_value (base : Z) (sign ds : list Z) : Z :=
  match sign with [] => value_of base ds | _ => - value_of base ds end.
(* The nearest value of the type. *)
Definition saturate (t : ity) (z : Z) : Z := Z.max (imin t) (Z.min (imax t) z).

(* Comparing a text with a name: how many characters are looked at, and the verdict. *)
Inductive verdict := Same | Different | TooShort.
Fixpoint compare_name (text want : list Z) {struct want} : nat * verdict :=
  match want, text with
  | [], _ => (0%nat, Same)
  | _, [] => (0%nat, TooShort)
  | w :: want', x :: text' =>
      if x =? w then let (n, v) := compare_name text' want' in (S n, v) else (1%nat, Different)
  end.

(* "true" and "false" *)
Definition true_name : list Z := [116; 114; 117; 101].
Definition false_name : list Z := [102; 97; 108; 115; 101].
