(* Fixed-width integer conversions of the C/C++ abstract machine, on Z. *)
From Coq Require Import ZArith Lia.
Local Open Scope Z_scope.

Definition wrapu (w z : Z) : Z := z mod 2 ^ w.                               (* to unsigned w bits *)
Definition wraps (w z : Z) : Z := (z + 2 ^ (w - 1)) mod 2 ^ w - 2 ^ (w - 1). (* to signed w bits, two's complement *)

Definition u32 (z : Z) : Z := z mod 4294967296.
Definition u64 (z : Z) : Z := z mod 18446744073709551616.
Definition s32 (z : Z) : Z := (z + 2147483648) mod 4294967296 - 2147483648.

Lemma u32_id z : 0 <= z < 4294967296 -> u32 z = z.
Proof. intros; unfold u32; now apply Z.mod_small. Qed.
Lemma u64_id z : 0 <= z < 18446744073709551616 -> u64 z = z.
Proof. intros; unfold u64; now apply Z.mod_small. Qed.
Lemma s32_id z : -2147483648 <= z < 2147483648 -> s32 z = z.
Proof. intros; unfold s32; rewrite Z.mod_small; lia. Qed.

(* An integer type: width in bits, signed or not. *)
Record ity := Ity { bits : Z; sgn : bool }.
Definition imin (t : ity) : Z := if sgn t then - 2 ^ (bits t - 1) else 0.
Definition imax (t : ity) : Z := if sgn t then 2 ^ (bits t - 1) - 1 else 2 ^ bits t - 1.
Definition in_range (t : ity) (z : Z) : Prop := imin t <= z <= imax t.
(* Conversion of any integer to type t. *)
Definition wrap (t : ity) (z : Z) : Z := if sgn t then wraps (bits t) z else wrapu (bits t) z.
(* The types the library specialises its tables for. *)
Definition std_ity (t : ity) : Prop := bits t = 8 \/ bits t = 16 \/ bits t = 32 \/ bits t = 64.
(* v is not the most negative value of a signed type. *)
Definition not_min (t : ity) (v : Z) : Prop := sgn t = true -> v <> imin t.

Lemma pow_half w : 1 <= w -> 2 ^ w = 2 * 2 ^ (w - 1).
Proof. intros. rewrite <- Z.pow_succ_r by lia. f_equal. lia. Qed.

Lemma wrap_id t z : 1 <= bits t -> in_range t z -> wrap t z = z.
Proof.
  unfold in_range, wrap, imin, imax, wraps, wrapu. intros Hb H.
  destruct (sgn t).
  - rewrite Z.mod_small; [lia|]. rewrite (pow_half (bits t)) by lia. lia.
  - rewrite Z.mod_small; lia.
Qed.
