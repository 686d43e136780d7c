From Coq Require Import List ZArith Lia Bool.
From Verif Require Import MachInt Hash_Spec Hash_Model Hash_Proofs.
Local Open Scope Z_scope.

(* C44.  fnv_hash::hash over any characters, from the default start and from any other, is the
   published function of the octets *)
Theorem C44_fnv1_32 s h : hash32_1 s INIT32 = fnv1 fnv32 (map octet s) /\ hash32_1 s h = fnv1_from fnv32 h (map octet s).
Proof. split; apply h32_1. Qed.
Print Assumptions C44_fnv1_32.
Theorem C44_fnv1a_32 s h : hash32_1a s INIT32 = fnv1a fnv32 (map octet s) /\ hash32_1a s h = fnv1a_from fnv32 h (map octet s).
Proof. split; apply h32_1a. Qed.
Print Assumptions C44_fnv1a_32.
Theorem C44_fnv1_64 s h : hash64_1 s INIT64 = fnv1 fnv64 (map octet s) /\ hash64_1 s h = fnv1_from fnv64 h (map octet s).
Proof. split; apply h64_1. Qed.
Print Assumptions C44_fnv1_64.
Theorem C44_fnv1a_64 s h : hash64_1a s INIT64 = fnv1a fnv64 (map octet s) /\ hash64_1a s h = fnv1a_from fnv64 h (map octet s).
Proof. split; apply h64_1a. Qed.
Print Assumptions C44_fnv1a_64.
(* published test vectors ("a", "foobar"; 0xe40c292c, 0xbf9cf968, 0xaf63dc4c8601ec8c,
   0x85944171f73967e8; FNV-1: 0x050c5d7e, 0xaf63bd4c8601b7be), and a signed character *)
Example C44_case :
  hash32_1a [97] INIT32 = 3826002220 /\ hash32_1a [102; 111; 111; 98; 97; 114] INIT32 = 3214735720 /\
  hash64_1a [97] INIT64 = 12638187200555641996 /\ hash64_1a [102; 111; 111; 98; 97; 114] INIT64 = 9625390261332436968 /\
  hash32_1 [97] INIT32 = 84696446 /\ hash64_1 [97] INIT64 = 12638153115695167422 /\
  hash32_1a [-1] INIT32 = hash32_1a [255] INIT32.
Proof. vm_compute. repeat split. Qed.

(* C45.  Incremental; every string permutes the hash values; changing one character changes the
   hash *)
Theorem C45_permutes : runs hash32_1 fnv32 /\ runs hash32_1a fnv32 /\ runs hash64_1 fnv64 /\ runs hash64_1a fnv64.
Proof.
  split; [exact (runs_fnv1 _ _ _ inv32 h32_1)|]. split; [exact (runs_fnv1a _ _ _ inv32 h32_1a)|].
  split; [exact (runs_fnv1 _ _ _ inv64 h64_1)|exact (runs_fnv1a _ _ _ inv64 h64_1a)].
Qed.
Print Assumptions C45_permutes.
Example C45_case : hash_value fnv32 INIT32 /\ hash_value fnv64 INIT64 /\ octet (-1) <> octet 254 /\
  hash32_1a [97; 98; 99] INIT32 = hash32_1a [99] (hash32_1a [97; 98] INIT32).
Proof. vm_compute. repeat split; discriminate. Qed.

(* C46.  byteswap for 16 and 32 bits and unsigned 64 bits *)
Theorem C46_byteswap t v w :
  (bits t = 16 \/ bits t = 32 \/ (bits t = 64 /\ sgn t = false)) -> w = Z.to_nat (bits t / 8) -> in_range t v ->
  exists r, byteswap t v = Some r /\ bytes w r = rev (bytes w v) /\ in_range t r /\ byteswap t r = Some v.
Proof. exact (byteswap_ok t v w). Qed.
Print Assumptions C46_byteswap.
(* for 8 bits, where there is nothing to swap, the result is 0 (or -1 for a negative value) *)
Theorem C192_byte_refuted t v : bits t = 8 -> in_range t v -> byteswap t v = Some (if v <? 0 then -1 else 0).
Proof. exact (byteswap8 t v). Qed.
Print Assumptions C192_byte_refuted.
(* for int64_t there is no function to call *)
Theorem C192_int64_refuted v : byteswap (Ity 64 true) v = None.
Proof. reflexivity. Qed.
Print Assumptions C192_int64_refuted.
Example C46_case : in_range (Ity 32 true) (-500) /\ byteswap (Ity 32 true) (-500) = Some 218038271 /\
  byteswap (Ity 16 false) 4660 = Some 13330 /\ byteswap (Ity 64 false) 1 = Some 72057594037927936 /\
  in_range (Ity 8 false) 200 /\ byteswap (Ity 8 false) 200 = Some 0.
Proof. vm_compute. repeat split; discriminate. Qed.

(* C85.  hash of an integer: no two values of a type no wider than size_t (sz bits) collide... *)
Theorem C85_integral t sz v w : 1 <= bits t <= sz -> in_range t v -> in_range t w ->
  integral_hash sz v = integral_hash sz w -> v = w.
Proof. exact (integral_inj t sz v w). Qed.
Print Assumptions C85_integral.
(* ... of a wider type, values 2^sz apart do *)
Theorem C217_wide_refuted sz v : 0 <= sz -> integral_hash sz (v + 2 ^ sz) = integral_hash sz v.
Proof. exact (integral_collide sz v). Qed.
Print Assumptions C217_wide_refuted.
(* hash of a string or view: the 32 bit FNV-1a of its characters, of whatever kind the string is;
   its low bits only where size_t is narrower *)
Theorem C85_string sz s : 0 <= sz -> string_hash sz s = fnv1a fnv32 (map octet s) mod 2 ^ sz /\
  (32 <= sz -> string_hash sz s = fnv1a fnv32 (map octet s)).
Proof.
  intros Z0. unfold string_hash, wrapu. destruct (C44_fnv1a_32 s 0) as [-> _]. split; [reflexivity|].
  intros W. apply Z.mod_small.
  pose proof (fnv1a_value fnv32 _ inv32 (map octet s) (octets_are s) (basis fnv32)) as B.
  assert (P : 2 ^ 32 <= 2 ^ sz) by (apply Z.pow_le_mono_r; lia).
  specialize (B ltac:(vm_compute; split; [discriminate|reflexivity])). unfold hash_value in B. cbn [width fnv32] in B.
  unfold fnv1a. lia.
Qed.
Print Assumptions C85_string.
Example C85_case : in_range (Ity 32 true) (-1) /\ integral_hash 64 (-1) = 18446744073709551615 /\
  integral_hash 32 4294967297 = integral_hash 32 1 /\ string_hash 64 [97] = 3826002220 /\ string_hash 16 [97] = 10540.
Proof. vm_compute. repeat split; discriminate. Qed.
