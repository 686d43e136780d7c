(* Model of internal/functional/hash.h, internal/string/hash.h and bit.h. *)
From Coq Require Import List ZArith.
From Verif Require Import MachInt.
Import ListNotations.
Local Open Scope Z_scope.

(* functional/hash.h:34-38 *)
Definition FNV1_64_INIT := 14695981039346656037.   (* 0xcbf29ce484222325 *)
Definition FNV1A_32_PRIME := 16777619.
Definition FNV1A_32_OFFSET_BASIS := 2166136261.
(* 40-44; each << and each + in uint64_t *)
Definition shl64 (h k : Z) : Z := u64 (Z.shiftl h k).
Definition add64 (a b : Z) : Z := u64 (a + b).
Definition shift_sum (h : Z) : Z :=
  add64 (add64 (add64 (add64 (add64 (shl64 h 1) (shl64 h 4)) (shl64 h 5)) (shl64 h 7)) (shl64 h 8)) (shl64 h 40).
(* 50-67: static_cast<uint8_t>, then widened *)
Definition cast8 (c : Z) : Z := wrapu 8 c.

(* 71-88.  The iterator pair is the list of the characters it goes over *)
Fixpoint hash32_1 (s : list Z) (h : Z) : Z :=
  match s with
  | [] => h
  | c :: t => let h := u32 (h * FNV1A_32_PRIME) in hash32_1 t (Z.lxor h (cast8 c))
  end.
(* 90-107 *)
Fixpoint hash32_1a (s : list Z) (h : Z) : Z :=
  match s with
  | [] => h
  | c :: t => let h := Z.lxor h (cast8 c) in hash32_1a t (u32 (h * FNV1A_32_PRIME))
  end.
(* 109-125 *)
Fixpoint hash64_1 (s : list Z) (h : Z) : Z :=
  match s with
  | [] => h
  | c :: t => let h := add64 h (shift_sum h) in hash64_1 t (Z.lxor h (cast8 c))
  end.
(* 127-143 *)
Fixpoint hash64_1a (s : list Z) (h : Z) : Z :=
  match s with
  | [] => h
  | c :: t => let h := Z.lxor h (cast8 c) in hash64_1a t (add64 h (shift_sum h))
  end.
(* 73, 92, 111, 129: INIT, the default start *)
Definition INIT32 := FNV1A_32_OFFSET_BASIS.
Definition INIT64 := FNV1_64_INIT.

(* 174-181: integral_hash, for a size_t of sz bits *)
Definition integral_hash (sz : Z) (v : Z) : Z := wrapu sz v.
(* 185-195 with uint32_t; string/hash.h:12-20: hash of a string or view with these characters.
   The uint32_t is converted to size_t *)
Definition string_hash (sz : Z) (s : list Z) : Z := wrapu sz (hash32_1a s INIT32).

(* bit.h.  The compiler's __builtin_bswapN *)
Definition byte_at (n i : Z) : Z := Z.land (Z.shiftr n i) 255.
Definition bswap16 (n : Z) : Z := Z.lor (Z.shiftl (byte_at n 0) 8) (byte_at n 8).
Definition bswap32 (n : Z) : Z :=
  Z.lor (Z.shiftl (byte_at n 0) 24) (Z.lor (Z.shiftl (byte_at n 8) 16)
    (Z.lor (Z.shiftl (byte_at n 16) 8) (byte_at n 24))).
Definition bswap64 (n : Z) : Z := Z.lor (Z.shiftl (bswap32 (Z.land n 4294967295)) 32) (bswap32 (Z.shiftr n 32)).

Definition t16 (s : bool) := Ity 16 s.
Definition t32 (s : bool) := Ity 32 s.
(* 46-49, 56-59: the argument becomes unsigned, the result becomes the type again *)
Definition byteswap16 (s : bool) (n : Z) : Z := wrap (t16 s) (bswap16 (wrapu 16 n)).
(* 65-75 *)
Definition byteswap32 (s : bool) (n : Z) : Z := wrap (t32 s) (bswap32 (wrapu 32 n)).
(* 81-85 *)
Definition byteswap64 (n : Z) : Z := bswap64 (wrapu 64 n).
(* 94-95: the overload of detail::byteswap the type T selects, and its result converted to T.  An
   8 bit T is promoted to int, so it selects int32_t.  A signed 64 bit T does not compile
   (no best overload): None. *)
Definition byteswap (t : ity) (n : Z) : option Z :=
  if Z.eqb (bits t) 16 then Some (byteswap16 (sgn t) n)
  else if Z.eqb (bits t) 32 then Some (byteswap32 (sgn t) n)
  else if Z.eqb (bits t) 64 then (if sgn t then None else Some (byteswap64 n))
  else if Z.eqb (bits t) 8 then Some (wrap t (byteswap32 true n))
  else None.
