(* The published Fowler-Noll-Vo hash functions, bytes of a number, in mathematical integers. *)
From Coq Require Export List ZArith.
Export ListNotations.
Local Open Scope Z_scope.

(* http://www.isthe.com/chongo/tech/comp/fnv/ : prime, offset basis and width of the variants *)
Record fnv_params := Fnv { width : Z; prime : Z; basis : Z }.
Definition fnv32 : fnv_params := Fnv 32 16777619 2166136261.
Definition fnv64 : fnv_params := Fnv 64 1099511628211 14695981039346656037.

(* FNV-1: for each octet, hash := hash * prime (mod 2^width), then hash := hash xor octet *)
Fixpoint fnv1_from (p : fnv_params) (h : Z) (octets : list Z) : Z :=
  match octets with
  | [] => h
  | b :: t => fnv1_from p (Z.lxor ((h * prime p) mod 2 ^ width p) b) t
  end.
(* FNV-1a: the xor first *)
Fixpoint fnv1a_from (p : fnv_params) (h : Z) (octets : list Z) : Z :=
  match octets with
  | [] => h
  | b :: t => fnv1a_from p ((Z.lxor h b * prime p) mod 2 ^ width p) t
  end.
Definition fnv1 (p : fnv_params) : list Z -> Z := fnv1_from p (basis p).
Definition fnv1a (p : fnv_params) : list Z -> Z := fnv1a_from p (basis p).

(* the octet a character (signed or not) is stored as *)
Definition octet (c : Z) : Z := c mod 256.
Definition is_octet (b : Z) : Prop := 0 <= b < 256.
Definition hash_value (p : fnv_params) (h : Z) : Prop := 0 <= h < 2 ^ width p.

(* a hash function f over characters, started from any value: incremental; each string permutes
   the hash values; changing one character changes the hash *)
Definition runs (f : list Z -> Z -> Z) (p : fnv_params) : Prop :=
  (forall s1 s2 h, f (s1 ++ s2) h = f s2 (f s1 h)) /\
  (forall s h, hash_value p h -> hash_value p (f s h)) /\
  (forall s h1 h2, hash_value p h1 -> hash_value p h2 -> f s h1 = f s h2 -> h1 = h2) /\
  (forall s h', hash_value p h' -> exists h, hash_value p h /\ f s h = h') /\
  (forall s1 a b s2 h, hash_value p h -> octet a <> octet b -> f (s1 ++ a :: s2) h <> f (s1 ++ b :: s2) h).

(* the bytes of a number in two's complement, least significant first *)
Fixpoint bytes (n : nat) (v : Z) : list Z :=
  match n with
  | O => []
  | S n' => v mod 256 :: bytes n' (v / 256)
  end.
