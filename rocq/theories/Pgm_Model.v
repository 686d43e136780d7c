(* Model of strings and arrays in AVR program memory: /repo/src/estd/exp/pgm (read.h,
   accessor.h, policy.h, impl.h, array.h, string.h), with the parts of
   internal/runtime_array.h, internal/string.h, internal/container/specializer.h and
   internal/ostream_basic_string.hpp they go through.

   Program memory is a list of bytes; an address is a position in it; reading outside it is
   UB, reading outside one object but inside the memory gives what lies there.  The avr-libc
   functions memcpy_P, strnlen_P and strncmp_P are modelled as documented; the near reads of
   one, two and four bytes (read.h:30-78) are the same as memcpy_P of that many bytes.
   Addresses are taken to fit 16 bits, so address arithmetic does not wrap. *)
From Coq Require Import List ZArith Bool.
From Verif Require Import Base MachInt Ios_Model Streambuf_Model Ostream_Model.
Import ListNotations.
Local Open Scope Z_scope.
Local Open Scope res_scope.

Fixpoint memcpy_P (m : list Z) (a n : nat) : result (list Z) :=
  match n with
  | O => Ok []
  | S n' => b <- rd m a ;; r <- memcpy_P m (S a) n' ;; Ok (b :: r)
  end.

(* the object whose representation the bytes are, little-endian *)
Fixpoint le_value (bs : list Z) : Z := match bs with [] => 0 | b :: r => b + 256 * le_value r end.
Definition to_value (signed : bool) (bs : list Z) : Z :=
  let v := le_value bs in
  let h := 2 ^ (8 * Z.of_nat (length bs) - 1) in
  if signed && (h <=? v) then v - 2 * h else v.

(* read.h:16-25 pgm_read, and its specializations :27-78 *)
Definition pgm_read (signed : bool) (sz : nat) (m : list Z) (a : nat) : result Z :=
  bs <- memcpy_P m a sz ;; Ok (to_value signed bs).

(* impl.h:14-90 pgm_array<Policy>: where the data lies; the policy, policy.h:13-49
   - ext = None: a string up to its terminator (N = npos);
   - ext = Some N: N elements;
   and the element type.  A pgm_array keeps its elements inside itself, the object being in
   program memory: same shape. *)
Record pgm := Pgm { addr : nat; ext : option nat; esigned : bool; esz : nat }.

Fixpoint strnlen_P (m : list Z) (a n : nat) : result nat :=
  match n with
  | O => Ok 0%nat
  | S n' => b <- rd m a ;; if b =? 0 then Ok 0%nat else r <- strnlen_P m (S a) n' ;; Ok (S r)
  end.

(* impl.h:85-88 size, policy.h:27-32 (strings) and :48 (arrays) *)
Definition size (m : list Z) (s : pgm) : result nat :=
  match ext s with
  | None => strnlen_P m (addr s) 256
  | Some n => Ok n
  end.

(* allocator.h:34-38, fixed.h:104-107 data(offset): the offset has the size type of the
   allocator (deduce_fixed_size.h:22-30): 8 bits for at most 255 elements, else 16 *)
Definition data (s : pgm) (pos : nat) : nat :=
  let w := match ext s with Some n => if Nat.leb n 255 then 256%nat else (256 * 256)%nat | None => (256 * 256)%nat end in
  (addr s + (pos mod w) * esz s)%nat.

(* runtime_array.h:321-337 at, operator[] through accessor.h:84-85 lock *)
Definition at_ (m : list Z) (s : pgm) (pos : nat) : result Z := pgm_read (esigned s) (esz s) m (data s pos).
(* runtime_array.h:339-347 front, back; size() - 1 is computed in 16 bits *)
Definition front (m : list Z) (s : pgm) : result Z := at_ m s 0.
Definition back (m : list Z) (s : pgm) : result Z :=
  n <- size m s ;; at_ m s (match n with O => 256 * 256 - 1 | S k => k end)%nat.

(* A loop over [cur, stop): container/iterator.h:90-94 operator++, :177-186 comparison of the
   addresses, :203 operator*.  f is the body; fuel bounds the number of rounds. *)
Fixpoint loop {S} (signed : bool) (sz : nat) (m : list Z) (f : S -> Z -> result S) (fuel cur stop : nat) (s : S) : result S :=
  if Nat.eqb cur stop then Ok s else
  match fuel with
  | O => Diverge
  | Datatypes.S k => v <- pgm_read signed sz m cur ;; s' <- f s v ;; loop signed sz m f k (cur + sz) stop s'
  end.

(* runtime_array.h:282-319 begin and end *)
Definition over {S} (m : list Z) (s : pgm) (f : S -> Z -> result S) (init : S) : result S :=
  n <- size m s ;; loop (esigned s) (esz s) m f (Datatypes.S n) (data s 0) (data s n) init.

(* the values a range-based for loop sees, in order *)
Definition elements (m : list Z) (s : pgm) : result (list Z) := over m s (fun l v => Ok (l ++ [v])) [].

(* string.h:72-82, ostream_basic_string.hpp:14-21, ostream_iterator.h:22-27: one operator<<
   for each character *)
Definition insert_pgm (tr : traits) (m : list Z) (o : ostr) (s : pgm) : result ostr :=
  over m s (fun o v => insert_char tr o v) o.

(* memory outside program memory: n bytes written at the front of dest *)
Definition store (dest bs : list Z) : result (list Z) :=
  if Nat.leb (length bs) (length dest) then Ok (bs ++ skipn (length bs) dest) else UB.

(* runtime_array.h:367-371 copy; string.h:30-43 and array.h:33-46 copy_to *)
Definition copy (m : list Z) (s : pgm) (dest : list Z) (count pos : nat) : result (list Z * nat) :=
  n <- size m s ;;
  let e := Nat.min count n in
  bs <- memcpy_P m (data s pos) (e * esz s) ;;
  d <- store dest bs ;;
  Ok (d, e).

(* specializer.h:125-141 append to a string outside program memory, which holds cur characters
   in the buffer buf.  Growing beyond the buffer stops in an assert (UB here, as in Dyn_Model);
   a terminator is not modelled. *)
Definition append (m : list Z) (s : pgm) (buf : list Z) (cur : nat) : result (list Z * nat) :=
  len <- size m s ;;
  if Nat.ltb (length buf) (cur + len) then UB else
  ' p <- copy m s (skipn cur buf) len 0 ;;
  Ok (firstn cur buf ++ fst p, (cur + len)%nat).

(* avr-libc strncmp_P(s1, s2 in program memory, n): the difference of the first two bytes
   (as unsigned char) that differ, 0 if there is none up to a terminator or the count *)
Fixpoint strncmp_P (s1 : list Z) (m : list Z) (a n : nat) : result Z :=
  match n with
  | O => Ok 0
  | S n' =>
      c1 <- rd s1 0 ;; c2 <- rd m a ;;
      if negb (c1 =? c2) then Ok (c1 - c2) else if c1 =? 0 then Ok 0 else strncmp_P (tl s1) m (S a) n'
  end.

(* internal/string.h:60-70, 102-112 compare to the n bytes at the front of s1;
   exp/pgm/string.h:46-55 *)
Definition compare (m : list Z) (s : pgm) (s1 : list Z) (n : nat) : result Z :=
  k <- size m s ;;
  if Nat.ltb k n then Ok (-1) else if Nat.ltb n k then Ok 1 else
  r <- strncmp_P s1 m (data s 0) n ;; Ok (- r).

(* internal/string.h:115-118 compare to a C string, :404-410 operator==.  strlen reads up to
   the terminator. *)
Fixpoint strlen (s1 : list Z) : result nat :=
  match s1 with [] => UB | c :: r => if c =? 0 then Ok 0%nat else n <- strlen r ;; Ok (S n) end.
Definition compare_c (m : list Z) (s : pgm) (s1 : list Z) : result Z := n <- strlen s1 ;; compare m s s1 n.
Definition equal_c (m : list Z) (s : pgm) (s1 : list Z) : result bool := r <- compare_c m s s1 ;; Ok (r =? 0).

(* array.h:56-113 test_container: the elements are an inline T[N] in program memory *)
Record tcont := Tcont { taddr : nat; tn : nat; tsigned : bool; tsz : nat }.
(* array.h:83-87: the index is scaled by the size, and then again by the pointer arithmetic *)
Definition t_at (m : list Z) (t : tcont) (idx : nat) : result Z :=
  pgm_read (tsigned t) (tsz t) m (taddr t + (idx * tsz t) * tsz t).
(* array.h:97-107 begin and end *)
Definition t_elements (m : list Z) (t : tcont) : result (list Z) :=
  loop (tsigned t) (tsz t) m (fun l v => Ok (l ++ [v])) (Datatypes.S (tn t)) (taddr t) (taddr t + tn t * tsz t) [].
