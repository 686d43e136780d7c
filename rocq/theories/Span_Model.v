(* Model of estd::span, /repo/src/estd/span.h.

   One array m (a list) is the object all pointers of a program point into; a
   pointer is null or a position 0..length m of it.  Moving a pointer outside
   these bounds, and dereferencing a null or one-past-the-end pointer, is UB.
   size_type is the unsigned type with values 0 .. M-1 (M = 2^bits, a parameter:
   16, 32 and 64 bit targets are covered).

   Simplification: several arrays at once are not modelled (a span never relates
   two arrays); element types are any type A, and for the byte views a fixed
   encoding enc of an element as sizeof(T) bytes. *)
From Verif Require Import Base.
Local Open Scope Z_scope.

Definition ptr := option Z.     (* None = nullptr *)

(* pointer + integer, C++ [expr.add]: null may only move by 0. *)
Definition padd {A} (m : list A) (p : ptr) (k : Z) : result ptr :=
  match p with
  | None => if k =? 0 then Ok None else UB
  | Some o => if (0 <=? o + k) && (o + k <=? Z.of_nat (length m)) then Ok (Some (o + k)) else UB
  end.

(* pointer - pointer, same array. *)
Definition pdiff (q p : ptr) : result Z :=
  match q, p with
  | Some b, Some a => Ok (b - a)
  | None, None => Ok 0
  | _, _ => UB
  end.

(* *(p + i) read, and written. *)
Definition pget {A} (m : list A) (p : ptr) (i : Z) : result A :=
  match p with
  | None => UB
  | Some o => if 0 <=? o + i then rd m (Z.to_nat (o + i)) else UB
  end.
Definition pput {A} (m : list A) (p : ptr) (i : Z) (x : A) : result (list A) :=
  match p with
  | None => UB
  | Some o => if 0 <=? o + i then wr m (Z.to_nat (o + i)) x else UB
  end.

(* span.h:38 data_ and span.h:94 size_; a static extent N stores no size
   (span.h:71-82), modelled with the same record whose size is N. *)
Record span := Sp { s_data : ptr; s_size : Z }.

(* span.h:98 span(): data_ = nullptr (line 40), size_ = 0. *)
Definition sp_default : span := Sp None 0.

(* span.h:156-158 and 170-172: from an array of N elements (p its first element). *)
Definition sp_array (p : Z) (n : Z) : span := Sp (Some p) n.

(* span.h:165-167 span(first, count); also 99-100 span(data, size). *)
Definition sp_count (p : ptr) (count : Z) : span := Sp p count.

(* span.h:161-163 span(first, last): last - first is a ptrdiff_t turned into size_type. *)
Definition sp_range (M : Z) (first last : ptr) : result span :=
  (d <- pdiff last first ;; Ok (Sp first (d mod M)))%res.

(* span.h:174-177: dynamic from a static extent; 102-104, 190-194: copies;
   196-199 operator= constructs the copy over *this. *)
Definition sp_copy (other : span) : span := Sp (s_data other) (s_size other).
Definition sp_assign (this other : span) : span := sp_copy other.

(* span.h:54 data(), 79/96 size(), 136-137 size_bytes(), 139-142 empty(). *)
Definition sp_bytes_size (M szT : Z) (s : span) : Z := (s_size s * szT) mod M.
Definition sp_empty (s : span) : bool := s_size s =? 0.

(* span.h:55 begin(), 144 end(). *)
Definition sp_begin (s : span) : ptr := s_data s.
Definition sp_end {A} (m : list A) (s : span) : result ptr := padd m (s_data s) (s_size s).

(* span.h:58-66 operator[] (no check of idx), read and written. *)
Definition sp_get {A} (m : list A) (s : span) (i : Z) : result A := pget m (s_data s) i.
Definition sp_put {A} (m : list A) (s : span) (i : Z) (x : A) : result (list A) :=
  pput m (s_data s) i x.

(* span.h:49-52 first(count): unchecked. *)
Definition sp_first (s : span) (count : Z) : span := Sp (s_data s) count.

(* span.h:201-208 subspan(offset, count); count = M-1 is dynamic_extent. *)
Definition sp_subspan {A} (M : Z) (m : list A) (s : span) (offset count : Z) : result span :=
  (let count := if count =? M - 1 then s_size s else count in
   p <- padd m (s_data s) offset ;; Ok (Sp p count))%res.

(* span.h:201: the default argument of count. *)
Definition sp_subspan_default {A} (M : Z) (m : list A) (s : span) (offset : Z) : result span :=
  sp_subspan M m s offset (M - 1).

(* A user's loop for(it = begin(); it != end(); ++it) visiting *it: the list read. *)
Fixpoint iterate {A} (fuel : nat) (m : list A) (it last : ptr) : result (list A) :=
  match fuel with
  | O => Diverge
  | S f =>
      (match it, last with
       | None, None => Ok []
       | Some a, Some b =>
           if a =? b then Ok []
           else x <- pget m it 0 ;;
                it' <- padd m it 1 ;;
                r <- iterate f m it' last ;;
                Ok (x :: r)
       | _, _ => UB
       end)%res
  end.
Definition sp_iterate {A} (fuel : nat) (m : list A) (s : span) : result (list A) :=
  (e <- sp_end m s ;; iterate fuel m (sp_begin s) e)%res.

(* span.h:219-223 and 238-242: as_bytes / as_writable_bytes of a dynamic span. The
   array's storage seen as bytes is memory_bytes enc m; a pointer to element o is the
   byte position o * sizeof(T). *)
Definition memory_bytes {A B} (enc : A -> list B) (m : list A) : list B := flat_map enc m.
Definition byte_ptr (szT : Z) (p : ptr) : ptr := option_map (fun o => o * szT) p.
Definition sp_as_bytes (M szT : Z) (s : span) : span :=
  Sp (byte_ptr szT (s_data s)) (sp_bytes_size M szT s).
(* span.h:226-230 and 245-249: of a static extent: extent N * sizeof(T), a size_t. *)
Definition sp_as_bytes_static (M szT : Z) (s : span) : span :=
  Sp (byte_ptr szT (s_data s)) ((s_size s * szT) mod M).

(* What a span shows: its elements, read one by one with operator[]. *)
Fixpoint read_all {A} (n : nat) (m : list A) (s : span) (i : Z) : result (list A) :=
  match n with
  | O => Ok []
  | S n' => (x <- sp_get m s i ;; r <- read_all n' m s (i + 1) ;; Ok (x :: r))%res
  end.
Definition sp_view {A} (m : list A) (s : span) : result (list A) :=
  read_all (Z.to_nat (s_size s)) m s 0.
