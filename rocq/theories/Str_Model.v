(* Model of the queries of strings and string views:
   /repo/src/estd/internal/string.h, internal/runtime_array.h,
   internal/container/specializer.h, internal/container/starts_with.h, ends_with.h,
   traits/char_traits.h, string_view.h, allocators/fixed.h.
   Characters are integers (the value of the char). A string is seen as the memory readable
   from data() on and its size(). Simplifications: lengths fit int and unsigned; a pointer
   outside the storage is undefined when used, not when formed, except where noted. *)
From Verif Require Import Base Algo_Model Dyn_Model.
Local Open Scope res_scope.

(* data() points at index 0 of [mem]; size() is [len] *)
Record sref := SRef { mem : list Z; len : nat }.

(* the view of a container of Dyn_Model.v: clock() and size() *)
Definition sref_of (c : cfg Z) (v : arr Z) : result sref :=
  n <- size c v ;; Ok (SRef (buf v) n).

Section Str.
(* size_type holds 0..sm-1; npos is (size_type)-1 (string.h:55) *)
Variable sm : nat.
Definition npos : nat := sm - 1.

(* ---- comparison ---- *)
(* traits/char_traits.h:67-80 *)
Fixpoint ct_compare (n : nat) (a : list Z) (i : nat) (b : list Z) (j : nat) : result Z :=
  match n with
  | O => Ok 0%Z
  | S n' =>
      x <- rd a i ;;
      y <- rd b j ;;
      if Z.ltb x y then Ok (-1)%Z
      else if Z.ltb y x then Ok 1%Z
      else ct_compare n' a (S i) b (S j)
  end.
(* string.h:60-70; the caller's length becomes a size_type; specializer.h:222-233 *)
Definition compare_n (a : sref) (b : list Z) (b_size : nat) : result Z :=
  let s_size := b_size mod sm in
  if Nat.ltb (len a) s_size then Ok (-1)%Z
  else if Nat.ltb s_size (len a) then Ok 1%Z
  else ct_compare s_size (mem a) 0 b 0.
(* string.h:102-112 compare(const allocated_array&) *)
Definition compare (a b : sref) : result Z := compare_n a (mem b) (len b).
(* string.h:115-118 compare(const char* s); s is given up to and including the
   terminator *)
Fixpoint strlenz (s : list Z) : result nat :=
  match s with
  | [] => UB
  | x :: t => if Z.eqb x 0 then Ok 0 else n <- strlenz t ;; Ok (S n)
  end.
Definition compare_c (a : sref) (s : list Z) : result Z :=
  n <- strlenz s ;; compare_n a s n.
(* internal/string/operators.h:14-24, string.h:404-410 *)
Definition eq_op (a b : sref) : result bool := r <- compare a b ;; Ok (Z.eqb r 0).
Definition eq_c (a : sref) (s : list Z) : result bool := r <- compare_c a s ;; Ok (Z.eqb r 0).
(* runtime_array.h:498-507 operator== of arrays; specializer.h:200-218 *)
Definition array_eq (a b : sref) : result bool :=
  let s_size := len b mod sm in
  if Nat.eqb (len a) s_size then equal Z.eqb (mem a) 0 (len a) (mem b) 0 else Ok false.

(* ---- find ---- *)
(* string.h:135-158 find(ch, pos); [n] characters are left *)
Fixpoint find_ch_loop (n : nat) (m : list Z) (ch : Z) (pos : nat) : result nat :=
  match n with
  | O => Ok npos
  | S n' => x <- rd m pos ;; if Z.eqb x ch then Ok pos else find_ch_loop n' m ch (S pos)
  end.
Definition find_ch (a : sref) (ch : Z) (pos : nat) : result nat :=
  find_ch_loop (len a - pos) (mem a) ch pos.

(* memcmp(s, &m[i], count) == 0; all count bytes of both must be readable *)
Fixpoint same (a b : list Z) : bool :=
  match a, b with
  | [], [] => true
  | x :: a', y :: b' => Z.eqb x y && same a' b'
  | _, _ => false
  end.
Definition memcmp_eq (s m : list Z) (i count : nat) : result bool :=
  if Nat.leb count (length s) && Nat.leb (i + count) (length m)
  then Ok (same (firstn count s) (firstn count (skipn i m))) else UB.

(* runtime_array.h:398-418 find(s, pos, count, npos): for(i = data; i != end; ++i), where
   data has been advanced by pos; the result is i - data *)
Fixpoint find_loop (fuel : nat) (s m : list Z) (count i e data : nat) : result nat :=
  match fuel with
  | O => Diverge
  | S fuel' =>
      if Nat.eqb i e then Ok npos
      else b <- memcmp_eq s m i count ;;
           if b : bool then Ok (i - data) else find_loop fuel' s m count (S i) e data
  end.
Definition find (a : sref) (s : list Z) (pos count : nat) : result nat :=
  find_loop (S (S (length (mem a)))) s (mem a) count pos (len a) pos.

(* runtime_array.h:427-467 rfind(s, pos, count, npos); data + pos beyond the storage is UB.
   The loop runs from pos down to 0. *)
Fixpoint rfind_loop (s m : list Z) (count pos : nat) : result nat :=
  b <- memcmp_eq s m pos count ;;
  if b : bool then Ok pos
  else match pos with
       | O => Ok npos
       | S p => rfind_loop s m count p
       end.
Definition rfind (a : sref) (s : list Z) (pos count : nat) : result nat :=
  let sz := len a in
  if Nat.eqb sz 0 then UB                      (* pos = (size_type)(0 - 1) *)
  else
    let pos := if Nat.leb sz pos then sz - 1 else pos in
    let remainder := sz - pos in
    if Nat.ltb remainder count then
      if Nat.ltb pos (count - remainder) then Ok npos
      else rfind_loop s (mem a) count (pos - (count - remainder))
    else rfind_loop s (mem a) count pos.

(* runtime_array.h:469-480 *)
Definition find_first_of (a : sref) (s : list Z) (pos count : nat) : result nat :=
  f <- Algo_Model.find_first_of Z.eqb (mem a) pos (len a) (firstn count s) ;;
  Ok (if Nat.eqb f (len a) then npos else f).
(* runtime_array.h:482-496; algorithm.h:238-247 from data + pos down to data *)
Fixpoint find_last_loop (m s : list Z) (pos : nat) : result nat :=
  x <- rd m pos ;;
  if inner_of Z.eqb x s then Ok pos
  else match pos with
       | O => Ok npos
       | S p => find_last_loop m s p
       end.
Definition find_last_of (a : sref) (s : list Z) (pos count : nat) : result nat :=
  let pos := if Nat.eqb pos npos then (if Nat.eqb (len a) 0 then npos else len a - 1) else pos in
  find_last_loop (mem a) (firstn count s) pos.

(* ---- starts_with, ends_with ---- *)
(* container/starts_with.h:10-23: while(count_lhs-- && count_rhs--); returns
   count_lhs != -1, which is -1 exactly when the left count ran out *)
Fixpoint starts_with_n (count_lhs count_rhs : nat) (lhs : list Z) (i : nat) (rhs : list Z) (j : nat) : result bool :=
  match count_lhs with
  | O => Ok false
  | S cl =>
      match count_rhs with
      | O => Ok true
      | S cr =>
          x <- rd lhs i ;;
          y <- rd rhs j ;;
          if Z.eqb x y then starts_with_n cl cr lhs (S i) rhs (S j) else Ok false
      end
  end.
(* runtime_array.h:147-151, specializer.h:143-157 *)
Definition starts_with (a b : sref) : result bool := starts_with_n (len a) (len b) (mem a) 0 (mem b) 0.
(* container/starts_with.h:27-40, rhs null terminated: while( *rhs != 0 && count--) *)
Fixpoint starts_with_c_loop (fuel count : nat) (lhs : list Z) (i : nat) (rhs : list Z) (j : nat) : result bool :=
  match fuel with
  | O => Diverge
  | S f =>
      y <- rd rhs j ;;
      if Z.eqb y 0 then Ok true
      else match count with
           | O => Ok false
           | S c' =>
               x <- rd lhs i ;;
               if Z.eqb x y then starts_with_c_loop f c' lhs (S i) rhs (S j) else Ok false
           end
  end.
(* string.h:124-127, specializer.h:236-246 *)
Definition starts_with_c (a : sref) (s : list Z) : result bool :=
  starts_with_c_loop (S (length s)) (len a) (mem a) 0 s 0.
(* container/starts_with.h:45-61, both null terminated *)
Fixpoint starts_with_cc (fuel : nat) (lhs : list Z) (i : nat) (rhs : list Z) (j : nat) : result bool :=
  match fuel with
  | O => Diverge
  | S f =>
      y <- rd rhs j ;;
      if Z.eqb y 0 then Ok true
      else x <- rd lhs i ;;
           if Z.eqb x y then starts_with_cc f lhs (S i) rhs (S j) else Ok false
  end.
(* container/ends_with.h:13-28; [n] characters are left *)
Fixpoint ends_loop (n : nat) (lhs : list Z) (i : nat) (rhs : list Z) (j : nat) : result bool :=
  match n with
  | O => Ok true
  | S n' =>
      x <- rd lhs i ;;
      y <- rd rhs j ;;
      if Z.eqb x y then ends_loop n' lhs (S i) rhs (S j) else Ok false
  end.
Definition ends_with_n (lhs rhs : list Z) (lhs_count rhs_count : nat) : result bool :=
  if Nat.ltb lhs_count rhs_count then Ok false
  else ends_loop rhs_count lhs (lhs_count - rhs_count) rhs 0.
(* runtime_array.h:163-167, specializer.h:160-174 *)
Definition ends_with (a b : sref) : result bool := ends_with_n (mem a) (mem b) (len a) (len b).
(* string.h:130-133, specializer.h:250-260 *)
Definition ends_with_c (a : sref) (s : list Z) : result bool :=
  n <- strlenz s ;; ends_with_n (mem a) s (len a) n.
(* runtime_array.h:153-160 and :170-178; size() - 1 becomes a size_type *)
Definition starts_with_ch (a : sref) (ch : Z) : result bool := x <- rd (mem a) 0 ;; Ok (Z.eqb x ch).
Definition ends_with_ch (a : sref) (ch : Z) : result bool :=
  x <- rd (mem a) (if Nat.eqb (len a) 0 then npos else len a - 1) ;; Ok (Z.eqb x ch).

(* ---- string_view ---- *)
(* a view of the array [base]: data() = base + off, size() = vlen *)
Record view := View { base : list Z; off : nat; vlen : nat }.
Definition view_ref (v : view) : sref := SRef (skipn (off v) (base v)) (vlen v).
(* a - b as size_type *)
Definition subs (a b : nat) : nat := (a + (sm - b mod sm)) mod sm.
(* string_view.h:73-85, fixed.h:449-452 *)
Definition remove_suffix (v : view) (n : nat) : view := View (base v) (off v) (subs (vlen v) n).
(* string_view.h:88-93, fixed.h:443-447 *)
Definition remove_prefix (v : view) (n : nat) : view := View (base v) (off v + n) (subs (vlen v) n).
(* string_view.h:104-123 *)
Definition substr (v : view) (pos count : nat) : view :=
  let c := remove_prefix v pos in
  if Nat.eqb count npos then c else View (base c) (off c) count.
End Str.
