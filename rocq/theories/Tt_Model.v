(* Model of the type traits: internal/raw/type_traits.h (raw), type_traits.h (tt),
   internal/llvm_type_traits.h (llvm), internal/llvm/is_void.h, internal/type_traits/{is_function,
   is_member,is_base_of,make_unsigned}.h, internal/utility/{forward,declval}.h of /repo/src/estd,
   as C++11 or later compiles them.  A trait is a function of types, a template with partial
   specializations a table of patterns (Tt_Lang.choose).  None stands for "no such type": the
   instantiation is an error, or there is no member type.
   Not modelled: the traits that ask the compiler (is_empty, is_trivial, underlying_type,
   alignment_of), those built on expressions (is_convertible, is_constructible, is_assignable,
   invoke_result) and common_type (for integers: Chrono_Model). *)
From Coq Require Import List Bool Arith.
From Verif Require Import Tt_Lang.
Import ListNotations.

(* raw:54-58 *)
Definition remove_const (t : ty) : ty := choose [(PConst PAny, fun u => u)] (fun u => u) t.
Definition remove_volatile (t : ty) : ty := choose [(PVol PAny, fun u => u)] (fun u => u) t.
(* raw:61-65 *)
Definition remove_reference (t : ty) : ty := choose [(PLRef PAny, fun u => u); (PRRef PAny, fun u => u)] (fun u => u) t.
(* raw:72-80 *)
Definition remove_cv (t : ty) : ty := remove_volatile (remove_const t).
Definition remove_cvref (t : ty) : ty := remove_cv (remove_reference t).
(* raw:96-99, 123 *)
Definition add_cv (t : ty) : ty := add_quals true true t.
Definition add_const (t : ty) : ty := add_quals true false t.
Definition add_volatile (t : ty) : ty := add_quals false true t.
(* raw:101-110 *)
Definition add_lvalue_reference (t : ty) : option ty := choose [(PBase Void, fun u => Some u)] mk_lref t.
Definition add_rvalue_reference (t : ty) : option ty := mk_rref t.
(* raw:125-143 *)
Definition is_const (t : ty) : bool := choose [(PConst PAny, fun _ => true)] (fun _ => false) t.
Definition is_volatile (t : ty) : bool := choose [(PVol PAny, fun _ => true)] (fun _ => false) t.
Definition is_reference (t : ty) : bool := choose [(PLRef PAny, fun _ => true); (PRRef PAny, fun _ => true)] (fun _ => false) t.
Definition is_lvalue_reference (t : ty) : bool := choose [(PLRef PAny, fun _ => true)] (fun _ => false) t.
Definition is_rvalue_reference (t : ty) : bool := choose [(PRRef PAny, fun _ => true)] (fun _ => false) t.
(* raw:146-150 *)
Definition conditional {A} (b : bool) (t f : A) : A := if b then t else f.
(* raw:153-157 *)
Definition is_same (t u : ty) : bool := ty_eqb t u.
(* raw:168-191 *)
Definition is_array (t : ty) : bool := choose [(PArr PAny, fun _ => true); (PArrN PAny, fun _ => true)] (fun _ => false) t.
Definition remove_extent (t : ty) : ty := choose [(PArr PAny, fun u => u); (PArrN PAny, fun u => u)] (fun u => u) t.
Definition remove_pointer (t : ty) : ty :=
  choose [(PPtr PAny, fun u => u); (PConst (PPtr PAny), fun u => u); (PVol (PPtr PAny), fun u => u);
          (PConst (PVol (PPtr PAny)), fun u => u)] (fun u => u) t.

(* raw:239-250; a trait is given by its value, None if asking for it is an error *)
Fixpoint conjunction (l : list (option bool)) : option bool :=
  match l with
  | [] => Some true
  | [b] => b
  | b :: r => match b with None => None | Some x => if conditional x true false then conjunction r else b end
  end.
Fixpoint disjunction (l : list (option bool)) : option bool :=
  match l with
  | [] => Some false
  | [b] => b
  | b :: r => match b with None => None | Some x => if conditional x true false then b else disjunction r end
  end.

(* llvm/is_void.h:9-15 *)
Definition is_void (t : ty) : bool := choose [(PBase Void, fun _ => true)] (fun _ => false) (remove_cv t).
(* tt:19-24 *)
Definition is_union (t : ty) : bool := choose [] (fun _ => false) (remove_cv t).
(* tt:15-28: "int T::*" exists for classes and unions *)
Definition is_class (t : ty) : bool :=
  match t with TUser _ _ Class _ | TUser _ _ Union _ => true | _ => false end && negb (is_union t).
(* llvm:147-173 *)
Definition is_integral (t : ty) : bool :=
  choose [(PBase Bool, fun _ => true); (PBase Char, fun _ => true); (PBase SChar, fun _ => true); (PBase UChar, fun _ => true);
          (PBase WChar, fun _ => true); (PBase Char16, fun _ => true); (PBase Char32, fun _ => true);
          (PBase Short, fun _ => true); (PBase UShort, fun _ => true); (PBase Int, fun _ => true); (PBase UInt, fun _ => true);
          (PBase Long, fun _ => true); (PBase ULong, fun _ => true); (PBase LLong, fun _ => true); (PBase ULLong, fun _ => true)]
    (fun _ => false) (remove_cv t).
(* tt:56-63 *)
Definition is_floating_point (t : ty) : bool :=
  is_same (TBase false false Float) (remove_cv t) || is_same (TBase false false Double) (remove_cv t) ||
  is_same (TBase false false LDouble) (remove_cv t).
(* tt:30-33 *)
Definition is_arithmetic (t : ty) : bool := is_integral t || is_floating_point t.
(* T(-1) < T(0) for an arithmetic type: bool(-1) is true; an unsigned -1 is the largest value *)
Definition minus_one_less (p : plat) (t : ty) : bool :=
  match t with
  | TBase _ _ b =>
      match b with
      | SChar | Short | Int | Long | LLong | Float | Double | LDouble => true
      | Char => char_signed p | WChar => wchar_signed p
      | _ => false
      end
  | _ => false
  end.
(* tt:40-52 *)
Definition is_signed (p : plat) (t : ty) : bool := if is_arithmetic t then minus_one_less p t else false.
Definition is_unsigned (p : plat) (t : ty) : bool := negb (is_signed p t).
(* tt:37-38, 54 *)
Definition is_pointer (t : ty) : bool := choose [(PPtr PAny, fun _ => true)] (fun _ => false) (remove_cv t).

(* is_function.h:14-131.  FEATURE_CPP_AMBIGUOUS_ELLIPSES is defined nowhere in /repo, so the
   specializations under it (31-41, 52-61, 70-79) are not there.  Those from 83 on are there from
   C++17 on; before, no function type has a noexcept. *)
Definition fun_specs : list (pat * (ty -> bool)) :=
  map (fun p => (p, fun _ : ty => true))
   [PFun false false false NoRef false;                                                                  (* :20 *)
    PFun false true false NoRef false; PFun false false true NoRef false; PFun false true true NoRef false;  (* :24-29 *)
    PFun false false false RefL false; PFun false true false RefL false;                                 (* :45-51 *)
    PFun false false true RefL false; PFun false true true RefL false;
    PFun false false false RefR false; PFun false true false RefR false;                                 (* :62-69 *)
    PFun false false true RefR false; PFun false true true RefR false;
    PFun false false false NoRef true; PFun true false false NoRef true;                                 (* :85-88 *)
    PFun false true false NoRef true; PFun false false true NoRef true; PFun false true true NoRef true;
    PFun true true false NoRef true; PFun true false true NoRef true; PFun true true true NoRef true;    (* :89-100 *)
    PFun false false false RefL true; PFun false true false RefL true; PFun false false true RefL true; PFun false true true RefL true;
    PFun true false false RefL true; PFun true true false RefL true; PFun true false true RefL true; PFun true true true RefL true;
    PFun false false false RefR true; PFun false true false RefR true; PFun false false true RefR true; PFun false true true RefR true;
    PFun true false false RefR true; PFun true true false RefR true; PFun true false true RefR true; PFun true true true RefR true].
Definition is_function (t : ty) : bool := choose fun_specs (fun _ => false) t.

(* tt:69-91.  The two specializations for function types (77-85) add the pointer. *)
Definition add_pointer (t : ty) : option ty :=
  if is_function t
  then choose [(PFun false false false NoRef false, fun u => mk_ptr u); (PFun true false false NoRef false, fun u => mk_ptr u)] Some t
  else mk_ptr (remove_reference t).

(* tt:95-109: all the types named are formed, whichever is chosen *)
Definition decay (t : ty) : option ty :=
  let u := remove_reference t in
  match mk_ptr (remove_extent u), add_pointer u with
  | Some p, Some q => Some (conditional (is_array u) p (conditional (is_function u) q (remove_cv u)))
  | _, _ => None
  end.

(* is_member.h:16-43 *)
Definition is_member_pointer (t : ty) : bool := choose [(PMem PAny, fun _ => true)] (fun _ => false) (remove_cv t).
Definition is_member_function_pointer (t : ty) : bool := choose [(PMem PAny, is_function)] (fun _ => false) (remove_cv t).
Definition is_member_object_pointer (t : ty) : bool := is_member_pointer t && negb (is_member_function_pointer t).

(* llvm:130-143 *)
Definition is_enum (t : ty) : bool :=
  negb (is_void t) && negb (is_integral t) && negb (is_floating_point t) && negb (is_array t) && negb (is_pointer t) &&
  negb (is_reference t) && negb (is_function t) && negb (is_class t).

(* llvm:17-65 __apply_cv *)
Definition apply_cv (t u : ty) : option ty :=
  let c := is_const (remove_reference t) in
  let v := is_volatile (remove_reference t) in
  choose [(PLRef PAny, fun _ => mk_lref (add_quals c v u))] (fun _ => Some (add_quals c v u)) t.
(* llvm:113-125, 177-189: the first type of the list that is large enough *)
Fixpoint find_first (p : plat) (l : list base) (size : nat) : option base :=
  match l with
  | [] => None
  | b :: r => if Nat.leb size (sizeof_base p b) then Some b else find_first p r size
  end.
(* llvm:192-209.  sizeof of anything but integers and enumerations is not modelled. *)
Definition make_signed_impl (p : plat) (t : ty) : option ty :=
  if is_integral t || is_enum t then
    choose (map (fun bb => (PBase (fst bb), fun _ : ty => Some (TBase false false (snd bb))))
              [(Short, Short); (UShort, Short); (Int, Int); (UInt, Int); (Long, Long); (ULong, Long); (LLong, LLong); (ULLong, LLong)])
      (fun u =>
         match u with
         | TBase _ _ NullptrT => None
         | TBase _ _ b => option_map (TBase false false) (find_first p [SChar; Short; Int; Long; LLong] (sizeof_base p b))
         | TUser _ _ Enum n => option_map (TBase false false) (find_first p [SChar; Short; Int; Long; LLong] (sz_enum p n))
         | _ => None
         end) t
  else None.
(* llvm:213-217 *)
Definition make_signed (p : plat) (t : ty) : option ty :=
  match make_signed_impl p (remove_cv t) with Some u => apply_cv t u | None => None end.

(* limits/integer.h:45-119, limits/traits.h:50-60, limits.h:12-25 numeric_limits<T>::unsigned_type *)
Definition uint_of_width (p : plat) (w : nat) : option base :=
  match w with 1 => Some (uint8_t p) | 2 => Some (uint16_t p) | 4 => Some (uint32_t p) | 8 => Some (uint64_t p) | _ => None end.
(* make_unsigned.h:9-13.  There is a numeric_limits for the ten types listed only. *)
Definition make_unsigned (p : plat) (t : ty) : option ty :=
  choose (map (fun b => (PBase b, fun _ : ty => option_map (TBase false false) (uint_of_width p (sizeof_base p b))))
            [SChar; UChar; Short; UShort; Int; UInt; Long; ULong; LLong; ULLong]) (fun _ => None) t.

(* is_base_of.h:18-19, 34-37, 41-52.  h tells the bases of a class, and whether a pointer converts
   (Tt_Spec.hierarchy); a conversion that is not allowed fails the first test_is_base_of, and the
   second says true. *)
Definition is_base_of (h : nat -> nat -> option bool) (b d : ty) : bool :=
  is_class b && is_class d &&
  match b, d with
  | TUser _ _ k n, TUser _ _ k' n' =>
      if user_eqb k k' && Nat.eqb n n' then true
      else if user_eqb k Class && user_eqb k' Class
      then match h n n' with Some true => true | Some false => true | None => false end
      else false
  | _, _ => false
  end.

(* declval.h:15-25: T&& if there is such a type, else T *)
Definition declval (t : ty) : ty := match mk_rref t with Some u => u | None => t end.
(* forward.h:18-49: the type of std::forward<T>(x) and, for the T that std::move deduces, of
   std::move(x) *)
Definition forward (t : ty) : option ty := mk_rref t.
Definition move (t : ty) : option ty := mk_rref (remove_reference t).
