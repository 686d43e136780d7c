(* What the C++ standard says of the type traits ([meta.type.synop], [meta.unary], [meta.trans]),
   in terms of the types of Tt_Lang; nothing here comes from the model. *)
From Coq Require Import List Bool Arith.
From Verif Require Import Tt_Lang.
Import ListNotations.

(* [basic.fundamental] *)
Definition std_integral (b : base) : bool :=
  match b with Void | NullptrT | Float | Double | LDouble => false | _ => true end.
Definition std_floating (b : base) : bool := match b with Float | Double | LDouble => true | _ => false end.
Definition std_signed (p : plat) (b : base) : bool :=
  match b with
  | SChar | Short | Int | Long | LLong | Float | Double | LDouble => true
  | Char => char_signed p | WChar => wchar_signed p
  | _ => false
  end.

(* primary categories: T is, up to qualifiers, ... *)
Definition std_void (t : ty) : Prop := exists c v, t = TBase c v Void.
Definition std_is_integral (t : ty) : Prop := exists c v b, t = TBase c v b /\ std_integral b = true.
Definition std_is_floating (t : ty) : Prop := exists c v b, t = TBase c v b /\ std_floating b = true.
Definition std_is_arithmetic (t : ty) : Prop := std_is_integral t \/ std_is_floating t.
Definition std_is_array (t : ty) : Prop := exists n u, t = TArr n u.
Definition std_is_pointer (t : ty) : Prop := exists c v u, t = TPtr c v u.
Definition std_is_member_object_pointer (t : ty) : Prop := exists c v n u, t = TMem c v n u /\ is_fun u = false.
Definition std_is_member_function_pointer (t : ty) : Prop := exists c v n u, t = TMem c v n u /\ is_fun u = true.
Definition std_is_enum (t : ty) : Prop := exists c v n, t = TUser c v Enum n.
Definition std_is_union (t : ty) : Prop := exists c v n, t = TUser c v Union n.
Definition std_is_class (t : ty) : Prop := exists c v n, t = TUser c v Class n.
Definition std_is_function (t : ty) : Prop := exists r a e c v q x, t = TFun r a e c v q x.
Definition std_is_signed (p : plat) (t : ty) : Prop := exists c v b, t = TBase c v b /\ std_is_arithmetic t /\ std_signed p b = true.
Definition std_is_unsigned (p : plat) (t : ty) : Prop := exists c v b, t = TBase c v b /\ std_is_arithmetic t /\ std_signed p b = false.

(* function types with an ellipsis ("...") and without noexcept; with noexcept *)
Definition c_variadic (t : ty) : bool := match t with TFun _ _ e _ _ _ x => e && negb x | _ => false end.
Definition noexcept_fun (t : ty) : bool := match t with TFun _ _ _ _ _ _ x => x | _ => false end.

(* T is const (volatile): it can be, and the qualifier would add nothing *)
Definition std_is_const (t : ty) : Prop := is_ref t = false /\ is_fun t = false /\ add_quals true false t = t.
Definition std_is_volatile (t : ty) : Prop := is_ref t = false /\ is_fun t = false /\ add_quals false true t = t.

(* removals: what is left has nothing of the kind, and T is it with or without *)
Definition std_remove_const (t u : ty) : Prop := ~ std_is_const u /\ (t = u \/ t = add_quals true false u).
Definition std_remove_volatile (t u : ty) : Prop := ~ std_is_volatile u /\ (t = u \/ t = add_quals false true u).
Definition std_remove_cv (t u : ty) : Prop := ~ std_is_const u /\ ~ std_is_volatile u /\ exists c v, t = add_quals c v u.
Definition std_remove_reference (t u : ty) : Prop := is_ref u = false /\ (t = u \/ t = TLRef u \/ t = TRRef u).
Definition std_remove_cvref (t u : ty) : Prop := exists m, std_remove_reference t m /\ std_remove_cv m u.
Definition std_remove_extent (t u : ty) : Prop := (exists n, t = TArr n u) \/ (~ std_is_array t /\ u = t).
Definition std_remove_pointer (t u : ty) : Prop := (exists c v, t = TPtr c v u) \/ (~ std_is_pointer t /\ u = t).

(* [meta.trans.ref], [meta.trans.ptr], [meta.trans.other] *)
Definition std_add_lvalue_reference (t : ty) : ty := match mk_lref t with Some u => u | None => t end.
Definition std_add_rvalue_reference (t : ty) : ty := match mk_rref t with Some u => u | None => t end.
Definition without_ref (t : ty) : ty := match t with TLRef u | TRRef u => u | _ => t end.
Definition std_add_pointer (t : ty) : ty := match mk_ptr (without_ref t) with Some u => u | None => t end.
Definition std_decay (t u : ty) : Prop :=
  let m := without_ref t in
  (exists n e, m = TArr n e /\ u = TPtr false false e) \/
  (std_is_function m /\ u = std_add_pointer m) \/
  (~ std_is_array m /\ ~ std_is_function m /\ std_remove_cv m u).

(* [basic.fundamental]: the signed and unsigned types of one size, and platforms as the standard
   has them *)
Definition partner (b : base) : option base :=
  match b with
  | UChar => Some SChar | UShort => Some Short | UInt => Some Int | ULong => Some Long | ULLong => Some LLong
  | SChar => Some UChar | Short => Some UShort | Int => Some UInt | Long => Some ULong | LLong => Some ULLong
  | _ => None
  end.
Definition standard_signed (b : base) : Prop := In b [SChar; Short; Int; Long; LLong].
Definition standard_unsigned (b : base) : Prop := In b [UChar; UShort; UInt; ULong; ULLong].
Definition good_plat (p : plat) : Prop :=
  1 <= sz_short p /\ sz_short p <= sz_int p /\ sz_int p <= sz_long p /\ sz_long p <= sz_llong p /\
  (exists b, standard_signed b /\ sizeof_base p b = sz_wchar p) /\
  (exists b, standard_signed b /\ sizeof_base p b = sz_char16 p) /\
  (exists b, standard_signed b /\ sizeof_base p b = sz_char32 p) /\
  (forall n, exists b, standard_signed b /\ sizeof_base p b = sz_enum p n) /\
  (forall b, standard_signed b -> In (sizeof_base p b) [1; 2; 4; 8]) /\
  standard_unsigned (uint8_t p) /\ standard_unsigned (uint16_t p) /\ standard_unsigned (uint32_t p) /\ standard_unsigned (uint64_t p) /\
  sizeof_base p (uint8_t p) = 1 /\ sizeof_base p (uint16_t p) = 2 /\ sizeof_base p (uint32_t p) = 4 /\ sizeof_base p (uint64_t p) = 8.
(* the size of an integral or enumeration type *)
Definition int_size (p : plat) (t : ty) : option nat :=
  match t with
  | TBase _ _ b => if std_integral b then Some (sizeof_base p b) else None
  | TUser _ _ Enum n => Some (sz_enum p n)
  | _ => None
  end.

(* [meta.trans.sign] make_signed: for a signed integer type itself, for an unsigned one its
   partner, for the other integral types but bool, and for enumerations, the signed integer type
   of the least rank of that size; qualifiers are kept *)
Definition rank (b : base) : nat :=
  match b with SChar | UChar => 1 | Short | UShort => 2 | Int | UInt => 3 | Long | ULong => 4 | LLong | ULLong => 5 | _ => 0 end.
Definition std_make_signed (p : plat) (t u : ty) : Prop :=
  exists b, standard_signed b /\ u = TBase (top_const t) (top_vol t) b /\
    match t with
    | TBase _ _ x =>
        if existsb (base_eqb x) [SChar; Short; Int; Long; LLong] then b = x
        else if existsb (base_eqb x) [UChar; UShort; UInt; ULong; ULLong] then partner x = Some b
        else x <> Bool /\ std_integral x = true /\ sizeof_base p b = sizeof_base p x /\
             (forall b', standard_signed b' -> sizeof_base p b' = sizeof_base p x -> rank b <= rank b')
    | TUser _ _ Enum n => sizeof_base p b = sz_enum p n /\
             (forall b', standard_signed b' -> sizeof_base p b' = sz_enum p n -> rank b <= rank b')
    | _ => False
    end.

(* [meta.rel] is_base_of: classes that are not unions, one the other or a base of it.  A hierarchy
   tells of a base whether a pointer converts to it (it is accessible and unambiguous). *)
Definition hierarchy := nat -> nat -> option bool.
Definition std_is_base_of (h : hierarchy) (b d : ty) : Prop :=
  exists c v n c' v' n', b = TUser c v Class n /\ d = TUser c' v' Class n' /\ (n = n' \/ h n n' <> None).

(* [meta.logical] conjunction and disjunction: the first trait that decides, else the last; those
   behind it are not looked at.  A trait is given by the value it has, None if looking at it is an
   error. *)
Fixpoint std_conjunction (l : list (option bool)) : option bool :=
  match l with
  | [] => Some true
  | None :: _ => None
  | Some false :: _ => Some false
  | Some true :: r => std_conjunction r
  end.
Fixpoint std_disjunction (l : list (option bool)) : option bool :=
  match l with
  | [] => Some false
  | None :: _ => None
  | Some true :: _ => Some true
  | Some false :: r => std_disjunction r
  end.
