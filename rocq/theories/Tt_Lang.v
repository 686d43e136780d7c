(* The types of C++ and the language rules the type traits stand on.  Nothing here is code of
   /repo: the rules are those of the C++ standard (C++17), cited as [section].

   A type is kept in canonical form: qualifiers stand where the standard puts them, so those of an
   array are those of its elements, and references and functions have none of their own.
   Not included: __int128, and the types later standards add. *)
From Coq Require Import List Bool Arith.
Import ListNotations.

(* [basic.fundamental] *)
Inductive base := Void | NullptrT | Bool | Char | SChar | UChar | WChar | Char16 | Char32 |
  Short | UShort | Int | UInt | Long | ULong | LLong | ULLong | Float | Double | LDouble.
(* [basic.compound] user-defined types, named by a number *)
Inductive user := Class | Union | Enum.
Inductive refq := NoRef | RefL | RefR.

(* c and v: const and volatile *)
Inductive ty :=
| TBase (c v : bool) (b : base)
| TUser (c v : bool) (k : user) (n : nat)
| TPtr (c v : bool) (t : ty)
| TMem (c v : bool) (cls : nat) (t : ty)           (* t C::* *)
| TLRef (t : ty)
| TRRef (t : ty)
| TArr (n : option nat) (t : ty)                   (* t[n], t[] *)
| TFun (r : ty) (args : list ty) (ellipsis c v : bool) (q : refq) (nx : bool).

(* the equality of types *)
Definition base_eqb (a b : base) : bool := if (fun x y : base => ltac:(decide equality) : {x = y} + {x <> y}) a b then true else false.
Definition user_eqb (a b : user) : bool := if (fun x y : user => ltac:(decide equality) : {x = y} + {x <> y}) a b then true else false.
Definition refq_eqb (a b : refq) : bool := if (fun x y : refq => ltac:(decide equality) : {x = y} + {x <> y}) a b then true else false.
Definition opt_eqb (a b : option nat) : bool :=
  match a, b with Some x, Some y => Nat.eqb x y | None, None => true | _, _ => false end.
Fixpoint ty_eqb (a b : ty) {struct a} : bool :=
  match a, b with
  | TBase c v x, TBase c' v' x' => eqb c c' && eqb v v' && base_eqb x x'
  | TUser c v k n, TUser c' v' k' n' => eqb c c' && eqb v v' && user_eqb k k' && Nat.eqb n n'
  | TPtr c v t, TPtr c' v' t' => eqb c c' && eqb v v' && ty_eqb t t'
  | TMem c v n t, TMem c' v' n' t' => eqb c c' && eqb v v' && Nat.eqb n n' && ty_eqb t t'
  | TLRef t, TLRef t' => ty_eqb t t'
  | TRRef t, TRRef t' => ty_eqb t t'
  | TArr n t, TArr n' t' => opt_eqb n n' && ty_eqb t t'
  | TFun r a e c v q x, TFun r' a' e' c' v' q' x' =>
      ty_eqb r r' &&
      (fix all (l l' : list ty) : bool :=
         match l, l' with [], [] => true | y :: m, y' :: m' => ty_eqb y y' && all m m' | _, _ => false end) a a' &&
      eqb e e' && eqb c c' && eqb v v' && refq_eqb q q' && eqb x x'
  | _, _ => false
  end.

(* [basic.type.qualifier]/5: the qualifiers of an array are those of its elements *)
Fixpoint top_const (t : ty) : bool :=
  match t with
  | TBase c _ _ => c | TUser c _ _ _ => c | TPtr c _ _ => c | TMem c _ _ _ => c
  | TArr _ u => top_const u
  | _ => false
  end.
Fixpoint top_vol (t : ty) : bool :=
  match t with
  | TBase _ v _ => v | TUser _ v _ _ => v | TPtr _ v _ => v | TMem _ v _ _ => v
  | TArr _ u => top_vol u
  | _ => false
  end.

(* "const T", "volatile T", "const volatile T": no effect on references and functions
   ([dcl.ref]/1, [dcl.fct]/7) *)
Fixpoint add_quals (c v : bool) (t : ty) : ty :=
  match t with
  | TBase c' v' b => TBase (c || c') (v || v') b
  | TUser c' v' k n => TUser (c || c') (v || v') k n
  | TPtr c' v' u => TPtr (c || c') (v || v') u
  | TMem c' v' n u => TMem (c || c') (v || v') n u
  | TArr n u => TArr n (add_quals c v u)
  | _ => t
  end.
(* the type T for which t is "const T" ("volatile T") and T is not itself const (volatile) *)
Fixpoint drop_const (t : ty) : ty :=
  match t with
  | TBase _ v b => TBase false v b
  | TUser _ v k n => TUser false v k n
  | TPtr _ v u => TPtr false v u
  | TMem _ v n u => TMem false v n u
  | TArr n u => TArr n (drop_const u)
  | _ => t
  end.
Fixpoint drop_vol (t : ty) : ty :=
  match t with
  | TBase c _ b => TBase c false b
  | TUser c _ k n => TUser c false k n
  | TPtr c _ u => TPtr c false u
  | TMem c _ n u => TMem c false n u
  | TArr n u => TArr n (drop_vol u)
  | _ => t
  end.

(* [dcl.fct]/6: functions with qualifiers of their own *)
Definition abominable (t : ty) : bool :=
  match t with TFun _ _ _ c v q _ => c || v || negb (refq_eqb q NoRef) | _ => false end.
Definition is_fun (t : ty) : bool := match t with TFun _ _ _ _ _ _ _ => true | _ => false end.
Definition is_ref (t : ty) : bool := match t with TLRef _ | TRRef _ => true | _ => false end.
Definition is_arr (t : ty) : bool := match t with TArr _ _ => true | _ => false end.
Definition is_voidlike (t : ty) : bool := match t with TBase _ _ Void => true | _ => false end.

(* [defns.referenceable] *)
Definition referenceable (t : ty) : bool := negb (is_voidlike t) && negb (abominable t).

(* "T&", "T&&" with [dcl.ref]/6 (references collapse), "T*"; None: there is no such type *)
Definition mk_lref (t : ty) : option ty :=
  match t with
  | TLRef u | TRRef u => Some (TLRef u)
  | _ => if referenceable t then Some (TLRef t) else None
  end.
Definition mk_rref (t : ty) : option ty :=
  match t with
  | TLRef _ | TRRef _ => Some t
  | _ => if referenceable t then Some (TRRef t) else None
  end.
Definition mk_ptr (t : ty) : option ty :=
  if is_ref t || abominable t then None else Some (TPtr false false t).

(* which terms are types: [dcl.ptr], [dcl.ref], [dcl.array], [dcl.fct], [dcl.mptr] *)
Fixpoint legal (t : ty) : bool :=
  match t with
  | TBase _ _ _ | TUser _ _ _ _ => true
  | TPtr _ _ u => legal u && negb (is_ref u) && negb (abominable u)
  | TMem _ _ _ u => legal u && negb (is_ref u) && negb (is_voidlike u)
  | TLRef u | TRRef u => legal u && negb (is_ref u) && referenceable u
  | TArr _ u => legal u && negb (is_ref u) && negb (is_voidlike u) && negb (is_fun u) &&
      match u with TArr None _ => false | _ => true end
  | TFun r a _ _ _ _ _ => legal r && negb (is_arr r) && negb (is_fun r) &&
      forallb (fun x => legal x && negb (is_arr x) && negb (is_fun x) && negb (is_voidlike x) &&
                        negb (top_const x) && negb (top_vol x)) a
  end.

(* Patterns of partial specializations in one type parameter (PAny), and which type, if any, a
   type deduces for it ([temp.deduct.type]).  A pattern without qualifiers matches types without
   qualifiers only.  PFun leaves the return and parameter types open. *)
Inductive pat :=
| PAny | PConst (p : pat) | PVol (p : pat) | PLRef (p : pat) | PRRef (p : pat) | PPtr (p : pat)
| PArr (p : pat) | PArrN (p : pat) | PMem (p : pat) | PBase (b : base)
| PFun (ellipsis c v : bool) (q : refq) (nx : bool).
Fixpoint deduce (p : pat) (t : ty) : option ty :=
  match p with
  | PAny => Some t
  | PConst p' => if top_const t then deduce p' (drop_const t) else None
  | PVol p' => if top_vol t then deduce p' (drop_vol t) else None
  | PLRef p' => match t with TLRef u => deduce p' u | _ => None end
  | PRRef p' => match t with TRRef u => deduce p' u | _ => None end
  | PPtr p' => match t with TPtr false false u => deduce p' u | _ => None end
  | PArr p' => match t with TArr None u => deduce p' u | _ => None end
  | PArrN p' => match t with TArr (Some _) u => deduce p' u | _ => None end
  | PMem p' => match t with TMem false false _ u => deduce p' u | _ => None end
  | PBase b => match t with TBase false false b' => if base_eqb b b' then Some t else None | _ => None end
  | PFun e c v q x =>
      match t with
      | TFun _ _ e' c' v' q' x' =>
          if eqb e e' && eqb c c' && eqb v v' && refq_eqb q q' && eqb x x' then Some t else None
      | _ => None
      end
  end.
(* A template with its partial specializations.  Where several match, [temp.class.order] takes the
   most specialized; the tables list it first. *)
Fixpoint choose {A} (specs : list (pat * (ty -> A))) (primary : ty -> A) (t : ty) : A :=
  match specs with
  | [] => primary t
  | (p, f) :: r => match deduce p t with Some u => f u | None => choose r primary t end
  end.

(* A platform: the sizes (in bytes) of the integer types, which of char and wchar_t are signed,
   the sizes of enumerations and the fixed-width types.  [basic.fundamental], [cstdint.syn] *)
Record plat := Plat { sz_short : nat; sz_int : nat; sz_long : nat; sz_llong : nat; sz_wchar : nat;
  sz_char16 : nat; sz_char32 : nat; char_signed : bool; wchar_signed : bool; sz_enum : nat -> nat;
  uint8_t : base; uint16_t : base; uint32_t : base; uint64_t : base }.
Definition sizeof_base (p : plat) (b : base) : nat :=
  match b with
  | Bool | Char | SChar | UChar => 1
  | WChar => sz_wchar p | Char16 => sz_char16 p | Char32 => sz_char32 p
  | Short | UShort => sz_short p
  | Int | UInt => sz_int p
  | Long | ULong => sz_long p
  | LLong | ULLong => sz_llong p
  | _ => 0                                         (* not used: void, floating point, nullptr_t *)
  end.
