(* Model of internal/functional/function_traits.h (ft), internal/common_type.h (ct),
   internal/cstdlib.h (cs) and system_error.h (se) of /repo/src/estd.
   errc is the number it holds (internal/enum.h:25-53 compares and converts it as such).
   A template that has no such member type, or does not compile, is None. *)
From Coq Require Import List Bool Arith ZArith.
From Verif Require Import Base Tt_Lang Tt_Model Fnt_Lang.
Import ListNotations.
Local Open Scope Z_scope.

(* ---- function_traits ---- *)

(* ft:25-72, the members *)
Record ftraits := FTraits { function_type : ty; return_type : ty; tuple : list ty; is_method : bool; class_type : option nat }.
Definition nargs (f : ftraits) : nat := length (tuple f).
(* ft:36 arg<i>: tuple_element *)
Definition arg (f : ftraits) (i : nat) : option ty := nth_error (tuple f) i.

(* What a program says of its classes: the type of &T::operator() (None without one, or with
   several), and which of them are estd::detail::function<R(Args...)> *)
Record classes := Classes { call_operator : nat -> option ty; estd_function : nat -> option ty }.

(* ft:20-37: function_traits<R(Args...)> *)
Definition traits_fun (t : ty) : option ftraits :=
  match t with
  | TFun r a false false false NoRef false => Some (FTraits t r a false None)
  | _ => None
  end.
(* ft:46-63: function_traits<R(C::* )(Args...) const> and <R(C::* )(Args...)>.  The base class gives
   return type and arguments. *)
Definition traits_mem (t : ty) : option ftraits :=
  match t with
  | TMem false false c (TFun r a false k false NoRef false) =>
      option_map (fun f => FTraits t (return_type f) (tuple f) true (Some c)) (traits_fun (TFun r a false false false NoRef false))
  | _ => None
  end.
(* ft:13-18 the primary template, 39-43 estd::detail::function, 67-72 references to functions *)
Definition function_traits (cl : classes) (t : ty) : option ftraits :=
  match t with
  | TFun _ _ _ _ _ _ _ => traits_fun t
  | TMem _ _ _ _ => traits_mem t
  | TLRef u => traits_fun u
  | TUser c v Class n =>
      match estd_function cl n with
      | Some f => if c || v then match call_operator cl n with Some m => traits_mem m | None => None end else traits_fun f
      | None => match call_operator cl n with Some m => traits_mem m | None => None end
      end
  | TUser _ _ Union n => match call_operator cl n with Some m => traits_mem m | None => None end
  | _ => None
  end.

(* ---- common_type ---- *)

(* ct:27 cond_t: the type of false ? declval<T1>() : declval<T2>() for decayed types: of two the
   same an rvalue of it, of arithmetic types the common type.  For all other pairs the
   compiler's answer is a parameter. *)
Definition cond_t (p : plat) (other : ty -> ty -> option ty) (t u : ty) : option ty :=
  if ty_eqb t u then mk_rref t
  else match t, u with
       | TBase false false a, TBase false false b =>
           if is_arithmetic t && is_arithmetic u then Some (TBase false false (usual_arithmetic p a b)) else other t u
       | _, _ => other t u
       end.
(* ct:29-35 *)
Definition common_type_2_default p other (t u : ty) : option ty :=
  match cond_t p other t u with Some c => decay c | None => None end.
(* ct:38-45: decays both, and again until they do not change; twice is enough, see
   Fnt_Proofs.decay_base *)
Definition common_type_2 p other (t u : ty) : option ty :=
  match decay t, decay u with
  | Some d, Some e =>
      if ty_eqb t d && ty_eqb u e then common_type_2_default p other d e
      else match decay d, decay e with
           | Some d', Some e' => if ty_eqb d d' && ty_eqb e e' then common_type_2_default p other d e else None
           | _, _ => None
           end
  | _, _ => None
  end.
(* ct:18-20, 47, 52-61; fwd/common_type.h:11-14 *)
Fixpoint common_from p other (t : ty) (l : list ty) : option ty :=
  match l with
  | [] => Some t
  | u :: r => match common_type_2 p other t u with Some c => common_from p other c r | None => None end
  end.
Definition common_type p other (l : list ty) : option ty :=
  match l with
  | [] => None
  | [t] => decay t
  | t :: r => common_from p other t r
  end.

(* ---- div ---- *)

(* An integer type by signedness and width; wi is the width of int.  x / y and x % y are computed
   in int if it is wider; y = 0 and a quotient that does not fit are undefined. *)
Definition divide (sgn : bool) (w : Z) (x y : Z) : result (Z * Z) :=
  if y =? 0 then UB
  else if sgn && (x =? - 2 ^ (w - 1)) && (y =? -1) then UB
  else Ok (Z.quot x y, Z.rem x y).
(* cs:15-28 div<Int>::eval.  Types narrower than int are promoted (all their values fit). *)
Definition div_generic (wi : Z) (sgn : bool) (w : Z) (x y : Z) : result (Z * Z) :=
  let '(s', w') := if w <? wi then (true, wi) else (sgn, w) in
  match divide s' w' x y with
  | Ok (q, r) => Ok (wrap sgn w q, wrap sgn w r)
  | UB => UB
  | Diverge => Diverge
  end.
(* cs:30-41 div<int>: the library's div *)
Definition div_int (wi : Z) (x y : Z) : result (Z * Z) := divide true wi x y.
(* cs:44-56 div<long>; without FEATURE_STD_CSTDLIB the parameters are int *)
Definition div_long (std_cstdlib : bool) (wi wl : Z) (x y : Z) : result (Z * Z) :=
  if std_cstdlib then divide true wl x y
  else divide true wl (wrap true wi x) (wrap true wi y).

(* ---- errc ---- *)

(* the errno numbers of the platform *)
Record errno := Errno { EDOM : Z; ERANGE : Z; EAFNOSUPPORT : Z; EADDRINUSE : Z; E2BIG : Z; EFAULT : Z; EBUSY : Z; EINVAL : Z;
  ENOENT : Z; ESRCH : Z; ENOMEM : Z; ENOTSUP : Z; ETIMEDOUT : Z; EOVERFLOW : Z }.
Inductive errc := argument_out_of_domain | address_family_not_supported | address_in_use | argument_list_too_long | bad_address |
  device_or_resource_busy | invalid_argument | no_such_file_or_directory | no_such_process | not_enough_memory | not_supported |
  result_out_of_range | timed_out | value_too_large.
(* se:44-73; full: FEATURE_STD_FULL_ERRNO *)
Definition value (full : bool) (e : errno) (c : errc) : option Z :=
  match c with
  | argument_out_of_domain => Some (EDOM e)
  | address_family_not_supported => if full then Some (EAFNOSUPPORT e) else None
  | address_in_use => if full then Some (EADDRINUSE e) else None
  | argument_list_too_long => if full then Some (E2BIG e) else None
  | bad_address => if full then Some (EFAULT e) else None
  | device_or_resource_busy => if full then Some (EBUSY e) else None
  | invalid_argument => if full then Some (EINVAL e) else Some (EDOM e + 10)
  | no_such_file_or_directory => if full then Some (ENOENT e) else None
  | no_such_process => if full then Some (ESRCH e) else None
  | not_enough_memory => if full then Some (ENOMEM e) else None
  | not_supported => if full then Some (ENOTSUP e) else Some (EDOM e + 20)
  | result_out_of_range => Some (ERANGE e)
  | timed_out => if full then Some (ETIMEDOUT e) else Some (EDOM e + 30)
  | value_too_large => if full then Some (EOVERFLOW e) else Some (EDOM e + 40)
  end.
