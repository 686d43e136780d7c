(* How a user observes a container of Dyn_Model.v, and the container types it is used for. *)
From Verif Require Import Base Dyn_Model Dyn_Spec.

(* every observer of container [v] answers as the list [l] would *)
Record looks_like {A} (c : cfg A) (v : arr A) (l : list A) : Prop := LL {
  ll_size : size c v = Ok (length l);
  ll_empty : empty c v = Ok (match l with [] => true | _ => false end);
  ll_iter : iterate c v = Ok l;
  ll_at : forall i x, nth_error l i = Some x -> at_ v i = Ok x;
  ll_front : forall x t, l = x :: t -> front v = Ok x;
  ll_back : forall x t, l = t ++ [x] -> back c v = Ok x }.

(* a vector whose elements are [w] bytes each (vector.h: no null termination) *)
Definition vec_cfg (smod : nat) (narrow nodebug : bool) (w : nat) : cfg (list Z) :=
  Cfg smod narrow nodebug Explicit (memmove_bytes w).
(* a string of char (one byte each; its values are integers), null terminated or not *)
Definition str_cfg (smod : nat) (narrow nodebug nul : bool) : cfg Z :=
  Cfg smod narrow nodebug (if nul then NulTerm 0%Z (Z.eqb 0) else Explicit) memmove1.

(* what a history may do beyond keeping within capacity:
   vector: elements have the right width; erase moves one-byte elements or removes the last *)
Definition vec_ok (w : nat) (l : list (list Z)) (o : vop (list Z)) (l1 : list (list Z)) : Prop :=
  Forall (fun x => length x = w) l1 /\
  match o with Erase i => w = 1 \/ S i = length l | _ => True end.
(* string: a null terminated string holds no 0 *)
Definition str_ok (nul : bool) (l : list Z) (o : vop Z) (l1 : list Z) : Prop :=
  nul = true -> ~ In 0%Z l1.
(* one cell of a null terminated buffer is the terminator's *)
Definition room (nul : bool) (N : nat) : nat := if nul then N - 1 else N.

(* [v] is what the history [os] makes of a fresh container over [N] cells of arbitrary old
   content; on lists the history gives [l] *)
Definition vec_after (smod : nat) (narrow nodebug : bool) (w N : nat)
  (os : list (vop (list Z))) (l : list (list Z)) (v : arr (list Z)) : Prop :=
  N < smod /\
  exists b v0, length b = N /\ Forall (fun x => length x = w) b /\
    init (vec_cfg smod narrow nodebug w) b = Ok v0 /\
    vrun N (vec_ok w) [] os l /\ run (vec_cfg smod narrow nodebug w) v0 os = Ok (Go v).
Definition str_after (smod : nat) (narrow nodebug nul : bool) (N : nat)
  (os : list (vop Z)) (l : list Z) (v : arr Z) : Prop :=
  N < smod /\
  exists b v0, length b = N /\ init (str_cfg smod narrow nodebug nul) b = Ok v0 /\
    vrun (room nul N) (str_ok nul) [] os l /\ run (str_cfg smod narrow nodebug nul) v0 os = Ok (Go v).

(* a string over N cells can hold l *)
Definition fits (nul : bool) (N : nat) (l : list Z) : Prop := length l <= room nul N /\ (nul = true -> ~ In 0%Z l).
