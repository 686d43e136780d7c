(* Shared ownership, in the user's words. *)
From Coq Require Export List Arith Bool.
Export ListNotations.

(* what a program does with owners: o is the owner being created or destroyed *)
Inductive rop :=
| Make (o v : nat)   (* an owner of the value v, the first one *)
| Copy (o p : nat)   (* o is copied from p *)
| Move (o p : nat)   (* o is moved from p *)
| Drop (o : nat).    (* o is destroyed *)

(* the existing owners, each with the value it owns; an owner that was moved from owns nothing *)
Definition owners := list (nat * option nat).

Definition is_owner_of (v : nat) (e : nat * option nat) : bool :=
  match snd e with Some w => Nat.eqb w v | None => false end.
(* the number of owners of v *)
Definition owner_count (s : owners) (v : nat) : nat := length (filter (is_owner_of v) s).
Fixpoint owned_by (s : owners) (o : nat) : option nat :=
  match s with
  | [] => None
  | (p, e) :: t => if Nat.eqb p o then e else owned_by t o
  end.
Definition exists_in (s : owners) (o : nat) : bool := existsb (fun e => Nat.eqb (fst e) o) s.
Definition without (s : owners) (o : nat) : owners := filter (fun e => negb (Nat.eqb (fst e) o)) s.

(* a history keeps to the rules.  A moved-from owner is only good for destruction; moving the only
   owner of a value is outside these rules and treated separately *)
Definition allowed (null : nat -> bool) (s : owners) (op : rop) : bool :=
  match op with
  | Make o v => negb (exists_in s o) && negb (null v) && Nat.eqb (owner_count s v) 0
  | Copy o p => negb (exists_in s o) && match owned_by s p with Some _ => true | None => false end
  | Move o p => negb (exists_in s o) &&
                match owned_by s p with Some v => Nat.leb 2 (owner_count s v) | None => false end
  | Drop o => exists_in s o
  end.

Definition after (s : owners) (op : rop) : owners :=
  match op with
  | Make o v => (o, Some v) :: s
  | Copy o p => (o, owned_by s p) :: s
  | Move o p => (o, owned_by s p) :: (p, None) :: without s p
  | Drop o => without s o
  end.
(* the values that must be destroyed by this step: the value of an owner that is the last one *)
Definition released (s : owners) (op : rop) : list nat :=
  match op with
  | Drop o => match owned_by s o with
              | Some v => if Nat.eqb (owner_count s v) 1 then [v] else []
              | None => []
              end
  | _ => []
  end.

Fixpoint all_allowed (null : nat -> bool) (s : owners) (ops : list rop) : bool :=
  match ops with
  | [] => true
  | op :: t => allowed null s op && all_allowed null (after s op) t
  end.
Fixpoint after_all (s : owners) (ops : list rop) : owners :=
  match ops with [] => s | op :: t => after_all (after s op) t end.
Fixpoint released_all (s : owners) (ops : list rop) : list nat :=
  match ops with [] => [] | op :: t => released s op ++ released_all (after s op) t end.

(* how often a history makes a first owner of v *)
Definition makes (v : nat) (ops : list rop) : nat :=
  length (filter (fun op => match op with Make _ w => Nat.eqb w v | _ => false end) ops).
