(* Finite maps as association lists, and what the histories of C23-C26 are allowed to do.
   Nothing here mentions the code. *)
From Coq Require Import List Arith NArith Bool.
Import ListNotations.

Section Assoc.
Context {K V : Type} (eqb : K -> K -> bool).

Fixpoint alookup (k : K) (l : list (K * V)) : option V :=
  match l with
  | [] => None
  | (k', v) :: l' => if eqb k k' then Some v else alookup k l'
  end.
Definition aremove (k : K) (l : list (K * V)) : list (K * V) := filter (fun p => negb (eqb k (fst p))) l.
Definition aset (k : K) (v : V) (l : list (K * V)) : list (K * V) := (k, v) :: aremove k l.
Definition present (k : K) (l : list (K * V)) : bool := match alookup k l with Some _ => true | None => false end.
End Assoc.

(* ---- histories of insertions (C23) *)
Inductive iop (K V : Type) := Insert (k : K) (v : V) | TryEmplace (k : K) (v : V) | InsertOrAssign (k : K) (v : V).
Arguments Insert {K V}. Arguments TryEmplace {K V}. Arguments InsertOrAssign {K V}.
Definition op_key {K V} (o : iop K V) : K := match o with Insert k _ | TryEmplace k _ | InsertOrAssign k _ => k end.
Definition op_val {K V} (o : iop K V) : V := match o with Insert _ v | TryEmplace _ v | InsertOrAssign _ v => v end.
(* the answer for a key that is present already *)
Definition op_old {K V} (o : iop K V) : bool := match o with InsertOrAssign _ _ => true | _ => false end.

(* [story eqb null ops answers l l']: starting from the contents [l], the calls [ops] answered
   [answers] lead to [l'].  An answer true stores the value.  A key that is present is never
   stored again, only insert_or_assign answers true and replaces its value; the null key is
   never stored. *)
Inductive story {K V} (eqb : K -> K -> bool) (null : K) :
  list (iop K V) -> list bool -> list (K * V) -> list (K * V) -> Prop :=
| story_nil l : story eqb null [] [] l l
| story_cons o ops r rs l l' :
    (present eqb (op_key o) l = true -> r = op_old o) ->
    (op_key o = null -> r = false) ->
    story eqb null ops rs (if r then aset eqb (op_key o) (op_val o) l else l) l' ->
    story eqb null (o :: ops) (r :: rs) l l'.

(* however the keys of [ks] are chosen, bucket [b] of a table of [N] slots is not filled up to
   the end of the table *)
Definition fits {K} (N : nat) (idx : K -> nat) (U : list K) : Prop :=
  forall b ks, b < N -> NoDup ks -> incl ks U -> Forall (fun k => idx k = b) ks -> length ks < N - b.

(* ---- histories with erasures (C24, C25): a finite map with a limit per bucket *)
Inductive mop (K V : Type) :=
| MInsert (k : K) (v : V) | MTryEmplace (k : K) (v : V) | MInsertOrAssign (k : K) (v : V)
| MStore (k : K) (v : V)      (* m[k] = v *)
| MErase (k : K) | MGc (k : K) | MClear.
Arguments MInsert {K V}. Arguments MTryEmplace {K V}. Arguments MInsertOrAssign {K V}. Arguments MStore {K V}.
Arguments MErase {K V}. Arguments MGc {K V}. Arguments MClear {K V}.

Definition mop_step {K V} (eqb : K -> K -> bool) (o : mop K V) (l : list (K * V)) : list (K * V) :=
  match o with
  | MInsert k v | MTryEmplace k v | MInsertOrAssign k v | MStore k v => aset eqb k v l
  | MErase k => aremove eqb k l
  | MGc _ => l
  | MClear => []
  end.
Definition mop_answer {K V} (eqb : K -> K -> bool) (o : mop K V) (l : list (K * V)) : bool :=
  match o with MErase k | MGc k => present eqb k l | _ => true end.
Definition load_of {K V} (idx : K -> nat) (b : nat) (l : list (K * V)) : nat :=
  length (filter (fun p => Nat.eqb (idx (fst p)) b) l).
(* a new key goes to a bucket with fewer than [depth] keys ([depth - 1] in the last bucket);
   insert and try_emplace are called with new keys only; no key of bucket 0 is erased *)
Definition mop_ok {K V} (eqb : K -> K -> bool) (null : K) (N depth : nat) (idx : K -> nat) (o : mop K V)
    (l : list (K * V)) : Prop :=
  let room k := load_of idx (idx k) l < (if Nat.eqb (idx k + depth) N then depth - 1 else depth) in
  match o with
  | MInsert k _ | MTryEmplace k _ => k <> null /\ present eqb k l = false /\ room k
  | MInsertOrAssign k _ | MStore k _ => k <> null /\ (present eqb k l = false -> room k)
  | MErase k => present eqb k l = true -> idx k <> 0
  | MGc _ | MClear => True
  end.
Fixpoint mhistory_ok {K V} (eqb : K -> K -> bool) (null : K) N depth idx (ops : list (mop K V)) (l : list (K * V)) : Prop :=
  match ops with
  | [] => True
  | o :: ops' => mop_ok eqb null N depth idx o l /\ mhistory_ok eqb null N depth idx ops' (mop_step eqb o l)
  end.
Fixpoint mrun {K V} (eqb : K -> K -> bool) (ops : list (mop K V)) (l : list (K * V)) : list (K * V) :=
  match ops with [] => l | o :: ops' => mrun eqb ops' (mop_step eqb o l) end.
Fixpoint manswers {K V} (eqb : K -> K -> bool) (ops : list (mop K V)) (l : list (K * V)) : list bool :=
  match ops with
  | [] => []
  | o :: ops' => mop_answer eqb o l :: manswers eqb ops' (mop_step eqb o l)
  end.

(* ---- for the counterexamples: entries of distinct keys, all of bucket [n], put in one by one *)
Definition bucket_keys {K V} (null : K) (idx : K -> nat) (n : nat) (kvs : list (K * V)) : Prop :=
  NoDup (map fst kvs) /\ Forall (fun kv => fst kv <> null /\ idx (fst kv) = n) kvs.
Definition inserts {K V} (kvs : list (K * V)) : list (mop K V) := map (fun kv => MInsert (fst kv) (snd kv)) kvs.
