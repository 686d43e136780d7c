(* What a fixed pool of N blocks owes its client, in terms of the calls made and the answers
   given.  A trace lists them, oldest first. *)
From Verif Require Import Base.

(* Blocks are named by their position in the pool. *)
Inductive pop_ (A : Type) :=
| Alloc                       (* pool::alloc *)
| Free (b : nat)              (* pool::free *)
| Write (b : nat) (v : A)     (* the client fills a block *)
| Emplace (v : A)             (* typed_pool::emplace *)
| Erase (b : nat).            (* typed_pool::erase *)
Arguments Alloc {A}. Arguments Free {A}. Arguments Write {A}. Arguments Emplace {A}. Arguments Erase {A}.

(* the answer: the block handed out; None is the null pointer (and the answer of the calls that
   return nothing) *)
Definition answer := option nat.

Definition drop {A} (b : nat) (l : list (nat * option A)) : list (nat * option A) :=
  filter (fun p => negb (Nat.eqb (fst p) b)) l.

(* The live blocks, with what the client last put in each (None: nothing yet). *)
Definition live1 {A} (l : list (nat * option A)) (e : pop_ A * answer) : list (nat * option A) :=
  match e with
  | (Alloc, Some b) => (b, None) :: l
  | (Emplace v, Some b) => (b, Some v) :: l
  | (Alloc, None) | (Emplace _, None) => l
  | (Free b, _) | (Erase b, _) => drop b l
  | (Write b v, _) => (b, Some v) :: drop b l
  end.
Definition live {A} (tr : list (pop_ A * answer)) : list (nat * option A) := fold_left live1 tr [].
Definition blocks {A} (l : list (nat * option A)) : list nat := map fst l.

(* What the client may ask next: only live blocks are freed or written; only a block holding an
   object is erased. *)
Definition may {A} (l : list (nat * option A)) (op : pop_ A) : Prop :=
  match op with
  | Alloc | Emplace _ => True
  | Free b | Write b _ => In b (blocks l)
  | Erase b => exists v, In (b, Some v) l
  end.

(* What the pool must answer. *)
Definition answers_well {A} (N : nat) (l : list (nat * option A)) (op : pop_ A) (r : answer) : Prop :=
  match op with
  | Alloc | Emplace _ =>
      (r = None <-> length l = N) /\ (forall b, r = Some b -> b < N /\ ~ In b (blocks l))
  | _ => r = None
  end.

(* The order of reuse: a stack of free blocks, at first 0, 1, ..., N-1 from the top. *)
Definition spare1 {A} (s : list nat) (op : pop_ A) : list nat * answer :=
  match op with
  | Alloc | Emplace _ => match s with [] => ([], None) | b :: t => (t, Some b) end
  | Free b | Erase b => (b :: s, None)
  | Write _ _ => (s, None)
  end.
Fixpoint spare {A} (s : list nat) (ops : list (pop_ A)) : list answer :=
  match ops with
  | [] => []
  | op :: t => let (s', r) := spare1 s op in r :: spare s' t
  end.
