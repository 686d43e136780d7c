(* Model of the fixed memory pool: /repo/src/estd/internal/memory/v1/pool.h.
   A block is a union of the free-list link and the client's bytes: writing one loses the
   other, and reading the link of a block that holds none is UB.  control* is the block's
   position; storage_ is the list of blocks.  A block's contents are one value of type A (its
   bytes as a whole), so a client's partial write is not told from a full one.  Where the blocks
   lie and how they are aligned is in Aln_Model. *)
From Verif Require Import Base MachInt Pool_Spec.
Local Open Scope res_scope.

(* pool.h:15-28, 91-99 *)
Inductive cell (A : Type) := Raw | Next (n : option nat) | Bytes (v : A).
Arguments Raw {A}. Arguments Next {A}. Arguments Bytes {A}.

(* pool.h:30, 132 *)
Record pool (A : Type) := Pool { cells : list (cell A); head : option nat }.
Arguments Pool {A}. Arguments cells {A}. Arguments head {A}.

Section Pool.
Context {A : Type}.

(* pool.h:23-27: control::free, for the block b and the list whose head is hd *)
Definition link (cs : list (cell A)) (hd : option nat) (b : nat) : result (list (cell A) * option nat) :=
  cs' <- wr cs b (Next hd) ;; Ok (cs', Some b).

(* pool.h:101-110: reset; [i] is the distance of i from storage.  (The last comparison leaves i
   before the array; that is not modelled.) *)
Fixpoint reset_loop (i : nat) (cs : list (cell A)) (current : option nat) : result (list (cell A)) :=
  match i with
  | O => Ok cs
  | S i' => ' (cs', current') <- link cs current i' ;; reset_loop i' cs' current'
  end.

(* pool.h:112-118, 135: head_free_ = storage, then reset *)
Definition pool_init (N : nat) : result (pool A) :=
  cs <- reset_loop N (repeat Raw N) None ;; Ok (Pool cs (Some 0)).

(* pool.h:49 *)
Definition full (p : pool A) : bool := match head p with None => true | Some _ => false end.

(* c->next_ *)
Definition next_of (cs : list (cell A)) (c : nat) : result (option nat) :=
  x <- rd cs c ;; match x with Next n => Ok n | _ => UB end.

(* pool.h:33-41 *)
Definition alloc_next (p : pool A) : result (pool A * nat) :=
  match head p with
  | None => UB
  | Some h => n <- next_of (cells p) h ;; Ok (Pool (cells p) n, h)
  end.
(* pool.h:71-78 *)
Definition alloc (p : pool A) : result (pool A * option nat) :=
  if full p then Ok (p, None) else ' (p', b) <- alloc_next p ;; Ok (p', Some b).

(* pool.h:51-59; fuel: one more than the number of blocks *)
Fixpoint count_free (fuel : nat) (cs : list (cell A)) (i : option nat) (size : nat) : result nat :=
  match fuel with
  | O => Diverge
  | S fuel' => match i with
               | None => Ok size
               | Some c => n <- next_of cs c ;; count_free fuel' cs n (S size)
               end
  end.
Definition available (p : pool A) : result nat := count_free (S (length (cells p))) (cells p) (head p) 0.

(* pool.h:64-69 *)
Definition free (p : pool A) (b : nat) : result (pool A) :=
  ' (cs, h) <- link (cells p) (head p) b ;; Ok (Pool cs h).

(* pool.h:139-142: to_handle, to int8_t *)
Definition to_handle (b : nat) : Z := wraps 8 (Z.of_nat b).
(* pool.h:144-147: from_handle; the address of a block outside the array is UB *)
Definition from_handle (N : nat) (h : Z) : result nat :=
  if (0 <=? h)%Z && (h <? Z.of_nat N)%Z then Ok (Z.to_nat h) else UB.

(* the client's own reads and writes of a block *)
Definition put (p : pool A) (b : nat) (v : A) : result (pool A) :=
  cs <- wr (cells p) b (Bytes v) ;; Ok (Pool cs (head p)).
Definition get (p : pool A) (b : nat) : result A :=
  x <- rd (cells p) b ;; match x with Bytes v => Ok v | _ => UB end.

(* pool.h:161-169: emplace; the constructor fills the block *)
Definition emplace (p : pool A) (v : A) : result (pool A * option nat) :=
  ' (p', r) <- alloc p ;;
  match r with
  | None => Ok (p', None)
  | Some b => p'' <- put p' b v ;; Ok (p'', Some b)
  end.
(* pool.h:171-175: erase; the destructor needs an object *)
Definition erase (p : pool A) (b : nat) : result (pool A) := _ <- get p b ;; free p b.

(* The implicit copy constructor (pool.h declares none).  head_free_ and the links are copied as
   pointers: they point to the blocks of the original.  Blocks are named as the original's. *)
Record copied := Copied { own_cells : list (cell A); copied_head : option nat }.
Definition copy (p : pool A) : copied := Copied (cells p) (head p).
(* pool.h:71-78, on a copy while the original is p *)
Definition copy_alloc (p : pool A) (c : copied) : result (pool A * copied * option nat) :=
  ' (q, r) <- alloc (Pool (cells p) (copied_head c)) ;;
  Ok (Pool (cells q) (head p), Copied (own_cells c) (head q), r).

Definition step (p : pool A) (op : pop_ A) : result (pool A * answer) :=
  match op with
  | Alloc => alloc p
  | Free b => p' <- free p b ;; Ok (p', None)
  | Write b v => p' <- put p b v ;; Ok (p', None)
  | Emplace v => emplace p v
  | Erase b => p' <- erase p b ;; Ok (p', None)
  end.

(* The executions of a pool of N blocks whose client keeps to the rules. *)
Inductive exec (N : nat) : list (pop_ A * answer) -> pool A -> Prop :=
| exec_init p : pool_init N = Ok p -> exec N [] p
| exec_step tr p op r p' :
    exec N tr p -> may (live tr) op -> step p op = Ok (p', r) -> exec N (tr ++ [(op, r)]) p'.

End Pool.
