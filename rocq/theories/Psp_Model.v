(* Shared pointers that live in a pool: exp/memory/memory_pool.h memory_pool_1<layer1::shared_ptr<T>, N>
   (:49-122 the specialisation, :411-500, :565-583 make_shared) with memory.h's layer1 pointers in its
   blocks and layer3 pointers to them.  Block b of the pool holds master b of Sptr_Model, whose followers
   are used unchanged; a block that is not in use holds no master, and reading one is undefined.
   w: the width of the count, 16 in the code.  kept: whether what was written to a block before its
   pointer was constructed in it is still there afterwards; the language says it is not.  The managed
   object is represented by its lifetime: w_dead lists the calls of its destructor. *)
From Verif Require Import Base MachInt Sptr_Model Mp_Model.
Local Open Scope res_scope.

Record pworld : Type := PWorld { ptrs : world; pool : pool1 unit }.

Section Pool.
Context (w : Z) (N : nat) (kept : bool).

(* memory_pool.h:437-454 deallocate; what was in the block is gone *)
Definition give_back (b : nat) (x : pworld) : result pworld :=
  p <- deallocate1 N (pool x) b ;; Ok (PWorld (set_block b None (ptrs x)) p).
(* :73-76 Deleter: pool and pool_item were written before the constructor ran (:104-106), and the
   constructor sets neither (:78-79).  The managed object's destructor is not called. *)
Definition pdeleter (destroy_ : nat -> pworld -> result pworld) (b : nat) (x : pworld) : result pworld :=
  if kept then destroy_ b x else UB.
(* memory.h:219-237 eval_delete, after the deactivation *)
Definition prelease (destroy_ : nat -> pworld -> result pworld) (b : nat) (x : pworld) : result pworld :=
  c <- get_block b (ptrs x) ;;
  let n := wrapu w (c_count c - 1) in
  let y := PWorld (set_block b (Some (Block n (c_active c) (c_alive c))) (ptrs x)) (pool x) in
  if Z.eqb n 0 then pdeleter destroy_ b y else Ok y.
(* memory_pool.h:484-502 destroy, destroy_internal: the pointer's destructor (memory.h:323-328), then
   deallocate.  fuel: the deleter calls destroy in turn; that destructor may release again, but its count
   is then no longer 0. *)
Fixpoint pdestroy (fuel : nat) (b : nat) (x : pworld) : result pworld :=
  match fuel with
  | O => Diverge
  | S f =>
      c <- get_block b (ptrs x) ;;
      y <- (if c_active c then prelease (pdestroy f) b x else Ok x) ;;
      give_back b y
  end.
Definition let_go (b : nat) (x : pworld) : result pworld := prelease (pdestroy 2) b x.
Definition pool_destroy (b : nat) (x : pworld) : result pworld := pdestroy 3 b x.

Definition on_ptrs (r : result world) (x : pworld) : result pworld := y <- r ;; Ok (PWorld y (pool x)).
(* :464-476 construct with :98-111: no test for the null pointer; memory.h:365-369 the constructor *)
Definition pool_construct (x : pworld) : result (pworld * nat) :=
  ' (p, r) <- allocate1 N (pool x) ;;
  match r with
  | None => UB
  | Some b => Ok (PWorld (set_block b (Some (Block 0 false false)) (ptrs x)) p, b)
  end.
(* memory.h:425-432 construct(args...) of the pointer *)
Definition ptr_construct (b : nat) (x : pworld) : result pworld := on_ptrs (construct w b (ptrs x)) x.
(* memory_pool.h:565-583 make_shared *)
Definition make_shared (x : pworld) : result (pworld * nat) :=
  ' (y, b) <- pool_construct x ;; z <- ptr_construct b y ;; Ok (z, b).

(* memory.h:255-258 reset of the pointer in block b *)
Definition ptr_reset (b : nat) (x : pworld) : result pworld :=
  c <- get_block b (ptrs x) ;;
  if c_active c then y <- on_ptrs (deactivate b (ptrs x)) x ;; let_go b y else Ok x.
(* memory.h:255-258, 496-497 reset and 323-328 the destructor of a follower *)
Definition f_reset (k : nat) (x : pworld) : result pworld :=
  t <- get_follower k (ptrs x) ;;
  match t with
  | Some b => let_go b (PWorld (set_follower k (Some None) (ptrs x)) (pool x))
  | None => Ok x
  end.
Definition f_destroy (k : nat) (x : pworld) : result pworld :=
  t <- get_follower k (ptrs x) ;;
  y <- match t with Some b => let_go b x | None => Ok x end ;;
  Ok (PWorld (set_follower k None (ptrs y)) (pool y)).
(* memory.h:568-575 operator= from a follower and from a pointer of the pool *)
Definition f_assign (k j : nat) (x : pworld) : result pworld :=
  y <- f_reset k x ;;
  t <- get_follower j (ptrs y) ;;
  on_ptrs (acquire w t (set_follower k (Some t) (ptrs y))) y.
Definition f_assign_ptr (k b : nat) (x : pworld) : result pworld :=
  y <- f_reset k x ;;
  c <- get_block b (ptrs y) ;;
  let t := if c_active c then Some b else None in
  on_ptrs (acquire w t (set_follower k (Some t) (ptrs y))) y.

Inductive pop : Type :=
| PMake                        (* make_shared(pool) *)
| PNew                         (* pool.construct() *)
| PConstruct (b : nat)         (* p.construct() *)
| PReset (b : nat)             (* p.reset() *)
| PDestroy (b : nat)           (* pool.destroy(p) *)
| PFrom (k b : nat)            (* layer3::shared_ptr f(p) *)
| PCopy (k j : nat)            (* layer3::shared_ptr f(g) *)
| PMove (k j : nat)            (* layer3::shared_ptr f(move(g)) *)
| PAssign (k j : nat)          (* f = g *)
| PAssignPtr (k b : nat)       (* f = p *)
| PFReset (k : nat)            (* f.reset() *)
| PFDestroy (k : nat)          (* ~f *)
| PSwap (k j : nat).           (* f.swap(g) *)
Definition quiet (r : result pworld) : result (pworld * option nat) := y <- r ;; Ok (y, None).
Definition prun_op (p : pop) (x : pworld) : result (pworld * option nat) :=
  match p with
  | PMake => ' (y, b) <- make_shared x ;; Ok (y, Some b)
  | PNew => ' (y, b) <- pool_construct x ;; Ok (y, Some b)
  | PConstruct b => quiet (ptr_construct b x)
  | PReset b => quiet (ptr_reset b x)
  | PDestroy b => quiet (pool_destroy b x)
  | PFrom k b => quiet (on_ptrs (from_master w k b (ptrs x)) x)
  | PCopy k j => quiet (on_ptrs (copy w k j (ptrs x)) x)
  | PMove k j => quiet (on_ptrs (move k j (ptrs x)) x)
  | PAssign k j => quiet (f_assign k j x)
  | PAssignPtr k b => quiet (f_assign_ptr k b x)
  | PFReset k => quiet (f_reset k x)
  | PFDestroy k => quiet (f_destroy k x)
  | PSwap k j => quiet (on_ptrs (swap k j (ptrs x)) x)
  end.
(* the program before any pointer exists: a new pool and room for nf followers *)
Definition pstart (nf : nat) : result pworld :=
  p <- init1 N ;; Ok (PWorld (World (repeat None N) (repeat None nf) [] []) p).
End Pool.
