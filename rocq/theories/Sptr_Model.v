(* Model of layer1, layer2 and layer3 shared_ptr, /repo/src/estd/memory.h.
   A layer1 or layer2 pointer ("master") contains its control block; a layer3 pointer ("follower")
   points to one or is null.  Masters and followers are numbered variables; block b is that of
   master b.  w is the width of the count, 16 in the code (memory.h:62, uint16_t).  The deleter
   ends the life of the managed object; nothing else of it is modelled, nor is weak_ptr, which has
   no operations (memory.h:164-173). *)
From Verif Require Import Base MachInt.
Local Open Scope res_scope.

(* memory.h:62-95 shared_ptr_control_block, with the state of the managed object. *)
Record block : Type := Block { c_count : Z; c_active : bool; c_alive : bool }.
Record world : Type := World {
  w_blocks : list (option block);          (* None: no such master *)
  w_followers : list (option (option nat)); (* None: no such variable; Some None: null *)
  w_made : list nat;                       (* blocks whose object was constructed, in order *)
  w_dead : list nat                        (* blocks whose deleter was called, in order *) }.

Section Ptr.
Context (w : Z).

Definition get_block (b : nat) (x : world) : result block :=
  match nth_error (w_blocks x) b with Some (Some c) => Ok c | _ => UB end.
Definition set_block (b : nat) (c : option block) (x : world) : world :=
  World (upd (w_blocks x) b c) (w_followers x) (w_made x) (w_dead x).
Definition get_follower (k : nat) (x : world) : result (option nat) :=
  match nth_error (w_followers x) k with Some (Some t) => Ok t | _ => UB end.
Definition set_follower (k : nat) (t : option (option nat)) (x : world) : world :=
  World (w_blocks x) (upd (w_followers x) k t) (w_made x) (w_dead x).

(* memory.h:100-114, 149-162 Deleter(): the object must be alive. *)
Definition deleter (b : nat) (x : world) : result world :=
  c <- get_block b x ;;
  if c_alive c
  then Ok (let y := set_block b (Some (Block (c_count c) (c_active c) false)) x in
           World (w_blocks y) (w_followers y) (w_made y) (w_dead y ++ [b]))
  else UB.

(* memory.h:219-237 eval_delete(with_deactivate), after the deactivation. *)
Definition release (b : nat) (x : world) : result world :=
  c <- get_block b x ;;
  let n := wrapu w (c_count c - 1) in
  let y := set_block b (Some (Block n (c_active c) (c_alive c))) x in
  if Z.eqb n 0 then deleter b y else Ok y.
(* memory.h:373, 451, 343-350: is_active and deactivate of a master. *)
Definition deactivate (b : nat) (x : world) : result world :=
  c <- get_block b x ;; Ok (set_block b (Some (Block (c_count c) false (c_alive c))) x).
(* memory.h:255-258 reset, 323-328 the destructor: a master, *)
Definition master_reset (b : nat) (x : world) : result world :=
  c <- get_block b x ;;
  if c_active c then y <- deactivate b x ;; release b y else Ok x.
Definition master_destroy (b : nat) (x : world) : result world :=
  c <- get_block b x ;;
  y <- (if c_active c then release b x else Ok x) ;;
  Ok (set_block b None y).
(* and a follower (memory.h:496-497). *)
Definition follower_reset (k : nat) (x : world) : result world :=
  t <- get_follower k x ;;
  match t with
  | Some b => release b (set_follower k (Some None) x)
  | None => Ok x
  end.
Definition follower_destroy (k : nat) (x : world) : result world :=
  t <- get_follower k x ;;
  match t with
  | Some b => y <- release b x ;; Ok (set_follower k None y)
  | None => Ok (set_follower k None x)
  end.

(* memory.h:466-469 layer2 constructor from a pointer, with 83-94: count 1, active. *)
Definition master2 (b : nat) (x : world) : result world :=
  match nth_error (w_blocks x) b with
  | Some None =>
      let y := set_block b (Some (Block 1 true true)) x in
      Ok (World (w_blocks y) (w_followers y) (w_made y ++ [b]) (w_dead y))
  | _ => UB
  end.
(* memory.h:365-369 layer1 constructor: no object yet, count 0, not active. *)
Definition master1 (b : nat) (x : world) : result world :=
  match nth_error (w_blocks x) b with
  | Some None => Ok (set_block b (Some (Block 0 false false)) x)
  | _ => UB
  end.
(* memory.h:425-432 layer1 construct(args...): placement new over a live object is undefined. *)
Definition construct (b : nat) (x : world) : result world :=
  c <- get_block b x ;;
  if c_alive c then UB
  else let y := set_block b (Some (Block (wrapu w (c_count c + 1)) true true)) x in
       Ok (World (w_blocks y) (w_followers y) (w_made y ++ [b]) (w_dead y)).

(* memory.h:305-312 shared_ptr2_base(master): the count grows only while the master is active. *)
Definition acquire (t : option nat) (x : world) : result world :=
  match t with
  | None => Ok x
  | Some b => c <- get_block b x ;;
              if c_active c
              then Ok (set_block b (Some (Block (wrapu w (c_count c + 1)) (c_active c) (c_alive c))) x)
              else Ok x
  end.
Definition new_follower (k : nat) (t : option nat) (x : world) : result world :=
  match nth_error (w_followers x) k with
  | Some None => acquire t (set_follower k (Some t) x)
  | _ => UB
  end.
(* memory.h:532-543 from a master *)
Definition from_master (k b : nat) (x : world) : result world :=
  c <- get_block b x ;; new_follower k (if c_active c then Some b else None) x.
(* memory.h:557 copy *)
Definition copy (k j : nat) (x : world) : result world :=
  t <- get_follower j x ;; new_follower k t x.
(* memory.h:560-563 move, with 314-319, 506-511: the pointer is taken over, the source nulled. *)
Definition move (k j : nat) (x : world) : result world :=
  t <- get_follower j x ;;
  match nth_error (w_followers x) k with
  | Some None => Ok (set_follower j (Some None) (set_follower k (Some t) x))
  | _ => UB
  end.
(* memory.h:568-575 operator=: reset, then construct in place.  A pointer assigned to itself is
   read after the reset. *)
Definition assign (k j : nat) (x : world) : result world :=
  y <- follower_reset k x ;;
  t <- get_follower j y ;;
  acquire t (set_follower k (Some t) y).
Definition assign_master (k b : nat) (x : world) : result world :=
  y <- follower_reset k x ;;
  c <- get_block b y ;;
  let t := if c_active c then Some b else None in
  acquire t (set_follower k (Some t) y).
(* memory.h:586-595 swap with utility.h exchange *)
Definition swap (k j : nat) (x : world) : result world :=
  t <- get_follower k x ;;
  u <- get_follower j x ;;
  Ok (set_follower j (Some t) (set_follower k (Some u) x)).

(* memory.h:246-249 use_count() of a master and of a follower. *)
Definition master_use_count (b : nat) (x : world) : result Z :=
  c <- get_block b x ;; Ok (if c_active c then c_count c else 0%Z).
Definition use_count (k : nat) (x : world) : result Z :=
  t <- get_follower k x ;;
  match t with Some b => c <- get_block b x ;; Ok (c_count c) | None => Ok 0%Z end.
(* memory.h:262-269 get() of a follower, and the use of the object it gives: the null follower has
   no control block to read, a dead object must not be used. *)
Definition use (k : nat) (x : world) : result nat :=
  t <- get_follower k x ;;
  match t with
  | Some b => c <- get_block b x ;; if c_alive c then Ok b else UB
  | None => UB
  end.

Inductive op : Type :=
| Master2 (b : nat) | Master1 (b : nat) | Construct (b : nat) | MReset (b : nat) | MDestroy (b : nat)
| FromMaster (k b : nat) | Copy (k j : nat) | Move (k j : nat) | Assign (k j : nat)
| AssignMaster (k b : nat) | Reset (k : nat) | Destroy (k : nat) | Swap (k j : nat).
Definition run_op (p : op) (x : world) : result world :=
  match p with
  | Master2 b => master2 b x
  | Master1 b => master1 b x
  | Construct b => construct b x
  | MReset b => master_reset b x
  | MDestroy b => master_destroy b x
  | FromMaster k b => from_master k b x
  | Copy k j => copy k j x
  | Move k j => move k j x
  | Assign k j => assign k j x
  | AssignMaster k b => assign_master k b x
  | Reset k => follower_reset k x
  | Destroy k => follower_destroy k x
  | Swap k j => swap k j x
  end.
Fixpoint run_ops (l : list op) (x : world) : result world :=
  match l with
  | [] => Ok x
  | p :: r => y <- run_op p x ;; run_ops r y
  end.
End Ptr.
