(* Who owns which object of the pool.  In o_masters, None is a free block, Some true a block whose pointer
   owns its object, Some false one whose pointer does not: it has no object yet, or has let go of it while
   followers still own it. *)
From Verif Require Import Base MachInt Sptr_Model Sptr_Spec Mp_Model Psp_Model.

(* b's block goes back to the pool when nobody owns its object any more. *)
Definition swept (b : nat) (s : owners) : owners := if owner_count s b =? 0 then with_m s b None else s.
Definition without (k : nat) (t : option (option nat)) (s : owners) : owners :=
  match holds s k with Some b => swept b (with_f s k t) | None => with_f s k t end.

(* What a program may do.  It never calls pool.destroy for a pointer that has had an object; make_shared and
   construct need a free block.  The rules for followers are those of ordinary shared pointers: no copy of a
   follower whose pointer was reset, at most 2^w - 1 owners, no assignment to itself.  A pointer is not used
   after its block went back. *)
Definition plegal (w : Z) (s : owners) (p : pop) : Prop :=
  match p with
  | PMake | PNew => exists b, nth_error (o_masters s) b = Some None
  | PConstruct b | PDestroy b => nth_error (o_masters s) b = Some (Some false) /\ owner_count s b = 0
  | PReset b => exists_m s b
  | PFrom k b => nth_error (o_followers s) k = Some None /\ exists_m s b /\ can_share w s (from s b)
  | PCopy k j => nth_error (o_followers s) k = Some None /\ exists_f s j /\ can_share w s (holds s j)
  | PMove k j => nth_error (o_followers s) k = Some None /\ exists_f s j
  | PAssign k j => k <> j /\ exists_f s k /\ exists_f s j /\ can_share w s (holds s j)
  | PAssignPtr k b => exists_f s k /\ exists_m (without k (Some None) s) b /\ can_share w s (from s b)
  | PFReset k | PFDestroy k => exists_f s k
  | PSwap k j => exists_f s k /\ exists_f s j
  end.
(* r: the block handed out *)
Definition peffect (s : owners) (p : pop) (r : option nat) : owners :=
  match p, r with
  | PMake, Some b => with_m s b (Some true)
  | PNew, Some b => with_m s b (Some false)
  | PMake, None | PNew, None => s
  | PConstruct b, _ => with_m s b (Some true)
  | PDestroy b, _ => with_m s b None
  | PReset b, _ => if master_owns s b then swept b (with_m s b (Some false)) else s
  | PFrom k b, _ => with_f s k (Some (from s b))
  | PCopy k j, _ => with_f s k (Some (holds s j))
  | PMove k j, _ => with_f (with_f s k (Some (holds s j))) j (Some None)
  | PAssign k j, _ => with_f (without k (Some None) s) k (Some (holds s j))
  | PAssignPtr k b, _ => with_f (without k (Some None) s) k (Some (from s b))
  | PFReset k, _ => without k (Some None) s
  | PFDestroy k, _ => without k None s
  | PSwap k j, _ => with_f (with_f s k (Some (holds s j))) j (Some (holds s k))
  end.
(* Only make_shared and construct answer, with a block that was free. *)
Definition panswers (s : owners) (p : pop) (r : option nat) : Prop :=
  match p with
  | PMake | PNew => exists b, r = Some b /\ nth_error (o_masters s) b = Some None
  | _ => r = None
  end.
(* The executions of a program that keeps to the rules, with who owns what after them. *)
Inductive pruns (w : Z) (N : nat) (kept : bool) (nf : nat) : list (pop * option nat) -> owners -> pworld -> Prop :=
| pruns_start x : pstart N nf = Ok x -> pruns w N kept nf [] (Owners (repeat None N) (repeat None nf)) x
| pruns_step tr s x p r y :
    pruns w N kept nf tr s x -> plegal w s p -> prun_op w N kept p x = Ok (y, r) ->
    pruns w N kept nf (tr ++ [(p, r)]) (peffect s p r) y.

Definition is_free (a : option bool) : bool := match a with None => true | Some _ => false end.
(* blocks that are not in use *)
Definition free_blocks (s : owners) : nat := length (filter is_free (o_masters s)).
