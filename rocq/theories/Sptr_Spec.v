(* Specification of the shared pointers: who owns which object. *)
From Verif Require Import Base MachInt Sptr_Model.

(* A master does not exist (None), owns its object (Some true) or not (Some false); a follower
   does not exist, is null, or owns the object of a master. *)
Record owners : Type := Owners { o_masters : list (option bool); o_followers : list (option (option nat)) }.

Definition master_owns (s : owners) (b : nat) : bool :=
  match nth_error (o_masters s) b with Some (Some true) => true | _ => false end.
Fixpoint followers_of (b : nat) (l : list (option (option nat))) : nat :=
  match l with
  | [] => 0
  | Some (Some c) :: r => (if Nat.eqb c b then 1 else 0) + followers_of b r
  | _ :: r => followers_of b r
  end.
(* How many pointers own object b. *)
Definition owner_count (s : owners) (b : nat) : nat :=
  (if master_owns s b then 1 else 0) + followers_of b (o_followers s).

Definition holds (s : owners) (k : nat) : option nat :=
  match nth_error (o_followers s) k with Some (Some t) => t | _ => None end.
Definition exists_f (s : owners) (k : nat) : Prop := exists t, nth_error (o_followers s) k = Some (Some t).
Definition exists_m (s : owners) (b : nat) : Prop := exists a, nth_error (o_masters s) b = Some (Some a).
(* One more owner of what t names can be counted, and its master still owns it. *)
Definition can_share (w : Z) (s : owners) (t : option nat) : Prop :=
  match t with
  | None => True
  | Some b => master_owns s b = true /\ (Z.of_nat (owner_count s b) + 1 < 2 ^ w)%Z
  end.
Definition from (s : owners) (b : nat) : option nat := if master_owns s b then Some b else None.

(* The operations a program may use.  A master must not go away before its followers; its object
   may be constructed again only when nobody owns the previous one. *)
Definition legal (w : Z) (s : owners) (p : op) : Prop :=
  match p with
  | Master2 b | Master1 b => nth_error (o_masters s) b = Some None
  | Construct b => nth_error (o_masters s) b = Some (Some false) /\ owner_count s b = 0
  | MReset b => exists_m s b
  | MDestroy b => exists_m s b /\ followers_of b (o_followers s) = 0
  | FromMaster k b => nth_error (o_followers s) k = Some None /\ exists_m s b /\ can_share w s (from s b)
  | Copy k j => nth_error (o_followers s) k = Some None /\ exists_f s j /\ can_share w s (holds s j)
  | Move k j => nth_error (o_followers s) k = Some None /\ exists_f s j
  | Assign k j => k <> j /\ exists_f s k /\ exists_f s j /\ can_share w s (holds s j)
  | AssignMaster k b => exists_f s k /\ exists_m s b /\ can_share w s (from s b)
  | Reset k | Destroy k => exists_f s k
  | Swap k j => exists_f s k /\ exists_f s j
  end.
Definition with_m (s : owners) (b : nat) (a : option bool) : owners := Owners (upd (o_masters s) b a) (o_followers s).
Definition with_f (s : owners) (k : nat) (t : option (option nat)) : owners := Owners (o_masters s) (upd (o_followers s) k t).
Definition effect (s : owners) (p : op) : owners :=
  match p with
  | Master2 b | Construct b => with_m s b (Some true)
  | Master1 b => with_m s b (Some false)
  | MReset b => with_m s b (Some false)
  | MDestroy b => with_m s b None
  | FromMaster k b | AssignMaster k b => with_f s k (Some (from s b))
  | Copy k j | Assign k j => with_f s k (Some (holds s j))
  | Move k j => with_f (with_f s k (Some (holds s j))) j (Some None)
  | Reset k => with_f s k (Some None)
  | Destroy k => with_f s k None
  | Swap k j => with_f (with_f s k (Some (holds s j))) j (Some (holds s k))
  end.
Fixpoint all_legal (w : Z) (s : owners) (l : list op) : Prop :=
  match l with
  | [] => True
  | p :: r => legal w s p /\ all_legal w (effect s p) r
  end.
Fixpoint effects (s : owners) (l : list op) : owners :=
  match l with
  | [] => s
  | p :: r => effects (effect s p) r
  end.

Definition alive (x : world) (b : nat) : bool :=
  match nth_error (w_blocks x) b with Some (Some c) => c_alive c | _ => false end.
(* The pointers of x are those of s, an object is alive exactly while it has an owner, use_count()
   is the number of owners, and every object made was deleted exactly once unless it is alive. *)
Definition shows (x : world) (s : owners) : Prop :=
  w_followers x = o_followers s /\
  map (option_map c_active) (w_blocks x) = o_masters s /\
  (forall b, exists_m s b -> exists c, nth_error (w_blocks x) b = Some (Some c) /\
     c_count c = Z.of_nat (owner_count s b)) /\
  (forall b, alive x b = true <-> 0 < owner_count s b) /\
  (forall b, 0 < followers_of b (o_followers s) -> exists_m s b) /\
  forall b, count_occ Nat.eq_dec (w_made x) b =
            count_occ Nat.eq_dec (w_dead x) b + (if alive x b then 1 else 0).
