(* What the users of a handle based allocator over a fixed storage rely on.  The ideal allocator keeps
   the free chunks in a list and takes the first that is large enough; nothing is said of how the
   chunks are recorded in the storage. *)
From Coq Require Import List Arith Bool.
Import ListNotations.

Section Vm.
Context {B : Type}.
Inductive vop :=
  | Alloc (n : nat)              (* allocate(n) *)
  | Free (h : nat)               (* free(h) *)
  | Total                        (* total_free(&nodes) *)
  | Store (h i : nat) (x : B)    (* handles[h].data[i] = x *)
  | Load (h i : nat)             (* handles[h].data[i] *)
  | Maint.                       (* maint() *)
Inductive vreply := Handle (h : option nat) | Counts (total nodes : nat) | Byte (x : B) | Done.

(* an allocated region: where it begins, its size, what was stored in it *)
Record region := { base : nat; size : nat; kept : nat -> option B }.
Inductive phase := Idle | Compacting | Moving.
Record ideal := { chunks : list (nat * nat) (* begin and size *); regions : list (option region); at_phase : phase }.

Variable hdr : nat. (* the size of a chunk's header *)
Variable N : nat.   (* the size of the storage *)

(* the first chunk that is large enough, of which the end is taken *)
Fixpoint take (n : nat) (l : list (nat * nat)) : option (nat * list (nat * nat)) :=
  match l with
  | [] => None
  | (o, c) :: r =>
      if c =? n then Some (o, r)
      else if n <? c then Some (o + (c - n), (o, c - n) :: r)
      else match take n r with Some (p, r') => Some (p, (o, c) :: r') | None => None end
  end.
(* that chunk leaves room for its header, or is used up and is not the first of all *)
Fixpoint good_fit (first : bool) (n : nat) (l : list (nat * nat)) : Prop :=
  match l with
  | [] => True
  | (o, c) :: r => if c =? n then first = false else if n <? c then hdr <= c - n else good_fit false n r
  end.
(* the lowest handle that is not in use *)
Fixpoint free_index {T} (l : list (option T)) : option nat :=
  match l with [] => None | None :: _ => Some 0 | Some _ :: r => option_map S (free_index r) end.
Fixpoint set_nth {T} (l : list T) (i : nat) (x : T) : list T :=
  match l, i with [], _ => [] | _ :: r, 0 => x :: r | y :: r, S j => y :: set_nth r j x end.
Definition at_least (n : nat) : nat := Nat.max n hdr.
Definition live (s : ideal) (h : nat) : option region := match nth_error (regions s) h with Some (Some r) => Some r | _ => None end.
Definition put_kept (r : region) (i : nat) (x : B) : region :=
  {| base := base r; size := size r; kept := fun j => if j =? i then Some x else kept r j |}.

(* two neighbours of the list are put in order, and made one if they touch *)
Definition settle (l : list (nat * nat)) : list (nat * nat) * bool :=
  match l with
  | (o1, c1) :: (o2, c2) :: r =>
      if o2 <? o1 then (if o2 + c2 =? o1 then (o2, c2 + c1) :: r else (o2, c2) :: (o1, c1) :: r, true)
      else if o1 + c1 =? o2 then ((o1, c1 + c2) :: r, true) else (l, false)
  | _ => (l, false)
  end.

Definition act (s : ideal) (o : vop) : ideal * vreply :=
  match o with
  | Alloc n =>
      match take (at_least n) (chunks s), free_index (regions s) with
      | Some (p, l), Some h =>
          ({| chunks := l; regions := set_nth (regions s) h (Some {| base := p; size := at_least n; kept := fun _ => None |}); at_phase := at_phase s |}, Handle (Some h))
      | _, _ => (s, Handle None)
      end
  | Free h =>
      match live s h with
      | Some r => ({| chunks := (base r, size r) :: chunks s; regions := set_nth (regions s) h None; at_phase := at_phase s |}, Done)
      | None => (s, Done)
      end
  | Total => (s, Counts (list_sum (map snd (chunks s))) (length (chunks s)))
  | Store h i x =>
      match live s h with
      | Some r => ({| chunks := chunks s; regions := set_nth (regions s) h (Some (put_kept r i x)); at_phase := at_phase s |}, Done)
      | None => (s, Done)
      end
  | Load h i => (s, match live s h with Some r => match kept r i with Some x => Byte x | None => Done end | None => Done end)
  | Maint =>
      match at_phase s with
      | Idle => let (l, b) := settle (chunks s) in ({| chunks := l; regions := regions s; at_phase := if b then Compacting else Moving |}, Done)
      | Moving => ({| chunks := chunks s; regions := regions s; at_phase := Idle |}, Done)
      | Compacting => (s, Done)
      end
  end.
Definition ideal_start (K : nat) : ideal := {| chunks := [(0, N)]; regions := repeat None K; at_phase := Idle |}.

(* allocations fit well and find a handle; frees, loads and stores are within a region, loads of what
   was stored; no second maint after one that moved something *)
Definition legal (s : ideal) (o : vop) : Prop :=
  match o with
  | Alloc n => good_fit true (at_least n) (chunks s) /\ (take (at_least n) (chunks s) <> None -> free_index (regions s) <> None)
  | Free h => live s h <> None
  | Total => True
  | Store h i _ => exists r, live s h = Some r /\ i < size r
  | Load h i => exists r, live s h = Some r /\ i < size r /\ kept r i <> None
  | Maint => at_phase s <> Compacting /\ (at_phase s = Idle -> chunks s <> [])
  end.
Fixpoint runs (s : ideal) (h : list vop) : ideal * list vreply :=
  match h with [] => (s, []) | o :: t => let (s1, a) := act s o in let (s2, l) := runs s1 t in (s2, a :: l) end.
Fixpoint all_legal (s : ideal) (h : list vop) : Prop :=
  match h with [] => True | o :: t => legal s o /\ all_legal (fst (act s o)) t end.

(* how many of the chunks and regions hold a byte *)
Definition holds (b : nat) (r : nat * nat) : bool := (fst r <=? b) && (b <? fst r + snd r).
Definition cover (b : nat) (l : list (nat * nat)) : nat := list_sum (map (fun r => if holds b r then 1 else 0) l).
Definition taken (s : ideal) : list (nat * nat) :=
  flat_map (fun o => match o with Some r => [(base r, size r)] | None => [] end) (regions s).
End Vm.
Arguments vop : clear implicits.
Arguments vreply : clear implicits.
Arguments region : clear implicits.
Arguments ideal : clear implicits.
