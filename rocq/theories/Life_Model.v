(* Model of the lifetimes of a vector's elements when they are objects of a class with its own constructors,
   assignment operators and destructor (neither trivial nor trivially copyable):
   /repo/src/estd/internal/dynamic_array.h, internal/runtime_array.h, internal/impl/dynamic_array.h,
   internal/impl/handle_desc.h, internal/container/specializer.h, allocators/fixed.h, internal/array.h,
   as instantiated by estd::layer1/layer2/layer3::vector and by estd::vector over an allocator that can reallocate.
   A slot of the storage holds no object, an object, or the bytes of an object that was copied there without
   running a constructor.  Assigning to, reading, or destroying a slot without an object is undefined;
   constructing over an object is allowed and ends it without its destructor.
   Simplifications: size_type holds every size that occurs; allocation succeeds (failure: Grow_Model.v);
   constructors and assignments do not throw and keep the value they are given; lock and unlock of these
   allocators do nothing.  Trivial elements are Dyn_Model.v and Grow_Model.v. *)
From Verif Require Import Base Life_Spec.
Local Open Scope res_scope.

Inductive slot (V : Type) : Type := Raw | Live (v : V) | Bits (v : V).
Arguments Raw {V}. Arguments Live {V}. Arguments Bits {V}.

(* the storage, m_size, is there a block at all, reallocations so far, constructor and destructor calls so far *)
Record vec (V : Type) := Vec { cells : list (slot V); used : nat; has : bool; moved : nat; log : list (call V) }.
Arguments Vec {V}. Arguments cells {V}. Arguments used {V}. Arguments has {V}. Arguments moved {V}. Arguments log {V}.

(* a call finishes (Some) or stops the program in assert(false) (None) *)
Definition vres (A : Type) : Type := result (option A).
Definition vbind {A B} (m : vres A) (f : A -> vres B) : vres B :=
  r <- m ;; match r with Some a => f a | None => Ok None end.
Definition vret {A} (a : A) : vres A := Ok (Some a).
Notation "x <~ m ;; k" := (vbind m (fun x => k))
  (at level 61, m at next level, right associativity) : res_scope.
Notation "' p <~ m ;; k" := (vbind m (fun p => k))
  (at level 61, p pattern, m at next level, right associativity) : res_scope.

Section Life.
Context {V : Type}.
(* the element class: is it move assignable, is it copy assignable; what is left in an object moved from *)
Context (ma ca : bool) (mvd : V -> V).
(* the storage: fixed (compiled with or without NDEBUG) or reallocatable; does reallocation number k move the
   block; elements added when growing (dynamic_array.h:163) *)
Context (heap nodebug : bool) (moves : nat -> bool) (pad : nat).
Notation vec := (vec V).

Definition with_cells (v : vec) (m : list (slot V)) (c : list (call V)) : vec :=
  Vec m (used v) (has v) (moved v) (log v ++ c).
Definition set_size (v : vec) (n : nat) : vec := Vec (cells v) n (has v) (moved v) (log v).

(* the element class at work on one slot *)
(* new (data + i) T(...) *)
Definition construct (v : vec) (i : nat) (x : V) : vres vec :=
  _ <- rd (cells v) i ;; vret (with_cells v (upd (cells v) i (Live x)) [Made x]).
(* data[i].~T() *)
Definition destroy (v : vec) (i : nat) : vres vec :=
  s <- rd (cells v) i ;;
  match s with Live x => vret (with_cells v (upd (cells v) i Raw) [Died x]) | _ => UB end.
(* data[i] = x *)
Definition assign (v : vec) (i : nat) (x : V) : vres vec :=
  s <- rd (cells v) i ;;
  match s with Live _ => vret (with_cells v (upd (cells v) i (Live x)) []) | _ => UB end.
(* the value of data[i] *)
Definition load (v : vec) (i : nat) : result V :=
  s <- rd (cells v) i ;; match s with Live x => Ok x | _ => UB end.
(* the source of a move keeps a value of its own *)
Definition leave (v : vec) (i : nat) : vres vec :=
  x <- load v i ;; vret (with_cells v (upd (cells v) i (Live (mvd x))) []).

(* layer1::vector: the storage is bytes, no constructor runs (array.h:28-49, 189-196, fixed.h:362-369);
   impl/dynamic_array.h:117, 318-324 *)
Definition own (N : nat) : vec := Vec (repeat Raw N) 0 true 0 [].
(* layer2::vector(T *buffer), layer3::vector(T[N]): the caller's array of objects (vector.h:79-83, 122-127) *)
Definition over (xs : list V) : vec := Vec (map Live xs) 0 true 0 [].
(* estd::vector over an allocator: no block yet (allocators/handle_desc.h:56-58, 134-136) *)
Definition fresh : vec := Vec [] 0 false 0 [].

(* impl/dynamic_array.h:283-284, 296-302 *)
Definition capacity (v : vec) : nat := length (cells v).
Definition size (v : vec) : nat := if has v then used v else 0.

(* realloc moves bytes, not objects *)
Definition as_bits (s : slot V) : slot V := match s with Live x => Bits x | s => s end.
(* dynamic_array.h:396-402 reserve.  A fixed buffer: fixed.h:179-187.  Otherwise allocate
   (impl/handle_desc.h:266-270) or reallocate (:255-259) *)
Definition reserve (v : vec) (n : nat) : vres vec :=
  if heap then
    if has v
    then let m := if moves (moved v) then map as_bits (cells v) else cells v in
         vret (Vec (firstn n (m ++ repeat Raw (n - length m))) (used v) true (S (moved v)) (log v))
    else vret (Vec (repeat Raw n) (used v) true (moved v) (log v))
  else if nodebug then vret v else Ok None.
(* dynamic_array.h:132-141 *)
Definition ensure_total_capacity (v : vec) (n p : nat) : vres vec :=
  if Nat.ltb (capacity v) n then reserve v (n + p) else vret v.
(* dynamic_array.h:144-154, shrink = false *)
Definition ensure_total_size (v : vec) (n : nat) : vres vec :=
  v' <~ ensure_total_capacity v n 0 ;; vret (set_size v' n).
(* dynamic_array.h:157-179, 422-439; returns the size before *)
Definition grow (v : vec) (by_amount : nat) : vres (nat * vec) :=
  let s := size v in
  v' <~ ensure_total_capacity v (s + by_amount) pad ;;
  vret (s, set_size v' (s + by_amount)).

(* copy_n, copy (algorithm.h:92-119): assign src to data[pos], data[pos+1], ... *)
Fixpoint copy_in (v : vec) (pos : nat) (src : list V) : vres vec :=
  match src with
  | [] => vret v
  | x :: t => v' <~ assign v pos x ;; copy_in v' (S pos) t
  end.
(* dynamic_array.h:457-485 append, specializer.h:90-97 *)
Definition append (v : vec) (src : list V) : vres vec :=
  '(s, v') <~ grow v (length src) ;; copy_in v' s src.
(* dynamic_array.h:605-608 push_back(const T&) *)
Definition push_back (v : vec) (x : V) : vres vec := append v [x].
(* dynamic_array.h:611-629 push_back(T&&) *)
Definition push_back_move (v : vec) (x : V) : vres vec :=
  '(s, v') <~ grow v 1 ;; construct v' s x.
(* dynamic_array.h:660-680 emplace_back, impl/handle_desc.h:231-237, allocator_traits.h:96-102 *)
Definition emplace_back (v : vec) (x : V) : vres vec :=
  '(s, v') <~ grow v 1 ;; construct v' s x.
(* dynamic_array.h:586-603 pop_back, impl/handle_desc.h:240-245 *)
Definition pop_back (v : vec) : vres vec :=
  match used v with
  | O => UB
  | S e => v' <~ destroy v e ;; vret (set_size v' e)
  end.

(* dynamic_array.h:196-213 move_assist: k objects ending before data[last] move to those ending before
   data[d_last], last first: assigned if the class is move assignable (algorithm.h:138-149), else constructed *)
Fixpoint move_assist (v : vec) (last d_last k : nat) : vres vec :=
  match k with
  | O => vret v
  | S k' =>
      x <- load v (last - 1) ;;
      v1 <~ (if ma then assign v (d_last - 1) x else construct v (d_last - 1) x) ;;
      v2 <~ leave v1 (last - 1) ;;
      move_assist v2 (last - 1) (d_last - 1) k'
  end.
(* dynamic_array.h:278-300 raw_insert(pos, T&&), 693-698 insert; a position outside the vector is undefined *)
Definition insert_move (v : vec) (pos : nat) (x : V) : vres vec :=
  let sz := size v + 1 in
  '(_, v1) <~ grow v 1 ;;
  if Nat.leb pos (sz - 1) then
    v2 <~ move_assist v1 (sz - 1) sz (sz - 1 - pos) ;;
    construct v2 pos x
  else UB.
(* dynamic_array.h:217-251 copy_assist: as move_assist, with copies *)
Fixpoint copy_assist (v : vec) (last d_last k : nat) : vres vec :=
  match k with
  | O => vret v
  | S k' =>
      x <- load v (last - 1) ;;
      v1 <~ (if ca then assign v (d_last - 1) x else construct v (d_last - 1) x) ;;
      copy_assist v1 (last - 1) (d_last - 1) k'
  end.
(* dynamic_array.h:303-322 raw_insert(pos, first, last), 702-708 insert *)
Definition insert_range (v : vec) (pos : nat) (src : list V) : vres vec :=
  let sz := size v in
  v1 <~ ensure_total_size v (sz + length src) ;;
  if Nat.leb pos sz then
    v2 <~ copy_assist v1 sz (sz + length src) (sz - pos) ;;
    copy_in v2 pos src
  else UB.
(* dynamic_array.h:489-506 _erase(i, 1), 646-654 erase: memmove of as many bytes as there are elements after
   it, which over objects of such a class is undefined *)
Definition erase (v : vec) (i : nat) : vres vec :=
  if Nat.ltb i (used v) then
    if Nat.eqb (used v - (i + 1)) 0 then vret (set_size v (used v - 1)) else UB
  else UB.
(* dynamic_array.h:383-386 resize, 388-391 clear *)
Definition resize (v : vec) (n : nat) : vres vec := ensure_total_size v n.
Definition clear (v : vec) : vres vec := resize v 0.
(* runtime_array.h:120-129, vector.h:32, on a new layer1 vector *)
Definition init_list (N : nat) (src : list V) : vres vec :=
  v' <~ copy_in (own N) 0 src ;; vret (set_size v' (length src)).
(* runtime_array.h:107-109 the copy constructor of a layer1 vector: the implicit one copies the bytes *)
Definition copied (v : vec) : vec := Vec (map as_bits (cells v)) (used v) (has v) 0 [].

(* runtime_array.h:321-337, vector.h:42-50: v.at(i), v[i] as an object, read and assigned to *)
Definition at_ (v : vec) (i : nat) : result V := load v i.
Definition set_at (v : vec) (i : nat) (x : V) : vres vec := assign v i x.
(* what begin() .. end() shows *)
Fixpoint look_n (v : vec) (i k : nat) : result (list V) :=
  match k with O => Ok [] | S k' => x <- at_ v i ;; t <- look_n v (S i) k' ;; Ok (x :: t) end.
Definition look (v : vec) : result (list V) := look_n v 0 (size v).

(* The end of a vector: it has no destructor (dynamic_array.h:373-374), its storage just goes *)
Definition gone (v : vec) : list (call V) := log v.
(* The end of the caller's array under a vector: every element's destructor runs, last first *)
Fixpoint array_gone (v : vec) (k : nat) : vres vec :=
  match k with O => vret v | S k' => v' <~ destroy v k' ;; array_gone v' k' end.

(* running a program's requests *)
Definition do_req (v : vec) (r : req V) : vres vec :=
  match r with
  | RPush x => push_back_move v x
  | REmplace x => emplace_back v x
  | RPop => pop_back v
  | RInsert i x => insert_move v i x
  | RSet i x => set_at v i x
  end.
Fixpoint run (v : vec) (rs : list (req V)) : vres vec :=
  match rs with [] => vret v | r :: t => v' <~ do_req v r ;; run v' t end.
Definition do_creq (v : vec) (r : creq V) : vres vec :=
  match r with
  | CAppend xs => append v xs
  | CInsert i xs => insert_range v i xs
  | CSet i x => set_at v i x
  | CShrink n => resize v n
  end.
Fixpoint crun (v : vec) (rs : list (creq V)) : vres vec :=
  match rs with [] => vret v | r :: t => v' <~ do_creq v r ;; crun v' t end.
End Life.
