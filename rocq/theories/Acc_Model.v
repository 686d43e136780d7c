(* Model of the element proxies for allocators whose memory must be locked: /repo/src/estd/internal/container/accessor.h
   (accessor_shared, accessor, accessor_stateless), locking_accessor.h, iterator.h (locking_iterator),
   handle_with_offset.h, traits/allocator_traits.h:160-200. The repository has no such allocator: modelled is any
   allocator that counts locks per handle and may, at any call, move the blocks that are not locked; a reference
   obtained by lock is good as long as the block has not moved since. *)
From Coq Require Import ZArith.
From Verif Require Import Base Acc_Spec.
Local Open Scope res_scope.

Section Acc.
Context {A : Type} (ltA eqA : A -> A -> bool).
(* does the allocator, at call number k, move block b (only heeded if b is not locked) *)
Context (moves : nat -> nat -> bool).

(* contents, number of locks and how often it moved, of each block *)
Record mem := Mem { cont : nat -> list A; locks : nat -> nat; gen : nat -> nat; calls : nat }.
Definition compact (m : mem) : mem :=
  Mem (cont m) (locks m)
      (fun b => if Nat.eqb (locks m b) 0 && moves (calls m) b then S (gen m b) else gen m b) (S (calls m)).
(* a reference: block, where the block was, position *)
Record ref := Ref { r_blk : nat; r_gen : nat; r_pos : nat }.
Definition lock (m : mem) (b i : nat) : ref * mem :=
  let m := compact m in
  (Ref b (gen m b) i, Mem (cont m) (set_at (locks m) b (S (locks m b))) (gen m) (calls m)).
Definition unlock (m : mem) (b : nat) : result mem :=
  match locks m b with
  | O => UB
  | S n => Ok (compact (Mem (cont m) (set_at (locks m) b n) (gen m) (calls m)))
  end.
Definition load (m : mem) (r : ref) : result A :=
  if Nat.eqb (gen m (r_blk r)) (r_gen r) then rd (cont m (r_blk r)) (r_pos r) else UB.
Definition store (m : mem) (r : ref) (a : A) : result mem :=
  if Nat.eqb (gen m (r_blk r)) (r_gen r)
  then c <- wr (cont m (r_blk r)) (r_pos r) a ;; Ok (Mem (set_at (cont m) (r_blk r) c) (locks m) (gen m) (calls m))
  else UB.

(* accessor.h:38: handle and offset *)
Definition acc : Type := nat * nat.
(* accessor.h:41-50, locking_accessor.h:51-56 *)
Definition assign (m : mem) (t : acc) (a : A) : result mem :=
  let '(value, m) := lock m (fst t) (snd t) in
  m <- store m value a ;; unlock m (fst t).
(* accessor.h:93-113, 118-137: the value is copied while locked *)
Definition to_value (m : mem) (t : acc) : result (A * mem) :=
  let '(value, m) := lock m (fst t) (snd t) in
  retval <- load m value ;; m <- unlock m (fst t) ;; Ok (retval, m).
(* accessor.h:140-175, locking_accessor.h:58-70 *)
Definition compare (m : mem) (t : acc) (f : A -> bool) : result (bool * mem) :=
  let '(value, m) := lock m (fst t) (snd t) in
  v <- load m value ;; let result := f v in m <- unlock m (fst t) ;; Ok (result, m).

Record ast := ASt { a_mem : mem; a_at : nat -> acc }.
Definition a_compare (s : ast) (t : nat) (f : A -> bool) : result (list (aobs A) * ast) :=
  ' (b, m) <- compare (a_mem s) (a_at s t) f ;; Ok ([AoBool b], ASt m (a_at s)).
Definition astep (s : ast) (o : aop A) : result (list (aobs A) * ast) :=
  match o with
  | AAssign t a => m <- assign (a_mem s) (a_at s t) a ;; Ok ([], ASt m (a_at s))
  | ARead t => ' (v, m) <- to_value (a_mem s) (a_at s t) ;; Ok ([AoVal v], ASt m (a_at s))
  | ALess t a => a_compare s t (fun v => ltA v a)
  | AGreater t a => a_compare s t (fun v => ltA a v)
  | AEq t a => a_compare s t (fun v => eqA v a)
  | ANe t a => a_compare s t (fun v => negb (eqA v a))
  (* accessor.h:53-56, 192 *)
  | ACopy t u => Ok ([], ASt (a_mem s) (set_at (a_at s) t (a_at s u)))
  (* handle_with_offset.h:26-36; offsets are unbounded here, Properties_Acc.v has the machine sizes *)
  | AForward t n => Ok ([], ASt (a_mem s) (set_at (a_at s) t (fst (a_at s t), snd (a_at s t) + n)))
  | ABack t n =>
      if Nat.leb n (snd (a_at s t)) then Ok ([], ASt (a_mem s) (set_at (a_at s) t (fst (a_at s t), snd (a_at s t) - n)))
      else UB
  end.
Fixpoint arun (s : ast) (os : list (aop A)) : result (list (aobs A) * ast) :=
  match os with
  | [] => Ok ([], s)
  | o :: os' => ' (b, s1) <- astep s o ;; ' (bs, s2) <- arun s1 os' ;; Ok (b ++ bs, s2)
  end.
Definition astart (c : nat -> list A) (at_ : nat -> acc) : ast := ASt (Mem c (fun _ => 0) (fun _ => 0) 0) at_.

(* accessor.h:201-205: t = u between accessors constructs t anew as a copy of u *)
Definition assign_acc (s : ast) (t u : nat) : ast := ASt (a_mem s) (set_at (a_at s) t (a_at s u)).

(* locking_accessor.h:43-49: operator-> and the conversions lock, and nothing unlocks; the value is then read *)
Definition la_convert (m : mem) (t : acc) : result (A * mem) :=
  let '(value, m) := lock m (fst t) (snd t) in v <- load m value ;; Ok (v, m).
(* iterator.h:183: operator* locks; :79-86: the destructor unlocks *)
Definition it_deref (m : mem) (t : acc) : result (A * mem) := la_convert m t.
Definition it_end (m : mem) (t : acc) : result mem := unlock m (fst t).
Fixpoint it_derefs (d : nat) (m : mem) (t : acc) : result mem :=
  match d with O => Ok m | S d' => ' (_, m) <- it_deref m t ;; it_derefs d' m t end.
(* an iterator is dereferenced d times and goes out of scope *)
Definition it_life (d : nat) (m : mem) (t : acc) : result mem := m <- it_derefs d m t ;; it_end m t.
End Acc.

(* handle_with_offset.h:15-74. Offsets have w bits; int has iw, ptrdiff_t has pw bits. *)
Section Offset.
Local Open Scope Z_scope.
Context (w iw pw : Z).
Definition wrapu (n v : Z) : Z := v mod 2 ^ n.
Definition wraps (n v : Z) : Z := (v + 2 ^ (n - 1)) mod 2 ^ n - 2 ^ (n - 1).
(* :26-36 *)
Definition off_add (a n : Z) : Z := wrapu w (a + n).
Definition off_sub (a n : Z) : Z := wrapu w (a - n).
(* :38-41: narrower types are computed as int; the result is converted to ptrdiff_t *)
Definition off_diff (a b : Z) : Z := if w <? iw then wraps pw (wraps iw (a - b)) else wraps pw (wrapu w (a - b)).
(* :49-67, 143-146: handle and offset *)
Definition hwo : Type := Z * Z.
Definition hwo_gt (a b : hwo) : bool := snd b <? snd a.
Definition hwo_lt (a b : hwo) : bool := snd a <? snd b.
Definition hwo_ge (a b : hwo) : bool := snd b <=? snd a.
Definition hwo_eq (a b : hwo) : bool := (fst a =? fst b) && (snd a =? snd b).
End Offset.
