(* What a user expects of proxies for elements in memory that has to be locked to be touched: they act on the element
   they stand for, whenever the allocator moves unlocked memory, and leave the memory unlocked. *)
From Coq Require Import ZArith.
From Verif Require Import Base.

Section Acc.
Context {A : Type} (ltA eqA : A -> A -> bool).
(* t: name of a proxy *)
Inductive aop :=
| AAssign (t : nat) (a : A)     (* t = a *)
| ARead (t : nat)               (* conversion to the value, operator-> *)
| ALess (t : nat) (a : A) | AGreater (t : nat) (a : A) | AEq (t : nat) (a : A) | ANe (t : nat) (a : A)
| ACopy (t u : nat)             (* t is made a proxy for what u stands for: copy construction *)
| AForward (t n : nat) | ABack (t n : nat).   (* h_exp() += n, -= n *)
Inductive aobs := AoVal (a : A) | AoBool (b : bool).
(* blocks by number, and the block and position each proxy stands for *)
Record aideal := AI { ai_mem : nat -> list A; ai_at : nat -> nat * nat }.
Definition ai_value (s : aideal) (t : nat) : option A := nth_error (ai_mem s (fst (ai_at s t))) (snd (ai_at s t)).
Definition set_at {X} (f : nat -> X) (t : nat) (x : X) : nat -> X := fun u => if Nat.eqb u t then x else f u.
Definition ai_cmp (s : aideal) (t : nat) (f : A -> bool) : option (list aobs * aideal) :=
  match ai_value s t with Some v => Some ([AoBool (f v)], s) | None => None end.
Definition aideal_step (s : aideal) (o : aop) : option (list aobs * aideal) :=
  match o with
  | AAssign t a =>
      let '(b, i) := ai_at s t in
      if Nat.ltb i (length (ai_mem s b))
      then Some ([], AI (set_at (ai_mem s) b (firstn i (ai_mem s b) ++ a :: skipn (S i) (ai_mem s b))) (ai_at s)) else None
  | ARead t => match ai_value s t with Some v => Some ([AoVal v], s) | None => None end
  | ALess t a => ai_cmp s t (fun v => ltA v a)
  | AGreater t a => ai_cmp s t (fun v => ltA a v)
  | AEq t a => ai_cmp s t (fun v => eqA v a)
  | ANe t a => ai_cmp s t (fun v => negb (eqA v a))
  | ACopy t u => Some ([], AI (ai_mem s) (set_at (ai_at s) t (ai_at s u)))
  | AForward t n => let '(b, i) := ai_at s t in Some ([], AI (ai_mem s) (set_at (ai_at s) t (b, i + n)))
  | ABack t n => let '(b, i) := ai_at s t in if Nat.leb n i then Some ([], AI (ai_mem s) (set_at (ai_at s) t (b, i - n))) else None
  end.
Fixpoint aideal_run (s : aideal) (os : list aop) : option (list aobs * aideal) :=
  match os with
  | [] => Some ([], s)
  | o :: os' => match aideal_step s o with
                | Some (b, s1) => match aideal_run s1 os' with Some (bs, s2) => Some (b ++ bs, s2) | None => None end
                | None => None
                end
  end.
End Acc.
Arguments aop : clear implicits. Arguments aobs : clear implicits. Arguments aideal : clear implicits.
