(* Model of internal/linked_ref.h.  An owner is a node of Lnk_Model's memory (its next_), with
   value_ beside it; a destroyed owner counts as given back, so touching it is UB.  [null] is
   Traits::null and the log records the calls of Traits::destruct, in order.
   make_weak (158-167) does not compile when used (it passes the const *this to insert_after's
   non-const reference) and is not modelled; so no weak owner exists, but is_weak is.  With the
   default Traits the destructor does not compile (it calls destruct, they define destroy). *)
From Verif Require Import Base Lnk_Model Ref_Spec.
Local Open Scope res_scope.

Record rst := RSt { r_mem : mem; r_val : nat -> nat; r_log : list nat }.

(* an owner coming into existence, with its value_; next_ is left as found *)
Definition born (s : rst) (o v : nat) : rst :=
  RSt (Mem (nxt (r_mem s)) (prv (r_mem s)) (filter (fun b => negb (Nat.eqb b o)) (freed (r_mem s))))
      (at_ (r_val s) o v) (r_log s).
Definition gone (s : rst) (o : nat) : rst :=
  RSt (deallocate true (r_mem s) (Some o)) (r_val s) (r_log s).
Definition with_mem (s : rst) (m : mem) : rst := RSt m (r_val s) (r_log s).
Definition destruct_ (s : rst) (v : nat) : rst := RSt (r_mem s) (r_val s) (r_log s ++ [v]).

Section Ref.
Variable null : nat -> bool.

(* lines 36-39 *)
Definition is_shared (s : rst) (p : ptr) : result bool := a <- deref (r_mem s) p ;; Ok (negb (null (r_val s a))).

(* lines 55-59 *)
Definition make (s : rst) (o v : nat) : result rst :=
  let s := born s o v in
  m <- set_next (r_mem s) (Some o) (Some o) ;; Ok (with_mem s m).
(* lines 61-68 *)
Definition copy (s : rst) (o p : nat) : result rst :=
  a <- deref (r_mem s) (Some p) ;;
  let s := born s o (r_val s a) in
  m <- if_insert_after (r_mem s) (Some p) o ;; Ok (with_mem s m).
(* list/intrusive_forward.h:106-114 *)
Fixpoint before_begin (fuel : nat) (m : mem) (head current : ptr) : result ptr :=
  n <- next m current ;;
  if negb (peq n head) then
    match fuel with
    | O => Diverge
    | S fuel' => before_begin fuel' m head n
    end
  else Ok current.
(* lines 84-98 *)
Definition move (fuel : nat) (s : rst) (o p : nat) : result rst :=
  a <- deref (r_mem s) (Some p) ;;
  let s := born s o (r_val s a) in
  pos <- before_begin fuel (r_mem s) (Some p) (Some p) ;;
  m1 <- if_replace_after (r_mem s) pos o ;;
  m2 <- set_next m1 (Some p) None ;;
  Ok (with_mem s m2).
(* lines 117-129: the loop of the destructor; the owner before this one and the counters *)
Fixpoint circle (fuel : nat) (s : rst) (this : nat) (n : ptr) (shared weak : nat) : result (ptr * nat * nat) :=
  n' <- next (r_mem s) n ;;
  if negb (peq n' (Some this)) then
    match fuel with
    | O => Diverge
    | S fuel' =>
        b <- is_shared s n' ;;
        if b then circle fuel' s this n' (S shared) weak
        else circle fuel' s this n' shared (S weak)
    end
  else Ok (n, shared, weak).
(* lines 143-148 *)
Fixpoint unlink (fuel : nat) (m : mem) (n : ptr) : result mem :=
  match n with
  | None => Ok m
  | Some _ =>
      match fuel with
      | O => Diverge
      | S fuel' => n2 <- next m n ;; m1 <- set_next m n None ;; unlink fuel' m1 n2
      end
  end.
(* lines 100-152 *)
Definition drop (fuel : nat) (s : rst) (o : nat) : result rst :=
  n0 <- next (r_mem s) (Some o) ;;
  match n0 with
  | None => Ok (gone s o)
  | Some _ =>
      if peq (Some o) n0 then Ok (gone (destruct_ s (r_val s o)) o)
      else
        ' (n, shared, weak) <- circle fuel s o (Some o) 0 0 ;;
        m1 <- if_erase_after (r_mem s) n ;;
        let s1 := with_mem s m1 in
        if Nat.eqb shared 0 then
          let s2 := destruct_ s1 (r_val s o) in
          m2 <- (if Nat.ltb 0 weak then unlink (S fuel) m1 n else Ok m1) ;;
          Ok (gone (with_mem s2 m2) o)
        else Ok (gone s1 o)
  end.
(* lines 169-191 *)
Fixpoint count_loop (fuel : nat) (m : mem) (this : nat) (i : ptr) (count : nat) : result nat :=
  i' <- next m i ;;
  match i' with
  | None => Ok count
  | Some c =>
      if Nat.eqb c this then Ok count
      else
        match fuel with
        | O => Diverge
        | S fuel' => count_loop fuel' m this i' (S count)
        end
  end.
Definition count_shared (fuel : nat) (s : rst) (o : nat) : result nat := count_loop fuel (r_mem s) o (Some o) 1.

Definition r_step (fuel : nat) (s : rst) (op : rop) : result rst :=
  match op with
  | Make o v => make s o v
  | Copy o p => copy s o p
  | Move o p => move fuel s o p
  | Drop o => drop fuel s o
  end.
Fixpoint r_run (fuel : nat) (s : rst) (ops : list rop) : result rst :=
  match ops with
  | [] => Ok s
  | op :: t => s' <- r_step fuel s op ;; r_run fuel s' t
  end.
End Ref.
