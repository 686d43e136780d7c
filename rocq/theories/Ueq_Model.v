(* Model of operator== of unordered_map and unordered_set: internal/container/unordered/base.h, on
   the tables of Unordered_Model.v. *)
From Coq Require Import List Bool Arith NArith.
From Verif Require Import Base Unordered_Model.
Import ListNotations.
Local Open Scope res_scope.

Section Equality.
Context {K C : Type} (keqb : K -> K -> bool) (null : K) (ckey : C -> K).

(* base.h:579-582 for(l = lhs.begin(), r = rhs.begin(); l != lhs.cend(); ++l, ++r), with the
   iterators of base.h:277-284: ++ skips the empty slots *)
Fixpoint eq_loop (fuel : nat) (s t : list C) (l r : nat) : result bool :=
  match fuel with
  | O => Diverge
  | S f =>
      if Nat.eqb l (length s) then Ok true
      else
        a <- rd s l ;; b <- rd t r ;;
        if negb (keqb (ckey a) (ckey b)) then Ok false        (* :581 *)
        else
          l' <- skip_empty keqb null ckey (S (length s)) s (l + 1) ;;
          r' <- skip_empty keqb null ckey (S (length t)) t (r + 1) ;;
          eq_loop f s t l' r'
  end.
(* base.h:570-585; begin(): 525-528 *)
Definition table_eq (s t : list C) : result bool :=
  if negb (Nat.eqb (tsize keqb null ckey s) (tsize keqb null ckey t)) then Ok false    (* :577 *)
  else
    l <- skip_empty keqb null ckey (S (length s)) s 0 ;;
    r <- skip_empty keqb null ckey (S (length t)) t 0 ;;
    eq_loop (S (length s)) s t l r.
End Equality.
