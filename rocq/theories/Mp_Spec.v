(* The older pools answer to Pool_Spec too; these are their clients' rules. *)
From Verif Require Import Base Pool_Spec.

(* The executions of a pool whose client keeps to the rules. *)
Inductive execs {A S : Type} (init : result S) (step : S -> pop_ A -> result (S * answer)) (allowed : list (nat * option A) -> pop_ A -> Prop)
  : list (pop_ A * answer) -> S -> Prop :=
| execs_init p : init = Ok p -> execs init step allowed [] p
| execs_step tr p op r p' :
    execs init step allowed tr p -> allowed (live tr) op -> step p op = Ok (p', r) -> execs init step allowed (tr ++ [(op, r)]) p'.

(* memory_pool_1: construct only while a block is free *)
Definition allowed1 {A} (N : nat) (l : list (nat * option A)) (op : pop_ A) : Prop :=
  may l op /\ match op with Emplace _ => length l < N | _ => True end.
(* the second pool has no construct and no destroy *)
Definition allowed2 {A} (l : list (nat * option A)) (op : pop_ A) : Prop :=
  may l op /\ match op with Emplace _ | Erase _ => False | _ => True end.
