(* Instants on an unbounded time line, and clocks that read them modulo their width. *)
From Coq Require Export List.
From Verif Require Export MachInt Ratio_Spec Chrono_Spec.
Import ListNotations.
Local Open Scope Z_scope.

(* the reading of a clock of type t at the true instant n (in ticks since it started) *)
Definition reading (t : ity) (n : Z) : Z := wrap t n.
(* a history of changes, in ticks *)
Definition total (steps : list Z) : Z := fold_left Z.add steps 0.
(* the instants it goes through, from v *)
Fixpoint visited (v : Z) (steps : list Z) : list Z :=
  match steps with [] => [] | s :: r => (v + s) :: visited (v + s) r end.
