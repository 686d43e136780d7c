(* The number a finite value of the model stands for. *)
From Coq Require Import ZArith QArith List.
From Verif Require Import Flt_Spec Flt_Model.
Import ListNotations.
Definition val (fm : fmt) (u : Z) : Q := u # Z.to_pos (one fm).
Definition minus (sign : list Z) : bool := match sign with [] => false | _ => true end.
