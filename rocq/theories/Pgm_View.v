(* Which objects of the model hold which data; used by the statements of Properties_Pgm. *)
From Coq Require Import List ZArith.
From Verif Require Import Pgm_Spec Pgm_Model.
Import ListNotations.
Local Open Scope Z_scope.

(* s is a string of program memory m with the bytes t: either t with a terminator behind it, at
   most 256 bytes and none of them NUL, or a string of fixed length *)
Definition text_in (m : list Z) (s : pgm) (t : list Z) : Prop :=
  Forall is_byte t /\ esigned s = true /\ esz s = 1%nat /\
  match ext s with
  | None => lies_at m (addr s) (t ++ [0]) /\ ~ In 0 t /\ (length t <= 256)%nat
  | Some n => lies_at m (addr s) t /\ n = length t /\ (length t < 256 * 256)%nat
  end.

(* s is an array of program memory m with the elements vs *)
Definition array_in (m : list Z) (s : pgm) (vs : list Z) : Prop :=
  ext s = Some (length vs) /\ (length vs < 256 * 256)%nat /\ (0 < esz s)%nat /\
  Forall (in_range (esigned s) (esz s)) vs /\
  lies_at m (addr s) (flat_map (bytes_of (esz s)) vs).
