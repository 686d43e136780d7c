(* How many characters an unformatted input function takes from a text, standing before its
   character k.  Nothing here mentions the code of the library. *)
From Coq Require Import List ZArith Bool.
From Verif Require Import Streambuf_Model Stream_Spec.
Import ListNotations.
Local Open Scope Z_scope.

(* no more than what is left *)
Definition taken (data : list Z) (k n : nat) : nat := Nat.min n (length data - k).
Definition max_count : Z := 2 ^ 31 - 1.
