(* The words of a text: its maximal runs of characters that are not blanks. *)
From Coq Require Import List ZArith.
From Verif Require Import Streambuf_Model Stream_Spec.
Import ListNotations.
Local Open Scope Z_scope.

Definition solid (c : Z) : Prop := ~ space c.

(* [text] is the blanks [lead], then the longest run [word] of other characters, then [rest] *)
Definition cut (text lead word rest : list Z) : Prop :=
  text = lead ++ word ++ rest /\ Forall space lead /\ Forall solid word /\
  match rest with [] => True | c :: _ => space c /\ word <> [] end.

(* [ws] are the words of the text, in order *)
Inductive words_of : list Z -> list (list Z) -> Prop :=
| words_none text : Forall space text -> words_of text []
| words_one text lead w rest ws :
    cut text lead w rest -> w <> [] -> words_of rest ws -> words_of text (w :: ws).

(* The blocking policy asks how much is left, and with the library's own traits the answer is
   a 16-bit number: the text must be shorter than 2^15 there. *)
Definition short (blk : bool) (tr : traits) (data : list Z) : Prop :=
  blk = true -> tr = EstdTraits -> Z.of_nat (length data) < 32768.

(* the characters other than 0 *)
Definition drop_zeros (w : list Z) : list Z := filter (fun x => negb (x =? 0)) w.
