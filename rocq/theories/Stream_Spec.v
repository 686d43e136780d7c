(* What a reader of a fixed text and a writer into a fixed buffer do.  Nothing here mentions
   the code of the library; [traits] only names the two character traits. *)
From Coq Require Import List ZArith Bool.
From Verif Require Import Streambuf_Model.
Import ListNotations.
Local Open Scope Z_scope.

(* The int standing for a character: its unsigned value, or the character itself. *)
Definition code (tr : traits) (c : Z) : Z :=
  match tr with StdTraits => if c <? 0 then c + 256 else c | EstdTraits => c end.
(* An int answer: the character's int, or -1 for end of file. *)
Definition answer (tr : traits) (o : option Z) : Z :=
  match o with Some c => code tr c | None => -1 end.

Definition is_char (c : Z) : Prop := -128 <= c <= 127.
(* Texts on which position and end of file are unambiguous: shorter than 2^16, and without
   the character whose int is -1 when the traits sign-extend. *)
Definition plain (tr : traits) (data : list Z) : Prop :=
  Z.of_nat (length data) < 65536 /\ Forall is_char data /\ (tr = EstdTraits -> ~ In (-1) data).

Inductive iop := Getc | Bumpc | Nextc | Ungetc | Getn (n : nat).

(* The reader stands before character k of the text; answer and next position. *)
Definition read_step (tr : traits) (data : list Z) (o : iop) (k : nat) : list Z * nat :=
  let len := length data in
  match o with
  | Getc => ([answer tr (nth_error data k)], k)
  | Bumpc => ([answer tr (nth_error data k)], Nat.min (k + 1) len)
  | Nextc => ([answer tr (nth_error data (k + 1))], Nat.min (k + 1) len)
  | Ungetc => match k with
              | O => ([-1], O)
              | S j => ([answer tr (nth_error data j)], j)
              end
  | Getn n => (firstn n (skipn k data), Nat.min (k + n) len)
  end.
Fixpoint read_run (tr : traits) (data : list Z) (ops : list iop) (k : nat) : list (list Z) * nat :=
  match ops with
  | [] => ([], k)
  | o :: ops' => let (a, k1) := read_step tr data o k in
                 let (l, k2) := read_run tr data ops' k1 in (a :: l, k2)
  end.

Definition space (c : Z) : Prop := In c [32; 9; 10; 11; 12; 13].

(* A bounded buffer written from the front: putting one character fails when it is full. *)
Inductive wop := PutC (c : Z) | PutN (s : list Z).
(* the characters the history stores in a buffer with room for [room] more *)
Fixpoint stored (ops : list wop) (room : nat) : list Z :=
  match ops with
  | [] => []
  | PutC c :: ops' => match room with O => stored ops' O | S r => c :: stored ops' r end
  | PutN s :: ops' => s ++ stored ops' (room - length s)
  end.
(* every block fits where it is put *)
Fixpoint blocks_fit (ops : list wop) (room : nat) : Prop :=
  match ops with
  | [] => True
  | PutC _ :: ops' => blocks_fit ops' (room - 1)
  | PutN s :: ops' => (length s <= room)%nat /\ blocks_fit ops' (room - length s)
  end.
(* the answers: the character or eof; the length of the block *)
Fixpoint write_answers (tr : traits) (ops : list wop) (room : nat) : list Z :=
  match ops with
  | [] => []
  | PutC c :: ops' =>
      match room with O => -1 :: write_answers tr ops' O | S r => code tr c :: write_answers tr ops' r end
  | PutN s :: ops' => Z.of_nat (length s) :: write_answers tr ops' (room - length s)
  end.

(* The characters a buffered writer takes one by one: not '\xff', whose int is that of end of file,
   and, with the standard traits, not the null character. *)
Definition taken_singly (tr : traits) (c : Z) : Prop := is_char c /\ c <> -1 /\ (tr = StdTraits -> c <> 0).
(* What a history of such writes demands of a buffer of [cap] characters with room for [room] more,
   which is emptied when a character finds it full: every block fits where it is put. *)
Fixpoint buffer_fits (tr : traits) (cap : nat) (ops : list wop) (room : nat) : Prop :=
  match ops with
  | [] => True
  | PutC c :: ops' => taken_singly tr c /\ buffer_fits tr cap ops' ((if Nat.eqb room 0 then cap else room) - 1)
  | PutN s :: ops' => (length s <= room)%nat /\ buffer_fits tr cap ops' (room - length s)
  end.
(* The answer says that all was taken. *)
Definition says_taken (o : wop) (a : Z) : Prop :=
  match o with PutC _ => a <> -1 | PutN s => a = Z.of_nat (length s) end.
(* What a wrapped buffer has got that takes [take i] characters of the i-th text it is offered. *)
Fixpoint got (take : nat -> nat) (i : nat) (offers : list (list Z)) : list Z :=
  match offers with [] => [] | x :: r => firstn (take i) x ++ got take (S i) r end.
