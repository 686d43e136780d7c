(* The states and the runs of calls that the theorems about streams speak of.  The calls are those
   of Streambuf_Model and Istream_Model, the histories those of Stream_Spec. *)
From Coq Require Import List ZArith Bool.
From Verif Require Import Base Ios_Model Streambuf_Model Istream_Model Stream_Spec.
Import ListNotations.
Local Open Scope Z_scope.
Local Open Scope res_scope.

(* a reader over the text data, before its character k *)
Definition at_pos (data : list Z) (k : nat) : isb := Isb data (Z.of_nat k).
(* the same in an istream with state st *)
Definition at_str (st : ios) (data : list Z) (k : nat) : istr := Istr st (at_pos data k).
(* the text has no character equal to (char)-1 *)
Definition no_ff (data : list Z) : Prop := ~ In (-1) data.

(* a history of reads, with the answers *)
Definition isb_step (tr : traits) (o : iop) (b : isb) : result (list Z * isb) :=
  match o with
  | Getc => c <- sgetc tr b ;; Ok ([c], b)
  | Bumpc => ' p <- sbumpc tr b ;; Ok ([fst p], snd p)
  | Nextc => ' p <- snextc tr b ;; Ok ([fst p], snd p)
  | Ungetc => ' p <- sungetc tr b ;; Ok ([fst p], snd p)
  | Getn n => sgetn b (Z.of_nat n)
  end.
Fixpoint isb_run (tr : traits) (ops : list iop) (b : isb) : result (list (list Z) * isb) :=
  match ops with
  | [] => Ok ([], b)
  | o :: ops' => ' p <- isb_step tr o b ;; ' q <- isb_run tr ops' (snd p) ;; Ok (fst p :: fst q, snd q)
  end.
(* n calls of sbumpc *)
Fixpoint bumps (tr : traits) (n : nat) (b : isb) : result isb :=
  match n with O => Ok b | S n' => ' p <- sbumpc tr b ;; bumps tr n' (snd p) end.

(* a history of writes into a fixed buffer, with the answers *)
Definition osb_step (tr : traits) (o : wop) (b : osb) : result (Z * osb) :=
  match o with PutC c => sputc tr b c | PutN s => sputn b s end.
Fixpoint osb_run (tr : traits) (ops : list wop) (b : osb) : result (list Z * osb) :=
  match ops with
  | [] => Ok ([], b)
  | o :: ops' => ' p <- osb_step tr o b ;; ' q <- osb_run tr ops' (snd p) ;; Ok (fst p :: fst q, snd q)
  end.

(* a history of writes into a buffered writer, with the answers *)
Definition bsb_step (tr : traits) (cap : nat) (o : wop) (b : bsb) : Z * bsb :=
  match o with PutC c => bsputc tr cap b c | PutN s => bsputn cap b s end.
Fixpoint bsb_run (tr : traits) (cap : nat) (ops : list wop) (b : bsb) : list Z * bsb :=
  match ops with
  | [] => ([], b)
  | o :: ops' => let (a, b1) := bsb_step tr cap o b in let (l, b2) := bsb_run tr cap ops' b1 in (a :: l, b2)
  end.
(* everything handed to the sink so far, then what is still buffered *)
Definition pending (b : bsb) : list Z := concat (bsink b) ++ bbuf b.
Definition put_text (o : wop) : list Z := match o with PutC c => [c] | PutN s => s end.
