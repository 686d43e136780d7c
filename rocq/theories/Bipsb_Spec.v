(* What a writer through, and a reader through, a buffering stream buffer rely on. *)
From Coq Require Import List ZArith Bool.
From Verif Require Import Base Bip_Model Bip_Spec Streambuf_Model Bipsb_Model.
Import ListNotations.
Local Open Scope Z_scope.

(* ---- writing ---- *)
Definition is_char (c : Z) : Prop := -128 <= c <= 127.
(* The operations that put characters, none of them '\xff' (whose int is that of end of file). *)
Definition plain_put (o : oop) : Prop :=
  match o with
  | Putc c => is_char c
  | Putn s => Forall is_char s /\ ~ In (-1) s /\ Z.of_nat (length s) < 2147483648
  | Flush => True
  end.
(* What the answers of a history say was accepted. *)
Fixpoint accepted_of (l : list oop) (answers : list Z) : list Z :=
  match l, answers with
  | Putc c :: r, _ :: t => c :: accepted_of r t
  | Putn s :: r, a :: t => firstn (Z.to_nat a) s ++ accepted_of r t
  | Flush :: r, _ :: t => accepted_of r t
  | _, _ => []
  end.
(* The answers with a sink that takes everything: q characters are held, cap fit. *)
Fixpoint greedy_answers (cap : Z) (l : list oop) (q : Z) : list Z :=
  match l with
  | [] => []
  | Putc c :: r => c :: greedy_answers cap r (if q =? cap then 1 else q + 1)
  | Putn s :: r =>
      let n := Z.of_nat (length s) in
      let a := Z.min n (cap - q + cap) in
      a :: greedy_answers cap r (if n <=? cap - q then q + n else a - (cap - q))
  | Flush :: r => (if q =? 0 then -1 else 0) :: greedy_answers cap r 0
  end.

(* ---- reading ---- *)
(* The text still to be read, buffered or not. *)
Definition unread (b : ib) : list Z := contents (i_bip b) ++ i_rest b.
Definition ascii (c : Z) : Prop := 0 <= c <= 127.
(* Nothing is buffered, and the source, asked last time, gave nothing. *)
Definition dry (give : nat -> nat) (b : ib) : Prop :=
  contents (i_bip b) = [] /\ (i_rest b = [] \/ exists j, i_calls b = S j /\ give j = O).

(* Answer a and the text t' left by one operation on a reader with text t. *)
Definition reads (give : nat -> nat) (o : iop) (t : list Z) (a : Z) (b : ib) : Prop :=
  let t' := unread b in
  match o with
  | Getc => t' = t /\ ((exists r, t = a :: r) \/ (a = -1 /\ dry give b))
  | Bumpc => t = a :: t' \/ (a = -1 /\ t' = t /\ dry give b)
  | Nextc => (exists c, t = c :: t' /\ ((exists r, t' = a :: r) \/ (a = -1 /\ dry give b)))
             \/ (a = -1 /\ t' = t /\ dry give b)
  | Sync => t' = t /\ (a = 0 \/ a = -1)
  | Avail => t' = t /\ a = Z.of_nat (length (contents (i_bip b)))
  end.
Fixpoint reads_all (give : nat -> nat) (tr : traits) (b : ib) (l : list iop) (answers : list Z) (c : ib) : Prop :=
  match l, answers with
  | [], [] => c = b
  | o :: r, a :: t => exists b', i_step give tr b o = Ok (a, b') /\ reads give o (unread b) a b' /\ reads_all give tr b' r t c
  | _, _ => False
  end.
