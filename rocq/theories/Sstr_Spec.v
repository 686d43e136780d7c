(* A stream over a growing text: what was written, and how far the reader has come. *)
From Verif Require Import Base Streambuf_Model Stream_Spec.
Local Open Scope Z_scope.

Inductive sop := SPut (w : wop) | SGet (o : iop) | SAvail | SStr.

(* the text and the position before and after, and the answer *)
Definition sstep (tr : traits) (o : sop) (text : list Z) (k : nat) : list Z * (list Z * nat) :=
  match o with
  | SPut (PutC c) => ([code tr c], (text ++ [c], k))
  | SPut (PutN s) => ([Z.of_nat (length s)], (text ++ s, k))
  | SGet o => let (a, k1) := read_step tr text o k in (a, (text, k1))
  | SAvail => ([if Nat.ltb k (length text) then Z.of_nat (length text - k) else -1], (text, k))
  | SStr => (text, (text, k))
  end.
Fixpoint srun (tr : traits) (os : list sop) (text : list Z) (k : nat) : list (list Z) * (list Z * nat) :=
  match os with
  | [] => ([], (text, k))
  | o :: t =>
      let '(a, (text1, k1)) := sstep tr o text k in
      let '(l, r) := srun tr t text1 k1 in (a :: l, r)
  end.
(* all that is ever written, in order *)
Fixpoint written (os : list sop) : list Z :=
  match os with
  | [] => []
  | SPut (PutC c) :: t => c :: written t
  | SPut (PutN s) :: t => s ++ written t
  | _ :: t => written t
  end.
(* no single read asks for more than size_type (values below M; of fewer bits than int if
   [narrow]) can count; [len] is the length of the whole text *)
Definition counts_ok (M : nat) (narrow : bool) (len : nat) (os : list sop) : Prop :=
  forall n, In (SGet (Getn n)) os -> (n < M)%nat /\ (narrow = true \/ (n + len < M)%nat).
