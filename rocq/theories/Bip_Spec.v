(* Specification vocabulary for the bip buffer. *)
From Verif Require Import Base Bip_Model.
Local Open Scope Z_scope.

(* A slice of the storage. *)
Definition slice {B} (m : list B) (from to : Z) : list B :=
  firstn (Z.to_nat (to - from)) (skipn (Z.to_nat from) m).

(* The unread bytes, oldest first: region A then region B. *)
Definition contents {B} (me : bip B) : list B :=
  slice (mem me) (a_start me) (a_end me) ++ slice (mem me) 0 (b_end me).

(* How many of the unread bytes are contiguous from the read position. *)
Definition contiguous {B} (me : bip B) : Z := a_end me - a_start me.

(* One call against an ideal FIFO of bytes: an offer that is taken appends, a
   refused one changes nothing, a poll returns and removes the oldest n bytes. *)
Inductive fifo_step {B} : list B -> bip_op B -> bip_obs B -> list B -> Prop :=
| fs_take q d : d <> [] -> fifo_step q (Offer d) (Took (Z.of_nat (length d))) (q ++ d)
| fs_refuse q d : fifo_step q (Offer d) (Took 0) q
| fs_direct q d : fifo_step q (Direct d) (Took (Z.of_nat (length d))) (q ++ d)
| fs_poll q d n : Z.of_nat (length d) = n -> fifo_step (d ++ q) (Poll n) (Bytes d) q
| fs_null n : fifo_step [] (Poll n) Null [].

(* The client is entitled to make this call in this state: chunks are of int size,
   direct writes fit unused(), polls ask for at most the contiguous bytes. *)
Definition entitled {B} (me : bip B) (o : bip_op B) : Prop :=
  match o with
  | Offer d => Z.of_nat (length d) < 2147483648
  | Direct d => Z.of_nat (length d) <= bip_unused me
  | Poll n => 0 <= n /\ (n <= contiguous me \/ contents me = []) /\ n < 2147483648
  end.

(* Runs of the model with their observations. *)
Inductive bip_run {B} : bip B -> list (bip_op B * bip_obs B) -> bip B -> Prop :=
| br_nil me : bip_run me [] me
| br_cons me o x me1 h me2 :
    entitled me o -> bip_step me o = Ok (me1, x) -> bip_run me1 h me2 ->
    bip_run me ((o, x) :: h) me2.

(* All bytes taken from the client, and all bytes handed to it, in order. *)
Fixpoint accepted {B} (h : list (bip_op B * bip_obs B)) : list B :=
  match h with
  | [] => []
  | (Offer d, Took n) :: t => (if n =? 0 then [] else d) ++ accepted t
  | (Direct d, Took _) :: t => d ++ accepted t
  | _ :: t => accepted t
  end.
Fixpoint delivered {B} (h : list (bip_op B * bip_obs B)) : list B :=
  match h with
  | [] => []
  | (_, Bytes d) :: t => d ++ delivered t
  | _ :: t => delivered t
  end.

(* A message-passing client: it sends whole messages with offer, remembers the
   lengths of those taken, and receives by polling exactly the oldest length.
   Some d = send d, None = receive (skipped when nothing is pending).
   Result: state, pending lengths, messages received, messages accepted. *)
Fixpoint msg_run {B} (me : bip B) (lens : list Z) (ops : list (option (list B)))
  : result (bip B * list Z * list (list B) * list (list B)) :=
  match ops with
  | [] => Ok (me, lens, [], [])
  | Some d :: t =>
      bind (bip_step me (Offer d)) (fun r =>
      let taken := match snd r with Took n => n =? Z.of_nat (length d) | _ => false end in
      bind (msg_run (fst r) (if taken then lens ++ [Z.of_nat (length d)] else lens) t) (fun s =>
      let '(me', lens', recv, acc) := s in
      Ok (me', lens', recv, if taken then d :: acc else acc)))
  | None :: t =>
      match lens with
      | [] => msg_run me lens t
      | n :: lens' =>
          bind (bip_step me (Poll n)) (fun r =>
          bind (msg_run (fst r) lens' t) (fun s =>
          let '(me', l', recv, acc) := s in
          Ok (me', l', match snd r with Bytes d => d :: recv | _ => recv end, acc)))
      end
  end.

(* Messages are non-empty and of int size. *)
Definition send_ok {B} (o : option (list B)) : Prop :=
  match o with Some d => d <> [] /\ Z.of_nat (length d) < 2147483648 | None => True end.
