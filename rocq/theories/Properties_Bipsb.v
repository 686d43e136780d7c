(* Theorems about the stream buffers over a bip buffer (impl/streambuf/bipbuf.h). *)
From Coq Require Import List ZArith Bool Lia.
From Verif Require Import Base MachInt Bip_Model Bip_Spec Bip_Proofs Streambuf_Model Bipsb_Model Bipsb_Spec Bipsb_Proofs.
Import ListNotations.
Local Open Scope Z_scope.

(* m is the storage of the buffer. *)
Definition int_size (m : list Z) : Prop := 0 < Z.of_nat (length m) < 2147483648.

(* C117: with a sink that takes all it is offered, every history of sputc, sputn and pubsync is
   defined, its answers are those of a buffer of that capacity, and what the sink got followed by
   what is buffered is what the answers say was accepted, in order. *)
Theorem C117_writes_in_order (accept : nat -> nat) (m : list Z) (l : list oop) :
  int_size m -> (forall i, (length m <= accept i)%nat) -> Forall plain_put l ->
  let answers := greedy_answers (Z.of_nat (length m)) l 0 in
  exists b, o_run accept (o_init m) l = Ok (answers, b) /\
    o_sunk b ++ contents (o_bip b) = accepted_of l answers.
Proof.
  intros Hm G P. destruct (o_run_greedy accept (Z.of_nat (length m)) ltac:(intros i; specialize (G i); lia) l P (o_init m) (straight_init m Hm)) as (b & R & _ & K).
  exists b. split; [exact R|exact K].
Qed.
(* A flush leaves nothing behind. *)
Theorem C117_flush (accept : nat -> nat) (m : list Z) (l : list oop) :
  int_size m -> (forall i, (length m <= accept i)%nat) -> Forall plain_put l ->
  let answers := greedy_answers (Z.of_nat (length m)) l 0 in
  exists a b, o_run accept (o_init m) (l ++ [Flush]) = Ok (answers ++ [a], b) /\ contents (o_bip b) = [] /\
    o_sunk b = accepted_of l answers.
Proof.
  intros Hm G P answers. assert (G' : forall i, Z.of_nat (length m) <= Z.of_nat (accept i)) by (intros i; specialize (G i); lia).
  destruct (o_run_greedy accept _ G' l P (o_init m) (straight_init m Hm)) as (b & R & S & K).
  destruct (o_sync_greedy accept _ G' b S) as (b' & R' & _ & C' & _ & K').
  assert (RA : forall l1 l2 b0, o_run accept b0 (l1 ++ l2) =
     bind (o_run accept b0 l1) (fun x => bind (o_run accept (snd x) l2) (fun y => Ok (fst x ++ fst y, snd y)))).
  { induction l1 as [|o l1 IH]; intros l2 b0.
    - cbn. now destruct (o_run accept b0 l2) as [[]| |].
    - cbn [app o_run]. destruct (o_step accept b0 o) as [[a b1]| |]; cbn [bind fst snd]; [|reflexivity|reflexivity]. rewrite IH.
      destruct (o_run accept b1 l1) as [[t b2]| |]; cbn [bind fst snd]; [|reflexivity|reflexivity].
      destruct (o_run accept b2 l2) as [[u b3]| |]; reflexivity. }
  rewrite RA. change (a_end (o_bip (o_init m))) with 0 in R, K. rewrite R. cbn [bind fst snd o_run o_step]. rewrite R'. cbn [bind fst snd].
  do 2 eexists. split; [reflexivity|]. split; [exact C'|]. rewrite K'. exact K.
Qed.

(* C118: one pubsync with any sink, in any state of the bip buffer.  Provided the sink
   takes no more than lies in one piece and all that is buffered ends before the end of the storage. *)
Theorem C118_sync (accept : nat -> nat) (m : list Z) h (b : ob) :
  int_size m -> bip_run (bip_init (Z.of_nat (length m)) m) h (o_bip b) ->
  let n := Z.min (bip_used (o_bip b)) (Z.of_nat (accept (o_calls b))) in
  n <= contiguous (o_bip b) -> n = 0 \/ a_start (o_bip b) + bip_used (o_bip b) <= Z.of_nat (length m) ->
  exists b', o_sync accept b = Ok (if n =? 0 then -1 else 0, b') /\
    o_sunk b' = o_sunk b ++ firstn (Z.to_nat n) (contents (o_bip b)) /\
    contents (o_bip b') = skipn (Z.to_nat n) (contents (o_bip b)).
Proof.
  intros Hm Hr n H1 H2. destruct (reach_inv m h (o_bip b) ltac:(unfold int_size in Hm; lia) Hr) as (I & S).
  destruct (o_sync_any accept b I H1 ltac:(rewrite S; exact H2)) as (b' & R & _ & K & C). eauto.
Qed.
(* A full buffer whose sink takes nothing: the next character is stored past the end. *)
Theorem C235_refusing_sink_refuted (accept : nat -> nat) (m s : list Z) (c : Z) :
  int_size m -> length s = length m -> accept O = O ->
  o_run accept (o_init m) [Putn s; Putc c] = UB.
Proof.
  intros Hm Hs Ha. destruct (fill_state accept m s Hm Hs) as (b & R & S & A & Cl & K & C).
  cbn [o_run o_step]. rewrite R. cbn [bind fst snd]. now rewrite (o_full_refused accept _ b c S A ltac:(rewrite Cl; exact Ha)).
Qed.
(* A sink that takes part of a full buffer: after the next characters wrapped, pubsync hands it a
   null pointer. *)
Theorem C235_partial_sink_refuted (accept : nat -> nat) (m s t : list Z) :
  int_size m -> length s = length m -> (0 < accept O < length m)%nat ->
  (0 < length t <= accept O)%nat -> (0 < accept 1%nat)%nat ->
  o_run accept (o_init m) [Putn s; Flush; Putn t; Flush] = UB.
Proof. exact (wrapped_flush accept m s t). Qed.
(* '\xff' put where the buffer is full is stored, but sputn answers that it was not. *)
Theorem C235_uncounted_refuted (accept : nat -> nat) (m s r : list Z) :
  int_size m -> (forall i, (length m <= accept i)%nat) -> length s = length m -> Z.of_nat (S (length r)) < 2147483648 ->
  exists b, o_run accept (o_init m) [Putn s; Putn (-1 :: r)] = Ok ([Z.of_nat (length m); 0], b) /\
    o_sunk b ++ contents (o_bip b) = s ++ [-1].
Proof.
  intros Hm G Hs L. destruct (fill_state accept m s Hm Hs) as (b & R & S & A & Cl & K & C).
  cbn [o_run o_step]. rewrite R. cbn [bind fst snd].
  destruct (o_ff_uncounted accept (Z.of_nat (length m)) b r ltac:(intros i; specialize (G i); lia) S A L) as (b' & R' & K').
  rewrite R'. cbn [bind fst snd]. exists b'. split; [reflexivity|]. now rewrite K', K, C.
Qed.

(* C119: reading a text of ASCII characters, with any source and either traits. *)
Theorem C119_reads_in_order (give : nat -> nat) (tr : traits) (m text : list Z) (l : list iop) :
  int_size m -> Forall ascii text ->
  exists answers c, i_run give tr (i_init m text) l = Ok (answers, c) /\
    reads_all give tr (i_init m text) l answers c.
Proof.
  intros Hm F. assert (U : unread (i_init m text) = text).
  { unfold unread, i_init. cbn [i_bip i_rest]. reflexivity. }
  assert (G : good (Z.of_nat (length m)) (i_init m text)).
  { split; [apply inv_init; unfold int_size in Hm; lia|]. split; [reflexivity|unfold int_size in Hm; lia]. }
  destruct (i_run_all give tr _ l (i_init m text) G ltac:(rewrite U; exact F)) as (a & c & R & Ra & _). eauto.
Qed.
(* The first character of a refill that is not ASCII comes out as a negative number, '\xff' as end
   of file. *)
Theorem C236_signed_refuted (give : nat -> nat) (tr : traits) (m : list Z) (c : Z) (r : list Z) :
  int_size m -> (0 < give O)%nat -> -128 <= c < 0 ->
  exists b, i_run give tr (i_init m (c :: r)) [Getc] = Ok ([c], b) /\ unread b = c :: r /\ c <> c mod 256.
Proof.
  intros Hm Hg Hc. assert (G : good (Z.of_nat (length m)) (i_init m (c :: r))).
  { split; [apply inv_init; unfold int_size in Hm; lia|]. split; [reflexivity|unfold int_size in Hm; lia]. }
  destruct (i_sgetc_signed give tr _ (i_init m (c :: r)) c r G eq_refl eq_refl Hg) as (b & R & U).
  exists b. cbn [i_run i_step]. rewrite R. cbn [bind fst snd]. split; [reflexivity|]. split; [exact U|].
  pose proof (Z.mod_pos_bound c 256). lia.
Qed.

(* C120: sgetn gives the next characters but consumes none, so a second call gives them again. *)
Theorem C120_sgetn_consumes_refuted (m : list Z) h (b : ib) (n : Z) :
  int_size m -> bip_run (bip_init (Z.of_nat (length m)) m) h (i_bip b) ->
  0 <= n <= contiguous (i_bip b) ->
  exists d, i_sgetn b n = Ok (d, b) /\ d = firstn (Z.to_nat n) (contents (i_bip b)) /\ Z.of_nat (length d) = n.
Proof.
  intros Hm Hr Hn. destruct (reach_inv m h (i_bip b) ltac:(unfold int_size in Hm; lia) Hr) as (I & S).
  eexists. split; [exact (i_sgetn_run b n I Hn)|]. split; [reflexivity|]. rewrite firstn_length.
  pose proof (contents_length _ I) as L. rewrite used_inv in L by exact I. unfold contiguous in Hn.
  assert (0 <= b_end (i_bip b)) by (pose proof (inv_b _ I); destruct (b_inuse (i_bip b)); lia). lia.
Qed.
(* What is buffered wraps around: sgetn of all of it reads past the end of the storage. *)
Theorem C120_sgetn_wrapped_refuted (m : list Z) h (b : ib) (n : Z) :
  int_size m -> bip_run (bip_init (Z.of_nat (length m)) m) h (i_bip b) ->
  bip_used (i_bip b) <= n -> Z.of_nat (length m) < a_start (i_bip b) + bip_used (i_bip b) ->
  i_sgetn b n = UB.
Proof.
  intros Hm Hr Hn Ho. destruct (reach_inv m h (i_bip b) ltac:(unfold int_size in Hm; lia) Hr) as (I & S).
  apply i_sgetn_over; auto. now rewrite S.
Qed.

(* ---------- cases ---------- *)
Definition st4 : list Z := [0; 0; 0; 0].
Example C117_case :
  exists b, o_run (fun _ => 9%nat) (o_init st4) [Putn [97; 98; 99]; Putc 100; Putc 101; Putn [102; 103; 104; 105; 106]; Flush]
            = Ok ([3; 100; 101; 5; 0], b) /\ o_sunk b = [97; 98; 99; 100; 101; 102; 103; 104; 105; 106].
Proof. eexists. split; vm_compute; reflexivity. Qed.
Example C118_case :
  (exists b, o_run (fun _ => 2%nat) (o_init st4) [Putn [97; 98; 99]; Flush; Flush; Flush] = Ok ([3; 0; 0; -1], b) /\ o_sunk b = [97; 98; 99]) /\
  o_run (fun _ => 2%nat) (o_init st4) [Putn [97; 98; 99; 100]; Flush; Putn [101]; Flush] = UB.
Proof. split; [eexists; split; vm_compute; reflexivity|vm_compute; reflexivity]. Qed.
Example C119_case :
  exists b, i_run (fun _ => 3%nat) StdTraits (i_init st4 [97; 98; 99; 100]) [Getc; Bumpc; Sync; Nextc; Avail; Bumpc; Bumpc; Bumpc]
            = Ok ([97; 97; 0; 99; 2; 99; 100; -1], b).
Proof. eexists. vm_compute. reflexivity. Qed.
Example C120_case :
  exists b, i_run (fun _ => 9%nat) StdTraits (i_init st4 [97; 98; 99; 100; 101; 102]) [Sync; Bumpc; Bumpc; Sync] = Ok ([0; 97; 98; 0], b) /\
    i_sgetn b 2 = Ok ([99; 100], b) /\ i_sgetn b 4 = UB.
Proof. eexists. split; [vm_compute; reflexivity|split; vm_compute; reflexivity]. Qed.

Print Assumptions C117_writes_in_order.
Print Assumptions C117_flush.
Print Assumptions C118_sync.
Print Assumptions C235_refusing_sink_refuted.
Print Assumptions C235_partial_sink_refuted.
Print Assumptions C235_uncounted_refuted.
Print Assumptions C119_reads_in_order.
Print Assumptions C236_signed_refuted.
Print Assumptions C120_sgetn_consumes_refuted.
Print Assumptions C120_sgetn_wrapped_refuted.
