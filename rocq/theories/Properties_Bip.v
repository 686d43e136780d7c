(* Properties C07-C10: the bip buffer. *)
From Verif Require Import Base Bip_Model Bip_Spec Bip_Proofs.
Local Open Scope Z_scope.

(* C07: over every history of entitled calls on a buffer of any capacity, the
   bytes delivered are the bytes accepted, in order, minus those still inside. *)
Theorem C07_bytes_come_out_in_order :
  forall (B : Type) (m : list B) (h : list (bip_op B * bip_obs B)) (me : bip B),
    Z.of_nat (length m) < 2147483648 ->
    bip_run (bip_init (Z.of_nat (length m)) m) h me ->
    accepted h = delivered h ++ contents me.
Proof. exact @fifo_correct. Qed.
Print Assumptions C07_bytes_come_out_in_order.

(* C07: every entitled call is defined behaviour and acts as on an ideal FIFO. *)
Theorem C07_every_call_refines_fifo :
  forall (B : Type) (m : list B) h (me : bip B) (o : bip_op B),
    Z.of_nat (length m) < 2147483648 ->
    bip_run (bip_init (Z.of_nat (length m)) m) h me -> entitled me o ->
    exists me' x, bip_step me o = Ok (me', x) /\ fifo_step (contents me) o x (contents me').
Proof. exact @fifo_step_correct. Qed.
Print Assumptions C07_every_call_refines_fifo.

(* C07 in purely client terms: a client that sends whole messages and receives by
   polling the length of the oldest one gets exactly the accepted messages in order. *)
Theorem C07_messages_arrive_whole_and_in_order :
  forall (B : Type) (m : list B) (ops : list (option (list B))),
    Z.of_nat (length m) < 2147483648 -> Forall send_ok ops ->
    exists me lens recv acc pend,
      msg_run (bip_init (Z.of_nat (length m)) m) [] ops = Ok (me, lens, recv, acc) /\
      acc = recv ++ pend /\ lens = map (fun d => Z.of_nat (length d)) pend /\
      contents me = concat pend.
Proof. exact @message_fifo. Qed.
Print Assumptions C07_messages_arrive_whole_and_in_order.

(* A run that wraps: 3 bytes, drain 2, wrap into region B, drain across. *)
Example C07_case :
  let m := [0;0;0;0;0]%nat in
  msg_run (bip_init 5 m) []
    [Some [1;2]%nat; Some [3;4]%nat; Some [5;6]%nat; None; Some [7;8]%nat; Some [9]%nat; None; None;
     Some [10;11]%nat; None] =
  Ok (mkBip 5 0 0 0 false [10;11;3;4;0]%nat, [], [[1;2]; [3;4]; [7;8]; [10;11]]%nat,
      [[1;2]; [3;4]; [7;8]; [10;11]]%nat).
Proof. vm_compute; reflexivity. Qed.

(* The hypotheses of the run theorems are met by a run that wraps into region B. *)
Example C07_run_case :
  exists me, bip_run (bip_init 5 [0;0;0;0;0]%nat)
    [(Offer [1;2]%nat, Took 2); (Offer [3;4]%nat, Took 2); (Poll 2, Bytes [1;2]%nat);
     (Direct [7;8]%nat, Took 2); (Offer [9]%nat, Took 0); (Poll 1, Bytes [3]%nat)] me /\
    contents me = [4;7;8]%nat /\ b_inuse me = true.
Proof.
  eexists. split.
  - repeat (eapply br_cons; [cbn; repeat split; cbn; try lia; left; cbn; lia | vm_compute; reflexivity|]).
    apply br_nil.
  - vm_compute; auto.
Qed.

(* C08 *)
Theorem C08_accounting :
  forall (B : Type) (m : list B) h (me : bip B),
    Z.of_nat (length m) < 2147483648 ->
    bip_run (bip_init (Z.of_nat (length m)) m) h me ->
    bip_used me = Z.of_nat (length (contents me)) /\
    0 <= bip_unused me /\ bip_used me + bip_unused me <= Z.of_nat (length m) /\
    (forall d, Z.of_nat (length d) < 2147483648 ->
       exists me' n, bip_offer me d (Z.of_nat (length d)) = Ok (me', n) /\
         (if Z.of_nat (length d) <=? bip_unused me
          then n = Z.of_nat (length d) /\ bip_used me' = bip_used me + n /\
               contents me' = contents me ++ d
          else n = 0 /\ me' = me)).
Proof. exact @accounting. Qed.
Print Assumptions C08_accounting.

(* C08: a poll of n of the contiguous bytes takes them from the front, and used() drops by n. *)
Theorem C08_poll :
  forall (B : Type) (m : list B) h (me : bip B) (n : Z),
    Z.of_nat (length m) < 2147483648 ->
    bip_run (bip_init (Z.of_nat (length m)) m) h me -> 0 <= n <= contiguous me -> contents me <> [] ->
    exists me' d, bip_step me (Poll n) = Ok (me', Bytes d) /\ contents me = d ++ contents me' /\
      Z.of_nat (length d) = n /\ bip_used me' = bip_used me - n.
Proof. exact @poll_accounting. Qed.
Print Assumptions C08_poll.

(* C08: an offer changes only bytes inside the storage that are not unread. *)
Theorem C08_offer_writes_only_free_space :
  forall (B : Type) (m : list B) h (me : bip B) (d : list B) me' n,
    Z.of_nat (length m) < 2147483648 ->
    bip_run (bip_init (Z.of_nat (length m)) m) h me ->
    bip_offer me d (Z.of_nat (length d)) = Ok (me', n) ->
    length (mem me') = length m /\
    forall i, nth_error (mem me') i <> nth_error (mem me) i ->
      0 <= Z.of_nat i < Z.of_nat (length m) /\
      ~ (a_start me <= Z.of_nat i < a_end me) /\ ~ (0 <= Z.of_nat i < b_end me).
Proof. exact @offer_frame. Qed.
Print Assumptions C08_offer_writes_only_free_space.

(* C08: as long as nothing has wrapped around, unused() is the larger of the gap
   before the unread bytes and the gap after them. *)
Theorem C08_unused_is_larger_gap :
  forall (B : Type) (m : list B) h (me : bip B),
    Z.of_nat (length m) < 2147483648 ->
    bip_run (bip_init (Z.of_nat (length m)) m) h me -> b_end me = 0 ->
    bip_unused me = Z.max (a_start me) (Z.of_nat (length m) - a_end me).
Proof. exact @larger_gap. Qed.
Print Assumptions C08_unused_is_larger_gap.

Example C08_case :
  let me := mkBip 5 3 4 2 true [7;8;3;4;0]%nat in
  bip_unused me = 1 /\ bip_used me = 3 /\
  bip_offer me [9;9]%nat 2 = Ok (me, 0) /\
  bip_offer me [9]%nat 1 = Ok (mkBip 5 3 4 3 true [7;8;9;4;0]%nat, 1).
Proof. repeat split; vm_compute; reflexivity. Qed.

(* C09.  What holds: a call that is refused leaves the buffer intact, peek and poll
   agree, and refusal happens exactly when the buffer is empty or the request runs
   past the END OF STORAGE.  Excluded: refusal of requests that only run past the
   readable region (see the refutation). *)
Theorem C09_refusal :
  forall (B : Type) (m : list B) h (me : bip B) (n : Z),
    Z.of_nat (length m) < 2147483648 ->
    bip_run (bip_init (Z.of_nat (length m)) m) h me -> 0 <= n < 2147483648 ->
    (snd (bip_poll me n) = None <-> contents me = [] \/ Z.of_nat (length m) < a_start me + n) /\
    (snd (bip_poll me n) = None -> fst (bip_poll me n) = me) /\
    (bip_peek me n = snd (bip_poll me n)).
Proof. exact @poll_refused. Qed.
Print Assumptions C09_refusal.

(* C09 fails in every reachable state where the request exceeds the contiguous
   bytes but not the storage: the poll succeeds and the read cursor passes the
   write cursor. *)
Theorem C168_overread_always_corrupts_refuted :
  forall (B : Type) (m : list B) h (me : bip B) (n : Z),
    Z.of_nat (length m) < 2147483648 ->
    bip_run (bip_init (Z.of_nat (length m)) m) h me ->
    0 < contiguous me < n -> a_start me + n <= Z.of_nat (length m) ->
    exists me', bip_poll me n = (me', Some (a_start me)) /\ a_end me' < a_start me' /\
      bip_peek me n = Some (a_start me).
Proof. exact @overpoll_reachable. Qed.
Print Assumptions C168_overread_always_corrupts_refuted.

(* C09, concrete: 3 bytes offered, 5 polled: 5 bytes delivered, then used() = -2. *)
Theorem C168_poll_delivers_unoffered_bytes_refuted :
  exists me me', bip_run (bip_init 10 [0;0;0;0;0;0;0;0;0;0]%nat) [(Offer [1;2;3]%nat, Took 3)] me /\
    bip_step me (Poll 5) = Ok (me', Bytes [1;2;3;0;0]%nat) /\ bip_used me' = -2.
Proof.
  eexists _, _. split; [|split].
  - eapply br_cons; [cbn; lia|vm_compute; reflexivity|apply br_nil].
  - vm_compute; reflexivity.
  - vm_compute; reflexivity.
Qed.
Print Assumptions C168_poll_delivers_unoffered_bytes_refuted.

Example C09_case : exists me,
  bip_run (bip_init 10 [0;0;0;0;0;0;0;0;0;0]%nat) [(Offer [1;2;3]%nat, Took 3)] me /\
  0 < contiguous me < 5 /\ a_start me + 5 <= 10 /\ snd (bip_poll me 20) = None.
Proof.
  eexists. split; [eapply br_cons; [cbn; lia|vm_compute; reflexivity|apply br_nil]|].
  vm_compute. repeat split; congruence.
Qed.

(* C10 *)
Theorem C10_drained_buffer_is_empty_and_whole :
  forall (B : Type) (m : list B) h (me : bip B),
    Z.of_nat (length m) < 2147483648 ->
    bip_run (bip_init (Z.of_nat (length m)) m) h me ->
    (bip_is_empty me = true <-> delivered h = accepted h) /\
    (bip_is_empty me = true -> bip_used me = 0 /\ bip_unused me = Z.of_nat (length m)).
Proof. exact @drained. Qed.
Print Assumptions C10_drained_buffer_is_empty_and_whole.

Theorem C10_drained_buffer_takes_its_capacity :
  forall (B : Type) (m : list B) h (me : bip B) (d : list B),
    Z.of_nat (length m) < 2147483648 ->
    bip_run (bip_init (Z.of_nat (length m)) m) h me -> delivered h = accepted h -> (length d <= length m)%nat ->
    exists me', bip_offer me d (Z.of_nat (length d)) = Ok (me', Z.of_nat (length d)) /\ contents me' = d.
Proof. exact @drained_offer. Qed.
Print Assumptions C10_drained_buffer_takes_its_capacity.

Example C10_case :
  exists me, bip_run (bip_init 3 [0;0;0]%nat)
    [(Offer [1;2]%nat, Took 2); (Poll 1, Bytes [1]%nat); (Poll 1, Bytes [2]%nat)] me /\
    bip_is_empty me = true /\ bip_unused me = 3.
Proof.
  eexists. split.
  - repeat (eapply br_cons; [cbn; repeat split; cbn; try lia; left; cbn; lia | vm_compute; reflexivity|]).
    apply br_nil.
  - vm_compute; auto.
Qed.
