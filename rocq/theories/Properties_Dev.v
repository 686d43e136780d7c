From Verif Require Import Base Dev_Spec Dev_Model Dev_Proofs.
Local Open Scope Z_scope.

(* ---------- C343: input from a device ---------- *)

(* Every history of input operations on an Arduino stream does what the same
   history does on a queue of the bytes received, whatever arrives when - as
   long as no byte is 255 where char is signed.  An operation that the queue
   would keep waiting keeps waiting. *)
Theorem C343_device_input : forall sgn ops q,
  (forall b, In b q \/ (exists o, In o ops /\ In b (brings o)) -> is_byte b /\ (sgn = true -> b <> 255)) ->
  match ideal_in_run sgn (II q false false) ops with
  | Some (seen, i) =>
      exists got s, irun sgn (IS q false false) ops = Ok (got, s) /\ Forall2 shows seen got /\
        d_in s = ii_queue i /\ is_eof s = ii_eof i /\ is_fail s = ii_fail i
  | None => irun sgn (IS q false false) ops = Diverge
  end.
Proof.
  intros sgn ops q H.
  assert (A := irun_ok sgn ops (IS q false false) (II q false false)).
  assert (HQ : Forall (plain_byte sgn) q) by (apply Forall_forall; intros b Hb; apply H; left; exact Hb).
  assert (HB : Forall (fun o => Forall (plain_byte sgn) (brings o)) ops).
  { apply Forall_forall. intros o Ho. apply Forall_forall. intros b Hb. apply H. right. eauto. }
  specialize (A (conj eq_refl (conj eq_refl eq_refl)) HQ HB).
  destruct (ideal_in_run sgn (II q false false) ops) as [[seen i]|]; [|exact A].
  destruct A as (got & s & E & F & R1 & R2 & R3). exists got, s. auto.
Qed.
Print Assumptions C343_device_input.

Example C343_case :
  irun true (IS [65] false false)
    [DSgetc; DSbumpc; DSbumpc; DArrive [200; 66]; DSnextc; DAvail; DGet; DPeek [[]; []; [67; 68]]; DRead 3 [69]; DGet] =
  Ok ([MChar 65; MChar 65; MChar (-1); MChar 66; MCount 1; MChar 66; MState false false;
       MChar 67; MState false false; MText [67; 68; 69]; MState false false; MChar (-1); MState true true],
      IS [] true true) /\
  irun true (IS [] false false) [DPeek [[]; []]] = Diverge.
Proof. split; reflexivity. Qed.

(* ---------- C344: byte 255 where char is signed ---------- *)

(* Whatever waits behind it, byte 255 reads as the end of input: peeking says
   so, reading takes it away and says so, get() sets eofbit and failbit, and
   peek() says so after it waited for it. *)
Theorem C344_byte_255_refuted : forall q e f,
  sgetc true (255 :: q) = eof /\ sbumpc true (255 :: q) = (eof, q) /\ snextc true (255 :: q) = (eof, q) /\
  get true (IS (255 :: q) e f) = (eof, IS q true true) /\
  peek true (IS [] false false) [[]; 255 :: q] = Ok (eof, IS (255 :: q) false false).
Proof. intros q e f. repeat split. Qed.
Print Assumptions C344_byte_255_refuted.

(* Where char is unsigned it reads as 255. *)
Example C344_case : sbumpc false [255; 1] = (255, [1]) /\ sbumpc true [255; 1] = (-1, [1]) /\ sbumpc true [254; 1] = (-2, [1]).
Proof. repeat split. Qed.

(* ---------- C345: output to a device ---------- *)

(* Every history of output operations sends the characters the device takes,
   in order, and reports exactly what was not taken; on Arduino with a signed
   char for characters other than (char)-1. *)
Theorem C345_device_output : forall d ops,
  (forall o c, In o ops -> In c (chars_of o) ->
     match d with
     | Arduino sgn => exists b, is_byte b /\ (sgn = true -> b <> 255) /\ c = char_of sgn b
     | Posix => True
     end) ->
  exists s, orun d (OS [] false false) ops = (fst (ideal_out_run (IO [] false false) ops), s) /\
    d_out s = io_sent (snd (ideal_out_run (IO [] false false) ops)) /\
    os_eof s = io_eof (snd (ideal_out_run (IO [] false false) ops)) /\
    os_fail s = io_fail (snd (ideal_out_run (IO [] false false) ops)).
Proof.
  intros d ops H. apply (orun_ok d ops (OS [] false false) (IO [] false false)); [repeat split|].
  apply Forall_forall. intros o Ho. apply Forall_forall. intros c Hc. specialize (H o c Ho Hc). destruct d as [sgn|].
  - destruct H as (b & B1 & B2 & B3). exists b. repeat split; try assumption; apply B1.
  - exact I.
Qed.
Print Assumptions C345_device_output.

Example C345_case :
  orun Posix (OS [] false false) [WSputn [1; 2; 3] 2; WPut (-1) true; WWrite [4; 5] 5; WPut 6 false; WClear; WWrite [7; 8] 1] =
  ([WeCount 2; WeState false false; WeState false false; WeState true false; WeState false true],
   OS [1; 2; -1; 4; 5; 7] false true).
Proof. reflexivity. Qed.

(* ---------- C346: (char)-1 where char is signed ---------- *)

Theorem C346_put_255_refuted : forall out e f,
  sputc (Arduino true) out (-1) true = (eof, out ++ [-1]) /\
  put (Arduino true) (OS out e f) (-1) true = OS (out ++ [-1]) true f.
Proof. intros out e f. split; reflexivity. Qed.
Print Assumptions C346_put_255_refuted.

Example C346_case : char_of true 255 = -1 /\ put (Arduino true) (OS [7] false false) (-1) true = OS [7; -1] true false /\
  put Posix (OS [7] false false) (-1) true = OS [7; -1] false false.
Proof. repeat split. Qed.

(* ---------- C347: a blocking stream does not wait in get() ---------- *)

(* With nothing received, get() reports the end of input and sets eofbit and
   failbit at once; from then on peek() too reports the end, even of what has
   arrived since, until the state is cleared. *)
Theorem C347_get_does_not_wait_refuted : forall sgn e f bs polls,
  let '(c, s) := get sgn (IS [] e f) in
  c = eof /\ s = IS [] true true /\
  irun sgn s [DArrive bs; DPeek polls] = Ok ([MChar eof; MState true true], IS bs true true).
Proof. intros sgn e f bs polls. cbn. repeat split. Qed.
Print Assumptions C347_get_does_not_wait_refuted.

Example C347_case : irun false (IS [] false false) [DGet; DArrive [65]; DPeek []; DClear; DPeek []; DGet] =
  Ok ([MChar (-1); MState true true; MChar (-1); MState true true; MChar 65; MState false false; MChar 65; MState false false],
      IS [] false false).
Proof. reflexivity. Qed.

(* ---------- C348: a timed write sends more than it was given ---------- *)

(* Once the device has taken a part of the n characters, and then takes more
   than what is left, characters behind the caller's are read. *)
Theorem C348_reads_past_refuted : forall s mem n dev1 dev2 t up, length mem = n -> (0 < total n dev1 < n)%nat ->
  (forall r, In r dev1 -> snd r = false) -> (n - total n dev1 < t)%nat ->
  write_with_timeout s mem n (dev1 ++ (t, up) :: dev2) = UB.
Proof. intros. apply timed_over; try assumption. apply Forall_forall. assumption. Qed.
Print Assumptions C348_reads_past_refuted.

Example C348_case : (0 < total 4 [(3, false)] < 4)%nat /\
  write_with_timeout (OS [] false false) [1; 2; 3; 4] 4 [(3, false); (2, false)]%nat = UB /\
  write_with_timeout (OS [] false false) [1; 2; 3; 4; 99] 4 [(3, false); (2, false)]%nat = Ok (OS [1; 2; 3; 4; 99] false false).
Proof. cbn. repeat split; lia. Qed.

(* ---------- C349: a timed write that ran out of time says nothing ---------- *)

Theorem C349_timeout_silent_refuted : forall s mem n dev1 dev2 t, length mem = n -> (total n dev1 + t < n)%nat ->
  (forall r, In r dev1 -> snd r = false) ->
  write_with_timeout s mem n (dev1 ++ (t, true) :: dev2) =
  Ok (OS (d_out s ++ firstn (total n dev1 + t) mem) (os_eof s) (os_fail s)).
Proof. intros. apply timed_up; try assumption. apply Forall_forall. assumption. Qed.
Print Assumptions C349_timeout_silent_refuted.

Example C349_case : write_with_timeout (OS [] false false) [1; 2; 3; 4] 4 [(1, false); (2, true)]%nat = Ok (OS [1; 2; 3] false false).
Proof. reflexivity. Qed.

(* ---------- C350: a timed write that is taken bit by bit ---------- *)

(* When the device takes, round after round, at most what is left and in the
   end everything, before the time is up, exactly the n characters are sent. *)
Theorem C350_sent_in_parts : forall s mem n dev1 dev2 t up, length mem = n -> (total n dev1 < n)%nat ->
  t = (n - total n dev1)%nat -> (forall r, In r dev1 -> snd r = false) ->
  write_with_timeout s mem n (dev1 ++ (t, up) :: dev2) = Ok (OS (d_out s ++ mem) (os_eof s) (os_fail s)).
Proof. intros. apply timed_all; try assumption. apply Forall_forall. assumption. Qed.
Print Assumptions C350_sent_in_parts.

Example C350_case : write_with_timeout (OS [9] false false) [1; 2; 3; 4] 4 [(1, false); (0, false); (2, false); (1, true)]%nat =
  Ok (OS [9; 1; 2; 3; 4] false false).
Proof. reflexivity. Qed.
