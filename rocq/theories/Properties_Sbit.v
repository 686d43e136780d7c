From Coq Require Import List ZArith Lia Bool.
From Verif Require Import Base MachInt SliceLemmas Streambuf_Model Stream_Spec Stream_Proofs Sbit_Model Sbit_Proofs.
Import ListNotations.
Local Open Scope Z_scope.
Local Open Scope res_scope.

(* ---- C425: iterating over a stream buffer; at_pos data k: the buffer stands before character k *)
Theorem C425_for_each : forall tr data k fuel, plain tr data -> (k < length data)%nat -> (length data - k <= fuel)%nat ->
  for_each tr fuel it_of_buffer (at_pos data k) = Ok (map (code tr) (skipn k data), at_pos data (length data)).
Proof.
  intros tr data k fuel P H F. rewrite <- (for_each_at tr data P (length data - k) k fuel) by lia.
  now replace (Nat.ltb k (length data)) with true by (symmetry; apply Nat.ltb_lt; lia).
Qed.
Print Assumptions C425_for_each.
Theorem C425_post_each : forall tr data k fuel, plain tr data -> (k < length data)%nat -> (length data - k <= fuel)%nat ->
  post_each tr fuel it_of_buffer (at_pos data k) = Ok (skipn k data, at_pos data (length data)).
Proof.
  intros tr data k fuel P H F. rewrite <- (post_each_at tr data P (length data - k) k fuel) by lia.
  now replace (Nat.ltb k (length data)) with true by (symmetry; apply Nat.ltb_lt; lia).
Qed.
Print Assumptions C425_post_each.
Theorem C425_distance : forall tr data k fuel, plain tr data -> (k < length data)%nat -> (length data - k <= fuel)%nat ->
  dist tr fuel it_of_buffer (at_pos data k) = Ok (Z.of_nat (length data - k), at_pos data (length data)).
Proof.
  intros tr data k fuel P H F. unfold dist. pose proof (proj1 P) as L.
  rewrite <- (Z.add_0_l (Z.of_nat (length data - k))).
  rewrite <- (dist_at tr data P (length data - k) k fuel 0) by lia.
  now replace (Nat.ltb k (length data)) with true by (symmetry; apply Nat.ltb_lt; lia).
Qed.
Print Assumptions C425_distance.
(* after n increments: at the end exactly if there is nothing left *)
Theorem C425_end : forall tr data k n, plain tr data -> (k < length data)%nat ->
  exists it, incr_n tr n it_of_buffer (at_pos data k) = Ok (it, at_pos data (Nat.min (k + n) (length data))) /\
    (it_eq it it_null = true <-> (length data <= k + n)%nat) /\ it_ne it it_null = negb (it_eq it it_null).
Proof.
  intros tr data k n P H. exists (Nat.ltb (k + n) (length data)). split; [now apply incr_n_at|]. split; [|reflexivity].
  destruct (Nat.ltb_spec (k + n) (length data)); cbn; split; try discriminate; auto; lia.
Qed.
Print Assumptions C425_end.
(* it++ keeps the character it stood on *)
Theorem C425_proxy : forall tr data k c, plain tr data -> nth_error data k = Some c ->
  exists p it, it_post tr it_of_buffer (at_pos data k) = Ok (p, it, at_pos data (k + 1)) /\
    proxy_deref p = c /\ proxy_eq p it_null = false /\ (it_eq it it_null = true <-> (length data = k + 1)%nat).
Proof.
  intros tr data k c P E. assert (k < length data)%nat by (apply nth_error_Some; congruence).
  destruct (plain_nth _ _ _ _ P E) as (Hc & _). pose proof (answer_eof tr data k P) as Q.
  exists (code tr c), (Nat.ltb (k + 1) (length data)). unfold it_post, it_of_buffer. cbn [it_end negb].
  rewrite sgetc_at by (try assumption; lia). rewrite E. cbn [bind answer]. rewrite it_incr_at by (try assumption; lia). cbn [bind].
  split; [reflexivity|]. split; [now apply to_char_code|]. split.
  - unfold proxy_eq, proxy_end. rewrite E in Q. cbn [answer] in Q. rewrite Q by lia.
    now replace (Nat.ltb k (length data)) with true by (symmetry; apply Nat.ltb_lt; lia).
  - destruct (Nat.ltb_spec (k + 1) (length data)); cbn; split; try discriminate; auto; lia.
Qed.
Print Assumptions C425_proxy.
Example C425_case : plain StdTraits [104; -1; 33] /\ Z.of_nat (length [104; -1; 33]) > 1 /\
  for_each StdTraits 9 it_of_buffer (isb_init [104; -1; 33]) = Ok ([104; 255; 33], at_pos [104; -1; 33] 3) /\
  post_each StdTraits 9 it_of_buffer (isb_init [104; -1; 33]) = Ok ([104; -1; 33], at_pos [104; -1; 33] 3).
Proof.
  split; [|split; [cbn; lia|split; reflexivity]]. split; [cbn; lia|]. split; [|discriminate].
  unfold is_char. repeat constructor; lia.
Qed.

(* ---- C426: nothing left to read, in whatever text: an iterator made then is not the end; it
   shows -1, and a loop takes one character that is not there *)
Theorem C426_exhausted_refuted : forall tr data fuel, plain tr data -> (1 <= fuel)%nat ->
  let b := at_pos data (length data) in
  it_eq it_of_buffer it_null = false /\
  it_deref tr it_of_buffer b = Ok (-1) /\ for_each tr fuel it_of_buffer b = Ok ([-1], b) /\
  post_each tr fuel it_of_buffer b = Ok ([-1], b) /\ dist tr fuel it_of_buffer b = Ok (1, b).
Proof. intros tr data fuel P F b. split; [reflexivity|]. now apply exhausted. Qed.
Print Assumptions C426_exhausted_refuted.
Example C426_case : plain StdTraits [] /\ plain EstdTraits [65; 66].
Proof.
  split; (split; [cbn; lia|split]); [constructor|discriminate|unfold is_char; repeat constructor; lia|].
  intros _ [K|[K|[]]]; discriminate.
Qed.

(* ---- C427: the library's own traits and a text with the character -1: the loop never ends *)
Theorem C427_ff_refuted : forall data, Z.of_nat (length data) < 32768 -> Forall is_char data -> In (-1) data ->
  forall fuel, for_each EstdTraits fuel it_of_buffer (isb_init data) = Diverge.
Proof.
  intros data L F I fuel. destruct (In_nth_error _ _ I) as (p & E).
  exact (never data L F p 0 p eq_refl E fuel).
Qed.
Print Assumptions C427_ff_refuted.
Example C427_case : Forall is_char [104; -1; 33] /\ In (-1) [104; -1; 33].
Proof. unfold is_char. split; [repeat constructor; lia|now right; left]. Qed.

(* ---- C428: output iterators store what fits, in order; made from nothing they store nothing *)
Theorem C428_write : forall tr b s, (opos b <= length (obuf b))%nat ->
  let kept := firstn (length (obuf b) - opos b) s in
  exists it, oit_write tr oit_of_buffer b s = Ok (it, Osb (overwrite (obuf b) (opos b) kept) (opos b + length kept)).
Proof.
  intros tr b s H kept. destruct (oit_write_ok tr s oit_of_buffer b eq_refl H) as (it & E & _). now exists it.
Qed.
Print Assumptions C428_write.
Theorem C428_null : forall tr b s, oit_write tr oit_null b s = Ok (oit_null, b) /\ oit_failed oit_null = Ok false.
Proof. intros tr b s. split; [apply oit_null_write|reflexivity]. Qed.
Print Assumptions C428_null.
Example C428_case : exists it, oit_write StdTraits oit_of_buffer (Osb [1; 2; 3; 4] 1) [65; 66; 67; 68; 69] = Ok (it, Osb [1; 65; 66; 67] 4).
Proof. exists (Oit true (Some (-1))). reflexivity. Qed.

(* ---- C429: failed().  It is true after a write that succeeded and false after one that did not,
   and undefined before the first *)
Theorem C429_success_refuted : forall tr b c, (opos b < length (obuf b))%nat -> to_int tr c <> eof ->
  exists it b', oit_assign tr oit_of_buffer b c = Ok (it, b') /\ b' = Osb (overwrite (obuf b) (opos b) [c]) (opos b + 1) /\
    oit_failed it = Ok true.
Proof.
  intros tr b c H N. unfold oit_assign, oit_of_buffer. cbn [o_rdbuf]. rewrite sputc_ok by assumption. cbn [bind].
  do 2 eexists. split; [reflexivity|]. split; [reflexivity|]. unfold oit_failed. cbn [last_written].
  now apply Z.eqb_neq in N as ->.
Qed.
Print Assumptions C429_success_refuted.
Theorem C429_failure_refuted : forall tr it b c, o_rdbuf it = true -> (length (obuf b) <= opos b)%nat ->
  exists it', oit_assign tr it b c = Ok (it', b) /\ oit_failed it' = Ok false.
Proof.
  intros tr it b c L H. unfold oit_assign. rewrite L, sputc_full by assumption. cbn [bind].
  eexists. split; reflexivity.
Qed.
Print Assumptions C429_failure_refuted.
Theorem C429_unwritten_refuted : oit_failed oit_of_buffer = UB.
Proof. reflexivity. Qed.
Print Assumptions C429_unwritten_refuted.
Example C429_case : let b := Osb [1; 2] 1 in let f := Osb [1; 2] 2 in (opos b < length (obuf b))%nat /\ to_int StdTraits 65 <> eof /\
  (length (obuf f) <= opos f)%nat.
Proof. cbn. repeat split; try lia; discriminate. Qed.

(* ---- C430: a filter_iterator maps *)
Theorem C430_maps : forall A (f : A -> A) data i n, (i + n <= length data)%nat ->
  fit_take f data n i = Ok (map f (firstn n (skipn i data))) /\ fit_post i = (i, i + 1)%nat.
Proof. intros A f data i n H. split; [now apply fit_take_ok|]. unfold fit_post, fit_incr. f_equal. lia. Qed.
Print Assumptions C430_maps.
Example C430_case : fit_take (fun x => x * x) [3; 4; 5; 6] 2 (1%nat : fit) = Ok [16; 25].
Proof. reflexivity. Qed.

(* ---- C431: ... it does not filter: it goes over all elements, and shows the predicate's answers *)
Theorem C431_all_elements_refuted : forall (accept : Z -> bool) data x, In x data -> accept x = false ->
  exists l, fit_take (fun y => Z.b2z (accept y)) data (length data) (0%nat : fit) = Ok l /\
    length l = length data /\ l <> filter accept data /\ Forall (fun y => y = 0 \/ y = 1) l.
Proof.
  intros accept data x I R. exists (map (fun y => Z.b2z (accept y)) data).
  rewrite fit_take_ok by lia. cbn [skipn]. rewrite firstn_all. split; [reflexivity|]. split; [apply map_length|]. split.
  - intros E. apply (f_equal (@length Z)) in E. rewrite map_length in E.
    enough (length (filter accept data) < length data)%nat by lia. clear E.
    induction data as [|y data IH]; [destruct I|]. cbn [filter length]. destruct I as [->|I].
    + rewrite R. enough (length (filter accept data) <= length data)%nat by lia.
      clear. induction data as [|y data IH]; cbn; [lia|]. destruct (accept y); cbn; lia.
    + specialize (IH I). destruct (accept y); cbn [length]; lia.
  - apply Forall_map, Forall_forall. intros y _. destruct (accept y); cbn; auto.
Qed.
Print Assumptions C431_all_elements_refuted.
Example C431_case : In 3 [2; 3; 4] /\ Z.even 3 = false.
Proof. split; [now right; left|reflexivity]. Qed.
