From Coq Require Import List ZArith Lia Bool.
From Verif Require Import Base MachInt SliceLemmas Streambuf_Model Stream_Spec Stream_Proofs Numio_Proofs Sbit_Model.
Import ListNotations.
Local Open Scope Z_scope.
Local Open Scope res_scope.

Lemma skipn_cons {A} (l : list A) k : (k < length l)%nat -> exists x, nth_error l k = Some x /\ skipn k l = x :: skipn (k + 1) l.
Proof.
  intros H. destruct (nth_error l k) as [x|] eqn:E; [|apply nth_error_None in E; lia].
  exists x. split; [reflexivity|]. rewrite Nat.add_1_r. now apply skipn_nth.
Qed.

Lemma it_incr_at tr data k : plain tr data -> (k < length data)%nat ->
  it_incr tr true (at_pos data k) = Ok (Nat.ltb (k + 1) (length data), at_pos data (k + 1)).
Proof.
  intros P Hk. unfold it_incr. cbn [it_end negb]. rewrite isbi_next_at by assumption. cbn [bind].
  now destruct (Nat.ltb (k + 1) (length data)).
Qed.
Lemma it_incr_end tr data : plain tr data ->
  it_incr tr true (at_pos data (length data)) = Ok (false, at_pos data (length data)).
Proof.
  intros P. unfold it_incr, isbi_next. cbn [it_end negb]. rewrite snextc_end by assumption. cbn [bind].
  unfold in_avail. rewrite xin_avail_at by (try apply P; lia). rewrite Nat.sub_diag. now destruct tr.
Qed.

Lemma for_each_S tr f b : for_each tr (S f) true b =
  (c <- sgetc tr b ;; ' q <- it_incr tr true b ;; let (it', b') := q in
   ' r <- for_each tr f it' b' ;; let (cs, b2) := r in Ok (c :: cs, b2)).
Proof. reflexivity. Qed.
Lemma post_each_S tr f b : post_each tr (S f) true b =
  (ch <- sgetc tr b ;; ' q <- it_incr tr true b ;; let (it', b') := q in
   ' r <- post_each tr f it' b' ;; let (cs, b2) := r in Ok (proxy_deref ch :: cs, b2)).
Proof.
  cbn [post_each]. change (it_ne true it_null) with true. cbn match. unfold it_post. change (negb (it_end true)) with true. cbn match.
  destruct (sgetc tr b); cbn [bind]; [|reflexivity|reflexivity]. now destruct (it_incr tr true b) as [[it' b']| |].
Qed.
Lemma dist_S tr f b c : dist_loop tr (S f) true b c =
  if 2147483647 <=? c then UB else ' q <- it_incr tr true b ;; let (it', b') := q in dist_loop tr f it' b' (c + 1).
Proof. reflexivity. Qed.

Lemma for_each_at tr data : plain tr data -> forall n k fuel, (k + n = length data)%nat -> (n <= fuel)%nat ->
  for_each tr fuel (Nat.ltb k (length data)) (at_pos data k) =
  Ok (map (code tr) (skipn k data), at_pos data (length data)).
Proof.
  intros P. induction n as [|n IH]; intros k fuel Hk Hf.
  - replace k with (length data) by lia. rewrite Nat.ltb_irrefl, skipn_all. now destruct fuel.
  - destruct fuel as [|fuel]; [lia|]. replace (Nat.ltb k (length data)) with true by (symmetry; apply Nat.ltb_lt; lia).
    rewrite for_each_S.
    rewrite sgetc_at by (try assumption; lia). cbn [bind]. rewrite it_incr_at by (try assumption; lia). cbn [bind].
    rewrite IH by lia. cbn [bind].
    destruct (skipn_cons data k ltac:(lia)) as (x & E & S). rewrite S, E. reflexivity.
Qed.
Lemma post_each_at tr data : plain tr data -> forall n k fuel, (k + n = length data)%nat -> (n <= fuel)%nat ->
  post_each tr fuel (Nat.ltb k (length data)) (at_pos data k) = Ok (skipn k data, at_pos data (length data)).
Proof.
  intros P. induction n as [|n IH]; intros k fuel Hk Hf.
  - replace k with (length data) by lia. rewrite Nat.ltb_irrefl, skipn_all. now destruct fuel.
  - destruct fuel as [|fuel]; [lia|]. replace (Nat.ltb k (length data)) with true by (symmetry; apply Nat.ltb_lt; lia).
    rewrite post_each_S.
    rewrite sgetc_at by (try assumption; lia). cbn [bind]. rewrite it_incr_at by (try assumption; lia). cbn [bind].
    rewrite IH by lia. cbn [bind].
    destruct (skipn_cons data k ltac:(lia)) as (x & E & S). rewrite S, E. cbn [answer].
    destruct (plain_nth _ _ _ _ P E) as (Hc & _). unfold proxy_deref. rewrite to_char_code by assumption. reflexivity.
Qed.
Lemma dist_at tr data : plain tr data -> forall n k fuel c, (k + n = length data)%nat -> (n <= fuel)%nat ->
  0 <= c -> c + Z.of_nat n < 65536 ->
  dist_loop tr fuel (Nat.ltb k (length data)) (at_pos data k) c = Ok (c + Z.of_nat n, at_pos data (length data)).
Proof.
  intros P. induction n as [|n IH]; intros k fuel c Hk Hf H0 Hc.
  - replace k with (length data) by lia. rewrite Nat.ltb_irrefl. cbn [Z.of_nat]. rewrite Z.add_0_r. now destruct fuel.
  - destruct fuel as [|fuel]; [lia|]. replace (Nat.ltb k (length data)) with true by (symmetry; apply Nat.ltb_lt; lia).
    rewrite dist_S.
    replace (2147483647 <=? c) with false by (symmetry; apply Z.leb_gt; lia).
    rewrite it_incr_at by (try assumption; lia). cbn [bind]. rewrite IH by lia. do 2 f_equal. lia.
Qed.
Lemma incr_null tr b : forall n, incr_n tr n false b = Ok (false, b).
Proof. induction n as [|n IH]; [reflexivity|]. cbn [incr_n it_incr it_end negb bind]. exact IH. Qed.
Lemma incr_n_at tr data : plain tr data -> forall n k, (k < length data)%nat ->
  incr_n tr n true (at_pos data k) = Ok (Nat.ltb (k + n) (length data), at_pos data (Nat.min (k + n) (length data))).
Proof.
  intros P. induction n as [|n IH]; intros k Hk.
  - rewrite Nat.add_0_r, Nat.min_l by lia. cbn [incr_n]. now replace (Nat.ltb k (length data)) with true by (symmetry; apply Nat.ltb_lt; lia).
  - cbn [incr_n]. rewrite it_incr_at by assumption. cbn [bind].
    destruct (Nat.ltb_spec (k + 1) (length data)).
    + rewrite IH by assumption. now replace (k + 1 + n)%nat with (k + S n)%nat by lia.
    + rewrite incr_null. replace (k + 1)%nat with (length data) by lia. rewrite Nat.min_r by lia.
      now replace (Nat.ltb (k + S n) (length data)) with false by (symmetry; apply Nat.ltb_ge; lia).
Qed.

(* ---- nothing left ---- *)
Lemma exhausted tr data fuel : plain tr data -> (1 <= fuel)%nat ->
  it_deref tr it_of_buffer (at_pos data (length data)) = Ok (-1) /\
  for_each tr fuel it_of_buffer (at_pos data (length data)) = Ok ([-1], at_pos data (length data)) /\
  post_each tr fuel it_of_buffer (at_pos data (length data)) = Ok ([-1], at_pos data (length data)) /\
  dist tr fuel it_of_buffer (at_pos data (length data)) = Ok (1, at_pos data (length data)).
Proof.
  intros P Hf. assert (G : sgetc tr (at_pos data (length data)) = Ok (-1)).
  { rewrite sgetc_at by (try assumption; lia). now replace (nth_error data (length data)) with (@None Z) by (symmetry; apply nth_error_None; lia). }
  destruct fuel as [|fuel]; [lia|]. unfold it_of_buffer, dist. split; [exact G|].
  rewrite for_each_S, post_each_S, dist_S.
  rewrite G. cbn [bind]. rewrite (it_incr_end tr data P). cbn [bind].
  destruct fuel; cbn; repeat split; reflexivity.
Qed.

(* ---- the character -1 under the library's traits ---- *)
Lemma stuck data k : Z.of_nat (length data) < 32768 -> nth_error data k = Some (-1) ->
  it_incr EstdTraits true (at_pos data k) = Ok (true, at_pos data k).
Proof.
  intros L E. assert (k < length data)%nat by (apply nth_error_Some; congruence).
  destruct (C47_ff data k ltac:(lia) E) as [_ B]. unfold it_incr, isbi_next, snextc. cbn [it_end negb]. rewrite B. cbn [bind].
  change (-1 =? eof) with true. cbn [bind andb]. change (eof =? eof) with true. cbn [andb].
  unfold in_avail. rewrite xin_avail_at by lia. cbn [int_type]. unfold wraps. change (2 ^ (16 - 1)) with 32768. change (2 ^ 16) with 65536.
  rewrite Z.mod_small by lia. replace (0 <? Z.of_nat (length data - k) + 32768 - 32768) with true by (symmetry; apply Z.ltb_lt; lia).
  destruct (Z.eqb_spec (Z.of_nat (length data - k) + 32768 - 32768) (-1)); [lia|reflexivity].
Qed.
Lemma stuck_for data k : Z.of_nat (length data) < 32768 -> nth_error data k = Some (-1) ->
  forall fuel, for_each EstdTraits fuel true (at_pos data k) = Diverge.
Proof.
  intros L E. induction fuel as [|fuel IH]; [reflexivity|].
  rewrite for_each_S. destruct (C47_ff data k ltac:(lia) E) as [G _]. rewrite G. cbn [bind].
  rewrite (stuck data k L E). cbn [bind]. now rewrite IH.
Qed.
Lemma step_char data k c : Z.of_nat (length data) < 32768 -> Forall is_char data -> nth_error data k = Some c -> c <> -1 ->
  (k + 1 < length data)%nat ->
  sgetc EstdTraits (at_pos data k) = Ok c /\ it_incr EstdTraits true (at_pos data k) = Ok (true, at_pos data (k + 1)).
Proof.
  intros L F E N H. assert (G : sgetc EstdTraits (at_pos data k) = Ok c).
  { unfold sgetc. rewrite xin_avail_at by lia. rewrite xsgetc_at. unfold rd. rewrite E.
    destruct (Z.eqb_spec (Z.of_nat (length data - k)) 0); [lia|reflexivity]. }
  split; [exact G|]. unfold it_incr, isbi_next, snextc, sbumpc. cbn [it_end negb]. rewrite G. cbn [bind].
  assert (Q : c =? eof = false) by (apply Z.eqb_neq; exact N). rewrite Q. cbn [negb bind]. rewrite Q.
  assert (B : gbump (at_pos data k) 1 = at_pos data (k + 1)) by (apply (gbump_at data k 1); lia). rewrite B.
  unfold sgetc. rewrite xin_avail_at by lia. rewrite xsgetc_at. unfold rd.
  destruct (Z.eqb_spec (Z.of_nat (length data - (k + 1))) 0); [lia|].
  destruct (nth_error data (k + 1)) as [d|] eqn:Ed; [|apply nth_error_None in Ed; lia]. cbn [bind].
  unfold in_avail. rewrite xin_avail_at by lia. cbn [int_type]. unfold wraps. change (2 ^ (16 - 1)) with 32768. change (2 ^ 16) with 65536.
  rewrite Z.mod_small by lia. replace (0 <? Z.of_nat (length data - (k + 1)) + 32768 - 32768) with true by (symmetry; apply Z.ltb_lt; lia).
  destruct (Z.eqb_spec (Z.of_nat (length data - (k + 1)) + 32768 - 32768) (-1)); [lia|]. rewrite andb_false_r. reflexivity.
Qed.
Lemma never data : Z.of_nat (length data) < 32768 -> Forall is_char data -> forall n k p, (k + n = p)%nat ->
  nth_error data p = Some (-1) -> forall fuel, for_each EstdTraits fuel true (at_pos data k) = Diverge.
Proof.
  intros L F. induction n as [|n IH]; intros k p Hk E fuel.
  - replace k with p by lia. now apply stuck_for.
  - assert (p < length data)%nat by (apply nth_error_Some; congruence).
    destruct (nth_error data k) as [c|] eqn:Ek; [|apply nth_error_None in Ek; lia].
    destruct (Z.eq_dec c (-1)) as [->|N]; [now apply stuck_for|].
    destruct fuel as [|fuel]; [reflexivity|]. rewrite for_each_S.
    destruct (step_char data k c L F Ek N ltac:(lia)) as [G I]. rewrite G. cbn [bind]. rewrite I. cbn [bind].
    rewrite (IH (k + 1)%nat p ltac:(lia) E fuel). reflexivity.
Qed.

(* ---- output ---- *)
Lemma oit_write_full tr s : forall it b, o_rdbuf it = true -> (length (obuf b) <= opos b)%nat ->
  exists it', oit_write tr it b s = Ok (it', b) /\ o_rdbuf it' = true.
Proof.
  induction s as [|c s IH]; intros it b L H; [now exists it|]. cbn [oit_write]. unfold oit_assign. rewrite L.
  rewrite sputc_full by assumption. cbn [bind]. now apply IH.
Qed.
Lemma oit_write_ok tr s : forall it b, o_rdbuf it = true -> (opos b <= length (obuf b))%nat ->
  let kept := firstn (length (obuf b) - opos b) s in
  exists it', oit_write tr it b s = Ok (it', Osb (overwrite (obuf b) (opos b) kept) (opos b + length kept)) /\ o_rdbuf it' = true.
Proof.
  induction s as [|c s IH]; intros it b L H kept; subst kept.
  - rewrite firstn_nil, overwrite_nil by assumption. cbn [length]. rewrite Nat.add_0_r. exists it. now destruct b.
  - destruct (Nat.eq_dec (opos b) (length (obuf b))) as [e|n].
    + rewrite e, Nat.sub_diag. cbn [firstn length]. rewrite overwrite_nil by lia. rewrite Nat.add_0_r.
      destruct (oit_write_full tr (c :: s) it b L ltac:(lia)) as (it' & E & Q). exists it'. rewrite E, <- e. now destruct b.
    + cbn [oit_write]. unfold oit_assign. rewrite L, sputc_ok by lia. cbn [bind]. unfold oit_incr.
      assert (Len : length (overwrite (obuf b) (opos b) [c]) = length (obuf b)) by (apply overwrite_length; cbn; lia).
      destruct (IH (Oit true (Some (to_int tr c))) (Osb (overwrite (obuf b) (opos b) [c]) (opos b + 1)) eq_refl) as (it' & E & Q).
      { cbn [opos obuf]. rewrite Len. lia. }
      exists it'. split; [|exact Q]. rewrite E. cbn [opos obuf]. rewrite Len.
      replace (length (obuf b) - opos b)%nat with (S (length (obuf b) - (opos b + 1))) by lia. cbn [firstn length].
      set (u := firstn (length (obuf b) - (opos b + 1)) s).
      assert (Lu : (length u <= length (obuf b) - (opos b + 1))%nat) by apply firstn_le_length.
      change (opos b + 1)%nat with (opos b + length [c])%nat at 1. rewrite overwrite_two by (cbn [length]; lia).
      cbn [app]. do 3 f_equal. lia.
Qed.
Lemma oit_null_write tr s : forall b, oit_write tr oit_null b s = Ok (oit_null, b).
Proof. induction s as [|c s IH]; intros b; [reflexivity|]. cbn [oit_write oit_assign oit_null o_rdbuf bind oit_incr]. apply IH. Qed.

(* ---- filter ---- *)
Lemma fit_take_ok {A} (f : A -> A) data : forall n i, (i + n <= length data)%nat ->
  fit_take f data n i = Ok (map f (firstn n (skipn i data))).
Proof.
  induction n as [|n IH]; intros i H; [reflexivity|].
  cbn [fit_take]. unfold fit_deref, rd. destruct (skipn_cons data i ltac:(lia)) as (x & E & S). rewrite E. cbn [bind].
  unfold fit_incr. rewrite IH by lia. cbn [bind]. rewrite S, Nat.add_1_r. reflexivity.
Qed.
