From Coq Require Import List ZArith Bool Lia.
From Verif Require Import Base BaseLemmas SliceLemmas MachInt Ios_Model Ios_Proofs Streambuf_Model
  Charconv_Model Charconv_Spec Charconv_Proofs Stream_Spec Stream_Proofs Ostream_Model Ostream_Spec.
Import ListNotations.
Local Open Scope Z_scope.
Local Open Scope res_scope.

Lemma after_nil b : room b 0 -> after b [] = b.
Proof. unfold room, after. destruct b as [m p]; cbn [obuf opos length]. intros. rewrite overwrite_nil by lia. f_equal. lia. Qed.
Lemma after_room b x n : room b (length x + n) -> room (after b x) n.
Proof. unfold room, after; cbn [obuf opos]. intros. rewrite overwrite_length by lia. lia. Qed.
Lemma after_app b x y : room b (length x + length y) -> after (after b x) y = after b (x ++ y).
Proof.
  unfold room, after; cbn [obuf opos]. intros. rewrite overwrite_two by lia. rewrite app_length. f_equal. lia.
Qed.
Lemma room_le b n m : (m <= n)%nat -> room b n -> room b m.
Proof. unfold room. lia. Qed.

Ltac rm_le := match goal with R : room _ _ |- _ => eapply room_le; [|exact R]; cbn [length]; lia end.

Lemma put_ok tr i b c : room b 1 -> to_int tr c <> eof -> put tr (Ostr i b) c = Ok (Ostr i (after b [c])).
Proof.
  intros R E. unfold put; cbn [osbuf ost]. unfold room in R. rewrite sputc_ok by lia. cbn [bind].
  destruct (Z.eqb_spec (to_int tr c) eof); [contradiction|]. reflexivity.
Qed.

Lemma put_times_ok tr i c n : to_int tr c <> eof -> forall b, room b n ->
  put_times tr c n (Ostr i b) = Ok (Ostr i (after b (repeat c n))).
Proof.
  intros E. induction n as [|n IH]; intros b R; cbn [put_times repeat].
  - now rewrite after_nil.
  - rewrite put_ok by (first [assumption | rm_le]). cbn [bind].
    rewrite IH by (apply after_room; cbn [length]; exact R).
    rewrite after_app by (cbn [length]; rewrite repeat_length; exact R). reflexivity.
Qed.

Lemma write_ok i b text : room b (length text) -> write (Ostr i b) text = Ok (Ostr i (after b text)).
Proof.
  intros R. unfold write; cbn [osbuf ost]. rewrite sputn_ok by exact R. cbn [bind]. rewrite Z.eqb_refl. reflexivity.
Qed.

Lemma to_int_pos tr c : 0 <= c <= 127 -> to_int tr c <> eof.
Proof. intros H. destruct tr; cbn [to_int]; unfold eof; [rewrite Z.mod_small; lia|lia]. Qed.

Lemma pad_conv w n : 0 <= w < 16 -> 0 <= n < 2147483648 -> Z.to_nat (s32 (u32 (w - n))) = (Z.to_nat w - Z.to_nat n)%nat.
Proof.
  intros Hw Hn. replace (s32 (u32 (w - n))) with (w - n); [lia|].
  unfold s32, u32, wraps, wrapu. change (2 ^ (32 - 1)) with 2147483648. change (2 ^ 32) with 4294967296.
  rewrite Z.add_mod_idemp_l by lia. rewrite Z.mod_small by lia. lia.
Qed.

Lemma fill_width i w : fill true (fst (set_width i w)) = fill true i.
Proof. reflexivity. Qed.

Lemma land_bits x y m : Z.land x y = m -> forall k, Z.testbit m k = Z.testbit x k && Z.testbit y k.
Proof. intros <- k. apply Z.land_spec. Qed.
Lemma adjusted_flags i a : adjusted i a ->
  nonzero (Z.land (flags i) f_right) = (match a with PadBefore => true | PadAfter => false end) /\
  nonzero (Z.land (flags i) f_left) = (match a with PadBefore => false | PadAfter => true end).
Proof.
  intros H. unfold adjusted in H. change f_right with (2 ^ 4) at 1. change f_left with (2 ^ 3) at 1.
  rewrite !one_bit by lia.
  pose proof (land_bits _ _ _ H) as B.
  pose proof (B 4) as B4. pose proof (B 3) as B3.
  destruct a; cbn in B4, B3; rewrite andb_true_r in B4, B3; auto.
Qed.

Lemma wfb_ok tr i b text a : 0 <= width i < 16 -> Z.of_nat (length text) < 2147483648 ->
  0 <= fill true i <= 127 -> adjusted i a ->
  room b (Nat.max (Z.to_nat (width i)) (length text)) ->
  write_filled_buffer tr (Ostr i b) text
  = Ok (Ostr (fst (set_width i 0)) (after b (padded a (Z.to_nat (width i)) (fill true i) text))).
Proof.
  intros Hw Hl Hf Ha R. unfold write_filled_buffer, o_state, flag, fill_n, fill_n_c; cbn [ost osbuf].
  rewrite pad_conv, Nat2Z.id by lia.
  destruct (adjusted_flags i a Ha) as [FR FL].
  change (flags (fst (set_width i 0))) with (flags i). rewrite FR.
  rewrite fill_width.
  set (w := Z.to_nat (width i)) in *. set (c := fill true i) in *.
  assert (E : to_int tr c <> eof) by (apply to_int_pos; exact Hf).
  destruct a; cbn [bind padded].
  - rewrite put_times_ok by (first [assumption | rm_le]). cbn [bind].
    rewrite write_ok by (apply after_room; rewrite repeat_length; rm_le). cbn [bind ost].
    change (flags (fst (set_width i 0))) with (flags i). rewrite FL.
    rewrite after_app by (rewrite repeat_length; rm_le). reflexivity.
  - rewrite write_ok by (rm_le). cbn [bind ost].
    change (flags (fst (set_width i 0))) with (flags i). rewrite FL, fill_width.
    fold c. rewrite put_times_ok by (first [assumption | apply after_room; rm_le]).
    rewrite after_app by (rewrite repeat_length; rm_le). reflexivity.
Qed.

Lemma upper_flag i : nonzero (Z.land (flags i) f_uppercase) = upper i.
Proof. change f_uppercase with (2 ^ 2). apply one_bit. lia. Qed.
Lemma flag_base_get i base : flag_base i base -> get_base (Z.land (flags i) f_basefield) = base.
Proof. intros [[-> ->]|[[-> ->]|[-> ->]]]; reflexivity. Qed.
Lemma flag_base_range i base : flag_base i base -> 2 <= base <= 36.
Proof. intros [[-> _]|[[-> _]|[-> _]]]; lia. Qed.

Lemma numeral_length_ok t base up v s : std_ity t -> In base [8; 10; 16] -> in_range t v -> not_min t v ->
  representable t base v -> is_numeral up base v s -> (opt_need v s <= int_length 8 t + 1)%nat.
Proof.
  intros Ht Hb Hr Hm Hrep Hs.
  destruct (numeral_parts _ _ _ _ Hs) as (ds & C & V & E).
  assert (L : (length ds <= uint_strlen 8 (bits t))%nat).
  { assert (AV : Z.abs v < 2 ^ bits t /\ (sgn t = true -> Z.abs v < 2 ^ (bits t - 1))).
    { unfold not_min, in_range in *. unfold imin, imax in *. unfold std_ity in Ht.
      assert (2 ^ bits t = 2 * 2 ^ (bits t - 1)) by (apply pow_half; lia).
      pose proof (Z.pow_pos_nonneg 2 (bits t - 1) ltac:(lia) ltac:(lia)).
      destruct (sgn t); [specialize (Hm eq_refl)|]; (split; [|intros; try discriminate]); lia. }
    destruct AV as [AV AS]. unfold representable in Hrep. unfold std_ity in Ht.
    cbn in Hb.
    assert (K : forall k, (1 <= k)%nat -> value_of base ds < base ^ Z.of_nat k -> (length ds <= k)%nat)
      by (intros k Hk HV; apply (canonical_length base); auto; lia).
    assert (NN : 0 <= v -> Z.abs v = v) by lia.
    unfold in_range, imin, imax in Hr.
    destruct Hb as [<-|[<-|[<-|[]]]]; destruct Ht as [W|[W|[W|W]]]; rewrite W in *;
      (apply K; [vm_compute; lia|]); rewrite V; clear K V C E; destruct (sgn t); try specialize (AS eq_refl);
      try specialize (Hrep eq_refl eq_refl (or_introl eq_refl)); try specialize (Hrep eq_refl eq_refl (or_intror eq_refl));
      match goal with |- _ < ?b ^ Z.of_nat ?n => let m := eval vm_compute in (b ^ Z.of_nat n) in change (b ^ Z.of_nat n) with m end;
      cbn in AV, Hr |- *; try (cbn in AS); try (cbn in Hrep); lia. }
  assert (Ls : length s = ((if (v <? 0)%Z then 1 else 0) + length ds)%nat).
  { rewrite E, app_length, map_length. destruct (v <? 0); reflexivity. }
  unfold opt_need, int_length. rewrite Ls.
  destruct (Z.ltb_spec v 0) as [Hn|Hn]; cbn [Nat.add]; [|destruct (sgn t); lia].
  assert (sgn t = true). { unfold in_range, imin in Hr. destruct (sgn t); [reflexivity|lia]. }
  rewrite H. lia.
Qed.

Lemma put_to_chars_ok i t base junk v s : std_ity t -> in_range t v -> not_min t v -> flag_base i base ->
  representable t base v -> length junk = (int_length 8 t + 1)%nat -> is_numeral (upper i) base v s ->
  exists p b, put_to_chars i t junk v = Ok (TcR p NoErr b) /\ skipn p b = s.
Proof.
  intros Ht Hr Hm Hb Hrep HJ Hs. unfold put_to_chars. rewrite (flag_base_get i base Hb), upper_flag.
  assert (Hw : 1 <= bits t) by (unfold std_ity in Ht; lia).
  assert (Hin : In base [8; 10; 16]) by (destruct Hb as [[-> _]|[[-> _]|[-> _]]]; cbn; auto).
  pose proof (numeral_length_ok t base (upper i) v s Ht Hin Hr Hm Hrep Hs) as NL.
  destruct (to_chars_opt_at_end t base (upper i) junk v s) as [L _]; auto; try lia.
  { eapply flag_base_range; eauto. }
  rewrite L by lia. do 2 eexists. split; [reflexivity|].
  assert ((length s <= length junk)%nat) by (unfold opt_need in NL; destruct (v <? 0); lia).
  rewrite skipn_app, skipn_all2 by (rewrite firstn_length; lia).
  rewrite firstn_length, Nat.min_l by lia. rewrite Nat.sub_diag. reflexivity.
Qed.

Lemma numeral_short t base up v s : std_ity t -> In base [8; 10; 16] -> in_range t v -> not_min t v ->
  representable t base v -> is_numeral up base v s -> (length s <= 24)%nat.
Proof.
  intros Ht Hb Hr Hm Hrep Hs. pose proof (numeral_length_ok _ _ _ _ _ Ht Hb Hr Hm Hrep Hs) as NL.
  assert (int_length 8 t + 1 <= 24)%nat.
  { unfold int_length. unfold std_ity in Ht. destruct Ht as [->|[->|[->| ->]]]; destruct (sgn t); vm_compute; lia. }
  unfold opt_need in NL. destruct (v <? 0); lia.
Qed.

Lemma insert_int_ok tr i b t base a junk v s : std_ity t -> in_range t v -> not_min t v -> flag_base i base ->
  representable t base v -> length junk = (int_length 8 t + 1)%nat -> is_numeral (upper i) base v s ->
  0 <= width i < 16 -> 0 <= fill true i <= 127 -> adjusted i a ->
  room b (Nat.max (Z.to_nat (width i)) (length s)) ->
  insert_int tr (Ostr i b) t junk v
  = Ok (Ostr (fst (set_width i 0)) (after b (padded a (Z.to_nat (width i)) (fill true i) s))).
Proof.
  intros Ht Hr Hm Hb Hrep HJ Hs Hw Hf Ha R. unfold insert_int; cbn [ost].
  destruct (put_to_chars_ok i t base junk v s Ht Hr Hm Hb Hrep HJ Hs) as (p & bb & -> & E). cbn [bind tec tptr tbuf].
  rewrite E. apply wfb_ok; auto.
  assert (Hin : In base [8; 10; 16]) by (destruct Hb as [[-> _]|[[-> _]|[-> _]]]; cbn; auto).
  pose proof (numeral_short t base _ v s Ht Hin Hr Hm Hrep Hs). lia.
Qed.

Lemma padded_length a w c text : length (padded a w c text) = Nat.max w (length text).
Proof. destruct a; cbn [padded]; rewrite app_length, repeat_length; lia. Qed.

(* octal numerals of the upper half of uint16 and uint64 *)
Lemma insert_octal_bad tr i b t junk v : sgn t = false -> bits t = 16 \/ bits t = 64 ->
  2 ^ (bits t - 1) <= v < 2 ^ bits t -> Z.land (flags i) f_basefield = f_oct ->
  length junk = (int_length 8 t + 1)%nat ->
  insert_int tr (Ostr i b) t junk v = Ok (Ostr (setstate i badbit) b).
Proof.
  intros Hs Hb Hv Ho HJ.
  assert (Ht : std_ity t) by (unfold std_ity; lia).
  assert (Hw : 1 <= bits t) by lia.
  assert (Hr : in_range t v).
  { unfold in_range, imin, imax. rewrite Hs. pose proof (Z.pow_pos_nonneg 2 (bits t - 1) ltac:(lia) ltac:(lia)). lia. }
  assert (Hm : not_min t v).
  { unfold not_min. rewrite Hs. try (intros; discriminate); auto. }
  destruct (numeral_exists (upper i) 8 v ltac:(lia)) as [s Hn].
  unfold insert_int, put_to_chars; cbn [ost]. rewrite Ho, upper_flag. change (get_base f_oct) with 8.
  destruct (to_chars_opt_at_end t 8 (upper i) junk v s) as [_ L]; auto; try lia.
  destruct L as (buf' & -> & _); [|reflexivity].
  rewrite HJ.
  destruct (numeral_parts _ _ _ _ Hn) as (ds & C & V & E).
  assert (NP : 0 <= v) by (pose proof (Z.pow_pos_nonneg 2 (bits t - 1) ltac:(lia) ltac:(lia)); lia).
  assert (L : (uint_strlen 8 (bits t) < length ds)%nat).
  { destruct (Nat.le_gt_cases (length ds) (uint_strlen 8 (bits t))) as [H|H]; [exfalso|exact H].
    assert (U : value_of 8 ds < 8 ^ Z.of_nat (length ds)).
    { destruct C as (_ & F & _). clear - F. induction ds as [|d ds IH] using rev_ind; [cbn; lia|].
      rewrite value_of_snoc. apply Forall_app in F as [F1 F2]. inversion F2; subst.
      rewrite app_length; cbn [length]. rewrite Nat2Z.inj_add, Z.pow_add_r by lia. change (8 ^ Z.of_nat 1) with 8.
      specialize (IH F1). lia. }
    assert (8 ^ Z.of_nat (length ds) <= 8 ^ Z.of_nat (uint_strlen 8 (bits t))) by (apply Z.pow_le_mono_r; lia).
    rewrite V in U. clear - Hb Hv H0 U NP.
    destruct Hb as [B|B]; rewrite B in *; cbn in Hv;
    match type of H0 with _ <= 8 ^ Z.of_nat ?n => let m := eval vm_compute in (8 ^ Z.of_nat n) in change (8 ^ Z.of_nat n) with m in H0 end; lia. }
  unfold opt_need, int_length. rewrite Hs, E. destruct (Z.ltb_spec v 0); [lia|].
  cbn [sign_of app]. rewrite map_length. lia.
Qed.

(* ---- characters ---- *)

Lemma insert_char_ok tr i b ch : 0 <= width i < 16 -> 0 <= fill true i <= 127 -> is_char ch -> to_int tr ch <> eof ->
  room b (Nat.max (Z.to_nat (width i)) 1) ->
  insert_char tr (Ostr i b) ch
  = Ok (Ostr (fst (set_width i 0)) (after b (padded PadBefore (Z.to_nat (width i)) (fill true i) [ch]))).
Proof.
  intros Hw Hf Hc E R. unfold insert_char, fill_n, fill_n_c; cbn [ost].
  rewrite put_times_ok by (first [apply to_int_pos; exact Hf | rm_le]). cbn [bind]. unfold o_state; cbn [ost osbuf].
  rewrite put_ok; auto.
  - rewrite after_app by (cbn [length]; rewrite repeat_length; rm_le).
    cbn [padded length]. replace (Z.to_nat (width i - 1)) with (Z.to_nat (width i) - 1)%nat by lia. reflexivity.
  - apply after_room. rewrite repeat_length. rm_le.
Qed.

Lemma insert_str_ok i b text : room b (length text) ->
  insert_str (Ostr i b) text = Ok (Ostr i (after b text)).
Proof. apply write_ok. Qed.

(* full span: a refused character sets eofbit and changes nothing else *)
Lemma put_full tr i b c : (length (obuf b) <= opos b)%nat ->
  put tr (Ostr i b) c = Ok (Ostr (setstate i eofbit) b).
Proof. intros H. unfold put; cbn [osbuf ost]. rewrite sputc_full by exact H. reflexivity. Qed.

Lemma put_minus_one i b : room b 1 -> put EstdTraits (Ostr i b) (-1) = Ok (Ostr (setstate i eofbit) (after b [-1])).
Proof. intros R. unfold put; cbn [osbuf ost]. unfold room in R. rewrite sputc_ok by lia. reflexivity. Qed.

Lemma put_spec tr i b c : to_int tr c <> eof -> put tr (Ostr i b) c =
  Ok (if (opos b <? length (obuf b))%nat then Ostr i (after b [c]) else Ostr (setstate i eofbit) b).
Proof.
  intros E. destruct (Nat.ltb_spec (opos b) (length (obuf b))).
  - apply put_ok; [unfold room; lia|exact E].
  - apply put_full. assumption.
Qed.

(* ---- num_put ---- *)

Lemma put_integer_ok i t base a fillc junk v s : std_ity t -> in_range t v -> not_min t v -> flag_base i base ->
  representable t base v -> length junk = (int_length 8 t + 1)%nat -> is_numeral (upper i) base v s ->
  0 <= width i -> adjusted i a ->
  put_integer i t fillc junk v = Ok (padded a (Z.to_nat (width i)) fillc s).
Proof.
  intros Ht Hr Hm Hb Hrep HJ Hs Hw Ha. unfold put_integer.
  destruct (put_to_chars_ok i t base junk v s Ht Hr Hm Hb Hrep HJ Hs) as (p & bb & -> & E). cbn [bind tec tptr tbuf].
  rewrite E. unfold adjusted in Ha. rewrite Ha. f_equal.
  destruct (Z.ltb_spec (Z.of_nat (length s)) (width i)).
  - replace (Z.to_nat (width i - Z.of_nat (length s))) with (Z.to_nat (width i) - length s)%nat by lia.
    destruct a; reflexivity.
  - unfold padded. replace (Z.to_nat (width i) - length s)%nat with O by lia. cbn [repeat].
    destruct a; [reflexivity|now rewrite app_nil_r].
Qed.

Lemma put_integer_none i t base fillc junk v s : std_ity t -> in_range t v -> not_min t v -> flag_base i base ->
  representable t base v -> length junk = (int_length 8 t + 1)%nat -> is_numeral (upper i) base v s ->
  Z.of_nat (length s) < width i -> Z.land (flags i) f_adjustfield = 0 ->
  put_integer i t fillc junk v = Ok [].
Proof.
  intros Ht Hr Hm Hb Hrep HJ Hs Hw Ha. unfold put_integer.
  destruct (put_to_chars_ok i t base junk v s Ht Hr Hm Hb Hrep HJ Hs) as (p & bb & -> & E). cbn [bind tec tptr tbuf].
  rewrite E, Ha. destruct (Z.ltb_spec (Z.of_nat (length s)) (width i)); [reflexivity|lia].
Qed.

Lemma insert_setw_width s n : 0 <= n -> width (ost (insert_setw s n)) = n mod 16.
Proof. reflexivity. Qed.

Lemma fill_range_any s c : 0 <= fill true (fst (set_fill true s c)) <= 127.
Proof.
  unfold fill, set_fill, char_of; cbn [fst ifill].
  assert (-32 <= wraps 6 (32 + c) <= 31).
  { unfold wraps. change (2 ^ (6 - 1)) with 32. change (2 ^ 6) with 64.
    pose proof (Z.mod_pos_bound (32 + c + 32) 64 ltac:(lia)). lia. }
  unfold wraps at 1. change (2 ^ (8 - 1)) with 128. change (2 ^ 8) with 256.
  unfold wraps at 2. change (2 ^ (8 - 1)) with 128. change (2 ^ 8) with 256.
  rewrite Z.mod_small; lia.
Qed.

Lemma fill_init_range : 0 <= fill true ios_init <= 127.
Proof. vm_compute. split; discriminate. Qed.

Lemma after_inj b x y : room b (length x) -> length x = length y -> after b x = after b y -> x = y.
Proof.
  unfold room, after. intros R L H. injection H as H _.
  assert (firstn (length x) (skipn (opos b) (overwrite (obuf b) (opos b) x))
          = firstn (length x) (skipn (opos b) (overwrite (obuf b) (opos b) y))) as E by now rewrite H.
  unfold overwrite in E. rewrite !skipn_app, !(skipn_all2 (firstn _ _)), firstn_length in E by (rewrite firstn_length; lia).
  replace (opos b - Nat.min (opos b) (length (obuf b)))%nat with O in E by lia. cbn [skipn app] in E.
  rewrite firstn_app, Nat.sub_diag, firstn_all in E. cbn [firstn] in E. rewrite app_nil_r in E.
  rewrite L in E. rewrite firstn_app, Nat.sub_diag, firstn_all in E. cbn [firstn] in E. now rewrite app_nil_r in E.
Qed.

Lemma char_left_wrong tr i b ch : 1 < width i < 16 -> 0 <= fill true i <= 127 ->
  is_char ch -> to_int tr ch <> eof -> ch <> fill true i ->
  adjusted i PadAfter -> room b (Z.to_nat (width i)) ->
  exists s', insert_char tr (Ostr i b) ch = Ok s' /\
    osbuf s' <> after b (padded PadAfter (Z.to_nat (width i)) (fill true i) [ch]).
Proof.
  intros Hw Hf Hc E Hne _ R. eexists. split.
  - apply insert_char_ok; auto; [lia|]. rewrite Nat.max_l by lia. exact R.
  - cbn [osbuf]. intros H. apply after_inj in H.
    + cbn [padded length] in H. destruct (Z.to_nat (width i) - 1)%nat eqn:En; [lia|].
      cbn [repeat app] in H. congruence.
    + rewrite padded_length. cbn [length]. rewrite Nat.max_l by lia. exact R.
    + now rewrite !padded_length.
Qed.
