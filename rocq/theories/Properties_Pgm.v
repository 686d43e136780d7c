(* Strings and arrays in program memory (AVR). *)
From Coq Require Import List ZArith Bool Lia.
From Verif Require Import Base MachInt Ios_Model Streambuf_Model Stream_Spec Ostream_Model Ostream_Spec
  Pgm_Spec Pgm_Model Pgm_View Pgm_Proofs.
Import ListNotations.
Local Open Scope Z_scope.

Lemma byte_dec (t : list Z) : forallb (fun b => (0 <=? b) && (b <? 256)) t = true -> Forall is_byte t.
Proof.
  intros H. apply Forall_forall. intros b Hb. rewrite forallb_forall in H. specialize (H b Hb).
  unfold is_byte. lia.
Qed.
Lemma nonul_dec (t : list Z) : forallb (fun b => negb (b =? 0)) t = true -> ~ In 0 t.
Proof. intros H C. rewrite forallb_forall in H. specialize (H 0 C). discriminate. Qed.

(* ---------- C351: a string in program memory reads as its text ---------- *)

(* size, indexing, first and last character, and a loop over it *)
Theorem C351_reads_as_its_text : forall m s t, text_in m s t ->
  size m s = Ok (length t) /\
  elements m s = Ok (map as_char t) /\
  (forall i b, nth_error t i = Some b -> at_ m s i = Ok (as_char b)) /\
  (forall b r, t = b :: r -> front m s = Ok (as_char b)) /\
  (forall b r, t = r ++ [b] -> back m s = Ok (as_char b)).
Proof.
  intros m s t H. pose proof (text_describes m s t H) as D. pose proof D as (_ & _ & _ & Sz & _).
  rewrite map_length in Sz. split; [exact Sz|]. split; [now apply elements_ok|]. split; [|split].
  - intros i b E. apply (at_ok m s (map as_char t)); auto. now apply map_nth_error.
  - intros b r ->. unfold front. apply (at_ok m s (map as_char (b :: r))); auto.
  - intros b r ->. rewrite map_app in D. cbn [map] in D. now apply (back_ok m s (map as_char r)).
Qed.
Print Assumptions C351_reads_as_its_text.

(* copying it to other memory, and appending it to a string there *)
Theorem C351_copied_and_appended : forall m s t, text_in m s t ->
  (forall dest count, (Nat.min count (length t) <= length dest)%nat ->
     copy m s dest count 0 = Ok (firstn count t ++ skipn (Nat.min count (length t)) dest, Nat.min count (length t))) /\
  (forall buf cur, (cur + length t <= length buf)%nat ->
     append m s buf cur = Ok (firstn cur buf ++ t ++ skipn (cur + length t) buf, (cur + length t)%nat)).
Proof. intros m s t H. split; intros; [now apply copy_text|now apply append_text]. Qed.
Print Assumptions C351_copied_and_appended.

(* comparing it: the sign orders the texts, zero and == mean the same text *)
Theorem C351_compared : forall m s t, text_in m s t -> ~ In 0 t ->
  (forall u behind, compare m s (u ++ behind) (length u) = Ok (order t u)) /\
  (forall u behind, ~ In 0 u -> compare_c m s (u ++ 0 :: behind) = Ok (order t u) /\
     exists b, equal_c m s (u ++ 0 :: behind) = Ok b /\ (b = true <-> t = u)).
Proof. intros m s t H N. split; intros; [now apply compare_ok|now apply compare_c_ok]. Qed.
Print Assumptions C351_compared.

Theorem C351_order_means : forall t u,
  (order t u = 0 <-> t = u) /\
  ((length t < length u)%nat -> order t u < 0) /\ ((length u < length t)%nat -> order t u > 0) /\
  (forall pre x y r1 r2, x <> y -> length r1 = length r2 -> order (pre ++ x :: r1) (pre ++ y :: r2) = x - y).
Proof.
  intros t u. split; [apply order_zero|]. unfold order. repeat split.
  - intros H. destruct (Nat.ltb_spec (length t) (length u)); lia.
  - intros H. destruct (Nat.ltb_spec (length t) (length u)); [lia|]. destruct (Nat.ltb_spec (length u) (length t)); lia.
  - intros pre x y r1 r2 N L.
    replace (length (pre ++ x :: r1)) with (length (pre ++ y :: r2)) by (rewrite !app_length; cbn [length]; lia).
    rewrite Nat.ltb_irrefl. now apply first_difference_at.
Qed.
Print Assumptions C351_order_means.

(* writing it to a stream that has room for it *)
Theorem C351_written : forall tr m i b s t, text_in m s t ->
  Forall (fun c => to_int tr c <> eof) (map as_char t) ->
  0 <= width i <= 1 -> 0 <= fill true i <= 127 -> room b (length t) ->
  exists i', insert_pgm tr m (Ostr i b) s = Ok (Ostr i' (after b (map as_char t))) /\
    rdstate i' = rdstate i /\ flags i' = flags i /\ fill true i' = fill true i.
Proof.
  intros tr m i b s t H N W F R. destruct t as [|c t].
  - exists i. rewrite (insert_pgm_nil tr m (Ostr i b) s H). cbn [map].
    rewrite Ostream_Proofs.after_nil by exact R. repeat split.
  - eexists. rewrite (insert_pgm_ok tr m i b s c t H N); [|lia|exact F|].
    + replace (Z.to_nat (width i) - 1)%nat with 0%nat by lia. cbn [repeat app]. repeat split.
    + cbn [length] in R. replace (Nat.max (Z.to_nat (width i)) 1) with 1%nat by lia. exact R.
Qed.
Print Assumptions C351_written.

Example C351_case :
  let m := [9; 72; 105; 200; 0; 7] in
  let s := Pgm 1 None true 1 in
  text_in m s [72; 105; 200] /\ elements m s = Ok [72; 105; -56] /\
  append m s [1; 2; 3; 4; 5] 1 = Ok ([1; 72; 105; 200; 5], 4%nat) /\
  equal_c m s [72; 105; 200; 0] = Ok true /\ compare_c m s [72; 106; 200; 0] = Ok (-1) /\
  text_in m (Pgm 3 (Some 3%nat) true 1) [200; 0; 7] /\ elements m (Pgm 3 (Some 3%nat) true 1) = Ok [-56; 0; 7].
Proof.
  cbn zeta. repeat split; try reflexivity.
  - now apply byte_dec.
  - cbn. exists [9], [7]. auto.
  - now apply nonul_dec.
  - cbn. lia.
  - now apply byte_dec.
  - cbn. exists [9; 72; 105], []. auto.
  - apply Nat.ltb_lt. reflexivity.
Qed.

(* ---------- C352: strings of more than 256 characters ---------- *)

(* every null-terminated string longer than that is cut at 256 characters, and is
   not equal to its own text *)
Theorem C352_cut_refuted : forall m a t, lies_at m a (t ++ [0]) -> Forall is_byte t -> ~ In 0 t -> (256 < length t)%nat ->
  let s := Pgm a None true 1 in
  size m s = Ok 256%nat /\ elements m s = Ok (map as_char (firstn 256 t)) /\
  (forall behind, equal_c m s (t ++ 0 :: behind) = Ok false) /\
  (forall dest count, (256 <= count)%nat -> (256 <= length dest)%nat ->
     copy m s dest count 0 = Ok (firstn 256 t ++ skipn 256 dest, 256%nat)).
Proof.
  intros m a t L B N Hl s. pose proof (long_describes m s t L B N Hl eq_refl eq_refl eq_refl) as D.
  pose proof D as (_ & _ & _ & Sz & _).
  assert (Ll : length (map as_char (firstn 256 t)) = 256%nat) by (rewrite map_length, firstn_length; lia).
  rewrite Ll in Sz. split; [exact Sz|]. split; [now apply elements_ok|]. split.
  - intros r. now apply long_not_equal.
  - intros dest count Hc Hd. rewrite (copy_front m s _ dest count D); rewrite Ll; cbn [esz s]; rewrite Nat.min_r by lia; [|lia].
    rewrite Nat.mul_1_r. rewrite (firstn_all2 (map as_char (firstn 256 t))) by lia.
    rewrite as_char_bytes; [reflexivity|]. rewrite <- (firstn_skipn 256 t), Forall_app in B. tauto.
Qed.
Print Assumptions C352_cut_refuted.

Example C352_case : let t := repeat 65 257 in
  lies_at (t ++ [0]) 0 (t ++ [0]) /\ ~ In 0 t /\ (256 < length t)%nat /\ Forall is_byte t.
Proof.
  cbn zeta. split; [exists [], []; rewrite app_nil_r; auto|]. split; [now apply nonul_dec|].
  split; [apply Nat.ltb_lt; reflexivity|now apply byte_dec].
Qed.

(* ---------- C353: copying from the middle ---------- *)

(* With a starting position the copy does not stop at the end of the string: it
   goes on with what lies behind it in program memory, and returns as many
   characters as the whole string has; room for the rest of the string is not
   enough. *)
Theorem C353_copy_past_the_end_refuted : forall m s t behind count pos, text_in m s t -> lies_at m (addr s) (t ++ behind) ->
  (0 < pos <= length t)%nat -> (pos <= length behind)%nat -> (length t <= count)%nat ->
  (forall dest, (length t <= length dest)%nat ->
     copy m s dest count pos = Ok ((skipn pos t ++ firstn pos behind) ++ skipn (length t) dest, length t)) /\
  (forall dest, length dest = (length t - pos)%nat -> copy m s dest count pos = UB).
Proof.
  intros m s t nx count pos H L Hp Hn Hc.
  assert (Ll : length (skipn pos t ++ firstn pos nx) = length t) by (rewrite app_length, skipn_length, firstn_length; lia).
  split; intros dest Hd; rewrite (copy_beyond m s t nx dest count pos) by assumption; unfold store; rewrite Ll;
    destruct (Nat.leb_spec (length t) (length dest)); try lia; reflexivity.
Qed.
Print Assumptions C353_copy_past_the_end_refuted.

Example C353_case : let m := [72; 101; 108; 108; 111; 0; 88; 89] in
  let s := Pgm 0 None true 1 in
  text_in m s [72; 101; 108; 108; 111] /\ lies_at m 0 ([72; 101; 108; 108; 111] ++ [0; 88; 89]) /\
  copy m s [1; 2; 3; 4; 5; 6] 10 2 = Ok ([108; 108; 111; 0; 88; 6], 5%nat) /\ copy m s [1; 2; 3] 5 2 = UB.
Proof.
  cbn zeta. repeat split; try reflexivity.
  - now apply byte_dec.
  - cbn. exists [], [88; 89]. auto.
  - now apply nonul_dec.
  - cbn. lia.
  - exists [], []. auto.
Qed.

(* ---------- C354: comparing strings with a NUL inside ---------- *)

(* Whatever follows a NUL in two strings of one length does not count: they
   compare equal. *)
Theorem C354_nul_hides_refuted : forall m s pre r1 r2 behind, text_in m s (pre ++ 0 :: r1) -> ~ In 0 pre ->
  length r1 = length r2 ->
  compare m s ((pre ++ 0 :: r2) ++ behind) (length (pre ++ 0 :: r2)) = Ok 0.
Proof. intros. eapply compare_nul; eassumption. Qed.
Print Assumptions C354_nul_hides_refuted.

Example C354_case : text_in [65; 0; 66] (Pgm 0 (Some 3%nat) true 1) ([65] ++ 0 :: [66]) /\
  compare [65; 0; 66] (Pgm 0 (Some 3%nat) true 1) [65; 0; 67] 3 = Ok 0 /\ elements [65; 0; 66] (Pgm 0 (Some 3%nat) true 1) = Ok [65; 0; 66].
Proof.
  repeat split; try reflexivity; [now apply byte_dec| |apply Nat.ltb_lt; reflexivity]. cbn. exists [], []. auto.
Qed.

(* ---------- C355: arrays in program memory ---------- *)

Theorem C355_array_reads_as_written : forall m s vs, array_in m s vs ->
  size m s = Ok (length vs) /\ elements m s = Ok vs /\
  (forall i v, nth_error vs i = Some v -> at_ m s i = Ok v) /\
  (forall v r, vs = v :: r -> front m s = Ok v) /\
  (forall v r, vs = r ++ [v] -> back m s = Ok v) /\
  (forall dest count, (Nat.min count (length vs) * esz s <= length dest)%nat ->
     copy m s dest count 0 = Ok (flat_map (bytes_of (esz s)) (firstn count vs) ++ skipn (Nat.min count (length vs) * esz s) dest,
                                 Nat.min count (length vs))).
Proof.
  intros m s vs H. pose proof (array_describes m s vs H) as D. pose proof D as (_ & _ & _ & Sz & _).
  split; [exact Sz|]. split; [now apply elements_ok|]. split; [|split; [|split]].
  - intros i v E. now apply (at_ok m s vs).
  - intros v r ->. unfold front. now apply (at_ok m s (v :: r)).
  - intros v r ->. now apply (back_ok m s r).
  - intros. now apply copy_front.
Qed.
Print Assumptions C355_array_reads_as_written.

(* test_container: a loop over it, and indexing where an element is one byte *)
Theorem C355_test_container_reads_as_written : forall m t vs, (0 < tsz t)%nat ->
  Forall (in_range (tsigned t) (tsz t)) vs -> tn t = length vs -> lies_at m (taddr t) (flat_map (bytes_of (tsz t)) vs) ->
  t_elements m t = Ok vs /\
  (forall i v, tsz t = 1%nat -> nth_error vs i = Some v -> t_at m t i = Ok v) /\
  (forall v r, vs = v :: r -> t_at m t 0 = Ok v).
Proof.
  intros m t vs S0 F E L. split; [now apply t_elements_ok|]. split.
  - intros i v S1 Hi. apply (t_at_ok m t vs [] v i); rewrite ?app_nil_r; auto. now rewrite S1, Nat.mul_1_r.
  - intros v r ->. apply (t_at_ok m t (v :: r) [] v 0); rewrite ?app_nil_r; auto.
Qed.
Print Assumptions C355_test_container_reads_as_written.

Example C355_case : let m := [9; 1; 2; 255; 255; 0; 128] in
  array_in m (Pgm 1 (Some 3%nat) true 2) [513; -1; -32768] /\ elements m (Pgm 1 (Some 3%nat) true 2) = Ok [513; -1; -32768] /\
  elements m (Pgm 1 (Some 3%nat) false 2) = Ok [513; 65535; 32768] /\ back m (Pgm 1 (Some 3%nat) true 2) = Ok (-32768) /\
  t_elements m (Tcont 1 3 true 2) = Ok [513; -1; -32768] /\ t_at m (Tcont 1 3 true 1) 1 = Ok 2.
Proof.
  cbn zeta. repeat split; try reflexivity.
  - apply Nat.ltb_lt. reflexivity.
  - cbn. lia.
  - repeat constructor; cbn; lia.
  - exists [9], []. auto.
Qed.

(* ---------- C356: indexing a test_container of wider elements ---------- *)

(* [idx] reads the element at idx * sizeof(T), counting into what lies behind
   the container. *)
Theorem C356_wrong_element_refuted : forall m t vs behind w idx, (1 < tsz t)%nat ->
  Forall (in_range (tsigned t) (tsz t)) (vs ++ behind) -> tn t = length vs ->
  lies_at m (taddr t) (flat_map (bytes_of (tsz t)) (vs ++ behind)) ->
  nth_error (vs ++ behind) (idx * tsz t) = Some w -> t_at m t idx = Ok w.
Proof. intros m t vs bh w idx S0 F _ L E. apply (t_at_ok m t vs bh w idx); auto. lia. Qed.
Print Assumptions C356_wrong_element_refuted.

Example C356_case : let m := flat_map (bytes_of 2) ([10; 20; 30] ++ [77; 88]) in
  t_at m (Tcont 0 3 true 2) 1 = Ok 30 /\ t_at m (Tcont 0 3 true 2) 2 = Ok 88 /\ t_elements m (Tcont 0 3 true 2) = Ok [10; 20; 30].
Proof. cbn zeta. repeat split. Qed.

(* ---------- C357: a field width before a string in program memory ---------- *)

(* setw(w) pads the first character to w, not the string *)
Theorem C357_width_pads_one_character_refuted : forall tr m i b s c t, text_in m s (c :: t) ->
  Forall (fun c => to_int tr c <> eof) (map as_char (c :: t)) ->
  1 < width i < 16 -> 0 <= fill true i <= 127 -> room b (Z.to_nat (width i) + length t) ->
  exists i', insert_pgm tr m (Ostr i b) s =
    Ok (Ostr i' (after b (repeat (fill true i) (Z.to_nat (width i) - 1) ++ map as_char (c :: t)))).
Proof.
  intros tr m i b s c t H N W F R. eexists. apply insert_pgm_ok; auto; [lia|].
  now replace (Nat.max (Z.to_nat (width i)) 1) with (Z.to_nat (width i)) by lia.
Qed.
Print Assumptions C357_width_pads_one_character_refuted.

Example C357_case : exists i b,
  text_in [72; 105; 0] (Pgm 0 None true 1) [72; 105] /\ width i = 4 /\ 0 <= fill true i <= 127 /\ room b (4 + 1) /\
  match insert_pgm EstdTraits [72; 105; 0] (Ostr i b) (Pgm 0 None true 1) with
  | Ok o => firstn 5 (obuf (osbuf o)) = [32; 32; 32; 72; 105]
  | _ => False
  end.
Proof.
  exists (fst (set_width ios_init 4)), (Osb (repeat 0 8) 0).
  split; [|split; [reflexivity|split; [|split; [unfold room; cbn; lia|vm_compute; reflexivity]]]].
  - split; [now apply byte_dec|]. split; [reflexivity|]. split; [reflexivity|]. cbn [ext addr].
    split; [exists [], []; auto|]. split; [now apply nonul_dec|]. cbn [length]. lia.
  - vm_compute. split; discriminate.
Qed.
