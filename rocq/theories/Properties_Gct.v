(* gcount (C418-C421).  [Gis (at_str st data k) g]: a stream over the text data that stands
   before its character k in state st, and whose gcount() is g. *)
From Coq Require Import List ZArith Bool Lia.
From Verif Require Import Base MachInt Ios_Model Streambuf_Model Istream_Model Charconv_Model Numio_Model
  Stream_Spec Stream_Proofs Gct_Spec Gct_Model Gct_Proofs.
Import ListNotations.
Local Open Scope Z_scope.
Local Open Scope res_scope.

(* ---- C418: whatever gcount was before *)
Theorem C418_new : forall s, gcount (g_init s) = 0 /\ gstr (g_init s) = s.
Proof. split; reflexivity. Qed.
Print Assumptions C418_new.

Theorem C418_peek : forall tr st data k g, plain tr data -> (k <= length data)%nat -> good st = true ->
  g_peek tr (Gis (at_str st data k) g) = Ok (answer tr (nth_error data k), Gis (at_str st data k) 0).
Proof. intros. unfold g_peek. cbn [gstr]. now rewrite peek_at. Qed.
Print Assumptions C418_peek.

(* also if the stream is not good *)
Theorem C418_peek_not_good : forall tr s g, good (ist s) = false ->
  g_peek tr (Gis s g) = Ok (-1, Gis s 0).
Proof. intros tr s g H. unfold g_peek, peek. cbn [gstr]. now rewrite H. Qed.
Print Assumptions C418_peek_not_good.

Theorem C418_unget : forall tr st data k g, plain tr data -> (k < length data)%nat ->
  g_unget tr (Gis (at_str st data (k + 1)) g) = Ok (Gis (at_str st data k) 0).
Proof.
  intros tr st data k g P Hk. unfold g_unget. cbn [gstr].
  destruct (get_unget tr st data k P Hk) as (c & _ & _ & H). rewrite get_at in H by (try assumption; lia).
  replace (Nat.ltb k (length data)) with true in H by (symmetry; apply Nat.ltb_lt; lia).
  cbn [bind snd] in H. now rewrite H.
Qed.
Print Assumptions C418_unget.

(* read of no more than is left *)
Theorem C418_read : forall tr st data k n g, plain tr data -> (k + n <= length data)%nat ->
  exists xs, g_read (Gis (at_str st data k) g) (Z.of_nat n)
             = Ok (xs, Gis (at_str st data (k + n)) (Z.of_nat (length xs))) /\
    xs = firstn n (skipn k data) /\ length xs = n.
Proof.
  intros tr st data k n g P Hk. exists (firstn n (skipn k data)).
  assert (L : length (firstn n (skipn k data)) = n) by (rewrite taken_length; unfold taken; lia).
  split; [|split; [reflexivity|exact L]]. rewrite (g_read_at tr) by (try assumption; lia). rewrite L.
  replace (Nat.leb n (length data - k)) with true by (symmetry; apply Nat.leb_le; lia).
  now rewrite Nat.min_l by lia.
Qed.
Print Assumptions C418_read.

(* readsome before the end of the text *)
Theorem C418_readsome : forall tr st data k n g, plain tr data ->
  (tr = EstdTraits -> Z.of_nat (length data) < 32768) -> (k < length data)%nat ->
  exists xs, g_readsome tr (Gis (at_str st data k) g) (Z.of_nat n)
             = Ok (xs, Gis (at_str st data (k + length xs)) (Z.of_nat (length xs))) /\
    xs = firstn n (skipn k data).
Proof.
  intros tr st data k n g P He Hk. exists (firstn n (skipn k data)). split; [|reflexivity].
  rewrite g_readsome_at by assumption. rewrite taken_length. unfold taken. do 3 f_equal. f_equal. lia.
Qed.
Print Assumptions C418_readsome.

(* getline of a line that fits *)
Theorem C418_getline : forall tr data delim dst count st k line tail g,
  plain tr data -> no_ff data -> is_char delim -> (k <= length data)%nat ->
  skipn k data = line ++ tail -> ~ In delim line -> (tail = [] \/ exists t, tail = delim :: t) ->
  Z.of_nat (length line) < count -> Z.of_nat (length dst) = count ->
  exists d s', g_getline tr dst count delim (Gis (at_str st data k) g) = Ok (d, s') /\
    firstn (length line + 1) d = line ++ [0] /\ gcount s' = Z.of_nat (length line).
Proof.
  intros. rewrite (g_getline_at tr data delim dst count st k line tail g) by assumption.
  eexists _, _. split; [reflexivity|]. split; [|reflexivity]. rewrite app_assoc.
  replace (length line + 1)%nat with (length (line ++ [0])) by (rewrite app_length; reflexivity).
  rewrite firstn_app, Nat.sub_diag, firstn_all. cbn [firstn]. now rewrite app_nil_r.
Qed.
Print Assumptions C418_getline.

Definition hello : list Z := [104; 105; 32; 97; 10; 98].
Lemma hello_plain tr : plain tr hello.
Proof.
  split; [reflexivity|]. split; [repeat constructor; unfold is_char; lia|]. intros _ H.
  cbn in H. intuition discriminate.
Qed.

Example C418_case :
  plain StdTraits hello /\ no_ff hello /\
  g_getline StdTraits [0; 0; 0; 0; 0; 0] 6 10 (Gis (at_str ios_init hello 0) 77)
  = Ok ([104; 105; 32; 97; 0; 0], Gis (at_str (setstate ios_init failbit) hello 5) 4) /\
  g_readsome StdTraits (Gis (at_str ios_init hello 4) 77) 9 = Ok ([10; 98], Gis (at_str ios_init hello 6) 2) /\
  g_read (Gis (at_str ios_init hello 1) 77) 3 = Ok ([105; 32; 97], Gis (at_str ios_init hello 4) 3).
Proof.
  split; [apply hello_plain|]. split; [intros H; cbn in H; intuition discriminate|].
  repeat split; reflexivity.
Qed.

(* ---- C419 *)
(* get adds one to what gcount was, also at the end of the text, where nothing is taken. *)
Theorem C419_get_refuted : forall tr st data k g, plain tr data -> (k <= length data)%nat -> g < max_count ->
  exists c s', g_get tr (Gis (at_str st data k) g) = Ok (c, s') /\ gcount s' = g + 1.
Proof. intros. rewrite g_get_at by assumption. eexists _, _. split; reflexivity. Qed.
Print Assumptions C419_get_refuted.

(* n times get on a new stream: gcount is n, while it fits in an int. *)
Theorem C419_gets_refuted : forall tr st data n, plain tr data -> Z.of_nat n <= max_count ->
  exists s', g_gets tr n (g_init (at_str st data 0)) = Ok s' /\ gcount s' = Z.of_nat n.
Proof.
  intros tr st data n P H. pose proof (g_gets_at tr data n P st 0%nat 0 ltac:(lia)) as G.
  rewrite Z.add_0_l in G. apply Z.leb_le in H. rewrite H in G. destruct G as (st' & k' & _ & G).
  unfold g_init. rewrite G. eexists. split; reflexivity.
Qed.
Print Assumptions C419_gets_refuted.

(* One more is undefined: the counter overflows. *)
Theorem C419_overflow_refuted : forall tr st data n, plain tr data -> max_count < Z.of_nat n ->
  g_gets tr n (g_init (at_str st data 0)) = UB.
Proof.
  intros tr st data n P H. pose proof (g_gets_at tr data n P st 0%nat 0 ltac:(lia)) as G.
  rewrite Z.add_0_l in G. destruct (Z.leb_spec (Z.of_nat n) max_count); [lia|].
  apply G. rewrite max_count_val. lia.
Qed.
Print Assumptions C419_overflow_refuted.

Example C419_case :
  (' p <- g_get StdTraits (g_init (at_str ios_init hello 6)) ;; Ok (fst p, gcount (snd p))) = Ok (-1, 1) /\
  (s <- g_gets StdTraits 3 (g_init (at_str ios_init hello 0)) ;; Ok (gcount s)) = Ok 3 /\
  max_count < Z.of_nat (Z.to_nat (max_count + 1)).
Proof. split; [reflexivity|]. split; [reflexivity|]. rewrite Z2Nat.id by (rewrite max_count_val; lia). lia. Qed.

(* ---- C420 *)
(* ignore(n) that passes n characters adds 2n, and at the end of the text one more than twice
   the characters passed. *)
Theorem C420_ignore_refuted : forall tr st data k n g, plain tr data -> 0 <= iost st < 16 -> (k <= length data)%nat ->
  g + 2 * Z.of_nat (taken data k n) + 1 <= max_count ->
  exists s', g_ignore tr n (Gis (at_str st data k) g) = Ok s' /\
    gcount s' = g + 2 * Z.of_nat (taken data k n) + (if Nat.leb n (length data - k) then 0 else 1).
Proof.
  intros tr st data k n g P Hst Hk Hg. rewrite g_ignore_at by assumption. eexists. split; [reflexivity|].
  unfold taken. destruct (Nat.leb_spec n (length data - k)); cbn [gcount].
  - rewrite Nat.min_l by assumption. lia.
  - rewrite Nat.min_r by lia. lia.
Qed.
Print Assumptions C420_ignore_refuted.

(* ignore up to a delimiter, which is passed too: the |a|+1 characters passed add 2|a|+1. *)
Theorem C420_ignore_until_refuted : forall tr st data k n g delim a c b, plain tr data -> delim <> -1 ->
  0 <= iost st < 16 -> (k <= length data)%nat ->
  skipn k data = a ++ c :: b -> code tr c = delim -> (forall x, In x a -> code tr x <> delim) -> (length a < n)%nat ->
  g + 2 * Z.of_nat (length a) + 1 <= max_count ->
  g_ignore_until tr delim n (Gis (at_str st data k) g)
  = Ok (Gis (at_str st data (k + (length a + 1))) (g + 2 * Z.of_nat (length a) + 1)).
Proof.
  intros. rewrite (g_ignore_until_at tr data delim n) with (a := a) (c := c) (b := b) by assumption.
  now rewrite Nat.add_assoc.
Qed.
Print Assumptions C420_ignore_until_refuted.

(* A read of more than is left: gcount is what was asked for, not what was read. *)
Theorem C420_read_refuted : forall tr st data k n g, plain tr data -> (k <= length data)%nat ->
  (length data < k + n)%nat ->
  exists xs s', g_read (Gis (at_str st data k) g) (Z.of_nat n) = Ok (xs, s') /\
    gcount s' = Z.of_nat n /\ Z.of_nat (length xs) < gcount s'.
Proof.
  intros tr st data k n g P Hk Hn. rewrite (g_read_at tr) by assumption. eexists _, _. split; [reflexivity|].
  split; [reflexivity|]. cbn [gcount]. rewrite taken_length. unfold taken. lia.
Qed.
Print Assumptions C420_read_refuted.

(* getline does not count the delimiter it takes. *)
Theorem C420_getline_refuted : forall tr data delim dst count st k line t g,
  plain tr data -> no_ff data -> is_char delim -> (k <= length data)%nat ->
  skipn k data = line ++ delim :: t -> ~ In delim line ->
  Z.of_nat (length line) < count -> Z.of_nat (length dst) = count ->
  exists d s', g_getline tr dst count delim (Gis (at_str st data k) g) = Ok (d, s') /\
    isbuf (gstr s') = at_pos data (k + (length line + 1)) /\ gcount s' = Z.of_nat (length line).
Proof.
  intros tr data delim dst count st k line t g P Hf Hd Hk Hs Hn Hc Hl.
  rewrite (g_getline_at tr data delim dst count st k line (delim :: t) g); try assumption.
  - eexists _, _. split; [reflexivity|]. cbn [gstr gcount isbuf at_str]. rewrite Nat.add_assoc. split; reflexivity.
  - right. now exists t.
Qed.
Print Assumptions C420_getline_refuted.

Example C420_case :
  plain StdTraits hello /\
  (s <- g_ignore StdTraits 4 (g_init (at_str ios_init hello 0)) ;; Ok (gcount s)) = Ok 8 /\
  (s <- g_ignore StdTraits 9 (g_init (at_str ios_init hello 0)) ;; Ok (gcount s)) = Ok 13 /\
  (s <- g_ignore_until StdTraits 10 9 (g_init (at_str ios_init hello 0)) ;; Ok (gcount s, ipos (isbuf (gstr s)))) = Ok (9, 5) /\
  (' p <- g_read (g_init (at_str ios_init hello 4)) 5 ;; Ok (fst p, gcount (snd p))) = Ok ([10; 98], 5).
Proof. split; [apply hello_plain|]. repeat split; reflexivity. Qed.

(* ---- C421 *)
(* ws leaves gcount 0, whatever it was. *)
Theorem C421_ws_refuted : forall tr s g s', ws tr s = Ok s' -> g_ws tr (Gis s g) = Ok (Gis s' 0).
Proof. exact g_ws_of. Qed.
Print Assumptions C421_ws_refuted.

(* So does >> into an integer ... *)
Theorem C421_int_refuted : forall tr t s g v s', extract_int tr t s = Ok (v, s') ->
  g_extract_int tr t (Gis s g) = Ok (v, Gis s' 0).
Proof. exact g_extract_int_of. Qed.
Print Assumptions C421_int_refuted.

(* ... and after >> into a character it is 1, also at the end of the text. *)
Theorem C421_char_refuted : forall tr s g v s', extract_char tr s = Ok (v, s') ->
  g_extract_char tr (Gis s g) = Ok (v, Gis s' 1).
Proof. exact g_extract_char_of. Qed.
Print Assumptions C421_char_refuted.

Example C421_case :
  let s := Gis (at_str ios_init [32; 32; 52; 50; 33] 0) 7 in
  (' p <- g_extract_int StdTraits (Ity 32 true) s ;; Ok (fst p, gcount (snd p))) = Ok (Some 42, 0) /\
  (' p <- g_extract_char StdTraits s ;; Ok (fst p, gcount (snd p))) = Ok (Some 52, 1) /\
  (s' <- g_ws StdTraits s ;; Ok (gcount s', ipos (isbuf (gstr s')))) = Ok (0, 2).
Proof. repeat split; reflexivity. Qed.
