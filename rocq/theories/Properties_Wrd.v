From Coq Require Import List ZArith Bool Lia.
From Verif Require Import Base MachInt Ios_Model Streambuf_Model Istream_Model Stream_Spec Stream_Proofs
  Dyn_Spec Dyn_Model Dyn_View Wrd_Spec Wrd_Model Wrd_Proofs.
Import ListNotations.
Local Open Scope Z_scope.

(* In this file [at_str st data k] is a stream in state [st] over the text [data] that has read
   [k] characters, and [str_after .. N os l v] says that the string [v], over N cells, is what
   the history [os] made of it: it holds [l].  [blk] is the stream's policy. *)

(* C288.  in >> value skips the blanks, takes the longest run of other characters, stops in
   front of what follows and sets eofbit if nothing does. *)
Theorem C288_word blk tr sm na nd nul N os l v data st k lead w rest :
  str_after sm na nd nul N os l v -> fits nul N w -> w <> [] ->
  plain tr data -> short blk tr data -> good st = true -> (k <= length data)%nat -> cut (skipn k data) lead w rest ->
  exists v', extract blk false tr (str_cfg sm na nd nul) (at_str st data k) v
             = Ok (Go (at_str (match rest with [] => setstate st eofbit | _ => st end) data
                              (k + length lead + length w), v')) /\
    looks_like (str_cfg sm na nd nul) v' w.
Proof.
  intros A F W P Sh G Hk C.
  destruct (word_ok blk tr sm na nd nul N os l v data st k lead w rest A F P Sh G Hk C) as (v' & E & LL & _).
  exists v'. split; [|exact LL]. rewrite E. unfold seen. destruct rest; [|reflexivity]. destruct w; [contradiction|reflexivity].
Qed.
Print Assumptions C288_word.

(* The cut it makes exists for every text and is the only one. *)
Theorem C288_cut text : exists lead w rest, cut text lead w rest /\
  forall lead' w' rest', cut text lead' w' rest' -> lead' = lead /\ w' = w /\ rest' = rest.
Proof.
  destruct (cut_exists text) as (lead & w & rest & C & _). exists lead, w, rest. split; [exact C|].
  intros. destruct (cut_unique _ _ _ _ _ _ _ C H) as (-> & -> & ->). auto.
Qed.
Print Assumptions C288_cut.

(* With nothing but blanks left it fails: the value is empty, failbit and eofbit are set. *)
Theorem C288_nothing blk tr sm na nd nul N os l v data st k :
  str_after sm na nd nul N os l v ->
  plain tr data -> short blk tr data -> good st = true -> (k <= length data)%nat -> Forall space (skipn k data) ->
  exists v', extract blk false tr (str_cfg sm na nd nul) (at_str st data k) v
             = Ok (Go (at_str (setstate st (Z.lor failbit eofbit)) data (length data), v')) /\
    looks_like (str_cfg sm na nd nul) v' [].
Proof.
  intros A P Sh G Hk Hb.
  destruct (word_ok blk tr sm na nd nul N os l v data st k (skipn k data) [] [] A) as (v' & E & LL & _); auto.
  - split; [cbn; lia|intros _ []].
  - split; [now rewrite !app_nil_r|]. auto.
  - exists v'. split; [|exact LL]. rewrite E. cbn [seen length]. rewrite drained_1 by auto.
    rewrite skipn_length. replace (k + (length data - k) + 0)%nat with (length data) by lia. reflexivity.
Qed.
Print Assumptions C288_nothing.

Definition ex_text : list Z := [32; 97; 98; 9; 10; 99; 32].
Lemma ex_plain : plain StdTraits ex_text.
Proof. split; [reflexivity|]. split; [repeat constructor; unfold is_char; lia|discriminate]. Qed.
Lemma ex_v nul : exists v, str_after 256 true false nul 8 [] [] v.
Proof.
  destruct nul; (eexists; split; [lia|]; exists (repeat 120 8); eexists; split; [reflexivity|]; split; [reflexivity|];
  split; [constructor|reflexivity]).
Qed.
Ltac sp := unfold solid, space; cbn [In]; lia.
Example C288_case : exists v, str_after 256 true false true 8 [] [] v /\ fits true 8 [97; 98] /\
  plain StdTraits ex_text /\ short true StdTraits ex_text /\ good ios_init = true /\
  cut (skipn 0 ex_text) [32] [97; 98] [9; 10; 99; 32].
Proof.
  destruct (ex_v true) as (v & A). exists v. split; [exact A|].
  split; [split; [cbn; lia|intros _ [I|[I|[]]]; discriminate]|].
  split; [exact ex_plain|]. split; [discriminate|]. split; [reflexivity|].
  split; [reflexivity|]. split; [repeat constructor; sp|]. split; [repeat constructor; sp|]. split; [sp|discriminate].
Qed.

(* C289.  while(in >> value) sees exactly the words of the text, in order, each once, and ends. *)
Theorem C289_words blk tr sm na nd nul N os l v data st k ws fuel :
  str_after sm na nd nul N os l v -> Forall (fits nul N) ws ->
  plain tr data -> short blk tr data -> good st = true -> (k <= length data)%nat ->
  words_of (skipn k data) ws -> (length ws < fuel)%nat ->
  exists v', while_read blk false tr (str_cfg sm na nd nul) fuel (at_str st data k) v
             = Ok (Go (ws, at_str (setstate st (Z.lor failbit eofbit)) data (length data), v')).
Proof.
  intros A F P Sh G Hk W Hf.
  exact (while_words blk tr sm na nd nul N data P Sh _ ws W st k os l v fuel eq_refl Hk G F A Hf).
Qed.
Print Assumptions C289_words.
Theorem C289_words_exist text : exists ws, words_of text ws /\ forall ws', words_of text ws' -> ws' = ws.
Proof.
  destruct (words_exist text) as (ws & W). exists ws. split; [exact W|]. intros ws' W'. symmetry. exact (words_unique _ _ W _ W').
Qed.
Print Assumptions C289_words_exist.

Example C289_case : exists v, str_after 256 true false true 8 [] [] v /\ Forall (fits true 8) [[97; 98]; [99]] /\
  plain StdTraits ex_text /\ short true StdTraits ex_text /\ good ios_init = true /\
  words_of (skipn 0 ex_text) [[97; 98]; [99]].
Proof.
  destruct (ex_v true) as (v & A). exists v. split; [exact A|]. split.
  - repeat constructor; cbn; try lia; intuition discriminate.
  - split; [exact ex_plain|]. split; [discriminate|]. split; [reflexivity|].
    apply (words_one _ [32] [97; 98] [9; 10; 99; 32]); [|discriminate|].
    + split; [reflexivity|]. split; [repeat constructor; sp|]. split; [repeat constructor; sp|]. split; [sp|discriminate].
    + apply (words_one _ [9; 10] [99] [32]); [|discriminate|constructor; repeat constructor; sp].
      split; [reflexivity|]. split; [repeat constructor; sp|]. split; [repeat constructor; sp|]. split; [sp|discriminate].
Qed.

(* C290.  A stream that is not good: the value is not left alone, it is emptied, and the stream
   says end of file wherever it stands. *)
Theorem C290_not_good_refuted blk tr sm na nd nul N os l v data st k :
  str_after sm na nd nul N os l v -> good st = false ->
  exists v', extract blk false tr (str_cfg sm na nd nul) (at_str st data k) v
             = Ok (Go (at_str (setstate (setstate st failbit) eofbit) data k, v')) /\
    looks_like (str_cfg sm na nd nul) v' [].
Proof.
  intros A G. destruct (word_bad blk tr sm na nd nul N os l v data st k A G) as (v' & E & LL & _). exists v'. auto.
Qed.
Print Assumptions C290_not_good_refuted.
Example C290_case : exists v, str_after 256 true false true 8 [Push 65] [65] v /\
  good (setstate ios_init badbit) = false /\
  looks_like (str_cfg 256 true false true) v [65].
Proof.
  assert (vrun (room true 8) (str_ok true) [] [Push 65] [65]) as R.
  { econstructor; [reflexivity|cbn; lia|intros _ [I|[]]; discriminate|constructor]. }
  destruct (ex_v true) as (v & A). destruct (str_after_more _ _ _ _ _ _ _ _ _ _ A R) as (v' & _ & A').
  exists v'. split; [exact A'|]. split; [reflexivity|]. exact (str_after_looks _ _ _ _ _ _ _ _ A').
Qed.

(* C291.  A word longer than the string can hold is not cut or reported: it is written outside
   the string, or stops the program in an assert. *)
Theorem C291_long_refuted blk tr sm na nd nul N os l v data st k lead w rest :
  (N + 1 < sm)%nat -> str_after sm na nd nul N os l v -> (room nul N < length w)%nat -> (nul = true -> ~ In 0 w) ->
  plain tr data -> short blk tr data -> good st = true -> (k <= length data)%nat -> cut (skipn k data) lead w rest ->
  extract blk false tr (str_cfg sm na nd nul) (at_str st data k) v = if nul || nd then UB else Ok Assert.
Proof. apply word_long. Qed.
Print Assumptions C291_long_refuted.
Example C291_case : exists v, str_after 256 true false true 8 [] [] v /\
  plain StdTraits (repeat 97 8) /\ cut (skipn 0 (repeat 97 8)) [] (repeat 97 8) [] /\
  (room true 8 < length (repeat 97%Z 8))%nat /\ ~ In 0 (repeat 97 8).
Proof.
  destruct (ex_v true) as (v & A). exists v. split; [exact A|].
  split; [split; [reflexivity|split; [repeat constructor; unfold is_char; lia|discriminate]]|].
  split; [split; [reflexivity|split; [constructor|split; [repeat constructor; sp|exact I]]]|].
  split; [cbn; lia|]. cbn [repeat In]. lia.
Qed.

(* C292.  The zero characters of a word are lost when the string is null terminated. *)
Theorem C292_zero_refuted blk tr sm na nd N os l v data st k lead w y rest :
  str_after sm na nd true N os l v -> (length (drop_zeros w) + 2 <= N)%nat -> In 0 w ->
  plain tr data -> short blk tr data -> good st = true -> (k <= length data)%nat -> cut (skipn k data) lead w (y :: rest) ->
  exists v', extract blk false tr (str_cfg sm na nd true) (at_str st data k) v
             = Ok (Go (at_str st data (k + length lead + length w), v')) /\
    looks_like (str_cfg sm na nd true) v' (drop_zeros w) /\ drop_zeros w <> w.
Proof.
  intros A R I0 P Sh G Hk C.
  destruct (word_zero blk tr sm na nd N os l v data st k lead w y rest A R P Sh G Hk C) as (v' & E & LL).
  exists v'. split; [exact E|]. split; [exact LL|]. intros X. rewrite <- X in I0.
  unfold drop_zeros in I0. apply filter_In in I0. destruct I0. discriminate.
Qed.
Print Assumptions C292_zero_refuted.
Example C292_case : In 0 [97; 0; 98] /\ drop_zeros [97; 0; 98] = [97; 98] /\
  plain StdTraits [97; 0; 98; 32] /\ cut (skipn 0 [97; 0; 98; 32]) [] [97; 0; 98] [32].
Proof.
  split; [cbn; auto|]. split; [reflexivity|].
  split; [split; [reflexivity|split; [repeat constructor; unfold is_char; lia|discriminate]]|].
  split; [reflexivity|split; [constructor|split; [repeat constructor; sp|split; [sp|discriminate]]]].
Qed.

(* C293.  A non-blocking stream whose source has not ended: running out of input in the middle of
   a word puts the word back, so that the same call made later, with more text, reads it whole. *)
Theorem C293_retry tr sm na nd nul N os l v data more st k lead w lead2 w2 y rest :
  str_after sm na nd nul N os l v -> fits nul N w -> fits nul N w2 ->
  plain tr (data ++ more) -> good st = true -> (k <= length data)%nat ->
  cut (skipn k data) lead w [] -> cut (w ++ more) lead2 w2 (y :: rest) ->
  exists s1 v1 v2,
    extract false true tr (str_cfg sm na nd nul) (at_str st data k) v = Ok (Go (s1, v1)) /\
    rdstate (ist s1) = 8 (* nodatabit alone *) /\ bad (ist s1) = false /\ fail (ist s1) = false /\ eof_set (ist s1) = false /\
    looks_like (str_cfg sm na nd nul) v1 w /\
    extract false true tr (str_cfg sm na nd nul)
      (Istr (Ios_Model.clear (ist s1) 0) (Isb (data ++ more) (ipos (isbuf s1)))) v1
    = Ok (Go (at_str st (data ++ more) (k + length lead + length lead2 + length w2), v2)) /\
    looks_like (str_cfg sm na nd nul) v2 w2.
Proof.
  intros. edestruct (retry tr sm na nd nul N os l v data more st k lead w lead2 w2 y rest) as (s1 & v1 & v2 & A & B & C & D & F); try eassumption.
  exists s1, v1, v2. unfold bad, fail, eof_set. rewrite B. auto 10.
Qed.
Print Assumptions C293_retry.
Example C293_case : exists v, str_after 256 true false true 8 [] [] v /\ fits true 8 [97; 98] /\ fits true 8 [97; 98; 99] /\
  plain EstdTraits ([32; 97; 98] ++ [99; 32]) /\ cut (skipn 0 [32; 97; 98]) [32] [97; 98] [] /\
  cut ([97; 98] ++ [99; 32]) [] [97; 98; 99] [32].
Proof.
  destruct (ex_v true) as (v & A). exists v. split; [exact A|].
  split; [split; [cbn; lia|intros _; cbn [In]; lia]|]. split; [split; [cbn; lia|intros _; cbn [In]; lia]|].
  split; [split; [reflexivity|split; [repeat constructor; unfold is_char; lia|intros _; cbn [app In]; lia]]|].
  split; [split; [reflexivity|split; [repeat constructor; sp|split; [repeat constructor; sp|exact I]]]|].
  split; [reflexivity|split; [constructor|split; [repeat constructor; sp|split; [sp|discriminate]]]].
Qed.

(* C294.  in >> ch takes the first character that is not a blank; with none left the variable
   keeps its value and failbit and eofbit are set. *)
Theorem C294_char blk tr data st k lead ch rest x : plain tr data -> short blk tr data -> good st = true ->
  (k <= length data)%nat -> skipn k data = lead ++ ch :: rest -> Forall space lead -> solid ch ->
  ch <> 0 \/ tr = EstdTraits ->
  extract_char blk false tr (at_str st data k) x = Ok (at_str st data (k + length lead + 1), ch).
Proof.
  intros P Sh G Hk Hs Hl Hc H. rewrite (char_ok blk tr data st k lead ch rest x) by auto.
  destruct tr; [|reflexivity]. destruct (Z.eqb_spec ch 0); [|reflexivity]. destruct H; [contradiction|discriminate].
Qed.
Print Assumptions C294_char.
Theorem C294_none blk tr data st k x : plain tr data -> short blk tr data -> good st = true ->
  (k <= length data)%nat -> Forall space (skipn k data) ->
  extract_char blk false tr (at_str st data k) x
  = Ok (at_str (setstate st (Z.lor failbit eofbit)) data (length data), x).
Proof. apply char_none. Qed.
Print Assumptions C294_none.
Example C294_case : skipn 2 ex_text = [] ++ 98 :: [9; 10; 99; 32] /\ solid 98 /\ plain StdTraits ex_text /\
  skipn 3 ex_text = [9; 10] ++ 99 :: [32] /\ Forall space [9; 10] /\ solid 99 /\ Forall space (skipn 6 ex_text).
Proof.
  split; [reflexivity|]. split; [sp|]. split; [exact ex_plain|]. split; [reflexivity|].
  split; [repeat constructor; sp|]. split; [sp|]. repeat constructor; sp.
Qed.

(* C295.  With the standard traits a zero character is taken from the text but not stored. *)
Theorem C295_zero_refuted blk data st k lead rest x : plain StdTraits data -> good st = true ->
  (k <= length data)%nat -> skipn k data = lead ++ 0 :: rest -> Forall space lead ->
  extract_char blk false StdTraits (at_str st data k) x = Ok (at_str st data (k + length lead + 1), x).
Proof.
  intros P G Hk Hs Hl. rewrite (char_ok blk StdTraits data st k lead 0 rest x); auto.
  - discriminate.
  - unfold solid, space. cbn [In]. lia.
Qed.
Print Assumptions C295_zero_refuted.
Example C295_case : plain StdTraits [32; 0; 97] /\
  extract_char false false StdTraits (at_str ios_init [32; 0; 97] 0) 120 = Ok (at_str ios_init [32; 0; 97] 2, 120).
Proof. split; [split; [reflexivity|split; [repeat constructor; unfold is_char; lia|discriminate]]|reflexivity]. Qed.
