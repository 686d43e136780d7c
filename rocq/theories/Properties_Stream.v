(* Span stream buffers and unformatted input (C47-C51, C62, C63).
   [at_pos data k] / [at_str st data k]: a buffer / stream over the text data that stands
   before its character k, the stream having state st.  [plain]: see Stream_Spec.v. *)
From Coq Require Import List ZArith Bool Lia.
From Verif Require Import Base MachInt SliceLemmas Ios_Model Streambuf_Model Istream_Model Stream_Spec Stream_Proofs.
Import ListNotations.
Local Open Scope Z_scope.
Local Open Scope res_scope.

(* ---- C47: any history of reading calls gives the answers of a reader of the text, and
   never reads outside it.  Excluded: texts of 65536 characters or more,
   and the character (char)-1 with the library's own traits, see the refutations. *)
Theorem C47_span_input : forall tr data ops, plain tr data ->
  exists b, isb_run tr ops (isb_init data) = Ok (fst (read_run tr data ops 0), b).
Proof. exact C47_main. Qed.
Print Assumptions C47_span_input.

(* The same from any position; the position afterwards is the reader's. *)
Theorem C47_span_input_position : forall tr data ops, plain tr data -> forall k, (k <= length data)%nat ->
  isb_run tr ops (at_pos data k)
  = Ok (fst (read_run tr data ops k), at_pos data (snd (read_run tr data ops k))).
Proof. exact isb_run_at. Qed.
Print Assumptions C47_span_input_position.

(* in_avail is the number of characters left, -1 when none are. *)
Theorem C47_in_avail : forall tr data k, plain tr data ->
  (tr = EstdTraits -> Z.of_nat (length data) < 32768) -> (k <= length data)%nat ->
  in_avail tr (at_pos data k) = if Nat.ltb k (length data) then Z.of_nat (length data - k) else -1.
Proof. exact in_avail_at. Qed.
Print Assumptions C47_in_avail.

(* Any text of 65536 characters: after reading them all one by one the buffer stands at the
   start again, and end of file never comes. *)
Theorem C193_span_input_long_refuted : forall tr data, Z.of_nat (length data) = 65536 ->
  Forall is_char data -> (tr = EstdTraits -> ~ In (-1) data) ->
  bumps tr (length data) (isb_init data) = Ok (isb_init data).
Proof. exact C47_long. Qed.
Print Assumptions C193_span_input_long_refuted.

(* With the library's own traits, the character (char)-1 anywhere reads as end of file and is
   never passed. *)
Theorem C193_span_input_ff_refuted : forall data k, Z.of_nat (length data) < 65536 ->
  nth_error data k = Some (-1) ->
  sgetc EstdTraits (at_pos data k) = Ok (-1) /\ sbumpc EstdTraits (at_pos data k) = Ok (-1, at_pos data k).
Proof. exact C47_ff. Qed.
Print Assumptions C193_span_input_ff_refuted.

Example C47_case :
  plain StdTraits [104; -1; 33] /\ ~ plain EstdTraits [104; -1; 33] /\
  fst (read_run StdTraits [104; -1; 33] [Getc; Bumpc; Nextc; Ungetc; Getn 5; Getc] 0)
  = [[104]; [104]; [33]; [255]; [-1; 33]; [-1]].
Proof.
  split; [|split; [|reflexivity]].
  - split; [reflexivity|]. split; [repeat constructor; unfold is_char; lia|discriminate].
  - intros (_ & _ & H). apply H; [reflexivity|]. right; left; reflexivity.
Qed.

(* ---- C48: every history of sputc and sputn in which each block fits stores exactly the given
   characters from the front of the span on, changes nothing else, and answers truthfully; a
   single character put into a full span is refused.  Excluded: blocks that do not fit. *)
Theorem C48_span_output : forall tr buf ops,
  (forall c, In (PutC c) ops -> is_char c) -> blocks_fit ops (length buf) ->
  let st := stored ops (length buf) in
  (length st <= length buf)%nat /\
  osb_run tr ops (osb_init buf) = Ok (write_answers tr ops (length buf), Osb (overwrite buf 0 st) (length st)).
Proof. exact C48_main. Qed.
Print Assumptions C48_span_output.

(* Every block that does not fit is written past the end of the span. *)
Theorem C194_span_output_refuted : forall b s,
  (length (obuf b) < opos b + length s)%nat -> s <> [] -> sputn b s = UB.
Proof. exact sputn_ub. Qed.
Print Assumptions C194_span_output_refuted.

Example C48_case : blocks_fit [PutC 65; PutN [66; 67]; PutC 68; PutN []] 3 /\
  stored [PutC 65; PutN [66; 67]; PutC 68; PutN []] 3 = [65; 66; 67] /\
  write_answers StdTraits [PutC 65; PutN [66; 67]; PutC 68; PutN []] 3 = [65; 2; -1; 0].
Proof. cbn. repeat split; auto with arith. Qed.

(* ---- C49: over every history of single characters and of blocks that fit where they are put, all
   is delivered by the next sync, in order, and every answer says so. *)
Theorem C49_buffered_history : forall tr cap ops b, (1 <= cap)%nat -> (length (bbuf b) <= cap)%nat ->
  buffer_fits tr cap ops (cap - length (bbuf b)) ->
  let (answers, b') := bsb_run tr cap ops b in
  Forall2 says_taken ops answers /\ concat (bsink (bsync b')) = pending b ++ flat_map put_text ops.
Proof.
  intros tr cap ops b Hc Hb F. pose proof (C49_history_ok tr cap ops Hc b Hb F) as H.
  destruct (bsb_run tr cap ops b) as [l b']. rewrite sync_all. exact H.
Qed.
Print Assumptions C49_buffered_history.

(* A block is delivered when it fits in the space left. *)
Theorem C49_buffered_block : forall cap b s, (length s <= cap - length (bbuf b))%nat ->
  concat (bsink (bsync (snd (bsputn cap b s)))) = pending b ++ s /\ fst (bsputn cap b s) = Z.of_nat (length s).
Proof. exact C49_block. Qed.
Print Assumptions C49_buffered_block.

(* Every longer block loses characters, although the full count is reported. *)
Theorem C195_buffered_block_refuted : forall cap b s, (cap - length (bbuf b) < length s)%nat ->
  fst (bsputn cap b s) = Z.of_nat (length s) /\
  (length (concat (bsink (bsync (snd (bsputn cap b s))))) < length (pending b ++ s))%nat.
Proof. exact C49_lost. Qed.
Print Assumptions C195_buffered_block_refuted.

Example C49_case :
  let ops := [PutC 65; PutC 66; PutC 67; PutN [0]; PutC (-2); PutN []] in
  buffer_fits EstdTraits 2 ops 2 /\ buffer_fits StdTraits 2 ops 2 /\
  concat (bsink (bsync (snd (bsb_run StdTraits 2 ops (Bsb [] []))))) = [65; 66; 67; 0; -2] /\
  bsync (snd (bsputn 2 (Bsb [] []) [65; 66; 67])) = Bsb [] [[65; 66]].
Proof. cbn. unfold taken_singly, is_char. repeat split; try reflexivity; try lia; try discriminate. Qed.

(* ---- C471: not so for '\xff' and, with the standard traits, the null character: every one put by
   itself is dropped, and the answer says that it was taken. *)
Theorem C471_dropped_refuted : forall tr cap b c, is_char c -> ~ taken_singly tr c ->
  concat (bsink (bsync (snd (bsputc tr cap b c)))) = concat (bsink (bsync b)) /\
  says_taken (PutC c) (fst (bsputc tr cap b c)).
Proof.
  intros tr cap b c Hc N. destruct (dropped tr cap b c Hc N) as [H1 H2]. rewrite !sync_all. split; assumption.
Qed.
Print Assumptions C471_dropped_refuted.
Example C471_case : is_char 0 /\ ~ taken_singly StdTraits 0 /\ taken_singly EstdTraits 0 /\ ~ taken_singly EstdTraits (-1) /\
  snd (bsb_run StdTraits 4 [PutC 65; PutC 0; PutC 66] (Bsb [] [])) = Bsb [65; 66] [].
Proof.
  unfold taken_singly, is_char. repeat split; try lia; try discriminate; try tauto.
Qed.

(* ---- C489: whatever character is put by itself, the answer is 42, that is '*', so it is the character for no
   other one. *)
Theorem C489_answer_refuted : forall tr cap b c,
  fst (bsputc tr cap b c) = 42 /\
  (c <> 42 -> fst (bsputc tr cap b c) <> c).
Proof. intros tr cap b c. change (fst (bsputc tr cap b c)) with 42. split; [reflexivity|]. intros H E. apply H. symmetry. exact E. Qed.
Print Assumptions C489_answer_refuted.
Example C489_case : fst (bsputc EstdTraits 4 (Bsb [65] []) 66) = 42 /\ snd (bsputc EstdTraits 4 (Bsb [65] []) 66) = Bsb [65; 66] [].
Proof. split; reflexivity. Qed.

(* ---- C472: whatever the wrapped buffer does not take of what is buffered is neither with it nor
   with the writer afterwards, and neither pubsync nor sputc says so. *)
Theorem C472_sync_refuted : forall take b, (take (length (bsink b)) < length (bbuf b))%nat ->
  let (answer, b') := bpubsync b in
  answer = 0 /\ (length (got take 0 (bsink b') ++ bbuf b') < length (got take 0 (bsink b) ++ bbuf b))%nat.
Proof.
  intros take b H. cbn. split; [reflexivity|]. unfold bsync. destruct (bbuf b) as [|x r] eqn:E.
  - cbn in H. lia.
  - rewrite <- E in *. apply flush_lost, H.
Qed.
Print Assumptions C472_sync_refuted.
Theorem C472_full_refuted : forall tr take b c, taken_singly tr c ->
  (take (length (bsink b)) < length (bbuf b))%nat ->
  let (answer, b') := bsputc tr (length (bbuf b)) b c in
  says_taken (PutC c) answer /\
  (length (got take 0 (bsink b') ++ bbuf b') <= length (got take 0 (bsink b) ++ bbuf b))%nat.
Proof.
  intros tr take b c T H. pose proof (proj1 T) as Hc. apply goes_in_ok in T; [|exact Hc].
  unfold bsputc, boverflow, bremaining. rewrite plain_int, T, Nat.sub_diag by exact Hc. cbn [Nat.eqb].
  split; [cbn; lia|]. pose proof (flush_lost take b H) as L. cbn [bsink bbuf bll_sync] in *.
  rewrite app_nil_r in L. rewrite !app_length in *. cbn [length]. lia.
Qed.
Print Assumptions C472_full_refuted.
Example C472_case :
  bpubsync (Bsb [65; 66; 67] []) = (0, Bsb [] [[65; 66; 67]]) /\ got (fun _ => 1%nat) 0 [[65; 66; 67]] = [65] /\
  got (fun _ => 1%nat) 0 (bsink (snd (bsputc EstdTraits 3 (Bsb [65; 66; 67] []) 68))) = [65].
Proof. repeat split. Qed.

(* ---- C50: a line shorter than the buffer is stored with a NUL, inside the buffer, and the
   delimiter is consumed.  Not so: the state (failbit is set whenever
   the delimiter is found), lines of count characters or more, and (char)-1 in the text. *)
Theorem C50_getline : forall tr data delim dst count st k line tail,
  plain tr data -> no_ff data -> is_char delim -> (k <= length data)%nat ->
  skipn k data = line ++ tail -> ~ In delim line -> (tail = [] \/ exists t, tail = delim :: t) ->
  Z.of_nat (length line) < count -> Z.of_nat (length dst) = count ->
  getline tr dst count delim (at_str st data k)
  = Ok (line ++ [0] ++ skipn (length line + 1) dst,
        match tail with
        | [] => at_str (setstate st eofbit) data (length data)
        | _ => at_str (setstate st failbit) data (k + length line + 1)
        end).
Proof. exact C50_line. Qed.
Print Assumptions C50_getline.

(* A line of count characters or more makes getline write past s[0..count). *)
Theorem C196_getline_overrun_refuted : forall tr data delim dst count st k line tail,
  plain tr data -> no_ff data -> is_char delim -> (k <= length data)%nat ->
  skipn k data = line ++ tail -> ~ In delim line -> (tail = [] \/ exists t, tail = delim :: t) ->
  count <= Z.of_nat (length line) -> Z.of_nat (length dst) = count ->
  getline tr dst count delim (at_str st data k) = UB.
Proof. exact C50_overrun. Qed.
Print Assumptions C196_getline_overrun_refuted.

(* A complete non-empty line that fits sets failbit. *)
Theorem C196_getline_failbit_refuted : forall tr data delim dst count st k line t,
  plain tr data -> no_ff data -> is_char delim -> (k <= length data)%nat -> 0 <= iost st < 16 ->
  skipn k data = line ++ delim :: t -> ~ In delim line ->
  Z.of_nat (length line) < count -> Z.of_nat (length dst) = count ->
  exists d s', getline tr dst count delim (at_str st data k) = Ok (d, s') /\ fail (ist s') = true.
Proof. exact C50_failbit. Qed.
Print Assumptions C196_getline_failbit_refuted.

Example C50_case : exists line tail,
  plain StdTraits [104; 105; 10; 120] /\ no_ff [104; 105; 10; 120] /\
  skipn 0 [104; 105; 10; 120] = line ++ tail /\ ~ In 10 line /\ tail = 10 :: [120] /\ length line = 2%nat /\
  getline StdTraits [7; 7; 7; 7] 4 10 (at_str ios_init [104; 105; 10; 120] 0)
  = Ok ([104; 105; 0; 7], at_str (setstate ios_init failbit) [104; 105; 10; 120] 3).
Proof.
  exists [104; 105], [10; 120]. split; [|split; [|split; [reflexivity|split; [|split; [reflexivity|split; reflexivity]]]]].
  - split; [reflexivity|]. split; [repeat constructor; unfold is_char; lia|discriminate].
  - unfold no_ff. cbn. lia.
  - cbn. lia.
Qed.

(* ---- C51 ---- *)

(* ignore(n) consumes min(n, available); running out sets eofbit and failbit. *)
Theorem C51_ignore : forall tr data n, plain tr data -> forall st k, 0 <= iost st < 16 -> (k <= length data)%nat ->
  ignore tr n (at_str st data k)
  = Ok (if Nat.leb n (length data - k) then at_str st data (k + n)
        else at_str (setstate st (Z.lor failbit eofbit)) data (length data)).
Proof. exact ignore_at. Qed.
Print Assumptions C51_ignore.

(* ignore(n, delim) stops after the first delim if it is among the next n characters, and
   otherwise is ignore(n). *)
Theorem C51_ignore_delim : forall tr data delim n, plain tr data -> delim <> -1 -> forall st k,
  0 <= iost st < 16 -> (k <= length data)%nat ->
  (forall a c b, skipn k data = a ++ c :: b -> code tr c = delim ->
     (forall x, In x a -> code tr x <> delim) -> (length a < n)%nat ->
     ignore_until tr delim n (at_str st data k) = Ok (at_str st data (k + length a + 1))) /\
  ((forall x, In x (firstn n (skipn k data)) -> code tr x <> delim) ->
     ignore_until tr delim n (at_str st data k) = ignore tr n (at_str st data k)).
Proof. exact ignore_until_at. Qed.
Print Assumptions C51_ignore_delim.

(* As called: with the end of file as delimiter, ignore(n, eof) is ignore(n). *)
Theorem C51_ignore_as_called : forall tr data delim n, plain tr data -> forall st k,
  0 <= iost st < 16 -> (k <= length data)%nat ->
  (forall a c b, delim <> -1 -> skipn k data = a ++ c :: b -> code tr c = delim ->
     (forall x, In x a -> code tr x <> delim) -> (length a < n)%nat ->
     ignore2 tr n delim (at_str st data k) = Ok (at_str st data (k + length a + 1))) /\
  (delim = -1 \/ (forall x, In x (firstn n (skipn k data)) -> code tr x <> delim) ->
     ignore2 tr n delim (at_str st data k) = ignore tr n (at_str st data k)).
Proof.
  intros tr data delim n P st k S K. unfold ignore2. change eof with (-1).
  destruct (Z.eqb_spec delim (-1)) as [E|E]; [split; [intros; contradiction|reflexivity]|].
  destruct (ignore_until_at tr data delim n P E st k S K) as [A B].
  split; [intros a c b _; apply A|]. intros [F|F]; [contradiction|now apply B].
Qed.
Print Assumptions C51_ignore_as_called.

(* ws consumes exactly the leading whitespace of a good stream, and leaves its state alone. *)
Theorem C51_ws : forall tr st data k lead rest, plain tr data -> good st = true -> 0 <= iost st < 16 ->
  (k <= length data)%nat -> skipn k data = lead ++ rest -> Forall space lead ->
  match rest with [] => True | c :: _ => ~ space c end ->
  ws tr (at_str st data k) = Ok (at_str st data (k + length lead)).
Proof. exact ws_at. Qed.
Print Assumptions C51_ws.

Theorem C51_ws_not_good : forall tr st data k, good st = false ->
  ws tr (at_str st data k) = Ok (at_str st data k).
Proof. exact ws_not_good. Qed.
Print Assumptions C51_ws_not_good.

(* read(n) delivers min(n, available) characters, and sets eofbit iff short. *)
Theorem C51_read : forall tr st data k n, plain tr data -> (k <= length data)%nat ->
  read (at_str st data k) (Z.of_nat n)
  = Ok (firstn n (skipn k data),
        at_str (if Nat.leb n (length data - k) then st else setstate st eofbit) data (Nat.min (k + n) (length data))).
Proof. exact read_at. Qed.
Print Assumptions C51_read.

(* get answers the next character and consumes it, or end of file with eofbit and failbit;
   peek answers it and consumes nothing; unget undoes get. *)
Theorem C51_get : forall tr st data k, plain tr data -> (k <= length data)%nat ->
  get tr (at_str st data k)
  = Ok (answer tr (nth_error data k),
        if Nat.ltb k (length data) then at_str st data (k + 1)
        else at_str (setstate st (Z.lor failbit eofbit)) data k).
Proof. exact get_at. Qed.
Print Assumptions C51_get.

Theorem C51_peek : forall tr st data k, plain tr data -> (k <= length data)%nat -> good st = true ->
  peek tr (at_str st data k) = Ok (answer tr (nth_error data k)).
Proof. exact peek_at. Qed.
Print Assumptions C51_peek.

Theorem C51_peek_blocking : forall tr st data k, plain tr data ->
  (tr = EstdTraits -> Z.of_nat (length data) < 32768) -> (k <= length data)%nat ->
  peek_blocking tr (at_str st data k) = peek tr (at_str st data k).
Proof. exact peek_blocking_same. Qed.
Print Assumptions C51_peek_blocking.

Theorem C51_get_unget : forall tr st data k, plain tr data -> (k < length data)%nat ->
  exists c, nth_error data k = Some c /\
    (' p <- get tr (at_str st data k) ;; Ok (fst p)) = Ok (code tr c) /\
    (' p <- get tr (at_str st data k) ;; unget tr (snd p)) = Ok (at_str st data k).
Proof. exact get_unget. Qed.
Print Assumptions C51_get_unget.

Example C51_case :
  plain StdTraits [32; 9; 65; 10; 66] /\ good ios_init = true /\
  skipn 0 [32; 9; 65; 10; 66] = [32; 9] ++ [65; 10; 66] /\ Forall space [32; 9] /\ ~ space 65 /\
  ws StdTraits (at_str ios_init [32; 9; 65; 10; 66] 0) = Ok (at_str ios_init [32; 9; 65; 10; 66] 2) /\
  ignore_until StdTraits 10 9 (at_str ios_init [32; 9; 65; 10; 66] 0) = Ok (at_str ios_init [32; 9; 65; 10; 66] 4) /\
  ignore2 StdTraits 3 (-1) (at_str ios_init [32; 9; 65; 10; 66] 0) = Ok (at_str ios_init [32; 9; 65; 10; 66] 3).
Proof.
  split; [|split; [reflexivity|split; [reflexivity|split; [|split; [|repeat split; reflexivity]]]]].
  - split; [reflexivity|]. split; [repeat constructor; unfold is_char; lia|discriminate].
  - repeat constructor; unfold space; cbn; lia.
  - unfold space; cbn; lia.
Qed.

(* ---- C62: readsome delivers what is there, up to the count, without touching the state.
   Excluded: end of input, see the refutation. *)
Theorem C62_readsome : forall tr st data k n, plain tr data ->
  (tr = EstdTraits -> Z.of_nat (length data) < 32768) -> (k < length data)%nat ->
  readsome tr (at_str st data k) (Z.of_nat n)
  = Ok (firstn n (skipn k data), at_str st data (Nat.min (k + n) (length data))).
Proof. exact readsome_at. Qed.
Print Assumptions C62_readsome.

(* At the end of every text readsome copies a negative count: it runs out of all buffers. *)
Theorem C205_readsome_refuted : forall tr st data count, plain tr data ->
  (tr = EstdTraits -> Z.of_nat (length data) < 32768) ->
  readsome tr (at_str st data (length data)) count = UB.
Proof. exact readsome_end. Qed.
Print Assumptions C205_readsome_refuted.

Example C62_case : plain EstdTraits [65; 66; 67] /\
  readsome EstdTraits (at_str ios_init [65; 66; 67] 1) 9 = Ok ([66; 67], at_str ios_init [65; 66; 67] 3).
Proof.
  split; [|reflexivity]. split; [reflexivity|]. split; [repeat constructor; unfold is_char; lia|].
  intros _. cbn. lia.
Qed.

(* ---- C63: seekg from the beginning and from the current position. *)
Theorem C63_seekg : forall st data k target, Z.of_nat (length data) < 65536 ->
  (k <= length data)%nat -> (target <= length data)%nat ->
  isbuf (seekg (at_str st data k) (Z.of_nat target) SeekBeg) = at_pos data target /\
  isbuf (seekg (at_str st data k) (Z.of_nat target - Z.of_nat k) SeekCur) = at_pos data target.
Proof. exact seekg_at. Qed.
Print Assumptions C63_seekg.

(* It clears failbit (bit 1) and leaves the rest of the state, and the format, alone. *)
Theorem C63_state : forall s off dir i, 0 <= iost (ist s) < 16 -> 0 <= i ->
  let st := ist (seekg s off dir) in
  Z.testbit (rdstate st) i = Z.testbit (rdstate (ist s)) i && negb (i =? 1) /\
  flags st = flags (ist s) /\ width st = width (ist s) /\ (forall b, fill b st = fill b (ist s)).
Proof. exact seekg_state. Qed.
Print Assumptions C63_state.

(* Seeking relative to the end does nothing, for any offset. *)
Theorem C206_seekg_end_refuted : forall st data k off,
  isbuf (seekg (at_str st data k) off SeekEnd) = at_pos data k.
Proof. exact seekg_end. Qed.
Print Assumptions C206_seekg_end_refuted.

(* After reading to the end the stream stays at end of file although it was repositioned:
   seekg clears failbit, not eofbit. *)
Theorem C206_seekg_eof_refuted : forall st data k off dir, 0 <= iost st < 16 ->
  eof_set st = true -> eof_set (ist (seekg (at_str st data k) off dir)) = true.
Proof. exact seekg_eof. Qed.
Print Assumptions C206_seekg_eof_refuted.

Example C63_case : seekg (at_str ios_init [65; 66; 67; 68] 3) (-2) SeekCur = at_str ios_init [65; 66; 67; 68] 1.
Proof. reflexivity. Qed.
