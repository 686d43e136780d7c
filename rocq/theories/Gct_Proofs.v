From Coq Require Import List ZArith Bool Lia.
From Verif Require Import Base MachInt Ios_Model Streambuf_Model Istream_Model Charconv_Model Numio_Model
  Stream_Spec Stream_Proofs Gct_Spec Gct_Model.
Import ListNotations.
Local Open Scope Z_scope.
Local Open Scope res_scope.

Lemma max_count_val : max_count = 2147483647.
Proof. reflexivity. Qed.

Lemma tick_ok n : n < max_count -> tick n = Ok (n + 1).
Proof. intros H. rewrite max_count_val in H. unfold tick. now destruct (Z.ltb_spec n 2147483647); [|lia]. Qed.
Lemma tick_over n : max_count <= n -> tick n = UB.
Proof. intros H. rewrite max_count_val in H. unfold tick. now destruct (Z.ltb_spec n 2147483647); [lia|]. Qed.

Lemma g_get_at tr st data k g : plain tr data -> (k <= length data)%nat -> g < max_count ->
  g_get tr (Gis (at_str st data k) g)
  = Ok (answer tr (nth_error data k),
        Gis (if Nat.ltb k (length data) then at_str st data (k + 1)
             else at_str (setstate st (Z.lor failbit eofbit)) data k) (g + 1)).
Proof.
  intros P Hk Hg. unfold g_get. cbn [gcount gstr]. rewrite tick_ok by assumption. cbn [bind].
  rewrite get_at by assumption. reflexivity.
Qed.

(* any number of get() *)
Lemma g_gets_at tr data n : plain tr data -> forall st k g, (k <= length data)%nat ->
  if g + Z.of_nat n <=? max_count
  then exists st' k', (k' <= length data)%nat /\ g_gets tr n (Gis (at_str st data k) g) = Ok (Gis (at_str st' data k') (g + Z.of_nat n))
  else g <= max_count -> g_gets tr n (Gis (at_str st data k) g) = UB.
Proof.
  intros P. induction n as [|n IH]; intros st k g Hk.
  - destruct (Z.leb_spec (g + Z.of_nat 0) max_count) as [_|H]; [|lia].
    exists st, k. cbn [g_gets]. split; [assumption|]. do 2 f_equal. lia.
  - destruct (Z_lt_ge_dec g max_count) as [Hg|Hg].
    + assert (R : forall s' k', (k' <= length data)%nat ->
        if g + Z.of_nat (S n) <=? max_count
        then exists st' k'', (k'' <= length data)%nat /\
          g_gets tr n (Gis (at_str s' data k') (g + 1)) = Ok (Gis (at_str st' data k'') (g + Z.of_nat (S n)))
        else g <= max_count -> g_gets tr n (Gis (at_str s' data k') (g + 1)) = UB).
      { intros s' k' Hk'. specialize (IH s' k' (g + 1) Hk').
        replace (g + 1 + Z.of_nat n) with (g + Z.of_nat (S n)) in IH by lia.
        destruct (g + Z.of_nat (S n) <=? max_count); [exact IH|]. intros _. apply IH. lia. }
      cbn [g_gets]. rewrite g_get_at by assumption. cbn [bind].
      destruct (Nat.ltb_spec k (length data)); apply R; lia.
    + destruct (Z.leb_spec (g + Z.of_nat (S n)) max_count) as [H|_]; [lia|]. intros _.
      cbn [g_gets]. unfold g_get. cbn [gcount]. rewrite tick_over by lia. reflexivity.
Qed.

Lemma g_ignore_at tr data n : plain tr data -> forall st k g, 0 <= iost st < 16 -> (k <= length data)%nat ->
  g + 2 * Z.of_nat (taken data k n) + 1 <= max_count ->
  g_ignore tr n (Gis (at_str st data k) g)
  = Ok (if Nat.leb n (length data - k) then Gis (at_str st data (k + n)) (g + 2 * Z.of_nat n)
        else Gis (at_str (setstate st (Z.lor failbit eofbit)) data (length data))
                 (g + 2 * Z.of_nat (length data - k) + 1)).
Proof.
  intros P. induction n as [|n IH]; intros st k g Hst Hk Hg; cbn [g_ignore].
  - rewrite Nat.add_0_r. cbn [Nat.leb]. do 2 f_equal. lia.
  - unfold taken in *. rewrite g_get_at by (try assumption; lia). cbn [bind gstr gcount]. rewrite answer_eof by assumption.
    destruct (Nat.ltb_spec k (length data)); cbn [negb].
    + rewrite tick_ok by lia. cbn [bind]. rewrite IH by (try assumption; lia). f_equal.
      destruct (Nat.leb_spec n (length data - (k + 1))), (Nat.leb_spec (S n) (length data - k)); try lia.
      * f_equal; [f_equal; lia|lia].
      * f_equal; lia.
    + destruct (Nat.leb_spec (S n) (length data - k)); [lia|]. f_equal.
      unfold add_state, at_str; cbn [ist isbuf]. rewrite setstate_twice by assumption.
      replace (length data) with k by lia. f_equal. lia.
Qed.

Lemma g_ignore_until_at tr data delim n : plain tr data -> delim <> -1 -> forall st k g a c b,
  0 <= iost st < 16 -> (k <= length data)%nat ->
  skipn k data = a ++ c :: b -> code tr c = delim ->
  (forall x, In x a -> code tr x <> delim) -> (length a < n)%nat ->
  g + 2 * Z.of_nat (length a) + 1 <= max_count ->
  g_ignore_until tr delim n (Gis (at_str st data k) g)
  = Ok (Gis (at_str st data (k + length a + 1)) (g + 2 * Z.of_nat (length a) + 1)).
Proof.
  intros P Hd. induction n as [|n IH]; intros st k g a c b Hst Hk Ha Hc Hne Hlen Hg; [lia|].
  assert (Hl : (k < length data)%nat) by (destruct (split_nth _ _ _ _ _ Ha); lia).
  cbn [g_ignore_until]. rewrite g_get_at by (try assumption; lia). cbn [bind gstr gcount]. rewrite answer_eof by assumption.
  replace (Nat.ltb k (length data)) with true by (symmetry; apply Nat.ltb_lt; lia). cbn [negb].
  destruct (nth_error data k) as [y|] eqn:E; [|apply nth_error_None in E; lia].
  cbn [answer]. pose proof (skipn_nth _ _ _ E) as S. rewrite S in Ha. destruct a as [|z a].
  - cbn in Ha. injection Ha as -> _. destruct (Z.eqb_spec (code tr c) delim); [|congruence].
    cbn [length]. do 2 f_equal; [f_equal; lia|lia].
  - cbn in Ha. injection Ha as -> Ha. destruct (Z.eqb_spec (code tr z) delim) as [e|_].
    { exfalso. exact (Hne z (or_introl eq_refl) e). }
    cbn [length] in *. rewrite tick_ok by lia. cbn [bind].
    rewrite (IH st (k + 1)%nat (g + 1 + 1) a c b); try assumption; try lia.
    + do 2 f_equal; [f_equal; lia|lia].
    + replace (k + 1)%nat with (Datatypes.S k) by lia. exact Ha.
    + intros x Hx. apply Hne. right; exact Hx.
Qed.

(* getline counts what it stores *)
Lemma g_getline_loop_of tr delim : forall fuel dst j count s d j' s' n,
  getline_loop tr fuel dst j count delim s = Ok (d, j', s') ->
  (j <= j')%nat /\
  (n + Z.of_nat (j' - j) <= max_count ->
   g_getline_loop tr fuel dst j count delim (Gis s n) = Ok (d, j', Gis s' (n + Z.of_nat (j' - j)))).
Proof.
  induction fuel as [|f IH]; intros dst j count s d j' s' n H; [discriminate|].
  cbn [getline_loop g_getline_loop gstr gcount] in *.
  destruct (sbumpc tr (isbuf s)) as [[c b]| |]; try discriminate. cbn [bind] in *.
  destruct (eq_chars c eof).
  { assert (E : d = dst /\ j' = j /\ s' = add_state (Istr (ist s) b) eofbit) by (repeat split; congruence).
    destruct E as (-> & -> & ->). split; [lia|]. intros _. rewrite Nat.sub_diag, Z.add_0_r. reflexivity. }
  destruct ((count =? 0) || eq_chars c delim).
  { assert (E : d = dst /\ j' = j /\ s' = add_state (Istr (ist s) b) failbit) by (repeat split; congruence).
    destruct E as (-> & -> & ->). split; [lia|]. intros _. rewrite Nat.sub_diag, Z.add_0_r. reflexivity. }
  destruct (wr dst j (to_char_type c)) as [dst'| |]; try discriminate. cbn [bind] in *.
  destruct (IH _ _ _ _ _ _ _ (n + 1) H) as [L G]. split; [lia|]. intros Hn.
  rewrite tick_ok by lia. cbn [bind]. rewrite G by lia. do 3 f_equal. lia.
Qed.

Lemma g_getline_at tr data delim dst count st k line tail g :
  plain tr data -> no_ff data -> is_char delim -> (k <= length data)%nat ->
  skipn k data = line ++ tail -> ~ In delim line -> (tail = [] \/ exists t, tail = delim :: t) ->
  Z.of_nat (length line) < count -> Z.of_nat (length dst) = count ->
  g_getline tr dst count delim (Gis (at_str st data k) g)
  = Ok (line ++ [0] ++ skipn (length line + 1) dst,
        Gis (match tail with
             | [] => at_str (setstate st eofbit) data (length data)
             | _ => at_str (setstate st failbit) data (k + length line + 1)
             end) (Z.of_nat (length line))).
Proof.
  intros P Hff Hd Hk Hs Hn Ht Hc Hdst.
  pose proof (C50_line tr data delim dst count st k line tail P Hff Hd Hk Hs Hn Ht Hc Hdst) as C.
  pose proof (skipn_len _ _ _ _ Hs Hk) as Hlen.
  unfold getline in C. unfold g_getline. cbn [gstr].
  assert (L := getline_line tr data delim P Hff Hd line (S (length (idata (isbuf (at_str st data k))))) dst 0 count st k tail
    Hk Hs Hn Ht ltac:(lia) ltac:(lia) ltac:(cbn [isbuf at_str idata at_pos]; lia)).
  rewrite L in C. cbn [bind] in C.
  destruct (g_getline_loop_of _ _ _ _ _ _ _ _ _ _ 0 L) as [_ G]. cbn [Nat.add] in *.
  rewrite G by (destruct P; rewrite max_count_val; lia). cbn [bind].
  destruct (wr _ _ 0) as [d'| |]; try discriminate. cbn [bind] in *.
  rewrite Nat.sub_0_r, Z.add_0_l. congruence.
Qed.

(* one pass of ws *)
Lemma g_ignore_one tr s g : 0 <= g -> g + 2 <= max_count ->
  match ignore tr 1 s with
  | Ok s' => exists g', g_ignore tr 1 (Gis s g) = Ok (Gis s' g') /\ 0 <= g' <= g + 2
  | UB => g_ignore tr 1 (Gis s g) = UB
  | Diverge => g_ignore tr 1 (Gis s g) = Diverge
  end.
Proof.
  intros H0 H. cbn [ignore g_ignore]. unfold g_get. cbn [gcount gstr]. rewrite tick_ok by lia. cbn [bind].
  destruct (get tr s) as [[c s']| |]; cbn [bind]; try reflexivity. cbn [gstr gcount].
  destruct (c =? eof).
  - eexists. split; [reflexivity|]. lia.
  - rewrite tick_ok by lia. cbn [bind]. eexists. split; [reflexivity|]. lia.
Qed.

Lemma g_ws_loop_of tr : forall fuel s g s', ws_loop tr fuel s = Ok s' ->
  g_ws_loop tr fuel (Gis s g) = Ok (Gis s' 0).
Proof.
  induction fuel as [|f IH]; intros s g s' H; [discriminate|].
  cbn [ws_loop g_ws_loop] in *. unfold g_peek. cbn [gstr].
  destruct (peek tr s) as [ch| |]; try discriminate. cbn [bind] in *.
  destruct (isspace (to_char_type ch)).
  - pose proof (g_ignore_one tr s 0 ltac:(lia) ltac:(rewrite max_count_val; lia)) as I.
    destruct (ignore tr 1 s) as [s1| |]; try discriminate. cbn [bind] in H.
    destruct I as (g' & -> & _). cbn [bind]. now apply IH.
  - congruence.
Qed.

Lemma g_ws_of tr s g s' : ws tr s = Ok s' -> g_ws tr (Gis s g) = Ok (Gis s' 0).
Proof. apply g_ws_loop_of. Qed.

Lemma g_extract_int_of tr t s g v s' : extract_int tr t s = Ok (v, s') ->
  g_extract_int tr t (Gis s g) = Ok (v, Gis s' 0).
Proof.
  unfold extract_int, g_extract_int. intros H. destruct (ws tr s) as [s1| |] eqn:E; try discriminate.
  rewrite (g_ws_of _ _ _ _ E). cbn [bind gstr gcount] in *.
  destruct (stream_base _) as [base|]; [|congruence].
  destruct (sdrive _ _ _ _ _ _ _ _) as [[[b err'] w]| |]; try discriminate. cbn [bind] in *. congruence.
Qed.

Lemma g_extract_char_of tr s g v s' : extract_char tr s = Ok (v, s') ->
  g_extract_char tr (Gis s g) = Ok (v, Gis s' 1).
Proof.
  unfold extract_char, g_extract_char. intros H. destruct (ws tr s) as [s1| |] eqn:E; try discriminate.
  rewrite (g_ws_of _ _ _ _ E). cbn [bind gstr gcount] in *. unfold g_get. cbn [gstr gcount].
  rewrite tick_ok by (rewrite max_count_val; lia). cbn [bind].
  destruct (get tr s1) as [[c s2]| |]; try discriminate. cbn [bind] in *. change (0 + 1) with 1. congruence.
Qed.

Lemma g_readsome_at tr st data k n g : plain tr data -> (tr = EstdTraits -> Z.of_nat (length data) < 32768) ->
  (k < length data)%nat ->
  g_readsome tr (Gis (at_str st data k) g) (Z.of_nat n)
  = Ok (firstn n (skipn k data), Gis (at_str st data (Nat.min (k + n) (length data))) (Z.of_nat (taken data k n))).
Proof.
  intros P He Hk. unfold g_readsome. cbn [gstr]. rewrite readsome_at by assumption. cbn [bind].
  cbn [isbuf at_str]. rewrite in_avail_at by (try assumption; lia).
  replace (Nat.ltb k (length data)) with true by (symmetry; apply Nat.ltb_lt; lia).
  rewrite <- Nat2Z.inj_min. reflexivity.
Qed.

Lemma g_read_at tr st data k n g : plain tr data -> (k <= length data)%nat ->
  g_read (Gis (at_str st data k) g) (Z.of_nat n)
  = Ok (firstn n (skipn k data),
        Gis (at_str (if Nat.leb n (length data - k) then st else setstate st eofbit) data (Nat.min (k + n) (length data)))
            (Z.of_nat n)).
Proof. intros P Hk. unfold g_read. cbn [gstr]. rewrite (read_at tr) by assumption. reflexivity. Qed.

Lemma taken_length data k n : length (firstn n (skipn k data)) = taken data k n.
Proof. rewrite firstn_length, skipn_length. reflexivity. Qed.
