From Coq Require Import List ZArith Bool Lia.
From Verif Require Import Base MachInt Ios_Model Streambuf_Model Istream_Model Stream_Spec Stream_Proofs
  Dyn_Spec Dyn_Model Dyn_View Dyn_Proofs Dyn_Bounds Wrd_Spec Wrd_Model.
Import ListNotations.
Local Open Scope Z_scope.
Local Open Scope res_scope.

Lemma avail_at opn tr data k : plain tr data -> (tr = EstdTraits -> Z.of_nat (length data) < 32768) ->
  (k < length data)%nat -> 0 < avail opn tr (at_pos data k).
Proof.
  intros P H Hk. unfold avail. rewrite xin_avail_at by (destruct P; lia).
  assert (0 < int_type tr (Z.of_nat (length data - k))) as G.
  { destruct P as [P _]. unfold int_type. destruct tr.
    - unfold s32, wraps. rewrite Z.mod_small by lia. lia.
    - specialize (H eq_refl). unfold wraps. rewrite Z.mod_small by lia. lia. }
  destruct (Z.ltb_spec 0 (int_type tr (Z.of_nat (length data - k)))); lia.
Qed.
Lemma avail_end opn tr data : plain tr data -> avail opn tr (at_pos data (length data)) = if opn then 0 else -1.
Proof.
  intros P. unfold avail. rewrite xin_avail_at by (destruct P; lia). rewrite Nat.sub_diag.
  destruct tr; reflexivity.
Qed.

Lemma peek_of_in blk opn tr st data k ch : plain tr data -> short blk tr data -> good st = true ->
  nth_error data k = Some ch -> peek_of blk opn tr (at_str st data k) = Ok (code tr ch).
Proof.
  intros P Sh G E. assert (k < length data)%nat by (apply nth_error_Some; congruence).
  unfold peek_of. cbn [ist isbuf at_str]. rewrite G.
  assert (sgetc tr (at_pos data k) = Ok (code tr ch)) as X by (rewrite sgetc_at, E by (auto; lia); reflexivity).
  destruct blk; [|exact X]. cbv zeta.
  pose proof (avail_at opn tr data k P (Sh eq_refl) H).
  destruct (Z.eqb_spec (avail opn tr (at_pos data k)) (-1)); [lia|].
  destruct (Z.eqb_spec (avail opn tr (at_pos data k)) 0); [lia|]. exact X.
Qed.
Lemma peek_of_end blk opn tr st data : plain tr data -> good st = true -> blk && opn = false ->
  peek_of blk opn tr (at_str st data (length data)) = Ok (-1).
Proof.
  intros P G B. unfold peek_of. cbn [ist isbuf at_str]. rewrite G, avail_end by auto.
  assert (sgetc tr (at_pos data (length data)) = Ok (-1)) as X.
  { rewrite sgetc_at by (auto; lia). rewrite (proj2 (nth_error_None _ _)) by lia. reflexivity. }
  destruct blk, opn; try discriminate; auto.
Qed.
Lemma peek_of_bad blk opn tr st data k : good st = false -> peek_of blk opn tr (at_str st data k) = Ok (-1).
Proof. intros G. unfold peek_of. cbn [ist at_str]. now rewrite G. Qed.

(* ---------- blanks ---------- *)
Lemma ws_loop_of_at blk opn tr data : plain tr data -> short blk tr data -> blk && opn = false -> forall lead fuel st k rest,
  good st = true -> 0 <= iost st < 16 -> (k <= length data)%nat ->
  skipn k data = lead ++ rest -> Forall space lead ->
  match rest with [] => True | c :: _ => ~ space c end -> (length lead < fuel)%nat ->
  ws_loop_of blk opn tr fuel (at_str st data k) = Ok (at_str st data (k + length lead)).
Proof.
  intros P Sh B. induction lead as [|c lead IH]; intros fuel st k rest Hg Hst Hk Hs Hl Hr Hf.
  - destruct fuel as [|f]; [cbn in Hf; lia|]. cbn [ws_loop_of app length] in *. rewrite Nat.add_0_r.
    destruct rest as [|c rest].
    + assert (k = length data) by (assert (length (skipn k data) = 0%nat) by (rewrite Hs; reflexivity); rewrite skipn_length in *; lia).
      subst k. rewrite peek_of_end by auto. reflexivity.
    + destruct (split_nth data k [] c rest Hs) as [E _]. cbn [length] in E. rewrite Nat.add_0_r in E.
      rewrite (peek_of_in blk opn tr st data k c) by auto. cbn [bind].
      destruct (plain_nth _ _ _ _ P E) as (Hc & _). rewrite to_char_code by assumption.
      replace (isspace c) with false; [reflexivity|]. symmetry. apply not_true_is_false.
      rewrite isspace_spec. exact Hr.
  - destruct fuel as [|f]; [cbn in Hf; lia|]. cbn [ws_loop_of].
    destruct (split_nth data k [] c (lead ++ rest) Hs) as [E Hlt]. cbn [length] in E, Hlt. rewrite Nat.add_0_r in E, Hlt.
    destruct (plain_nth _ _ _ _ P E) as (Hc & _).
    rewrite (peek_of_in blk opn tr st data k c) by auto. cbn [bind]. rewrite to_char_code by assumption.
    inversion Hl as [|? ? Hc0 Hl']; subst.
    replace (isspace c) with true by (symmetry; apply isspace_spec; exact Hc0).
    rewrite ignore_at by assumption. replace (Nat.leb 1 (length data - k)) with true by (symmetry; apply Nat.leb_le; lia).
    cbn [bind]. rewrite (IH f st (k + 1)%nat rest); auto; try lia.
    + cbn [length]. do 2 f_equal. lia.
    + pose proof (skipn_nth _ _ _ E) as X. rewrite Hs in X. cbn [app] in X. injection X as X.
      replace (k + 1)%nat with (Datatypes.S k) by lia. symmetry. exact X.
    + cbn [length] in Hf. lia.
Qed.

Lemma ws_of_at blk opn tr st data k lead rest : plain tr data -> short blk tr data -> blk && opn = false ->
  good st = true -> (k <= length data)%nat ->
  skipn k data = lead ++ rest -> Forall space lead ->
  match rest with [] => True | c :: _ => ~ space c end ->
  ws_of blk opn tr (at_str st data k) = Ok (at_str st data (k + length lead)).
Proof.
  intros P Sh B Hg Hk Hs Hl Hr. unfold ws_of. cbn [isbuf at_str idata at_pos].
  apply (ws_loop_of_at blk opn tr data P Sh B lead _ st k rest); auto.
  - unfold good, rdstate in Hg. apply Z.eqb_eq in Hg. lia.
  - assert (L : length (skipn k data) = length (lead ++ rest)) by (rewrite Hs; reflexivity).
    rewrite skipn_length, app_length in L. lia.
Qed.
Lemma ws_of_bad blk opn tr st data k : good st = false -> ws_of blk opn tr (at_str st data k) = Ok (at_str st data k).
Proof. intros H. unfold ws_of. cbn [ws_loop_of]. rewrite peek_of_bad by auto. reflexivity. Qed.

(* ---------- the word ---------- *)
(* what happens at the end of the word *)
Definition finish (blk opn : bool) (tr : traits) (c : cfg Z) (st : ios) (data : list Z) (k : nat) (rest : list Z) (v : arr Z)
  : vres (istr * arr Z) :=
  match rest with
  | _ :: _ => vret (at_str st data k, v)
  | [] =>
      if negb blk && opn then
        n <~ lift (size c v) ;;
        b <~ lift (unget_n tr n (at_pos data k)) ;;
        vret (Istr (setstate st nodatabit) b, v)
      else
        e <~ lift (empty c v) ;;
        vret (at_str (setstate (if e then setstate st failbit else st) eofbit) data k, v)
  end.

Lemma get_in tr st data k ch : plain tr data -> nth_error data k = Some ch ->
  get tr (at_str st data k) = Ok (code tr ch, at_str st data (k + 1)).
Proof.
  intros P E. assert (k < length data)%nat by (apply nth_error_Some; congruence).
  rewrite get_at by (auto; lia). rewrite E. destruct (Nat.ltb_spec k (length data)); [reflexivity|lia].
Qed.

Lemma do_input_run blk opn tr c data st : plain tr data -> short blk tr data -> blk && opn = false -> good st = true ->
  forall w fuel k rest v, (k <= length data)%nat -> skipn k data = w ++ rest -> Forall solid w ->
  match rest with [] => True | x :: _ => space x end -> (length w < fuel)%nat ->
  do_input blk opn tr c fuel (at_str st data k) v
  = (v' <~ run c v (map Push w) ;; finish blk opn tr c st data (k + length w) rest v').
Proof.
  intros P Sh B G. induction w as [|x w IH]; intros fuel k rest v Hk Hs Hw Hr Hf.
  - destruct fuel as [|f]; [cbn in Hf; lia|]. cbn [map run vbind vret bind length app] in *. rewrite Nat.add_0_r.
    cbn [do_input]. destruct rest as [|y rest].
    + assert (k = length data) by (assert (length (skipn k data) = 0%nat) by (rewrite Hs; reflexivity); rewrite skipn_length in *; lia).
      subst k. rewrite peek_of_end by auto. cbn [lift vbind vret bind]. cbn [finish].
      change (-1 =? eof) with true. cbv iota. cbn [isbuf at_str]. rewrite avail_end by auto.
      replace ((if opn then 0 else -1) =? 0) with opn by (destruct opn; reflexivity).
      destruct (negb blk && opn); [reflexivity|].
      destruct (empty c v) as [e| |]; cbn [lift vbind vret bind]; try reflexivity. destruct e; reflexivity.
    + destruct (split_nth data k [] y rest Hs) as [E _]. cbn [length] in E. rewrite Nat.add_0_r in E.
      rewrite (peek_of_in blk opn tr st data k y) by auto. cbn [lift vbind vret bind].
      destruct (plain_nth _ _ _ _ P E) as (Hc & Hne).
      assert (code tr y <> -1) as NE by tauto.
      unfold eof. destruct (Z.eqb_spec (code tr y) (-1)); [contradiction|]. rewrite to_char_code by assumption.
      replace (isspace y) with true by (symmetry; apply isspace_spec; exact Hr). reflexivity.
  - destruct fuel as [|f]; [cbn in Hf; lia|]. cbn [do_input map run].
    destruct (split_nth data k [] x (w ++ rest) Hs) as [E Hlt]. cbn [length] in E, Hlt. rewrite Nat.add_0_r in E, Hlt.
    rewrite (peek_of_in blk opn tr st data k x) by auto. cbn [lift vbind vret bind].
    destruct (plain_nth _ _ _ _ P E) as (Hc & Hne).
    assert (code tr x <> -1) as NE by tauto.
    unfold eof. destruct (Z.eqb_spec (code tr x) (-1)); [contradiction|]. rewrite to_char_code by assumption.
    inversion Hw as [|? ? Hx Hw']; subst.
    replace (isspace x) with false by (symmetry; apply not_true_is_false; rewrite isspace_spec; exact Hx).
    cbn [step]. destruct (push_back c v x) as [[v1|]| |]; cbn [vbind bind]; try reflexivity.
    rewrite (get_in tr st data k x) by auto. cbn [lift vbind vret bind].
    rewrite (IH f (k + 1)%nat rest v1); auto; try lia.
    + cbn [length]. replace (k + 1 + length w)%nat with (k + S (length w))%nat by lia. reflexivity.
    + pose proof (skipn_nth _ _ _ E) as X. rewrite Hs in X. cbn [app] in X. injection X as X.
      replace (k + 1)%nat with (Datatypes.S k) by lia. symmetry. exact X.
    + cbn [length] in Hf. lia.
Qed.

Lemma extract_run blk opn tr c data st k lead w rest v : plain tr data -> short blk tr data -> blk && opn = false ->
  good st = true -> (k <= length data)%nat -> cut (skipn k data) lead w rest ->
  extract blk opn tr c (at_str st data k) v
  = (v' <~ run c v (Clear :: map Push w) ;; finish blk opn tr c st data (k + length lead + length w) rest v').
Proof.
  intros P Sh B G Hk (Hs & Hl & Hw & Hr).
  assert (L : length (skipn k data) = length (lead ++ w ++ rest)) by (rewrite Hs; reflexivity).
  rewrite skipn_length, !app_length in L.
  unfold extract. rewrite (ws_of_at blk opn tr st data k lead (w ++ rest)); auto.
  - cbn [lift vbind vret bind run step]. destruct (clear c v) as [[v1|]| |]; cbn [vbind bind]; try reflexivity.
    cbn [isbuf at_str idata at_pos].
    apply (do_input_run blk opn tr c data st P Sh B G w _ _ rest); auto; try lia.
    + assert (skipn (length lead) (skipn k data) = w ++ rest) as X by (rewrite Hs; apply skipn_app_exact; reflexivity).
      assert (forall (l : list Z) a b, skipn a (skipn b l) = skipn (b + a) l) as SS.
      { clear. induction l as [|y l IH]; intros a b; [now rewrite !skipn_nil|]. destruct b; cbn [Nat.add skipn]; auto. }
      rewrite SS in X. exact X.
    + destruct rest; tauto.
  - destruct w as [|x w]; [destruct rest as [|y r]; [trivial|destruct Hr as [_ Hr]; contradiction]|].
    cbn [app]. inversion Hw; subst. assumption.
Qed.

(* ---------- strings ---------- *)
Lemma run_app {A} (c : cfg A) a : forall v b, run c v (a ++ b) = (v' <~ run c v a ;; run c v' b).
Proof.
  induction a as [|o a IH]; intros v b; [reflexivity|]. cbn [app run].
  destruct (step c v o) as [[v1|]| |]; cbn [vbind bind]; auto.
Qed.
Lemma vrun_app {A} cap (ok : list A -> vop A -> list A -> Prop) l a l1 b l2 :
  vrun cap ok l a l1 -> vrun cap ok l1 b l2 -> vrun cap ok l (a ++ b) l2.
Proof. induction 1; intros R; [exact R|]. cbn [app]. econstructor; eauto. Qed.

Lemma str_after_more sm na nd nul N os l v os2 l2 : str_after sm na nd nul N os l v ->
  vrun (room nul N) (str_ok nul) l os2 l2 ->
  exists v', run (str_cfg sm na nd nul) v os2 = vret v' /\ str_after sm na nd nul N (os ++ os2) l2 v'.
Proof.
  intros (HN & b & v0 & Hb & E0 & R & E) R2.
  assert (vrun (room nul N) (str_ok nul) [] (os ++ os2) l2) as R3 by (eapply vrun_app; eauto).
  destruct (str_run sm na nd nul N b (os ++ os2) l2 HN Hb) as (v0' & v' & E0' & E' & _ & _); auto.
  { intros ->. destruct N; [|lia]. exfalso. destruct b; [|discriminate]. cbn in E0. discriminate. }
  rewrite E0 in E0'. injection E0' as <-.
  exists v'. split.
  - pose proof E' as E2. rewrite run_app, E in E2. cbn [vbind bind] in E2. exact E2.
  - split; [auto|]. exists b, v0. auto.
Qed.

Lemma vrun_pushes nul N w : forall l, fits nul N (l ++ w) -> vrun (room nul N) (str_ok nul) l (map Push w) (l ++ w).
Proof.
  induction w as [|x w IH]; intros l [F Z]; cbn [map].
  - rewrite app_nil_r. constructor.
  - econstructor; [reflexivity| | |].
    + rewrite !app_length in *. cbn [length] in *. lia.
    + intros Hn. specialize (Z Hn). intros I. apply Z. apply in_app_iff in I. cbn [In] in I.
      apply in_app_iff. cbn [In]. tauto.
    + specialize (IH (l ++ [x])). rewrite <- app_assoc in IH. apply IH. split; auto.
Qed.
Lemma vrun_word nul N l w : fits nul N w -> vrun (room nul N) (str_ok nul) l (Clear :: map Push w) w.
Proof.
  intros F. econstructor; [reflexivity|cbn; lia|intros _ []|]. apply (vrun_pushes nul N w []). exact F.
Qed.
Lemma str_after_looks sm na nd nul N os l v : str_after sm na nd nul N os l v -> looks_like (str_cfg sm na nd nul) v l.
Proof. intros H. apply holds_looks. now apply str_after_holds in H. Qed.

(* ---------- one word ---------- *)
Definition seen (nodata : bool) (st : ios) (w rest : list Z) : ios :=
  match rest with [] => if nodata then setstate st nodatabit
                        else setstate (match w with [] => setstate st failbit | _ => st end) eofbit
  | _ => st end.

Lemma word_ok blk tr sm na nd nul N os l v data st k lead w rest :
  str_after sm na nd nul N os l v -> fits nul N w ->
  plain tr data -> short blk tr data -> good st = true -> (k <= length data)%nat -> cut (skipn k data) lead w rest ->
  exists v', extract blk false tr (str_cfg sm na nd nul) (at_str st data k) v
             = Ok (Go (at_str (seen false st w rest) data (k + length lead + length w), v')) /\
    looks_like (str_cfg sm na nd nul) v' w /\ str_after sm na nd nul N (os ++ Clear :: map Push w) w v'.
Proof.
  intros A F P Sh G Hk C.
  destruct (str_after_more _ _ _ _ _ _ _ _ _ _ A (vrun_word nul N l w F)) as (v' & E & A').
  exists v'. pose proof (str_after_looks _ _ _ _ _ _ _ _ A') as LL. split; [|auto].
  rewrite (extract_run blk false tr _ data st k lead w rest v) by (auto; apply andb_false_r).
  rewrite E. cbn [vbind vret bind]. unfold finish, seen. destruct rest as [|y rest]; [|reflexivity].
  rewrite andb_false_r. rewrite (ll_empty _ _ _ LL). cbn [lift vbind vret bind]. destruct w; reflexivity.
Qed.

(* a stream that is not good *)
Lemma word_bad blk tr sm na nd nul N os l v data st k :
  str_after sm na nd nul N os l v -> good st = false ->
  exists v', extract blk false tr (str_cfg sm na nd nul) (at_str st data k) v
             = Ok (Go (at_str (setstate (setstate st failbit) eofbit) data k, v')) /\
    looks_like (str_cfg sm na nd nul) v' [] /\ str_after sm na nd nul N (os ++ [Clear]) [] v'.
Proof.
  intros A G.
  destruct (str_after_more sm na nd nul N os l v [Clear] [] A) as (v' & E & A').
  { econstructor; [reflexivity|cbn; lia|intros _ []|constructor]. }
  pose proof (str_after_looks _ _ _ _ _ _ _ _ A') as LL.
  exists v'. split; [|auto]. cbn [run step] in E.
  unfold extract. rewrite ws_of_bad by auto. cbn [lift vbind vret bind].
  destruct (clear (str_cfg sm na nd nul) v) as [[v1|]| |]; try discriminate. cbn [vbind vret bind] in E. injection E as ->.
  cbn [vbind bind isbuf at_str idata at_pos]. cbn [do_input]. rewrite peek_of_bad by auto. cbn [lift vbind vret bind].
  change (-1 =? eof) with true. cbv iota.
  replace (negb blk && (avail false tr (isbuf (at_str st data k)) =? 0)) with false.
  - rewrite (ll_empty _ _ _ LL). reflexivity.
  - symmetry. apply andb_false_intro2. unfold avail. cbv zeta.
    match goal with |- (if ?b then ?x else _) =? 0 = _ => destruct (Z.ltb_spec 0 x); [apply Z.eqb_neq; lia|reflexivity] end.
Qed.

(* ---------- all the words ---------- *)
Definition drained (st : ios) : ios := setstate st (Z.lor failbit eofbit).

Lemma good_iost st : good st = true -> iost st = 0.
Proof. unfold good, rdstate. apply Z.eqb_eq. Qed.
Lemma drained_1 st : good st = true -> setstate (setstate st failbit) eofbit = drained st.
Proof. intros G. apply good_iost in G. unfold drained, setstate. cbn [iost fmtfl iwidth ifill]. now rewrite G. Qed.
Lemma drained_2 st : good st = true -> setstate (setstate (setstate st eofbit) failbit) eofbit = drained st.
Proof. intros G. apply good_iost in G. unfold drained, setstate. cbn [iost fmtfl iwidth ifill]. now rewrite G. Qed.
Lemma fail_eof st : good st = true -> fail (setstate st eofbit) = false /\ good (setstate st eofbit) = false.
Proof. intros G. apply good_iost in G. unfold fail, good, rdstate, setstate. cbn [iost]. now rewrite G. Qed.
Lemma fail_good st : good st = true -> fail st = false.
Proof. intros G. apply good_iost in G. unfold fail, rdstate. now rewrite G. Qed.
Lemma fail_drained st : good st = true -> fail (drained st) = true.
Proof. intros G. apply good_iost in G. unfold fail, drained, rdstate, setstate. cbn [iost]. now rewrite G. Qed.

Lemma words_nil ws : words_of [] ws -> ws = [].
Proof.
  inversion 1 as [|? lead w rest ws' (E & _) Hw _]; auto. destruct lead; [|discriminate].
  destruct w; [contradiction|discriminate].
Qed.

Lemma skipn_cut (data : list Z) k lead w rest : skipn k data = lead ++ w ++ rest -> (k <= length data)%nat ->
  skipn (k + length lead + length w) data = rest /\ (k + length lead + length w + length rest = length data)%nat.
Proof.
  intros E Hk. assert (L : length (skipn k data) = length (lead ++ w ++ rest)) by (rewrite E; reflexivity).
  rewrite skipn_length, !app_length in L. split; [|lia].
  assert (forall (l : list Z) a b, skipn a (skipn b l) = skipn (b + a) l) as SS.
  { clear. induction l as [|y l IH]; intros a b; [now rewrite !skipn_nil|]. destruct b; cbn [Nat.add skipn]; auto. }
  rewrite <- Nat.add_assoc, <- SS, E, app_assoc, skipn_app_exact by (rewrite app_length; reflexivity). reflexivity.
Qed.

Lemma while_words blk tr sm na nd nul N data : plain tr data -> short blk tr data ->
  forall text ws, words_of text ws -> forall st k os l v fuel,
  skipn k data = text -> (k <= length data)%nat -> good st = true -> Forall (fits nul N) ws ->
  str_after sm na nd nul N os l v -> (length ws < fuel)%nat ->
  exists v', while_read blk false tr (str_cfg sm na nd nul) fuel (at_str st data k) v
             = Ok (Go (ws, at_str (drained st) data (length data), v')).
Proof.
  intros P Sh text ws W. induction W as [text Hb|text lead w rest ws C Hw W IH]; intros st k os l v fuel Hs Hk G F A Hf.
  - destruct fuel as [|f]; [cbn in Hf; lia|]. cbn [while_read].
    destruct (word_ok blk tr sm na nd nul N os l v data st k text [] [] A) as (v' & E & LL & A'); auto.
    { split; [cbn; lia|intros _ []]. }
    { rewrite Hs. split; [now rewrite !app_nil_r|]. auto. }
    rewrite E. cbn [vbind bind ist at_str seen]. rewrite drained_1 by auto. rewrite fail_drained by auto.
    assert (length (skipn k data) = length text) as L by (rewrite Hs; reflexivity). rewrite skipn_length in L.
    exists v'. cbn [length]. replace (k + length text + 0)%nat with (length data) by lia. reflexivity.
  - destruct fuel as [|f]; [cbn in Hf; lia|]. cbn [while_read]. inversion F as [|? ? F1 F2]; subst.
    pose proof C as (Hc & _ & _ & _).
    destruct (skipn_cut data k lead w rest Hc Hk) as (Hrest & HL).
    destruct (word_ok blk tr sm na nd nul N os l v data st k lead w rest A F1 P Sh G Hk C) as (v1 & E & LL & A').
    rewrite E. cbn [vbind bind ist at_str]. destruct rest as [|y rest].
    + pose proof (words_nil ws W) as ->. cbn [seen]. destruct w as [|x w]; [contradiction|].
      destruct (fail_eof st G) as [-> Gb]. rewrite (ll_iter _ _ _ LL). cbn [lift vbind vret bind].
      destruct f as [|f]; [cbn in Hf; lia|]. cbn [while_read].
      destruct (word_bad blk tr sm na nd nul N _ _ v1 data (setstate st eofbit) (k + length lead + length (x :: w)) A' Gb) as (v2 & E2 & LL2 & A2).
      unfold seen in *.
      rewrite E2. cbn [vbind bind ist at_str]. rewrite drained_2, fail_drained by auto.
      replace (k + length lead + length (x :: w))%nat with (length data) by (cbn [length] in *; lia). exists v2. reflexivity.
    + cbn [seen]. rewrite fail_good by auto. rewrite (ll_iter _ _ _ LL). cbn [lift vbind vret bind].
      destruct (IH st (k + length lead + length w)%nat (os ++ Clear :: map Push w) w v1 f Hrest) as (v2 & E2); auto; try (cbn [length] in *; lia).
      rewrite E2. cbn [vbind vret bind]. exists v2. reflexivity.
Qed.

(* every text has exactly one list of words *)
Lemma cut_exists text : exists lead w rest, cut text lead w rest /\ (w = [] -> rest = []).
Proof.
  assert (forall c, space c \/ solid c) as DEC.
  { intros c. unfold solid, space. destruct (in_dec Z.eq_dec c [32; 9; 10; 11; 12; 13]); auto. }
  induction text as [|c t (lead & w & rest & (E & Hl & Hw & Hr) & Hn)].
  - exists [], [], []. split; auto. split; auto.
  - destruct (DEC c) as [Hc|Hc].
    + exists (c :: lead), w, rest. split; auto. split; [cbn; now f_equal|]. split; auto.
    + destruct lead as [|d lead].
      * exists [], (c :: w), rest. split; [|discriminate]. split; [cbn; now f_equal|]. split; auto.
        split; auto. destruct rest as [|y r]; auto. destruct Hr. split; [auto|discriminate].
      * exists [], [c], (d :: lead ++ w ++ rest). split; [|discriminate]. split; [cbn; now f_equal|]. split; auto.
        split; [auto|]. inversion Hl; subst. split; [auto|discriminate].
Qed.
Lemma span_eq (P : Z -> Prop) a1 : forall b1 a2 b2, Forall P a1 -> Forall P a2 ->
  match b1 with [] => True | c :: _ => ~ P c end -> match b2 with [] => True | c :: _ => ~ P c end ->
  a1 ++ b1 = a2 ++ b2 -> a1 = a2 /\ b1 = b2.
Proof.
  induction a1 as [|x a1 IH]; intros b1 a2 b2 H1 H2 N1 N2 E.
  - destruct a2 as [|y a2]; auto. cbn [app] in E. subst b1. inversion H2; subst. contradiction.
  - destruct a2 as [|y a2]; cbn [app] in E.
    + subst b2. inversion H1; subst. contradiction.
    + injection E as -> E. inversion H1; inversion H2; subst.
      destruct (IH b1 a2 b2) as [-> ->]; auto.
Qed.
Lemma cut_unique text l1 w1 r1 l2 w2 r2 : cut text l1 w1 r1 -> cut text l2 w2 r2 -> l1 = l2 /\ w1 = w2 /\ r1 = r2.
Proof.
  intros (E1 & L1 & W1 & R1) (E2 & L2 & W2 & R2). rewrite E1 in E2.
  assert (forall w r, Forall solid w -> match r with [] => True | c :: _ => space c /\ w <> [] end ->
            match w ++ r with [] => True | c :: _ => ~ space c end) as B.
  { intros w r HW HR. destruct w as [|x w]; [destruct r; cbn; tauto|]. cbn. inversion HW; auto. }
  destruct (span_eq space l1 (w1 ++ r1) l2 (w2 ++ r2) L1 L2 (B _ _ W1 R1) (B _ _ W2 R2) E2) as [-> E].
  assert (forall w r : list Z, match r with [] => True | c :: _ => space c /\ w <> [] end ->
            match r with [] => True | c :: _ => ~ solid c end) as B2.
  { intros w [|c r]; [auto|]. unfold solid. tauto. }
  destruct (span_eq solid w1 r1 w2 r2 W1 W2 (B2 _ _ R1) (B2 _ _ R2) E) as [-> ->]. auto.
Qed.
Lemma words_exist text : exists ws, words_of text ws.
Proof.
  remember (length text) as n eqn:Hn. assert (length text <= n)%nat as H by lia. clear Hn. revert text H.
  induction n as [|n IH]; intros text H.
  - destruct text; [|cbn in H; lia]. exists []. constructor. auto.
  - destruct (cut_exists text) as (lead & w & rest & C & Hw). destruct w as [|x w].
    + rewrite (Hw eq_refl) in C. destruct C as (E & Hl & _). rewrite !app_nil_r in E. subst. exists []. now constructor.
    + pose proof C as (E & _). assert (length rest <= n)%nat as L.
      { rewrite E, !app_length in H. cbn [length] in H. lia. }
      destruct (IH rest L) as (ws & W). exists ((x :: w) :: ws). econstructor; eauto. discriminate.
Qed.
Lemma words_unique text ws : words_of text ws -> forall ws', words_of text ws' -> ws = ws'.
Proof.
  induction 1 as [text Hb|text lead w rest ws C Hw W IH]; intros ws' W'.
  - inversion W' as [|? lead w rest ws2 (E & _ & Hs & _) Hw]; auto. subst.
    destruct w as [|x w]; [contradiction|]. exfalso. apply Forall_app in Hb as [_ Hb].
    cbn [app] in Hb. inversion Hb; inversion Hs; subst. contradiction.
  - inversion W' as [? Hb|? lead2 w2 rest2 ws2 C2 Hw2 W2]; subst.
    + exfalso. destruct C as (-> & _ & Hs & _). destruct w as [|x w]; [contradiction|]. apply Forall_app in Hb as [_ Hb].
      cbn [app] in Hb. inversion Hb; inversion Hs; subst. contradiction.
    + destruct (cut_unique _ _ _ _ _ _ _ C C2) as (_ & <- & <-). f_equal. auto.
Qed.

(* ---------- too long ---------- *)
Lemma push_over sm na nd nul N : (N + 1 < sm)%nat -> forall w l os v, str_after sm na nd nul N os l v ->
  (length l <= room nul N)%nat ->
  (room nul N < length l + length w)%nat -> (nul = true -> ~ In 0 w) ->
  run (str_cfg sm na nd nul) v (map Push w) = if nul || nd then UB else Ok Assert.
Proof.
  intros HN. induction w as [|x w IH]; intros l os v A Hl H Z; cbn [length] in H; [lia|].
  cbn [map run]. destruct (Nat.ltb_spec (length l) (room nul N)) as [R|R].
  - destruct (str_after_more sm na nd nul N os l v [Push x] (l ++ [x]) A) as (v1 & E & A1).
    { econstructor; [reflexivity|rewrite app_length; cbn; lia| |constructor].
      intros Hn. destruct (str_after_holds _ _ _ _ _ _ _ _ A) as [[_ NZ _ _] _]. pose proof (proj1 (str_nz _ _ _ _ _) NZ Hn) as NZ'.
      specialize (Z Hn). intros I. apply in_app_iff in I. cbn [In] in *. tauto. }
    cbn [run] in E. destruct (step (str_cfg sm na nd nul) v (Push x)) as [[v2|]| |]; try discriminate.
    cbn [vbind vret bind] in *. injection E as ->.
    apply (IH (l ++ [x]) _ v1 A1); rewrite ?app_length; cbn [length]; try lia.
    intros Hn I. apply (Z Hn). now right.
  - assert (vstep l (Push x) = Some (l ++ [x])) as V by reflexivity.
    assert (length (l ++ [x]) = S (length l)) as L by (rewrite app_length; cbn; lia).
    unfold room in *. destruct nul.
    + destruct (str_after_holds _ _ _ _ _ _ _ _ A) as [Ho Lb].
      pose proof (shape_len _ _ _ (h_shape _ _ _ Ho)) as SL. rewrite str_tlen in SL.
      rewrite (str_exact sm na nd N os l v _ _ A V) by lia. reflexivity.
    + destruct nd; cbn [orb].
      * pose proof (str_over sm na true false N os l v _ _ A V) as X. cbv iota in X. cbn [room] in *. rewrite X by lia. reflexivity.
      * pose proof (str_over sm na false false N os l v _ _ A V) as X. cbv iota in X. cbn [room] in *. rewrite X by lia. reflexivity.
Qed.

Lemma word_long blk tr sm na nd nul N os l v data st k lead w rest :
  (N + 1 < sm)%nat -> str_after sm na nd nul N os l v -> (room nul N < length w)%nat -> (nul = true -> ~ In 0 w) ->
  plain tr data -> short blk tr data -> good st = true -> (k <= length data)%nat -> cut (skipn k data) lead w rest ->
  extract blk false tr (str_cfg sm na nd nul) (at_str st data k) v = if nul || nd then UB else Ok Assert.
Proof.
  intros HN A H Z P Sh G Hk C. rewrite (extract_run blk false tr _ data st k lead w rest v) by (auto; apply andb_false_r).
  destruct (str_after_more sm na nd nul N os l v [Clear] [] A) as (v1 & E & A1).
  { econstructor; [reflexivity|cbn; lia|intros _ []|constructor]. }
  cbn [run] in *. destruct (step (str_cfg sm na nd nul) v Clear) as [[v2|]| |]; try discriminate.
  cbn [vbind vret bind] in *. injection E as ->.
  rewrite (push_over sm na nd nul N HN w [] _ v1 A1); cbn [length]; auto; try lia.
  destruct (nul || nd); reflexivity.
Qed.

(* ---------- zero characters ---------- *)
Lemma push_zero {c : cfg Z} v l : kind c = NulTerm 0 (Z.eqb 0) -> holds c v l -> (length l + 2 <= length (buf v))%nat ->
  exists v', push_back c v 0 = vret v' /\ holds c v' l /\ length (buf v') = length (buf v).
Proof.
  intros K H R. unfold push_back, append.
  assert (tlen c = 1%nat) as T by (unfold tlen, term; rewrite K; reflexivity).
  destruct (grow_ok c v l 1 H) as (v' & mid & E & Lm & L & Sh); [lia|].
  rewrite E. cbn [vbind vret bind]. destruct Sh as (rest & Eb & M).
  rewrite Eb, <- app_assoc. rewrite (copy_in_ok l mid _ [0]) by (cbn; lia). cbn [vbind lift vret bind].
  destruct H as [Hs NZ Hz B]. eexists. split; [reflexivity|]. split.
  - split; cbn [buf msize]; auto.
    + exists (term c ++ rest). unfold term. rewrite K. split; [reflexivity|discriminate].
    + rewrite !app_length. cbn [length]. rewrite Eb, !app_length in L. lia.
  - cbn [buf]. rewrite <- L, Eb, !app_length. cbn [length]. lia.
Qed.

Lemma push_zeros sm na nd N w : forall l v, holds (str_cfg sm na nd true) v l -> length (buf v) = N ->
  (length l + length (drop_zeros w) + 2 <= N)%nat ->
  exists v', run (str_cfg sm na nd true) v (map Push w) = vret v' /\ holds (str_cfg sm na nd true) v' (l ++ drop_zeros w).
Proof.
  set (c := str_cfg sm na nd true). induction w as [|x w IH]; intros l v H L R.
  - exists v. split; [reflexivity|]. cbn. now rewrite app_nil_r.
  - cbn [map run step]. unfold drop_zeros in *. cbn [filter] in *. destruct (Z.eqb_spec x 0) as [->|Hx]; cbn [negb] in *.
    + destruct (push_zero (c := c) v l eq_refl H) as (v1 & -> & H1 & L1); [lia|]. cbn [vbind vret bind].
      apply IH; auto; lia.
    + destruct (append_ok c v l [x] H) as (v1 & E & H1 & L1).
      * change (tlen c) with 1%nat. cbn [length] in *. lia.
      * constructor; [|constructor]. change ((0 =? x) = false). apply Z.eqb_neq. auto.
      * cbn [length] in E. unfold push_back. rewrite E. cbn [vbind vret bind].
        destruct (IH (l ++ [x]) v1 H1) as (v2 & E2 & H2); [lia|rewrite app_length; cbn [length] in *; lia|].
        exists v2. split; auto. rewrite <- app_assoc in H2. exact H2.
Qed.
Lemma word_zero blk tr sm na nd N os l v data st k lead w y rest :
  str_after sm na nd true N os l v -> (length (drop_zeros w) + 2 <= N)%nat ->
  plain tr data -> short blk tr data -> good st = true -> (k <= length data)%nat -> cut (skipn k data) lead w (y :: rest) ->
  exists v', extract blk false tr (str_cfg sm na nd true) (at_str st data k) v
             = Ok (Go (at_str st data (k + length lead + length w), v')) /\
    looks_like (str_cfg sm na nd true) v' (drop_zeros w).
Proof.
  intros A R P Sh G Hk C. rewrite (extract_run blk false tr _ data st k lead w (y :: rest) v) by (auto; apply andb_false_r).
  destruct (str_after_more sm na nd true N os l v [Clear] [] A) as (v1 & E & A1).
  { econstructor; [reflexivity|cbn; lia|intros _ []|constructor]. }
  cbn [run] in *. destruct (step (str_cfg sm na nd true) v Clear) as [[v2|]| |]; try discriminate.
  cbn [vbind vret bind] in *. injection E as ->.
  destruct (str_after_holds _ _ _ _ _ _ _ _ A1) as [H1 L1].
  destruct (push_zeros sm na nd N w [] v1 H1 L1 R) as (v2 & E & H2).
  rewrite E. cbn [vbind vret bind finish]. exists v2. split; [reflexivity|]. now apply holds_looks.
Qed.

(* ---------- a source that may still deliver ---------- *)
Lemma unget_n_at tr data : plain tr data -> forall n k, (k + n <= length data)%nat ->
  unget_n tr n (at_pos data (k + n)) = Ok (at_pos data k).
Proof.
  intros P. induction n as [|n IH]; intros k H.
  - rewrite Nat.add_0_r. reflexivity.
  - cbn [unget_n]. rewrite sungetc_at by (auto; lia).
    cbn [bind snd]. replace (k + S n - 1)%nat with (k + n)%nat by lia. apply IH. lia.
Qed.

Lemma word_nodata tr sm na nd nul N os l v data st k lead w :
  str_after sm na nd nul N os l v -> fits nul N w ->
  plain tr data -> good st = true -> (k <= length data)%nat -> cut (skipn k data) lead w [] ->
  exists v', extract false true tr (str_cfg sm na nd nul) (at_str st data k) v
             = Ok (Go (at_str (setstate st nodatabit) data (k + length lead), v')) /\
    looks_like (str_cfg sm na nd nul) v' w /\ str_after sm na nd nul N (os ++ Clear :: map Push w) w v'.
Proof.
  intros A F P G Hk C.
  destruct (str_after_more _ _ _ _ _ _ _ _ _ _ A (vrun_word nul N l w F)) as (v' & E & A').
  exists v'. pose proof (str_after_looks _ _ _ _ _ _ _ _ A') as LL. split; [|auto].
  rewrite (extract_run false true tr _ data st k lead w [] v) by (auto; intros [=]).
  rewrite E. cbn [vbind vret bind]. unfold finish. cbn [negb andb].
  rewrite (ll_size _ _ _ LL). cbn [lift vbind vret bind].
  destruct C as (Hc & _). destruct (skipn_cut data k lead w [] Hc Hk) as (_ & HL). cbn [length] in HL.
  rewrite unget_n_at by (auto; lia). reflexivity.
Qed.

Lemma word_open tr sm na nd nul N os l v data st k lead w y rest :
  str_after sm na nd nul N os l v -> fits nul N w ->
  plain tr data -> good st = true -> (k <= length data)%nat -> cut (skipn k data) lead w (y :: rest) ->
  exists v', extract false true tr (str_cfg sm na nd nul) (at_str st data k) v
             = Ok (Go (at_str st data (k + length lead + length w), v')) /\
    looks_like (str_cfg sm na nd nul) v' w.
Proof.
  intros A F P G Hk C.
  destruct (str_after_more _ _ _ _ _ _ _ _ _ _ A (vrun_word nul N l w F)) as (v' & E & A').
  exists v'. split; [|exact (str_after_looks _ _ _ _ _ _ _ _ A')].
  rewrite (extract_run false true tr _ data st k lead w (y :: rest) v) by (auto; intros [=]).
  rewrite E. reflexivity.
Qed.

Lemma plain_app tr a b : plain tr (a ++ b) -> plain tr a.
Proof.
  intros (H1 & H2 & H3). split; [rewrite app_length in H1; lia|]. apply Forall_app in H2. split; [tauto|].
  intros T I. apply (H3 T). apply in_app_iff. auto.
Qed.

Lemma retry tr sm na nd nul N os l v data more st k lead w lead2 w2 y rest :
  str_after sm na nd nul N os l v -> fits nul N w -> fits nul N w2 ->
  plain tr (data ++ more) -> good st = true -> (k <= length data)%nat ->
  cut (skipn k data) lead w [] -> cut (w ++ more) lead2 w2 (y :: rest) ->
  exists s1 v1 v2,
    extract false true tr (str_cfg sm na nd nul) (at_str st data k) v = Ok (Go (s1, v1)) /\
    rdstate (ist s1) = nodatabit /\ looks_like (str_cfg sm na nd nul) v1 w /\
    extract false true tr (str_cfg sm na nd nul)
      (Istr (Ios_Model.clear (ist s1) 0) (Isb (data ++ more) (ipos (isbuf s1)))) v1
    = Ok (Go (at_str st (data ++ more) (k + length lead + length lead2 + length w2), v2)) /\
    looks_like (str_cfg sm na nd nul) v2 w2.
Proof.
  intros A F F2 P G Hk C C2. pose proof (plain_app _ _ _ P) as P1.
  destruct (word_nodata tr sm na nd nul N os l v data st k lead w A F P1 G Hk C) as (v1 & E & LL & A1).
  pose proof (good_iost _ G) as I0.
  exists (at_str (setstate st nodatabit) data (k + length lead)), v1.
  assert (Ios_Model.clear (setstate st nodatabit) 0 = st) as EC.
  { unfold Ios_Model.clear, setstate. cbn [fmtfl iost iwidth ifill]. destruct st; cbn in *. subst. reflexivity. }
  cbn [ist isbuf at_str at_pos ipos]. rewrite EC.
  destruct C as (Hc & C). destruct (skipn_cut data k lead w [] Hc Hk) as (_ & HL). cbn [length] in HL.
  assert (skipn (k + length lead) (data ++ more) = w ++ more) as X.
  { destruct (skipn_cut data k lead [] w) as (X & _); [rewrite Hc, app_nil_r; reflexivity|auto|].
    cbn [length] in X. rewrite Nat.add_0_r in X. rewrite skipn_app, X.
    replace (k + length lead - length data)%nat with 0%nat by lia. reflexivity. }
  destruct (word_open tr sm na nd nul N _ _ v1 (data ++ more) st (k + length lead) lead2 w2 y rest A1 F2 P G) as (v2 & E2 & LL2).
  - rewrite app_length. lia.
  - rewrite X. exact C2.
  - exists v2. split; [exact E|]. split; [|split; [exact LL|split; [exact E2|exact LL2]]].
    unfold rdstate, setstate. cbn [iost]. rewrite I0. reflexivity.
Qed.

(* ---------- one character ---------- *)
Lemma char_ok blk tr data st k lead ch rest x : plain tr data -> short blk tr data -> good st = true ->
  (k <= length data)%nat -> skipn k data = lead ++ ch :: rest -> Forall space lead -> solid ch ->
  extract_char blk false tr (at_str st data k) x
  = Ok (at_str st data (k + length lead + 1),
        match tr with StdTraits => if ch =? 0 then x else ch | EstdTraits => ch end).
Proof.
  intros P Sh G Hk Hs Hl Hc. unfold extract_char.
  rewrite (ws_of_at blk false tr st data k lead (ch :: rest)) by (auto; apply andb_false_r). cbn [bind].
  destruct (split_nth data k lead ch rest Hs) as [E _]. rewrite (get_in tr st data _ ch) by auto. cbn [bind].
  destruct (plain_nth _ _ _ _ P E) as (Hch & Hn & _ & Hne). rewrite to_char_code by auto.
  do 2 f_equal. unfold not_eof, eof. destruct tr.
  - destruct (Z.eqb_spec (code StdTraits ch) (-1)); [contradiction|].
    assert (code StdTraits ch = 0 <-> ch = 0) as X.
    { unfold code, is_char in *. destruct (Z.ltb_spec ch 0); lia. }
    destruct (Z.eqb_spec (code StdTraits ch) 0), (Z.eqb_spec ch 0); cbn [negb]; tauto.
  - cbn [code] in *. destruct (Z.eqb_spec ch (-1)); [contradiction|reflexivity].
Qed.
Lemma char_none blk tr data st k x : plain tr data -> short blk tr data -> good st = true ->
  (k <= length data)%nat -> Forall space (skipn k data) ->
  extract_char blk false tr (at_str st data k) x = Ok (at_str (drained st) data (length data), x).
Proof.
  intros P Sh G Hk Hb. unfold extract_char.
  rewrite (ws_of_at blk false tr st data k (skipn k data) []); auto; try (rewrite ?app_nil_r; auto using andb_false_r).
  cbn [bind]. rewrite skipn_length. replace (k + (length data - k))%nat with (length data) by lia.
  rewrite get_at by (auto; lia). rewrite (proj2 (nth_error_None _ _)) by lia.
  destruct (Nat.ltb_spec (length data) (length data)); [lia|]. cbn [bind answer]. destruct tr; reflexivity.
Qed.
