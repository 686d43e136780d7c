(* Proofs for Properties_Sstr. *)
From Verif Require Import Base BaseLemmas SliceLemmas MachInt Streambuf_Model Stream_Spec Stream_Proofs
  Dyn_Spec Dyn_Model Dyn_View Dyn_Proofs Dyn_Bounds Sstr_Spec Sstr_Model.
Local Open Scope Z_scope.
Local Open Scope res_scope.

Lemma room_le n N : (room n N <= N)%nat.
Proof. destruct n; cbn; lia. Qed.
Lemma room_tlen sm na nd n N : (tlen (str_cfg sm na nd n) <= N)%nat ->
  (room n N + tlen (str_cfg sm na nd n) = N)%nat.
Proof. rewrite str_tlen. destruct n; cbn; lia. Qed.

Section P.
Context (sm : nat) (na nd nul : bool) (tr : traits) (N : nat).
Let c := str_cfg sm na nd nul.
Hypothesis HN : (N < sm)%nat.

Definition sb_at (b : sbf) (text : list Z) (k : nat) : Prop :=
  holds c (str b) text /\ length (buf (str b)) = N /\ gpos b = Z.of_nat k /\ (k <= length text)%nat.

Lemma at_room b text k : sb_at b text k -> (length text <= N)%nat.
Proof. intros (H & L & _). pose proof (shape_len c _ _ (h_shape _ _ _ H)). lia. Qed.
Lemma size_t_id z : 0 <= z < Z.of_nat sm -> size_t c z = z.
Proof. intros. unfold size_t. cbn [smod c str_cfg]. apply Z.mod_small. lia. Qed.
Lemma count_t_id n : (n < sm)%nat -> count_t c (Z.of_nat n) = n.
Proof. intros. unfold count_t. rewrite size_t_id by lia. apply Nat2Z.id. Qed.

Lemma avail_at b text k : sb_at b text k -> s_xin_avail c b = Ok (Z.of_nat (length text - k)).
Proof.
  intros A. pose proof (at_room _ _ _ A) as R. destruct A as (H & L & G & K).
  unfold s_xin_avail. rewrite (size_ok _ _ _ H). cbn [bind]. rewrite G.
  rewrite size_t_id by lia. f_equal. lia.
Qed.
Lemma xsgetc_at_str b text k x : sb_at b text k -> nth_error text k = Some x -> s_xsgetc c b = Ok x.
Proof.
  intros A E. pose proof (at_room _ _ _ A) as R. destruct A as (H & L & G & K).
  assert (k < length text)%nat by (apply nth_error_Some; congruence).
  unfold s_xsgetc. rewrite G, count_t_id by lia.
  destruct (h_shape _ _ _ H) as (rest & Eb & _). apply rd_ok. rewrite Eb.
  now rewrite nth_error_app1.
Qed.
Lemma sgetc_at_str b text k : sb_at b text k -> plain tr text ->
  s_sgetc c tr b = Ok (answer tr (nth_error text k)).
Proof.
  intros A P. unfold s_sgetc. rewrite (avail_at _ _ _ A). cbn [bind].
  destruct (Z.eqb_spec (Z.of_nat (length text - k)) 0) as [E|E].
  - replace (nth_error text k) with (@None Z); [reflexivity|]. symmetry. apply nth_error_None. lia.
  - destruct (nth_error text k) as [x|] eqn:Ex; [|apply nth_error_None in Ex; lia].
    rewrite (xsgetc_at_str _ _ _ _ A Ex). cbn [bind answer].
    destruct (plain_nth _ _ _ _ P Ex) as (_ & _ & Q & _). now rewrite Q.
Qed.
Lemma gbump_str b text k n : sb_at b text k -> plain tr text -> (k + n <= length text)%nat ->
  sb_at (s_gbump b (Z.of_nat n)) text (k + n).
Proof.
  intros (H & L & G & K) P R. split; [exact H|]. split; [exact L|]. split; [|exact R].
  cbn [s_gbump gpos]. rewrite G. destruct P as (P & _). rewrite Z.mod_small; lia.
Qed.
Lemma sbumpc_str b text k : sb_at b text k -> plain tr text ->
  exists b1, s_sbumpc c tr b = Ok (answer tr (nth_error text k), b1) /\ sb_at b1 text (Nat.min (k + 1) (length text)).
Proof.
  intros A P. pose proof A as (_ & _ & _ & K). unfold s_sbumpc. rewrite (sgetc_at_str _ _ _ A P). cbn [bind].
  pose proof (answer_eof tr text k P) as Q. rewrite Q. destruct (Nat.ltb_spec k (length text)) as [Lt|Ge].
  - cbn [negb]. eexists; split; [reflexivity|]. rewrite Nat.min_l by lia.
    change 1 with (Z.of_nat 1). apply gbump_str; auto. lia.
  - cbn [negb]. eexists; split; [|rewrite Nat.min_r by lia; replace (length text) with k by lia; exact A].
    f_equal. f_equal. replace (nth_error text k) with (@None Z); [reflexivity|].
    symmetry. apply nth_error_None. lia.
Qed.
Lemma snextc_str b text k : sb_at b text k -> plain tr text ->
  exists b1, s_snextc c tr b = Ok (answer tr (nth_error text (k + 1)), b1) /\ sb_at b1 text (Nat.min (k + 1) (length text)).
Proof.
  intros A P. unfold s_snextc. destruct (sbumpc_str _ _ _ A P) as (b1 & -> & A1). cbn [bind].
  rewrite (answer_eof tr text k P). destruct (Nat.ltb_spec k (length text)) as [Lt|Ge]; cbn [negb].
  - rewrite (sgetc_at_str _ _ _ A1 P). cbn [bind]. rewrite Nat.min_l by lia.
    exists b1. split; [reflexivity|]. rewrite Nat.min_l in A1 by lia. exact A1.
  - exists b1. split; [|exact A1]. replace (nth_error text (k + 1)) with (@None Z); [reflexivity|].
    symmetry. apply nth_error_None. lia.
Qed.
Lemma sungetc_str b text k : sb_at b text k -> plain tr text ->
  exists b1, s_sungetc c tr b = Ok (hd 0 (fst (read_step tr text Ungetc k)), b1) /\
    sb_at b1 text (snd (read_step tr text Ungetc k)).
Proof.
  intros A P. pose proof A as (H & L & G & K). unfold s_sungetc. rewrite G. destruct k as [|j].
  - cbn. exists b. split; [reflexivity|exact A].
  - destruct (Z.eqb_spec (Z.of_nat (S j)) 0); [lia|].
    assert (A1 : sb_at (s_gbump b (-1)) text j).
    { split; [exact H|]. split; [exact L|]. split; [|lia]. cbn [s_gbump gpos]. rewrite G.
      destruct P as (P & _). rewrite Z.mod_small; lia. }
    destruct (nth_error text j) as [x|] eqn:Ex; [|apply nth_error_None in Ex; lia].
    rewrite (xsgetc_at_str _ _ _ _ A1 Ex). cbn [bind read_step fst snd hd]. rewrite Ex. cbn [answer].
    destruct (plain_nth _ _ _ _ P Ex) as (_ & _ & Q & _). rewrite Q. eexists; split; [reflexivity|exact A1].
Qed.
Lemma sgetn_str b text k n : sb_at b text k -> plain tr text ->
  (n < sm)%nat -> na = true \/ (n + length text < sm)%nat ->
  exists b1, s_sgetn c b (Z.of_nat n) = Ok (firstn n (skipn k text), b1) /\
    sb_at b1 text (Nat.min (k + n) (length text)).
Proof.
  intros A P Hn Hs. pose proof (at_room _ _ _ A) as R. pose proof A as (H & L & G & K).
  unfold s_sgetn. rewrite G, !count_t_id by lia.
  rewrite (copy_to_ok c _ _ n k H K); [|cbn [narrow smod c str_cfg]; destruct Hs; [now left|right; lia]].
  cbn [bind]. eexists; split; [reflexivity|].
  replace (Nat.min (k + n) (length text)) with (k + Nat.min n (length text - k))%nat by lia.
  apply gbump_str; auto. lia.
Qed.
Lemma avail_str b text k : sb_at b text k -> plain tr text ->
  (tr = EstdTraits -> Z.of_nat (length text) < 32768) ->
  s_in_avail c tr b = Ok (if Nat.ltb k (length text) then Z.of_nat (length text - k) else -1).
Proof.
  intros A P E. unfold s_in_avail. rewrite (avail_at _ _ _ A). cbn [bind]. destruct P as (P & _).
  assert (int_type tr (Z.of_nat (length text - k)) = Z.of_nat (length text - k)) as ->.
  { destruct tr; cbn [int_type]; [rewrite s32_id; lia|]. specialize (E eq_refl).
    unfold wraps. change (2 ^ (16 - 1)) with 32768. change (2 ^ 16) with 65536.
    rewrite Z.mod_small by lia. lia. }
  destruct (Nat.ltb_spec k (length text)).
  - destruct (Z.ltb_spec 0 (Z.of_nat (length text - k))); [reflexivity|lia].
  - destruct (Z.ltb_spec 0 (Z.of_nat (length text - k))); [lia|reflexivity].
Qed.

Lemma put_str b text k xs : sb_at b text k -> fits nul N (text ++ xs) ->
  exists v, append c (str b) xs (length xs) = vret v /\ sb_at (Sbf v (gpos b)) (text ++ xs) k.
Proof.
  intros (H & L & G & K) (F & Z0). 
  assert (NX : Forall (nz c) xs).
  { apply str_nz. intros E I. apply (Z0 E). apply in_or_app. now right. }
  rewrite app_length in F.
  destruct (append_ok c (str b) text xs H) as (v & E & H1 & L1); auto.
  { pose proof (shape_len c _ _ (h_shape _ _ _ H)) as Q. rewrite L in Q.
    pose proof (room_tlen sm na nd nul N). fold c in H0. lia. }
  exists v. split; [exact E|]. split; [exact H1|]. split; [cbn; lia|]. split; [exact G|].
  rewrite app_length. lia.
Qed.

(* conditions of one step *)
Definition step_fine (o : sop) (text1 : list Z) : Prop :=
  fits nul N text1 /\ plain tr text1 /\ (tr = EstdTraits -> Z.of_nat (length text1) < 32768) /\
  match o with SGet (Getn n) => (n < sm)%nat /\ (na = true \/ (n + length text1 < sm)%nat) | _ => True end.

Lemma step_str o b text k : sb_at b text k -> step_fine o (fst (snd (sstep tr o text k))) ->
  exists b1, s_step c tr o b = vret (fst (sstep tr o text k), b1) /\
    sb_at b1 (fst (snd (sstep tr o text k))) (snd (snd (sstep tr o text k))).
Proof.
  intros A (F & P & E & X). destruct o as [[ch|s]|[| | | |n]| |]; cbn [sstep s_step] in *.
  - cbn [fst snd] in *. destruct (put_str b text k [ch] A F) as (v & Q & A1).
    unfold s_sputc, push_back. cbn [length] in Q. rewrite Q. cbn [vbind vret bind].
    eexists; split; [|exact A1]. rewrite to_int_code; [reflexivity|].
    destruct P as (_ & P & _). rewrite Forall_forall in P. apply P. apply in_or_app. right. now left.
  - cbn [fst snd] in *. destruct (put_str b text k s A F) as (v & Q & A1).
    assert (length s < sm)%nat.
    { destruct F as (F & _). rewrite app_length in F.
      pose proof (room_le nul N). lia. }
    unfold s_sputn. rewrite count_t_id by assumption. rewrite Q. cbn [vbind vret bind].
    eexists; split; [reflexivity|exact A1].
  - cbn [read_step fst snd] in *. rewrite (sgetc_at_str _ _ _ A P). cbn [lift vbind vret bind].
    eexists; split; [reflexivity|exact A].
  - cbn [read_step fst snd] in *. destruct (sbumpc_str _ _ _ A P) as (b1 & -> & A1).
    cbn [lift vbind vret bind]. eexists; split; [reflexivity|exact A1].
  - cbn [read_step fst snd] in *. destruct (snextc_str _ _ _ A P) as (b1 & -> & A1).
    cbn [lift vbind vret bind]. eexists; split; [reflexivity|exact A1].
  - assert (P' : plain tr text) by (destruct k; exact P).
    destruct (sungetc_str _ _ _ A P') as (b1 & -> & A1).
    cbn [lift vbind vret bind]. exists b1. destruct k; cbn [read_step fst snd hd] in *; split; auto.
  - cbn [read_step fst snd] in *. destruct X as (X1 & X2).
    destruct (sgetn_str _ _ _ n A P X1 X2) as (b1 & -> & A1).
    cbn [lift vbind vret bind]. eexists; split; [reflexivity|exact A1].
  - cbn [fst snd] in *. rewrite (avail_str _ _ _ A P E). cbn [lift vbind vret bind].
    eexists; split; [reflexivity|exact A].
  - cbn [fst snd] in *. unfold s_str. pose proof A as (H & _).
    rewrite (ll_iter _ _ _ (holds_looks _ _ _ H)). cbn [lift vbind vret bind].
    eexists; split; [reflexivity|exact A].
Qed.

Lemma sstep_text o text k : fst (snd (sstep tr o text k)) = text ++ written [o].
Proof.
  destruct o as [[ch|s]|o| |]; cbn; try now rewrite ?app_nil_r.
  destruct (read_step tr text o k). cbn. now rewrite app_nil_r.
Qed.
Lemma written_cons o t : written (o :: t) = written [o] ++ written t.
Proof. destruct o as [[ch|s]|o| |]; cbn; rewrite ?app_nil_r; reflexivity. Qed.

Lemma fits_app_l l r : fits nul N (l ++ r) -> fits nul N l.
Proof.
  intros (F & Z0). rewrite app_length in F. split; [lia|]. intros E I. apply (Z0 E). apply in_or_app. now left.
Qed.
Lemma plain_app_l l r : plain tr (l ++ r) -> plain tr l.
Proof.
  intros (P & C & E). rewrite app_length in P. apply Forall_app in C. split; [lia|]. split; [apply C|].
  intros T I. apply (E T). apply in_or_app. now left.
Qed.

Lemma run_str os : forall b text k, sb_at b text k ->
  fits nul N (text ++ written os) -> plain tr (text ++ written os) ->
  (tr = EstdTraits -> Z.of_nat (length (text ++ written os)) < 32768) ->
  (forall n, In (SGet (Getn n)) os -> (n < sm)%nat /\ (na = true \/ (n + length (text ++ written os) < sm)%nat)) ->
  exists b1, s_run c tr os b = vret (fst (srun tr os text k), b1) /\
    sb_at b1 (fst (snd (srun tr os text k))) (snd (snd (srun tr os text k))).
Proof.
  induction os as [|o t IH]; intros b text k A F P E X.
  - cbn. eexists; split; [reflexivity|exact A].
  - rewrite written_cons, app_assoc in *. rewrite <- (sstep_text o text k) in *.
    destruct (step_str o b text k A) as (b1 & Q & A1).
    { split; [eapply fits_app_l; exact F|]. split; [eapply plain_app_l; exact P|]. split.
      - intros T. specialize (E T). rewrite app_length in E. lia.
      - destruct o as [|[| | | |n]| |]; trivial. destruct (X n (or_introl eq_refl)) as (X1 & X2).
        split; [exact X1|]. destruct X2 as [X2|X2]; [now left|right]. rewrite app_length in X2. lia. }
    cbn [s_run srun]. rewrite Q. cbn [vbind vret bind].
    destruct (sstep tr o text k) as [a [text1 k1]]. cbn [fst snd] in *.
    destruct (IH b1 text1 k1 A1 F P E) as (b2 & -> & A2).
    { intros n I. apply X. now right. }
    cbn [vbind vret bind]. destruct (srun tr t text1 k1) as [l [text2 k2]]. cbn [fst snd] in *.
    eexists; split; [reflexivity|exact A2].
Qed.

Lemma srun_text os : forall text k, fst (snd (srun tr os text k)) = text ++ written os.
Proof.
  induction os as [|o t IH]; intros text k; [cbn; now rewrite app_nil_r|].
  cbn [srun]. rewrite written_cons, app_assoc, <- (sstep_text o text k).
  destruct (sstep tr o text k) as [a [text1 k1]]. cbn [fst snd]. rewrite <- (IH text1 k1).
  destruct (srun tr t text1 k1) as [l [text2 k2]]. reflexivity.
Qed.

(* too much *)
Lemma put_over b text k xs : sb_at b text k -> (room nul N < length text + length xs)%nat ->
  (length text + length xs < sm)%nat ->
  s_sputn c b xs = if nd then UB else if Nat.ltb N (length text + length xs) then Ok Assert else UB.
Proof.
  intros (H & L & G & K) O W. unfold s_sputn. rewrite count_t_id by lia.
  pose proof (step_over c (str b) text (Append xs) (text ++ xs) H eq_refl) as Q. cbn [step] in Q.
  rewrite wrap_ok in Q by (cbn [smod c str_cfg]; lia). rewrite Q.
  - unfold over. rewrite L. cbn [nodebug c str_cfg]. rewrite app_length.
    destruct nd; [reflexivity|]. destruct (Nat.ltb N (length text + length xs)); reflexivity.
  - rewrite L, app_length. pose proof (shape_len c _ _ (h_shape _ _ _ H)) as Q1. rewrite L in Q1.
    pose proof (room_tlen sm na nd nul N). fold c in H0. lia.
  - cbn [smod c str_cfg]. rewrite app_length. lia.
Qed.
Lemma put1_over b text k x : sb_at b text k -> length text = room nul N -> (length text + 1 < sm)%nat ->
  s_sputc c tr b x = if nd then UB else if Nat.ltb N (length text + 1) then Ok Assert else UB.
Proof.
  intros A O W. pose proof (put_over b text k [x] A) as Q. cbn [length] in Q.
  unfold s_sputn in Q. cbn [length] in Q. rewrite count_t_id in Q by lia. unfold s_sputc, push_back.
  specialize (Q ltac:(lia) W). destruct (append c (str b) [x] 1) as [[v|]| |]; cbn [vbind vret bind] in *; try discriminate.
  - exfalso. clear - Q. destruct nd; [discriminate|]. destruct (Nat.ltb N (length text + 1)); discriminate.
  - exact Q.
  - exact Q.
  - exact Q.
Qed.

Lemma clear_str b text k : sb_at b text k ->
  exists b1, s_clear c b = vret b1 /\ holds c (str b1) [] /\ length (buf (str b1)) = N /\ gpos b1 = Z.of_nat k /\
    skipn 1 (buf (str b1)) = skipn 1 (buf (str b)).
Proof.
  intros A. pose proof A as (H & L & G & K). 
  destruct (resize_down_ok c (str b) text 0 H) as (v & E & H1 & L1); [lia|].
  unfold s_clear, clear, resize. rewrite E. cbn [vbind vret bind].
  eexists; split; [reflexivity|]. cbn [str gpos]. split; [exact H1|]. split; [lia|]. split; [exact G|].
  unfold ensure_total_size in E. rewrite ensure_cap_ok in E; [|apply H|lia].
  cbn [vbind vret bind lift] in E. unfold set_size in E.
  destruct (kind c) as [|z is0]; cbn [vbind vret bind lift] in E.
  - injection E as <-. reflexivity.
  - destruct (buf (str b)) as [|x t] eqn:Eb; [cbn in E; discriminate|].
    cbn in E. injection E as <-. reflexivity.
Qed.

(* the conversions of the count *)
Lemma sgetn_count b n : s_sgetn c b (Z.of_nat n) = s_sgetn c b (Z.of_nat (n mod sm)).
Proof.
  unfold s_sgetn, count_t, size_t. cbn [smod c str_cfg]. rewrite Nat2Z.inj_mod.
  rewrite Z.mod_mod by lia. reflexivity.
Qed.

(* after clear() the rest of the old text is still read *)
Lemma clear_stale b text k x : sb_at b text k -> plain tr text -> (1 <= k)%nat -> nth_error text k = Some x ->
  exists b1, s_clear c b = vret b1 /\ s_str c b1 = Ok [] /\ s_sgetc c tr b1 = Ok (code tr x).
Proof.
  intros A P K1 Ex. pose proof (at_room _ _ _ A) as R. destruct (clear_str _ _ _ A) as (b1 & E & H1 & L1 & G1 & SK).
  pose proof A as (H & L & G & K).
  assert (k < length text)%nat by (apply nth_error_Some; congruence).
  exists b1. split; [exact E|]. split; [exact (ll_iter _ _ _ (holds_looks _ _ _ H1))|].
  unfold s_sgetc, s_xin_avail. rewrite (size_ok _ _ _ H1). cbn [bind length]. rewrite G1.
  assert (size_t c (Z.of_nat 0 - Z.of_nat k) <> 0) as NZ.
  { unfold size_t. cbn [smod c str_cfg]. replace (Z.of_nat 0 - Z.of_nat k) with (Z.of_nat sm - Z.of_nat k + (-1) * Z.of_nat sm) by lia.
    rewrite Z.mod_add by lia. rewrite Z.mod_small by lia. lia. }
  destruct (Z.eqb_spec (size_t c (Z.of_nat 0 - Z.of_nat k)) 0) as [|_]; [contradiction|].
  unfold s_xsgetc. rewrite G1, count_t_id by lia.
  replace k with (1 + (k - 1))%nat by lia. 
  assert (nth_error (buf (str b1)) (1 + (k - 1)) = Some x) as Q.
  { rewrite <- nth_error_skipn, SK, nth_error_skipn. replace (1 + (k - 1))%nat with k by lia.
    destruct (h_shape _ _ _ H) as (rest & Eb & _). rewrite Eb. now rewrite nth_error_app1. }
  rewrite (rd_ok _ _ _ Q). cbn [bind]. destruct (plain_nth _ _ _ _ P Ex) as (_ & _ & Q1 & _). now rewrite Q1.
Qed.

(* seeking *)
Lemma seek_at b text k p : sb_at b text k -> (Z.of_nat (length text) < 65536)%Z -> (p <= length text)%nat ->
  sb_at (snd (s_seekpos b (Z.of_nat p))) text p /\ fst (s_seekpos b (Z.of_nat p)) = Z.of_nat p.
Proof.
  intros (H & L & G & K) B Hp. unfold s_seekpos. rewrite Z.mod_small by lia. cbn [fst snd].
  split; [|reflexivity]. split; [exact H|]. split; [exact L|]. split; [reflexivity|exact Hp].
Qed.
Lemma seek_past b text k p : sb_at b text k -> (length text < p)%nat -> (p < sm)%nat -> Z.of_nat p < 65536 ->
  s_sgetc c tr (snd (s_seekpos b (Z.of_nat p))) =
    match nth_error (buf (str b)) p with Some x => Ok (to_int tr x) | None => UB end.
Proof.
  intros A Hp Hs B. pose proof (at_room _ _ _ A) as R. destruct A as (H & L & G & K).
  unfold s_sgetc, s_xin_avail, s_seekpos. cbn [snd str gpos]. rewrite (size_ok _ _ _ H). cbn [bind].
  rewrite (Z.mod_small (Z.of_nat p)) by lia.
  assert (size_t c (Z.of_nat (length text) - Z.of_nat p) <> 0) as NZ.
  { unfold size_t. cbn [smod c str_cfg]. replace (Z.of_nat (length text) - Z.of_nat p)
      with (Z.of_nat (length text) - Z.of_nat p + Z.of_nat sm + (-1) * Z.of_nat sm) by lia.
    rewrite Z.mod_add by lia. rewrite Z.mod_small by lia. lia. }
  destruct (Z.eqb_spec (size_t c (Z.of_nat (length text) - Z.of_nat p)) 0) as [|_]; [contradiction|].
  unfold s_xsgetc. cbn [str gpos]. rewrite count_t_id by lia. unfold rd.
  destruct (nth_error (buf (str b)) p); reflexivity.
Qed.
End P.

Lemma after_str sm na nd nul N vos l v : str_after sm na nd nul N vos l v ->
  (N < sm)%nat /\ sb_at sm na nd nul N (s_init v) l 0.
Proof.
  intros H. pose proof H as [HN _]. destruct (str_after_holds _ _ _ _ _ _ _ _ H) as [HH L].
  split; [exact HN|]. split; [exact HH|]. split; [exact L|]. split; [reflexivity|lia].
Qed.

(* a 0 written to a null terminated string *)
Lemma put_zero sm na nd N b text k tr : (N < sm)%nat -> sb_at sm na nd true N b text k ->
  (length text < room true N)%nat ->
  exists b1, s_sputc (str_cfg sm na nd true) tr b 0 = vret (to_int tr 0, b1) /\
    sb_at sm na nd true N b1 text k.
Proof.
  intros HN (H & L & G & K) R. cbn [room] in R.
  destruct (grow_ok (str_cfg sm na nd true) (str b) text 1 H) as (v & mid & E & Lm & L1 & (rest & Eb & _)).
  { rewrite str_tlen. lia. }
  unfold s_sputc, push_back, append. rewrite E. cbn [vbind vret bind].
  destruct mid as [|m [|]]; try discriminate. cbn [copy_in].
  rewrite Eb. rewrite <- app_assoc. cbn [app].
  unfold wr. rewrite app_length. cbn [length].
  destruct (Nat.ltb_spec (length text) (length text + S (length (term (str_cfg sm na nd true) ++ rest)))); [|lia].
  cbn [lift bind vbind vret]. eexists; split; [reflexivity|].
  split; [|split; [|split; [exact G|exact K]]].
  - split.
    + exists ([0] ++ rest). cbn [buf str]. split; [|discriminate].
      cbn. clear. induction text as [|a t IH]; cbn; [reflexivity|]. now rewrite IH.
    + apply H.
    + apply H.
    + cbn [buf str]. rewrite upd_length. rewrite app_length. cbn [length]. cbn [smod str_cfg].
      rewrite Eb in L1. rewrite !app_length in L1. cbn [length] in L1. cbn in *. lia.
  - cbn [buf str]. rewrite upd_length, app_length. cbn [length].
    rewrite Eb in L1. rewrite !app_length in L1. cbn [length] in L1. cbn in *. lia.
Qed.
