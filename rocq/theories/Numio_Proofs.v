From Coq Require Import List ZArith Bool Lia.
From Verif Require Import Base BaseLemmas SliceLemmas MachInt Ios_Model Ios_Proofs Streambuf_Model Istream_Model
  Charconv_Model Charconv_Spec Charconv_Proofs Stream_Spec Stream_Proofs Ostream_Spec Ostream_Model Ostream_Proofs
  Numio_Model Numio_Spec.
Import ListNotations.
Local Open Scope Z_scope.
Local Open Scope res_scope.

Notation horner base := (fold_left (fun v d => v * base + d)).

Lemma raise_and_sub_spec t v base d :
  v <= 0 -> 0 <= base -> 0 <= d -> 1 <= bits t ->
  raise_and_sub t v base d = if imin t <=? v * base - d then Some (v * base - d) else None.
Proof.
  intros Hv Hb Hd Hw. unfold raise_and_sub.
  assert (v * base <= 0) by nia. pose proof (imax_nonneg t Hw).
  destruct (Z.leb_spec (imin t) (v * base - d)).
  - rewrite !fits_true by (unfold in_range; lia). reflexivity.
  - destruct (fits t (v * base)); [|reflexivity]. rewrite fits_false by (unfold in_range; lia). reflexivity.
Qed.

Lemma from_char_digit base c d : 2 <= base <= 36 -> is_digit base c d -> from_char base c = Some d.
Proof. intros Hb H. apply from_char_some; assumption. Qed.

Lemma digit_nonneg base c d : is_digit base c d -> 0 <= d < base.
Proof. intros [H1 H2]. apply digit_value_nonneg in H1. lia. Qed.

(* rest of the text behind the digits, when no overflow happened *)
Lemma drive_rest t base pos st err v rest n : 2 <= base <= 36 -> no_digit_head base rest ->
  st = (if pos : bool then GPos else GNeg) ->
  drive t base st err v rest n = (n, match rest with [] => Z.lor err eofbit | _ => err end, v).
Proof.
  intros Hb Hr ->. destruct rest as [|c rest]; [reflexivity|]. cbn [drive].
  assert (F : from_char base c = None) by (apply from_char_none; assumption).
  destruct pos; cbn [num_get1]; unfold nominal; rewrite F; reflexivity.
Qed.

Lemma drive_pos t base : 2 <= base <= 36 -> forall pre ds err v rest n,
  spells base pre ds -> no_digit_head base rest -> 0 <= v -> horner base ds v <= imax t ->
  drive t base GPos err v (pre ++ rest) n
  = ((n + length pre)%nat, match rest with [] => Z.lor err eofbit | _ => err end, horner base ds v).
Proof.
  intros Hb pre. induction pre as [|c pre IH]; intros ds err v rest n Hs Hr Hv Hf.
  - inversion Hs; subst. cbn [app length fold_left]. rewrite Nat.add_0_r. apply (drive_rest t base true); auto.
  - inversion Hs as [|? d ? ds' Hd Hs']; subst. cbn [app drive num_get1 length fold_left] in *.
    pose proof (digit_nonneg _ _ _ Hd). unfold nominal. rewrite (from_char_digit base c d) by assumption.
    pose proof (fold_ge base ds' (v * base + d) ltac:(lia) ltac:(nia) (spells_digits _ _ _ Hs')).
    rewrite raise_and_add_spec by lia. destruct (Z.leb_spec (v * base + d) (imax t)); [|lia].
    cbn [gdone gst gerr gval]. rewrite IH with (ds := ds'); auto; try nia. do 2 f_equal. lia.
Qed.

Lemma horner_neg base ds v : horner base (map Z.opp ds) (- v) = - horner base ds v.
Proof.
  revert v. induction ds as [|d ds IH]; intros v; [reflexivity|]. cbn [map fold_left].
  replace (- v * base + - d) with (- (v * base + d)) by ring. apply IH.
Qed.

Lemma drive_neg t base : 2 <= base <= 36 -> 1 <= bits t -> forall pre ds err v rest n,
  spells base pre ds -> no_digit_head base rest -> 0 <= v -> imin t <= - horner base ds v ->
  drive t base GNeg err (- v) (pre ++ rest) n
  = ((n + length pre)%nat, match rest with [] => Z.lor err eofbit | _ => err end, - horner base ds v).
Proof.
  intros Hb Hw pre. induction pre as [|c pre IH]; intros ds err v rest n Hs Hr Hv Hf.
  - inversion Hs; subst. cbn [app length fold_left]. rewrite Nat.add_0_r. apply (drive_rest t base false); auto.
  - inversion Hs as [|? d ? ds' Hd Hs']; subst. cbn [app drive num_get1 length fold_left] in *.
    pose proof (digit_nonneg _ _ _ Hd). unfold nominal. rewrite (from_char_digit base c d) by assumption.
    pose proof (fold_ge base ds' (v * base + d) ltac:(lia) ltac:(nia) (spells_digits _ _ _ Hs')).
    rewrite raise_and_sub_spec by lia. destruct (Z.leb_spec (imin t) (- v * base - d)); [|lia].
    cbn [gdone gst gerr gval]. replace (- v * base - d) with (- (v * base + d)) by ring.
    rewrite IH with (ds := ds'); auto; try nia. do 2 f_equal. lia.
Qed.

(* overflow: the digits up to and including the one that overflows are passed *)
Lemma drive_pos_over t base : 2 <= base <= 36 -> forall pre ds err v rest n,
  spells base pre ds -> 0 <= v <= imax t -> imax t < horner base ds v ->
  exists p1 p2, pre = p1 ++ p2 /\ p1 <> [] /\
    drive t base GPos err v (pre ++ rest) n
    = drive t base GOverflow (Z.lor err failbit) (imax t) (p2 ++ rest) (n + length p1).
Proof.
  intros Hb pre. induction pre as [|c pre IH]; intros ds err v rest n Hs Hv Hf.
  - inversion Hs; subst. cbn [fold_left] in Hf. lia.
  - inversion Hs as [|? d ? ds' Hd Hs']; subst. cbn [app drive num_get1 length fold_left] in *.
    pose proof (digit_nonneg _ _ _ Hd). unfold nominal. rewrite (from_char_digit base c d) by assumption.
    rewrite raise_and_add_spec by lia. destruct (Z.leb_spec (v * base + d) (imax t)); cbn [gdone gst gerr gval].
    + destruct (IH ds' err (v * base + d) rest (S n)) as (p1 & p2 & -> & N & E); auto; try nia.
      exists (c :: p1), p2. split; [reflexivity|]. split; [discriminate|]. rewrite E. f_equal. cbn [length]. lia.
    + exists [c], pre. split; [reflexivity|]. split; [discriminate|]. f_equal. cbn [length]. lia.
Qed.

Lemma drive_neg_over t base : 2 <= base <= 36 -> 1 <= bits t -> forall pre ds err v rest n,
  spells base pre ds -> 0 <= v -> imin t <= - v -> - horner base ds v < imin t ->
  exists p1 p2, pre = p1 ++ p2 /\ p1 <> [] /\
    drive t base GNeg err (- v) (pre ++ rest) n
    = drive t base GOverflow (Z.lor err failbit) (imin t) (p2 ++ rest) (n + length p1).
Proof.
  intros Hb Hw pre. induction pre as [|c pre IH]; intros ds err v rest n Hs Hv Hm Hf.
  - inversion Hs; subst. cbn [fold_left] in Hf. lia.
  - inversion Hs as [|? d ? ds' Hd Hs']; subst. cbn [app drive num_get1 length fold_left] in *.
    pose proof (digit_nonneg _ _ _ Hd). unfold nominal. rewrite (from_char_digit base c d) by assumption.
    rewrite raise_and_sub_spec by lia. destruct (Z.leb_spec (imin t) (- v * base - d)); cbn [gdone gst gerr gval].
    + replace (- v * base - d) with (- (v * base + d)) in * by ring.
      destruct (IH ds' err (v * base + d) rest (S n)) as (p1 & p2 & -> & N & E); auto; try nia.
      exists (c :: p1), p2. split; [reflexivity|]. split; [discriminate|]. rewrite E. f_equal. cbn [length]. lia.
    + exists [c], pre. split; [reflexivity|]. split; [discriminate|]. f_equal. cbn [length]. lia.
Qed.

(* after an overflow everything but digits is passed *)
Lemma drive_overflow t base err v : 2 <= base <= 36 -> forall text n,
  exists a b, text = a ++ b /\ (forall c d, In c a -> ~ is_digit base c d) /\
    (b = [] \/ exists c d b', b = c :: b' /\ is_digit base c d) /\
    drive t base GOverflow err v text n
    = ((n + length a)%nat, match b with [] => Z.lor err eofbit | _ => err end, v).
Proof.
  intros Hb text. induction text as [|c text IH]; intros n.
  - exists [], []. split; [reflexivity|]. split; [intros ? ? []|]. split; [left; reflexivity|].
    cbn. now rewrite Nat.add_0_r.
  - cbn [drive num_get1]. destruct (from_char base c) as [d|] eqn:F; cbn [gdone gst gerr gval].
    + exists [], (c :: text). split; [reflexivity|]. split; [intros ? ? []|]. split.
      * right. exists c, d, text. split; [reflexivity|]. apply from_char_some; assumption.
      * cbn [length]. now rewrite Nat.add_0_r.
    + destruct (IH (S n)) as (a & b & -> & Ha & Hb' & E). exists (c :: a), b. split; [reflexivity|].
      split; [|split; [exact Hb'|rewrite E; do 2 f_equal; cbn [length]; lia]].
      intros x d [<-|Hin]; [|apply Ha; exact Hin]. intros Hd. rewrite (from_char_digit base c d) in F by assumption.
      discriminate.
Qed.

(* ---- the whole range ---- *)

Lemma first_digit base pre ds rest : spells base pre ds -> pre <> [] ->
  exists c d p, pre = c :: p /\ is_digit base c d /\ pre ++ rest = c :: p ++ rest.
Proof.
  intros Hs Hn. inversion Hs as [|c d p ds' Hd Hs']; subst; [congruence|]. exists c, d, p. auto.
Qed.

Lemma start_pos t base err text n c d p : 2 <= base <= 36 -> text = c :: p -> is_digit base c d ->
  drive t base GStart err 0 text n = drive t base GPos err 0 text n.
Proof.
  intros Hb -> Hd. cbn [drive num_get1]. pose proof (no_minus_digit base d) as NM.
  destruct (Z.eqb_spec c 45) as [->|_]; [contradiction|]. rewrite andb_false_r.
  unfold nominal. rewrite (from_char_digit base c d) by assumption.
  destruct (raise_and_add t 0 base d); reflexivity.
Qed.

Lemma value_signed_range t base sign ds : 1 <= bits t -> 2 <= base <= 36 -> Forall (fun d => 0 <= d < base) ds ->
  (sign = @nil Z -> (in_range t (value_of base ds) <-> value_of base ds <= imax t)) /\
  (in_range t (- value_of base ds) <-> imin t <= - value_of base ds).
Proof.
  intros Hw Hb F. pose proof (value_nonneg base ds ltac:(lia) F). pose proof (imin_nonpos t). pose proof (imax_nonneg t Hw).
  unfold in_range. split; intros; lia.
Qed.

Lemma range_in t base text sign pre ds rest err : 2 <= base <= 36 -> 1 <= bits t ->
  number_text t base text sign pre ds rest -> pre <> [] ->
  in_range t (signed_value base sign ds) ->
  drive t base GStart err 0 text 0
  = ((length sign + length pre)%nat, match rest with [] => Z.lor err eofbit | _ => err end, signed_value base sign ds).
Proof.
  intros Hb Hw (-> & Hsg & Hs & Hr) Hn Hin.
  destruct Hsg as [[-> Sg]|[-> Sg]]; cbn [signed_value app length Nat.add] in *.
  - cbn [drive num_get1]. rewrite Sg. change (45 =? 45) with true. cbn [andb gdone gst gerr gval].
    change (drive t base GNeg err 0 (pre ++ rest) 1) with (drive t base GNeg err (- 0) (pre ++ rest) 1).
    rewrite (drive_neg t base Hb Hw pre ds err 0 rest 1); auto; [lia|]. unfold in_range in Hin. exact (proj1 Hin).
  - destruct (first_digit base pre ds rest Hs Hn) as (c & d & p & _ & Hd & E).
    rewrite (start_pos t base err (pre ++ rest) 0 c d (p ++ rest)) by assumption.
    rewrite (drive_pos t base Hb pre ds err 0 rest 0); auto; [lia|]. exact (proj2 Hin).
Qed.

Lemma range_over_gen t base text sign pre ds rest err : 2 <= base <= 36 -> 1 <= bits t ->
  text = sign ++ pre ++ rest ->
  (sign = [45] /\ sgn t = true \/ sign = [] /\ (sgn t = true -> hd_error text <> Some 45)) ->
  spells base pre ds -> ~ in_range t (signed_value base sign ds) ->
  exists p1 p2, pre = p1 ++ p2 /\ p1 <> [] /\
    drive t base GStart err 0 text 0
    = drive t base GOverflow (Z.lor err failbit) (saturate t (signed_value base sign ds)) (p2 ++ rest)
        (length sign + length p1).
Proof.
  intros Hb Hw -> Hsg Hs Hin.
  pose proof (spells_digits _ _ _ Hs) as F.
  pose proof (value_nonneg base ds ltac:(lia) F). pose proof (imin_nonpos t). pose proof (imax_nonneg t Hw).
  destruct (value_signed_range t base [] ds Hw Hb F) as [R1 R2]. specialize (R1 eq_refl).
  destruct Hsg as [[-> Sg]|[-> Sg]]; cbn [signed_value app length Nat.add] in *.
  - assert (Hlt : - value_of base ds < imin t) by (apply Z.nle_gt; intro; apply Hin, R2; lia).
    replace (saturate t (- value_of base ds)) with (imin t) by (unfold saturate; lia).
    cbn [drive num_get1]. rewrite Sg. change (45 =? 45) with true. cbn [andb gdone gst gerr gval].
    change (drive t base GNeg err 0 (pre ++ rest) 1) with (drive t base GNeg err (- 0) (pre ++ rest) 1).
    destruct (drive_neg_over t base Hb Hw pre ds err 0 rest 1) as (p1 & p2 & E1 & N & E); auto; try lia.
    exists p1, p2. auto.
  - assert (Hlt : imax t < value_of base ds) by (apply Z.nle_gt; intro; apply Hin, R1; lia).
    replace (saturate t (value_of base ds)) with (imax t) by (unfold saturate; lia).
    assert (Hn : pre <> []).
    { intros ->. inversion Hs; subst. cbn in Hlt. lia. }
    destruct (first_digit base pre ds rest Hs Hn) as (c & d & p & _ & Hd & E).
    rewrite (start_pos t base err (pre ++ rest) 0 c d (p ++ rest)) by assumption.
    destruct (drive_pos_over t base Hb pre ds err 0 rest 0) as (p1 & p2 & E1 & N & E'); auto; try lia.
    exists p1, p2. auto.
Qed.

Lemma range_over t base text sign pre ds rest err : 2 <= base <= 36 -> 1 <= bits t ->
  number_text t base text sign pre ds rest -> ~ in_range t (signed_value base sign ds) ->
  exists p1 p2, pre = p1 ++ p2 /\ p1 <> [] /\
    drive t base GStart err 0 text 0
    = drive t base GOverflow (Z.lor err failbit) (saturate t (signed_value base sign ds)) (p2 ++ rest)
        (length sign + length p1).
Proof. intros Hb Hw (E & Hsg & Hs & _) I. now apply range_over_gen. Qed.

Lemma range_base_ok bf : 2 <= range_base bf <= 36.
Proof. unfold range_base. destruct (bf =? f_oct); [lia|]. destruct (bf =? f_hex); lia. Qed.

(* ---- the stream driver does what the range driver does ---- *)

Lemma isbi_next_at tr data k : plain tr data -> (k < length data)%nat ->
  isbi_next tr (at_pos data k) = Ok (at_pos data (k + 1), negb (Nat.ltb (k + 1) (length data))).
Proof.
  intros P Hk. unfold isbi_next. rewrite snextc_at by (try assumption; lia). cbn [bind].
  rewrite answer_eof by (try assumption; lia). rewrite Nat.min_l by lia.
  destruct (Nat.ltb_spec (k + 1) (length data)); cbn [negb andb]; [reflexivity|].
  replace (k + 1)%nat with (length data) by lia.
  unfold in_avail. rewrite xin_avail_at by (try apply P; lia). rewrite Nat.sub_diag. destruct tr; reflexivity.
Qed.

Lemma sdrive_at tr t base data : plain tr data -> forall text fuel k st err v n m err' v',
  (k < length data)%nat -> skipn k data = text -> (length text <= fuel)%nat ->
  drive t base st err v text n = ((n + m)%nat, err', v') ->
  sdrive fuel tr t base st err v (at_pos data k) = Ok (at_pos data (k + m), err', v').
Proof.
  intros P text. induction text as [|c text IH]; intros fuel k st err v n m err' v' Hk Hs Hf E.
  - apply (f_equal (@length Z)) in Hs. rewrite skipn_length in Hs. cbn in Hs. lia.
  - destruct fuel as [|fuel]; [cbn in Hf; lia|]. cbn [sdrive].
    assert (Ec : nth_error data k = Some c).
    { replace k with (k + 0)%nat by lia. rewrite <- nth_error_skipn, Hs. reflexivity. }
    rewrite sgetc_at by (try assumption; lia). rewrite Ec. cbn [bind answer].
    destruct (plain_nth _ _ _ _ P Ec) as (Hc & _ & _ & _). rewrite to_char_code by assumption.
    cbn [drive] in E. destruct (num_get1 t base st err v c) as [dn st1 err1 v1]. cbn [gdone gst gerr gval] in *.
    destruct dn.
    + injection E as E1 -> ->. do 3 f_equal. f_equal. lia.
    + rewrite isbi_next_at by assumption. cbn [bind].
      assert (Hs' : skipn (k + 1) data = text).
      { pose proof (skipn_nth data k c Ec) as H. rewrite Hs in H. rewrite Nat.add_1_r. congruence. }
      assert (Hl : length text = (length data - (k + 1))%nat) by (rewrite <- Hs'; apply skipn_length).
      destruct (Nat.ltb_spec (k + 1) (length data)); cbn [negb].
      * assert (Hm : (n < n + m)%nat).
        { destruct text as [|c' text']; [cbn in Hl; lia|].
          assert (G : forall tx s e w i j e' w', drive t base s e w tx i = (j, e', w') -> (i <= j)%nat).
          { clear. induction tx as [|x tx IHt]; intros s e w i j e' w'; cbn [drive]; [intros [= <- _ _]; lia|].
            destruct (gdone (num_get1 t base s e w x)); [intros [= <- _ _]; lia|].
            intros H%IHt. lia. }
          apply G in E. lia. }
        destruct m as [|m]; [lia|].
        rewrite (IH fuel (k + 1)%nat st1 err1 v1 (S n) m err' v'); auto.
        -- do 4 f_equal. lia.
        -- cbn in Hf. lia.
        -- rewrite E. do 2 f_equal. lia.
      * assert (text = []) by (destruct text; [reflexivity|cbn in Hl; lia]). rewrite H0 in E.
        cbn [drive] in E. injection E as E1 <- <-. do 4 f_equal. lia.
Qed.

Lemma sdrive_end tr t base data err fuel : plain tr data -> 2 <= base <= 36 ->
  sdrive (S fuel) tr t base GStart err 0 (at_pos data (length data))
  = Ok (at_pos data (length data), Z.lor err failbit, 0).
Proof.
  intros P Hb. cbn [sdrive]. rewrite sgetc_at by (try assumption; lia).
  replace (nth_error data (length data)) with (@None Z) by (symmetry; apply nth_error_None; lia).
  cbn [bind answer]. change (to_char_type (-1)) with (-1). cbn [num_get1].
  change (-1 =? 45) with false. rewrite andb_false_r. unfold nominal.
  replace (from_char base (-1)) with (@None Z); [reflexivity|].
  destruct (from_char base (-1)) as [d|] eqn:F; [|reflexivity].
  apply from_char_some in F; [|assumption]. destruct F as [F _]. unfold digit_value in F. cbn in F. discriminate.
Qed.

(* ---- operator>> for integers ---- *)

Lemma digit_not_space base c d : is_digit base c d -> ~ space c.
Proof.
  intros [H _] Hs. unfold space in Hs. cbn [In] in Hs.
  decompose [or] Hs; subst; try contradiction; discriminate H.
Qed.

Lemma stream_base_ok st base : flag_base st base ->
  stream_base (Z.land (flags st) f_basefield) = Some base /\ 2 <= base <= 36.
Proof. intros [[-> E]|[[-> E]|[-> E]]]; rewrite E; split; (reflexivity || lia). Qed.

Lemma good_state st : good st = true -> rdstate st = 0 /\ iost st = 0.
Proof. unfold good, rdstate. intros H. apply Z.eqb_eq in H. auto. Qed.

Lemma setstate_0 st : good st = true -> setstate st 0 = st.
Proof.
  intros H. destruct (good_state _ H) as [_ E]. destruct st as [f s w l]. cbn in E. subst s. reflexivity.
Qed.

Lemma setstate_good st e : good st = true -> 0 <= e < 16 -> rdstate (setstate st e) = e.
Proof.
  intros H He. destruct (good_state _ H) as [_ E]. unfold setstate, rdstate; cbn [iost]. rewrite E.
  rewrite Z.lor_0_l. apply Z.mod_small. exact He.
Qed.

Lemma skipn_add {A} (l : list A) : forall k n, skipn (k + n) l = skipn n (skipn k l).
Proof. induction l as [|x l IH]; intros [|k] n; cbn; try reflexivity; [now rewrite skipn_nil|apply IH]. Qed.

Lemma extract_at tr t st data base k lead text m err' v' :
  plain tr data -> good st = true -> flag_base st base -> (k <= length data)%nat ->
  skipn k data = lead ++ text -> Forall space lead -> text <> [] ->
  match text with [] => True | c :: _ => ~ space c end ->
  drive t base GStart 0 0 text 0 = (m, err', v') ->
  extract_int tr t (at_str st data k) = Ok (Some v', at_str (setstate st err') data (k + length lead + m)).
Proof.
  intros P Hg Hb Hk Hs Hl Hn Hh E. destruct (good_state _ Hg) as [G1 G2].
  unfold extract_int. rewrite (ws_at tr st data k lead text); auto; [|lia]. cbn [bind at_str ist isbuf].
  destruct (stream_base_ok _ _ Hb) as [-> Hb']. rewrite G1.
  assert (L : length (skipn k data) = length (lead ++ text)) by (rewrite Hs; reflexivity).
  rewrite skipn_length, app_length in L. destruct text as [|c text]; [congruence|]. cbn [length] in L.
  assert (Hs' : skipn (k + length lead) data = c :: text).
  { rewrite skipn_add, Hs. rewrite skipn_app, skipn_all2, Nat.sub_diag by lia. reflexivity. }
  rewrite (sdrive_at tr t base data P (c :: text) _ (k + length lead) GStart 0 0 0 m err' v'); auto; try lia.
  cbn [length idata at_pos]. lia.
Qed.

Lemma nt_head t base text sign pre ds rest : number_text t base text sign pre ds rest ->
  pre <> [] \/ sign <> [] -> text <> [] /\ match text with [] => True | c :: _ => ~ space c end.
Proof.
  intros (-> & Hsg & Hs & Hr) Hn. destruct Hsg as [[-> _]|[-> _]]; cbn [app].
  - split; [discriminate|]. unfold space. cbn. lia.
  - destruct Hn as [Hn|Hn]; [|congruence]. destruct (first_digit base pre ds rest Hs Hn) as (c & d & p & -> & Hd & E).
    cbn [app]. split; [discriminate|]. eapply digit_not_space; eassumption.
Qed.

(* ---- C16 ---- *)

Lemma saturate_in t z : in_range t z -> saturate t z = z.
Proof. unfold saturate, in_range. lia. Qed.

Lemma in_range_dec t z : {in_range t z} + {~ in_range t z}.
Proof.
  unfold in_range. destruct (Z_le_dec (imin t) z); [|right; lia]. destruct (Z_le_dec z (imax t)); [left|right]; lia.
Qed.

Lemma drive_value t base text sign pre ds rest err : 2 <= base <= 36 -> 1 <= bits t ->
  number_text t base text sign pre ds rest -> pre <> [] -> Z.testbit err 1 = false ->
  exists n e, drive t base GStart err 0 text 0 = (n, e, saturate t (signed_value base sign ds)) /\
    (Z.testbit e 1 = true <-> ~ in_range t (signed_value base sign ds)) /\
    (0 <= err < 16 -> 0 <= e < 16).
Proof.
  intros Hb Hw NT Hn He.
  assert (R : forall x y, 0 <= x < 16 -> 0 <= y < 16 -> 0 <= Z.lor x y < 16).
  { intros x y Hx Hy. split; [apply Z.lor_nonneg; lia|].
    change 16 with (2 ^ 4). destruct (Z.eq_dec (Z.lor x y) 0) as [->|N]; [reflexivity|].
    assert (0 <= Z.lor x y) by (apply Z.lor_nonneg; lia).
    apply Z.log2_lt_pow2; [lia|]. rewrite Z.log2_lor by lia.
    destruct (Z.eq_dec x 0) as [->|]; destruct (Z.eq_dec y 0) as [->|]; apply Z.max_lub_lt;
      try (apply Z.log2_lt_pow2; [lia|exact (proj2 Hx)]); try (apply Z.log2_lt_pow2; [lia|exact (proj2 Hy)]);
      reflexivity. }
  destruct (in_range_dec t (signed_value base sign ds)) as [I|I].
  - rewrite (range_in t base text sign pre ds rest err) by assumption. rewrite saturate_in by assumption.
    eexists _, _. split; [reflexivity|]. split.
    + split; [|tauto]. destruct rest; [rewrite Z.lor_spec|]; rewrite He; discriminate.
    + intros. destruct rest; [apply R|]; unfold eofbit; lia.
  - destruct (range_over t base text sign pre ds rest err Hb Hw NT I) as (p1 & p2 & _ & _ & ->).
    destruct (drive_overflow t base (Z.lor err failbit) (saturate t (signed_value base sign ds)) Hb (p2 ++ rest)
      (length sign + length p1)) as (a & b & _ & _ & _ & ->).
    eexists _, _. split; [reflexivity|]. split.
    + split; [tauto|]. intros _. destruct b; rewrite !Z.lor_spec, He; reflexivity.
    + intros. assert (0 <= Z.lor err failbit < 16) by (apply R; unfold failbit; lia).
      destruct b; [apply R|]; unfold eofbit; lia.
Qed.

Lemma C16_range_main t bf err text sign pre ds rest : 1 <= bits t ->
  number_text t (range_base bf) text sign pre ds rest -> pre <> [] -> Z.testbit err 1 = false ->
  exists n e, range_get t bf err text = (n, e, saturate t (signed_value (range_base bf) sign ds)) /\
    (Z.testbit e 1 = true <-> ~ in_range t (signed_value (range_base bf) sign ds)).
Proof.
  intros Hw NT Hn He.
  destruct (drive_value t (range_base bf) text sign pre ds rest err (range_base_ok bf) Hw NT Hn He) as (n & e & E & F & _).
  exists n, e. auto.
Qed.

Lemma fail_bit st e : good st = true -> 0 <= e < 16 -> Z.testbit e 0 = false -> fail (setstate st e) = Z.testbit e 1.
Proof.
  intros Hg He H0. unfold fail. rewrite setstate_good by assumption.
  assert (Hc : In e [0; 1; 2; 3; 4; 5; 6; 7; 8; 9; 10; 11; 12; 13; 14; 15]) by (cbn; lia).
  cbn [In] in Hc. decompose [or] Hc; subst; try contradiction; try reflexivity; discriminate.
Qed.

Lemma C16_stream_main tr t st data base k lead text sign pre ds rest :
  1 <= bits t -> plain tr data -> good st = true -> flag_base st base -> (k <= length data)%nat ->
  skipn k data = lead ++ text -> Forall space lead ->
  number_text t base text sign pre ds rest -> pre <> [] ->
  exists s', extract_int tr t (at_str st data k) = Ok (Some (saturate t (signed_value base sign ds)), s') /\
    (Z.testbit (rdstate (ist s')) 1 = true <-> ~ in_range t (signed_value base sign ds)).
Proof.
  intros Hw P Hg Hb Hk Hs Hl NT Hn. destruct (stream_base_ok _ _ Hb) as [_ Hb'].
  destruct (nt_head t base text sign pre ds rest NT (or_introl Hn)) as [Ht Hh].
  destruct (drive_value t base text sign pre ds rest 0 Hb' Hw NT Hn eq_refl) as (n & e & E & F & R).
  rewrite (extract_at tr t st data base k lead text n e _ P Hg Hb Hk Hs Hl Ht Hh E).
  eexists. split; [reflexivity|]. cbn [at_str ist]. rewrite setstate_good by (try assumption; lia). exact F.
Qed.

(* ---- C17 ---- *)

Lemma drive_none t base text ds rest err : 2 <= base <= 36 ->
  number_text t base text [] [] ds rest -> rest <> [] ->
  drive t base GStart err 0 text 0 = (0%nat, Z.lor err failbit, 0).
Proof.
  intros Hb (-> & Hsg & _ & Hr) Hn. cbn [app] in *. destruct Hsg as [[? _]|[_ Sg]]; [discriminate|].
  destruct rest as [|c rest]; [congruence|]. cbn [drive num_get1].
  replace (sgn t && (c =? 45)) with false.
  - unfold nominal. replace (from_char base c) with (@None Z); [reflexivity|].
    symmetry. apply from_char_none; assumption.
  - destruct (sgn t); [|reflexivity]. destruct (Z.eqb_spec c 45) as [->|]; [|reflexivity].
    exfalso. apply (Sg eq_refl). reflexivity.
Qed.

Lemma drive_minus t base text ds rest err : 2 <= base <= 36 ->
  number_text t base text [45] [] ds rest ->
  drive t base GStart err 0 text 0 = (1%nat, match rest with [] => Z.lor err eofbit | _ => err end, 0).
Proof.
  intros Hb (-> & Hsg & _ & Hr). destruct Hsg as [[_ Sg]|[? _]]; [|discriminate].
  cbn [app drive num_get1]. rewrite Sg. cbn [andb]. change (45 =? 45) with true. cbn [gdone gst gerr gval].
  apply (drive_rest t base false); auto.
Qed.

Lemma C17_stream_exact tr t st data base k lead text sign pre ds rest :
  1 <= bits t -> plain tr data -> good st = true -> flag_base st base -> (k <= length data)%nat ->
  skipn k data = lead ++ text -> Forall space lead ->
  number_text t base text sign pre ds rest -> pre <> [] -> in_range t (signed_value base sign ds) ->
  extract_int tr t (at_str st data k)
  = Ok (Some (signed_value base sign ds),
        at_str (match rest with [] => setstate st eofbit | _ => st end) data
               (k + length lead + length sign + length pre)).
Proof.
  intros Hw P Hg Hb Hk Hs Hl NT Hn I. destruct (stream_base_ok _ _ Hb) as [_ Hb'].
  destruct (nt_head t base text sign pre ds rest NT (or_introl Hn)) as [Ht Hh].
  rewrite (extract_at tr t st data base k lead text _ _ _ P Hg Hb Hk Hs Hl Ht Hh
    (range_in t base text sign pre ds rest 0 Hb' Hw NT Hn I)).
  rewrite Nat.add_assoc. destruct rest; [reflexivity|]. rewrite setstate_0 by assumption. reflexivity.
Qed.

Lemma C17_stream_none tr t st data base k lead text ds rest :
  plain tr data -> good st = true -> flag_base st base -> (k <= length data)%nat ->
  skipn k data = lead ++ text -> Forall space lead ->
  number_text t base text [] [] ds rest -> match rest with [] => True | c :: _ => ~ space c end ->
  extract_int tr t (at_str st data k) = Ok (Some 0, at_str (setstate st failbit) data (k + length lead)).
Proof.
  intros P Hg Hb Hk Hs Hl NT Hh. destruct (stream_base_ok _ _ Hb) as [Eb Hb'].
  pose proof NT as (Et & _ & _ & _). cbn [app] in Et. subst text. destruct rest as [|c rest].
  - destruct (good_state _ Hg) as [G1 G2].
    unfold extract_int. rewrite (ws_at tr st data k lead []); auto; [|lia]. cbn [bind at_str ist isbuf].
    rewrite Eb, G1.
    assert (L : length (skipn k data) = length (lead ++ [])) by (rewrite Hs; reflexivity).
    rewrite skipn_length, app_length in L. cbn [length] in L.
    replace (k + length lead)%nat with (length data) by lia. rewrite sdrive_end by assumption. reflexivity.
  - rewrite (extract_at tr t st data base k lead (c :: rest) _ _ _ P Hg Hb Hk Hs Hl ltac:(discriminate) Hh
      (drive_none t base (c :: rest) ds (c :: rest) 0 Hb' NT ltac:(discriminate))).
    rewrite Nat.add_0_r. reflexivity.
Qed.

Lemma C17_stream_minus tr t st data base k lead text ds rest :
  plain tr data -> good st = true -> flag_base st base -> (k <= length data)%nat ->
  skipn k data = lead ++ text -> Forall space lead ->
  number_text t base text [45] [] ds rest ->
  extract_int tr t (at_str st data k)
  = Ok (Some 0, at_str (match rest with [] => setstate st eofbit | _ => st end) data (k + length lead + 1)).
Proof.
  intros P Hg Hb Hk Hs Hl NT. destruct (stream_base_ok _ _ Hb) as [_ Hb'].
  destruct (nt_head t base text [45] [] ds rest NT ltac:(right; discriminate)) as [Ht Hh].
  rewrite (extract_at tr t st data base k lead text _ _ _ P Hg Hb Hk Hs Hl Ht Hh
    (drive_minus t base text ds rest 0 Hb' NT)).
  destruct rest; [reflexivity|]. rewrite setstate_0 by assumption. reflexivity.
Qed.

Lemma Forall2_len {A B} (R : A -> B -> Prop) l1 l2 : Forall2 R l1 l2 -> length l1 = length l2.
Proof. induction 1; cbn; congruence. Qed.

(* overflow before the last digit *)
Lemma drive_early t base text sign pa pb dsa dsb rest err : 2 <= base <= 36 -> 1 <= bits t ->
  number_text t base text sign (pa ++ pb) (dsa ++ dsb) rest -> spells base pa dsa -> pb <> [] ->
  ~ in_range t (signed_value base sign dsa) ->
  exists n e v, drive t base GStart err 0 text 0 = (n, e, v) /\ (n < length sign + length (pa ++ pb))%nat.
Proof.
  intros Hb Hw (Et & Hsg & Hs & _) Ha Hn I. rewrite <- app_assoc in Et.
  destruct (range_over_gen t base text sign pa dsa (pb ++ rest) err Hb Hw Et Hsg Ha I) as (p1 & p2 & E0 & N & E).
  rewrite E.
  assert (D : exists c d tl, p2 ++ pb ++ rest = c :: tl /\ is_digit base c d).
  { assert (F : Forall2 (is_digit base) (p2 ++ pb) (skipn (length p1) (dsa ++ dsb))).
    { rewrite E0, <- app_assoc in Hs. unfold spells in Hs. apply Forall2_app_inv_l in Hs.
      destruct Hs as (l1 & l2 & F1 & F2 & ->). rewrite (Forall2_len _ _ _ F1).
      rewrite skipn_app, skipn_all, Nat.sub_diag. exact F2. }
    rewrite app_assoc. destruct (p2 ++ pb) as [|c q] eqn:Q.
    - apply app_eq_nil in Q. destruct Q. congruence.
    - inversion F as [|? d ? ? Hd _]; subst. exists c, d, (q ++ rest). auto. }
  destruct D as (c & d & tl & -> & Hd). cbn [drive num_get1]. rewrite (from_char_digit base c d) by assumption.
  cbn [gdone gerr gval]. eexists _, _, _. split; [reflexivity|].
  rewrite E0, !app_length. destruct pb; [congruence|]. cbn [length]. lia.
Qed.

Lemma C17_early tr t st data base k lead text sign pa pb dsa dsb rest :
  1 <= bits t -> plain tr data -> good st = true -> flag_base st base -> (k <= length data)%nat ->
  skipn k data = lead ++ text -> Forall space lead ->
  number_text t base text sign (pa ++ pb) (dsa ++ dsb) rest -> spells base pa dsa -> pb <> [] ->
  ~ in_range t (signed_value base sign dsa) ->
  exists v st' k', extract_int tr t (at_str st data k) = Ok (Some v, at_str st' data k') /\
    (k' < k + length lead + length sign + length (pa ++ pb))%nat.
Proof.
  intros Hw P Hg Hb Hk Hs Hl NT Ha Hn I. destruct (stream_base_ok _ _ Hb) as [_ Hb'].
  destruct (nt_head t base text sign (pa ++ pb) (dsa ++ dsb) rest NT) as [Ht Hh].
  { left. destruct pa; [exact Hn|discriminate]. }
  destruct (drive_early t base text sign pa pb dsa dsb rest 0 Hb' Hw NT Ha Hn I) as (n & e & v & E & L).
  rewrite (extract_at tr t st data base k lead text n e v P Hg Hb Hk Hs Hl Ht Hh E).
  eexists _, _, _. split; [reflexivity|]. lia.
Qed.

(* overflow on the last digit *)
Lemma over_last_pos t base : 2 <= base <= 36 -> forall pre ds d c err v rest n,
  spells base pre ds -> is_digit base c d -> 0 <= v -> horner base ds v <= imax t ->
  imax t < horner base (ds ++ [d]) v ->
  drive t base GPos err v (pre ++ c :: rest) n
  = drive t base GOverflow (Z.lor err failbit) (imax t) rest (n + length pre + 1).
Proof.
  intros Hb pre. induction pre as [|x pre IH]; intros ds d c err v rest n Hs Hc Hv Hf Ho.
  - inversion Hs; subst. cbn [app fold_left length drive num_get1] in *. unfold nominal.
    rewrite (from_char_digit base c d) by assumption. pose proof (digit_nonneg _ _ _ Hc).
    rewrite raise_and_add_spec by lia. destruct (Z.leb_spec (v * base + d) (imax t)); [lia|].
    cbn [gdone gst gerr gval]. f_equal. lia.
  - inversion Hs as [|? y ? ds' Hd Hs']; subst. cbn [app drive num_get1 length fold_left] in *.
    pose proof (digit_nonneg _ _ _ Hd). unfold nominal. rewrite (from_char_digit base x y) by assumption.
    pose proof (fold_ge base ds' (v * base + y) ltac:(lia) ltac:(nia) (spells_digits _ _ _ Hs')).
    rewrite raise_and_add_spec by lia. destruct (Z.leb_spec (v * base + y) (imax t)); [|lia].
    cbn [gdone gst gerr gval]. rewrite (IH ds' d c err (v * base + y) rest (S n)); auto; [|nia]. f_equal. lia.
Qed.

Lemma over_last_neg t base : 2 <= base <= 36 -> 1 <= bits t -> forall pre ds d c err v rest n,
  spells base pre ds -> is_digit base c d -> 0 <= v -> imin t <= - horner base ds v ->
  - horner base (ds ++ [d]) v < imin t ->
  drive t base GNeg err (- v) (pre ++ c :: rest) n
  = drive t base GOverflow (Z.lor err failbit) (imin t) rest (n + length pre + 1).
Proof.
  intros Hb Hw pre. induction pre as [|x pre IH]; intros ds d c err v rest n Hs Hc Hv Hf Ho.
  - inversion Hs; subst. cbn [app fold_left length drive num_get1] in *. unfold nominal.
    rewrite (from_char_digit base c d) by assumption. pose proof (digit_nonneg _ _ _ Hc).
    rewrite raise_and_sub_spec by lia. destruct (Z.leb_spec (imin t) (- v * base - d)); [lia|].
    cbn [gdone gst gerr gval]. f_equal. lia.
  - inversion Hs as [|? y ? ds' Hd Hs']; subst. cbn [app drive num_get1 length fold_left] in *.
    pose proof (digit_nonneg _ _ _ Hd). unfold nominal. rewrite (from_char_digit base x y) by assumption.
    pose proof (fold_ge base ds' (v * base + y) ltac:(lia) ltac:(nia) (spells_digits _ _ _ Hs')).
    rewrite raise_and_sub_spec by lia. destruct (Z.leb_spec (imin t) (- v * base - y)); [|lia].
    cbn [gdone gst gerr gval]. replace (- v * base - y) with (- (v * base + y)) by ring.
    rewrite (IH ds' d c err (v * base + y) rest (S n)); auto; [|nia]. f_equal. lia.
Qed.

Lemma drive_late t base text sign pa c dsa d rest err : 2 <= base <= 36 -> 1 <= bits t ->
  number_text t base text sign (pa ++ [c]) (dsa ++ [d]) rest -> spells base pa dsa -> is_digit base c d ->
  rest <> [] ->
  in_range t (signed_value base sign dsa) -> ~ in_range t (signed_value base sign (dsa ++ [d])) ->
  exists n e v, drive t base GStart err 0 text 0 = (n, e, v) /\ (length sign + length (pa ++ [c]) < n)%nat.
Proof.
  intros Hb Hw NT Ha Hc Hn I1 I2. pose proof NT as (Et & Hsg & Hs & Hr). rewrite <- app_assoc in Et. cbn [app] in Et.
  assert (E : exists e v, drive t base GStart err 0 text 0
    = drive t base GOverflow e v rest (length sign + length pa + 1)).
  { pose proof (spells_digits _ _ _ Hs) as F.
    pose proof (value_nonneg base _ ltac:(lia) F). pose proof (imin_nonpos t). pose proof (imax_nonneg t Hw).
    destruct (value_signed_range t base [] _ Hw Hb F) as [R1 R2]. specialize (R1 eq_refl).
    destruct Hsg as [[-> Sg]|[-> Sg]]; cbn [signed_value app length Nat.add] in *; rewrite Et.
    - cbn [drive num_get1]. rewrite Sg. change (45 =? 45) with true. cbn [andb gdone gst gerr gval].
      change (drive t base GNeg err 0 (pa ++ c :: rest) 1) with (drive t base GNeg err (- 0) (pa ++ c :: rest) 1).
      rewrite (over_last_neg t base Hb Hw pa dsa d c err 0 rest 1); auto; [eauto|lia|exact (proj1 I1)|].
      apply Z.nle_gt. intro HH. apply I2, R2. exact HH.
    - rewrite <- (app_nil_r (pa ++ c :: rest)). rewrite app_nil_r.
      assert (G : drive t base GStart err 0 (pa ++ c :: rest) 0 = drive t base GPos err 0 (pa ++ c :: rest) 0).
      { destruct pa as [|x pa'].
        - apply (start_pos t base err _ 0 c d rest); auto.
        - inversion Ha as [|? y ? ? Hy _]; subst. apply (start_pos t base err _ 0 x y (pa' ++ c :: rest)); auto. }
      rewrite G. rewrite (over_last_pos t base Hb pa dsa d c err 0 rest 0); auto; [eauto|lia|exact (proj2 I1)|].
      apply Z.nle_gt. intro HH. apply I2, R1. exact HH. }
  destruct E as (e & v & ->). destruct rest as [|r rest]; [congruence|].
  cbn [drive num_get1]. replace (from_char base r) with (@None Z) by (symmetry; apply from_char_none; assumption).
  cbn [gdone gst gerr gval].
  destruct (drive_overflow t base e v Hb rest (S (length sign + length pa + 1))) as (a & b & _ & _ & _ & ->).
  eexists _, _, _. split; [reflexivity|]. rewrite app_length. cbn [length]. lia.
Qed.

Lemma C17_late tr t st data base k lead text sign pa c dsa d rest :
  1 <= bits t -> plain tr data -> good st = true -> flag_base st base -> (k <= length data)%nat ->
  skipn k data = lead ++ text -> Forall space lead ->
  number_text t base text sign (pa ++ [c]) (dsa ++ [d]) rest -> spells base pa dsa -> is_digit base c d ->
  rest <> [] ->
  in_range t (signed_value base sign dsa) -> ~ in_range t (signed_value base sign (dsa ++ [d])) ->
  exists v st' k', extract_int tr t (at_str st data k) = Ok (Some v, at_str st' data k') /\
    (k + length lead + length sign + length (pa ++ [c]) < k')%nat.
Proof.
  intros Hw P Hg Hb Hk Hs Hl NT Ha Hc Hn I1 I2. destruct (stream_base_ok _ _ Hb) as [_ Hb'].
  destruct (nt_head t base text sign (pa ++ [c]) (dsa ++ [d]) rest NT) as [Ht Hh].
  { left. destruct pa; discriminate. }
  destruct (drive_late t base text sign pa c dsa d rest 0 Hb' Hw NT Ha Hc Hn I1 I2) as (n & e & v & E & L).
  rewrite (extract_at tr t st data base k lead text n e v P Hg Hb Hk Hs Hl Ht Hh E).
  eexists _, _, _. split; [reflexivity|]. lia.
Qed.

(* no base flag: nothing is read *)
Lemma C17_no_base tr t st data k lead rest : plain tr data -> good st = true -> (k <= length data)%nat ->
  skipn k data = lead ++ rest -> Forall space lead -> match rest with [] => True | c :: _ => ~ space c end ->
  Z.land (flags st) f_basefield = 0 ->
  extract_int tr t (at_str st data k) = Ok (None, at_str (setstate st failbit) data (k + length lead)).
Proof.
  intros P Hg Hk Hs Hl Hh Hb. destruct (good_state _ Hg) as [G1 G2].
  unfold extract_int. rewrite (ws_at tr st data k lead rest); auto; [|lia]. cbn [bind at_str ist isbuf].
  rewrite Hb, G1. reflexivity.
Qed.

(* ---- C18 ---- *)

Lemma numeral_text t up base v s : 2 <= base <= 36 -> sgn t = true \/ 0 <= v -> is_numeral up base v s ->
  exists sign pre ds, number_text t base s sign pre ds [] /\ pre <> [] /\ signed_value base sign ds = v /\
    Forall is_char s /\ ~ In (-1) s.
Proof.
  intros Hb Hsg (ds & -> & Hn & Hd & Hv & _).
  assert (F : spells base (map (digit_char up) ds) ds) by (apply spells_map; (assumption || lia)).
  assert (C : forall x, In x (map (digit_char up) ds) -> 48 <= x <= 122).
  { intros x Hx. apply in_map_iff in Hx. destruct Hx as (d & <- & Hin). rewrite Forall_forall in Hd.
    specialize (Hd _ Hin). unfold digit_char. destruct (Z.ltb_spec d 10); [lia|]. destruct up; lia. }
  exists (if v <? 0 then [45] else []), (map (digit_char up) ds), ds.
  split; [split; [|split; [|split; [exact F|exact I]]]|split; [|split; [|split]]].
  - rewrite app_nil_r. reflexivity.
  - destruct (Z.ltb_spec v 0); [left; split; [reflexivity|]; destruct Hsg; [assumption|lia]|].
    right. split; [reflexivity|]. intros _. cbn [app]. destruct ds as [|d ds]; [congruence|]. cbn [map hd_error].
    intros [= E]. specialize (C (digit_char up d) (or_introl eq_refl)). lia.
  - destruct ds; [congruence|discriminate].
  - destruct (Z.ltb_spec v 0); cbn [signed_value]; lia.
  - apply Forall_app. split.
    + destruct (v <? 0); repeat constructor; unfold is_char; lia.
    + apply Forall_forall. intros x Hx%C. unfold is_char. lia.
  - intros Hin. apply in_app_or in Hin. destruct Hin as [Hin|Hin%C]; [|lia].
    destruct (v <? 0); cbn in Hin; lia.
Qed.

Lemma C18_main tr t i st buf base junk v s :
  std_ity t -> in_range t v -> not_min t v -> flag_base i base -> representable t base v ->
  length junk = (int_length 8 t + 1)%nat -> is_numeral (upper i) base v s ->
  0 <= width i < 16 -> fill true i = 32 -> adjusted i PadBefore ->
  room (osb_init buf) (Nat.max (Z.to_nat (width i)) (length s)) ->
  good st = true -> flag_base st base ->
  exists o', insert_int tr (Ostr i (osb_init buf)) t junk v = Ok o' /\
    let text := firstn (opos (osbuf o')) (obuf (osbuf o')) in
    extract_int tr t (at_str st text 0) = Ok (Some v, at_str (setstate st eofbit) text (length text)).
Proof.
  intros Ht Hv Hm Hb Hr Hj Hn Hw Hf Ha Hroom Hg Hb'.
  eexists. split.
  { apply (insert_int_ok tr i (osb_init buf) t base PadBefore junk v s); auto. rewrite Hf. lia. }
  cbn [osbuf after osb_init obuf opos Nat.add].
  set (text := padded PadBefore (Z.to_nat (width i)) (fill true i) s).
  assert (Lt : length text = Nat.max (Z.to_nat (width i)) (length s)) by apply padded_length.
  assert (Ef : firstn (length text) (overwrite buf 0 text) = text).
  { unfold overwrite. cbn [firstn app Nat.add]. rewrite firstn_app, Nat.sub_diag, firstn_all. cbn [firstn].
    apply app_nil_r. }
  cbv zeta. rewrite Ef.
  destruct (stream_base_ok _ _ Hb') as [_ Hb2].
  assert (Hsg : sgn t = true \/ 0 <= v).
  { destruct (sgn t) eqn:Sg; [left; reflexivity|right]. unfold in_range, imin in Hv. rewrite Sg in Hv. lia. }
  destruct (numeral_text t (upper i) base v s Hb2 Hsg Hn) as (sign & pre & ds & NT & Hp & Hval & Hc & Hff).
  assert (Hsp : text = repeat 32 (Z.to_nat (width i) - length s) ++ s) by (unfold text, padded; rewrite Hf; reflexivity).
  assert (Hls : (length s <= 24)%nat).
  { apply (numeral_short t base (upper i) v s); auto. destruct Hb' as [[-> _]|[[-> _]|[-> _]]]; cbn; lia. }
  assert (P : plain tr text).
  { split; [rewrite Lt; lia|]. rewrite Hsp. split.
    - apply Forall_app. split; [|exact Hc]. apply Forall_forall. intros x ->%repeat_spec. unfold is_char. lia.
    - intros _ Hin. apply in_app_or in Hin. destruct Hin as [E%repeat_spec|Hin]; [discriminate|contradiction]. }
  assert (1 <= bits t) by (unfold std_ity in Ht; lia).
  rewrite (C17_stream_exact tr t st text base 0 (repeat 32 (Z.to_nat (width i) - length s)) s sign pre ds []); auto; try lia.
  - rewrite Hval. do 3 f_equal. rewrite Hsp, app_length. destruct NT as (-> & _). rewrite !app_length. cbn [length]. lia.
  - apply Forall_forall. intros x ->%repeat_spec. left. reflexivity.
  - rewrite Hval. exact Hv.
Qed.

(* ---- bool ---- *)

Definition verdict_result (j : bool) (err : Z) (v : verdict) : Z * option bool :=
  match v with
  | Same => (err, Some (negb j))
  | Different => (Z.lor err failbit, Some false)
  | TooShort => (Z.lor err eofbit, None)
  end.

Lemma skipn_end_nil {A} (l : list A) k : (length l <= k)%nat -> skipn k l = [].
Proof. apply skipn_all2. Qed.

Lemma nth_of_skipn {A} (l : list A) k x t : skipn k l = x :: t ->
  nth_error l k = Some x /\ (k < length l)%nat /\ skipn (k + 1) l = t.
Proof.
  intros H. assert (E : nth_error l k = Some x).
  { replace k with (k + 0)%nat by lia. rewrite <- nth_error_skipn, H. reflexivity. }
  split; [exact E|]. split; [apply nth_error_Some; congruence|].
  pose proof (skipn_nth l k x E) as H'. rewrite H in H'. rewrite Nat.add_1_r. congruence.
Qed.

Lemma alpha_chosen tr data j err : plain tr data -> forall want fuel k i,
  (0 < i)%nat -> want <> [] -> skipn i (name j) = want ++ [0] -> (length want < fuel)%nat -> (k <= length data)%nat ->
  bool_alpha fuel tr (Chooser (Some j) i) (negb (Nat.ltb k (length data))) err (at_pos data k)
  = let (n, v) := compare_name (skipn k data) want in
    let (e, r) := verdict_result j err v in Ok (at_pos data (k + n), e, r).
Proof.
  intros P want. induction want as [|w want IH]; intros fuel k i Hi Hn Hw Hf Hk; [congruence|].
  destruct fuel as [|fuel]; [cbn in Hf; lia|]. cbn [bool_alpha].
  destruct (Nat.ltb_spec k (length data)) as [Hlt|Hge]; cbn [negb].
  - destruct (skipn k data) as [|x text] eqn:Hs.
    { apply (f_equal (@length Z)) in Hs. rewrite skipn_length in Hs. cbn in Hs. lia. }
    destruct (nth_of_skipn _ _ _ _ Hs) as (Ec & _ & Hs'). cbn [app] in Hw.
    destruct (nth_of_skipn _ _ _ _ Hw) as (En & Hlen & Hw').
    rewrite sgetc_at by (try assumption; lia). rewrite Ec. cbn [bind answer].
    destruct (plain_nth _ _ _ _ P Ec) as (Hc & _ & _ & _). rewrite to_char_code by assumption.
    rewrite isbi_next_at by assumption. cbn [bind]. unfold process. cbn [chosen ci].
    unfold rd. rewrite En. cbn [bind]. cbn [compare_name]. rewrite Z.eqb_sym.
    destruct (Z.eqb_spec x w) as [->|Hne]; cbn [negb].
    + assert (Hsz : (length (name j) - i = S (S (length want)))%nat).
      { rewrite <- skipn_length, Hw. cbn [length]. rewrite app_length. cbn. lia. }
      unfold name_size. destruct want as [|w2 want].
      * replace (Nat.eqb i (length (name j) - 1 - 1)) with true by (symmetry; apply Nat.eqb_eq; cbn in Hsz; lia).
        reflexivity.
      * replace (Nat.eqb i (length (name j) - 1 - 1)) with false by (symmetry; apply Nat.eqb_neq; cbn in Hsz; lia).
        cbn [bind]. rewrite IH.
        -- rewrite Hs'. destruct (compare_name text (w2 :: want)) as [n v]. destruct (verdict_result j err v).
           do 4 f_equal. lia.
        -- lia.
        -- discriminate.
        -- rewrite <- Nat.add_1_r. exact Hw'.
        -- cbn in *. lia.
        -- lia.
    + cbn [bind chosen verdict_result]. reflexivity.
  - rewrite skipn_end_nil by lia. cbn [compare_name verdict_result]. rewrite Nat.add_0_r. reflexivity.
Qed.

(* one character in the start state *)
Lemma alpha_first tr data err fuel k c text i : plain tr data -> skipn k data = c :: text ->
  bool_alpha (S fuel) tr (Chooser None i) (negb (Nat.ltb k (length data))) err (at_pos data k)
  = (' q <- process (Chooser None i) c ;;
     let (done, ch') := q in
     if done : bool then
       match chosen ch' with
       | Some j => Ok (at_pos data (k + 1), err, Some (negb j))
       | None => Ok (at_pos data (k + 1), Z.lor err failbit, Some false)
       end
     else bool_alpha fuel tr ch' (negb (Nat.ltb (k + 1) (length data))) err (at_pos data (k + 1))).
Proof.
  intros P Hs. destruct (nth_of_skipn _ _ _ _ Hs) as (Ec & Hk & Hs'). cbn [bool_alpha].
  destruct (Nat.ltb_spec k (length data)) as [_|]; [|lia]. cbn [negb].
  rewrite sgetc_at by (try assumption; lia). rewrite Ec. cbn [bind answer].
  destruct (plain_nth _ _ _ _ P Ec) as (Hc & _ & _ & _). rewrite to_char_code by assumption.
  rewrite isbi_next_at by assumption. reflexivity.
Qed.

(* the name a first character chooses *)
Definition starts (c : Z) (j : bool) : Prop := hd_error (name j) = Some c.

Lemma compare_cons c text want :
  compare_name (c :: text) (c :: want) = let (n, v) := compare_name text want in (S n, v).
Proof. cbn [compare_name]. rewrite Z.eqb_refl. reflexivity. Qed.

Lemma alpha_names tr data err k c text j : plain tr data -> skipn k data = c :: text -> starts c j ->
  bool_alpha 16 tr (Chooser None 0) false err (at_pos data k)
  = let (n, v) := compare_name (c :: text) (firstn (name_size j) (name j)) in
    let (e, r) := verdict_result j err v in Ok (at_pos data (k + n), e, r).
Proof.
  intros P Hs Hj. destruct (nth_of_skipn _ _ _ _ Hs) as (Ec & Hk & Hs').
  replace false with (negb (Nat.ltb k (length data))) by (destruct (Nat.ltb_spec k (length data)); [reflexivity|lia]).
  rewrite (alpha_first tr data err 15 k c text 0) by assumption.
  destruct j; injection Hj as <-; cbn [process chosen ci rd name name_false name_true nth_error bind Z.eqb Pos.eqb];
    unfold rd, process; cbn [nth_error bind chosen ci name name_false name_true Z.eqb Pos.eqb].
  - rewrite (alpha_chosen tr data true err P [97; 108; 115; 101] 15 (k + 1) 1);
      [|lia|discriminate|reflexivity|cbn; lia|lia].
    rewrite Hs'. cbn [name_size name name_false length Nat.sub firstn].
    rewrite compare_cons.
    destruct (compare_name text [97; 108; 115; 101]) as [n v]. destruct (verdict_result true err v).
    rewrite <- Nat.add_assoc. reflexivity.
  - rewrite (alpha_chosen tr data false err P [114; 117; 101] 15 (k + 1) 1);
      [|lia|discriminate|reflexivity|cbn; lia|lia].
    rewrite Hs'. cbn [name_size name name_true length Nat.sub firstn].
    rewrite compare_cons.
    destruct (compare_name text [114; 117; 101]) as [n v]. destruct (verdict_result false err v).
    rewrite <- Nat.add_assoc. reflexivity.
Qed.

Lemma extract_bool_start tr st data k lead text : plain tr data -> good st = true -> (k <= length data)%nat ->
  skipn k data = lead ++ text -> Forall space lead -> match text with [] => True | c :: _ => ~ space c end ->
  extract_bool tr (at_str st data k)
  = (' r <- (if nonzero (Z.land (flags st) f_boolalpha)
             then bool_alpha 16 tr (Chooser None 0) false 0 (at_pos data (k + length lead))
             else bool_digit tr 0 (at_pos data (k + length lead))) ;;
     let '(b, err', v) := r in Ok (v, Istr (setstate st err') b)) /\
  skipn (k + length lead) data = text /\ (k + length lead <= length data)%nat.
Proof.
  intros P Hg Hk Hs Hl Hh. destruct (good_state _ Hg) as [G1 G2].
  assert (L : length (skipn k data) = length (lead ++ text)) by (rewrite Hs; reflexivity).
  rewrite skipn_length, app_length in L. split; [|split; [|lia]].
  - unfold extract_bool. rewrite (ws_at tr st data k lead text); auto; [|lia]. cbn [bind at_str ist isbuf].
    rewrite G1. reflexivity.
  - rewrite skipn_add, Hs. rewrite skipn_app, skipn_all2, Nat.sub_diag by lia. reflexivity.
Qed.


Lemma C54_main tr st data k lead c text b want : plain tr data -> good st = true -> (k <= length data)%nat ->
  skipn k data = lead ++ c :: text -> Forall space lead -> nonzero (Z.land (flags st) f_boolalpha) = true ->
  (b = true /\ want = true_name \/ b = false /\ want = false_name) -> hd_error want = Some c ->
  extract_bool tr (at_str st data k)
  = let (n, v) := compare_name (c :: text) want in
    Ok (match v with Same => Some b | Different => Some false | TooShort => None end,
        at_str (match v with Same => st | Different => setstate st failbit | TooShort => setstate st eofbit end)
               data (k + length lead + n)).
Proof.
  intros P Hg Hk Hs Hl Ha Hw Hc.
  assert (Hsp : ~ space c).
  { destruct Hw as [[_ ->]|[_ ->]]; injection Hc as <-; unfold space; cbn; lia. }
  destruct (extract_bool_start tr st data k lead (c :: text) P Hg Hk Hs Hl Hsp) as (-> & Hs' & Hk').
  rewrite Ha. destruct Hw as [[-> ->]|[-> ->]]; injection Hc as <-.
  - rewrite (alpha_names tr data 0 (k + length lead) 116 text false) by (try assumption; reflexivity).
    change (firstn (name_size false) (name false)) with true_name.
    destruct (compare_name (116 :: text) true_name) as [n v]. destruct v; cbn [verdict_result bind negb]; try reflexivity.
    rewrite setstate_0 by assumption. reflexivity.
  - rewrite (alpha_names tr data 0 (k + length lead) 102 text true) by (try assumption; reflexivity).
    change (firstn (name_size true) (name true)) with false_name.
    destruct (compare_name (102 :: text) false_name) as [n v]. destruct v; cbn [verdict_result bind negb]; try reflexivity.
    rewrite setstate_0 by assumption. reflexivity.
Qed.

Lemma compare_same want rest : compare_name (want ++ rest) want = (length want, Same).
Proof.
  induction want as [|w want IH]; cbn; [destruct rest; reflexivity|]. rewrite Z.eqb_refl, IH. reflexivity.
Qed.
Lemma compare_same_inv text want n : compare_name text want = (n, Same) -> exists rest, text = want ++ rest.
Proof.
  revert text n. induction want as [|w want IH]; intros text n; cbn.
  - exists text. reflexivity.
  - destruct text as [|x text]; [discriminate|]. destruct (Z.eqb_spec x w) as [->|]; [|discriminate].
    destruct (compare_name text want) as [m v] eqn:E. intros [= _ ->]. destruct (IH _ _ E) as [rest ->].
    exists rest. reflexivity.
Qed.

Lemma C54_accepts_lemma tr st data k lead text rest b want : plain tr data -> good st = true -> (k <= length data)%nat ->
  skipn k data = lead ++ text -> Forall space lead -> nonzero (Z.land (flags st) f_boolalpha) = true ->
  (b = true /\ want = true_name \/ b = false /\ want = false_name) -> text = want ++ rest ->
  extract_bool tr (at_str st data k) = Ok (Some b, at_str st data (k + length lead + length want)).
Proof.
  intros P Hg Hk Hs Hl Ha Hw ->.
  assert (E : exists c tl, want ++ rest = c :: tl /\ hd_error want = Some c).
  { destruct Hw as [[_ ->]|[_ ->]]; eexists _, _; split; reflexivity. }
  destruct E as (c & tl & E & Hc). rewrite E in Hs.
  rewrite (C54_main tr st data k lead c tl b want) by assumption. rewrite <- E, compare_same. reflexivity.
Qed.

Lemma C54_rejects_lemma tr st data k lead c text : plain tr data -> good st = true -> (k <= length data)%nat ->
  skipn k data = lead ++ c :: text -> Forall space lead -> nonzero (Z.land (flags st) f_boolalpha) = true ->
  c = 116 \/ c = 102 ->
  (forall rest, c :: text <> true_name ++ rest) -> (forall rest, c :: text <> false_name ++ rest) ->
  exists r st' k', extract_bool tr (at_str st data k) = Ok (r, at_str st' data k') /\
    r <> Some true /\ good st' = false.
Proof.
  intros P Hg Hk Hs Hl Ha Hc Ht Hf.
  assert (G : forall e, 0 < e < 16 -> good (setstate st e) = false).
  { intros e He. unfold good. rewrite setstate_good by (try assumption; lia). destruct (Z.eqb_spec e 0); [lia|reflexivity]. }
  destruct Hc as [->| ->].
  - rewrite (C54_main tr st data k lead 116 text true true_name) by (try assumption; auto).
    destruct (compare_name (116 :: text) true_name) as [n v] eqn:E. destruct v.
    + apply compare_same_inv in E. destruct E as [rest E]. destruct (Ht rest E).
    + eexists _, _, _. split; [reflexivity|]. split; [discriminate|apply G; unfold failbit; lia].
    + eexists _, _, _. split; [reflexivity|]. split; [discriminate|apply G; unfold eofbit; lia].
  - rewrite (C54_main tr st data k lead 102 text false false_name) by (try assumption; auto).
    destruct (compare_name (102 :: text) false_name) as [n v] eqn:E. destruct v.
    + apply compare_same_inv in E. destruct E as [rest E]. destruct (Hf rest E).
    + eexists _, _, _. split; [reflexivity|]. split; [discriminate|apply G; unfold failbit; lia].
    + eexists _, _, _. split; [reflexivity|]. split; [discriminate|apply G; unfold eofbit; lia].
Qed.

(* another first character is skipped *)
Lemma process_none i c a b : nth_error name_true i = Some a -> nth_error name_false i = Some b -> c <> a -> c <> b ->
  process (Chooser None i) c = Ok (false, Chooser None (S i)).
Proof.
  intros Ea Eb Ha Hb. unfold process. cbn [chosen ci name]. unfold rd. rewrite Ea. cbn [bind].
  destruct (Z.eqb_spec a c); [congruence|]. rewrite Eb. cbn [bind]. destruct (Z.eqb_spec b c); [congruence|]. reflexivity.
Qed.

Lemma ltb_head {A} (data : list A) k c text : skipn k data = c :: text ->
  false = negb (Nat.ltb k (length data)).
Proof.
  intros H. destruct (nth_of_skipn _ _ _ _ H) as (_ & Hk & _). destruct (Nat.ltb_spec k (length data)); [reflexivity|lia].
Qed.

Lemma C54_skips_first tr st data k lead c rest : plain tr data -> good st = true -> (k <= length data)%nat ->
  skipn k data = lead ++ c :: 114 :: 117 :: 101 :: rest -> Forall space lead -> ~ space c ->
  nonzero (Z.land (flags st) f_boolalpha) = true -> c <> 116 -> c <> 102 ->
  extract_bool tr (at_str st data k) = Ok (Some true, at_str st data (k + length lead + 4)).
Proof.
  intros P Hg Hk Hs Hl Hsp Ha Ht Hf.
  destruct (extract_bool_start tr st data k lead _ P Hg Hk Hs Hl Hsp) as (-> & Hs' & Hk'). rewrite Ha.
  set (q := (k + length lead)%nat) in *. rewrite (ltb_head data q _ _ Hs').
  rewrite (alpha_first tr data 0 15 q c _ 0 P Hs'). rewrite (process_none 0 c 116 102) by (try reflexivity; assumption).
  cbn [bind]. destruct (nth_of_skipn _ _ _ _ Hs') as (_ & Hk1 & Hs1).
  rewrite (alpha_first tr data 0 14 (q + 1) 114 _ 1 P Hs1).
  replace (process (Chooser None 1) 114) with (Ok (false, Chooser (Some false) 2)) by reflexivity. cbn [bind].
  destruct (nth_of_skipn _ _ _ _ Hs1) as (_ & Hk2 & Hs2).
  rewrite (alpha_chosen tr data false 0 P [117; 101] 14 (q + 1 + 1) 2);
    [|lia|discriminate|reflexivity|cbn; lia|lia].
  rewrite Hs2. change (117 :: 101 :: rest) with ([117; 101] ++ rest). rewrite compare_same.
  cbn [length verdict_result bind negb]. rewrite setstate_0 by assumption.
  replace (q + 1 + 1 + 2)%nat with (q + 4)%nat by lia. reflexivity.
Qed.

Lemma C54_overrun tr st data k lead c0 c1 c2 c3 c4 c5 rest : plain tr data -> good st = true -> (k <= length data)%nat ->
  skipn k data = lead ++ [c0; c1; c2; c3; c4; c5] ++ rest -> Forall space lead -> ~ space c0 ->
  nonzero (Z.land (flags st) f_boolalpha) = true ->
  ~ In c0 [116; 102] -> ~ In c1 [114; 97] -> ~ In c2 [117; 108] -> ~ In c3 [101; 115] -> ~ In c4 [0; 101] ->
  extract_bool tr (at_str st data k) = UB.
Proof.
  intros P Hg Hk Hs Hl Hsp Ha H0 H1 H2 H3 H4. cbn [In app] in *.
  destruct (extract_bool_start tr st data k lead _ P Hg Hk Hs Hl Hsp) as (-> & Hs' & Hk'). rewrite Ha.
  set (q := (k + length lead)%nat) in *. rewrite (ltb_head data q _ _ Hs').
  rewrite (alpha_first tr data 0 15 q c0 _ 0 P Hs'). rewrite (process_none 0 c0 116 102) by (try reflexivity; lia).
  cbn [bind]. destruct (nth_of_skipn _ _ _ _ Hs') as (_ & _ & Hs1).
  rewrite (alpha_first tr data 0 14 _ c1 _ 1 P Hs1). rewrite (process_none 1 c1 114 97) by (try reflexivity; lia).
  cbn [bind]. destruct (nth_of_skipn _ _ _ _ Hs1) as (_ & _ & Hs2).
  rewrite (alpha_first tr data 0 13 _ c2 _ 2 P Hs2). rewrite (process_none 2 c2 117 108) by (try reflexivity; lia).
  cbn [bind]. destruct (nth_of_skipn _ _ _ _ Hs2) as (_ & _ & Hs3).
  rewrite (alpha_first tr data 0 12 _ c3 _ 3 P Hs3). rewrite (process_none 3 c3 101 115) by (try reflexivity; lia).
  cbn [bind]. destruct (nth_of_skipn _ _ _ _ Hs3) as (_ & _ & Hs4).
  rewrite (alpha_first tr data 0 11 _ c4 _ 4 P Hs4). rewrite (process_none 4 c4 0 101) by (try reflexivity; lia).
  cbn [bind]. destruct (nth_of_skipn _ _ _ _ Hs4) as (_ & _ & Hs5).
  rewrite (alpha_first tr data 0 10 _ c5 _ 5 P Hs5). reflexivity.
Qed.

(* ---- numeric bool ---- *)

Lemma snextc_end tr data : plain tr data -> snextc tr (at_pos data (length data)) = Ok (-1, at_pos data (length data)).
Proof.
  intros P. rewrite snextc_at by (try assumption; lia). rewrite Nat.min_r by lia.
  replace (nth_error data (length data + 1)) with (@None Z) by (symmetry; apply nth_error_None; lia). reflexivity.
Qed.

Lemma C65_main tr st data k lead text : plain tr data -> good st = true -> (k <= length data)%nat ->
  skipn k data = lead ++ text -> Forall space lead -> match text with [] => True | c :: _ => ~ space c end ->
  nonzero (Z.land (flags st) f_boolalpha) = false ->
  extract_bool tr (at_str st data k)
  = Ok (match text with
        | 48 :: _ => (Some false, at_str st data (k + length lead + 1))
        | 49 :: _ => (Some true, at_str st data (k + length lead + 1))
        | [] => (Some true, at_str (setstate st failbit) data (k + length lead))
        | _ => (Some true, at_str (setstate st failbit) data (k + length lead + 1))
        end).
Proof.
  intros P Hg Hk Hs Hl Hh Ha.
  destruct (extract_bool_start tr st data k lead text P Hg Hk Hs Hl Hh) as (-> & Hs' & Hk'). rewrite Ha.
  set (q := (k + length lead)%nat) in *. unfold bool_digit. rewrite sgetc_at by assumption.
  destruct text as [|c text].
  - assert (q = length data).
    { apply (f_equal (@length Z)) in Hs'. rewrite skipn_length in Hs'. cbn in Hs'. lia. }
    replace (nth_error data q) with (@None Z) by (symmetry; apply nth_error_None; lia). cbn [bind answer].
    unfold isbi_next. subst q. rewrite H. rewrite snextc_end by assumption. reflexivity.
  - destruct (nth_of_skipn _ _ _ _ Hs') as (Ec & Hlt & _). rewrite Ec. cbn [bind answer].
    destruct (plain_nth _ _ _ _ P Ec) as (Hc & _ & _ & _). rewrite to_char_code by assumption.
    rewrite isbi_next_at by assumption. cbn [bind fst].
    destruct (Z.eqb_spec c 48) as [->|N0]; [cbn [bind]; rewrite setstate_0 by assumption; reflexivity|].
    destruct (Z.eqb_spec c 49) as [->|N1]; [cbn [bind]; rewrite setstate_0 by assumption; reflexivity|].
    cbn [bind]. destruct c as [|p|p]; try reflexivity. do 6 (destruct p as [p|p|]; try reflexivity); congruence.
Qed.

(* ---- characters ---- *)

Lemma C66_main tr st data k lead c text : plain tr data -> good st = true -> (k <= length data)%nat ->
  skipn k data = lead ++ c :: text -> Forall space lead -> ~ space c -> (tr = StdTraits -> c <> 0) ->
  extract_char tr (at_str st data k) = Ok (Some c, at_str st data (k + length lead + 1)).
Proof.
  intros P Hg Hk Hs Hl Hh H0. destruct (good_state _ Hg) as [G1 G2].
  assert (L : length (skipn k data) = length (lead ++ c :: text)) by (rewrite Hs; reflexivity).
  rewrite skipn_length, app_length in L. cbn [length] in L.
  assert (Hs' : skipn (k + length lead) data = c :: text).
  { rewrite skipn_add, Hs. rewrite skipn_app, skipn_all2, Nat.sub_diag by lia. reflexivity. }
  destruct (nth_of_skipn _ _ _ _ Hs') as (Ec & Hlt & _).
  unfold extract_char. rewrite (ws_at tr st data k lead (c :: text)); auto; [|lia]. cbn [bind].
  rewrite get_at by (try assumption; lia). rewrite Ec. cbn [answer bind].
  destruct (Nat.ltb_spec (k + length lead) (length data)); [|lia].
  destruct (plain_nth _ _ _ _ P Ec) as (Hc & Hff & _ & Hne). rewrite to_char_code by assumption.
  replace (not_eof tr (code tr c)) with true; [reflexivity|]. symmetry. unfold not_eof, nonzero.
  destruct tr.
  - destruct (Z.eqb_spec (code StdTraits c) eof); [unfold eof in *; congruence|].
    assert (code StdTraits c <> 0); [|destruct (Z.eqb_spec (code StdTraits c) 0); [congruence|reflexivity]].
    specialize (H0 eq_refl). unfold code. unfold is_char in Hc. destruct (Z.ltb_spec c 0); lia.
  - destruct (Z.eqb_spec (code EstdTraits c) (-1)); [congruence|reflexivity].
Qed.

Lemma C66_end tr st data k : plain tr data -> good st = true -> (k <= length data)%nat ->
  Forall space (skipn k data) ->
  extract_char tr (at_str st data k) = Ok (None, at_str (setstate st (Z.lor failbit eofbit)) data (length data)).
Proof.
  intros P Hg Hk Hl. destruct (good_state _ Hg) as [G1 G2].
  unfold extract_char. rewrite (ws_at tr st data k (skipn k data) []); auto; [|lia|now rewrite app_nil_r]. cbn [bind].
  rewrite skipn_length. replace (k + (length data - k))%nat with (length data) by lia.
  rewrite get_at by (try assumption; lia).
  replace (nth_error data (length data)) with (@None Z) by (symmetry; apply nth_error_None; lia). cbn [answer bind].
  rewrite Nat.ltb_irrefl. destruct tr; reflexivity.
Qed.

Lemma C66_nul st data k lead text : plain StdTraits data -> good st = true -> (k <= length data)%nat ->
  skipn k data = lead ++ 0 :: text -> Forall space lead ->
  extract_char StdTraits (at_str st data k) = Ok (None, at_str st data (k + length lead + 1)).
Proof.
  intros P Hg Hk Hs Hl. destruct (good_state _ Hg) as [G1 G2].
  assert (L : length (skipn k data) = length (lead ++ 0 :: text)) by (rewrite Hs; reflexivity).
  rewrite skipn_length, app_length in L. cbn [length] in L.
  assert (Hs' : skipn (k + length lead) data = 0 :: text).
  { rewrite skipn_add, Hs. rewrite skipn_app, skipn_all2, Nat.sub_diag by lia. reflexivity. }
  destruct (nth_of_skipn _ _ _ _ Hs') as (Ec & Hlt & _).
  unfold extract_char. rewrite (ws_at StdTraits st data k lead (0 :: text)); auto; [|lia|unfold space; cbn; lia]. cbn [bind].
  rewrite get_at by (try assumption; lia). rewrite Ec. cbn [answer bind].
  destruct (Nat.ltb_spec (k + length lead) (length data)); [|lia]. reflexivity.
Qed.
