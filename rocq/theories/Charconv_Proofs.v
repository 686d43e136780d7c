(* Proofs about integer <-> text conversion. *)
From Coq Require Import List ZArith Bool Lia.
From Verif Require Import Base BaseLemmas SliceLemmas MachInt Swap_Model Swap_Spec Swap_Proofs
  Algo_Model Algo_Spec Algo_Proofs Charconv_Model Charconv_Spec.
Import ListNotations.
Local Open Scope Z_scope.
Local Open Scope res_scope.

Ltac zb :=
  repeat (match goal with
  | |- context [Z.leb ?a ?b] => destruct (Z.leb_spec a b)
  | |- context [Z.ltb ?a ?b] => destruct (Z.ltb_spec a b)
  | |- context [Z.eqb ?a ?b] => destruct (Z.eqb_spec a b)
  end; cbn [andb orb]).

(* ---- characters ---- *)

Lemma clear_bit5 c : Z.land c (Z.lnot 32) = if Z.testbit c 5 then c - 32 else c.
Proof.
  rewrite <- Z.ldiff_land.
  destruct (Z.testbit c 5) eqn:E.
  - symmetry. apply Z.sub_nocarry_ldiff. apply Z.bits_inj'. intros n Hn.
    rewrite Z.ldiff_spec, Z.bits_0. change 32 with (2 ^ 5).
    destruct (Z.eq_dec n 5) as [->|Hne].
    + rewrite E. now rewrite andb_false_r.
    + rewrite Z.pow2_bits_false by lia. reflexivity.
  - apply Z.bits_inj'. intros n Hn. rewrite Z.ldiff_spec. change 32 with (2 ^ 5).
    destruct (Z.eq_dec n 5) as [->|Hne].
    + rewrite E. reflexivity.
    + rewrite Z.pow2_bits_false by lia. now rewrite andb_true_r.
Qed.

Lemma bit5_upper c : 65 <= c <= 90 -> Z.testbit c 5 = false.
Proof.
  intros H. rewrite Z.testbit_false by lia. change (2 ^ 5) with 32.
  replace (c / 32) with 2; [reflexivity|]. apply Z.div_unique with (c - 64); lia.
Qed.
Lemma bit5_lower c : 97 <= c <= 122 -> Z.testbit c 5 = true.
Proof.
  intros H. rewrite Z.testbit_true by lia. change (2 ^ 5) with 32.
  replace (c / 32) with 3; [reflexivity|]. apply Z.div_unique with (c - 96); lia.
Qed.

Lemma from_char_spec base c :
  2 <= base <= 36 ->
  from_char base c =
    match digit_value c with Some d => if d <? base then Some d else None | None => None end.
Proof.
  intros Hb. unfold from_char, from_char_36, from_char_10, is_in_base_10, ascii_isdigit, isupper, digit_value.
  destruct (Z.ltb_spec 10 base) as [H10|H10].
  - destruct (Z.leb_spec 48 c); destruct (Z.leb_spec c 57); cbn [andb];
      try (zb; f_equal; lia).
    + (* c > 57 *)
      rewrite clear_bit5.
      destruct (Z.leb_spec 65 c); destruct (Z.leb_spec c 90); cbn [andb].
      * rewrite bit5_upper by lia. zb; try lia; auto.
      * destruct (Z.leb_spec 97 c); destruct (Z.leb_spec c 122); cbn [andb]; try lia.
        { rewrite bit5_lower by lia. zb; try lia; auto. f_equal; lia. }
        { destruct (Z.testbit c 5); zb; try lia; auto. }
        { destruct (Z.testbit c 5) eqn:E; zb; try lia; auto. }
      * destruct (Z.testbit c 5); zb; try lia; auto.
      * lia.
    + destruct (Z.leb_spec 65 c); try lia. destruct (Z.leb_spec 97 c); try lia. cbn [andb].
      rewrite clear_bit5. destruct (Z.testbit c 5); zb; try lia; auto.
  - zb; try lia; auto; f_equal; lia.
Qed.

Lemma from_char_some base c d :
  2 <= base <= 36 -> (from_char base c = Some d <-> is_digit base c d).
Proof.
  intros Hb. rewrite from_char_spec by auto. unfold is_digit.
  destruct (digit_value c) as [x|]; [|split; [discriminate|intros [? _]; discriminate]].
  destruct (Z.ltb_spec x base); split; intros HH.
  - injection HH as <-. auto.
  - destruct HH as [HH _]. auto.
  - discriminate.
  - destruct HH as [HH ?]. injection HH as ->. lia.
Qed.

Lemma from_char_none base c :
  2 <= base <= 36 -> (forall d, ~ is_digit base c d) -> from_char base c = None.
Proof.
  intros Hb H. destruct (from_char base c) as [d|] eqn:E; auto.
  apply from_char_some in E; auto. now apply H in E.
Qed.

Lemma digit_value_nonneg c d : digit_value c = Some d -> 0 <= d.
Proof. unfold digit_value. zb; intros HH; try discriminate; injection HH as <-; lia. Qed.

(* the base of the template instantiated by from_chars *)
Definition template_base (base : Z) : Z := if 10 <? base then 36 else 10.

Lemma in_template_true base c d :
  is_digit (template_base base) c d -> is_in_template_base base c = true.
Proof.
  unfold is_digit, template_base, is_in_template_base, is_in_base_36, is_in_base_10, ascii_isdigit,
    isupper, islower, digit_value.
  intros [H1 H2]. destruct (10 <? base); revert H1; zb; intros HH; try discriminate; try reflexivity; try lia;
    injection HH as <-; lia.
Qed.

Lemma in_template_false base c :
  (forall d, ~ is_digit (template_base base) c d) -> is_in_template_base base c = false.
Proof.
  unfold is_digit, template_base, is_in_template_base, is_in_base_36, is_in_base_10, ascii_isdigit,
    isupper, islower, digit_value.
  intros H. destruct (10 <? base); revert H; zb; intros HH; try reflexivity; try lia; exfalso.
  all: first [ apply (HH (c - 48)); split; [reflexivity|lia]
             | apply (HH (c - 65 + 10)); split; [reflexivity|lia]
             | apply (HH (c - 97 + 10)); split; [reflexivity|lia] ].
Qed.

Lemma digit_template base c d :
  base <= 36 -> is_digit base c d -> is_digit (template_base base) c d.
Proof. unfold is_digit, template_base. intros Hb [H1 H2]. split; auto. zb; lia. Qed.

(* ---- values ---- *)

Lemma value_of_snoc base ds d : value_of base (ds ++ [d]) = value_of base ds * base + d.
Proof. unfold value_of. now rewrite fold_left_app. Qed.

Lemma fold_nonneg base ds v :
  0 <= base -> 0 <= v -> Forall (fun d => 0 <= d < base) ds ->
  v * base ^ Z.of_nat (length ds) <= fold_left (fun v d => v * base + d) ds v.
Proof.
  intros Hb. revert v; induction ds as [|d ds IH]; intros v Hv F.
  - cbn. lia.
  - inversion F; subst. cbn [fold_left]. etransitivity; [|apply IH; auto; nia].
    cbn [length]. rewrite Nat2Z.inj_succ, Z.pow_succ_r by lia.
    pose proof (Z.pow_nonneg base (Z.of_nat (length ds)) Hb). nia.
Qed.

Lemma fold_ge base ds v :
  1 <= base -> 0 <= v -> Forall (fun d => 0 <= d < base) ds ->
  v <= fold_left (fun v d => v * base + d) ds v.
Proof.
  intros Hb Hv F. pose proof (fold_nonneg base ds v ltac:(lia) Hv F).
  pose proof (Z.pow_pos_nonneg base (Z.of_nat (length ds)) ltac:(lia) ltac:(lia)). nia.
Qed.

Lemma value_nonneg base ds : 1 <= base -> Forall (fun d => 0 <= d < base) ds -> 0 <= value_of base ds.
Proof. intros. apply fold_ge; auto; lia. Qed.

Lemma value_pos base ds :
  1 <= base -> Forall (fun d => 0 <= d < base) ds -> hd 0 ds <> 0 -> 0 < value_of base ds.
Proof.
  intros Hb F Hd. destruct ds as [|d ds]; [now destruct Hd|]. inversion F; subst.
  unfold value_of. cbn [fold_left hd] in *.
  pose proof (fold_ge base ds (0 * base + d) Hb ltac:(lia) ltac:(auto)). lia.
Qed.

Lemma spells_digits base pre ds : spells base pre ds -> Forall (fun d => 0 <= d < base) ds.
Proof.
  induction 1 as [|c d pre ds [H1 H2] F IH]; constructor; auto. split; auto.
  now apply digit_value_nonneg in H1.
Qed.

(* ---- from_chars ---- *)

Lemma fc_skip_spec base pre ds rest cur :
  spells (template_base base) pre ds -> no_digit_head (template_base base) rest ->
  fc_skip base (pre ++ rest) cur = (cur + length pre)%nat.
Proof.
  intros S N. revert cur; induction S as [|c d pre ds H S IH]; intros cur; cbn [app fc_skip length].
  - destruct rest as [|c rest]; cbn [fc_skip]; [lia|].
    rewrite in_template_false by exact N. lia.
  - rewrite (in_template_true base c d) by auto. rewrite IH. lia.
Qed.

Lemma fits_true t z : in_range t z -> fits t z = true.
Proof. unfold in_range, fits. intros. zb; auto; lia. Qed.
Lemma fits_false t z : ~ in_range t z -> fits t z = false.
Proof. unfold in_range, fits. intros. zb; auto; lia. Qed.

Lemma imin_nonpos t : imin t <= 0.
Proof. unfold imin. destruct (sgn t); [|lia]. pose proof (Z.pow_nonneg 2 (bits t - 1) ltac:(lia)). lia. Qed.
Lemma imax_nonneg t : 1 <= bits t -> 0 <= imax t.
Proof.
  intros H. unfold imax. destruct (sgn t).
  - pose proof (Z.pow_pos_nonneg 2 (bits t - 1) ltac:(lia) ltac:(lia)). lia.
  - pose proof (Z.pow_pos_nonneg 2 (bits t) ltac:(lia) ltac:(lia)). lia.
Qed.

Lemma raise_and_add_spec t v base d :
  0 <= v -> 0 <= base -> 0 <= d ->
  raise_and_add t v base d = if v * base + d <=? imax t then Some (v * base + d) else None.
Proof.
  intros. unfold raise_and_add, fits. pose proof (imin_nonpos t). zb; auto; nia.
Qed.

(* What the loop does with digits [pre], then [rest], accumulating from [local]. *)
Lemma fc_loop_spec t base neg pre ds rest cur local :
  2 <= base <= 36 -> 0 <= local <= imax t ->
  spells base pre ds -> no_digit_head base rest ->
  let v := fold_left (fun v d => v * base + d) ds local in
  (v <= imax t ->
     fc_loop t base neg (pre ++ rest) cur local =
       match rest with
       | [] => FcR (cur + length pre) NoErr (Some (if sgn t && neg then - v else v))
       | _ => if Nat.eqb (cur + length pre) 0 then FcR 0 InvalidArgument None
              else FcR (cur + length pre) NoErr (Some v)
       end) /\
  (imax t < v ->
     forall more ds' tail, rest = more ++ tail ->
       spells (template_base base) more ds' -> no_digit_head (template_base base) tail ->
       fc_loop t base neg (pre ++ rest) cur local =
         FcR (cur + length pre + length more) ResultOutOfRange None).
Proof.
  intros Hb Hl S N. revert cur local Hl; induction S as [|c d pre ds H S IH]; intros cur local Hl.
  - cbn [fold_left app length]. rewrite Nat.add_0_r. split; intros Hv; [|lia].
    destruct rest as [|c rest]; cbn [fc_loop].
    + reflexivity.
    + rewrite from_char_none by auto. destruct (Nat.eqb_spec cur 0); subst; reflexivity.
  - cbn [fold_left app length fc_loop].
    pose proof (proj2 (from_char_some base c d Hb) H) as ->.
    assert (Hd : 0 <= d) by (destruct H as [H _]; now apply digit_value_nonneg in H).
    rewrite raise_and_add_spec by lia.
    pose proof (spells_digits _ _ _ S) as FD.
    destruct (Z.leb_spec (local * base + d) (imax t)) as [Hle|Hgt].
    + assert (Hl' : 0 <= local * base + d <= imax t) by nia.
      destruct (IH (Datatypes.S cur) _ Hl') as [IH1 IH2].
      rewrite Nat.add_succ_r. cbn [Nat.add] in IH1, IH2. split; assumption.
    + split.
      * intros Hv. exfalso.
        pose proof (fold_ge base ds (local * base + d) ltac:(lia) ltac:(nia) FD). lia.
      * intros Hv more ds' tail -> Sm Nt. rewrite app_assoc.
        rewrite (fc_skip_spec base (pre ++ more) (ds ++ ds')).
        -- rewrite app_length. f_equal. lia.
        -- apply Forall2_app; auto. clear - S Hb.
           induction S; constructor; auto. apply digit_template; auto; lia.
        -- auto.
Qed.

Lemma split_digits base s :
  exists pre ds rest, s = pre ++ rest /\ spells base pre ds /\ no_digit_head base rest.
Proof.
  induction s as [|c s (pre & ds & rest & -> & S & N)].
  - exists [], [], []. repeat split. constructor.
  - destruct (digit_value c) as [d|] eqn:E.
    + destruct (Z.ltb_spec d base).
      * exists (c :: pre), (d :: ds), rest. split; auto. split; auto. constructor; auto. now split.
      * exists [], [], (c :: pre ++ rest). split; auto. split; [constructor|].
        intros d' [H1 H2]. rewrite E in H1. injection H1 as <-. lia.
    + exists [], [], (c :: pre ++ rest). split; auto. split; [constructor|].
      intros d' [H1 H2]. congruence.
Qed.

Lemma no_minus_digit base d : ~ is_digit base 45 d.
Proof. intros [H _]. discriminate. Qed.

(* text with no leading minus sign *)
Lemma from_chars_plain t base text :
  hd_error text <> Some 45 -> (sgn t = true -> text <> []) ->
  from_chars t base text = Ok (fc_loop t base false text 0 0).
Proof.
  intros H1 H2. unfold from_chars. destruct (sgn t); auto.
  destruct text as [|c text]; [now destruct H2|]. cbn [rd nth_error bind].
  unfold rd. cbn [nth_error bind]. destruct (Z.eqb_spec c 45); subst; [now destruct H1|reflexivity].
Qed.

Lemma from_chars_digits t base pre ds rest :
  2 <= base <= 36 -> 1 <= bits t -> spells base pre ds -> no_digit_head base rest ->
  pre ++ rest <> [] -> (sgn t = true -> hd_error rest <> Some 45 \/ pre <> []) ->
  from_chars t base (pre ++ rest) =
    Ok (if Nat.eqb (length pre) 0 then FcR 0 InvalidArgument None
        else if value_of base ds <=? imax t then FcR (length pre) NoErr (Some (value_of base ds))
        else fc_loop t base false (pre ++ rest) 0 0) /\
  (imax t < value_of base ds ->
     forall more ds' tail, rest = more ++ tail ->
       spells (template_base base) more ds' -> no_digit_head (template_base base) tail ->
       from_chars t base (pre ++ rest) =
         Ok (FcR (length pre + length more) ResultOutOfRange None)).
Proof.
  intros Hb Hw S N HE HM.
  pose proof (imax_nonneg t Hw) as Hmax.
  assert (E : from_chars t base (pre ++ rest) = Ok (fc_loop t base false (pre ++ rest) 0 0)).
  { destruct (sgn t) eqn:Es.
    - apply from_chars_plain; auto. destruct pre as [|c pre].
      + destruct (HM eq_refl) as [HM'|HM']; auto.
      + inversion S; subst. cbn. intros [= ->]. eapply no_minus_digit; eauto.
    - unfold from_chars. now rewrite Es. }
  rewrite E.
  destruct (fc_loop_spec t base false pre ds rest 0 0 Hb ltac:(lia) S N) as [L1 L2].
  fold (value_of base ds) in L1, L2. split.
  - destruct (Nat.eqb_spec (length pre) 0) as [H0|H0].
    + destruct pre; [|discriminate]. inversion S; subst. cbn [value_of fold_left] in L1.
      f_equal. destruct rest as [|c rest]; [now destruct HE|].
      rewrite L1 by auto. reflexivity.
    + destruct (Z.leb_spec (value_of base ds) (imax t)); auto.
      rewrite L1 by auto. cbn [Nat.add]. rewrite andb_false_r.
      destruct rest; auto. destruct (Nat.eqb_spec (length pre) 0); [lia|reflexivity].
  - intros Hv more ds' tail Hr Sm Nt. f_equal. rewrite (L2 Hv more ds' tail Hr Sm Nt). reflexivity.
Qed.

(* text with a leading minus sign *)
Lemma from_chars_minus t base pre ds rest :
  2 <= base <= 36 -> 1 <= bits t -> sgn t = true -> spells base pre ds -> no_digit_head base rest ->
  (value_of base ds <= imax t ->
     from_chars t base (45 :: pre ++ rest) =
       Ok (FcR (S (length pre)) NoErr
             (Some (match rest with [] => - value_of base ds | _ => value_of base ds end)))) /\
  (imax t < value_of base ds ->
     forall more ds' tail, rest = more ++ tail ->
       spells (template_base base) more ds' -> no_digit_head (template_base base) tail ->
       from_chars t base (45 :: pre ++ rest) =
         Ok (FcR (S (length pre + length more)) ResultOutOfRange None)).
Proof.
  intros Hb Hw Hs S N.
  pose proof (imax_nonneg t Hw) as Hmax.
  assert (E : from_chars t base (45 :: pre ++ rest) = Ok (fc_loop t base true (pre ++ rest) 1 0)).
  { unfold from_chars. rewrite Hs. reflexivity. }
  rewrite E.
  destruct (fc_loop_spec t base true pre ds rest 1 0 Hb ltac:(lia) S N) as [L1 L2].
  fold (value_of base ds) in L1, L2. split.
  - intros Hv. f_equal. rewrite L1 by auto. rewrite Hs. cbn [andb Nat.add Nat.eqb]. now destruct rest.
  - intros Hv more ds' tail Hr Sm Nt. f_equal. rewrite (L2 Hv more ds' tail Hr Sm Nt). reflexivity.
Qed.

(* ---- numerals ---- *)

Definition canonical (base : Z) (ds : list Z) : Prop :=
  ds <> [] /\ Forall (fun d => 0 <= d < base) ds /\ (hd 0 ds = 0 -> ds = [0]).

Lemma canonical_snoc_inv base ds d :
  2 <= base -> canonical base (ds ++ [d]) -> ds <> [] ->
  canonical base ds /\ 0 < value_of base ds /\ 0 <= d < base.
Proof.
  intros Hb (H1 & H2 & H3) Hne. apply Forall_app in H2 as [F1 F2]. inversion F2; subst.
  destruct ds as [|e ds]; [now destruct Hne|]. cbn [app hd] in *.
  assert (He : e <> 0). { intros ->. specialize (H3 eq_refl). destruct ds; discriminate. }
  split; [|split]; auto.
  - split; auto. split; auto. cbn. intros ->. now destruct He.
  - apply value_pos; auto; lia.
Qed.

Lemma canonical_exists base : 2 <= base -> forall n v, 0 <= v < Z.of_nat n ->
  exists ds, canonical base ds /\ value_of base ds = v.
Proof.
  intros Hb. induction n as [|n IH]; intros v Hv; [lia|].
  destruct (Z.ltb_spec v base).
  - exists [v]. split; [|cbn; lia]. split; [discriminate|]. split; [repeat constructor; lia|].
    cbn. congruence.
  - assert (Hq : 1 <= v / base) by (apply Z.div_le_lower_bound; lia).
    pose proof (Z.div_mod v base ltac:(lia)) as DM. pose proof (Z.mod_pos_bound v base ltac:(lia)).
    destruct (IH (v / base)) as (ds & (C1 & C2 & C3) & V); [nia|].
    exists (ds ++ [v mod base]). split; [|rewrite value_of_snoc, V; lia].
    split; [now destruct ds|]. split; [apply Forall_app; split; auto; repeat constructor; lia|].
    destruct ds as [|e ds]; [now destruct C1|]. cbn [app hd] in *. intros ->.
    specialize (C3 eq_refl). injection C3 as ->. cbn in V. lia.
Qed.

Lemma canonical_unique base ds ds' :
  2 <= base -> canonical base ds -> canonical base ds' -> value_of base ds = value_of base ds' -> ds = ds'.
Proof.
  intros Hb. revert ds'. induction ds as [|d ds IH] using rev_ind; intros ds' C C' V.
  - now destruct C.
  - destruct ds' as [|d' ds' _] using rev_ind; [now destruct C'|].
    rewrite !value_of_snoc in V.
    destruct (list_eq_dec Z.eq_dec ds []) as [->|N]; destruct (list_eq_dec Z.eq_dec ds' []) as [->|N'].
    + cbn in *. f_equal. lia.
    + destruct (canonical_snoc_inv _ _ _ Hb C' N') as (C1 & P & R).
      destruct C as (_ & F & _). inversion F; subst. cbn in V. nia.
    + destruct (canonical_snoc_inv _ _ _ Hb C N) as (C1 & P & R).
      destruct C' as (_ & F & _). inversion F; subst. cbn in V. nia.
    + destruct (canonical_snoc_inv _ _ _ Hb C N) as (C1 & P & R).
      destruct (canonical_snoc_inv _ _ _ Hb C' N') as (C1' & P' & R').
      assert (value_of base ds = value_of base ds') by nia.
      assert (d = d') by nia. subst. f_equal. apply IH; auto.
Qed.

Lemma numeral_exists up base v : 2 <= base -> exists s, is_numeral up base v s.
Proof.
  intros Hb. destruct (canonical_exists base Hb (Z.to_nat (Z.abs v + 1)) (Z.abs v)) as (ds & (C1 & C2 & C3) & V); [lia|].
  exists ((if v <? 0 then [45] else []) ++ map (digit_char up) ds), ds. auto.
Qed.

Lemma numeral_unique up base v s s' : 2 <= base -> is_numeral up base v s -> is_numeral up base v s' -> s = s'.
Proof.
  intros Hb (ds & -> & A1 & A2 & A3 & A4) (ds' & -> & B1 & B2 & B3 & B4).
  f_equal. f_equal. apply (canonical_unique base); auto; try (split; auto). congruence.
Qed.

Lemma digit_char_digit up base d : base <= 36 -> 0 <= d < base -> is_digit base (digit_char up d) d.
Proof.
  intros Hb H. unfold is_digit, digit_value, digit_char. split; [|lia].
  destruct (Z.ltb_spec d 10), up; zb; try lia; f_equal; lia.
Qed.

Lemma spells_map up base ds :
  base <= 36 -> Forall (fun d => 0 <= d < base) ds -> spells base (map (digit_char up) ds) ds.
Proof. intros Hb. induction 1; constructor; auto. now apply digit_char_digit. Qed.

Lemma digit_char_inj up d d' : 0 <= d < 36 -> 0 <= d' < 36 -> digit_char up d = digit_char up d' -> d = d'.
Proof. unfold digit_char. intros ? ?. destruct up; zb; lia. Qed.

Lemma digit_char_pos up d : 0 <= d -> 48 <= digit_char up d.
Proof. unfold digit_char. destruct up; zb; lia. Qed.

Lemma numeral_injective up base v v' s :
  2 <= base <= 36 -> is_numeral up base v s -> is_numeral up base v' s -> v = v'.
Proof.
  intros Hb (ds & -> & A1 & A2 & A3 & A4) (ds' & E & B1 & B2 & B3 & B4).
  assert (HM : forall a b, Forall (fun d => 0 <= d < base) a -> Forall (fun d => 0 <= d < base) b ->
                 map (digit_char up) a = map (digit_char up) b -> a = b).
  { clear - Hb. induction a as [|x a IH]; intros [|y b] F G E; try discriminate; auto.
    inversion F; inversion G; subst. cbn in E. injection E as E1 E2.
    f_equal; auto. apply (digit_char_inj up); auto; lia. }
  assert (HP : forall a l, Forall (fun d => 0 <= d < base) a -> map (digit_char up) a = 45 :: l -> False).
  { intros [|x a] l F E'; [discriminate|]. inversion F; subst. cbn in E'. injection E' as E1 _.
    pose proof (digit_char_pos up x). lia. }
  destruct (Z.ltb_spec v 0); destruct (Z.ltb_spec v' 0); cbn [app] in E.
  - injection E as E. apply HM in E; auto. subst. lia.
  - symmetry in E. exfalso; eauto.
  - exfalso; eauto.
  - apply HM in E; auto. subst. lia.
Qed.

(* ---- to_chars ---- *)

Lemma to_char_digit up base d : 0 <= d < base -> base <= 36 -> to_char base up d = digit_char up d.
Proof. unfold to_char, digit_char. intros. zb; lia. Qed.

Lemma imax_lt_pow t : 1 <= bits t -> imax t < 2 ^ bits t.
Proof.
  intros H. unfold imax. destruct (sgn t); [|lia].
  rewrite (pow_half (bits t)) by lia.
  pose proof (Z.pow_pos_nonneg 2 (bits t - 1) ltac:(lia) ltac:(lia)). lia.
Qed.

Lemma as_operand_id t v : 1 <= bits t -> 0 <= v <= imax t -> as_operand t v = v.
Proof.
  intros Hw Hv. unfold as_operand. destruct (Z.leb_spec (bits t) 32); auto.
  apply u32_id. pose proof (imax_lt_pow t Hw).
  assert (2 ^ bits t <= 2 ^ 32) by (apply Z.pow_le_mono_r; lia).
  change (2 ^ 32) with 4294967296 in *. lia.
Qed.

Lemma opt_step t base q d :
  1 <= bits t -> 2 <= base -> 0 <= q -> 0 <= d < base -> q * base + d <= imax t ->
  opt_rem t (q * base + d) base = d /\ opt_quot t (q * base + d) base = q.
Proof.
  intros Hw Hb Hq Hd Hv. unfold opt_rem, opt_quot. rewrite as_operand_id by (auto; nia).
  rewrite Z.rem_mod_nonneg, Z.quot_div_nonneg by nia.
  rewrite Z.add_comm, Z.mod_add, Z.div_add, Z.mod_small, Z.div_small by lia.
  split; auto. apply wrap_id; auto. split; [|nia]. pose proof (imin_nonpos t). lia.
Qed.

Lemma overwrite_upd {A} (m : list A) p s c :
  (p + length s < length m)%nat ->
  overwrite (upd m (p + length s) c) p s = overwrite m p (s ++ [c]).
Proof.
  intros H. apply nth_error_ext. intros i.
  rewrite !nth_error_overwrite by (rewrite ?upd_length, ?app_length; cbn [length]; lia).
  rewrite app_length. cbn [length]. rewrite nth_error_upd.
  destruct (Nat.ltb_spec i p); [bcase; auto; lia|].
  destruct (Nat.ltb_spec i (p + length s)).
  - destruct (Nat.ltb_spec i (p + (length s + 1))); [|lia].
    rewrite nth_error_app1 by lia. reflexivity.
  - destruct (Nat.eqb_spec (p + length s) i).
    + subst. destruct (Nat.ltb_spec (p + length s) (length m)); [|lia].
      destruct (Nat.ltb_spec (p + length s) (p + (length s + 1))); [|lia].
      rewrite nth_error_app2 by lia. now replace (p + length s - p - length s)%nat with 0%nat by lia.
    + destruct (Nat.ltb_spec i (p + (length s + 1))); [lia|reflexivity].
Qed.

Definition sign_of (neg : bool) : list Z := if neg then [45] else [].

Lemma wr_overwrite1 {A} (m : list A) l c : (l < length m)%nat -> upd m l c = overwrite m l [c].
Proof.
  intros H. unfold overwrite. rewrite upd_split by auto. cbn [app length].
  now rewrite Nat.add_1_r.
Qed.

Lemma tco_loop_spec t base up neg ds : forall last buf,
  1 <= bits t -> 2 <= base <= 36 -> canonical base ds -> value_of base ds <= imax t ->
  (neg = true -> sgn t = true) -> (1 <= last <= length buf)%nat ->
  (length ds < last ->
     let s := sign_of neg ++ map (digit_char up) ds in
     tco_loop t base up neg last buf (value_of base ds) =
       Ok (TcR (last - length s) NoErr (overwrite buf (last - length s) s)))%nat /\
  (last <= length ds ->
     exists buf', tco_loop t base up neg last buf (value_of base ds) = Ok (TcR 0 ValueTooLarge buf') /\
       length buf' = length buf)%nat.
Proof.
  induction ds as [|d ds IH] using rev_ind; intros last buf Hw Hb C Hv Hn Hl.
  { now destruct C. }
  destruct last as [|l]; [lia|]. cbn [tco_loop].
  destruct (Nat.eqb_spec l 0) as [->|Hl0].
  { split; intros HL; [rewrite app_length in HL; cbn in HL; lia|]. eauto. }
  rewrite value_of_snoc in *.
  assert (HD : 0 <= d < base /\ 0 <= value_of base ds).
  { destruct C as (_ & F & _). apply Forall_app in F as [F1 F2]. inversion F2; subst.
    split; auto. apply value_nonneg; auto; lia. }
  destruct HD as [Hd Hq].
  destruct (opt_step t base (value_of base ds) d Hw ltac:(lia) Hq Hd Hv) as [-> ->].
  rewrite to_char_digit by lia. rewrite wr_ok by lia. cbn [bind].
  destruct (list_eq_dec Z.eq_dec ds []) as [->|N].
  - cbn [value_of fold_left app map length Z.eqb]. rewrite app_length. cbn [length].
    split; [|intros; lia]. intros _.
    destruct neg.
    + rewrite Hn by auto. cbn [andb]. rewrite wr_ok by (rewrite upd_length; lia). cbn [bind sign_of length].
      do 2 f_equal; try lia.
      rewrite (wr_overwrite1 _ (l - 1)) by (rewrite upd_length; lia).
      replace (S l - (1 + 1))%nat with (l - 1)%nat by lia.
      replace l with (l - 1 + length [45%Z])%nat at 1 by (cbn; lia).
      apply overwrite_upd. cbn. lia.
    + rewrite andb_false_r. cbn [sign_of length Nat.add]. do 2 f_equal; try lia.
      replace (S l - 1)%nat with l by lia. apply wr_overwrite1; lia.
  - destruct (canonical_snoc_inv base ds d ltac:(lia) C N) as (C' & P & _).
    destruct (Z.eqb_spec (value_of base ds) 0); [lia|].
    assert (Hmono : value_of base ds <= imax t) by nia.
    destruct (IH l (upd buf l (digit_char up d)) Hw Hb C' Hmono Hn) as [IH1 IH2];
      [rewrite upd_length; lia|].
    rewrite upd_length in IH2. rewrite !app_length. cbn [length]. split.
    + intros HL. rewrite IH1 by lia. rewrite map_app, app_length. cbn [map].
      rewrite map_length. cbn [length].
      set (sg := sign_of neg) in *.
      assert (Hsg : (length sg <= 1)%nat) by (unfold sg, sign_of; destruct neg; cbn; lia).
      rewrite !app_length, !map_length. cbn [length].
      replace (S l - (length sg + (length ds + 1)))%nat with (l - (length sg + length ds))%nat by lia.
      do 2 f_equal.
      rewrite app_assoc.
      rewrite <- overwrite_upd.
      * f_equal. f_equal. rewrite app_length, map_length. lia.
      * rewrite app_length, map_length. lia.
    + intros HL. apply IH2. lia.
Qed.

(* ---- whole conversions ---- *)


Lemma times_minus_one_ok t v :
  1 <= bits t -> in_range t v -> v < 0 -> not_min t v ->
  times_minus_one t v = Ok (- v) /\ sgn t = true /\ - v <= imax t.
Proof.
  intros Hw Hr Hv Hm. unfold not_min in Hm. unfold times_minus_one.
  assert (Hs : sgn t = true).
  { destruct (sgn t) eqn:E; auto. unfold in_range, imin in Hr. rewrite E in Hr. lia. }
  specialize (Hm Hs).
  assert (Hm' : - v <= imax t).
  { unfold in_range, imin, imax in *. rewrite Hs in *. lia. }
  assert (R : in_range t (- v)). { split; auto. pose proof (imin_nonpos t). lia. }
  rewrite wrap_id, fits_true by auto. destruct (bits t <? 32); auto.
Qed.

Lemma numeral_parts up base v s :
  is_numeral up base v s -> exists ds, canonical base ds /\ value_of base ds = Z.abs v /\
    s = sign_of (v <? 0) ++ map (digit_char up) ds.
Proof.
  intros (ds & -> & A1 & A2 & A3 & A4). exists ds. split; [split; auto|]. split; auto.
Qed.

(* Room the right-to-left conversion needs: one more than the digits. *)
Definition opt_need (v : Z) (s : list Z) : nat := if v <? 0 then length s else S (length s).

Lemma to_chars_opt_spec t base up buf v s :
  1 <= bits t -> 2 <= base <= 36 -> in_range t v -> not_min t v ->
  is_numeral up base v s -> (1 <= length buf)%nat ->
  (opt_need v s <= length buf ->
     to_chars_opt t base up buf v =
       Ok (TcR (length buf - length s) NoErr (overwrite buf (length buf - length s) s)))%nat /\
  (length buf < opt_need v s ->
     exists buf', to_chars_opt t base up buf v = Ok (TcR 0 ValueTooLarge buf') /\
       length buf' = length buf)%nat.
Proof.
  intros Hw Hb Hr Hm Hs HN.
  destruct (numeral_parts _ _ _ _ Hs) as (ds & C & V & ->). clear Hs.
  unfold to_chars_opt, opt_need.
  destruct (Z.ltb_spec v 0) as [Hv|Hv].
  - destruct (times_minus_one_ok t v Hw Hr Hv Hm) as (-> & S & Hm').
    rewrite S. cbn [andb bind]. cbn [sign_of]. rewrite app_length, map_length. cbn [length].
    replace (- v) with (value_of base ds) by lia.
    destruct (tco_loop_spec t base up true ds (length buf) buf Hw Hb C) as [L1 L2];
      [lia|auto|lia|].
    split; intros HL.
    + rewrite L1 by lia. cbn [sign_of]. rewrite app_length, map_length. cbn [length]. reflexivity.
    + apply L2. lia.
  - rewrite andb_false_r. cbn [bind sign_of app]. rewrite map_length.
    replace v with (value_of base ds) by lia.
    assert (Hmx : value_of base ds <= imax t) by (unfold in_range in Hr; lia).
    destruct (tco_loop_spec t base up false ds (length buf) buf Hw Hb C Hmx) as [L1 L2];
      [discriminate|lia|].
    split; intros HL.
    + rewrite L1 by lia. cbn [sign_of app]. rewrite map_length. reflexivity.
    + apply L2. lia.
Qed.

Lemma copy_to_front (m : list Z) p s :
  (p + length s = length m)%nat ->
  exists m', copy (overwrite m p s) p (length m) 0 = Ok (m', length s) /\ length m' = length m /\
    firstn (length s) m' = s.
Proof.
  intros H.
  assert (LO : length (overwrite m p s) = length m) by (apply overwrite_length; lia).
  destruct (copy_spec (overwrite m p s) p (length m) 0) as (m' & E & L & M); try lia.
  exists m'. rewrite E. replace (0 + (length m - p))%nat with (length s) by lia.
  split; auto. split; [lia|].
  apply nth_error_ext. intros i. rewrite nth_error_firstn.
  destruct (Nat.ltb_spec i (length s)).
  - rewrite M. bcase; try lia. rewrite nth_error_overwrite by lia.
    bcase; try lia. f_equal. lia.
  - symmetry. apply nth_error_None. lia.
Qed.

Lemma to_chars_spec t base buf v s :
  1 <= bits t -> 2 <= base <= 36 -> in_range t v -> not_min t v ->
  is_numeral false base v s -> (1 <= length buf)%nat ->
  (opt_need v s <= length buf ->
     exists buf', to_chars t base buf v = Ok (TcR (length s) NoErr buf') /\
       length buf' = length buf /\ firstn (length s) buf' = s)%nat /\
  (length buf < opt_need v s ->
     exists buf', to_chars t base buf v = Ok (TcR (length buf) ValueTooLarge buf') /\
       length buf' = length buf)%nat.
Proof.
  intros Hw Hb Hr Hm Hs HN.
  destruct (to_chars_opt_spec t base false buf v s Hw Hb Hr Hm Hs HN) as [L1 L2].
  unfold to_chars. split; intros HL.
  - rewrite L1 by auto. cbn [bind tbuf tptr tec].
    destruct (copy_to_front buf (length buf - length s) s) as (m' & -> & A & B).
    { unfold opt_need in HL. destruct (v <? 0); lia. }
    cbn [bind fst snd]. eauto.
  - destruct (L2 HL) as (buf' & -> & LB). cbn [bind tbuf tptr tec].
    destruct (copy_spec buf' 0 (length buf) 0) as (m' & -> & L & M); try lia.
    cbn [bind fst snd]. exists m'. split; [|lia]. do 2 f_equal. lia.
Qed.

(* ---- to_chars_exp ---- *)

Lemma nth_error_rev {A} (l : list A) k :
  nth_error (rev l) k = if Nat.ltb k (length l) then nth_error l (length l - 1 - k) else None.
Proof.
  destruct (Nat.ltb_spec k (length l)) as [Hk|Hk].
  - destruct (rd_lt l (length l - 1 - k)) as (x & Hx & _); [lia|].
    rewrite Hx. rewrite (nth_error_nth' _ x) by (now rewrite rev_length).
    f_equal. rewrite rev_nth by auto.
    replace (length l - S k)%nat with (length l - 1 - k)%nat by lia.
    now apply nth_error_nth.
  - apply nth_error_None. now rewrite rev_length.
Qed.

Lemma reverse_overwrite {A} (swp : swapper A) (m l : list A) f :
  exchanges swp -> (f + length l <= length m)%nat ->
  reverse swp (overwrite m f l) f (f + length l) = Ok (overwrite m f (rev l)).
Proof.
  intros EX H.
  assert (LO : length (overwrite m f l) = length m) by (apply overwrite_length; lia).
  destruct (reverse_spec swp (overwrite m f l) f (f + length l) EX) as (m' & -> & L & E); try lia.
  f_equal. apply nth_error_ext. intros i. rewrite E.
  rewrite !nth_error_overwrite by (rewrite ?rev_length; lia). rewrite rev_length, nth_error_rev.
  destruct (Nat.ltb_spec i f).
  - destruct (Nat.leb_spec f i); try lia. reflexivity.
  - destruct (Nat.leb_spec f i); try lia. cbn [andb].
    destruct (Nat.ltb_spec i (f + length l)); auto.
    destruct (Nat.ltb_spec (f + (f + length l) - 1 - i) f); try lia.
    destruct (Nat.ltb_spec (f + (f + length l) - 1 - i) (f + length l)); try lia.
    destruct (Nat.ltb_spec (i - f) (length l)); try lia. f_equal. lia.
Qed.

Lemma overwrite_cons {A} (m : list A) p c s :
  (p + S (length s) <= length m)%nat ->
  overwrite (upd m p c) (S p) s = overwrite m p (c :: s).
Proof.
  intros H. apply nth_error_ext. intros i.
  rewrite !nth_error_overwrite by (rewrite ?upd_length; cbn [length]; lia).
  cbn [length]. rewrite nth_error_upd.
  destruct (Nat.ltb_spec i (S p)); destruct (Nat.ltb_spec i p); try lia.
  - bcase; auto; lia.
  - replace i with p by lia. bcase; try lia. now rewrite Nat.sub_diag.
  - replace (S p + length s)%nat with (p + S (length s))%nat by lia.
    destruct (Nat.ltb_spec i (p + S (length s))).
    + replace (i - p)%nat with (S (i - S p)) by lia. reflexivity.
    + bcase; auto; lia.
Qed.

Lemma tcr_step t base q d :
  1 <= bits t -> 2 <= base -> 0 <= q -> 0 <= d < base -> q * base + d <= imax t ->
  Z.rem (q * base + d) base = d /\ wrap t (Z.quot (q * base + d) base) = q.
Proof.
  intros Hw Hb Hq Hd Hv.
  rewrite Z.rem_mod_nonneg, Z.quot_div_nonneg by nia.
  rewrite Z.add_comm, Z.mod_add, Z.div_add, Z.mod_small, Z.div_small by lia.
  split; auto. apply wrap_id; auto. split; [|nia]. pose proof (imin_nonpos t). lia.
Qed.

Lemma tcr_loop_spec t base ds : forall n first cur buf,
  1 <= bits t -> 2 <= base <= 36 -> canonical base ds -> value_of base ds <= imax t ->
  (cur + n = length buf)%nat ->
  (length ds <= n ->
     tcr_loop t base n first cur buf (value_of base ds) =
       (buf2 <- reverse xor_swap (overwrite buf cur (rev (map (digit_char false) ds))) first (cur + length ds) ;;
        Ok (TcR (cur + length ds) NoErr buf2)))%nat /\
  (n < length ds ->
     exists buf', tcr_loop t base n first cur buf (value_of base ds) = Ok (TcR (cur + n) ValueTooLarge buf') /\
       length buf' = length buf)%nat.
Proof.
  induction ds as [|d ds IH] using rev_ind; intros n first cur buf Hw Hb C Hv Hl.
  { now destruct C. }
  rewrite app_length. cbn [length].
  destruct n as [|n]; cbn [tcr_loop].
  { split; intros HL; [lia|]. exists buf. rewrite Nat.add_0_r. auto. }
  rewrite value_of_snoc in *.
  assert (HD : 0 <= d < base /\ 0 <= value_of base ds).
  { destruct C as (_ & F & _). apply Forall_app in F as [F1 F2]. inversion F2; subst.
    split; auto. apply value_nonneg; auto; lia. }
  destruct HD as [Hd Hq].
  destruct (tcr_step t base (value_of base ds) d Hw ltac:(lia) Hq Hd Hv) as [-> ->].
  rewrite to_char_digit by lia. rewrite wr_ok by lia. cbn [bind].
  rewrite map_app, rev_app_distr. cbn [map rev app].
  destruct (list_eq_dec Z.eq_dec ds []) as [->|N].
  - cbn [value_of fold_left map rev length Z.eqb Nat.add].
    split; [|intros; lia]. intros _.
    rewrite wr_overwrite1 by lia. now replace (cur + 1)%nat with (S cur) by lia.
  - destruct (canonical_snoc_inv base ds d ltac:(lia) C N) as (C' & P & _).
    destruct (Z.eqb_spec (value_of base ds) 0); [lia|].
    assert (Hmono : value_of base ds <= imax t) by nia.
    destruct (IH n first (S cur) (upd buf cur (digit_char false d)) Hw Hb C' Hmono) as [IH1 IH2];
      [rewrite upd_length; lia|].
    rewrite upd_length in IH2. split.
    + intros HL. rewrite IH1 by lia. rewrite overwrite_cons by (rewrite rev_length, map_length; lia).
      now replace (cur + (length ds + 1))%nat with (S cur + length ds)%nat by lia.
    + intros HL. replace (cur + S n)%nat with (S cur + n)%nat by lia. apply IH2. lia.
Qed.

Lemma firstn_overwrite0 {A} (m s : list A) : firstn (length s) (overwrite m 0 s) = s.
Proof.
  unfold overwrite. cbn [firstn app]. rewrite firstn_app, Nat.sub_diag, firstn_all. cbn. apply app_nil_r.
Qed.

Lemma to_chars_exp_spec t base buf v s :
  1 <= bits t -> 2 <= base <= 36 -> in_range t v -> not_min t v ->
  is_numeral false base v s -> (v < 0 -> (1 <= length buf)%nat) ->
  (length s <= length buf ->
     exists buf', to_chars_exp t base buf v = Ok (TcR (length s) NoErr buf') /\
       length buf' = length buf /\ firstn (length s) buf' = s)%nat /\
  (length buf < length s ->
     exists buf', to_chars_exp t base buf v = Ok (TcR (length buf) ValueTooLarge buf') /\
       length buf' = length buf)%nat.
Proof.
  intros Hw Hb Hr Hm Hs HN.
  destruct (numeral_parts _ _ _ _ Hs) as (ds & C & V & ->). clear Hs.
  unfold to_chars_exp.
  destruct (Z.ltb_spec v 0) as [Hv|Hv].
  - destruct (times_minus_one_ok t v Hw Hr Hv Hm) as (-> & S & Hm').
    specialize (HN Hv). rewrite S. cbn [andb]. rewrite wr_ok by lia. cbn [bind].
    cbn [sign_of app length]. rewrite map_length.
    replace (- v) with (value_of base ds) by lia.
    destruct (tcr_loop_spec t base ds (length buf - 1) 1 1 (upd buf 0 45) Hw Hb C) as [L1 L2];
      [lia|rewrite upd_length; lia|].
    rewrite upd_length in L2.
    split; intros HL.
    + rewrite L1 by lia.
      replace (1 + length ds)%nat with (1 + length (rev (map (digit_char false) ds)))%nat
        by (rewrite rev_length, map_length; lia).
      rewrite reverse_overwrite; [|apply xor_swap_exchanges|rewrite rev_length, map_length, upd_length; lia].
      rewrite rev_involutive, overwrite_cons by (rewrite map_length; lia).
      cbn [bind]. rewrite rev_length, map_length. cbn [Nat.add].
      eexists. split; [reflexivity|]. split.
      * apply overwrite_length. cbn [length]. rewrite map_length. lia.
      * replace (Datatypes.S (length ds)) with (length (45 :: map (digit_char false) ds))
          by (cbn [length]; now rewrite map_length).
        apply firstn_overwrite0.
    + destruct L2 as (b & -> & LB); [lia|]. exists b. split; auto. do 2 f_equal. lia.
  - rewrite andb_false_r. cbn [sign_of app]. rewrite map_length.
    replace v with (value_of base ds) by lia.
    assert (Hmx : value_of base ds <= imax t) by (unfold in_range in Hr; lia).
    destruct (tcr_loop_spec t base ds (length buf) 0 0 buf Hw Hb C Hmx) as [L1 L2]; [lia|].
    split; intros HL.
    + rewrite L1 by lia. cbn [Nat.add].
      replace (length ds) with (0 + length (rev (map (digit_char false) ds)))%nat
        by (rewrite rev_length, map_length; lia).
      rewrite reverse_overwrite; [|apply xor_swap_exchanges|rewrite rev_length, map_length; lia].
      rewrite rev_involutive. cbn [bind Nat.add]. rewrite rev_length.
      eexists. split; [reflexivity|]. split.
      * apply overwrite_length. rewrite map_length. lia.
      * apply firstn_overwrite0.
    + destruct L2 as (b & E & LB); [lia|]. rewrite E. exists b. auto.
Qed.

(* ---- round trip ---- *)

Lemma from_numeral t base up v s :
  1 <= bits t -> 2 <= base <= 36 -> in_range t v -> not_min t v -> is_numeral up base v s ->
  from_chars t base s = Ok (FcR (length s) NoErr (Some v)).
Proof.
  intros Hw Hb Hr Hm Hs.
  destruct (numeral_parts _ _ _ _ Hs) as (ds & C & V & ->). clear Hs.
  assert (SP : spells base (map (digit_char up) ds) ds) by (apply spells_map; [lia|apply C]).
  destruct (Z.ltb_spec v 0) as [Hv|Hv].
  - destruct (times_minus_one_ok t v Hw Hr Hv Hm) as (_ & S & Hm').
    destruct (from_chars_minus t base _ ds [] Hb Hw S SP I) as [L1 _].
    cbn [sign_of app]. rewrite app_nil_r in L1. rewrite L1 by lia.
    cbn [length]. do 3 f_equal. lia.
  - cbn [sign_of app].
    destruct ds as [|d ds]; [now destruct C|].
    destruct (from_chars_digits t base _ (d :: ds) [] Hb Hw SP I) as [L1 _];
      [discriminate|cbn; left; discriminate|].
    rewrite app_nil_r in L1. rewrite L1. cbn [map length Nat.eqb].
    unfold in_range in Hr. destruct (Z.leb_spec (value_of base (d :: ds)) (imax t)); [|lia].
    do 3 f_equal. lia.
Qed.

(* ---- to_string ---- *)

Lemma canonical_length base ds k :
  2 <= base -> canonical base ds -> value_of base ds < base ^ Z.of_nat k -> (1 <= k)%nat -> (length ds <= k)%nat.
Proof.
  intros Hb (C1 & C2 & C3) V Hk. destruct ds as [|d ds]; [now destruct C1|]. cbn [length hd] in *.
  destruct (Z.eq_dec d 0) as [->|Hd].
  - specialize (C3 eq_refl). injection C3 as ->. cbn. lia.
  - inversion C2; subst. unfold value_of in V. cbn [fold_left] in V.
    pose proof (fold_nonneg base ds (0 * base + d) ltac:(lia) ltac:(lia) ltac:(auto)) as F.
    assert (P : base ^ Z.of_nat (length ds) < base ^ Z.of_nat k).
    { pose proof (Z.pow_nonneg base (Z.of_nat (length ds)) ltac:(lia)). nia. }
    apply Z.pow_lt_mono_r_iff in P; lia.
Qed.

Lemma strlen10 t v ds :
  std_ity t -> in_range t v -> not_min t v -> canonical 10 ds -> value_of 10 ds = Z.abs v ->
  (length ds <= uint_strlen 10 (bits t))%nat.
Proof.
  intros Ht Hr Hm C V.
  assert (Hw : 1 <= bits t) by (unfold std_ity in Ht; lia).
  assert (B : value_of 10 ds <= imax t).
  { destruct (Z.ltb_spec v 0) as [Hv|Hv].
    - destruct (times_minus_one_ok t v Hw Hr Hv Hm) as (_ & _ & ?). lia.
    - unfold in_range in Hr. lia. }
  pose proof (imax_lt_pow t Hw) as P.
  unfold uint_strlen. cbn [Z.eqb Pos.eqb].
  apply (canonical_length 10); auto; try lia.
  - destruct Ht as [E|[E|[E|E]]]; rewrite E in P |- *; cbn [Z.eqb Pos.eqb].
    + change (10 ^ Z.of_nat 3) with 1000. change (2 ^ 8) with 256 in P. lia.
    + change (10 ^ Z.of_nat 5) with 100000. change (2 ^ 16) with 65536 in P. lia.
    + change (10 ^ Z.of_nat 10) with 10000000000. change (2 ^ 32) with 4294967296 in P. lia.
    + change (10 ^ Z.of_nat 20) with 100000000000000000000.
      change (2 ^ 64) with 18446744073709551616 in P. lia.
  - repeat match goal with |- context [if ?b then _ else _] => destruct b end; lia.
Qed.

Lemma to_string_spec t junk v s :
  std_ity t -> in_range t v -> not_min t v -> length junk = (int_length 10 t + 1)%nat ->
  is_numeral false 10 v s -> to_string t junk v = Ok s.
Proof.
  intros Ht Hr Hm HL Hs.
  assert (Hw : 1 <= bits t) by (unfold std_ity in Ht; lia).
  destruct (numeral_parts _ _ _ _ Hs) as (ds & C & V & E).
  pose proof (strlen10 t v ds Ht Hr Hm C V) as SL.
  destruct (to_chars_opt_spec t 10 false junk v s Hw ltac:(lia) Hr Hm Hs ltac:(lia)) as [L1 _].
  assert (LS : (opt_need v s <= length junk)%nat).
  { unfold opt_need, int_length in *. subst s. rewrite app_length, map_length.
    destruct (Z.ltb_spec v 0) as [Hv|Hv]; cbn [sign_of length].
    - destruct (times_minus_one_ok t v Hw Hr Hv Hm) as (_ & Sg & _). rewrite Sg in HL. lia.
    - lia. }
  unfold to_string. rewrite L1 by auto. cbn [bind tptr tbuf]. f_equal.
  assert (LE : (length s <= length junk)%nat) by (unfold opt_need in LS; destruct (v <? 0); lia).
  unfold overwrite. rewrite skipn_app, firstn_length, Nat.min_l by lia.
  rewrite skipn_all2 by (rewrite firstn_length; lia). rewrite Nat.sub_diag. cbn [app skipn].
  replace (length junk - length s + length s)%nat with (length junk) by lia.
  rewrite skipn_all. apply app_nil_r.
Qed.

Lemma to_string_opt_spec t base buf v s :
  1 <= bits t -> 2 <= base <= 36 -> in_range t v -> not_min t v -> is_numeral false base v s ->
  (opt_need v s < length buf)%nat ->
  to_string_opt t base buf v =
    Ok (TcR (length buf - 1 - length s) NoErr (firstn (length buf - 1 - length s) buf ++ s ++ [0])).
Proof.
  intros Hw Hb Hr Hm Hs HL.
  assert (LE : (1 <= opt_need v s /\ length s <= opt_need v s)%nat).
  { unfold opt_need. destruct (Z.ltb_spec v 0); [|lia].
    destruct (numeral_parts _ _ _ _ Hs) as (ds & C & V & ->).
    destruct (Z.ltb_spec v 0); [|lia]. cbn [sign_of app length]. lia. }
  assert (LF : length (firstn (length buf - 1) buf) = (length buf - 1)%nat) by (rewrite firstn_length; lia).
  destruct (to_chars_opt_spec t base false (firstn (length buf - 1) buf) v s Hw Hb Hr Hm Hs) as [L1 _]; [lia|].
  unfold to_string_opt. rewrite L1 by lia. rewrite LF. cbn [bind tptr tbuf tec].
  assert (LO : length (overwrite (firstn (length buf - 1) buf) (length buf - 1 - length s) s) = (length buf - 1)%nat)
    by (rewrite overwrite_length; lia).
  rewrite wr_ok by (rewrite app_length, LO, skipn_length; lia). cbn [bind]. do 2 f_equal.
  rewrite upd_app_r by lia. rewrite LO, Nat.sub_diag.
  assert (exists x, skipn (length buf - 1) buf = [x]) as [x ->].
  { assert (LL : length (skipn (length buf - 1) buf) = 1%nat) by (rewrite skipn_length; lia).
    destruct (skipn (length buf - 1) buf) as [|x [|]]; try discriminate. eauto. }
  cbn [upd]. unfold overwrite.
  rewrite (skipn_all2 (firstn _ _)) by lia. rewrite app_nil_r, <- app_assoc.
  rewrite firstn_firstn. f_equal. f_equal. lia.
Qed.

(* ---- the statements of Properties_Charconv.v ---- *)

Lemma template_id base : base = 10 \/ base = 36 -> template_base base = base.
Proof. intros [->| ->]; reflexivity. Qed.

(* where from_chars stops after an overflow *)
Lemma overflow_ptr base pre ds rest :
  2 <= base <= 36 -> spells base pre ds -> no_digit_head base rest ->
  exists more ds' tail, rest = more ++ tail /\ spells (template_base base) more ds' /\
    no_digit_head (template_base base) tail /\
    (base = 10 \/ base = 36 \/ rest = [] -> more = []).
Proof.
  intros Hb S N. destruct (split_digits (template_base base) rest) as (more & ds' & tail & -> & Sm & Nt).
  exists more, ds', tail. repeat split; auto.
  intros HH. destruct more as [|c more]; auto. exfalso.
  inversion Sm; subst. cbn in N. apply (N y).
  destruct HH as [E|[E|E]]; [| |discriminate]; rewrite template_id in * by auto; auto.
Qed.

Lemma C12_main w base pre ds rest :
  1 <= w -> 2 <= base <= 36 -> spells base pre ds -> no_digit_head base rest -> pre ++ rest <> [] ->
  (pre = [] -> from_chars (Ity w false) base (pre ++ rest) = Ok (FcR 0 InvalidArgument None)) /\
  (pre <> [] -> value_of base ds < 2 ^ w ->
     from_chars (Ity w false) base (pre ++ rest) = Ok (FcR (length pre) NoErr (Some (value_of base ds)))) /\
  (2 ^ w <= value_of base ds ->
     exists p, from_chars (Ity w false) base (pre ++ rest) = Ok (FcR p ResultOutOfRange None) /\
       (length pre <= p)%nat /\ (base = 10 \/ base = 36 \/ rest = [] -> p = length pre)).
Proof.
  intros Hw Hb S N NE.
  destruct (from_chars_digits (Ity w false) base pre ds rest Hb Hw S N NE) as [L1 L2]; [discriminate|].
  change (imax (Ity w false)) with (2 ^ w - 1) in *.
  split; [|split].
  - intros E. rewrite L1. subst. reflexivity.
  - intros E V. rewrite L1. destruct (Nat.eqb_spec (length pre) 0) as [H0|H0]; [destruct pre; [now destruct E|discriminate]|].
    destruct (Z.leb_spec (value_of base ds) (2 ^ w - 1)); [reflexivity|lia].
  - intros V. destruct (overflow_ptr base pre ds rest Hb S N) as (more & ds' & tail & R & Sm & Nt & HH).
    rewrite (L2 ltac:(lia) more ds' tail R Sm Nt).
    eexists. split; [reflexivity|]. split; [lia|]. intros E. rewrite (HH E). cbn. lia.
Qed.

Lemma C12_overflow_pointer w base pre ds more ds' tail : 1 <= w -> 2 <= base <= 36 ->
  spells base pre ds -> no_digit_head base (more ++ tail) -> 2 ^ w <= value_of base ds ->
  spells (if 10 <? base then 36 else 10) more ds' -> no_digit_head (if 10 <? base then 36 else 10) tail ->
  from_chars (Ity w false) base (pre ++ more ++ tail) = Ok (FcR (length pre + length more) ResultOutOfRange None).
Proof.
  intros Hw Hb S N V Sm Nt.
  assert (NE : pre ++ more ++ tail <> []).
  { destruct pre; [|discriminate]. inversion S; subst. cbn in V. pose proof (Z.pow_pos_nonneg 2 w). lia. }
  destruct (from_chars_digits (Ity w false) base pre ds (more ++ tail) Hb Hw S N NE) as [_ L2]; [discriminate|].
  change (imax (Ity w false)) with (2 ^ w - 1) in L2.
  apply (L2 ltac:(lia) more ds' tail eq_refl Sm Nt).
Qed.

Lemma C12_empty w base : from_chars (Ity w false) base [] = Ok (FcR 0 NoErr (Some 0)).
Proof. reflexivity. Qed.

Lemma C13_plain w base pre ds rest :
  1 <= w -> 2 <= base <= 36 -> spells base pre ds -> no_digit_head base rest -> pre ++ rest <> [] ->
  hd_error (pre ++ rest) <> Some 45 ->
  (pre = [] -> from_chars (Ity w true) base (pre ++ rest) = Ok (FcR 0 InvalidArgument None)) /\
  (pre <> [] -> value_of base ds < 2 ^ (w - 1) ->
     from_chars (Ity w true) base (pre ++ rest) = Ok (FcR (length pre) NoErr (Some (value_of base ds)))) /\
  (2 ^ (w - 1) <= value_of base ds ->
     exists p, from_chars (Ity w true) base (pre ++ rest) = Ok (FcR p ResultOutOfRange None) /\
       (length pre <= p)%nat /\ (base = 10 \/ base = 36 \/ rest = [] -> p = length pre)).
Proof.
  intros Hw Hb S N NE HM.
  destruct (from_chars_digits (Ity w true) base pre ds rest Hb Hw S N NE) as [L1 L2].
  { intros _. destruct pre; [left; exact HM|right; discriminate]. }
  change (imax (Ity w true)) with (2 ^ (w - 1) - 1) in *.
  split; [|split].
  - intros E. rewrite L1. subst. reflexivity.
  - intros E V. rewrite L1. destruct (Nat.eqb_spec (length pre) 0) as [H0|H0]; [destruct pre; [now destruct E|discriminate]|].
    destruct (Z.leb_spec (value_of base ds) (2 ^ (w - 1) - 1)); [reflexivity|lia].
  - intros V. destruct (overflow_ptr base pre ds rest Hb S N) as (more & ds' & tail & R & Sm & Nt & HH).
    rewrite (L2 ltac:(lia) more ds' tail R Sm Nt).
    eexists. split; [reflexivity|]. split; [lia|]. intros E. rewrite (HH E). cbn. lia.
Qed.

Lemma C13_minus w base pre ds rest :
  1 <= w -> 2 <= base <= 36 -> spells base pre ds -> no_digit_head base rest ->
  (rest = [] -> pre <> [] -> value_of base ds < 2 ^ (w - 1) ->
     from_chars (Ity w true) base (45 :: pre) = Ok (FcR (S (length pre)) NoErr (Some (- value_of base ds)))) /\
  (2 ^ (w - 1) < value_of base ds ->
     exists p, from_chars (Ity w true) base (45 :: pre ++ rest) = Ok (FcR p ResultOutOfRange None) /\
       (S (length pre) <= p)%nat /\ (base = 10 \/ base = 36 \/ rest = [] -> p = S (length pre))).
Proof.
  intros Hw Hb S N.
  destruct (from_chars_minus (Ity w true) base pre ds rest Hb Hw eq_refl S N) as [L1 L2].
  change (imax (Ity w true)) with (2 ^ (w - 1) - 1) in *. split.
  - intros -> E V. rewrite app_nil_r in L1. apply L1. lia.
  - intros V. destruct (overflow_ptr base pre ds rest Hb S N) as (more & ds' & tail & R & Sm & Nt & HH).
    rewrite (L2 ltac:(lia) more ds' tail R Sm Nt).
    eexists. split; [reflexivity|]. split; [lia|]. intros E. rewrite (HH E). cbn. lia.
Qed.

Lemma C13_trailing w base pre ds c rest :
  1 <= w -> 2 <= base <= 36 -> spells base pre ds -> no_digit_head base (c :: rest) ->
  value_of base ds < 2 ^ (w - 1) ->
  from_chars (Ity w true) base (45 :: pre ++ c :: rest) =
    Ok (FcR (S (length pre)) NoErr (Some (value_of base ds))).
Proof.
  intros Hw Hb S N V.
  destruct (from_chars_minus (Ity w true) base pre ds (c :: rest) Hb Hw eq_refl S N) as [L1 _].
  change (imax (Ity w true)) with (2 ^ (w - 1) - 1) in *. apply L1. lia.
Qed.

Lemma C13_minimum w base s :
  1 <= w -> 2 <= base <= 36 -> is_numeral false base (- 2 ^ (w - 1)) s ->
  from_chars (Ity w true) base s = Ok (FcR (length s) ResultOutOfRange None).
Proof.
  intros Hw Hb Hs. pose proof (Z.pow_pos_nonneg 2 (w - 1) ltac:(lia) ltac:(lia)) as P.
  destruct (numeral_parts _ _ _ _ Hs) as (ds & C & V & ->). clear Hs.
  destruct (Z.ltb_spec (- 2 ^ (w - 1)) 0); [|lia]. cbn [sign_of app length].
  assert (SP : spells base (map (digit_char false) ds) ds) by (apply spells_map; [lia|apply C]).
  destruct (from_chars_minus (Ity w true) base _ ds [] Hb Hw eq_refl SP I) as [_ L2].
  change (imax (Ity w true)) with (2 ^ (w - 1) - 1) in *.
  assert (HV : 2 ^ (w - 1) - 1 < value_of base ds) by lia.
  specialize (L2 HV [] [] [] eq_refl ltac:(constructor) I).
  rewrite app_nil_r in L2. rewrite L2. cbn [length]. rewrite Nat.add_0_r. reflexivity.
Qed.

Lemma to_chars_empty t base v : not_min t v -> 1 <= bits t -> in_range t v -> to_chars t base [] v = UB.
Proof.
  intros Hm Hw Hr. unfold to_chars, to_chars_opt.
  destruct (sgn t && (v <? 0)) eqn:E; [|reflexivity].
  apply andb_prop in E as [_ E]. apply Z.ltb_lt in E.
  destruct (times_minus_one_ok t v Hw Hr E Hm) as (-> & _). reflexivity.
Qed.

Lemma to_chars_exact_fit t base buf v s :
  1 <= bits t -> 2 <= base <= 36 -> in_range t v -> 0 <= v -> is_numeral false base v s ->
  length s = length buf ->
  exists buf', to_chars t base buf v = Ok (TcR (length buf) ValueTooLarge buf').
Proof.
  intros Hw Hb Hr Hv Hs HL.
  assert (Hm : not_min t v \/ (sgn t = true /\ v = imin t)).
  { unfold not_min. destruct (Z.eq_dec v (imin t)); destruct (sgn t); auto; left; congruence. }
  assert (HN : (1 <= length buf)%nat).
  { destruct (numeral_parts _ _ _ _ Hs) as ([|d ds] & C & V & ->); [now destruct C|].
    rewrite app_length in HL. cbn [map length] in HL. lia. }
  assert (Hm' : not_min t v).
  { destruct Hm as [|[S E]]; auto. unfold imin in E. rewrite S in E.
    pose proof (Z.pow_pos_nonneg 2 (bits t - 1) ltac:(lia) ltac:(lia)). lia. }
  destruct (to_chars_spec t base buf v s Hw Hb Hr Hm' Hs HN) as [_ L2].
  destruct L2 as (b & E & _); [|eauto].
  unfold opt_need. destruct (Z.ltb_spec v 0); lia.
Qed.

Lemma to_chars_min_ub t base buf :
  32 <= bits t -> sgn t = true -> to_chars t base buf (imin t) = UB /\
  (buf <> [] -> to_chars_exp t base buf (imin t) = UB) /\ to_string t buf (imin t) = UB.
Proof.
  intros Hw Hs.
  assert (N : imin t <? 0 = true).
  { apply Z.ltb_lt. unfold imin. rewrite Hs. pose proof (Z.pow_pos_nonneg 2 (bits t - 1) ltac:(lia) ltac:(lia)). lia. }
  assert (T : times_minus_one t (imin t) = UB).
  { unfold times_minus_one. destruct (Z.ltb_spec (bits t) 32); [lia|].
    rewrite fits_false; auto. unfold in_range, imin, imax. rewrite Hs. lia. }
  unfold to_chars, to_string, to_chars_opt, to_chars_exp. rewrite Hs, N. cbn [andb]. rewrite T.
  split; [reflexivity|]. split; [|reflexivity]. intros H. destruct buf; [now destruct H|].
  rewrite wr_ok by (cbn; lia). reflexivity.
Qed.

Lemma round_trip t base buf v s :
  1 <= bits t -> 2 <= base <= 36 -> in_range t v -> not_min t v ->
  is_numeral false base v s -> (length s < length buf)%nat ->
  exists r, to_chars t base buf v = Ok r /\ tec r = NoErr /\
    from_chars t base (firstn (tptr r) (tbuf r)) = Ok (FcR (tptr r) NoErr (Some v)).
Proof.
  intros Hw Hb Hr Hm Hs HL.
  destruct (to_chars_spec t base buf v s Hw Hb Hr Hm Hs ltac:(lia)) as [L1 _].
  destruct L1 as (b & -> & LB & F).
  { unfold opt_need. destruct (v <? 0); lia. }
  eexists. split; [reflexivity|]. cbn [tec tptr tbuf]. split; auto. rewrite F.
  now apply (from_numeral t base false).
Qed.

Lemma round_trip_exp t base buf v s :
  1 <= bits t -> 2 <= base <= 36 -> in_range t v -> not_min t v ->
  is_numeral false base v s -> (length s <= length buf)%nat ->
  exists r, to_chars_exp t base buf v = Ok r /\ tec r = NoErr /\
    from_chars t base (firstn (tptr r) (tbuf r)) = Ok (FcR (tptr r) NoErr (Some v)).
Proof.
  intros Hw Hb Hr Hm Hs HL.
  assert (HN : (1 <= length buf)%nat).
  { destruct (numeral_parts _ _ _ _ Hs) as ([|d ds] & C & V & ->); [now destruct C|].
    rewrite app_length in HL. cbn [map length] in HL. lia. }
  destruct (to_chars_exp_spec t base buf v s Hw Hb Hr Hm Hs ltac:(auto)) as [L1 _].
  destruct (L1 HL) as (b & -> & LB & F).
  eexists. split; [reflexivity|]. cbn [tec tptr tbuf]. split; auto. rewrite F.
  now apply (from_numeral t base false).
Qed.

Lemma to_string_distinct t junk v v' s :
  std_ity t -> in_range t v -> in_range t v' -> not_min t v -> not_min t v' ->
  length junk = (int_length 10 t + 1)%nat ->
  to_string t junk v = Ok s -> to_string t junk v' = Ok s -> v = v'.
Proof.
  intros Ht R R' M M' L H H'.
  destruct (numeral_exists false 10 v ltac:(lia)) as [n N].
  destruct (numeral_exists false 10 v' ltac:(lia)) as [n' N'].
  rewrite (to_string_spec t junk v n) in H by auto. rewrite (to_string_spec t junk v' n') in H' by auto.
  injection H as ->. injection H' as ->. eapply (numeral_injective false 10); eauto; lia.
Qed.

Lemma to_chars_opt_at_end t base up buf v s :
  1 <= bits t -> 2 <= base <= 36 -> in_range t v -> not_min t v ->
  is_numeral up base v s -> (1 <= length buf)%nat ->
  (opt_need v s <= length buf ->
     to_chars_opt t base up buf v =
       Ok (TcR (length buf - length s) NoErr (firstn (length buf - length s) buf ++ s)))%nat /\
  (length buf < opt_need v s ->
     exists buf', to_chars_opt t base up buf v = Ok (TcR 0 ValueTooLarge buf') /\
       length buf' = length buf)%nat.
Proof.
  intros Hw Hb Hr Hm Hs HN.
  destruct (to_chars_opt_spec t base up buf v s Hw Hb Hr Hm Hs HN) as [L1 L2].
  split; auto. intros HL. rewrite L1 by auto. do 2 f_equal.
  assert (LE : (length s <= length buf)%nat) by (unfold opt_need in HL; destruct (v <? 0); lia).
  unfold overwrite. rewrite skipn_all2 by lia. now rewrite app_nil_r.
Qed.
