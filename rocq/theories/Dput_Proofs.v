From Coq Require Import List ZArith QArith Qabs Qround Bool Lia.
From Verif Require Import Base BaseLemmas MachInt SliceLemmas Ios_Model Ios_Proofs Streambuf_Model Charconv_Model
  Charconv_Spec Charconv_Proofs Stream_Spec Ostream_Model Ostream_Spec Ostream_Proofs
  Flt_Spec Flt_Model Flt_View Flt_Proofs Dput_Spec Dput_Model.
Import ListNotations.
Local Open Scope Z_scope.

Notation D := binary64.
Lemma d_ok : okfmt D.
Proof. apply std_ok. now right. Qed.
Definition k64 : Z := 1074.
Lemma d_one : one D = 2 ^ k64.
Proof. reflexivity. Qed.
Lemma d_one_pos : 0 < one D.
Proof. apply one_pos, d_ok. Qed.
Lemma d_prec : prec D = 53.
Proof. reflexivity. Qed.

(* a hundred times u, rounded *)
Definition R100 (u : Z) : Z := round_abs D (100 * u * one D) (one D).

Lemma R100_ge u m : 0 <= u -> member D m -> m <= 100 * u -> m <= R100 u.
Proof.
  intros Hu Hm H. pose proof d_one_pos as P. apply round_abs_ge; try assumption; [apply d_ok|nia|].
  apply Z.mul_le_mono_nonneg_r; lia.
Qed.
Lemma R100_le u m : 0 <= u -> member D m -> 100 * u <= m -> R100 u <= m.
Proof.
  intros Hu Hm H. pose proof d_one_pos as P. apply round_abs_le; try assumption; [apply d_ok|nia|].
  apply Z.mul_le_mono_nonneg_r; lia.
Qed.
Lemma R100_half u : 0 <= u -> exists E, 0 <= E /\ 2 * Z.abs (100 * u - R100 u) <= 2 ^ E /\ (E = 0 \/ 2 ^ 52 * 2 ^ E <= 100 * u).
Proof.
  intros Hu. pose proof d_one_pos as P. set (q := one D) in *.
  assert (Hp : 0 <= 100 * u * q) by nia.
  destruct (uexp_spec D (100 * u * q) q d_ok Hp P) as (He & _ & Hl).
  exists (uexp D (100 * u * q) q). split; [exact He|].
  unfold R100. fold q. change (round_abs D (100 * u * q) q)
    with (rne (100 * u * q) (q * 2 ^ uexp D (100 * u * q) q) * 2 ^ uexp D (100 * u * q) q).
  set (e := uexp D (100 * u * q) q) in *. pose proof (pow_pos e He) as Pe.
  change (prec D - 1) with 52 in Hl. clearbody e q. set (E := 2 ^ e) in *. clearbody E. split.
  - pose proof (rne_half (100 * u * q) (q * E) Hp ltac:(nia)) as H.
    set (r := rne _ _) in *. clearbody r.
    replace (100 * u * q - r * (q * E)) with ((100 * u - r * E) * q) in H by ring.
    rewrite Z.abs_mul, (Z.abs_eq q) in H by lia. set (x := Z.abs _) in *. clearbody x. nia.
  - destruct Hl as [Hl|Hl]; [left; exact Hl|right]. set (c := 2 ^ 52) in *. clearbody c. nia.
Qed.

Lemma R100_lt u N : 0 <= u -> member D u -> N = u / one D -> 100 * (N + 1) <= 2 ^ 53 ->
  100 * N * one D <= R100 u < 100 * (N + 1) * one D.
Proof.
  intros Hu Hm HN Hb. pose proof d_one_pos as P.
  assert (B : N * one D <= u < (N + 1) * one D).
  { subst N. pose proof (Z.div_mod u (one D) ltac:(lia)). pose proof (Z.mod_pos_bound u (one D) P). nia. }
  assert (N0 : 0 <= N) by (subst N; apply Z.div_pos; lia).
  split.
  { apply R100_ge; [lia| |lia]. apply member_int; [apply d_ok|]. rewrite d_prec, Z.abs_eq by lia. lia. }
  destruct (R100_half u Hu) as (E & HE & Hh & Hl).
  destruct Hm as (m & e & Am & He & Eu).
  destruct Hl as [->|Hl]; [change (2 ^ 0) with 1 in Hh; lia|].
  rewrite d_prec in Am.
  destruct (Z_le_gt_dec e k64) as [C|C].
  - assert (L : E <= e + 7).
    { destruct (Z_le_gt_dec E (e + 7)) as [|G]; [assumption|exfalso].
      assert (2 ^ (e + 8) <= 2 ^ E) by (apply Z.pow_le_mono_r; lia).
      rewrite Z.pow_add_r in H by lia. change (2 ^ 8) with 256 in H.
      pose proof (pow_pos e He). assert (u < 2 ^ 53 * 2 ^ e) by (rewrite Eu; nia).
      change (2 ^ 53) with (2 * 2 ^ 52) in *. set (c := 2 ^ 52) in *. assert (0 < c) by (unfold c; lia). clearbody c. nia. }
    assert (G : u + 2 ^ e <= (N + 1) * one D).
    { rewrite d_one in *. replace k64 with ((k64 - e) + e) in * by lia. rewrite Z.pow_add_r in * by lia.
      pose proof (pow_pos e He). set (pe := 2 ^ e) in *. set (pk := 2 ^ (k64 - e)) in *. clearbody pe pk.
      rewrite Eu in *. assert (m < (N + 1) * pk) by nia. nia. }
    assert (2 ^ E <= 2 ^ (e + 7)) by (apply Z.pow_le_mono_r; lia).
    rewrite Z.pow_add_r in H by lia. change (2 ^ 7) with 128 in H. pose proof (pow_pos e He).
    set (pe := 2 ^ e) in *. set (o := one D) in *. clearbody pe o.
    set (T := (N + 1) * o) in *. replace (100 * (N + 1) * o) with (100 * T) by (unfold T; ring). clearbody T. lia.
  - (* a whole number *)
    assert (Ew : u = N * one D).
    { assert (exists z, u = z * one D) as [z Ez].
      { exists (m * 2 ^ (e - k64)). rewrite d_one, <- Z.mul_assoc, <- Z.pow_add_r by (unfold k64 in *; lia).
        rewrite Eu. do 2 f_equal. lia. }
      rewrite Ez in B |- *. f_equal. nia. }
    apply Z.le_lt_trans with (100 * N * one D); [|nia].
    apply R100_le; [lia| |lia]. apply member_int; [apply d_ok|]. rewrite d_prec, Z.abs_eq by lia. lia.
Qed.

(* the number of hundredths *)
Definition hund (u : Z) : Z := R100 u / one D.

Lemma hund_int u N : 0 <= u -> member D u -> N = u / one D -> 100 * (N + 1) <= 2 ^ 53 -> hund u / 100 = N.
Proof.
  intros Hu Hm HN Hb. pose proof d_one_pos as P. pose proof (R100_lt u N Hu Hm HN Hb) as [A B].
  unfold hund. rewrite Z.div_div by lia. symmetry. apply (Z.div_unique _ _ N (R100 u - one D * 100 * N)); [left|]; nia.
Qed.

Lemma hund_near u : 0 <= u -> 100 * u <= 2 ^ 53 * one D -> Z.abs (hund u * one D - 100 * u) < one D.
Proof.
  intros Hu Hb. pose proof d_one_pos as P. unfold hund.
  pose proof (Z.div_mod (100 * u) (one D) ltac:(lia)) as E. pose proof (Z.mod_pos_bound (100 * u) (one D) P) as B.
  set (f := 100 * u / one D) in *. set (r := 100 * u mod one D) in *.
  assert (F0 : 0 <= f) by (apply Z.div_pos; lia).
  assert (F1 : f <= 2 ^ 53) by nia.
  assert (L : f * one D <= R100 u).
  { apply R100_ge; [lia| |lia]. apply member_int; [apply d_ok|]. rewrite d_prec, Z.abs_eq by lia. lia. }
  pose proof (Z.div_mod (R100 u) (one D) ltac:(lia)) as E2. pose proof (Z.mod_pos_bound (R100 u) (one D) P) as B2.
  set (n := R100 u / one D) in *. set (o := one D) in *.
  assert (Hn : f <= n) by nia.
  destruct (Z.eq_dec r 0) as [Er|Er].
  - assert (U : R100 u <= f * o).
    { apply R100_le; [lia| |lia]. apply member_int; [apply d_ok|]. rewrite d_prec, Z.abs_eq by lia. lia. }
    assert (n = f) by nia. nia.
  - assert (F2 : f < 2 ^ 53) by nia.
    assert (U : R100 u <= (f + 1) * o).
    { apply R100_le; [lia| |nia]. apply member_int; [apply d_ok|]. rewrite d_prec, Z.abs_eq by lia. lia. }
    assert (n <= f + 1) by nia. nia.
Qed.

(* ---- the computation ---- *)

Lemma to_int64_fin u : Z.abs u < 2 ^ 63 * one D -> to_int64 (Fin u) = Ok (Z.quot u (one D)).
Proof.
  intros H. pose proof d_one_pos as P. unfold to_int64.
  assert (Z.abs (Z.quot u (one D)) < 2 ^ 63).
  { rewrite <- Z.quot_abs by lia. rewrite (Z.abs_eq (one D)) by lia. apply Z.quot_lt_upper_bound; lia. }
  destruct (Z.leb_spec (- 2 ^ 63) (Z.quot u (one D))); [|lia].
  destruct (Z.ltb_spec (Z.quot u (one D)) (2 ^ 63)); [|lia]. reflexivity.
Qed.

Lemma of100 : of_int D 100 = Fin (100 * one D).
Proof. apply of_int_exact; [apply d_ok|]. rewrite d_prec. lia. Qed.

Lemma mul100 u : R100 (Z.abs u) < 2 ^ emax D * one D -> fmul D (Fin u) (of_int D 100) = Fin (Z.sgn u * R100 (Z.abs u)).
Proof.
  intros H. pose proof d_one_pos as P. rewrite of100. unfold fmul, round.
  assert (A : Z.abs (u * (100 * one D)) = 100 * Z.abs u * one D).
  { rewrite Z.abs_mul, (Z.abs_eq (100 * one D)) by lia. ring. }
  rewrite A. fold (R100 (Z.abs u)).
  destruct (Z.leb_spec (2 ^ emax D * one D) (R100 (Z.abs u))); [lia|].
  rewrite Z.sgn_mul, (Z.sgn_pos (100 * one D)) by lia. rewrite Z.mul_1_r. reflexivity.
Qed.

Lemma quot_sgn a b : 0 <= a -> 0 < b -> forall s, (s = 1 \/ s = -1 \/ s = 0) -> Z.quot (s * a) b = s * (a / b).
Proof.
  intros Ha Hb s [->|[->| ->]].
  - rewrite !Z.mul_1_l. apply Z.quot_div_nonneg; lia.
  - replace (-1 * a) with (- a) by lia. rewrite Z.quot_opp_l, Z.quot_div_nonneg by lia. lia.
  - rewrite !Z.mul_0_l. apply Z.quot_0_l. lia.
Qed.
Lemma sgn3 u : Z.sgn u = 1 \/ Z.sgn u = -1 \/ Z.sgn u = 0.
Proof. destruct u; cbn; auto. Qed.

Lemma R100_nonneg u : 0 <= u -> 0 <= R100 u.
Proof.
  intros. apply R100_ge; [lia| |lia]. exists 0, 0. repeat split; lia.
Qed.
Lemma R100_0 : R100 0 = 0.
Proof.
  apply Z.le_antisymm; [|apply R100_nonneg; lia]. apply R100_le; [lia| |lia]. exists 0, 0. repeat split; lia.
Qed.

(* what is printed, given the two numbers *)
Definition body (tr : traits) (s : ostr) (j1 j2 : list Z) (v_ n : Z) : result ostr :=
  (let s := o_state s (fun i => fst (setf2 i f_dec f_basefield)) in
  s <- insert_int tr s i64 j1 v_ ;;
  s <- insert_char tr s 46 ;;
  s <- (if n mod 100 <? 10 then insert_char tr s 48 else Ok s) ;;
  insert_int tr s i64 j2 (n mod 100))%res.

Lemma rem_abs s n : 0 <= n -> (s = 1 \/ s = -1 \/ (s = 0 /\ n = 0)) ->
  (let d := Z.rem (s * n) 100 in if d <? 0 then - d else d) = n mod 100.
Proof.
  intros Hn Hs. pose proof (Z.mod_pos_bound n 100 ltac:(lia)) as B. cbn zeta.
  destruct Hs as [->|[->|[-> ->]]].
  - rewrite Z.mul_1_l, Z.rem_mod_nonneg by lia. destruct (Z.ltb_spec (n mod 100) 0); lia.
  - replace (-1 * n) with (- n) by lia. rewrite Z.rem_opp_l, Z.rem_mod_nonneg by lia.
    destruct (Z.ltb_spec (- (n mod 100)) 0); lia.
  - reflexivity.
Qed.

Lemma emax_big : 2 ^ 63 * one D <= 2 ^ emax D * one D.
Proof. apply Z.mul_le_mono_nonneg_r; [pose proof d_one_pos; lia|]. apply Z.pow_le_mono_r; cbn; lia. Qed.

Lemma insert_double_body tr s j1 j2 u : Z.abs u < 2 ^ 63 * one D -> R100 (Z.abs u) < 2 ^ 63 * one D ->
  insert_double tr s j1 j2 (Fin u) = body tr s j1 j2 (Z.sgn u * (Z.abs u / one D)) (hund (Z.abs u)).
Proof.
  intros H1 H2. pose proof d_one_pos as P. pose proof emax_big as EB.
  pose proof (R100_nonneg (Z.abs u) ltac:(lia)) as R0.
  unfold insert_double. rewrite to_int64_fin by exact H1. cbn [bind].
  rewrite mul100 by lia. rewrite to_int64_fin.
  2: { rewrite Z.abs_mul, (Z.abs_eq (R100 _)) by lia. destruct (sgn3 u) as [->|[->| ->]]; lia. }
  cbn [bind]. rewrite quot_sgn by (try lia; apply sgn3).
  assert (E : Z.quot u (one D) = Z.sgn u * (Z.abs u / one D)).
  { rewrite <- (Z.abs_sgn u) at 1. rewrite Z.mul_comm. apply quot_sgn; try lia; apply sgn3. }
  rewrite E. fold (hund (Z.abs u)).
  assert (Q : let d := Z.rem (Z.sgn u * hund (Z.abs u)) 100 in (if d <? 0 then - d else d) = hund (Z.abs u) mod 100).
  { apply rem_abs.
    - unfold hund. apply Z.div_pos; lia.
    - destruct u as [|p|p]; [right; right; split; [reflexivity|]|left; reflexivity|right; left; reflexivity].
      unfold hund. change (Z.abs 0) with 0. rewrite R100_0. reflexivity. }
  cbn zeta in Q. rewrite Q. reflexivity.
Qed.

(* ---- the printing ---- *)

Definition dec_of (i : ios) : ios := fst (setf2 i f_dec f_basefield).

Lemma dec_bit i k : 0 <= fmtfl i < 256 -> 0 <= k ->
  Z.testbit (flags (dec_of i)) k = if Z.testbit 3 k then Z.testbit 1 k else Z.testbit (flags i) k.
Proof.
  intros H Hk. unfold dec_of. rewrite setf2_masked; try assumption; [reflexivity|unfold f_dec; lia|].
  intros j. unfold f_dec, f_basefield. destruct j as [|p|p]; [reflexivity| |discriminate].
  destruct p; cbn; auto; discriminate.
Qed.
Lemma dec_mask i m r : 0 <= fmtfl i < 256 -> (forall k, 0 <= k -> Z.testbit m k = true -> Z.testbit 3 k = false) ->
  Z.land (flags i) m = r -> Z.land (flags (dec_of i)) m = r.
Proof.
  intros H Hm <-. apply Z.bits_inj'. intros k Hk. rewrite !Z.land_spec, dec_bit by assumption.
  destruct (Z.testbit m k) eqn:E; [|now rewrite !andb_false_r]. rewrite (Hm k Hk E). reflexivity.
Qed.
Lemma bit_cases k : 0 <= k -> k = 0 \/ k = 1 \/ 2 <= k.
Proof. lia. Qed.
Lemma three_high k : 2 <= k -> Z.testbit 3 k = false.
Proof. intros. rewrite <- (Z.mod_small 3 (2 ^ k)); [apply Z.mod_pow2_bits_high; lia|].
  split; [lia|]. apply Z.lt_le_trans with (2 ^ 2); [reflexivity|apply Z.pow_le_mono_r; lia]. Qed.
Lemma dec_base i : 0 <= fmtfl i < 256 -> flag_base (dec_of i) 10.
Proof.
  intros H. left. split; [reflexivity|]. apply Z.bits_inj'. intros k Hk. rewrite Z.land_spec, dec_bit by assumption.
  unfold f_basefield, f_dec. destruct (bit_cases k Hk) as [->|[->|H2]]; [reflexivity|reflexivity|].
  rewrite three_high by exact H2. rewrite andb_false_r. symmetry.
  rewrite <- (Z.mod_small 1 (2 ^ k)); [apply Z.mod_pow2_bits_high; lia|].
  split; [lia|]. apply Z.lt_le_trans with (2 ^ 2); [reflexivity|apply Z.pow_le_mono_r; lia].
Qed.
Lemma dec_adjusted i a : 0 <= fmtfl i < 256 -> adjusted i a -> adjusted (dec_of i) a.
Proof.
  intros H. unfold adjusted. apply dec_mask; [exact H|].
  intros k Hk. destruct (bit_cases k Hk) as [->|[->|H2]]; [discriminate|discriminate|]. intros _. now apply three_high.
Qed.
Lemma dec_upper i : 0 <= fmtfl i < 256 -> upper (dec_of i) = upper i.
Proof. intros H. unfold upper. rewrite dec_bit by (try assumption; lia). reflexivity. Qed.

Lemma padded_0 a c t : padded a 0 c t = t.
Proof. destruct a; cbn [padded]; cbn [Nat.sub repeat]; [reflexivity|apply app_nil_r]. Qed.

Lemma small_numeral up d : 0 <= d < 10 -> is_numeral up 10 d [48 + d].
Proof.
  intros H. exists [d]. destruct (Z.ltb_spec d 0); [lia|]. cbn [map app digit_char]. unfold digit_char.
  destruct (Z.ltb_spec d 10); [|lia]. repeat split; try discriminate; [constructor; [lia|constructor]|cbn; lia|].
  cbn [hd]. now intros ->.
Qed.
Lemma two_numeral up d : 10 <= d < 100 -> is_numeral up 10 d [48 + d / 10; 48 + d mod 10].
Proof.
  intros H. pose proof (Z.div_mod d 10 ltac:(lia)) as E. pose proof (Z.mod_pos_bound d 10 ltac:(lia)) as B.
  exists [d / 10; d mod 10]. destruct (Z.ltb_spec d 0); [lia|]. cbn [map app]. unfold digit_char.
  destruct (Z.ltb_spec (d / 10) 10); [|lia]. destruct (Z.ltb_spec (d mod 10) 10); [|lia].
  repeat split; try discriminate.
  - constructor; [lia|]. constructor; [lia|constructor].
  - cbn. lia.
  - cbn [hd]. lia.
Qed.

Lemma i64_std : std_ity i64.
Proof. unfold std_ity, i64; cbn. lia. Qed.

Definition jlen (j : list Z) : Prop := length j = (int_length 8 i64 + 1)%nat.

Lemma insert_i64 tr i b a j v s : jlen j -> Z.abs v < 2 ^ 63 -> flag_base i 10 -> is_numeral (upper i) 10 v s ->
  0 <= width i < 16 -> 0 <= fill true i <= 127 -> adjusted i a -> room b (Nat.max (Z.to_nat (width i)) (length s)) ->
  insert_int tr (Ostr i b) i64 j v
  = Ok (Ostr (fst (set_width i 0)) (after b (padded a (Z.to_nat (width i)) (fill true i) s))).
Proof.
  intros Hj Hv Hb Hs Hw Hf Ha R. apply (insert_int_ok tr i b i64 10 a j v s); auto.
  - apply i64_std.
  - unfold in_range, i64, imin, imax; cbn [sgn bits]. change (2 ^ (64 - 1)) with (2 ^ 63). lia.
  - unfold not_min, i64, imin; cbn [sgn bits]. intros _. change (2 ^ (64 - 1)) with (2 ^ 63). lia.
  - unfold Ostream_Spec.representable. intros; discriminate.
Qed.

Lemma insert_plain_char tr i b ch : width i = 0 -> 0 <= fill true i <= 127 -> 0 <= ch <= 127 -> room b 1 ->
  insert_char tr (Ostr i b) ch = Ok (Ostr (fst (set_width i 0)) (after b [ch])).
Proof.
  intros W F C R. rewrite insert_char_ok; [| lia | exact F | unfold is_char; lia | apply to_int_pos; lia |].
  - rewrite W. change (Z.to_nat 0) with 0%nat. rewrite padded_0. reflexivity.
  - rewrite W. exact R.
Qed.

Lemma body_ok tr i b a j1 j2 v n ip : jlen j1 -> jlen j2 -> 0 <= fmtfl i < 256 -> 0 <= width i < 16 ->
  0 <= fill true i <= 127 -> adjusted i a -> Z.abs v < 2 ^ 63 -> 0 <= n -> is_numeral (upper i) 10 v ip ->
  room b (Nat.max (Z.to_nat (width i)) (length ip) + 3) ->
  body tr (Ostr i b) j1 j2 v n
  = Ok (Ostr (fst (set_width (dec_of i) 0))
             (after b (padded a (Z.to_nat (width i)) (fill true i) ip ++ decimals n))).
Proof.
  intros J1 J2 Hi Hw Hf Ha Hv Hn Hip R. unfold body, o_state; cbn [ost osbuf]. fold (dec_of i).
  assert (Hb := dec_base i Hi). assert (Ha' := dec_adjusted i a Hi Ha).
  pose proof (Z.mod_pos_bound n 100 ltac:(lia)) as Bn.
  change (width i) with (width (dec_of i)) in *. change (fill true i) with (fill true (dec_of i)) in *.
  rewrite (insert_i64 tr (dec_of i) b a j1 v ip) by
    (first [assumption | rewrite dec_upper by exact Hi; assumption | unfold room in *; lia]).
  cbn [bind]. set (i1 := fst (set_width (dec_of i) 0)). set (t0 := padded _ _ _ _).
  assert (Lt0 : length t0 = Nat.max (Z.to_nat (width (dec_of i))) (length ip)) by apply padded_length.
  rewrite <- Lt0 in R.
  assert (W1 : width i1 = 0) by reflexivity.
  assert (F1 : 0 <= fill true i1 <= 127) by exact Hf.
  assert (I1 : fst (set_width i1 0) = i1) by reflexivity.
  assert (R1 : room (after b t0) 3) by (apply after_room; exact R).
  rewrite insert_plain_char by (first [exact W1 | exact F1 | lia | apply (room_le _ 3); [lia|exact R1]]).
  rewrite I1.
  rewrite after_app by (unfold room in *; cbn [length]; lia). cbn [bind].
  assert (U1 : upper i1 = upper i) by (exact (dec_upper i Hi)).
  assert (E10 : n mod 100 / 10 = n / 10 mod 10).
  { replace 100 with (10 * 10) by reflexivity. rewrite Z.rem_mul_r by lia. rewrite Z.mul_comm, Z.div_add by lia.
    rewrite (Z.div_small (n mod 10)) by (apply Z.mod_pos_bound; lia). lia. }
  assert (E1 : (n mod 100) mod 10 = n mod 10).
  { symmetry. apply Znumtheory.Zmod_div_mod; [lia|lia|]. exists 10. reflexivity. }
  destruct (Z.ltb_spec (n mod 100) 10) as [C|C].
  - rewrite insert_plain_char by (first [exact W1 | exact F1 | lia
      | apply after_room; rewrite app_length; cbn [length]; unfold room in *; lia]).
    rewrite I1. cbn [bind].
    rewrite after_app by (unfold room in *; rewrite app_length; cbn [length]; lia).
    rewrite (insert_i64 tr i1 _ a j2 (n mod 100) [48 + n mod 100]); try assumption; try lia.
    + rewrite W1. change (Z.to_nat 0) with 0%nat. rewrite padded_0, I1.
      rewrite after_app by (unfold room in *; rewrite !app_length; cbn [length]; lia).
      rewrite <- !app_assoc. cbn [app]. unfold decimals.
      assert (Z0 : n / 10 mod 10 = 0) by (rewrite <- E10; apply Z.div_small; lia).
      assert (Z1 : n mod 10 = n mod 100) by (rewrite <- E1; apply Z.mod_small; lia).
      rewrite Z0, Z1. reflexivity.
    + apply small_numeral. lia.
    + rewrite W1. apply after_room. unfold room in *. rewrite !app_length. cbn [length Z.to_nat Nat.max]. lia.
  - cbn [bind].
    rewrite (insert_i64 tr i1 _ a j2 (n mod 100) [48 + n mod 100 / 10; 48 + (n mod 100) mod 10]); try assumption; try lia.
    + rewrite W1. change (Z.to_nat 0) with 0%nat. rewrite padded_0, I1.
      rewrite after_app by (unfold room in *; rewrite !app_length; cbn [length]; lia).
      rewrite <- !app_assoc. cbn [app]. unfold decimals. rewrite E10, E1. reflexivity.
    + apply two_numeral. lia.
    + rewrite W1. apply after_room. unfold room in *. rewrite !app_length. cbn [length Z.to_nat Nat.max]. lia.
Qed.

(* ---- the property ---- *)

Lemma val_abs u : (Qabs (val D u) == val D (Z.abs u))%Q.
Proof. unfold val. reflexivity. Qed.
Lemma val_floor u : Qfloor (val D u) = u / one D.
Proof. unfold val, Qfloor. rewrite Z2Pos.id by apply d_one_pos. reflexivity. Qed.

Lemma rep_member u x : Flt_Spec.representable D x -> (x == val D u)%Q -> member D u.
Proof.
  intros (m & e & H) E. destruct (written_member D x m e d_ok H) as (E2 & He & _).
  rewrite E in E2. apply val_eq in E2. exists m, (e - emin D). destruct H. auto.
Qed.

Lemma hund_lt63 u : 0 <= u -> 100 * u <= 2 ^ 53 * one D -> R100 u < 2 ^ 63 * one D.
Proof.
  intros Hu Hb. pose proof d_one_pos as P. apply Z.le_lt_trans with (2 ^ 53 * one D).
  - apply R100_le; [lia| |lia]. apply member_int; [apply d_ok|]. rewrite d_prec, Z.abs_eq by lia. lia.
  - apply Z.mul_lt_mono_pos_r; [lia|reflexivity].
Qed.

Lemma written_hundredths u k : 0 <= u -> 0 <= k < 2 ^ 52 -> nearest D (k # 100) (val D u) -> 100 * u <= 2 ^ 53 * one D ->
  hund u = k \/ hund u = k - 1.
Proof.
  intros Hu Hk [Hr Hn] Hb. pose proof d_one_pos as P. pose proof (hund_near u Hu Hb) as HN.
  assert (Hmem : member D u) by (eapply rep_member; [exact Hr|reflexivity]).
  (* 100 u is within half a unit of k *)
  assert (NB : 2 * Z.abs (100 * u - k * one D) <= one D).
  { assert (Hne : forall w, member D w -> 0 <= w < 2 ^ emax D * one D -> Z.abs (k * one D - 100 * u) <= Z.abs (k * one D - 100 * w)).
    { intros w Hw Hwb. destruct (Z.eq_dec w u) as [->|N]; [lia|].
      assert (RW : Flt_Spec.representable D (val D w)) by (apply rep_val; [apply d_ok|exact Hw|lia]).
      destruct (Hn (val D w) RW) as [L|[L _]]; [rewrite val_eq; exact N| |].
      - assert (DD : forall z, (Qabs ((k # 100) - val D z) == Z.abs (k * one D - 100 * z) # Z.to_pos (100 * one D))%Q).
        { intro z. rewrite <- (Z.mul_comm z 100). apply (val_dist D (k * one D) 100 z); [apply d_ok|lia|].
          unfold Qeq; cbn [Qnum Qden]. rewrite Z2Pos.id by lia. ring. }
        rewrite !DD in L. unfold Qlt in L; cbn [Qnum Qden] in L. apply Z.mul_lt_mono_pos_r in L; [lia|lia].
      - assert (DD : forall z, (Qabs ((k # 100) - val D z) == Z.abs (k * one D - 100 * z) # Z.to_pos (100 * one D))%Q).
        { intro z. rewrite <- (Z.mul_comm z 100). apply (val_dist D (k * one D) 100 z); [apply d_ok|lia|].
          unfold Qeq; cbn [Qnum Qden]. rewrite Z2Pos.id by lia. ring. }
        rewrite !DD in L. unfold Qeq in L; cbn [Qnum Qden] in L. apply Z.mul_cancel_r in L; [lia|lia]. }
    (* the number of the format next to k/100 *)
    set (w := round_abs D (k * one D) 100).
    assert (Hp : 0 <= k * one D) by nia.
    destruct (round_abs_spec D (k * one D) 100 d_ok Hp ltac:(lia)) as (W0 & W1 & _). fold w in W0, W1.
    assert (WB : w <= k * one D).
    { apply round_abs_le; try lia; [apply d_ok|]. apply member_int; [apply d_ok|]. rewrite d_prec, Z.abs_eq by lia. lia. }
    assert (WB2 : k * one D < 2 ^ emax D * one D).
    { apply Z.mul_lt_mono_pos_r; [lia|]. apply Z.lt_le_trans with (2 ^ 52); [lia|apply Z.pow_le_mono_r; cbn; lia]. }
    specialize (Hne w W1 ltac:(lia)).
    destruct (uexp_spec D (k * one D) 100 d_ok Hp ltac:(lia)) as (He & _ & Hl).
    assert (Hh : 2 * Z.abs (k * one D - 100 * w) <= 100 * 2 ^ uexp D (k * one D) 100).
    { unfold w. change (round_abs D (k * one D) 100) with
        (rne (k * one D) (100 * 2 ^ uexp D (k * one D) 100) * 2 ^ uexp D (k * one D) 100).
      pose proof (pow_pos _ He) as Pe. set (E := 2 ^ uexp D (k * one D) 100) in *.
      pose proof (rne_half (k * one D) (100 * E) Hp ltac:(lia)) as H. set (r := rne _ _) in *.
      replace (100 * (r * E)) with (r * (100 * E)) by ring. exact H. }
    set (e := uexp D (k * one D) 100) in *.
    assert (HE : 100 * 2 ^ e <= one D).
    { destruct Hl as [->|Hl].
      - change (2 ^ 0) with 1. rewrite d_one. apply Z.le_trans with (2 ^ 7); [lia|apply Z.pow_le_mono_r; unfold k64; lia].
      - change (prec D - 1) with 52 in Hl. set (E := 2 ^ e) in *. set (o := one D) in *. clearbody E o.
        set (c := 2 ^ 52) in *. assert (0 < c) by (unfold c; lia). clearbody c. nia. }
    lia. }
  (* so rounding does not pass k + 1/2 *)
  assert (UP : 2 * R100 u <= (2 * k + 1) * one D).
  { assert (M : member D ((2 * k + 1) * 2 ^ (k64 - 1))).
    { exists (2 * k + 1), (k64 - 1). rewrite d_prec. split; [change (2 ^ 53) with (2 * 2 ^ 52); lia|].
      split; [unfold k64; lia|reflexivity]. }
    assert (E : 2 * ((2 * k + 1) * 2 ^ (k64 - 1)) = (2 * k + 1) * one D).
    { rewrite d_one. replace k64 with (1 + (k64 - 1)) at 2 by lia. rewrite Z.pow_add_r by (unfold k64; lia). change (2 ^ 1) with 2. ring. }
    pose proof (R100_le u _ Hu M ltac:(lia)). lia. }
  assert (U2 : hund u <= k).
  { unfold hund. assert (R100 u / one D < k + 1); [|lia]. apply Z.div_lt_upper_bound; [lia|]. nia. }
  assert (L2 : k - 1 <= hund u).
  { destruct (Z_le_gt_dec (k - 1) (hund u)); [assumption|exfalso]. assert (hund u <= k - 2) by lia. nia. }
  lia.
Qed.

Lemma two_decimals tr i b a j1 j2 x u : jlen j1 -> jlen j2 ->
  0 <= fmtfl i < 256 -> 0 <= width i < 16 -> 0 <= fill true i <= 127 -> adjusted i a ->
  Flt_Spec.representable D x -> (x == val D u)%Q ->
  (0 <= x \/ x <= -1)%Q -> (100 * (Qabs x + 1) <= inject_Z (2 ^ 53))%Q ->
  exists n ip, 0 <= n /\ int_part (upper i) (if Qlt_le_dec x 0 then true else false) n ip /\
    n / 100 = Qfloor (Qabs x) /\
    (Qabs (inject_Z n - 100 * Qabs x) < 1)%Q /\
    (forall k, (100 * Qabs x == inject_Z k)%Q -> n = k) /\
    (forall k, 0 <= k < 2 ^ 52 -> nearest D (k # 100) (Qabs x) -> n = k \/ n = k - 1) /\
    (room b (Nat.max (Z.to_nat (width i)) (length ip) + 3) ->
     insert_double tr (Ostr i b) j1 j2 (Fin u)
     = Ok (Ostr (fst (set_width (dec_of i) 0))
                (after b (padded a (Z.to_nat (width i)) (fill true i) ip ++ decimals n)))).
Proof.
  intros J1 J2 Hi Hw Hf Ha Hx Eu Hs Hb. pose proof d_one_pos as P.
  pose proof (rep_member u x Hx Eu) as Hm.
  assert (Hma : member D (Z.abs u)) by (destruct (Z.abs_eq_or_opp u) as [-> | ->]; [|apply member_opp]; exact Hm).
  set (A := Z.abs u) in *. assert (HA : 0 <= A) by (unfold A; lia).
  assert (EA : (Qabs x == val D A)%Q) by (rewrite Eu; apply val_abs).
  assert (Hs' : 0 <= u \/ u <= - one D).
  { rewrite Eu in Hs. unfold val, Qle in Hs; cbn [Qnum Qden] in Hs. rewrite Z2Pos.id in Hs by exact P. lia. }
  assert (Hb' : 100 * (A + one D) <= 2 ^ 53 * one D).
  { rewrite EA in Hb. unfold val, Qle, Qmult, Qplus, inject_Z in Hb; cbn [Qnum Qden] in Hb.
    rewrite !Pos.mul_1_r, ?Z.mul_1_r, Pos.mul_1_l in Hb. rewrite Z2Pos.id in Hb by exact P.
    rewrite ?Z.mul_1_l, ?Z.mul_1_r in Hb. exact Hb. }
  set (N := A / one D).
  assert (HN : 0 <= N) by (apply Z.div_pos; lia).
  assert (HNb : 100 * (N + 1) <= 2 ^ 53).
  { pose proof (Z.mul_div_le A (one D) P). fold N in H. nia. }
  assert (HI : hund A / 100 = N) by (apply hund_int; auto).
  assert (Hh : 100 * A <= 2 ^ 53 * one D) by lia.
  pose proof (R100_nonneg A HA) as HR.
  assert (Hn0 : 0 <= hund A) by (unfold hund; apply Z.div_pos; lia).
  assert (FL : Qfloor (Qabs x) = N) by (rewrite (Qfloor_comp _ _ EA); apply val_floor).
  destruct (numeral_exists (upper i) 10 (if Qlt_le_dec x 0 then - (hund A / 100) else hund A / 100) ltac:(lia)) as [ip Hip].
  exists (hund A), ip. split; [exact Hn0|]. split; [unfold int_part; destruct (Qlt_le_dec x 0); exact Hip|].
  split; [rewrite FL; exact HI|]. split.
  { rewrite EA. pose proof (hund_near A HA Hh) as H.
    assert (E : (inject_Z (hund A) - 100 * val D A == (hund A * one D - 100 * A) # Z.to_pos (one D))%Q).
    { unfold val, inject_Z, Qminus, Qplus, Qmult, Qopp, Qeq; cbn [Qnum Qden].
      rewrite !Pos.mul_1_l, Z2Pos.id by exact P. ring. }
    rewrite E. unfold Qabs, Qlt; cbn [Qnum Qden]. rewrite Z2Pos.id by exact P. lia. }
  split.
  { intros k Hk. rewrite EA in Hk.
    assert (E : 100 * A = k * one D).
    { unfold val, inject_Z, Qmult, Qeq in Hk; cbn [Qnum Qden] in Hk. rewrite Pos.mul_1_l, Z2Pos.id in Hk by exact P. lia. }
    pose proof (hund_near A HA Hh) as H. rewrite E in H. set (o := one D) in *. clearbody o. nia. }
  split.
  { intros k Hk Hne. apply written_hundredths; try assumption.
    destruct Hne as [R1 R2]. split; [destruct R1 as (m & e & Q1 & Q2 & Q3); exists m, e; split; [|split]; auto; rewrite <- EA; exact Q3|].
    intros g Hg Hge. destruct (R2 g Hg) as [L|[L Ev]]; [rewrite EA; exact Hge|left; rewrite <- EA; exact L|].
    right. split; [rewrite <- EA; exact L|]. destruct Ev as (m & e & Q1 & Q2 & Q3). exists m, e. split; [|split]; auto. rewrite <- EA; exact Q3. }
  intros R. rewrite insert_double_body; fold A.
  - assert (V : Z.sgn u * (A / one D) = if Qlt_le_dec x 0 then - (hund A / 100) else hund A / 100).
    { fold N. rewrite HI. destruct (Qlt_le_dec x 0) as [L|L]; rewrite Eu in L.
      - assert (u < 0) by (unfold val, Qlt in L; cbn [Qnum Qden] in L; lia). rewrite Z.sgn_neg by lia. lia.
      - assert (0 <= u) by (unfold val, Qle in L; cbn [Qnum Qden] in L; lia).
        destruct (Z.eq_dec u 0) as [->|]; [unfold N, A; reflexivity|]. rewrite Z.sgn_pos by lia. lia. }
    rewrite V. apply body_ok; auto. rewrite HI.
    assert (N <= 2 ^ 53) by lia. assert (2 ^ 53 < 2 ^ 63) by reflexivity. destruct (Qlt_le_dec x 0); lia.
  - assert (2 ^ 53 * one D < 2 ^ 63 * one D) by (apply Z.mul_lt_mono_pos_r; [lia|reflexivity]). lia.
  - apply hund_lt63; assumption.
Qed.

(* ---- what does not hold ---- *)

Lemma sign_lost tr s j1 j2 u : - one D < u < 0 ->
  insert_double tr s j1 j2 (Fin u) = insert_double tr s j1 j2 (Fin (- u)).
Proof.
  intros H. pose proof d_one_pos as P.
  assert (Hb : 100 * Z.abs u <= 2 ^ 53 * one D).
  { assert (100 * one D <= 2 ^ 53 * one D) by (apply Z.mul_le_mono_nonneg_r; [lia|discriminate]). lia. }
  pose proof (hund_lt63 (Z.abs u) ltac:(lia) Hb) as HR.
  assert (H63 : 1 * one D <= 2 ^ 63 * one D) by (apply Z.mul_le_mono_nonneg_r; [lia|discriminate]).
  rewrite !insert_double_body; rewrite ?Z.abs_opp; try lia; try exact HR.
  rewrite (Z.div_small (Z.abs u)) by lia. rewrite !Z.mul_0_r. reflexivity.
Qed.

Lemma undefined_big tr s j1 j2 v : (forall u, v = Fin u -> 2 ^ 57 * one D <= Z.abs u) -> insert_double tr s j1 j2 v = UB.
Proof.
  intros H. pose proof d_one_pos as P. unfold insert_double.
  destruct v as [u|sg|]; [|reflexivity|reflexivity]. specialize (H u eq_refl).
  destruct (to_int64 (Fin u)) eqn:E0; cbn [bind]; try reflexivity.
  2: { exfalso. unfold to_int64 in E0. destruct (_ && _); discriminate. }
  assert (HR : 3 * 2 ^ 62 * one D <= R100 (Z.abs u)).
  { apply R100_ge; [lia| |].
    - exists 3, (62 + k64). split; [reflexivity|]. split; [unfold k64; lia|]. rewrite Z.pow_add_r by (unfold k64; lia). rewrite d_one. ring.
    - apply Z.le_trans with (100 * (2 ^ 57 * one D)); [|lia]. rewrite Z.mul_assoc. apply Z.mul_le_mono_nonneg_r; [lia|discriminate]. }
  assert (T : to_int64 (fmul D (Fin u) (of_int D 100)) = UB).
  { rewrite of100. unfold fmul, round.
    assert (A : Z.abs (u * (100 * one D)) = 100 * Z.abs u * one D).
    { rewrite Z.abs_mul, (Z.abs_eq (100 * one D)) by lia. ring. }
    rewrite A. fold (R100 (Z.abs u)).
    destruct (Z.leb_spec (2 ^ emax D * one D) (R100 (Z.abs u))); [reflexivity|].
    rewrite Z.sgn_mul, (Z.sgn_pos (100 * one D)), Z.mul_1_r by lia. unfold to_int64.
    rewrite quot_sgn by (try lia; apply sgn3).
    assert (Q : 3 * 2 ^ 62 <= R100 (Z.abs u) / one D) by (apply Z.div_le_lower_bound; lia).
    assert (U0 : u <> 0) by (intros ->; cbn in H; lia).
    set (r := R100 (Z.abs u) / one D) in *. clearbody r.
    destruct (Z.leb_spec (- 2 ^ 63) (Z.sgn u * r)) as [L1|]; [|reflexivity].
    destruct (Z.ltb_spec (Z.sgn u * r) (2 ^ 63)) as [L2|]; [|reflexivity]. exfalso.
    destruct u; cbn [Z.sgn] in *; try lia. }
  rewrite T. reflexivity.
Qed.

(* 0.29, as the language stores it *)
Definition u29 : Z := 5224175567749775 * 2 ^ 1020.
Lemma u29_nearest : nearest D (29 # 100) (val D u29).
Proof.
  apply (round_nearest D (29 * one D) 100 u29); [apply d_ok|lia|vm_compute; reflexivity|].
  unfold Qeq; cbn [Qnum Qden]. rewrite Z2Pos.id by (pose proof d_one_pos; lia). ring.
Qed.
Lemma u29_hund : hund u29 = 28 /\ Z.sgn u29 * (Z.abs u29 / one D) = 0 /\ hund (Z.abs u29) = 28.
Proof. vm_compute. auto. Qed.
Lemma u29_prints tr i b a j1 j2 : jlen j1 -> jlen j2 ->
  0 <= fmtfl i < 256 -> 0 <= width i < 16 -> 0 <= fill true i <= 127 -> adjusted i a ->
  room b (Nat.max (Z.to_nat (width i)) 1 + 3) ->
  insert_double tr (Ostr i b) j1 j2 (Fin u29)
  = Ok (Ostr (fst (set_width (dec_of i) 0)) (after b (padded a (Z.to_nat (width i)) (fill true i) [48] ++ [46; 50; 56]))).
Proof.
  intros J1 J2 Hi Hw Hf Ha R. rewrite insert_double_body by (vm_compute; reflexivity).
  destruct u29_hund as (_ & -> & ->). apply body_ok; auto; try lia. apply (small_numeral (upper i) 0). lia.
Qed.

(* a field width is not for the whole number *)
Lemma width_wrong b a w c ip n : (length ip < w)%nat ->
  after b (padded a w c ip ++ decimals n) <> after b (padded a w c (ip ++ decimals n)).
Proof.
  intros H E. unfold after in E. injection E as _ E.
  rewrite app_length, !padded_length, app_length in E. cbn [decimals length] in E. lia.
Qed.

(* the flags the insertions leave *)
Definition keeps (f : ostr -> result ostr) : Prop :=
  forall s s', f s = Ok s' -> flags (ost s') = flags (ost s) .
Lemma put_keeps tr c : keeps (fun s => put tr s c).
Proof.
  intros s s'. unfold put. destruct (sputc tr (osbuf s) c) as [[r b]| |]; cbn [bind]; try discriminate.
  intros [= <-]. destruct (r =? eof); reflexivity.
Qed.
Lemma put_times_keeps tr c n : keeps (put_times tr c n).
Proof.
  induction n as [|n IH]; intros s s'; cbn [put_times]; [now intros [= <-]|].
  destruct (put tr s c) as [s1| |] eqn:E; cbn [bind]; try discriminate. intros H. rewrite (IH _ _ H).
  exact (put_keeps tr c _ _ E).
Qed.
Lemma write_keeps t : keeps (fun s => write s t).
Proof.
  intros s s'. unfold write. destruct (sputn (osbuf s) t) as [[r b]| |]; cbn [bind]; try discriminate.
  intros [= <-]. destruct (negb _); reflexivity.
Qed.
Lemma wfb_keeps tr t : keeps (fun s => write_filled_buffer tr s t).
Proof.
  intros s s'. unfold write_filled_buffer. set (s1 := o_state s _). set (n := s32 _).
  assert (K1 : flags (ost s1) = flags (ost s)) by reflexivity.
  destruct (if flag s1 f_right then fill_n tr s1 n else Ok s1) as [s2| |] eqn:E2; cbn [bind]; try discriminate.
  assert (K2 : flags (ost s2) = flags (ost s1)).
  { destruct (flag s1 f_right); [exact (put_times_keeps _ _ _ _ _ E2)|now injection E2 as <-]. }
  destruct (write s2 t) as [s3| |] eqn:E3; cbn [bind]; try discriminate.
  pose proof (write_keeps t _ _ E3) as K3. cbn beta in K3.
  destruct (flag s3 f_left); intros E4; [|injection E4 as <-; congruence].
  rewrite (put_times_keeps _ _ _ _ _ E4). congruence.
Qed.
Lemma insert_int_keeps tr t j v : keeps (fun s => insert_int tr s t j v).
Proof.
  intros s s'. unfold insert_int. destruct (put_to_chars (ost s) t j v) as [r| |]; cbn [bind]; try discriminate.
  destruct (tec r); [apply wfb_keeps| | |]; intros [= <-]; reflexivity.
Qed.
Lemma insert_char_keeps tr c : keeps (fun s => insert_char tr s c).
Proof.
  intros s s'. unfold insert_char. destruct (fill_n tr s (width (ost s) - 1)) as [s1| |] eqn:E; cbn [bind]; try discriminate.
  intros H. rewrite (put_keeps tr c _ _ H). exact (put_times_keeps _ _ _ _ _ E).
Qed.

Lemma base_left tr s j1 j2 v s' : 0 <= flags (ost s) < 256 -> insert_double tr s j1 j2 v = Ok s' ->
  Z.land (flags (ost s')) f_basefield = f_dec.
Proof.
  intros Hs. unfold insert_double. destruct (to_int64 v) as [v_| |]; cbn [bind]; try discriminate.
  destruct (to_int64 (fmul D v (of_int D 100))) as [c| |]; cbn [bind]; try discriminate.
  set (d := if Z.rem c 100 <? 0 then _ else _). set (s0 := o_state s _).
  assert (K0 : Z.land (flags (ost s0)) f_basefield = f_dec).
  { destruct (dec_base (ost s) Hs) as [[_ H]|[[H _]|[H _]]]; [exact H|discriminate|discriminate]. }
  destruct (insert_int tr s0 i64 j1 v_) as [s1| |] eqn:E1; cbn [bind]; try discriminate.
  destruct (insert_char tr s1 46) as [s2| |] eqn:E2; cbn [bind]; try discriminate.
  destruct (if d <? 10 then insert_char tr s2 48 else Ok s2) as [s3| |] eqn:E3; cbn [bind]; try discriminate.
  intros E4. pose proof (insert_int_keeps _ _ _ _ _ _ E4) as K4. pose proof (insert_int_keeps _ _ _ _ _ _ E1) as K1.
  pose proof (insert_char_keeps _ _ _ _ E2) as K2. cbn beta in *.
  assert (K3 : flags (ost s3) = flags (ost s2)).
  { destruct (d <? 10); [exact (insert_char_keeps _ _ _ _ E3)|now injection E3 as <-]. }
  rewrite K4, K3, K2, K1. exact K0.
Qed.
