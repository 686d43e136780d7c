(* C144-C152: units, bytes, percent and their output. *)
From Coq Require Import ZArith QArith Lia Bool List String.
From Verif Require Import Base MachInt Ratio_Model Ratio_Proofs Chrono_Model Chrono_Proofs Timep_Proofs Properties_Chrono
  Ios_Model Streambuf_Model Charconv_Model Charconv_Spec Stream_Spec Ostream_Model Ostream_Spec Ostream_Proofs
  Ratio_Spec Chrono_Spec Units_Spec Units_Model Units_Proofs.
Import ListNotations.
Local Open Scope Z_scope.

(* a plain unit of representation t and period p *)
Definition plain_unit (t : ity) (p : Z * Z) : uty := Uty t p Pass.

(* ---- C144 *)
(* Provided the product with the numerator of the reduced ratio fits in 64 bits, and a negative
   count is not converted to an unsigned one: between units of different periods,
   construction and assignment give the quantity divided by the target's period, truncated toward
   zero, then narrowed to the target's representation. *)
Theorem C144_conversion : forall t1 p1 t2 p2 v, std_ity t1 -> std_ity t2 -> positive_period p1 -> positive_period p2 ->
  p1 <> p2 -> Ratio_Spec.fits (fst p1 * snd p2) -> Ratio_Spec.fits (snd p1 * fst p2) ->
  in_range t1 v -> (sgn t1 = true -> sgn t2 = false -> 0 <= v) ->
  int64 (v * (fst p1 * snd p2 / Z.gcd (fst p1 * snd p2) (snd p1 * fst p2))) ->
  construct (plain_unit t2 p2) (plain_unit t1 p1) v = Some (Ok (wrap t2 (truncated (quantity v p1 / value p2)))) /\
  assign (plain_unit t2 p2) (plain_unit t1 p1) v = Some (Ok (wrap t2 (truncated (quantity v p1 / value p2)))).
Proof.
  intros t1 p1 t2 p2 v S1 S2 P1 P2 NE F1 F2 V SV I. pose proof (std_pos _ S1). pose proof (std_pos _ S2).
  unfold construct, assign. destruct (uty_eqb_spec (plain_unit t2 p2) (plain_unit t1 p1)) as [E|_]; [unfold plain_unit in E; congruence|].
  cbn [uper plain_unit]. destruct (per_eqb_spec p2 p1); [congruence|].
  rewrite convert_pass by (assumption || reflexivity).
  pose proof (convert_exact (Dty t1 p1) (Dty t2 p2) v S1 S2 P1 P2 F1 F2 V SV I) as HH. split; exact HH.
Qed.
Print Assumptions C144_conversion.

(* With the same period the count is kept, and a representation that could lose it is refused at
   compile time. *)
Theorem C144_same_period : forall t1 t2 p v, std_ity t1 -> std_ity t2 -> in_range t1 v -> t1 <> t2 ->
  (widens t1 t2 = true -> construct (plain_unit t2 p) (plain_unit t1 p) v = Some (Ok v) /\ in_range t2 v) /\
  (widens t1 t2 = false -> construct (plain_unit t2 p) (plain_unit t1 p) v = None) /\
  (widens t1 t2 = true <-> forall z, in_range t1 z -> in_range t2 z).
Proof.
  intros t1 t2 p v S1 S2 V N. pose proof (std_pos _ S1). unfold construct.
  destruct (uty_eqb_spec (plain_unit t2 p) (plain_unit t1 p)) as [E|_]; [unfold plain_unit in E; congruence|].
  cbn [uper plain_unit]. destruct (per_eqb_spec p p); [|congruence]. cbn [f_rep plain_unit uf urep].
  split; [|split].
  - intros W. rewrite W. rewrite count_pass by (assumption || reflexivity). split; [reflexivity|]. now apply (widens_range t1).
  - intros W. now rewrite W.
  - split; [intros W z; now apply widens_range|]. intros A. assert (MI := A (imin t1)). assert (MA := A (imax t1)).
    clear - S1 S2 MI MA. std8 S1; std8 S2; unfold in_range in MI, MA; cbn in MI, MA; try reflexivity; exfalso; lia.
Qed.
Print Assumptions C144_same_period.

(* Provided the ticks are representable in the common type: sums, differences and the six
   comparisons of units of different types are those of the quantities. *)
Theorem C144_arithmetic : forall a b c v1 v2 m1 m2, uf a = Pass -> uf b = Pass -> a <> b -> ~ mixed (urep a) (urep b) ->
  Properties_Chrono.combine (dty_of a) (dty_of b) c v1 v2 -> ticks (dty_of a) (dty_of b) c v1 v2 m1 m2 -> in_range (rep c) m1 -> in_range (rep c) m2 ->
  (in_range (rep c) (m1 + m2) -> uadd a b v1 v2 = Some (Ok (m1 + m2)) /\
     (quantity (m1 + m2) (per c) == quantity v1 (uper a) + quantity v2 (uper b))%Q) /\
  (in_range (rep c) (m1 - m2) -> usub a b v1 v2 = Some (Ok (m1 - m2)) /\
     (quantity (m1 - m2) (per c) == quantity v1 (uper a) - quantity v2 (uper b))%Q).
Proof.
  intros a b c v1 v2 m1 m2 EA EB N MX (S1 & S2 & P1 & P2 & R & C & V1 & V2) [T1 T2] I1 I2. cbn [dty_of rep per] in *.
  destruct (common_facts a b c S1 S2 P1 P2 R C) as (_ & SC & _ & _).
  split; intros I; (split; [unfold uadd, usub; rewrite (both_value a b c v1 v2 m1 m2) by assumption|]).
  - now rewrite add_in_range.
  - unfold quantity. rewrite seconds_plus, T1, T2. reflexivity.
  - now rewrite sub_in_range.
  - unfold quantity. rewrite seconds_minus, T1, T2. reflexivity.
Qed.
Print Assumptions C144_arithmetic.
Theorem C144_comparison : forall a b c v1 v2 m1 m2, uf a = Pass -> uf b = Pass -> a <> b -> ~ mixed (urep a) (urep b) ->
  Properties_Chrono.combine (dty_of a) (dty_of b) c v1 v2 -> ticks (dty_of a) (dty_of b) c v1 v2 m1 m2 -> in_range (rep c) m1 -> in_range (rep c) m2 ->
  exists lt gt le ge eq ne,
    ult a b v1 v2 = Some (Ok lt) /\ ugt a b v1 v2 = Some (Ok gt) /\ ule a b v1 v2 = Some (Ok le) /\
    uge a b v1 v2 = Some (Ok ge) /\ ueq a b v1 v2 = Some (Ok eq) /\ une a b v1 v2 = Some (Ok ne) /\
    (lt = true <-> (quantity v1 (uper a) < quantity v2 (uper b))%Q) /\
    (gt = true <-> (quantity v2 (uper b) < quantity v1 (uper a))%Q) /\
    (le = true <-> ~ (quantity v2 (uper b) < quantity v1 (uper a))%Q) /\
    (ge = true <-> ~ (quantity v1 (uper a) < quantity v2 (uper b))%Q) /\
    (eq = true <-> (quantity v1 (uper a) == quantity v2 (uper b))%Q) /\
    (ne = true <-> ~ (quantity v1 (uper a) == quantity v2 (uper b))%Q).
Proof.
  intros a b c v1 v2 m1 m2 EA EB N MX (S1 & S2 & P1 & P2 & R & C & V1 & V2) [T1 T2] I1 I2. cbn [dty_of rep per] in *.
  destruct (common_facts a b c S1 S2 P1 P2 R C) as (_ & SC & _ & PC). pose proof (std_pos _ SC) as B.
  exists (m1 <? m2), (m2 <? m1), (m1 <=? m2), (m2 <=? m1), (m1 =? m2), (negb (m1 =? m2)).
  unfold ult, ugt, ule, uge, ueq, une. destruct (uty_eqb_spec a b); [contradiction|].
  rewrite !(both_value a b c v1 v2 m1 m2) by assumption. rewrite !counts_pass by (assumption || reflexivity).
  repeat (split; [reflexivity|]). unfold quantity. rewrite <- T1, <- T2. rewrite <- !seconds_lt, <- !seconds_inj by exact PC.
  rewrite !negb_true_iff, !Z.ltb_lt, !Z.leb_le, Z.eqb_eq, Z.eqb_neq. lia.
Qed.
Print Assumptions C144_comparison.

(* Units of one type, with any representation and projector, add and subtract their counts.
   (Unlike quantities, an offset unit adds its offset once, see C146.) *)
Theorem C144_one_type : forall a r s, std_ity (urep a) -> uf a = Pass -> in_range (urep a) r -> in_range (urep a) s ->
  (in_range (urep a) (r + s) -> uadd a a r s = Some (Ok (r + s))) /\
  (in_range (urep a) (r - s) -> usub a a r s = Some (Ok (r - s))) /\
  ult a a r s = Some (Ok (r <? s)) /\ ugt a a r s = Some (Ok (s <? r)) /\ ule a a r s = Some (Ok (r <=? s)) /\
  uge a a r s = Some (Ok (s <=? r)) /\ ueq a a r s = Some (Ok (r =? s)) /\ une a a r s = Some (Ok (negb (r =? s))).
Proof.
  intros a r s S E R Q. pose proof (std_pos _ S) as B. unfold uadd, usub, ult, ugt, ule, uge, ueq, une.
  destruct (uty_eqb_spec a a); [|congruence]. rewrite !both_same, !counts_pass by assumption.
  split; [intros; now rewrite add_in_range|]. split; [intros; now rewrite sub_in_range|]. repeat split.
Qed.
Print Assumptions C144_one_type.

(* If the ticks are not representable they are silently narrowed, when the periods of both units
   differ from the common one. *)
Theorem C151_narrowed_ticks_refuted : forall a b c v1 v2 m1 m2, uf a = Pass -> uf b = Pass ->
  Properties_Chrono.combine (dty_of a) (dty_of b) c v1 v2 -> ticks (dty_of a) (dty_of b) c v1 v2 m1 m2 -> int64 m1 -> int64 m2 ->
  per c <> uper a -> per c <> uper b -> a <> b ->
  ult a b v1 v2 = Some (Ok (wrap (rep c) m1 <? wrap (rep c) m2)).
Proof.
  intros a b c v1 v2 m1 m2 EA EB (S1 & S2 & P1 & P2 & R & C & V1 & V2) [T1 T2] I1 I2 NA NB N. cbn [dty_of rep per] in *.
  destruct (common_facts a b c S1 S2 P1 P2 R C) as (_ & SC & _ & PC). pose proof (std_pos _ SC) as B.
  pose proof (std_pos _ S1) as B1. pose proof (std_pos _ S2) as B2.
  unfold ult, both, usum, ucommon. destruct (uty_eqb_spec a b); [contradiction|]. rewrite EA, EB, C. cbn [obind].
  unfold construct. destruct (uty_eqb_spec (Uty (rep c) (per c) Pass) a) as [E|_]; [exfalso; apply NA; now rewrite <- E|].
  destruct (uty_eqb_spec (Uty (rep c) (per c) Pass) b) as [E|_]; [exfalso; apply NB; now rewrite <- E|]. cbn [uper].
  destruct (per_eqb_spec (per c) (uper a)); [contradiction|]. destruct (per_eqb_spec (per c) (uper b)); [contradiction|].
  rewrite !convert_pass by (assumption || reflexivity).
  change (dty_of (Uty (rep c) (per c) Pass)) with (Dty (rep c) (per c)). replace (Dty (rep c) (per c)) with c by (now destruct c).
  rewrite (to_common_l (dty_of a) (dty_of b) c v1 m1), (to_common_r (dty_of a) (dty_of b) c v2 m2) by assumption.
  cbn [obind bind]. rewrite counts_pass; try reflexivity; try assumption; now apply wrap_range.
Qed.
Print Assumptions C151_narrowed_ticks_refuted.
(* And if an unsigned representation meets a narrower signed one in the same period, nothing
   compiles. *)
Theorem C151_mixed_refuted : forall t1 t2 p v1 v2, std_ity t1 -> std_ity t2 -> mixed t1 t2 -> positive_period p ->
  Chrono_Spec.representable p p ->
  uadd (plain_unit t1 p) (plain_unit t2 p) v1 v2 = None /\ ult (plain_unit t1 p) (plain_unit t2 p) v1 v2 = None.
Proof.
  intros t1 t2 p v1 v2 S1 S2 M P R.
  assert (B : forall (A : Type) (f : uty -> Z -> Z -> result A), both (plain_unit t1 p) (plain_unit t2 p) v1 v2 f = None).
  { intros A f. assert (NT : t1 <> t2) by (destruct M as [(X & Y & Z)|(X & Y & Z)]; intros E; subst; congruence).
    unfold both, usum. destruct (uty_eqb_spec (plain_unit t1 p) (plain_unit t2 p)) as [E|_]; [unfold plain_unit in E; congruence|].
    unfold ucommon. cbn [uf plain_unit]. destruct (common (dty_of _) (dty_of _)) as [c|] eqn:C; [|reflexivity]. cbn [obind].
    destruct (common_inv (Dty t1 p) (Dty t2 p) c P P R C) as [PT PC]. cbn [rep per] in PT, PC.
    assert (PP : per c = p).
    { rewrite PC. unfold common_period. rewrite Z.gcd_diag, Z.lcm_diag. destruct P as [A1 A2]. destruct p as [n e]. cbn [fst snd] in *. f_equal; lia. }
    unfold construct, plain_unit. cbn [uper f_rep uf urep]. rewrite PP. destruct (per_eqb_spec p p); [|congruence].
    destruct (mixed_narrows t1 t2 (rep c) S1 S2 M PT) as [W|W]; rewrite W.
    - destruct (uty_eqb_spec (Uty (rep c) p Pass) (Uty t1 p Pass)) as [E|_]; [|reflexivity].
      injection E as E. rewrite E in W. unfold widens in W. rewrite eqb_reflx, Z.leb_refl in W. discriminate.
    - destruct (if uty_eqb (Uty (rep c) p Pass) (Uty t1 p Pass) then _ else _); [|reflexivity]. cbn [obind].
      destruct (uty_eqb_spec (Uty (rep c) p Pass) (Uty t2 p Pass)) as [E|_]; [|reflexivity].
      injection E as E. rewrite E in W. unfold widens in W. rewrite eqb_reflx, Z.leb_refl in W. discriminate. }
  split; apply B.
Qed.
Print Assumptions C151_mixed_refuted.

Example C144_case :
  let adc := Uty (Ity 16 true) (100, 1024) Pass in let pct := Uty U32 (1, 1) Pass in let p8 := Uty (Ity 8 true) (1, 1) Pass in
  let dc := Dty U32 (1, 1024) in let i32 := Uty I32 (1, 1) Pass in let i32d := Dty I32 (25, 256) in
  uadd i32 adc 90 100 = Some (Ok 102160) /\ ugt i32 adc 90 512 = Some (Ok true) /\ construct i32 adc 512 = Some (Ok 50) /\
  Properties_Chrono.combine (dty_of i32) (dty_of adc) (Dty I32 (1, 1024)) 90 100 /\
  ticks (dty_of i32) (dty_of adc) (Dty I32 (1, 1024)) 90 100 92160 10000 /\
  ~ mixed (urep i32) (urep adc) /\ in_range I32 92160 /\
  construct pct p8 5 = None /\ mixed U32 (Ity 8 true) /\ ult pct p8 5 6 = None /\
  uadd (Uty U64 (1, 1) Pass) (Uty U64 (1, 1) Pass) 3 4 = Some (Ok 7).
Proof.
  cbv zeta. unfold Properties_Chrono.combine, ticks, mixed.
  repeat match goal with |- _ /\ _ => split end; cbn [rep per fst snd dty_of urep uper bits sgn];
    try (vm_compute; reflexivity); try (vm_compute; discriminate); try (split; vm_compute; discriminate);
    try match goal with |- std_ity _ => unfold std_ity; cbn; lia end.
  all: try (repeat split; vm_compute; (reflexivity || discriminate)).
  all: cbn; lia.
Qed.

(* ---- C145 *)
(* u += s compiles only if every value of s is a whole number of counts of u, and then adds
   exactly that number (while the result is representable); -= likewise. *)
Theorem C145_add_assign : forall a b r x res, uf a = Pass -> uf b = Pass -> a <> b -> std_ity (urep a) -> std_ity (urep b) ->
  ~ mixed (urep a) (urep b) ->
  positive_period (uper a) -> positive_period (uper b) -> Chrono_Spec.representable (uper a) (uper b) ->
  in_range (urep b) x -> uadd_assign a b r x = Some res ->
  exists m, (quantity m (uper a) == quantity x (uper b))%Q /\
    (in_range (urep a) m -> in_range (urep a) (r + m) -> res = Ok (r + m)) /\
    (in_range (urep a) m -> in_range (urep a) (r - m) -> usub_assign a b r x = Some (Ok (r - m))).
Proof.
  intros a b r x res EA EB N S1 S2 MX P1 P2 R X H. unfold uadd_assign, usub_assign in *.
  destruct (uty_eqb_spec a b); [contradiction|]. unfold ucommon in *. rewrite EA, EB in *.
  destruct (common (dty_of a) (dty_of b)) as [c|] eqn:C; [|discriminate H]. cbn [obind] in *.
  destruct (uty_eqb_spec (Uty (rep c) (per c) Pass) a) as [E|_]; [|discriminate H].
  destruct (common_ticks (dty_of a) (dty_of b) c x P1 P2 R C) as [_ [m M]]. cbn [dty_of per] in M.
  assert (PA : uper a = per c) by (now rewrite <- E). assert (RA : urep a = rep c) by (now rewrite <- E).
  exists m. split; [unfold quantity; rewrite PA; exact M|].
  assert (K : in_range (urep a) m -> construct a b x = Some (Ok m)).
  { intros IM. destruct (common_facts a b c S1 S2 P1 P2 R C) as (PT & SC & U & PC).
    destruct (promoted_widens _ _ _ S1 S2 MX PT) as [_ W2]. rewrite RA in IM.
    assert (A : construct (Uty (rep c) (per c) Pass) b x = Some (Ok m)); [|now rewrite E in A].
    apply construct_tick; try assumption; try reflexivity.
    change (dty_of (Uty (rep c) (per c) Pass)) with (Dty (rep c) (per c)). replace (Dty (rep c) (per c)) with c by (now destruct c).
    apply (to_common_r (dty_of a) (dty_of b)); try assumption. now apply (std_int64 (rep c)). }
  split.
  - intros IM IR. rewrite (K IM) in H. cbn [obind bind] in H. rewrite add_in_range in H by assumption. now injection H.
  - intros IM IR. rewrite (K IM). cbn [obind bind]. now rewrite sub_in_range.
Qed.
Print Assumptions C145_add_assign.

(* The converse: if a's period makes every value of b whole, and a's representation is the common
   one, it does compile, unless the periods, though equal as numbers, are written differently. *)
Theorem C145_compiles : forall a b r x, uf a = Pass -> uf b = Pass -> std_ity (urep a) -> std_ity (urep b) -> ~ mixed (urep a) (urep b) ->
  positive_period (uper a) -> positive_period (uper b) -> Chrono_Spec.representable (uper a) (uper b) ->
  promoted_type (urep a) (urep b) = Some (urep a) -> (fst (uper a) | fst (uper b)) -> (snd (uper b) | snd (uper a)) ->
  in_range (urep b) x -> (exists m, in_range (urep a) m /\ (quantity m (uper a) == quantity x (uper b))%Q) ->
  uadd_assign a b r x <> None.
Proof.
  intros a b r x EA EB S1 S2 MX P1 P2 R PT D1 D2 X (m & IM & M). unfold uadd_assign. destruct (uty_eqb_spec a b); [discriminate|].
  unfold ucommon. rewrite EA, EB.
  assert (PP : common_period (uper a) (uper b) = uper a).
  { unfold common_period. destruct (uper a) as [na da], (uper b) as [nb db], P1 as [A1 A2], P2 as [B1 B2]. cbn [fst snd] in *.
    f_equal; [apply Z.divide_gcd_iff; [lia|exact D1]|]. rewrite Z.lcm_comm. apply Z.divide_lcm_iff; [lia|exact D2]. }
  assert (C : common (dty_of a) (dty_of b) = Some (dty_of a)).
  { rewrite (common_value _ _ (urep a)) by assumption. cbn [dty_of per]. rewrite PP. reflexivity. }
  rewrite C. cbn [obind dty_of rep per].
  assert (E : Uty (urep a) (uper a) Pass = a) by (destruct a; cbn in *; congruence). rewrite E.
  destruct (uty_eqb_spec a a); [|congruence].
  destruct (common_facts a b _ S1 S2 P1 P2 R C) as (_ & SC & U & PC). destruct (promoted_widens _ _ _ S1 S2 MX PT) as [_ W2].
  rewrite (construct_tick b a x m); try assumption; [discriminate|].
  apply (to_common_r (dty_of a) (dty_of b)); try assumption. now apply (std_int64 (urep a)).
Qed.
Print Assumptions C145_compiles.

(* bytes += kilobytes; kilobytes += bytes is refused *)
Example C145_case :
  uadd_assign (bytes I32) (kilobytes (Ity 16 true)) 100 3 = Some (Ok 3172) /\
  usub_assign (bytes I32) (kilobytes (Ity 16 true)) 100 3 = Some (Ok (-2972)) /\
  uadd_assign (kilobytes I32) (bytes (Ity 16 true)) 1 2048 = None /\
  bytes I32 <> kilobytes (Ity 16 true) /\ ~ mixed I32 (Ity 16 true) /\
  Chrono_Spec.representable (1, 1) (1024, 1) /\ promoted_type I32 (Ity 16 true) = Some I32.
Proof.
  unfold mixed. repeat match goal with |- _ /\ _ => split end; try (vm_compute; reflexivity); try (vm_compute; discriminate); try (cbn; lia);
    (intros [(?&?&?)|(?&?&?)]; cbn in *; discriminate || lia) || (repeat split; vm_compute; (reflexivity || discriminate)).
Qed.

(* ---- C146 *)
(* an offset unit: its count is the stored value plus a, in type t *)
Definition offset_unit (r : ity) (p : Z * Z) (t : ity) (a : Z) : uty := Uty r p (Add t a).

(* The count of an offset unit is the stored value plus the offset. *)
Theorem C146_count : forall r p t a v, std_ity r -> std_ity t -> in_range t a -> in_range r v -> in_range t (v + a) ->
  count (offset_unit r p t a) v = Ok (v + a) /\
  (in_range t (v - a) -> count (Uty r p (Sub t a)) v = Ok (v - a)).
Proof.
  intros r p t a v SR ST A V I. unfold count, offset_unit. cbn [uf urep].
  split; [now apply project_add|]. intros J. now apply project_sub.
Qed.
Print Assumptions C146_count.

(* Provided 64 bits suffice, and no unsigned 64 bit type is involved: converting to an offset unit keeps the quantity: its count is the quantity in its period,
   truncated toward zero.  Assignment does the same for equal periods. *)
Theorem C146_conversion : forall r p t a t1 p1 v, std_ity r -> std_ity t -> std_ity t1 -> r <> U64 -> t <> U64 -> t1 <> U64 ->
  positive_period p -> positive_period p1 ->
  Ratio_Spec.fits (fst p1 * snd p) -> Ratio_Spec.fits (snd p1 * fst p) ->
  in_range t1 v -> (sgn t1 = true -> sgn r = false -> 0 <= v) -> in_range t a ->
  int64 (v * (fst p1 * snd p / Z.gcd (fst p1 * snd p) (snd p1 * fst p))) ->
  let q := truncated (quantity v p1 / value p) in
  in_range t q -> in_range t (q - a) -> in_range r (q - a) ->
  exists x, assign (offset_unit r p t a) (plain_unit t1 p1) v = Some (Ok x) /\
    (p <> p1 -> construct (offset_unit r p t a) (plain_unit t1 p1) v = Some (Ok x)) /\
    count (offset_unit r p t a) x = Ok q.
Proof.
  intros r p t a t1 p1 v SR ST S1 UR UT U1 P P1 F1 F2 V SV A I q Q QA QR.
  pose proof (std_pos _ SR) as BR. pose proof (std_pos _ S1) as B1.
  exists (q - a).
  assert (K : convert_from (offset_unit r p t a) (plain_unit t1 p1) v = Some (Ok (q - a))).
  { assert (MT : common_type r t1 <> U64) by (unfold U64 in *; clear - SR S1 UR U1; std8 SR; std8 S1; intros E; vm_compute in E; congruence).
    pose proof (common_type_std r t1 SR S1) as SC. pose proof (std_pos _ SC) as BC.
    (* the same conversion into a plain 64 bit unit of the common type *)
    set (W := Uty I64 p Pass).
    assert (CV : convert (Dty t1 p1) (Dty I64 p) v = Some (Ok (wrap I64 q))).
    { apply (convert_exact (Dty t1 p1) (Dty I64 p)); cbn [rep per]; try assumption; [unfold std_ity; cbn; lia|discriminate]. }
    unfold convert_from. rewrite count_pass by (assumption || reflexivity). unfold convert in CV. unfold convert_count.
    cbn [offset_unit plain_unit uper urep uf f_rep rep per] in *.
    destruct (ratio_divide p1 p) as [rd|]; [|discriminate CV]. cbn [obind] in *. injection CV as CV. f_equal.
    assert (E1 : usual (common_type I64 t1) I64 = I64) by (unfold U64 in U1; clear - S1 U1; std8 S1; try reflexivity; congruence).
    assert (E2 : usual (common_type r t1) I64 = I64).
    { rewrite usual_I64 by exact SC. destruct (ity_eqb_spec (common_type r t1) U64); [contradiction|reflexivity]. }
    rewrite E1 in CV. rewrite E2.
    assert (W1 : wrap (common_type I64 t1) v = v).
    { apply wrap_id; [apply std_pos, common_type_std; [unfold std_ity; cbn; lia|assumption]|].
      apply sign_safe; try assumption; [unfold std_ity; cbn; lia|discriminate]. }
    assert (W2 : wrap (common_type r t1) v = v) by (apply wrap_id; [exact BC|now apply sign_safe]).
    rewrite W1 in CV. rewrite W2.
    destruct (arith I64 (wrap I64 v * wrap I64 (fst rd))) as [x| |]; try discriminate CV. cbn [bind] in *.
    destruct (arith I64 (Z.quot x (wrap I64 (snd rd)))) as [y| |] eqn:Y; try discriminate CV. cbn [bind] in *.
    assert (YR : in_range I64 y).
    { unfold arith in Y. cbn [sgn I64] in Y. destruct (in_rangeb I64 _) eqn:IB; [|discriminate Y]. injection Y as <-.
      unfold in_rangeb in IB. apply andb_prop in IB as [IB1 IB2]. apply Z.leb_le in IB1, IB2. split; assumption. }
    assert (QI : in_range I64 q).
    { pose proof (std_int64 _ _ ST UT Q) as QQ. unfold int64 in QQ. unfold in_range. cbn. lia. }
    assert (YQ : y = q).
    { injection CV as CV. rewrite (wrap_id I64 q), (wrap_id I64 y) in CV by (cbn; lia || assumption). exact CV. }
    subst y. cbn [reversal].
    rewrite project_sub; [|exact ST|unfold std_ity; cbn; lia|exact A|exact QI|exact QA]. cbn [bind]. now rewrite wrap_id. }
  split; [|split].
  - unfold assign. destruct (uty_eqb_spec (offset_unit r p t a) (plain_unit t1 p1)) as [E|_]; [discriminate E|exact K].
  - intros N. unfold construct. destruct (uty_eqb_spec (offset_unit r p t a) (plain_unit t1 p1)) as [E|_]; [discriminate E|].
    cbn [offset_unit plain_unit uper]. destruct (per_eqb_spec p p1); [contradiction|exact K].
  - replace q with (q - a + a) at 2 by lia. unfold count, offset_unit. cbn [uf urep]. apply project_add; try assumption. now replace (q - a + a) with q by lia.
Qed.
Print Assumptions C146_conversion.

(* But constructing an offset unit from a unit of the same period stores the count without taking
   the offset off: the new unit's count is off by the offset, whatever the value. *)
Theorem C151_same_period_refuted : forall r p t a t1 v, std_ity r -> std_ity t -> std_ity t1 -> widens t1 r = true ->
  in_range t1 v -> in_range t a -> in_range t (v + a) -> a <> 0 ->
  exists x, construct (offset_unit r p t a) (plain_unit t1 p) v = Some (Ok x) /\
    count (plain_unit t1 p) v = Ok v /\ count (offset_unit r p t a) x = Ok (v + a) /\ v + a <> v.
Proof.
  intros r p t a t1 v SR ST S1 W V A I N. pose proof (std_pos _ S1) as B1. exists v.
  assert (K : count (plain_unit t1 p) v = Ok v) by (now apply count_pass). split; [|split; [exact K|split; [|lia]]].
  - unfold construct. destruct (uty_eqb_spec (offset_unit r p t a) (plain_unit t1 p)) as [E|_]; [discriminate E|].
    cbn [offset_unit plain_unit uper urep f_rep uf]. destruct (per_eqb_spec p p); [|congruence]. rewrite W. exact (f_equal Some K).
  - apply project_add; try assumption. now apply (widens_range t1).
Qed.
Print Assumptions C151_same_period_refuted.

(* a temperature stored from -40 in a byte: 25 degrees from tenths, and from whole degrees *)
Example C146_case :
  let c8 := offset_unit (Ity 8 false) (1, 1) (Ity 16 true) (-40) in
  let tenths := plain_unit (Ity 16 true) (1, 10) in let deg := plain_unit (Ity 8 false) (1, 1) in
  construct c8 tenths 257 = Some (Ok 65) /\ count c8 65 = Ok 25 /\
  construct c8 deg 25 = Some (Ok 25) /\ count c8 25 = Ok (-15) /\ assign c8 deg 25 = Some (Ok 65) /\
  truncated (quantity 257 (1, 10) / value (1, 1)) = 25 /\ in_range (Ity 16 true) (25 - -40) /\ in_range (Ity 8 false) (25 - -40).
Proof. cbv zeta. repeat match goal with |- _ /\ _ => split end; try (vm_compute; reflexivity); split; vm_compute; discriminate. Qed.

(* ---- C147 *)
(* Provided the products of the range with the percentage and with the numerator are
   representable in their type: get_from_percent gives the value that share of the way from
   min to max. *)
Theorem C147_value : forall u w p lo hi, std_ity (urep u) -> std_ity (urep w) -> 0 < fst (uper u) -> 0 < snd (uper u) ->
  Ratio_Spec.fits (fst (uper u)) -> Ratio_Spec.fits (100 * snd (uper u)) ->
  in_range (urep w) lo -> in_range (urep w) (hi - lo) ->
  let tv := usual (urep w) (urep u) in
  in_range tv (hi - lo) -> in_range tv p -> in_range tv ((hi - lo) * p) -> in_range tv ((hi - lo) * p * fst (uper u)) ->
  in_range (urep w) (share p (uper u) lo hi) ->
  get_from_percent u w p lo hi = Ok (share p (uper u) lo hi).
Proof. intros. now apply percent_value. Qed.
Print Assumptions C147_value.

(* Between 0 and 100 percent it stays between min and max, gives min at 0 and max at 100, and
   grows with the percentage. *)
Theorem C147_between : forall u w p p' lo hi, std_ity (urep u) -> std_ity (urep w) -> 0 < fst (uper u) -> 0 < snd (uper u) ->
  Ratio_Spec.fits (fst (uper u)) -> Ratio_Spec.fits (100 * snd (uper u)) ->
  in_range (urep w) lo -> in_range (urep w) hi -> lo <= hi -> in_range (urep w) (hi - lo) ->
  0 <= p <= p' -> p' * fst (uper u) <= 100 * snd (uper u) -> in_range (usual (urep w) (urep u)) p' ->
  in_range (usual (urep w) (urep u)) (100 * snd (uper u) * (hi - lo)) ->
  exists x x', get_from_percent u w p lo hi = Ok x /\ get_from_percent u w p' lo hi = Ok x' /\
    lo <= x <= x' /\ x' <= hi /\ (p = 0 -> x = lo) /\ (p' * fst (uper u) = 100 * snd (uper u) -> x' = hi).
Proof.
  intros u w p p' lo hi SU SW N D FN FD L H LH RG PP P100 RP RR.
  assert (ST : std_ity (usual (urep w) (urep u))) by now apply usual_std.
  set (tv := usual (urep w) (urep u)) in *.
  assert (Z0 : in_range tv 0) by (clear - ST; std8 ST; unfold in_range; cbn; lia).
  assert (BT : forall z, 0 <= z <= 100 * snd (uper u) * (hi - lo) -> in_range tv z) by (unfold in_range in *; lia).
  assert (G : forall k, 0 <= k <= p' -> get_from_percent u w k lo hi = Ok (share k (uper u) lo hi)).
  { intros k K. assert (KN : k <= k * fst (uper u)) by nia. assert (KM : k * fst (uper u) <= p' * fst (uper u)) by (apply Z.mul_le_mono_nonneg_r; lia).
    assert (X1 : (hi - lo) * k <= (hi - lo) * (k * fst (uper u))) by (apply Z.mul_le_mono_nonneg_l; lia).
    assert (X2 : (hi - lo) * (k * fst (uper u)) <= (hi - lo) * (100 * snd (uper u))) by (apply Z.mul_le_mono_nonneg_l; lia).
    apply percent_value; try assumption; fold tv.
    - apply BT. nia.
    - unfold in_range in *. lia.
    - apply BT. split; [apply Z.mul_nonneg_nonneg; lia|]. lia.
    - apply BT. rewrite <- Z.mul_assoc. split; [apply Z.mul_nonneg_nonneg; lia|]. lia.
    - apply (share_range (urep w) k (uper u) lo hi); try assumption; lia. }
  exists (share p (uper u) lo hi), (share p' (uper u) lo hi).
  split; [apply G; lia|]. split; [apply G; lia|].
  assert (PM : p * fst (uper u) <= p' * fst (uper u)) by (apply Z.mul_le_mono_nonneg_r; lia).
  destruct (share_range (urep w) p (uper u) lo hi N D ltac:(lia) LH L H ltac:(lia)) as [_ [A1 A2]].
  destruct (share_range (urep w) p' (uper u) lo hi N D ltac:(lia) LH L H ltac:(lia)) as [_ [A3 A4]].
  split; [|split; [exact A4|split]].
  - split; [exact A1|]. unfold share. apply Zplus_le_compat_l.
    assert (Y0 : 0 <= (hi - lo) * p * fst (uper u)) by (rewrite <- Z.mul_assoc; apply Z.mul_nonneg_nonneg; nia).
    assert (Y1 : (hi - lo) * p * fst (uper u) <= (hi - lo) * p' * fst (uper u)) by (rewrite <- !Z.mul_assoc; apply Z.mul_le_mono_nonneg_l; lia).
    rewrite !Z.quot_div_nonneg by lia. apply Z.div_le_mono; lia.
  - intros ->. unfold share. replace ((hi - lo) * 0 * fst (uper u)) with 0 by ring. rewrite Z.quot_0_l by lia. lia.
  - intros E. unfold share. rewrite <- Z.mul_assoc, E. rewrite Z.quot_mul by lia. lia.
Qed.
Print Assumptions C147_between.

(* Without a minimum, the range begins at 0. *)
Theorem C147_from_zero : forall u w p hi, std_ity (urep u) -> std_ity (urep w) -> 0 < fst (uper u) -> 0 < snd (uper u) ->
  Ratio_Spec.fits (fst (uper u)) -> Ratio_Spec.fits (100 * snd (uper u)) -> in_range (urep w) hi ->
  let tv := usual (urep w) (urep u) in
  in_range tv hi -> in_range tv p -> in_range tv (hi * p) -> in_range tv (hi * p * fst (uper u)) ->
  in_range (urep w) (share p (uper u) 0 hi) ->
  get_from_percent0 u w p hi = Ok (share p (uper u) 0 hi).
Proof.
  intros u w p hi SU SW N D FN FD H tv T1 T2 T3 T4 R. unfold get_from_percent0.
  assert (in_range (urep w) 0) by (clear - SW; std8 SW; unfold in_range; cbn; lia).
  apply percent_value; rewrite ?Z.sub_0_r; assumption.
Qed.
Print Assumptions C147_from_zero.

(* With unsigned 32 bit counts, 100% of every range above 42949672 is short of max. *)
Theorem C151_percent_overflow_refuted : forall lo hi, 0 <= lo -> lo + 42949673 <= hi -> hi < 2 ^ 32 ->
  exists x, get_from_percent (Uty U32 (1, 1) Pass) (Uty U32 (1, 1) Pass) 100 lo hi = Ok x /\ x < hi.
Proof.
  intros lo hi L R H. change (2 ^ 32) with 4294967296 in H. unfold get_from_percent. cbn [urep uper fst snd].
  assert (I : forall z, 0 <= z < 4294967296 -> in_range U32 z) by (intros z Z; unfold in_range; cbn; lia).
  rewrite sub_in_range; [|unfold std_ity; cbn; lia|apply I; lia]. cbn [bind].
  change (usual U32 U32) with U32. change (usual U32 I64) with I64.
  rewrite (wrap_id U32 (hi - lo)) by (cbn; lia || (apply I; lia)). rewrite (wrap_id U32 100) by (cbn; lia || (apply I; lia)).
  change (arith U32 ((hi - lo) * 100)) with (@Ok Z (wrap U32 ((hi - lo) * 100))). cbn [bind].
  set (v := wrap U32 ((hi - lo) * 100)). assert (V : 0 <= v < 4294967296) by (unfold v, wrap, wrapu; cbn; apply Z.mod_pos_bound; lia). clearbody v.
  assert (W : forall z, 0 <= z < 4294967296 -> wrap I64 z = z) by (intros z Z; apply wrap_id; [cbn; lia|unfold in_range; cbn; lia]).
  rewrite (W v V), (W 1) by lia. rewrite Z.mul_1_r. rewrite arith_ok by (cbn; lia || (unfold in_range; cbn; lia)). cbn [bind].
  rewrite (wrap_id U32 v) by (cbn; lia || (apply I; lia)). change (wrap I64 (100 * 1)) with 100. rewrite (W v V).
  assert (Q : 0 <= Z.quot v 100 < hi - lo) by (rewrite Z.quot_div_nonneg by lia; split; [apply Z.div_pos; lia|apply Z.div_lt_upper_bound; lia]).
  rewrite arith_ok by (cbn; lia || (unfold in_range; cbn; lia)). cbn [bind].
  rewrite !(wrap_id U32 (Z.quot v 100)) by (cbn; lia || (apply I; lia)).
  change (usual U32 U32) with U32. rewrite (wrap_id U32 (Z.quot v 100)) by (cbn; lia || (apply I; lia)).
  rewrite (wrap_id U32 lo) by (cbn; lia || (apply I; lia)). rewrite arith_ok by (cbn; lia || (apply I; lia)). cbn [bind].
  eexists. split; [reflexivity|]. rewrite wrap_id by (cbn; lia || (apply I; lia)). lia.
Qed.
Print Assumptions C151_percent_overflow_refuted.

Example C147_case :
  let pct := Uty U32 (1, 1) Pass in let w := Uty U32 (1, 1) Pass in let i := Uty I32 (1, 1) Pass in
  get_from_percent pct w 25 100 900 = Ok 300 /\ get_from_percent pct w 0 100 900 = Ok 100 /\ get_from_percent pct w 100 100 900 = Ok 900 /\
  share 25 (1, 1) 100 900 = 300 /\ in_range U32 (100 * 1 * (900 - 100)) /\
  get_from_percent (Uty (Ity 16 true) (100, 1024) Pass) i 512 (-50) 50 = Ok 0 /\
  (* 100% of 3000000000, and a falling range *)
  get_from_percent pct w 100 0 3000000000 = Ok 36472565 /\ get_from_percent pct w 50 10 0 = Ok 42949677 /\
  get_from_percent0 pct w 25 900 = Ok 225.
Proof. cbv zeta. repeat match goal with |- _ /\ _ => split end; try (vm_compute; reflexivity); split; vm_compute; discriminate. Qed.

(* ---- C148 *)
(* Adding and subtracting a plain number, in a unit of ratio 1, changes the count by it; with an
   unsigned or narrow representation, modulo its width, whatever the number. *)
Theorem C148_numbers : forall t p r k, std_ity t -> in_range t r ->
  (in_range t k -> in_range t (r + k) -> add_number (plain_unit t p) r k = Ok (r + k)) /\
  (in_range t k -> in_range t (r - k) -> sub_number (plain_unit t p) r k = Ok (r - k)) /\
  (sgn t = false \/ bits t < 32 ->
     add_number (plain_unit t p) r k = Ok (wrap t (r + k)) /\ sub_number (plain_unit t p) r k = Ok (wrap t (r - k))).
Proof.
  intros t p r k S R. pose proof (std_pos _ S) as B. unfold add_number, sub_number. cbn [urep plain_unit].
  split; [|split].
  - intros K I. rewrite (wrap_id t k) by assumption. now rewrite add_in_range.
  - intros K I. rewrite (wrap_id t k) by assumption. now rewrite sub_in_range.
  - intros H. pose proof (wrap_range t k B) as WK. unfold add_assign, sub_assign. cbn [urep plain_unit].
    pose proof (assign_wraps t r (wrap t k) 1 S H R WK (or_introl eq_refl)) as A1.
    pose proof (assign_wraps t r (wrap t k) (-1) S H R WK (or_intror eq_refl)) as A2.
    rewrite Z.mul_1_l in A1. replace (r + -1 * wrap t k) with (r - wrap t k) in A2 by lia.
    rewrite A1, A2. destruct (wrap_diff t k B) as [j E]. split; f_equal; apply wrap_mod; try exact B; rewrite E; [exists j|exists (- j)]; lia.
Qed.
Print Assumptions C148_numbers.

(* ++u adds one, -u negates; with an unsigned or narrow representation modulo its width. *)
Theorem C148_increment_negate : forall t p r, std_ity t -> in_range t r ->
  (in_range t (r + 1) -> incr (plain_unit t p) r = Ok (r + 1)) /\
  (in_range t (- r) -> neg (plain_unit t p) r = Ok (- r)) /\
  (sgn t = false \/ bits t < 32 ->
     incr (plain_unit t p) r = Ok (wrap t (r + 1)) /\ neg (plain_unit t p) r = Ok (wrap t (- r))).
Proof.
  intros t p r S R. pose proof (std_pos _ S) as B. split; [|split].
  - intros I. exact (add_in_range (plain_unit t p) r 1 S I).
  - intros I. change (neg (plain_unit t p) r) with (sub_assign (plain_unit t p) 0 r).
    change (- r) with (0 - r). now apply sub_in_range.
  - intros H. assert (W1 : in_range t 1) by (clear - S; std8 S; unfold in_range; cbn; lia).
    assert (W0 : in_range t 0) by (clear - S; std8 S; unfold in_range; cbn; lia).
    pose proof (assign_wraps t r 1 1 S H R W1 (or_introl eq_refl)) as A1.
    pose proof (assign_wraps t 0 r (-1) S H W0 R (or_intror eq_refl)) as A2.
    rewrite Z.mul_1_l in A1. replace (0 + -1 * r) with (- r) in A2 by lia. split; assumption.
Qed.
Print Assumptions C148_increment_negate.

(* Provided both values are representable in the type the language compares in:
   comparison with a number compares the count with it. *)
Theorem C148_compare : forall t p r tk k, std_ity t -> std_ity tk -> in_range t r ->
  in_range (usual t tk) r -> in_range (usual t tk) k ->
  eq_number (plain_unit t p) r tk k = Ok (r =? k) /\ gt_number (plain_unit t p) r tk k = Ok (k <? r) /\
  lt_number (plain_unit t p) r tk k = Ok (r <? k).
Proof.
  intros t p r tk k S SK R RU KU. pose proof (std_pos _ S). pose proof (std_pos _ (usual_std _ _ S SK)).
  unfold eq_number, gt_number, lt_number, with_number. rewrite count_pass by (assumption || reflexivity). cbn [bind f_rep plain_unit uf urep].
  now rewrite !wrap_id by assumption.
Qed.
Print Assumptions C148_compare.
(* An unsigned count of at least 32 bits is below every negative int, and equal to some. *)
Theorem C151_negative_refuted : forall t p r n, std_ity t -> sgn t = false -> 32 <= bits t -> 0 < n <= 2 ^ 31 -> 0 <= r < 2 ^ bits t - n ->
  lt_number (plain_unit t p) r I32 (- n) = Ok true /\ eq_number (plain_unit t p) (2 ^ bits t - n) I32 (- n) = Ok true.
Proof.
  intros t p r n S G L N R. pose proof (std_pos _ S) as B. assert (U : usual t I32 = t) by (clear - S G L; std8 S; cbn in *; try lia; try discriminate; reflexivity).
  assert (P32 : 2 ^ 32 <= 2 ^ bits t) by (apply Z.pow_le_mono_r; lia). change (2 ^ 32) with 4294967296 in P32. change (2 ^ 31) with 2147483648 in N.
  assert (I : forall z, 0 <= z < 2 ^ bits t -> in_range t z) by (intros z Z; unfold in_range, imin, imax; rewrite G; lia).
  assert (W : wrap t (- n) = 2 ^ bits t - n).
  { transitivity (wrap t (2 ^ bits t - n)); [apply wrap_mod; [exact B|exists (-1); lia]|apply wrap_id; [exact B|apply I; lia]]. }
  unfold eq_number, lt_number, with_number.
  assert (CP : forall z, 0 <= z < 2 ^ bits t -> count (plain_unit t p) z = Ok z) by (intros z Z; apply count_pass; [reflexivity|exact B|exact (I z Z)]).
  rewrite !CP by lia. cbn [bind f_rep plain_unit uf urep]. rewrite U, W.
  rewrite (wrap_id t r) by (exact B || (apply I; lia)). rewrite (wrap_id t (2 ^ bits t - n)) by (exact B || (apply I; lia)).
  rewrite Z.eqb_refl. split; [|reflexivity]. f_equal. apply Z.ltb_lt. lia.
Qed.
Print Assumptions C151_negative_refuted.

Example C148_case :
  let u := plain_unit U32 (1, 1) in let i := plain_unit I32 (1, 1) in
  add_number i 50 (-60) = Ok (-10) /\ add_number u 50 (-60) = Ok 4294967286 /\ sub_number u 50 (-60) = Ok 110 /\
  gt_number i 5 (Ity 8 true) (-3) = Ok true /\ eq_number u 7 I64 7 = Ok true /\ lt_number i 5 U64 6 = Ok true /\
  incr i (-1) = Ok 0 /\ neg i 7 = Ok (-7) /\ neg u 7 = Ok (2 ^ 32 - 7) /\
  lt_number u 7 I32 (-1) = Ok true /\ eq_number u (2 ^ 32 - 5) I32 (-5) = Ok true /\ in_range (usual I32 (Ity 8 true)) (-3).
Proof. cbv zeta. repeat match goal with |- _ /\ _ => split end; try (vm_compute; reflexivity); split; vm_compute; discriminate. Qed.

(* ---- C149 *)
Definition byte_unit (k : Z) (t : ity) : uty := Uty t (k, 1) Pass.
Definition binary_steps : list Z := [1024; 1048576; 1073741824].
(* kilobytes, megabytes and gigabytes are 1024, 1024^2 and 1024^3 bytes: to bytes the conversion
   multiplies exactly, and back it divides, dropping the rest. *)
Theorem C149_bytes : forall k t1 t2 v, In k binary_steps -> std_ity t1 -> std_ity t2 -> in_range t1 v -> 0 <= v -> int64 v ->
  In (byte_unit k t1) [kilobytes t1; megabytes t1; gigabytes t1] /\
  (int64 (v * k) -> in_range t2 (v * k) -> construct (bytes t2) (byte_unit k t1) v = Some (Ok (v * k))) /\
  (in_range t2 (v / k) -> construct (byte_unit k t2) (bytes t1) v = Some (Ok (v / k))).
Proof.
  intros k t1 t2 v K S1 S2 V V0 I. split; [|].
  { cbn in K. unfold byte_unit, kilobytes, megabytes, gigabytes. cbn [In Z.mul]. destruct K as [<-|[<-|[<-|[]]]]; auto. }
  assert (KB : 1 < k <= 1073741824) by (cbn in K; lia).
  assert (C1 : (k, 1) <> (1, 1)) by (intros E; injection E; lia).
  split.
  - intros IK IR. pose proof (C144_conversion t1 (k, 1) t2 (1, 1) v) as H. unfold byte_unit, bytes, plain_unit in *.
    destruct H as [H _]; try assumption; try (split; cbn; lia); cbn [fst snd]; try (unfold Ratio_Spec.fits; lia).
    + rewrite !Z.mul_1_r, Z.gcd_1_r, Z.div_1_r. exact IK.
    + rewrite H. do 2 f_equal. rewrite (truncated_frac _ (v * k) 1); [|lia|].
      * rewrite Z.quot_1_r. apply wrap_id; [now apply std_pos|exact IR].
      * unfold quantity, seconds_of, value, frac. cbn [fst snd]. rewrite inject_Z_mult. field.
  - intros IR. pose proof (C144_conversion t1 (1, 1) t2 (k, 1) v) as H. unfold byte_unit, bytes, plain_unit in *.
    destruct H as [H _]; try assumption; try (split; cbn; lia); try congruence; cbn [fst snd]; try (unfold Ratio_Spec.fits; lia).
    + rewrite !Z.mul_1_l, Z.gcd_1_l, Z.div_1_r, Z.mul_1_r. exact I.
    + rewrite H. do 2 f_equal. rewrite (truncated_frac _ v k); [|lia|].
      * rewrite Z.quot_div_nonneg by lia. apply wrap_id; [now apply std_pos|exact IR].
      * unfold quantity, seconds_of, value, frac. cbn [fst snd]. field. apply inj_nz; lia.
Qed.
Print Assumptions C149_bytes.

(* A literal of bytes or percent below 4 GiB has the number written; ... *)
Theorem C149_literal : forall v, 0 <= v < 2 ^ 32 -> literal v = v.
Proof. intros v V. unfold literal. apply wrap_id; [cbn; lia|unfold in_range; cbn in *; lia]. Qed.
Print Assumptions C149_literal.
(* ... from 4 GiB on the literal wraps, so no literal is 4 GiB or more. *)
Theorem C151_literal_refuted : forall v, 2 ^ 32 <= v < 2 ^ 64 -> literal v <> v /\ literal v = v mod 2 ^ 32.
Proof.
  intros v V. assert (E : literal v = v mod 2 ^ 32) by reflexivity. split; [|exact E]. rewrite E.
  pose proof (Z.mod_pos_bound v (2 ^ 32)). lia.
Qed.
Print Assumptions C151_literal_refuted.

Example C149_case :
  construct (bytes U32) (megabytes (Ity 8 false)) 3 = Some (Ok 3145728) /\ construct (kilobytes U32) (bytes U32) 5000 = Some (Ok 4) /\
  construct (gigabytes U32) (bytes U64) 5000000000 = Some (Ok 4) /\ literal 5000000000 = 705032704 /\ literal 2048 = 2048.
Proof. repeat split; vm_compute; reflexivity. Qed.

(* ---- C150 *)
(* what a unit looks like: the numeral, a space unless abbreviated, the prefix, the unit's own name *)
Definition unit_text (abbrev : bool) (numeral : list Z) (pre nm : string) : list Z :=
  (numeral ++ (if abbrev then [] else [32]) ++ codes pre ++ codes nm)%list.

(* For a plain unit without prefix or with one of those named, a count other than the lowest of its
   type, and no width: put_unit writes the count, then the SI prefix whose value the period is, then
   the unit's name (or symbol), and changes nothing else of the stream. *)
Theorem C150_put_unit : forall abbrev isb nm tr i b t p pre sym junk v s a,
  p = (1, 1) /\ pre = ""%string /\ sym = ""%string \/
    In (pre, sym, p) si_prefixes /\ pre <> "giga"%string /\ pre <> "pico"%string ->
  std_ity t -> in_range t v -> not_min t v -> flag_base i 10 -> List.length junk = (int_length 8 t + 1)%nat ->
  is_numeral (upper i) 10 v s -> width i = 0 -> 0 <= fill true i <= 127 -> adjusted i a ->
  room b (List.length (unit_text abbrev s (if abbrev then sym else pre) nm)) ->
  put_unit abbrev isb nm tr (Ostr i b) (plain_unit t p) junk v
  = Some (Ok (Ostr (fst (set_width i 0)) (after b (unit_text abbrev s (if abbrev then sym else pre) nm)))).
Proof.
  intros abbrev isb nm tr i b t p pre sym junk v s a HP S V NM FB LJ NU W FL AD RM. unfold unit_text in *.
  assert (SX : exists l, suffix abbrev isb p nm = Some l /\ List.concat l = (codes (if abbrev then sym else pre) ++ codes nm)%list).
  { unfold suffix. destruct HP as [(-> & -> & ->)|(HI & N1 & N2)].
    - cbn [per_eqb fst snd]. exists [codes nm]. split; [reflexivity|]. destruct abbrev; cbn; apply app_nil_r.
    - cbn [In si_prefixes] in HI.
      repeat (destruct HI as [HI|HI]; [injection HI as <- <- <-; (congruence || (cbn; eexists; split; [reflexivity|]; cbn [List.concat]; now rewrite app_nil_r))|]).
      contradiction. }
  destruct SX as (l & SX & LC). unfold put_unit. cbn [uper plain_unit f_rep uf urep]. rewrite SX. cbn [obind]. f_equal.
  rewrite count_pass by (reflexivity || (now apply std_pos) || exact V). cbn [bind].
  rewrite !app_length in RM.
  rewrite (insert_int_ok tr i b t 10 a junk v s); try assumption.
  2:{ unfold Ostream_Spec.representable. intros E. discriminate E. }
  2:{ lia. }
  2:{ rewrite W. cbn [Z.to_nat Nat.max]. eapply room_le; [|exact RM]. lia. }
  cbn [bind]. rewrite W. change (Z.to_nat 0) with 0%nat.
  assert (PD : padded a 0 (fill true i) s = s) by (unfold padded; cbn [Nat.sub repeat]; destruct a; [reflexivity|apply app_nil_r]).
  rewrite PD. set (i' := fst (set_width i 0)) in *.
  assert (RM2 : room (after b s) (List.length (if abbrev then @nil Z else [32]) + List.length (List.concat l))).
  { apply after_room. rewrite LC, app_length. exact RM. }
  destruct abbrev; cbn [bind].
  - rewrite put_all_ok by exact RM2. rewrite LC. rewrite after_app; [reflexivity|]. rewrite app_length. exact RM.
  - assert (WI : width i' = 0) by reflexivity. cbn [List.length] in RM2.
    rewrite insert_char_ok; [|rewrite WI; lia|unfold i'; rewrite fill_width; exact FL|unfold is_char; lia|apply to_int_pos; lia|
      rewrite WI; cbn [Z.to_nat Nat.max]; eapply room_le; [|exact RM2]; lia].
    cbn [bind]. rewrite WI. change (Z.to_nat 0) with 0%nat.
    assert (PS : padded PadBefore 0 (fill true i') [32] = [32]) by reflexivity. rewrite PS.
    rewrite put_all_ok by (apply after_room; exact RM2). rewrite LC.
    rewrite (after_app b s [32]) by (eapply room_le; [|exact RM]; cbn; lia).
    rewrite after_app; [|rewrite !app_length; cbn [List.length]; eapply room_le; [|exact RM]; cbn [List.length]; lia].
    rewrite <- app_assoc. reflexivity.
Qed.
Print Assumptions C150_put_unit.

(* giga and pico (and any other prefix the library does not name) do not compile, except for
   gigabytes, which is 1024^3 bytes. *)
Theorem C152_giga_refuted : forall abbrev isb nm tr s t junk v,
  put_unit abbrev isb nm tr s (plain_unit t (1000000000, 1)) junk v = None /\
  put_unit abbrev isb nm tr s (plain_unit t (1, 1000000000000)) junk v = None.
Proof. intros. split; destruct isb; reflexivity. Qed.
Print Assumptions C152_giga_refuted.
(* The text of a number of bytes does not tell its value: thousands and 1024s look the same. *)
Theorem C152_kilobytes_refuted : forall abbrev tr s t junk v, 0 < v ->
  put_unit abbrev true "bytes" tr s (plain_unit t (1000, 1)) junk v = put_unit abbrev true "bytes" tr s (kilobytes t) junk v /\
  ~ (quantity v (1000, 1)%Z == quantity v (1024, 1)%Z)%Q.
Proof.
  intros abbrev tr s t junk v V. split; [reflexivity|]. unfold quantity. rewrite seconds_eq by (split; cbn; lia). cbn [fst snd]. lia.
Qed.
Print Assumptions C152_kilobytes_refuted.

(* "-40 millihertz", "4kB" *)
Example C150_case :
  let b := osb_init (repeat 0 20) in
  put_unit false false "hertz" StdTraits (Ostr ios_init b) (plain_unit (Ity 16 true) (1, 1000)) (repeat 7 7) (-40)
  = Some (Ok (Ostr (fst (set_width ios_init 0)) (after b (codes "-40 millihertz")))) /\
  put_unit true true "B" StdTraits (Ostr ios_init b) (kilobytes U32) (repeat 7 13) 4
  = Some (Ok (Ostr (fst (set_width ios_init 0)) (after b (codes "4kB")))) /\
  In ("milli"%string, "m"%string, (1, 1000)) si_prefixes /\ flag_base ios_init 10 /\ width ios_init = 0 /\ adjusted ios_init PadBefore /\
  unit_text false [45; 52; 48] "milli" "hertz" = codes "-40 millihertz".
Proof.
  cbv zeta. repeat match goal with |- _ /\ _ => split end; try (vm_compute; reflexivity).
  - cbn. tauto.
  - left. split; reflexivity.
Qed.

(* C151's hypotheses: see the cases of C144, C146, C147, C148 and C149; here the narrowed ticks:
   11000 halves against 0 thirds, in 16 bits: the 33000 sixths come out negative *)
Example C151_case :
  let a := Uty (Ity 16 true) (1, 2) Pass in let b := Uty (Ity 16 true) (1, 3) Pass in let c := Dty (Ity 16 true) (1, 6) in
  Properties_Chrono.combine (dty_of a) (dty_of b) c 11000 0 /\ ticks (dty_of a) (dty_of b) c 11000 0 33000 0 /\ int64 33000 /\ per c <> uper a /\ per c <> uper b /\ ult a b 11000 0 = Some (Ok true).
Proof.
  cbv zeta. unfold Properties_Chrono.combine, ticks.
  repeat match goal with |- _ /\ _ => split end; cbn [rep per fst snd dty_of urep uper bits sgn];
    try (vm_compute; reflexivity); try (vm_compute; discriminate); try (split; vm_compute; (reflexivity || discriminate));
    try match goal with |- std_ity _ => unfold std_ity; cbn; lia end.
  all: try (repeat split; vm_compute; (reflexivity || discriminate)).
Qed.
Example C152_case :
  let b := osb_init (repeat 0 20) in
  put_unit true true "B" StdTraits (Ostr ios_init b) (plain_unit U32 (1000, 1)) (repeat 7 13) 4
  = put_unit true true "B" StdTraits (Ostr ios_init b) (kilobytes U32) (repeat 7 13) 4 /\
  put_unit true true "B" StdTraits (Ostr ios_init b) (kilobytes U32) (repeat 7 13) 4 <> None /\
  In ("giga"%string, "G"%string, (1000000000, 1)) si_prefixes.
Proof. cbv zeta. split; [reflexivity|]. split; [vm_compute; discriminate|]. cbn. tauto. Qed.
