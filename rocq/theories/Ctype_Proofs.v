(* Proofs for Properties_Ctype. *)
From Coq Require Import ZArith Lia List Bool.
From Verif Require Import Ctype_Spec Charconv_Model Ctype_Model.
Import ListNotations.
Local Open Scope Z_scope.

(* membership in a spelled out class is decided by a search *)
Definition mem (c : Z) (l : list Z) : bool := existsb (Z.eqb c) l.
Lemma mem_In c l : mem c l = true <-> In c l.
Proof.
  unfold mem. rewrite existsb_exists. split.
  - intros (x & H & E). apply Z.eqb_eq in E. now subst.
  - intros H. exists c. split; [exact H|apply Z.eqb_refl].
Qed.

(* a finite sweep over -256..255 and a bound outside *)
Definition range : list Z := map (fun n => Z.of_nat n - 256) (seq 0 512).
Lemma range_all (P : Z -> bool) : forallb P range = true ->
  forall c, -256 <= c < 256 -> P c = true.
Proof.
  intros H c Hc. rewrite forallb_forall in H. apply H. unfold range. apply in_map_iff.
  exists (Z.to_nat (c + 256)). split; [lia|]. apply in_seq. lia.
Qed.
Lemma range_iff (f g : Z -> bool) :
  forallb (fun c => Bool.eqb (f c) (g c)) range = true ->
  (forall c, ~ (-256 <= c < 256) -> f c = false /\ g c = false) ->
  forall c, f c = g c.
Proof.
  intros H O c. destruct (Z_lt_dec c (-256)) as [L|L]; [destruct (O c) as [-> ->]; [lia|reflexivity]|].
  destruct (Z_lt_dec c 256) as [U|U]; [|destruct (O c) as [-> ->]; [lia|reflexivity]].
  apply Bool.eqb_prop. exact (range_all _ H c ltac:(lia)).
Qed.
Lemma mem_out c l : forallb (fun x => (0 <=? x) && (x <? 256)) l = true -> ~ (-256 <= c < 256) -> mem c l = false.
Proof.
  intros H O. unfold mem. induction l as [|a t IH]; [reflexivity|]. cbn in *.
  apply andb_prop in H as [H1 H2]. rewrite IH by assumption.
  destruct (Z.eqb_spec c a); [|reflexivity]. subst. lia.
Qed.

Ltac cls f l :=
  let H := fresh in
  assert (H : forall c, f c = mem c l);
  [apply range_iff; [vm_compute; reflexivity|intros c O; split; [|apply mem_out; [reflexivity|exact O]]]
  |intros c; rewrite H; apply mem_In].

Lemma c_isupper_ok : forall c, c_isupper c = true <-> In c uppers.
Proof. cls c_isupper uppers. unfold c_isupper. lia. Qed.
Lemma c_islower_ok : forall c, c_islower c = true <-> In c lowers.
Proof. cls c_islower lowers. unfold c_islower. lia. Qed.
Lemma c_isdigit_ok : forall c, c_isdigit c = true <-> In c digits.
Proof. cls c_isdigit digits. unfold c_isdigit. lia. Qed.
Lemma c_isalpha_ok : forall c, c_isalpha c = true <-> In c (uppers ++ lowers).
Proof. cls c_isalpha (uppers ++ lowers). unfold c_isalpha, c_isupper, c_islower. lia. Qed.
Lemma l_isspace_ok : forall c, l_isspace c = true <-> In c spaces.
Proof. cls l_isspace spaces. unfold l_isspace. lia. Qed.
Lemma in36_ok : forall c, is_in_base_36 c 16 = true <-> In c xdigits.
Proof.
  cls (fun c => is_in_base_36 c 16) xdigits.
  unfold is_in_base_36, ascii_isdigit, isupper, islower. lia.
Qed.
Lemma in10_ok : forall c, is_in_base_10 c 10 = true <-> In c digits.
Proof. cls (fun c => is_in_base_10 c 10) digits. unfold is_in_base_10. lia. Qed.
Lemma digits_sub c : In c digits -> In c xdigits.
Proof. unfold digits, xdigits. cbn. tauto. Qed.

Lemma has_land m k : has m k = true <-> Z.land m (bit k) <> 0.
Proof. unfold has. destruct (Z.eqb_spec (Z.land m (bit k)) 0); split; intros; try discriminate; try contradiction; auto. Qed.
Lemma has_not m k : Z.land m (bit k) = 0 -> has m k = false.
Proof. unfold has. now intros ->. Qed.
Lemma pieces m ch : is m ch = true <->
  (has m Space = true /\ In ch spaces) \/
  ((has m Xdigit = true /\ In ch xdigits) \/ (has m Xdigit = false /\ has m Digit = true /\ In ch digits)) \/
  ((has m Upper = true /\ In ch uppers) \/ (has m Upper = false /\ has m Lower = true /\ ch = 97)).
Proof.
  unfold is. rewrite !orb_true_iff, andb_true_iff, l_isspace_ok.
  assert (E1 : (if has m Xdigit then is_in_base_36 ch 16 else has m Digit && is_in_base_10 ch 10) = true <->
    (has m Xdigit = true /\ In ch xdigits) \/ (has m Xdigit = false /\ has m Digit = true /\ In ch digits)).
  { destruct (has m Xdigit); rewrite ?in36_ok, ?andb_true_iff, ?in10_ok; intuition discriminate. }
  assert (E2 : (if has m Upper then l_isupper ch else has m Lower && l_islower ch) = true <->
    (has m Upper = true /\ In ch uppers) \/ (has m Upper = false /\ has m Lower = true /\ ch = 97)).
  { assert (L : l_islower ch = true <-> ch = 97) by (unfold l_islower; lia).
    change (l_isupper ch) with (c_isupper ch).
    destruct (has m Upper); rewrite ?c_isupper_ok, ?andb_true_iff, ?L; intuition discriminate. }
  rewrite E1, E2. tauto.
Qed.

(* digits *)
Lemma nth_range (l : list Z) v : (0 <= v)%Z -> nth_error l (Z.to_nat v) <> None -> v < Z.of_nat (length l).
Proof. intros H N. apply nth_error_Some in N. lia. Qed.
Lemma digit_of_bound c v : digit_of c v -> 0 <= v < 36.
Proof.
  intros (H & [E|E]); (split; [exact H|]).
  - change 36 with (Z.of_nat (length digits_lower)). apply nth_range; [exact H|congruence].
  - change 36 with (Z.of_nat (length digits_upper)). apply nth_range; [exact H|congruence].
Qed.
Definition pairs : list (Z * Z) := flat_map (fun v => [(nth (Z.to_nat v) digits_lower 0, v); (nth (Z.to_nat v) digits_upper 0, v)])
  (map Z.of_nat (seq 0 36)).
Lemma digit_of_pairs c v : digit_of c v -> In (c, v) pairs.
Proof.
  intros D. pose proof (digit_of_bound _ _ D) as B. destruct D as (_ & D). unfold pairs. apply in_flat_map.
  exists v. split; [apply in_map_iff; exists (Z.to_nat v); split; [lia|apply in_seq; lia]|].
  destruct D as [D|D]; apply nth_error_nth with (d := 0) in D; rewrite <- D; cbn [In]; auto.
Qed.
Lemma pairs_digit_of c v : In (c, v) pairs -> digit_of c v.
Proof.
  unfold pairs. intros H. apply in_flat_map in H as (x & Hx & H). apply in_map_iff in Hx as (n & <- & Hn).
  apply in_seq in Hn. cbn [In] in H. rewrite Nat2Z.id in H. split; [destruct H as [H|[H|[]]]; injection H as _ <-; lia|].
  destruct H as [H|[H|[]]]; apply pair_equal_spec in H as [<- <-]; rewrite Nat2Z.id; [left|right]; apply nth_error_nth'; change (length digits_lower) with 36%nat; change (length digits_upper) with 36%nat; lia.
Qed.
(* all bases and all characters of 8 bits *)
Definition bases : list Z := map (fun n => Z.of_nat n + 2) (seq 0 35).
Lemma bases_in b : 2 <= b <= 36 -> In b bases.
Proof. intros. unfold bases. apply in_map_iff. exists (Z.to_nat (b - 2)). split; [lia|apply in_seq; lia]. Qed.
Definition oeqb (a b : option Z) : bool :=
  match a, b with Some x, Some y => x =? y | None, None => true | _, _ => false end.
Lemma oeqb_eq a b : oeqb a b = true -> a = b.
Proof. destruct a, b; cbn; try discriminate; auto. intros H. apply Z.eqb_eq in H. now subst. Qed.
Definition value_in (base c : Z) : option Z :=
  option_map snd (find (fun p => (fst p =? c) && (snd p <? base)) pairs).
Lemma from_char_sweep : forallb (fun b => forallb (fun c => oeqb (from_char b c) (value_in b c)) range) bases = true.
Proof. vm_compute. reflexivity. Qed.
Lemma from_char_value base c : 2 <= base <= 36 -> -256 <= c < 256 -> from_char base c = value_in base c.
Proof.
  intros Hb Hc. pose proof from_char_sweep as S1. rewrite forallb_forall in S1.
  specialize (S1 base (bases_in _ Hb)). apply oeqb_eq. exact (range_all _ S1 c Hc).
Qed.
Lemma from_char_spec base c v : 2 <= base <= 36 -> -256 <= c < 256 ->
  (from_char base c = Some v <-> digit_of c v /\ v < base).
Proof.
  intros Hb Hc. rewrite from_char_value by assumption. unfold value_in. split.
  - destruct (find _ pairs) as [[x y]|] eqn:E; [|discriminate]. cbn. intros Q. injection Q as <-.
    apply find_some in E as [I E]. cbn in E. apply andb_prop in E as [E1 E2]. apply Z.eqb_eq in E1. subst x.
    split; [now apply pairs_digit_of|lia].
  - intros [D L]. pose proof (digit_of_pairs _ _ D) as I.
    destruct (find _ pairs) as [[x y]|] eqn:E.
    + cbn. apply find_some in E as [I2 E]. cbn in E. apply andb_prop in E as [E1 _]. apply Z.eqb_eq in E1. subst x.
      f_equal. 
      assert (U : forallb (fun p => forallb (fun q => negb (fst p =? fst q) || (snd p =? snd q)) pairs) pairs = true)
        by (vm_compute; reflexivity).
      rewrite forallb_forall in U. specialize (U _ I2). cbn beta in U. rewrite forallb_forall in U. specialize (U _ I).
      cbn in U. rewrite Z.eqb_refl in U. cbn in U. now apply Z.eqb_eq in U.
    + pose proof (find_none _ _ E _ I) as Q. cbn in Q. rewrite Z.eqb_refl in Q. cbn in Q. lia.
Qed.
Lemma to_char_sweep : forallb (fun b => forallb (fun n => let v := Z.of_nat n in
    (b <=? v) ||
    ((to_char b false v =? nth n digits_lower 0) && (to_char b true v =? nth n digits_upper 0) &&
     (from_char_raw b (to_char b false v) =? v) && (from_char_raw b (to_char b true v) =? v))) (seq 0 36)) bases = true.
Proof. vm_compute. reflexivity. Qed.
Lemma to_char_spec base v : 2 <= base <= 36 -> 0 <= v < base ->
  nth_error digits_lower (Z.to_nat v) = Some (to_char base false v) /\
  nth_error digits_upper (Z.to_nat v) = Some (to_char base true v) /\
  from_char_raw base (to_char base false v) = v /\ from_char_raw base (to_char base true v) = v.
Proof.
  intros Hb Hv. pose proof to_char_sweep as S1. rewrite forallb_forall in S1.
  specialize (S1 base (bases_in _ Hb)). cbn beta in S1. rewrite forallb_forall in S1.
  specialize (S1 (Z.to_nat v)). cbn beta zeta in S1. rewrite Z2Nat.id in S1 by lia.
  destruct (Z.leb_spec base v); [lia|]. cbn [orb] in S1.
  assert (I : In (Z.to_nat v) (seq 0 36)) by (apply in_seq; lia). specialize (S1 I).
  rewrite !andb_true_iff, !Z.eqb_eq in S1. destruct S1 as (((E1 & E2) & E3) & E4).
  split; [|split; [|split]].
  - rewrite E1. apply nth_error_nth'. change (length digits_lower) with 36%nat. lia.
  - rewrite E2. apply nth_error_nth'. change (length digits_upper) with 36%nat. lia.
  - exact E3.
  - exact E4.
Qed.
