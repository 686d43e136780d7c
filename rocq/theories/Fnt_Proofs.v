From Coq Require Import List Bool Arith ZArith Lia Permutation.
From Verif Require Import Base Tt_Lang Tt_Spec Tt_Model Tt_Proofs Fnt_Lang Fnt_Spec Fnt_Model.
Import ListNotations.
Local Open Scope Z_scope.

Lemma base_eqb_eq a b : base_eqb a b = true <-> a = b.
Proof. destruct a, b; cbn; split; intros; try reflexivity; discriminate. Qed.

(* ---- common_type ---- *)

Lemma decay_is_a b t : is_a b t -> decay t = Some (TBase false false b).
Proof. intros (A & c & v & [-> |[-> | ->]]); destruct b; try discriminate A; destruct c, v; reflexivity. Qed.
Lemma decay_base b : arithmetic_base b = true -> decay (TBase false false b) = Some (TBase false false b).
Proof. intros A. apply decay_is_a. split; auto. exists false, false. auto. Qed.
Lemma decay_rref b : arithmetic_base b = true -> decay (TRRef (TBase false false b)) = Some (TBase false false b).
Proof. intros A. apply decay_is_a. split; auto. exists false, false. auto. Qed.
Lemma is_arith_base b : is_arithmetic (TBase false false b) = arithmetic_base b.
Proof. destruct b; reflexivity. Qed.

Definition promoted (b : base) : bool := match b with Int | UInt | Long | ULong | LLong | ULLong | Float | Double | LDouble => true | _ => false end.
Definition join (p : plat) (a b : base) : base := if base_eqb a b then a else usual_arithmetic p a b.

Lemma pow_mono a b : 0 <= a <= b -> 2 ^ a <= 2 ^ b.
Proof. intros. apply Z.pow_le_mono_r; lia. Qed.
Lemma pow_half a : 1 <= a -> 2 ^ a = 2 * 2 ^ (a - 1).
Proof. intros. rewrite <- Z.pow_succ_r by lia. f_equal. lia. Qed.

Section P.
Context (p : plat) (G : good_plat p).

Lemma sizes : (1 <= sz_short p /\ sz_short p <= sz_int p /\ sz_int p <= sz_long p /\ sz_long p <= sz_llong p)%nat.
Proof. destruct G as (? & ? & ? & ? & _). auto. Qed.
Lemma size_llong b : std_integral b = true -> (1 <= sizeof_base p b <= sz_llong p)%nat.
Proof.
  intros I. destruct G as (H1 & H2 & H3 & H4 & (w & W & Ew) & (w16 & W16 & E16) & (w32 & W32 & E32) & _).
  assert (S : forall s, standard_signed s -> (1 <= sizeof_base p s <= sz_llong p)%nat).
  { intros s [<-|[<-|[<-|[<-|[<-|[]]]]]]; cbn; lia. }
  apply S in W, W16, W32. rewrite Ew in W. rewrite E16 in W16. rewrite E32 in W32.
  destruct b; try discriminate I; cbn; lia.
Qed.

Lemma hi_le_ull b : std_integral b = true -> lo p b <= 0 /\ hi p b <= hi p ULLong /\ - hi p b - 1 <= lo p b /\ 0 <= hi p b /\
  (lo p b < 0 -> lo p b = - hi p b - 1 /\ hi p b <= hi p LLong) /\ (base_signed p b = true <-> lo p b < 0).
Proof.
  intros I. pose proof (size_llong b I) as S. unfold lo, hi, bits. cbn [base_signed sizeof_base].
  set (n := Z.of_nat (sizeof_base p b)). set (m := Z.of_nat (sz_llong p)). assert (1 <= n <= m) by lia.
  pose proof (pow_mono (8 * n - 1) (8 * m - 1)). pose proof (pow_mono (8 * n) (8 * m)).
  pose proof (pow_half (8 * n)). pose proof (pow_half (8 * m)). pose proof (Z.pow_pos_nonneg 2 (8 * n - 1)).
  pose proof (pow_mono 1 (8 * n)).
  destruct (base_signed p b) eqn:E; destruct b; try discriminate I; cbn in E; try discriminate E; repeat split; try lia.
Qed.

Lemma find_some_first {A} (f : A -> bool) l x : find f l = Some x -> In x l /\ f x = true.
Proof. apply find_some. Qed.
Lemma promote_promoted b : arithmetic_base b = true -> promoted (promote p b) = true.
Proof.
  intros A. unfold promote.
  destruct b; try discriminate A; try reflexivity.
  all: match goal with |- context[find ?f ?l] => destruct (find f l) as [x|] eqn:F end;
    [apply find_some in F as (I & _); cbn in I; intuition subst; reflexivity|].
  all: exfalso; match type of F with find (holds p ?b) _ = None =>
    pose proof (hi_le_ull b eq_refl) as (L0 & H0 & L1 & _ & L2 & _);
    pose proof (find_none _ _ F LLong ltac:(cbn; tauto)) as NL; pose proof (find_none _ _ F ULLong ltac:(cbn; tauto)) as NU end;
    unfold holds in NL, NU; apply andb_false_iff in NL, NU; rewrite !Z.leb_gt in NL, NU;
    pose proof (hi_le_ull LLong eq_refl) as (_ & _ & _ & _ & LL & LS); specialize (LL ltac:(apply LS; reflexivity));
    assert (lo p ULLong = 0) by reflexivity; lia.
Qed.
Lemma hi_promote b : std_integral b = true -> hi p b <= hi p (promote p b) /\ std_integral (promote p b) = true.
Proof.
  intros I. unfold promote.
  destruct b; try discriminate I; try (split; [lia|reflexivity]).
  all: match goal with |- context[find ?f ?l] => destruct (find f l) as [x|] eqn:F end; [|split; [lia|reflexivity]];
    apply find_some in F as (J & H); unfold holds in H; apply andb_prop in H as (_ & H); rewrite Z.leb_le in H;
    split; [exact H|cbn in J; intuition subst; reflexivity].
Qed.

(* balance looks at the platform three times *)
Definition il := Nat.ltb (sz_int p) (sz_long p).
Definition ll := Nat.ltb (sz_long p) (sz_llong p).
Definition ill := Nat.ltb (sz_int p) (sz_llong p).
Definition bal (x y z : bool) (a b : base) : base :=
  match a, b with
  | UInt, Long | Long, UInt => if x then Long else ULong
  | UInt, LLong | LLong, UInt => if z then LLong else ULLong
  | ULong, LLong | LLong, ULong => if y then LLong else ULLong
  | _, _ => if Nat.ltb (rank_of a) (rank_of b) then b else if Nat.ltb (rank_of b) (rank_of a) then a
            else if is_signed_int a then b else a
  end.
Lemma balance_bal a b : promoted a = true -> promoted b = true -> balance p a b = bal il ll ill a b.
Proof. unfold il, ll, ill. destruct a; try discriminate; destruct b; try discriminate; intros _ _; reflexivity. Qed.
Definition all_promoted := [Int; UInt; Long; ULong; LLong; ULLong; Float; Double; LDouble].
Lemma in_promoted b : promoted b = true -> In b all_promoted.
Proof. destruct b; try discriminate; cbn; tauto. Qed.
Lemma booleans : (il = true -> ill = true) /\ (ll = true -> ill = true) /\ (ill = true -> il = true \/ ll = true).
Proof. unfold il, ll, ill. pose proof sizes. rewrite !Nat.ltb_lt. lia. Qed.
Lemma bal_laws a b c : promoted a = true -> promoted b = true -> promoted c = true ->
  let f := bal il ll ill in
  promoted (f a b) = true /\ f a a = a /\ f a b = f b a /\ f (f a b) c = f a (f b c).
Proof.
  intros A B C f. subst f. apply in_promoted in A, B, C. destruct booleans as (K1 & K2 & K3).
  assert (T : forallb (fun a => forallb (fun b => forallb (fun c =>
      forallb (fun xyz => let '(x, y, z) := xyz in let f := bal x y z in
        promoted (f a b) && base_eqb (f a a) a && base_eqb (f a b) (f b a) && base_eqb (f (f a b) c) (f a (f b c)))
      [(false, false, false); (true, false, true); (false, true, true); (true, true, true)]) all_promoted) all_promoted) all_promoted = true)
    by (vm_compute; reflexivity).
  rewrite forallb_forall in T. specialize (T a A). rewrite forallb_forall in T. specialize (T b B).
  rewrite forallb_forall in T. specialize (T c C). rewrite forallb_forall in T.
  assert (I : In (il, ll, ill) [(false, false, false); (true, false, true); (false, true, true); (true, true, true)]).
  { destruct il, ll, ill; cbn; try tauto; exfalso; intuition discriminate. }
  specialize (T _ I). cbn beta iota zeta in T. rewrite !andb_true_iff, !base_eqb_eq in T. tauto.
Qed.

Lemma promote_id b : promoted b = true -> promote p b = b.
Proof. destruct b; try discriminate; reflexivity. Qed.
Lemma promoted_arith b : promoted b = true -> arithmetic_base b = true.
Proof. destruct b; try discriminate; reflexivity. Qed.
Lemma usual_bal a b : arithmetic_base a = true -> arithmetic_base b = true ->
  usual_arithmetic p a b = bal il ll ill (promote p a) (promote p b).
Proof. intros A B. unfold usual_arithmetic. apply balance_bal; now apply promote_promoted. Qed.

Lemma join_arith a b : arithmetic_base a = true -> arithmetic_base b = true -> arithmetic_base (join p a b) = true.
Proof.
  intros A B. unfold join. destruct (base_eqb a b); auto. rewrite usual_bal by auto. apply promoted_arith.
  apply (bal_laws _ _ Int (promote_promoted a A) (promote_promoted b B) eq_refl).
Qed.
Lemma join_comm a b : arithmetic_base a = true -> arithmetic_base b = true -> join p a b = join p b a.
Proof.
  intros A B. unfold join. destruct (base_eqb a b) eqn:E.
  - apply base_eqb_eq in E. subst b. now rewrite (proj2 (base_eqb_eq a a) eq_refl).
  - destruct (base_eqb b a) eqn:F; [apply base_eqb_eq in F; subst b; rewrite (proj2 (base_eqb_eq a a) eq_refl) in E; discriminate|].
    rewrite !usual_bal by auto. apply (bal_laws (promote p a) (promote p b) Int); try (now apply promote_promoted). reflexivity.
Qed.
Lemma join_idem a : join p a a = a.
Proof. unfold join. now rewrite (proj2 (base_eqb_eq a a) eq_refl). Qed.
(* joining with a promoted type *)
Lemma join_promoted a b : arithmetic_base a = true -> promoted b = true -> join p a b = bal il ll ill (promote p a) b.
Proof.
  intros A B. unfold join. destruct (base_eqb a b) eqn:E.
  - apply base_eqb_eq in E. subst b. rewrite (promote_id a B). symmetry. now apply (bal_laws a a a).
  - rewrite usual_bal by auto using promoted_arith. now rewrite (promote_id b B).
Qed.
Notation B := (bal il ll ill).
Lemma B_prom a b : promoted a = true -> promoted b = true -> promoted (B a b) = true.
Proof. intros. now apply (bal_laws a b a). Qed.
Lemma B_idem a : promoted a = true -> B a a = a.
Proof. intros. now apply (bal_laws a a a). Qed.
Lemma B_comm a b : promoted a = true -> promoted b = true -> B a b = B b a.
Proof. intros. now apply (bal_laws a b a). Qed.
Lemma B_assoc a b c : promoted a = true -> promoted b = true -> promoted c = true -> B (B a b) c = B a (B b c).
Proof. intros. now apply (bal_laws a b c). Qed.
Lemma join_assoc a b c : arithmetic_base a = true -> arithmetic_base b = true -> arithmetic_base c = true ->
  join p (join p a b) c = join p a (join p b c).
Proof.
  intros A B0 C.
  pose proof (promote_promoted a A) as PA. pose proof (promote_promoted b B0) as PB. pose proof (promote_promoted c C) as PC.
  pose proof (B_prom _ _ PA PB) as PAB. pose proof (B_prom _ _ PB PC) as PBC. pose proof (B_prom _ _ PA PC) as PAC.
  assert (J : forall x y, base_eqb x y = false -> arithmetic_base x = true -> arithmetic_base y = true ->
                join p x y = B (promote p x) (promote p y)).
  { intros x y E X Y. unfold join. rewrite E. now apply usual_bal. }
  destruct (base_eqb a b) eqn:E; [apply base_eqb_eq in E; subst b; rewrite join_idem|].
  - destruct (base_eqb a c) eqn:E2; [apply base_eqb_eq in E2; subst c; now rewrite !join_idem|].
    rewrite (J a c E2 A C). rewrite (join_promoted a _ A PAC). now rewrite <- B_assoc, B_idem.
  - rewrite (J a b E A B0). rewrite (join_comm _ c) by auto using promoted_arith. rewrite (join_promoted c _ C PAB).
    destruct (base_eqb b c) eqn:E2; [apply base_eqb_eq in E2; subst c; rewrite join_idem, (J a b E A B0)|].
    + rewrite (B_comm (promote p a) (promote p b)) by auto. now rewrite <- B_assoc, B_idem.
    + rewrite (J b c E2 B0 C), (join_promoted a _ A PBC), <- (B_assoc (promote p a)) by auto. now apply B_comm.
Qed.

(* the common type has room upwards *)
Lemma hi_not_bool b : b <> Bool -> hi p b = if base_signed p b then 2 ^ (bits p b - 1) - 1 else 2 ^ bits p b - 1.
Proof. destruct b; intros H; try reflexivity. congruence. Qed.
Lemma hi_size a b : std_integral a = true -> a <> Bool -> b <> Bool -> (sizeof_base p a <= sizeof_base p b)%nat ->
  base_signed p a = true \/ base_signed p b = false \/ (sizeof_base p a < sizeof_base p b)%nat -> hi p a <= hi p b.
Proof.
  intros IA NA NB L H. pose proof (size_llong a IA) as SA. rewrite !hi_not_bool by auto. unfold bits.
  set (n := Z.of_nat (sizeof_base p a)). set (m := Z.of_nat (sizeof_base p b)). assert (1 <= n <= m) by lia.
  pose proof (pow_mono (8 * n - 1) (8 * m - 1) ltac:(lia)). pose proof (pow_mono (8 * n) (8 * m) ltac:(lia)).
  pose proof (pow_half (8 * n) ltac:(lia)). pose proof (pow_half (8 * m) ltac:(lia)).
  pose proof (Z.pow_pos_nonneg 2 (8 * n - 1) ltac:(lia) ltac:(lia)).
  destruct (base_signed p a) eqn:Sa; destruct (base_signed p b) eqn:Sb; try lia.
  destruct H as [H|[H|H]]; try discriminate. pose proof (pow_mono (8 * n) (8 * m - 1) ltac:(lia)). lia.
Qed.
Definition prom_int (b : base) : bool := match b with Int | UInt | Long | ULong | LLong | ULLong => true | _ => false end.
Lemma balance_up a b : prom_int a = true -> prom_int b = true ->
  prom_int (balance p a b) = true /\ hi p a <= hi p (balance p a b) /\ hi p b <= hi p (balance p a b).
Proof.
  intros A B1. pose proof sizes as S.
  rewrite balance_bal by (solve [destruct a; try discriminate A; reflexivity|destruct b; try discriminate B1; reflexivity]).
  destruct il eqn:E1, ll eqn:E2, ill eqn:E3; unfold il, ll, ill in *; rewrite ?Nat.ltb_lt, ?Nat.ltb_ge in *;
  destruct a; try discriminate A; destruct b; try discriminate B1; cbn [bal rank_of is_signed_int Nat.ltb Nat.leb];
    (split; [reflexivity|]); split; try lia;
    (apply hi_size; cbn [sizeof_base]; [reflexivity|congruence|congruence|lia|first [now left|now right; left|right; right; lia]]).
Qed.
Lemma promote_int b : std_integral b = true -> prom_int (promote p b) = true.
Proof.
  intros I. destruct (hi_promote b I) as (_ & J). pose proof (promote_promoted b ltac:(unfold arithmetic_base; now rewrite I)) as P.
  destruct (promote p b); try discriminate P; try discriminate J; reflexivity.
Qed.
Lemma join_up a b : std_integral a = true -> std_integral b = true ->
  std_integral (join p a b) = true /\ hi p a <= hi p (join p a b) /\ hi p b <= hi p (join p a b).
Proof.
  intros A B. unfold join. destruct (base_eqb a b) eqn:E; [apply base_eqb_eq in E; subst b; repeat split; auto; lia|].
  unfold usual_arithmetic. destruct (balance_up _ _ (promote_int a A) (promote_int b B)) as (I & HA & HB).
  pose proof (hi_promote a A). pose proof (hi_promote b B).
  split; [destruct (balance p _ _); try discriminate I; reflexivity|]. lia.
Qed.
Lemma fits_iff a b : std_integral a = true -> std_integral b = true -> hi p a <= hi p b ->
  (fits p a b <-> (lo p a < 0 -> lo p b < 0)).
Proof.
  intros A B H. destruct (hi_le_ull a A) as (A0 & _ & A1 & A2 & A3 & _). destruct (hi_le_ull b B) as (B0 & _ & B1 & B2 & B3 & _).
  unfold fits. split.
  - intros F L. specialize (F (lo p a) ltac:(lia)). lia.
  - intros F x X. split; [|lia]. destruct (Z.eq_dec (lo p b) 0) as [E|E]; [|specialize (B3 ltac:(lia)); lia].
    destruct (Z_lt_le_dec (lo p a) 0) as [L|L]; [specialize (F L); lia|lia].
Qed.
End P.

(* ---- the fold ---- *)

Lemma cond_arith p other a b : arithmetic_base a = true -> arithmetic_base b = true -> good_plat p ->
  common_type_2_default p other (TBase false false a) (TBase false false b) = Some (TBase false false (join p a b)).
Proof.
  intros A B G. unfold common_type_2_default, cond_t. cbn [ty_eqb]. cbn [eqb andb]. unfold join.
  destruct (base_eqb a b) eqn:E.
  - assert (M : mk_rref (TBase false false a) = Some (TRRef (TBase false false a))) by (destruct a; try discriminate A; reflexivity).
    rewrite M. now apply decay_rref.
  - rewrite !is_arith_base, A, B. cbn [andb]. apply decay_base.
    pose proof (join_arith p G a b A B) as J. unfold join in J. now rewrite E in J.
Qed.
Lemma common_2 p other a b t u : good_plat p -> is_a a t -> is_a b u ->
  common_type_2 p other t u = Some (TBase false false (join p a b)).
Proof.
  intros G Ta Ub. pose proof (proj1 Ta) as A. pose proof (proj1 Ub) as B. unfold common_type_2.
  rewrite (decay_is_a a t Ta), (decay_is_a b u Ub), (decay_base a A), (decay_base b B).
  rewrite !(proj2 (ty_eqb_eq _ _) eq_refl). cbn [andb]. rewrite cond_arith by auto. destruct (_ && _); reflexivity.
Qed.
Lemma is_a_base b : arithmetic_base b = true -> is_a b (TBase false false b).
Proof. intros A. split; auto. exists false, false. auto. Qed.
Lemma common_from_ok p other (G : good_plat p) : forall bs l b t, Forall2 is_a bs l -> is_a b t -> bs <> [] ->
  common_from p other t l = Some (TBase false false (fold_left (join p) bs b)).
Proof.
  intros bs l b t F. revert b t. induction F as [|b' t' bs l I F IH]; intros b t T N; [congruence|].
  cbn. rewrite (common_2 p other b b' t t' G T I). destruct F as [|b2 t2 bs l I2 F]; [reflexivity|].
  apply IH; [|congruence]. apply is_a_base. apply join_arith; [exact G|apply T|apply I].
Qed.
Definition meet_all (p : plat) (bs : list base) : option base :=
  match bs with [] => None | b :: r => Some (fold_left (join p) r b) end.
Lemma common_ok p other bs l : good_plat p -> Forall2 is_a bs l ->
  common_type p other l = option_map (TBase false false) (meet_all p bs).
Proof.
  intros G F. destruct F as [|b t bs l I F]; [reflexivity|]. destruct F as [|b2 t2 bs l I2 F].
  - cbn. now apply decay_is_a.
  - unfold common_type, meet_all. cbn [option_map]. apply common_from_ok; auto. congruence.
Qed.
Lemma fold_arith p (G : good_plat p) : forall bs b, arithmetic_base b = true -> Forall (fun x => arithmetic_base x = true) bs ->
  arithmetic_base (fold_left (join p) bs b) = true.
Proof. induction bs; cbn; intros b B F; auto. inversion F; subst. apply IHbs; auto. now apply join_arith. Qed.
Lemma fold_swap p (G : good_plat p) : forall bs b c, arithmetic_base b = true -> arithmetic_base c = true ->
  Forall (fun x => arithmetic_base x = true) bs -> fold_left (join p) bs (join p b c) = join p b (fold_left (join p) bs c).
Proof.
  induction bs as [|x bs IH]; intros b c B C F; [reflexivity|]. inversion F as [|? ? X F']; subst. cbn.
  rewrite join_assoc by auto. apply IH; auto. now apply join_arith.
Qed.
Lemma meet_perm p (G : good_plat p) l l' : Permutation l l' -> Forall (fun x => arithmetic_base x = true) l -> meet_all p l = meet_all p l'.
Proof.
  intros P. induction P as [|x l l' P IH|x y l|l1 l2 l3 P1 IH1 P2 IH2]; intros F; [reflexivity| | |].
  - inversion F as [|? ? X F']; subst. specialize (IH F'). cbn in *. f_equal.
    destruct l as [|a l]; [apply Permutation_nil in P; subst; reflexivity|].
    destruct l' as [|a' l']; [symmetry in P; apply Permutation_nil in P; discriminate|].
    cbn in IH |- *. injection IH as IH. inversion F' as [|? ? A F'']; subst.
    pose proof (Permutation_Forall P F') as Q. inversion Q as [|? ? A' Q']; subst.
    rewrite !fold_swap by auto. now rewrite IH.
  - inversion F as [|? ? X F']; subst. inversion F' as [|? ? Y F'']; subst. cbn. now rewrite (join_comm p G y x).
  - rewrite IH1 by auto. apply IH2. eapply Permutation_Forall; eauto.
Qed.
Lemma meet_dup p (G : good_plat p) x l : In x l -> Forall (fun x => arithmetic_base x = true) l -> meet_all p (x :: l) = meet_all p l.
Proof.
  intros I F. apply in_split in I as (l1 & l2 & ->).
  rewrite <- (meet_perm p G (x :: l1 ++ l2) (l1 ++ x :: l2)).
  - rewrite <- (meet_perm p G (x :: x :: l1 ++ l2) (x :: l1 ++ x :: l2)).
    + cbn. now rewrite join_idem.
    + constructor. apply Permutation_middle.
    + apply Forall_app in F as (F1 & F2). inversion F2; subst. repeat constructor; auto. now apply Forall_app.
  - apply Permutation_middle.
  - apply Forall_app in F as (F1 & F2). inversion F2; subst. constructor; auto. now apply Forall_app.
Qed.
Lemma fold_up p (G : good_plat p) : forall bs b, std_integral b = true -> Forall (fun x => std_integral x = true) bs ->
  let r := fold_left (join p) bs b in std_integral r = true /\ hi p b <= hi p r /\ Forall (fun x => hi p x <= hi p r) bs.
Proof.
  induction bs as [|x bs IH]; intros b B F; [repeat split; auto; cbn; lia|]. inversion F as [|? ? X F']; subst. cbn.
  destruct (join_up p G b x B X) as (J & JB & JX). destruct (IH _ J F') as (R & RB & RF).
  split; [exact R|]. split; [lia|]. constructor; [lia|exact RF].
Qed.

(* ---- division ---- *)

Lemma quot_rem_division x y : y <> 0 -> division x y (Z.quot x y) (Z.rem x y).
Proof.
  intros Y. split; [now rewrite <- Z.quot_rem'|]. split; [now apply Z.rem_bound_abs|].
  destruct (Z.eq_dec (Z.rem x y) 0); [now left|right]. now apply Z.rem_sign_nz.
Qed.
Lemma wrap_id sgn w x : 1 <= w -> in_type sgn w x -> wrap sgn w x = x.
Proof.
  intros W I. unfold wrap, in_type in *. pose proof (pow_half w W). pose proof (Z.pow_pos_nonneg 2 (w - 1)).
  destruct sgn; cbn [andb].
  - destruct (Z_lt_le_dec x 0).
    + rewrite <- (Z.mod_unique x (2 ^ w) (-1) (x + 2 ^ w)) by lia. destruct (Z.leb_spec (2 ^ (w - 1)) (x + 2 ^ w)); lia.
    + rewrite Z.mod_small by lia. destruct (Z.leb_spec (2 ^ (w - 1)) x); lia.
  - apply Z.mod_small. lia.
Qed.
Lemma quot_in sgn w x y : 1 <= w -> in_type sgn w x -> in_type sgn w y -> y <> 0 -> ~ (sgn = true /\ x = - 2 ^ (w - 1) /\ y = -1) ->
  in_type sgn w (Z.quot x y) /\ in_type sgn w (Z.rem x y).
Proof.
  intros W X Y N O. pose proof (pow_half w W). pose proof (Z.pow_pos_nonneg 2 (w - 1)).
  assert (A : Z.abs (Z.quot x y) <= Z.abs x).
  { rewrite <- Z.quot_abs by exact N. apply Z.quot_le_upper_bound; [lia|]. nia. }
  assert (B : Z.abs (Z.rem x y) <= Z.abs x).
  { rewrite <- Z.rem_abs by exact N. apply Z.rem_le; lia. }
  unfold in_type in *. destruct sgn.
  - split.
    + destruct (Z.eq_dec x (- 2 ^ (w - 1))) as [->|]; [|lia].
      destruct (Z.eq_dec y 1) as [->|]; [rewrite Z.quot_1_r; lia|].
      assert (y <> -1) by (intros ->; apply O; auto).
      assert (2 * Z.abs (Z.quot (- 2 ^ (w - 1)) y) <= 2 ^ (w - 1)).
      { rewrite <- Z.quot_abs by exact N. rewrite Z.abs_opp, (Z.abs_eq (2 ^ (w - 1))) by lia.
        pose proof (Z.mul_quot_le (2 ^ (w - 1)) (Z.abs y) ltac:(lia) ltac:(lia)).
        pose proof (Z.quot_pos (2 ^ (w - 1)) (Z.abs y) ltac:(lia) ltac:(lia)). nia. }
      lia.
    + destruct (Z_lt_le_dec x 0); [pose proof (Z.rem_nonpos x y N ltac:(lia))|pose proof (Z.rem_nonneg x y N ltac:(lia))]; lia.
  - split; [split; [apply Z.quot_pos; lia|lia]|]. pose proof (Z.rem_nonneg x y N ltac:(lia)). lia.
Qed.
