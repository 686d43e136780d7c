From Coq Require Import ZArith Lia.
From Verif Require Import Base Acc_Spec Acc_Model.
Local Open Scope res_scope.

Section Acc.
Context {A : Type} (ltA eqA : A -> A -> bool) (moves : nat -> nat -> bool).
Notation mem := (@mem A). Notation ast := (@ast A).

Lemma set_at_same {X} (f : nat -> X) t x : set_at f t x t = x.
Proof. unfold set_at. rewrite Nat.eqb_refl. reflexivity. Qed.
(* what a proxy does between lock and unlock *)
Definition free (m : mem) : Prop := forall b, locks m b = 0.
Lemma unlock_lock (m : mem) b (m' : mem) : (forall c, locks m' c = set_at (locks m) b (S (locks m b)) c) ->
  exists m2, unlock moves m' b = Ok m2 /\ cont m2 = cont m' /\ (forall c, locks m2 c = locks m c).
Proof.
  intros L. unfold unlock. rewrite L, set_at_same. eexists. split; [reflexivity|]. simpl. split; auto.
  intros c. unfold set_at. destruct (Nat.eqb_spec c b) as [->|]; auto. rewrite L. unfold set_at.
  destruct (Nat.eqb_spec c b); congruence.
Qed.
Lemma load_ok (m : mem) b i r m' v : lock moves m b i = (r, m') -> nth_error (cont m b) i = Some v -> load m' r = Ok v.
Proof.
  unfold lock. intros E N. injection E as <- <-. unfold load. simpl. rewrite Nat.eqb_refl. unfold rd. rewrite N. reflexivity.
Qed.
Lemma assign_ok (m : mem) t a : snd t < length (cont m (fst t)) ->
  exists m', assign moves m t a = Ok m' /\ cont m' = set_at (cont m) (fst t) (upd (cont m (fst t)) (snd t) a) /\
    forall b, locks m' b = locks m b.
Proof.
  intros H. unfold assign. destruct (lock moves m (fst t) (snd t)) as [r m1] eqn:E. unfold lock in E. injection E as <- <-.
  unfold store. simpl. rewrite Nat.eqb_refl. unfold wr. destruct (Nat.ltb_spec (snd t) (length (cont m (fst t)))); [|lia].
  cbn [bind]. edestruct (unlock_lock m (fst t)) as (m2 & U & C & L); [|rewrite U; eauto]. simpl. reflexivity.
Qed.
Lemma value_ok (m : mem) t v : nth_error (cont m (fst t)) (snd t) = Some v ->
  exists m', to_value moves m t = Ok (v, m') /\ cont m' = cont m /\ forall b, locks m' b = locks m b.
Proof.
  intros H. unfold to_value. destruct (lock moves m (fst t) (snd t)) as [r m1] eqn:E.
  rewrite (load_ok _ _ _ _ _ _ E H). cbn [bind]. unfold lock in E. injection E as <- <-.
  edestruct (unlock_lock m (fst t)) as (m2 & U & C & L); [|rewrite U; cbn [bind]; eauto]. simpl. reflexivity.
Qed.
Lemma compare_ok (m : mem) t v f : nth_error (cont m (fst t)) (snd t) = Some v ->
  exists m', compare moves m t f = Ok (f v, m') /\ cont m' = cont m /\ forall b, locks m' b = locks m b.
Proof.
  intros H. unfold compare. destruct (lock moves m (fst t) (snd t)) as [r m1] eqn:E.
  rewrite (load_ok _ _ _ _ _ _ E H). cbn [bind]. unfold lock in E. injection E as <- <-.
  edestruct (unlock_lock m (fst t)) as (m2 & U & C & L); [|rewrite U; cbn [bind]; eauto]. simpl. reflexivity.
Qed.
Lemma upd_split (l : list A) i a : i < length l -> upd l i a = firstn i l ++ a :: skipn (S i) l.
Proof. revert i. induction l as [|x l IH]; intros [|i] H; simpl in *; try lia; auto. f_equal. apply IH. lia. Qed.

Definition rel (s : ast) (i : aideal A) : Prop :=
  (forall b, cont (a_mem s) b = ai_mem i b) /\ (forall t, a_at s t = ai_at i t) /\ free (a_mem s).
Lemma cmp_step s i t f b i' : rel s i -> ai_cmp i t f = Some (b, i') ->
  exists s', a_compare moves s t f = Ok (b, s') /\ rel s' i'.
Proof.
  intros (C & T & F). unfold ai_cmp, ai_value. destruct (nth_error _ _) as [v|] eqn:N; [|discriminate]. intros E. injection E as <- <-.
  unfold a_compare. destruct (compare_ok (a_mem s) (a_at s t) v f) as (m' & Q & C' & L'); [rewrite T, C; auto|].
  rewrite Q. cbn [bind]. eexists. split; [reflexivity|]. split; [|split]; simpl; auto.
  - intros b. rewrite C'. auto.
  - intros b. rewrite L'. apply F.
Qed.
Lemma step_ok s i o b i' : rel s i -> aideal_step ltA eqA i o = Some (b, i') ->
  exists s', astep ltA eqA moves s o = Ok (b, s') /\ rel s' i'.
Proof.
  intros R E. assert (R0 := R). destruct R0 as (C & T & F). destruct o; cbn [aideal_step] in E; cbn [astep];
    try (eapply cmp_step; eassumption).
  - destruct (ai_at i t) as [bk p] eqn:P. destruct (Nat.ltb_spec p (length (ai_mem i bk))) as [H|]; [|discriminate]. injection E as <- <-.
    destruct (assign_ok (a_mem s) (a_at s t) a) as (m' & Q & C' & L'); [rewrite T, P; simpl; rewrite C; auto|].
    rewrite Q. cbn [bind]. eexists. split; [reflexivity|]. split; [|split]; cbn [a_mem a_at ai_mem ai_at].
    + intros b. rewrite C', T, P. cbn [fst snd]. unfold set_at. rewrite C. destruct (Nat.eqb b bk); auto. apply upd_split, H.
    + intros u. apply T.
    + intros b. rewrite L'. apply F.
  - unfold ai_value in E. destruct (nth_error _ _) as [v|] eqn:N; [|discriminate]. injection E as <- <-.
    destruct (value_ok (a_mem s) (a_at s t) v) as (m' & Q & C' & L'); [rewrite T, C; auto|].
    rewrite Q. cbn [bind]. eexists. split; [reflexivity|]. split; [|split]; simpl; auto.
    + intros b. rewrite C'. auto.
    + intros b. rewrite L'. apply F.
  - injection E as <- <-. eexists. split; [reflexivity|]. split; [|split]; simpl; auto.
    intros v. unfold set_at. destruct (Nat.eqb v t); auto.
  - destruct (ai_at i t) as [bk p] eqn:P. injection E as <- <-. eexists. split; [reflexivity|]. split; [|split]; simpl; auto.
    intros v. unfold set_at. rewrite T, P. destruct (Nat.eqb v t); auto.
  - destruct (ai_at i t) as [bk p] eqn:P. rewrite T, P. cbn [fst snd]. destruct (Nat.leb n p); [|discriminate]. injection E as <- <-.
    eexists. split; [reflexivity|]. split; [|split]; simpl; auto. intros v. unfold set_at. destruct (Nat.eqb v t); auto.
Qed.
Lemma run_ok os : forall s i b i', rel s i -> aideal_run ltA eqA i os = Some (b, i') ->
  exists s', arun ltA eqA moves s os = Ok (b, s') /\ rel s' i'.
Proof.
  induction os as [|o os IH]; intros s i b i' R E; simpl in *.
  - injection E as <- <-. eauto.
  - destruct (aideal_step ltA eqA i o) as [[b1 i1]|] eqn:E1; [|discriminate].
    destruct (aideal_run ltA eqA i1 os) as [[b2 i2]|] eqn:E2; [|discriminate]. injection E as <- <-.
    destruct (step_ok _ _ _ _ _ R E1) as (s1 & Q1 & R1). rewrite Q1. cbn [bind].
    destruct (IH _ _ _ _ R1 E2) as (s2 & Q2 & R2). rewrite Q2. cbn [bind]. eauto.
Qed.

Lemma derefs_ok d t : forall (m : mem), snd t < length (cont m (fst t)) ->
  exists m', it_derefs moves d m t = Ok m' /\ cont m' = cont m /\ locks m' (fst t) = d + locks m (fst t) /\
    (forall b, b <> fst t -> locks m' b = locks m b).
Proof.
  induction d as [|d IH]; intros m H.
  - exists m. repeat split; auto.
  - cbn [it_derefs]. unfold it_deref, la_convert. destruct (lock moves m (fst t) (snd t)) as [r m1] eqn:E.
    destruct (nth_error (cont m (fst t)) (snd t)) as [v|] eqn:N; [|apply nth_error_None in N; lia].
    rewrite (load_ok _ _ _ _ _ _ E N). cbn [bind]. unfold lock in E. injection E as <- <-.
    set (m1 := Mem _ _ _ _). destruct (IH m1 H) as (m' & Q & C & L & O). exists m'. split; [exact Q|]. split; [exact C|].
    split.
    + rewrite L. unfold m1. simpl. rewrite set_at_same. lia.
    + intros b Hb. rewrite O by auto. unfold m1. simpl. unfold set_at. destruct (Nat.eqb_spec b (fst t)); congruence.
Qed.
End Acc.
