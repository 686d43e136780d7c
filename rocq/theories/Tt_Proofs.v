From Coq Require Import List Bool Arith Lia.
From Verif Require Import Tt_Lang Tt_Spec Tt_Model.
Import ListNotations.

(* ---- equality ---- *)

Lemma base_eqb_eq a b : base_eqb a b = true <-> a = b.
Proof. unfold base_eqb. match goal with |- context [if ?x then _ else _] => destruct x end; split; congruence. Qed.
Lemma user_eqb_eq a b : user_eqb a b = true <-> a = b.
Proof. unfold user_eqb. match goal with |- context [if ?x then _ else _] => destruct x end; split; congruence. Qed.
Lemma refq_eqb_eq a b : refq_eqb a b = true <-> a = b.
Proof. unfold refq_eqb. match goal with |- context [if ?x then _ else _] => destruct x end; split; congruence. Qed.
Lemma opt_eqb_eq a b : opt_eqb a b = true <-> a = b.
Proof. destruct a, b; cbn; rewrite ?Nat.eqb_eq; split; congruence. Qed.

Lemma ty_ind' (P : ty -> Prop) :
  (forall c v b, P (TBase c v b)) -> (forall c v k n, P (TUser c v k n)) ->
  (forall c v t, P t -> P (TPtr c v t)) -> (forall c v n t, P t -> P (TMem c v n t)) ->
  (forall t, P t -> P (TLRef t)) -> (forall t, P t -> P (TRRef t)) -> (forall n t, P t -> P (TArr n t)) ->
  (forall r a e c v q x, P r -> Forall P a -> P (TFun r a e c v q x)) -> forall t, P t.
Proof.
  intros H1 H2 H3 H4 H5 H6 H7 H8. fix F 1. intros t.
  refine (match t with
    | TBase c v b => H1 c v b | TUser c v k n => H2 c v k n | TPtr c v u => H3 c v u (F u) | TMem c v n u => H4 c v n u (F u)
    | TLRef u => H5 u (F u) | TRRef u => H6 u (F u) | TArr n u => H7 n u (F u)
    | TFun r a e c v q x => H8 r a e c v q x (F r)
        ((fix G (l : list ty) : Forall P l := match l with [] => Forall_nil P | y :: m => Forall_cons y (F y) (G m) end) a)
    end).
Qed.

Lemma ty_eqb_eq a : forall b, ty_eqb a b = true <-> a = b.
Proof.
  induction a as [c v x|c v k n|c v t IH|c v n t IH|t IH|t IH|n t IH|r l e c v q x IHr IHl] using ty_ind'; intros b;
    destruct b as [c' v' x'|c' v' k' n'|c' v' t'|c' v' n' t'|t'|t'|n' t'|r' l' e' c' v' q' x']; cbn [ty_eqb]; try (split; congruence);
    rewrite ?andb_true_iff, ?eqb_true_iff, ?base_eqb_eq, ?user_eqb_eq, ?Nat.eqb_eq, ?opt_eqb_eq, ?IH;
    try (split; [intuition congruence|intros H; injection H; intros; subst; auto]).
  rewrite IHr, refq_eqb_eq.
  assert (L : (fix all (l l' : list ty) : bool :=
         match l, l' with [], [] => true | y :: m, y' :: m' => ty_eqb y y' && all m m' | _, _ => false end) l l' = true <-> l = l').
  { clear - IHl. revert l'. induction IHl as [|y l Hy _ IH]; intros [|y' l']; try (split; congruence).
    rewrite andb_true_iff, Hy, IH. split; [intuition congruence|]. intros H; injection H; auto. }
  rewrite L. split; [intuition congruence|]. intros H; injection H; intros; subst. repeat split.
Qed.

(* ---- qualifiers ---- *)

Lemma legal_arr n u : legal (TArr n u) = true -> legal u = true /\ is_ref u = false /\ is_fun u = false /\ is_voidlike u = false.
Proof. cbn. rewrite !andb_true_iff, !negb_true_iff. tauto. Qed.

(* a type that can be qualified *)
Definition qualifiable (t : ty) : Prop := legal t = true /\ is_ref t = false /\ is_fun t = false.
Lemma qualifiable_arr n u : qualifiable (TArr n u) -> qualifiable u.
Proof. intros (L & _). apply legal_arr in L. unfold qualifiable. tauto. Qed.

Ltac tyind t Q := induction t as [c v b|c v k n|c v u IH|c v m u IH|u IH|u IH|m u IH|r IHr a e c v q x];
  try (destruct Q as (? & Q1 & Q2); discriminate).

Lemma const_iff t : qualifiable t -> (add_quals true false t = t <-> top_const t = true).
Proof.
  intros Q. tyind t Q; cbn [add_quals top_const]; cbn [orb]; try (split; [intros E; injection E; auto|intros ->; reflexivity]).
  apply qualifiable_arr in Q. rewrite <- (IH Q). split; [intros E; now injection E|congruence].
Qed.
Lemma vol_iff t : qualifiable t -> (add_quals false true t = t <-> top_vol t = true).
Proof.
  intros Q. tyind t Q; cbn [add_quals top_vol]; cbn [orb]; try (split; [intros E; injection E; auto|intros ->; reflexivity]).
  apply qualifiable_arr in Q. rewrite <- (IH Q). split; [intros E; now injection E|congruence].
Qed.

Lemma top_const_quals t : legal t = true -> top_const t = true -> qualifiable t.
Proof. intros L H. unfold qualifiable. destruct t; cbn in H |- *; auto; discriminate. Qed.
Lemma top_vol_quals t : legal t = true -> top_vol t = true -> qualifiable t.
Proof. intros L H. unfold qualifiable. destruct t; cbn in H |- *; auto; discriminate. Qed.

Lemma std_const_iff t : legal t = true -> (std_is_const t <-> top_const t = true).
Proof.
  intros L. split.
  - intros (R & F & E). apply const_iff; unfold qualifiable; auto.
  - intros H. pose proof (top_const_quals t L H) as Q. destruct Q as (? & ? & ?). repeat split; auto.
    apply const_iff; unfold qualifiable; auto.
Qed.
Lemma std_vol_iff t : legal t = true -> (std_is_volatile t <-> top_vol t = true).
Proof.
  intros L. split.
  - intros (R & F & E). apply vol_iff; unfold qualifiable; auto.
  - intros H. pose proof (top_vol_quals t L H) as Q. destruct Q as (? & ? & ?). repeat split; auto.
    apply vol_iff; unfold qualifiable; auto.
Qed.

Lemma drop_const_shape t : is_ref (drop_const t) = is_ref t /\ is_fun (drop_const t) = is_fun t /\ is_voidlike (drop_const t) = is_voidlike t /\
  match drop_const t with TArr None _ => false | _ => true end = match t with TArr None _ => false | _ => true end.
Proof. destruct t; cbn; auto. Qed.
Lemma drop_vol_shape t : is_ref (drop_vol t) = is_ref t /\ is_fun (drop_vol t) = is_fun t /\ is_voidlike (drop_vol t) = is_voidlike t /\
  match drop_vol t with TArr None _ => false | _ => true end = match t with TArr None _ => false | _ => true end.
Proof. destruct t; cbn; auto. Qed.
Lemma add_quals_shape c v t : is_ref (add_quals c v t) = is_ref t /\ is_fun (add_quals c v t) = is_fun t /\
  is_voidlike (add_quals c v t) = is_voidlike t /\
  match add_quals c v t with TArr None _ => false | _ => true end = match t with TArr None _ => false | _ => true end.
Proof. destruct t; cbn; auto. Qed.
Lemma drop_const_legal t : legal (drop_const t) = legal t.
Proof.
  induction t; cbn [drop_const legal]; auto.
  destruct (drop_const_shape t) as (-> & -> & -> & ->). now rewrite IHt.
Qed.
Lemma drop_vol_legal t : legal (drop_vol t) = legal t.
Proof.
  induction t; cbn [drop_vol legal]; auto.
  destruct (drop_vol_shape t) as (-> & -> & -> & ->). now rewrite IHt.
Qed.
Lemma add_quals_legal c v t : legal (add_quals c v t) = legal t.
Proof.
  induction t; cbn [add_quals legal]; auto.
  destruct (add_quals_shape c v t) as (-> & -> & -> & ->). now rewrite IHt.
Qed.
Lemma drop_const_top t : top_const (drop_const t) = false /\ top_vol (drop_const t) = top_vol t.
Proof. induction t; cbn; auto. Qed.
Lemma drop_vol_top t : top_vol (drop_vol t) = false /\ top_const (drop_vol t) = top_const t.
Proof. induction t; cbn; auto. Qed.
Lemma drop_const_add t : top_const t = true -> t = add_quals true false (drop_const t).
Proof. induction t; cbn; intros H; subst; try reflexivity; try discriminate. f_equal. auto. Qed.
Lemma drop_vol_add t : top_vol t = true -> t = add_quals false true (drop_vol t).
Proof. induction t; cbn; intros H; subst; try reflexivity; try discriminate. f_equal. auto. Qed.
Lemma drop_const_id t : top_const t = false -> drop_const t = t.
Proof. induction t; cbn; intros H; subst; try reflexivity. f_equal. auto. Qed.
Lemma drop_vol_id t : top_vol t = false -> drop_vol t = t.
Proof. induction t; cbn; intros H; subst; try reflexivity. f_equal. auto. Qed.
Lemma add_quals_drop t : t = add_quals (top_const t) (top_vol t) (drop_vol (drop_const t)).
Proof. induction t as [c v b|c v k n|c v u IH|c v m u IH|u IH|u IH|m u IH|r IHr a e c v q x]; cbn; rewrite ?orb_false_r; try reflexivity. f_equal. exact IH. Qed.

Lemma remove_const_eq t : remove_const t = drop_const t.
Proof. unfold remove_const; cbn. destruct (top_const t) eqn:E; [reflexivity|]. now rewrite drop_const_id. Qed.
Lemma remove_volatile_eq t : remove_volatile t = drop_vol t.
Proof. unfold remove_volatile; cbn. destruct (top_vol t) eqn:E; [reflexivity|]. now rewrite drop_vol_id. Qed.
Lemma remove_cv_eq t : remove_cv t = drop_vol (drop_const t).
Proof. unfold remove_cv. now rewrite remove_const_eq, remove_volatile_eq. Qed.
Lemma is_const_eq t : is_const t = top_const t.
Proof. unfold is_const; cbn. now destruct (top_const t). Qed.
Lemma is_volatile_eq t : is_volatile t = top_vol t.
Proof. unfold is_volatile; cbn. now destruct (top_vol t). Qed.

Lemma remove_const_ok t : legal t = true -> std_remove_const t (remove_const t).
Proof.
  intros L. rewrite remove_const_eq. split.
  - rewrite std_const_iff by (now rewrite drop_const_legal). destruct (drop_const_top t) as (-> & _). discriminate.
  - destruct (top_const t) eqn:E; [right; now apply drop_const_add|left; now rewrite drop_const_id].
Qed.
Lemma remove_volatile_ok t : legal t = true -> std_remove_volatile t (remove_volatile t).
Proof.
  intros L. rewrite remove_volatile_eq. split.
  - rewrite std_vol_iff by (now rewrite drop_vol_legal). destruct (drop_vol_top t) as (-> & _). discriminate.
  - destruct (top_vol t) eqn:E; [right; now apply drop_vol_add|left; now rewrite drop_vol_id].
Qed.
Lemma remove_cv_ok t : legal t = true -> std_remove_cv t (remove_cv t).
Proof.
  intros L. rewrite remove_cv_eq. repeat split.
  - rewrite std_const_iff by (now rewrite drop_vol_legal, drop_const_legal).
    destruct (drop_vol_top (drop_const t)) as (_ & ->). destruct (drop_const_top t) as (-> & _). discriminate.
  - rewrite std_vol_iff by (now rewrite drop_vol_legal, drop_const_legal).
    destruct (drop_vol_top (drop_const t)) as (-> & _). discriminate.
  - exists (top_const t), (top_vol t). apply add_quals_drop.
Qed.
Lemma remove_cv_legal t : legal (remove_cv t) = legal t.
Proof. now rewrite remove_cv_eq, drop_vol_legal, drop_const_legal. Qed.
Lemma remove_reference_eq t : remove_reference t = without_ref t.
Proof. destruct t; reflexivity. Qed.
Lemma remove_reference_legal t : legal t = true -> legal (remove_reference t) = true /\ is_ref (remove_reference t) = false.
Proof. intros L. rewrite remove_reference_eq. destruct t; cbn in *; auto; rewrite !andb_true_iff, ?negb_true_iff in L; tauto. Qed.
Lemma remove_reference_ok t : legal t = true -> std_remove_reference t (remove_reference t).
Proof. intros L. split; [now apply remove_reference_legal|]. destruct t; cbn; auto. Qed.
Lemma remove_cvref_ok t : legal t = true -> std_remove_cvref t (remove_cvref t).
Proof.
  intros L. exists (remove_reference t). split; [now apply remove_reference_ok|]. apply remove_cv_ok. now apply remove_reference_legal.
Qed.
Lemma remove_extent_ok t : std_remove_extent t (remove_extent t).
Proof.
  unfold std_remove_extent, std_is_array. destruct t as [| | | | | |[m|] u|]; cbn; try (right; split; [intros (? & ? & H); discriminate|reflexivity]); left; eauto.
Qed.
Lemma remove_pointer_ok t : std_remove_pointer t (remove_pointer t).
Proof.
  unfold std_remove_pointer, std_is_pointer, remove_pointer.
  assert (NP : (forall c v u, t <> TPtr c v u) -> choose [(PPtr PAny, fun u => u); (PConst (PPtr PAny), fun u => u); (PVol (PPtr PAny), fun u => u);
          (PConst (PVol (PPtr PAny)), fun u => u)] (fun u => u) t = t).
  { intros N. destruct t as [[|] [|] ?|[|] [|] ? ?|c v u|[|] [|] ? ?| | |[m|] u|]; try reflexivity.
    - elim (N c v u eq_refl).
    - cbn. destruct (top_const u), (top_vol u); cbn; rewrite ?(proj2 (drop_const_top u)); try destruct (top_vol u); reflexivity.
    - cbn. destruct (top_const u), (top_vol u); cbn; rewrite ?(proj2 (drop_const_top u)); try destruct (top_vol u); reflexivity. }
  destruct t as [c v b|c v k n|c v u|c v m u|u|u|m u|r a e c v q x];
    try (right; split; [intros (? & ? & ? & H); discriminate|apply NP; congruence]).
  left. exists c, v. now destruct c, v.
Qed.

(* ---- categories ---- *)

Lemma remove_cv_base c v b : remove_cv (TBase c v b) = TBase false false b.
Proof. now destruct c, v. Qed.
Lemma is_void_ok t : is_void t = true <-> std_void t.
Proof.
  unfold is_void, std_void. rewrite remove_cv_eq. split.
  - destruct t as [c v b| | | | | | |]; cbn; try discriminate. destruct b; cbn; try discriminate. eauto.
  - intros (c & v & ->). reflexivity.
Qed.
Lemma is_integral_ok t : is_integral t = true <-> std_is_integral t.
Proof.
  unfold is_integral, std_is_integral. rewrite remove_cv_eq. split.
  - destruct t as [c v b| | | | | | |]; cbn; try discriminate. intros H. exists c, v, b. split; [reflexivity|].
    destruct b; cbn in H |- *; congruence.
  - intros (c & v & b & -> & H). destruct b; cbn in H |- *; congruence.
Qed.
Lemma is_floating_ok t : is_floating_point t = true <-> std_is_floating t.
Proof.
  unfold is_floating_point, is_same, std_is_floating. rewrite !orb_true_iff, !ty_eqb_eq, remove_cv_eq. split.
  - intros H. destruct t as [c v b| | | | | | |]; cbn in H; try (destruct H as [[H|H]|H]; discriminate).
    exists c, v, b. split; [reflexivity|]. destruct H as [[H|H]|H]; injection H; intros; subst; reflexivity.
  - intros (c & v & b & -> & H). destruct b; cbn in H |- *; try discriminate; auto.
Qed.
Lemma is_arithmetic_ok t : is_arithmetic t = true <-> std_is_arithmetic t.
Proof. unfold is_arithmetic, std_is_arithmetic. now rewrite orb_true_iff, is_integral_ok, is_floating_ok. Qed.
Lemma is_array_ok t : is_array t = true <-> std_is_array t.
Proof.
  unfold std_is_array. destruct t as [| | | | | |[m|] u|]; cbn; split; intros H; try discriminate; eauto; destruct H as (? & ? & H); discriminate.
Qed.
Lemma is_pointer_ok t : is_pointer t = true <-> std_is_pointer t.
Proof.
  unfold is_pointer, std_is_pointer. rewrite remove_cv_eq.
  destruct t as [| |c v u| | | | |]; cbn; split; intros H; try discriminate; eauto; destruct H as (? & ? & ? & H); discriminate.
Qed.
Lemma is_member_pointer_ok t : is_member_pointer t = true <-> exists c v n u, t = TMem c v n u.
Proof.
  unfold is_member_pointer. rewrite remove_cv_eq.
  destruct t as [| | |c v n u| | | |]; cbn; split; intros H; try discriminate; eauto 6; destruct H as (? & ? & ? & ? & H); discriminate.
Qed.
Lemma is_reference_ok t : is_reference t = is_ref t /\
  (is_lvalue_reference t = true <-> exists u, t = TLRef u) /\ (is_rvalue_reference t = true <-> exists u, t = TRRef u).
Proof.
  destruct t; cbn; repeat split; intros H; try discriminate; eauto; destruct H as (? & H); discriminate.
Qed.
Lemma is_signed_ok p t : is_signed p t = true <-> std_is_signed p t.
Proof.
  unfold is_signed, std_is_signed. destruct (is_arithmetic t) eqn:A.
  - rewrite is_arithmetic_ok in A. split.
    + destruct t as [c v b| | | | | | |]; cbn; try discriminate. intros H. exists c, v, b. repeat split; auto.
    + intros (c & v & b & -> & _ & H). exact H.
  - split; [discriminate|]. intros (c & v & b & E & B & _). apply is_arithmetic_ok in B. congruence.
Qed.
Lemma is_unsigned_arith p t : std_is_arithmetic t -> (is_unsigned p t = true <-> std_is_unsigned p t).
Proof.
  intros A. unfold is_unsigned. rewrite negb_true_iff. split.
  - intros H. destruct t as [c v b| | | | | | |]; try (destruct A as [(? & ? & ? & E & _)|(? & ? & ? & E & _)]; discriminate).
    exists c, v, b. repeat split; auto. destruct (std_signed p b) eqn:S; auto.
    assert (is_signed p (TBase c v b) = true) by (apply is_signed_ok; exists c, v, b; auto). congruence.
  - intros (c & v & b & -> & B & S). destruct (is_signed p (TBase c v b)) eqn:E; auto.
    apply is_signed_ok in E. destruct E as (c' & v' & b' & E & _ & S'). injection E as <- <- <-. congruence.
Qed.
Lemma is_unsigned_other p t : ~ std_is_arithmetic t -> is_unsigned p t = true.
Proof.
  intros N. unfold is_unsigned, is_signed. destruct (is_arithmetic t) eqn:A; [|reflexivity]. apply is_arithmetic_ok in A. contradiction.
Qed.

(* functions *)
Lemma is_function_eq t : is_function t = is_fun t && negb (c_variadic t).
Proof.
  destruct t as [| | | | | | |r a e c v q x]; try (cbn; repeat (match goal with |- context [if ?b then _ else _] => destruct b end); reflexivity).
  destruct e, c, v, q, x; reflexivity.
Qed.
Lemma is_fun_ok t : is_fun t = true <-> std_is_function t.
Proof.
  unfold std_is_function. destruct t as [| | | | | | |r a e c v q x]; cbn; split; intros H; try discriminate;
    try (now repeat eexists); now destruct H as (? & ? & ? & ? & ? & ? & ? & H).
Qed.

Lemma is_class_eq t : is_class t = match t with TUser _ _ Class _ | TUser _ _ Union _ => true | _ => false end.
Proof. unfold is_class. destruct t as [|c v [| |] n| | | | | |]; reflexivity. Qed.
Lemma is_union_false t : is_union t = false.
Proof. reflexivity. Qed.

Lemma is_enum_eq t : is_enum t =
  match t with
  | TUser _ _ Enum _ => true
  | TBase _ _ NullptrT => true
  | TMem _ _ _ _ => true
  | _ => c_variadic t
  end.
Proof.
  unfold is_enum. rewrite is_class_eq, is_function_eq. rewrite (proj1 (is_reference_ok t)).
  destruct t as [c v b|c v k n|c v u|c v m u|u|u|m u|r a e c v q x].
  - unfold is_void, is_integral, is_floating_point, is_pointer. rewrite remove_cv_base. destruct b; reflexivity.
  - unfold is_void, is_integral, is_floating_point, is_pointer. rewrite remove_cv_eq. destruct k; reflexivity.
  - unfold is_void, is_integral, is_floating_point, is_pointer. rewrite remove_cv_eq. reflexivity.
  - unfold is_void, is_integral, is_floating_point, is_pointer. rewrite remove_cv_eq. reflexivity.
  - cbn [is_ref negb]. rewrite andb_false_r. reflexivity.
  - cbn [is_ref negb]. rewrite andb_false_r. reflexivity.
  - assert (A : is_array (TArr m u) = true) by (apply is_array_ok; now exists m, u). rewrite A. cbn [negb]. now rewrite !andb_false_r.
  - unfold is_void, is_integral, is_floating_point, is_pointer. rewrite remove_cv_eq. cbn [drop_const drop_vol]. 
    destruct e, x; reflexivity.
Qed.

Lemma is_member_function_eq t : is_member_function_pointer t = match t with TMem _ _ _ u => is_fun u && negb (c_variadic u) | _ => false end.
Proof.
  unfold is_member_function_pointer. rewrite remove_cv_eq.
  destruct t as [| | |c v n u| | | |]; try reflexivity. cbn [drop_const drop_vol choose deduce]. apply is_function_eq.
Qed.

(* ---- references, pointers, decay ---- *)

Lemma add_lvalue_reference_ok t : referenceable t = true \/ t = TBase false false Void ->
  add_lvalue_reference t = Some (std_add_lvalue_reference t).
Proof.
  unfold add_lvalue_reference, std_add_lvalue_reference, mk_lref. intros [R| ->]; [|reflexivity].
  assert (D : deduce (PBase Void) t = None).
  { destruct t as [c v b| | | | | | |]; try reflexivity. destruct c, v; try reflexivity. destruct b; try reflexivity. discriminate. }
  cbn [choose]. rewrite D. destruct t; rewrite ?R; reflexivity.
Qed.
Lemma add_rvalue_reference_ok t : referenceable t = true -> add_rvalue_reference t = Some (std_add_rvalue_reference t).
Proof. unfold add_rvalue_reference, std_add_rvalue_reference, mk_rref. intros R. destruct t; rewrite ?R; reflexivity. Qed.
Lemma add_lvalue_reference_none t : referenceable t = false -> t <> TBase false false Void -> add_lvalue_reference t = None.
Proof.
  intros R N. unfold add_lvalue_reference.
  assert (D : deduce (PBase Void) t = None).
  { destruct t as [c v b| | | | | | |]; try reflexivity. destruct c, v; try reflexivity. destruct b; try reflexivity. congruence. }
  cbn [choose]. rewrite D. unfold mk_lref. destruct t; try discriminate; now rewrite R.
Qed.
Lemma add_rvalue_reference_none t : referenceable t = false -> add_rvalue_reference t = None.
Proof. intros R. unfold add_rvalue_reference, mk_rref. destruct t; try discriminate; now rewrite R. Qed.


Lemma mk_ptr_plain t : is_ref t = false -> abominable t = false -> mk_ptr t = Some (TPtr false false t).
Proof. unfold mk_ptr. intros -> ->. reflexivity. Qed.
Lemma legal_ref_abom t : legal t = true -> abominable (without_ref t) = true -> t = without_ref t.
Proof.
  intros L A. destruct t; cbn in *; auto; rewrite !andb_true_iff in L; destruct L as (_ & R); unfold referenceable in R; rewrite A, andb_comm in R; discriminate.
Qed.

Lemma add_pointer_ok t : legal t = true -> is_fun t = false \/ abominable t = false /\ noexcept_fun t = false \/ abominable t = true /\ c_variadic t = false ->
  add_pointer t = Some (std_add_pointer t).
Proof.
  intros L H. unfold add_pointer, std_add_pointer. rewrite is_function_eq, remove_reference_eq.
  destruct (is_fun t) eqn:F; cbn [andb].
  - destruct t as [| | | | | | |r a e c v q x]; try discriminate. cbn [without_ref]. cbn [c_variadic] in *.
    destruct H as [H|[(A & X)|(A & V)]]; [discriminate| |].
    + cbn in A, X. subst x. rewrite !orb_false_iff, negb_false_iff, refq_eqb_eq in A. destruct A as ((-> & ->) & ->). destruct e; reflexivity.
    + rewrite V. cbn [negb]. unfold mk_ptr. rewrite A. cbn [is_ref orb]. cbn in A.
      destruct e, x; cbn in V; try discriminate; cbn [choose deduce eqb andb];
        destruct c, v, q; cbn in A |- *; congruence.
  - pose proof (remove_reference_legal t L) as (_ & R). rewrite remove_reference_eq in R.
    assert (A : abominable (without_ref t) = false).
    { destruct (abominable (without_ref t)) eqn:A; auto. rewrite <- (legal_ref_abom t L A) in A. destruct t; discriminate. }
    rewrite mk_ptr_plain; auto.
Qed.

Lemma add_pointer_noexcept t : noexcept_fun t = true -> add_pointer t = Some t.
Proof.
  destruct t as [| | | | | | |r a e c v q x]; cbn [noexcept_fun]; try discriminate. intros ->. unfold add_pointer. rewrite is_function_eq.
  cbn [is_fun c_variadic andb negb]. rewrite andb_false_r. cbn [negb choose deduce]. now destruct e, c, v, q.
Qed.
Lemma add_pointer_abom_variadic t : abominable t = true -> c_variadic t = true -> add_pointer t = None.
Proof.
  intros A V. unfold add_pointer. rewrite is_function_eq, V. cbn [negb]. rewrite andb_false_r.
  rewrite remove_reference_eq. destruct t; try discriminate. cbn [without_ref]. unfold mk_ptr. now rewrite A.
Qed.

Lemma remove_extent_ptr u : legal u = true -> is_ref u = false -> abominable u = false ->
  exists p, mk_ptr (remove_extent u) = Some p /\ (forall n e, u = TArr n e -> p = TPtr false false e).
Proof.
  intros L R A. destruct u as [| | | | | |n e|]; try discriminate;
    try (eexists; split; [apply mk_ptr_plain; [reflexivity|exact A]|intros; discriminate]).
  apply legal_arr in L as (Le & Re & Fe & _). destruct n as [n|]; cbn [remove_extent choose deduce];
    (eexists; split; [apply mk_ptr_plain; [exact Re|destruct e; try reflexivity; discriminate]|intros n' e' E; injection E as <- <-; reflexivity]).
Qed.

Lemma decay_ok t : legal t = true -> (is_fun (without_ref t) = true -> abominable (without_ref t) = false /\ noexcept_fun (without_ref t) = false /\ c_variadic (without_ref t) = false) ->
  exists u, decay t = Some u /\ std_decay t u.
Proof.
  intros L H. pose proof (remove_reference_legal t L) as (Lu & Ru). unfold decay, std_decay. rewrite remove_reference_eq in *.
  set (u := without_ref t) in *.
  assert (A : abominable u = false). { destruct (is_fun u) eqn:F; [now apply H|]. now destruct u. }
  destruct (remove_extent_ptr u Lu Ru A) as (p & -> & Hp).
  rewrite add_pointer_ok; auto.
  - eexists. split; [reflexivity|]. destruct (is_array u) eqn:Ar; cbn [conditional].
    + apply is_array_ok in Ar as (n & e & E). left. exists n, e. split; [exact E|]. eapply Hp, E.
    + assert (NA : ~ std_is_array u) by (intros C; apply is_array_ok in C; congruence).
      right. rewrite is_function_eq. destruct (is_fun u) eqn:F.
      * left. destruct (H eq_refl) as (_ & _ & ->). split; [now apply is_fun_ok|reflexivity].
      * right. split; [exact NA|]. split; [intros C; apply is_fun_ok in C; congruence|]. cbn [andb conditional]. now apply remove_cv_ok.
  - destruct (is_fun u) eqn:F; [right; left; destruct (H eq_refl) as (? & ? & ?); auto|now left].
Qed.
Lemma decay_noexcept t : abominable t = false -> noexcept_fun t = true -> decay t = Some t /\ decay (TLRef t) = Some t.
Proof.
  intros A X. destruct t as [| | | | | | |r a e c v q x]; try discriminate. cbn in X. subst x.
  cbn in A. rewrite !orb_false_iff, negb_false_iff, refq_eqb_eq in A. destruct A as ((-> & ->) & ->).
  destruct e; split; reflexivity.
Qed.
Lemma decay_variadic t : abominable t = false -> c_variadic t = true -> decay t = Some t /\ decay (TLRef t) = Some t.
Proof.
  intros A X. destruct t as [| | | | | | |r a e c v q x]; try discriminate. cbn in X.
  cbn in A. rewrite !orb_false_iff, negb_false_iff, refq_eqb_eq in A. destruct A as ((-> & ->) & ->).
  destruct e, x; try discriminate; split; reflexivity.
Qed.
Lemma decay_abominable t : abominable t = true -> decay t = None.
Proof.
  intros A. destruct t as [| | | | | | |r a e c v q x]; try discriminate. unfold decay. rewrite remove_reference_eq. cbn [without_ref].
  change (remove_extent (TFun r a e c v q x)) with (TFun r a e c v q x). unfold mk_ptr at 1. rewrite A. reflexivity.
Qed.

(* ---- make_signed, make_unsigned ---- *)

Lemma find_first_least p size : good_plat p -> (exists b, standard_signed b /\ sizeof_base p b = size) ->
  exists b, find_first p [SChar; Short; Int; Long; LLong] size = Some b /\ standard_signed b /\ sizeof_base p b = size /\
    (forall b', standard_signed b' -> sizeof_base p b' = size -> rank b <= rank b').
Proof.
  intros (P1 & P2 & P3 & P4 & _) (b & Hb & E). unfold standard_signed in *. cbn [In] in *.
  cbn [find_first sizeof_base].
  repeat match goal with |- context [Nat.leb ?a ?c] => destruct (Nat.leb_spec a c) end.
  - exists SChar. cbn [sizeof_base rank]. split; [reflexivity|]. split; [auto|]. split.
    + destruct Hb as [<-|[<-|[<-|[<-|[<-|[]]]]]]; cbn [sizeof_base] in E; lia.
    + intros b' [<-|[<-|[<-|[<-|[<-|[]]]]]]; cbn [rank]; lia.
  - exists Short. cbn [sizeof_base rank]. split; [reflexivity|]. split; [auto|]. split.
    + destruct Hb as [<-|[<-|[<-|[<-|[<-|[]]]]]]; cbn [sizeof_base] in E; lia.
    + intros b' [<-|[<-|[<-|[<-|[<-|[]]]]]]; cbn [rank sizeof_base]; lia.
  - exists Int. cbn [sizeof_base rank]. split; [reflexivity|]. split; [auto|]. split.
    + destruct Hb as [<-|[<-|[<-|[<-|[<-|[]]]]]]; cbn [sizeof_base] in E; lia.
    + intros b' [<-|[<-|[<-|[<-|[<-|[]]]]]]; cbn [rank sizeof_base]; lia.
  - exists Long. cbn [sizeof_base rank]. split; [reflexivity|]. split; [auto|]. split.
    + destruct Hb as [<-|[<-|[<-|[<-|[<-|[]]]]]]; cbn [sizeof_base] in E; lia.
    + intros b' [<-|[<-|[<-|[<-|[<-|[]]]]]]; cbn [rank sizeof_base]; lia.
  - exists LLong. cbn [sizeof_base rank]. split; [reflexivity|]. split; [auto 6|]. split.
    + destruct Hb as [<-|[<-|[<-|[<-|[<-|[]]]]]]; cbn [sizeof_base] in E; lia.
    + intros b' [<-|[<-|[<-|[<-|[<-|[]]]]]]; cbn [rank sizeof_base]; lia.
  - exfalso. destruct Hb as [<-|[<-|[<-|[<-|[<-|[]]]]]]; cbn [sizeof_base] in E; lia.
Qed.

Lemma apply_cv_ok t u : is_ref t = false -> apply_cv t u = Some (add_quals (top_const t) (top_vol t) u).
Proof.
  intros R. unfold apply_cv. rewrite remove_reference_eq, is_const_eq, is_volatile_eq. destruct t; try discriminate; reflexivity.
Qed.

Lemma make_signed_base p c v b : make_signed p (TBase c v b) =
  match make_signed_impl p (TBase false false b) with Some u => Some (add_quals c v u) | None => None end.
Proof. unfold make_signed. rewrite remove_cv_base. destruct (make_signed_impl p (TBase false false b)); [|reflexivity]. now rewrite apply_cv_ok. Qed.

Lemma make_signed_ok p t : good_plat p -> (std_is_integral t /\ (forall c v, t <> TBase c v Bool)) \/ std_is_enum t ->
  exists u, make_signed p t = Some u /\ std_make_signed p t u.
Proof.
  intros G [((c & v & b & -> & I) & NB)|(c & v & n & ->)].
  - rewrite make_signed_base.
    assert (W : forall b0, b0 = WChar \/ b0 = Char16 \/ b0 = Char32 \/ b0 = Char ->
              exists b1, standard_signed b1 /\ sizeof_base p b1 = sizeof_base p b0).
    { destruct G as (_ & _ & _ & _ & G1 & G2 & G3 & _). intros b0 [->|[->|[->| ->]]]; auto.
      exists SChar. split; [now left|reflexivity]. }
    destruct b; try discriminate; try (elim (NB c v eq_refl));
      try (cbn; eexists; split; [reflexivity|]; eexists; split; [|split; [cbn; rewrite ?orb_false_r; reflexivity|cbn; reflexivity]];
           unfold standard_signed; cbn; tauto).
    + destruct (find_first_least p (sizeof_base p Char) G (W Char ltac:(auto))) as (b1 & F & Hb & E & M).
      unfold make_signed_impl. cbn [is_integral is_enum]. change (is_integral (TBase false false Char)) with true. cbn [orb choose map fst snd deduce base_eqb].
      cbn [base_eqb]. rewrite F. cbn. eexists. split; [reflexivity|]. exists b1. split; [exact Hb|]. split; [cbn; now rewrite !orb_false_r|].
      cbn. repeat split; auto. discriminate.
    + destruct (find_first_least p (sizeof_base p WChar) G (W WChar ltac:(auto))) as (b1 & F & Hb & E & M).
      unfold make_signed_impl. change (is_integral (TBase false false WChar)) with true. cbn [orb choose map fst snd deduce].
      cbn [base_eqb]. rewrite F. cbn. eexists. split; [reflexivity|]. exists b1. split; [exact Hb|]. split; [cbn; now rewrite !orb_false_r|].
      cbn. repeat split; auto. discriminate.
    + destruct (find_first_least p (sizeof_base p Char16) G (W Char16 ltac:(auto))) as (b1 & F & Hb & E & M).
      unfold make_signed_impl. change (is_integral (TBase false false Char16)) with true. cbn [orb choose map fst snd deduce].
      cbn [base_eqb]. rewrite F. cbn. eexists. split; [reflexivity|]. exists b1. split; [exact Hb|]. split; [cbn; now rewrite !orb_false_r|].
      cbn. repeat split; auto. discriminate.
    + destruct (find_first_least p (sizeof_base p Char32) G (W Char32 ltac:(auto))) as (b1 & F & Hb & E & M).
      unfold make_signed_impl. change (is_integral (TBase false false Char32)) with true. cbn [orb choose map fst snd deduce].
      cbn [base_eqb]. rewrite F. cbn. eexists. split; [reflexivity|]. exists b1. split; [exact Hb|]. split; [cbn; now rewrite !orb_false_r|].
      cbn. repeat split; auto. discriminate.
  - assert (GE : exists b, standard_signed b /\ sizeof_base p b = sz_enum p n) by (destruct G as (_ & _ & _ & _ & _ & _ & _ & GE & _); auto).
    destruct (find_first_least p (sz_enum p n) G GE) as (b1 & F & Hb & E & M).
    unfold make_signed. rewrite remove_cv_eq. cbn [drop_const drop_vol]. unfold make_signed_impl. rewrite is_enum_eq, orb_true_r.
    cbn [choose map deduce fst snd]. rewrite F. cbn [option_map]. rewrite apply_cv_ok by reflexivity.
    eexists. split; [reflexivity|]. exists b1. split; [exact Hb|]. split; [cbn; now rewrite !orb_false_r|]. auto.
Qed.

Lemma make_unsigned_base p b : (standard_signed b \/ standard_unsigned b) ->
  make_unsigned p (TBase false false b) = option_map (TBase false false) (uint_of_width p (sizeof_base p b)).
Proof. intros [[<-|[<-|[<-|[<-|[<-|[]]]]]]|[<-|[<-|[<-|[<-|[<-|[]]]]]]]; reflexivity. Qed.
Lemma partner_signed b : standard_unsigned b -> exists s, standard_signed s /\ partner b = Some s.
Proof.
  intros [<-|[<-|[<-|[<-|[<-|[]]]]]]; eexists; (split; [|reflexivity]); unfold standard_signed; cbn; tauto.
Qed.
Lemma unsigned_size p b : good_plat p -> standard_signed b \/ standard_unsigned b -> In (sizeof_base p b) [1; 2; 4; 8].
Proof.
  intros (_ & _ & _ & _ & _ & _ & _ & _ & H & _) [S|S]; [auto|].
  destruct S as [<-|[<-|[<-|[<-|[<-|[]]]]]]; [apply (H SChar)|apply (H Short)|apply (H Int)|apply (H Long)|apply (H LLong)]; unfold standard_signed; cbn; tauto.
Qed.
Lemma make_unsigned_ok p b : good_plat p -> standard_signed b \/ standard_unsigned b ->
  exists u, make_unsigned p (TBase false false b) = Some (TBase false false u) /\ standard_unsigned u /\ sizeof_base p u = sizeof_base p b.
Proof.
  intros G H. rewrite make_unsigned_base by exact H. pose proof (unsigned_size p b G H) as I.
  destruct G as (_ & _ & _ & _ & _ & _ & _ & _ & _ & U1 & U2 & U4 & U8 & E1 & E2 & E4 & E8).
  destruct I as [I|[I|[I|[I|[]]]]]; rewrite <- I; cbn [uint_of_width option_map]; eexists; (split; [reflexivity|]); auto.
Qed.
Lemma make_unsigned_none p t : (forall b, standard_signed b \/ standard_unsigned b -> t <> TBase false false b) -> make_unsigned p t = None.
Proof.
  intros N. destruct t as [c v b| | | | | | |]; try reflexivity. destruct c, v; try reflexivity.
  destruct b; try reflexivity; exfalso; (eapply N; [|reflexivity]); unfold standard_signed, standard_unsigned; cbn; tauto.
Qed.
Lemma make_unsigned_same p a b u w : standard_signed a -> standard_signed b -> a <> b -> sizeof_base p a = sizeof_base p b ->
  make_unsigned p (TBase false false a) = Some u -> make_unsigned p (TBase false false b) = Some w ->
  ~ (exists x y, partner a = Some x /\ partner b = Some y /\ u = TBase false false x /\ w = TBase false false y).
Proof.
  intros Ha Hb N E Eu Ew (x & y & Pa & Pb & -> & ->). rewrite make_unsigned_base in Eu, Ew by auto. rewrite E in Eu.
  rewrite Eu in Ew. injection Ew as ->.
  destruct Ha as [<-|[<-|[<-|[<-|[<-|[]]]]]]; destruct Hb as [<-|[<-|[<-|[<-|[<-|[]]]]]]; cbn in Pa, Pb; congruence.
Qed.

(* ---- is_base_of ---- *)

Lemma is_base_of_ok h b d : ~ std_is_union b -> ~ std_is_union d -> (is_base_of h b d = true <-> std_is_base_of h b d).
Proof.
  intros NB ND. unfold is_base_of, std_is_base_of. rewrite !is_class_eq.
  destruct b as [|c v k n| | | | | |]; try (cbn; split; [discriminate|intros (? & ? & ? & ? & ? & ? & E & _); discriminate]).
  destruct k; [|elim NB; now exists c, v, n|cbn; split; [discriminate|intros (? & ? & ? & ? & ? & ? & E & _); discriminate]].
  destruct d as [|c' v' k' n'| | | | | |]; try (cbn; split; [discriminate|intros (? & ? & ? & ? & ? & ? & _ & E & _); discriminate]).
  destruct k'; [|elim ND; now exists c', v', n'|cbn; split; [discriminate|intros (? & ? & ? & ? & ? & ? & _ & E & _); discriminate]].
  cbn [andb user_eqb]. replace (user_eqb Class Class) with true by reflexivity. cbn [andb].
  destruct (Nat.eqb_spec n n') as [->|NE].
  - split; [|reflexivity]. intros _. exists c, v, n', c', v', n'. auto.
  - destruct (h n n') as [[|]|] eqn:E.
    + split; [|reflexivity]. intros _. exists c, v, n, c', v', n'. repeat split; auto. right. congruence.
    + split; [|reflexivity]. intros _. exists c, v, n, c', v', n'. repeat split; auto. right. congruence.
    + split; [discriminate|]. intros (? & ? & ? & ? & ? & ? & E1 & E2 & [K|K]); injection E1; injection E2; intros; subst; congruence.
Qed.

Lemma conjunction_ok l : conjunction l = std_conjunction l.
Proof.
  induction l as [|b r IH]; [reflexivity|]. destruct r as [|b' r].
  - now destruct b as [[|]|].
  - destruct b as [[|]|]; [exact IH|reflexivity|reflexivity].
Qed.
Lemma disjunction_ok l : disjunction l = std_disjunction l.
Proof.
  induction l as [|b r IH]; [reflexivity|]. destruct r as [|b' r].
  - now destruct b as [[|]|].
  - destruct b as [[|]|]; [reflexivity|exact IH|reflexivity].
Qed.

(* ---- the relations determine their results ---- *)

Lemma drop_const_of_add c v u : top_const u = false -> drop_const (add_quals c v u) = add_quals false v u.
Proof. induction u; cbn; intros H; subst; try reflexivity. f_equal. auto. Qed.
Lemma drop_vol_of_add c v u : top_vol u = false -> drop_vol (add_quals c v u) = add_quals c false u.
Proof. induction u; cbn; intros H; subst; try reflexivity. f_equal. auto. Qed.
Lemma add_none u : add_quals false false u = u.
Proof. induction u; cbn; try reflexivity. now f_equal. Qed.
Lemma not_const u : legal u = true -> ~ std_is_const u -> top_const u = false.
Proof. intros L N. destruct (top_const u) eqn:E; auto. elim N. now apply std_const_iff. Qed.
Lemma not_vol u : legal u = true -> ~ std_is_volatile u -> top_vol u = false.
Proof. intros L N. destruct (top_vol u) eqn:E; auto. elim N. now apply std_vol_iff. Qed.
Lemma remove_const_unique t u : legal u = true -> std_remove_const t u -> u = remove_const t.
Proof.
  intros L (N & [-> | ->]); rewrite remove_const_eq; apply not_const in N; auto.
  - now rewrite drop_const_id.
  - rewrite drop_const_of_add, add_none; auto.
Qed.
Lemma remove_volatile_unique t u : legal u = true -> std_remove_volatile t u -> u = remove_volatile t.
Proof.
  intros L (N & [-> | ->]); rewrite remove_volatile_eq; apply not_vol in N; auto.
  - now rewrite drop_vol_id.
  - rewrite drop_vol_of_add, add_none; auto.
Qed.
Lemma remove_cv_unique t u : legal u = true -> std_remove_cv t u -> u = remove_cv t.
Proof.
  intros L (N & V & c & v & ->). rewrite remove_cv_eq. apply not_const in N; auto. apply not_vol in V; auto.
  now rewrite drop_const_of_add, drop_vol_of_add, add_none.
Qed.
Lemma remove_reference_unique t u : std_remove_reference t u -> u = remove_reference t.
Proof. intros (R & [-> |[-> | ->]]); [|reflexivity|reflexivity]. destruct u; try reflexivity; discriminate. Qed.
