(* Type traits. *)
From Coq Require Import List Bool Arith Lia.
From Verif Require Import Tt_Lang Tt_Spec Tt_Model Tt_Proofs.
Import ListNotations.

Definition int_ : ty := TBase false false Int.
Definition cint : ty := TBase true false Int.

(* ---------- C358: qualifiers, references, extents and pointers are removed and added ---------- *)

Theorem C358_removals : forall t, legal t = true ->
  std_remove_const t (remove_const t) /\ std_remove_volatile t (remove_volatile t) /\ std_remove_cv t (remove_cv t) /\
  std_remove_reference t (remove_reference t) /\ std_remove_cvref t (remove_cvref t) /\
  std_remove_extent t (remove_extent t) /\ std_remove_pointer t (remove_pointer t).
Proof.
  intros t L. repeat match goal with |- _ /\ _ => split end; auto using remove_const_ok, remove_volatile_ok, remove_cv_ok,
    remove_reference_ok, remove_cvref_ok, remove_extent_ok, remove_pointer_ok.
Qed.
Print Assumptions C358_removals.

(* the statements above leave no choice *)
Theorem C358_only_result : forall t u, legal u = true ->
  (std_remove_const t u -> u = remove_const t) /\ (std_remove_volatile t u -> u = remove_volatile t) /\
  (std_remove_cv t u -> u = remove_cv t) /\ (std_remove_reference t u -> u = remove_reference t).
Proof.
  intros t u L. repeat split; intros; auto using remove_const_unique, remove_volatile_unique, remove_cv_unique, remove_reference_unique.
Qed.
Print Assumptions C358_only_result.

(* add_const, add_volatile and add_cv give the type with the qualifier, whatever it had *)
Theorem C358_additions : forall t, legal t = true -> is_ref t = false -> is_fun t = false ->
  std_is_const (add_const t) /\ remove_const (add_const t) = remove_const t /\
  std_is_volatile (add_volatile t) /\ remove_volatile (add_volatile t) = remove_volatile t /\
  add_cv t = add_volatile (add_const t).
Proof.
  intros t L R F. unfold add_const, add_volatile, add_cv.
  assert (S : forall c v, is_ref (add_quals c v t) = false /\ is_fun (add_quals c v t) = false).
  { intros c v. destruct (add_quals_shape c v t) as (-> & -> & _). auto. }
  assert (I : forall c v c' v', add_quals c v (add_quals c' v' t) = add_quals (c || c') (v || v') t).
  { intros c v c' v'. clear - t. induction t; cbn; rewrite ?orb_assoc; try reflexivity. now f_equal. }
  repeat split; try apply S; try (rewrite I; reflexivity).
  - rewrite !remove_const_eq. clear - t. induction t; cbn; try reflexivity. now f_equal.
  - rewrite !remove_volatile_eq. clear - t. induction t; cbn; try reflexivity. now f_equal.
Qed.
Print Assumptions C358_additions.

Example C358_case : let t := TArr (Some 3) (TPtr true true cint) in legal t = true /\
  remove_cv t = TArr (Some 3) (TPtr false false cint) /\ remove_extent t = TPtr true true cint /\
  remove_pointer (TPtr true true cint) = cint /\ remove_cvref (TRRef t) = TArr (Some 3) (TPtr false false cint) /\
  add_const (TArr None int_) = TArr None cint.
Proof. cbn. repeat split. Qed.

(* ---------- C359: categories ---------- *)

Theorem C359_categories : forall p t, legal t = true ->
  (is_void t = true <-> std_void t) /\ (is_integral t = true <-> std_is_integral t) /\
  (is_floating_point t = true <-> std_is_floating t) /\ (is_arithmetic t = true <-> std_is_arithmetic t) /\
  (is_array t = true <-> std_is_array t) /\ (is_pointer t = true <-> std_is_pointer t) /\
  (is_const t = true <-> std_is_const t) /\ (is_volatile t = true <-> std_is_volatile t) /\
  (is_signed p t = true <-> std_is_signed p t) /\
  (is_lvalue_reference t = true <-> exists u, t = TLRef u) /\ (is_rvalue_reference t = true <-> exists u, t = TRRef u) /\
  (is_reference t = true <-> exists u, t = TLRef u \/ t = TRRef u) /\
  (is_member_pointer t = true <-> exists c v n u, t = TMem c v n u).
Proof.
  intros p t L. rewrite is_const_eq, is_volatile_eq, std_const_iff, std_vol_iff by exact L.
  destruct (is_reference_ok t) as (E & El & Er).
  repeat match goal with |- _ /\ _ => split end; auto using is_void_ok, is_integral_ok, is_floating_ok, is_arithmetic_ok, is_array_ok,
    is_pointer_ok, is_signed_ok, is_member_pointer_ok; try reflexivity.
  rewrite E. destruct t; cbn; split; intros H; try discriminate; eauto; destruct H as (? & [H|H]); discriminate.
Qed.
Print Assumptions C359_categories.

Theorem C359_is_same : forall t u, is_same t u = true <-> t = u.
Proof. intros. apply ty_eqb_eq. Qed.
Print Assumptions C359_is_same.

Example C359_case : is_integral (TBase true true Char16) = true /\ is_integral (TLRef int_) = false /\ is_array (TArr None cint) = true /\
  is_const (TArr None cint) = true /\ is_const (TPtr false false cint) = false /\
  is_same (TFun int_ [int_] false false false NoRef false) (TFun int_ [int_] true false false NoRef false) = false.
Proof. repeat split. Qed.

(* ---------- C360: functions, classes, enumerations ---------- *)

(* is_function is right for every type but functions with an ellipsis and no
   noexcept (C361), is_class for every type but unions (C362), is_enum for all but
   those functions, nullptr_t and pointers to members (C363), is_unsigned for
   arithmetic types (C364). *)
Theorem C360_functions_classes_enums : forall p t,
  (c_variadic t = false -> (is_function t = true <-> std_is_function t)) /\
  (~ std_is_union t -> (is_class t = true <-> std_is_class t)) /\
  (c_variadic t = false -> (forall c v, t <> TBase c v NullptrT) -> (forall c v n u, t <> TMem c v n u) ->
     (is_enum t = true <-> std_is_enum t)) /\
  (std_is_arithmetic t -> (is_unsigned p t = true <-> std_is_unsigned p t)) /\
  ((forall c v n u, t = TMem c v n u -> c_variadic u = false) ->
     (is_member_function_pointer t = true <-> std_is_member_function_pointer t) /\
     (is_member_object_pointer t = true <-> std_is_member_object_pointer t)).
Proof.
  intros p t. repeat match goal with |- _ /\ _ => split end.
  - intros V. rewrite is_function_eq, V. cbn [negb]. rewrite andb_true_r. apply is_fun_ok.
  - intros NU. rewrite is_class_eq. unfold std_is_class. destruct t as [|c v [| |] n| | | | | |]; split; intros H; try discriminate;
      try (now destruct H as (? & ? & ? & H)); eauto. elim NU. now exists c, v, n.
  - intros V NN NM. rewrite is_enum_eq. unfold std_is_enum. destruct t as [c v b|c v [| |] n|c v u|c v m u|u|u|m u|r a e c v q x];
      try (elim (NM c v m u eq_refl)); try (rewrite V);
      try (split; intros H; [discriminate H|destruct H as (? & ? & ? & H); discriminate H]); [|split; eauto].
    destruct b; try (split; intros H; [discriminate H|destruct H as (? & ? & ? & H); discriminate H]). elim (NN c v eq_refl).
  - apply is_unsigned_arith.
  - intros H. unfold is_member_object_pointer. rewrite is_member_function_eq.
    unfold std_is_member_function_pointer, std_is_member_object_pointer.
    assert (M := is_member_pointer_ok t).
    destruct t as [c v b|c v k n|c v u|c v m u|u|u|m u|r a e c v q x];
      try (split; [split; [discriminate|intros (? & ? & ? & ? & E & _); discriminate E]|
                   split; [rewrite andb_true_iff; intros (E & _); apply M in E as (? & ? & ? & ? & E); discriminate E|
                           intros (? & ? & ? & ? & E & _); discriminate E]]).
    rewrite (H c v m u eq_refl). cbn [negb]. rewrite andb_true_r. split.
    + split; [intros F; now exists c, v, m, u|]. intros (? & ? & ? & ? & E & F). injection E as <- <- <- <-. exact F.
    + rewrite andb_true_iff, negb_true_iff. split; [intros (_ & F); now exists c, v, m, u|].
      intros (? & ? & ? & ? & E & F). injection E as <- <- <- <-. split; [apply M; eauto|exact F].
Qed.
Print Assumptions C360_functions_classes_enums.

Example C360_case : is_function (TFun int_ [int_] false true false RefR true) = true /\ is_function (TFun int_ [] true false false NoRef true) = true /\
  is_class (TUser true false Class 3) = true /\ is_enum (TUser false true Enum 1) = true /\ is_enum (TUser false true Class 1) = false /\
  is_member_function_pointer (TMem true false 4 (TFun int_ [] false true false NoRef false)) = true.
Proof. repeat split. Qed.

(* ---------- C361: C-style variadic functions ---------- *)

(* Every function type with an ellipsis and no noexcept, as that of printf: not a
   function but an enumeration; and a pointer to such a member function is a
   pointer to an object member. *)
Theorem C361_variadic_functions_refuted : forall r a c v q cls,
  let f := TFun r a true c v q false in
  is_function f = false /\ is_enum f = true /\
  is_member_function_pointer (TMem false false cls f) = false /\ is_member_object_pointer (TMem false false cls f) = true.
Proof.
  intros r a c v q cls f. assert (F : is_function f = false) by (rewrite is_function_eq; reflexivity).
  assert (M : is_member_function_pointer (TMem false false cls f) = false) by (rewrite is_member_function_eq; reflexivity).
  split; [exact F|]. split; [now rewrite is_enum_eq|]. split; [exact M|].
  unfold is_member_object_pointer. rewrite M. reflexivity.
Qed.
Print Assumptions C361_variadic_functions_refuted.

Example C361_case : let printf := TFun int_ [TPtr false false (TBase true false Char)] true false false NoRef false in
  legal printf = true /\ std_is_function printf /\ is_function printf = false.
Proof. cbn zeta. split; [reflexivity|]. split; [now repeat eexists|reflexivity]. Qed.

(* ---------- C362: unions ---------- *)

Theorem C362_unions_refuted : forall c v n, let u := TUser c v Union n in is_union u = false /\ is_class u = true.
Proof. intros c v n u. split; [reflexivity|]. unfold u. now rewrite is_class_eq. Qed.
Print Assumptions C362_unions_refuted.

Example C362_case : std_is_union (TUser false false Union 7) /\ ~ std_is_class (TUser false false Union 7).
Proof. split; [now exists false, false, 7|]. intros (? & ? & ? & H). discriminate. Qed.

(* ---------- C363: what is taken for an enumeration ---------- *)

Theorem C363_not_enumerations_refuted : forall c v n t, is_enum (TBase c v NullptrT) = true /\ is_enum (TMem c v n t) = true.
Proof. intros c v n t. split; now rewrite is_enum_eq. Qed.
Print Assumptions C363_not_enumerations_refuted.

Example C363_case : ~ std_is_enum (TMem false false 2 int_) /\ legal (TMem false false 2 int_) = true.
Proof. split; [intros (? & ? & ? & H); discriminate|reflexivity]. Qed.

(* ---------- C364: what is taken for unsigned ---------- *)

Theorem C364_not_arithmetic_refuted : forall p t, ~ std_is_arithmetic t -> is_unsigned p t = true /\ ~ std_is_unsigned p t.
Proof. intros p t N. split; [now apply is_unsigned_other|]. intros (? & ? & ? & _ & A & _). contradiction. Qed.
Print Assumptions C364_not_arithmetic_refuted.

Example C364_case : ~ std_is_arithmetic (TPtr false false int_) /\ ~ std_is_arithmetic (TLRef int_) /\ ~ std_is_arithmetic (TUser false false Class 1).
Proof. repeat split; intros [(? & ? & ? & H & _)|(? & ? & ? & H & _)]; discriminate. Qed.

(* ---------- C365: references, pointers and decay ---------- *)

Theorem C365_references : forall t, legal t = true ->
  (referenceable t = true \/ t = TBase false false Void -> add_lvalue_reference t = Some (std_add_lvalue_reference t)) /\
  (referenceable t = true -> add_rvalue_reference t = Some (std_add_rvalue_reference t)) /\
  declval t = std_add_rvalue_reference t.
Proof. intros t _. repeat split; auto using add_lvalue_reference_ok, add_rvalue_reference_ok. Qed.
Print Assumptions C365_references.

(* std::forward<T> keeps what it is given, std::move makes it an rvalue; T as the
   call deduces it for an lvalue (u&) or an rvalue (u) *)
Theorem C365_forward_and_move : forall u, is_ref u = false -> referenceable u = true ->
  forward (TLRef u) = Some (TLRef u) /\ forward u = Some (TRRef u) /\ forward (TRRef u) = Some (TRRef u) /\
  move (TLRef u) = Some (TRRef u) /\ move u = Some (TRRef u).
Proof.
  intros u R F. unfold forward, move. rewrite !remove_reference_eq. cbn [without_ref].
  assert (E : mk_rref u = Some (TRRef u)) by (unfold mk_rref; destruct u; try discriminate; rewrite ?F; reflexivity).
  repeat split; try exact E. destruct u; try discriminate; exact E.
Qed.
Print Assumptions C365_forward_and_move.


Theorem C365_pointers : forall t, legal t = true -> noexcept_fun t = false -> c_variadic t = false \/ abominable t = false ->
  add_pointer t = Some (std_add_pointer t).
Proof.
  intros t L X V. apply add_pointer_ok; [exact L|]. destruct (is_fun t); [right|now left].
  destruct (abominable t) eqn:A; [right|left]; split; auto. destruct V; congruence.
Qed.
Print Assumptions C365_pointers.

Theorem C365_decay : forall t, legal t = true ->
  (is_fun (without_ref t) = true ->
     abominable (without_ref t) = false /\ noexcept_fun (without_ref t) = false /\ c_variadic (without_ref t) = false) ->
  exists u, decay t = Some u /\ std_decay t u.
Proof. intros t L H. now apply decay_ok. Qed.
Print Assumptions C365_decay.

Example C365_case : let f := TFun int_ [int_] false false false NoRef false in
  decay (TLRef (TArr (Some 4) cint)) = Some (TPtr false false cint) /\ decay (TLRef f) = Some (TPtr false false f) /\
  decay (TRRef (TPtr true true int_)) = Some (TPtr false false int_) /\ add_lvalue_reference (TRRef int_) = Some (TLRef int_) /\
  add_rvalue_reference (TLRef int_) = Some (TLRef int_) /\ add_pointer (TLRef cint) = Some (TPtr false false cint) /\
  declval (TBase true false Void) = TBase true false Void.
Proof. cbn zeta. repeat split. Qed.

(* ---------- C366: references to what has none ---------- *)

(* For qualified void and for functions with qualifiers, add_lvalue_reference is an
   error instead of the type itself; add_rvalue_reference also for void. *)
Theorem C366_no_reference_refuted : forall t, legal t = true -> referenceable t = false ->
  (t <> TBase false false Void -> add_lvalue_reference t = None) /\ add_rvalue_reference t = None /\
  std_add_lvalue_reference t = t /\ std_add_rvalue_reference t = t.
Proof.
  intros t _ R. repeat split; auto using add_lvalue_reference_none, add_rvalue_reference_none.
  - unfold std_add_lvalue_reference, mk_lref. destruct t; try discriminate; now rewrite R.
  - unfold std_add_rvalue_reference, mk_rref. destruct t; try discriminate; now rewrite R.
Qed.
Print Assumptions C366_no_reference_refuted.

Example C366_case : referenceable (TBase false false Void) = false /\ referenceable (TBase true false Void) = false /\
  referenceable (TFun int_ [] false true false NoRef false) = false /\ add_rvalue_reference (TBase false false Void) = None.
Proof. repeat split. Qed.

(* ---------- C367: pointers to functions, decay of functions ---------- *)

(* noexcept functions, and in decay those with an ellipsis, stay functions *)
Theorem C367_stay_functions_refuted : forall r a e x, e || x = true ->
  let f := TFun r a e false false NoRef x in
  decay f = Some f /\ decay (TLRef f) = Some f /\ (x = true -> add_pointer f = Some f) /\
  std_add_pointer f = TPtr false false f /\ ~ std_decay f f.
Proof.
  intros r a e x E f.
  assert (D : decay f = Some f /\ decay (TLRef f) = Some f).
  { destruct x; [now apply decay_noexcept|]. destruct e; [now apply decay_variadic|discriminate]. }
  destruct D as (D1 & D2). repeat split; auto.
  - intros ->. now apply add_pointer_noexcept.
  - unfold std_decay. cbn [without_ref f]. intros [(? & ? & H & _)|[(_ & H)|(_ & NF & _)]]; try discriminate.
    apply NF. now repeat eexists.
Qed.
Print Assumptions C367_stay_functions_refuted.

(* decay of a function with qualifiers is an error instead of the type itself, and
   so is add_pointer if it has an ellipsis and no noexcept *)
Theorem C367_errors_refuted : forall t, abominable t = true ->
  decay t = None /\ (c_variadic t = true -> add_pointer t = None) /\ std_add_pointer t = t /\ std_decay t t.
Proof.
  intros t A. repeat split; auto using decay_abominable, add_pointer_abom_variadic.
  - destruct t as [| | | | | | |r a e c v q x]; try discriminate. unfold std_add_pointer. cbn [without_ref]. unfold mk_ptr. now rewrite A.
  - destruct t as [| | | | | | |r a e c v q x]; try discriminate. unfold std_decay. cbn [without_ref]. right; left.
    split; [now repeat eexists|]. unfold std_add_pointer. cbn [without_ref]. unfold mk_ptr. now rewrite A.
Qed.
Print Assumptions C367_errors_refuted.

Example C367_case : let f := TFun int_ [] false false false NoRef true in legal f = true /\ std_add_pointer f = TPtr false false f /\
  decay (TLRef f) = Some f /\ decay (TFun int_ [] false true false NoRef false) = None.
Proof. cbn zeta. repeat split. Qed.

(* ---------- C368, C369: make_signed, make_unsigned ---------- *)

Theorem C368_make_signed : forall p t, good_plat p ->
  (std_is_integral t /\ (forall c v, t <> TBase c v Bool)) \/ std_is_enum t ->
  exists u, make_signed p t = Some u /\ std_make_signed p t u.
Proof. exact make_signed_ok. Qed.
Print Assumptions C368_make_signed.

(* a 64-bit Linux and an AVR *)
Definition lp64 : plat := Plat 2 4 8 8 4 2 4 true true (fun _ => 4) UChar UShort UInt ULong.
Definition avr : plat := Plat 2 2 4 8 2 2 4 true true (fun _ => 2) UChar UInt ULong ULLong.
Ltac platform := unfold good_plat, standard_signed, standard_unsigned; cbn;
  repeat match goal with |- _ /\ _ => split end;
  try lia; try tauto; try (now (exists Int + exists Long + exists Short); split; [tauto|reflexivity]);
  try (now intros _; exists Int; split; [tauto|reflexivity]);
  try (intros b [<-|[<-|[<-|[<-|[<-|[]]]]]]; cbn; tauto).
Lemma lp64_good : good_plat lp64.
Proof. platform. Qed.
Lemma avr_good : good_plat avr.
Proof. platform. Qed.

Example C368_case : good_plat lp64 /\ good_plat avr /\ make_signed lp64 (TBase true false UInt) = Some (TBase true false Int) /\
  make_signed lp64 (TBase false false WChar) = Some int_ /\ make_signed avr (TBase false true WChar) = Some (TBase false true Short) /\
  make_signed avr (TUser false false Enum 4) = Some (TBase false false Short).
Proof. split; [exact lp64_good|]. split; [exact avr_good|]. repeat split. Qed.

(* for the signed and unsigned integer types, without qualifiers: the unsigned
   type of that size the platform calls uintN_t *)
Theorem C369_make_unsigned : forall p b, good_plat p -> standard_signed b \/ standard_unsigned b ->
  exists u, make_unsigned p (TBase false false b) = Some (TBase false false u) /\ standard_unsigned u /\ sizeof_base p u = sizeof_base p b.
Proof. exact make_unsigned_ok. Qed.
Print Assumptions C369_make_unsigned.

Example C369_case : make_unsigned lp64 int_ = Some (TBase false false UInt) /\ make_unsigned avr (TBase false false Long) = Some (TBase false false ULong).
Proof. split; reflexivity. Qed.

(* ---------- C370: make_unsigned elsewhere ---------- *)

Theorem C370_no_type_refuted : forall p t,
  (forall b, standard_signed b \/ standard_unsigned b -> t <> TBase false false b) -> make_unsigned p t = None.
Proof. exact make_unsigned_none. Qed.
Print Assumptions C370_no_type_refuted.

(* of two types of one size, one gets the unsigned type of the other *)
Theorem C370_wrong_type_refuted : forall p a b, good_plat p -> standard_signed a -> standard_signed b -> a <> b ->
  sizeof_base p a = sizeof_base p b ->
  exists t x y, (t = a \/ t = b) /\ partner t = Some x /\ make_unsigned p (TBase false false t) = Some (TBase false false y) /\ x <> y.
Proof.
  intros p a b G Ha Hb N E. destruct (make_unsigned_ok p a G (or_introl Ha)) as (u & Eu & _).
  destruct (make_unsigned_ok p b G (or_introl Hb)) as (w & Ew & _).
  assert (P : forall s, standard_signed s -> exists x, partner s = Some x).
  { intros s [<-|[<-|[<-|[<-|[<-|[]]]]]]; eexists; reflexivity. }
  destruct (P a Ha) as (x & Px). destruct (P b Hb) as (y & Py).
  pose proof (make_unsigned_same p a b _ _ Ha Hb N E Eu Ew) as C.
  assert (D : {x = u} + {x <> u}) by decide equality.
  destruct D as [<-|D]; [|exists a, x, u; auto].
  assert (D : {y = w} + {y <> w}) by decide equality.
  destruct D as [<-|D]; [|exists b, y, w; auto]. elim C. now exists x, y.
Qed.
Print Assumptions C370_wrong_type_refuted.

Example C370_case : sizeof_base lp64 Long = sizeof_base lp64 LLong /\ make_unsigned lp64 (TBase false false LLong) = Some (TBase false false ULong) /\
  make_unsigned lp64 (TBase true false Int) = None /\ make_unsigned lp64 (TBase false false Char) = None /\
  make_unsigned lp64 (TUser false false Enum 0) = None.
Proof. repeat split. Qed.

(* ---------- C371, C372: is_base_of ---------- *)

Theorem C371_is_base_of : forall h b d, ~ std_is_union b -> ~ std_is_union d -> (is_base_of h b d = true <-> std_is_base_of h b d).
Proof. exact is_base_of_ok. Qed.
Print Assumptions C371_is_base_of.

Example C371_case : let h := fun b d => if (b =? 1) && (d =? 2) then Some false else None in
  is_base_of h (TUser true false Class 1) (TUser false false Class 2) = true /\ is_base_of h (TUser false false Class 2) (TUser false false Class 1) = false /\
  is_base_of h (TUser false false Class 5) (TUser true true Class 5) = true /\ is_base_of h int_ int_ = false.
Proof. repeat split. Qed.

Theorem C372_union_refuted : forall h c v c' v' n, is_base_of h (TUser c v Union n) (TUser c' v' Union n) = true /\
  ~ std_is_base_of h (TUser c v Union n) (TUser c' v' Union n).
Proof.
  intros h c v c' v' n. split.
  - unfold is_base_of. rewrite !is_class_eq. cbn [andb]. rewrite Nat.eqb_refl. reflexivity.
  - intros (? & ? & ? & ? & ? & ? & E & _). discriminate.
Qed.
Print Assumptions C372_union_refuted.

Example C372_case : is_base_of (fun _ _ => None) (TUser false false Union 1) (TUser false false Union 1) = true /\
  is_base_of (fun _ _ => None) (TUser false false Union 1) (TUser false false Union 2) = false.
Proof. split; reflexivity. Qed.

(* ---------- C373: conjunction and disjunction ---------- *)

Theorem C373_conjunction_disjunction : forall l, conjunction l = std_conjunction l /\ disjunction l = std_disjunction l.
Proof. intros l. split; [apply conjunction_ok|apply disjunction_ok]. Qed.
Print Assumptions C373_conjunction_disjunction.

(* what decides, decides, whatever stands behind it *)
Theorem C373_stops : forall n l, conjunction (repeat (Some true) n ++ Some false :: l) = Some false /\
  disjunction (repeat (Some false) n ++ Some true :: l) = Some true.
Proof.
  intros n l. rewrite conjunction_ok, disjunction_ok. induction n as [|n (IH1 & IH2)]; [split; reflexivity|]. split; [exact IH1|exact IH2].
Qed.
Print Assumptions C373_stops.

Theorem C373_values : forall l, conjunction (map Some l) = Some (forallb id l) /\ disjunction (map Some l) = Some (existsb id l).
Proof.
  intros l. rewrite conjunction_ok, disjunction_ok. induction l as [|b l (IH1 & IH2)]; [split; reflexivity|].
  cbn. rewrite IH1, IH2. now destruct b.
Qed.
Print Assumptions C373_values.

Example C373_case : conjunction [Some true; Some false; None] = Some false /\ conjunction [Some true; None; Some false] = None /\
  disjunction [Some false; Some true; None] = Some true /\ conjunction [] = Some true.
Proof. repeat split. Qed.
