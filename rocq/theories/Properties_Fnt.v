(* function_traits, common_type, div and errc. *)
From Coq Require Import List Bool Arith ZArith Lia Permutation.
From Verif Require Import Base Tt_Lang Tt_Spec Tt_Model Tt_Proofs Fnt_Lang Fnt_Spec Fnt_Model Fnt_Proofs.
Import ListNotations.
Local Open Scope Z_scope.

(* ---------- C374: function_traits ---------- *)

(* For every return type and every list of parameters: functions, references to them and estd
   functions; *)
Theorem C374_functions : forall cl r a u, let f := TFun r a false false false NoRef false in
  u = f \/ u = TLRef f \/ (exists n, u = TUser false false Class n /\ estd_function cl n = Some f) ->
  exists t, function_traits cl u = Some t /\ return_type t = r /\ nargs t = length a /\ (forall i, arg t i = nth_error a i) /\
    is_method t = false /\ function_type t = f.
Proof.
  intros cl r a u f [->|[->|(n & -> & E)]]; cbn [function_traits]; try (rewrite E; cbn [orb]);
    (eexists; split; [reflexivity|]; repeat split).
Qed.
Print Assumptions C374_functions.

(* pointers to (const) member functions and objects with one (const) call operator *)
Theorem C374_methods : forall cl r a k c u, let m := TMem false false c (TFun r a false k false NoRef false) in
  u = m \/ (exists v w n, (u = TUser v w Class n /\ estd_function cl n = None \/ u = TUser v w Union n) /\ call_operator cl n = Some m) ->
  exists t, function_traits cl u = Some t /\ return_type t = r /\ nargs t = length a /\ (forall i, arg t i = nth_error a i) /\
    is_method t = true /\ function_type t = m /\ class_type t = Some c.
Proof.
  intros cl r a k c u m [->|(v & w & n & [(-> & E)| ->] & C)]; cbn [function_traits]; rewrite ?E, ?C;
    (eexists; split; [reflexivity|]; repeat split).
Qed.
Print Assumptions C374_methods.

Example C374_case : let i := TBase false false Int in
  let cl := Classes (fun n => if Nat.eqb n 1 then Some (TMem false false 1 (TFun i [i; TLRef i] false true false NoRef false)) else None) (fun _ => None) in
  match function_traits cl (TUser false false Class 1) with
  | Some t => return_type t = i /\ nargs t = 2%nat /\ arg t 1 = Some (TLRef i) /\ arg t 2 = None /\ is_method t = true
  | None => False
  end.
Proof. repeat split. Qed.

(* ---------- C375: other callables ---------- *)

(* Functions that are variadic, noexcept or have qualifiers, members that are variadic, noexcept,
   volatile or have a & or &&, pointers and rvalue references to functions and objects with another
   call operator have no traits. *)
Theorem C375_other_callables_refuted : forall cl r a e c v q x,
  let f := TFun r a e c v q x in
  ((e || c || v || x = true \/ q <> NoRef) -> function_traits cl f = None /\ function_traits cl (TLRef f) = None) /\
  ((e || v || x = true \/ q <> NoRef) -> (forall n, function_traits cl (TMem false false n f) = None) /\
     (forall c' v' n n', estd_function cl n = None -> call_operator cl n = Some (TMem false false n' f) -> function_traits cl (TUser c' v' Class n) = None)) /\
  (forall c' v', function_traits cl (TPtr c' v' f) = None) /\ function_traits cl (TRRef f) = None.
Proof.
  intros cl r a e c v q x f. repeat split; try reflexivity;
    try (intros c' v' n n' E C; cbn [function_traits]; rewrite E, C); try intros n; subst f; cbn [function_traits];
    destruct e, v, x, q; try reflexivity; destruct H as [H|H]; try discriminate H; try congruence; destruct c; try reflexivity; discriminate H.
Qed.
Print Assumptions C375_other_callables_refuted.

Example C375_case : let i := TBase false false Int in let f := TFun i [i] false false false NoRef true in
  legal f = true /\ function_traits (Classes (fun _ => None) (fun _ => None)) f = None /\
  function_traits (Classes (fun _ => None) (fun _ => None)) (TPtr false false (TFun i [i] false false false NoRef false)) = None.
Proof. repeat split. Qed.

(* ---------- C376: common_type of arithmetic types ---------- *)

(* There is one, an arithmetic type. *)
Theorem C376_exists : forall p other bs l, good_plat p -> Forall2 is_a bs l -> l <> [] ->
  exists b, common_type p other l = Some (TBase false false b) /\ arithmetic_base b = true.
Proof.
  intros p other bs l G F N. rewrite (common_ok p other bs l G F). destruct F as [|b t bs l I F]; [congruence|].
  cbn. eexists. split; [reflexivity|]. apply fold_arith; [exact G|apply I|].
  clear - F. induction F; constructor; auto. apply H.
Qed.
Print Assumptions C376_exists.

Lemma arith_of bs l : Forall2 is_a bs l -> Forall (fun x => arithmetic_base x = true) bs.
Proof. intros F. induction F; constructor; auto. apply H. Qed.

(* Qualifiers, references, the order of the types and repetitions do not matter. *)
Theorem C376_order : forall p other bs bs' l l', good_plat p -> Forall2 is_a bs l -> Forall2 is_a bs' l' -> Permutation bs bs' ->
  common_type p other l = common_type p other l'.
Proof.
  intros p other bs bs' l l' G F F' P. rewrite (common_ok p other bs l G F), (common_ok p other bs' l' G F').
  now rewrite (meet_perm p G bs bs' P (arith_of bs l F)).
Qed.
Print Assumptions C376_order.

Theorem C376_repetition : forall p other b t bs l, good_plat p -> is_a b t -> Forall2 is_a bs l -> In b bs ->
  common_type p other (t :: l) = common_type p other l.
Proof.
  intros p other b t bs l G I F J. rewrite (common_ok p other (b :: bs) (t :: l) G), (common_ok p other bs l G F); [|now constructor].
  now rewrite (meet_dup p G b bs J (arith_of bs l F)).
Qed.
Print Assumptions C376_repetition.

(* Of integral types it holds all the values of every one of them, but for the negative ones where
   it is unsigned. *)
Theorem C376_values : forall p other bs l, good_plat p -> Forall2 is_a bs l -> l <> [] -> Forall (fun x => std_integral x = true) bs ->
  exists b, common_type p other l = Some (TBase false false b) /\ std_integral b = true /\
    Forall (fun x => hi p x <= hi p b /\ (fits p x b <-> (lo p x < 0 -> lo p b < 0))) bs.
Proof.
  intros p other bs l G F N I. rewrite (common_ok p other bs l G F). destruct F as [|b t bs l T F]; [congruence|].
  inversion I as [|? ? B I']; subst. destruct (fold_up p G bs b B I') as (R & RB & RF). cbn.
  eexists. split; [reflexivity|]. split; [exact R|]. constructor.
  - split; [exact RB|]. now apply fits_iff.
  - rewrite Forall_forall in *. intros x J. specialize (RF x J). specialize (I' x J). split; [exact RF|]. now apply fits_iff.
Qed.
Print Assumptions C376_values.

Definition lp64 : plat := Plat 2 4 8 8 4 2 4 true true (fun _ => 4%nat) UChar UShort UInt ULong.
Lemma lp64_good : good_plat lp64.
Proof.
  unfold good_plat, standard_signed, standard_unsigned; cbn. repeat match goal with |- _ /\ _ => split end; try lia; try tauto;
  try (now (exists Int + exists Long + exists Short); split; [tauto|reflexivity]);
  try (now intros _; exists Int; split; [tauto|reflexivity]);
  try (intros b [<-|[<-|[<-|[<-|[<-|[]]]]]]; cbn; tauto).
Qed.
Example C376_case : good_plat lp64 /\
  common_type lp64 (fun _ _ => None) [TLRef (TBase true false Short); TBase false false UInt; TBase false true Long] = Some (TBase false false Long) /\
  common_type lp64 (fun _ _ => None) [TBase false false Char; TBase true false Char] = Some (TBase false false Char) /\
  common_type lp64 (fun _ _ => None) [TBase false false Int; TBase true false UInt] = Some (TBase false false UInt) /\
  common_type lp64 (fun _ _ => None) [TBase false false ULLong; TBase true false Float] = Some (TBase false false Float).
Proof. split; [exact lp64_good|]. repeat split. Qed.

(* ---------- C377: the common type holds all values ---------- *)

(* Refuted for every signed type from int on and its unsigned partner, in any company that leaves
   the common type unsigned. *)
Theorem C377_negative_values_refuted : forall p other s, good_plat p -> In s [Int; Long; LLong] ->
  exists b, common_type p other [TBase false false s; TBase false false (unsigned_of s)] = Some (TBase false false b) /\
    lo p s < 0 /\ ~ fits p s b.
Proof.
  intros p other s G I. exists (unsigned_of s).
  assert (D : std_integral s = true /\ arithmetic_base s = true /\ arithmetic_base (unsigned_of s) = true /\ base_signed p s = true /\ lo p (unsigned_of s) = 0 /\
              join p s (unsigned_of s) = unsigned_of s) by (destruct I as [<-|[<-|[<-|[]]]]; repeat split).
  destruct D as (D1 & D2 & D3 & D4 & D5 & D6). destruct (hi_le_ull p G s D1) as (L & _ & _ & H & _ & S). apply S in D4.
  split; [|split; [exact D4|]].
  - rewrite (common_ok p other [s; unsigned_of s]); [cbn; now rewrite D6|exact G|]. repeat constructor; auto; now exists false, false; left.
  - intros F. specialize (F (lo p s) ltac:(lia)). lia.
Qed.
Print Assumptions C377_negative_values_refuted.

Example C377_case : common_type lp64 (fun _ _ => None) [TBase false false Int; TBase false false UInt] = Some (TBase false false UInt) /\
  lo lp64 Int <= -1 <= hi lp64 Int /\ ~ lo lp64 UInt <= -1 <= hi lp64 UInt.
Proof. split; [reflexivity|]. split; [split; vm_compute; discriminate|]. intros (H & _). vm_compute in H. now apply H. Qed.

(* ---------- C378: div ---------- *)

(* w bits, int has wi, long wl *)
Theorem C378_div : forall wi wl (std : bool) sgn w x y, 1 <= w -> 1 <= wi <= wl ->
  (in_type sgn w x -> in_type sgn w y -> y <> 0 -> ~ (sgn = true /\ x = - 2 ^ (w - 1) /\ y = -1) ->
     exists q r, div_generic wi sgn w x y = Ok (q, r) /\ division x y q r) /\
  (in_type true wi x -> in_type true wi y -> y <> 0 -> ~ (x = - 2 ^ (wi - 1) /\ y = -1) ->
     exists q r, div_int wi x y = Ok (q, r) /\ division x y q r) /\
  (in_type true (if std then wl else wi) x -> in_type true (if std then wl else wi) y -> y <> 0 -> ~ (x = - 2 ^ (wl - 1) /\ y = -1) ->
     exists q r, div_long std wi wl x y = Ok (q, r) /\ division x y q r).
Proof.
  intros wi wl std sgn w x y W L. split; [|split].
  - intros X Y N O. destruct (quot_in sgn w x y W X Y N O) as (Q & R). exists (Z.quot x y), (Z.rem x y). split; [|now apply quot_rem_division].
    unfold div_generic. destruct (Z.ltb_spec w wi) as [C|C].
    + unfold divide. destruct (Z.eqb_spec y 0); [contradiction|]. cbn [andb].
      assert (P : x <> - 2 ^ (wi - 1)).
      { pose proof (pow_half w W). pose proof (Z.pow_pos_nonneg 2 (w - 1)). assert (2 ^ w <= 2 ^ (wi - 1)) by (apply Z.pow_le_mono_r; lia).
        unfold in_type in X. destruct sgn; lia. }
      destruct (Z.eqb_spec x (- 2 ^ (wi - 1))); [contradiction|]. cbn [andb]. now rewrite !wrap_id.
    + unfold divide. destruct (Z.eqb_spec y 0); [contradiction|].
      destruct (sgn && (x =? - 2 ^ (w - 1)) && (y =? -1)) eqn:E; [|now rewrite !wrap_id].
      apply andb_prop in E as (E & Ey). apply andb_prop in E as (Es & Ex). apply Z.eqb_eq in Ex, Ey. elim O. auto.
  - intros X Y N O. exists (Z.quot x y), (Z.rem x y). split; [|now apply quot_rem_division]. unfold div_int, divide.
    destruct (Z.eqb_spec y 0); [contradiction|]. cbn [andb].
    destruct (Z.eqb_spec x (- 2 ^ (wi - 1))); destruct (Z.eqb_spec y (-1)); try reflexivity. elim O. auto.
  - intros X Y N O. exists (Z.quot x y), (Z.rem x y). split; [|now apply quot_rem_division]. unfold div_long.
    assert (D : divide true wl x y = Ok (Z.quot x y, Z.rem x y)).
    { unfold divide. destruct (Z.eqb_spec y 0); [contradiction|]. cbn [andb].
      destruct (Z.eqb_spec x (- 2 ^ (wl - 1))); destruct (Z.eqb_spec y (-1)); try reflexivity. elim O. auto. }
    destruct std; [exact D|]. rewrite !wrap_id by (auto; lia). exact D.
Qed.
Print Assumptions C378_div.

Example C378_case : div_generic 32 true 16 (-7) 2 = Ok (-3, -1) /\ div_int 32 7 (-2) = Ok (-3, 1) /\ div_long true 16 32 100000 7 = Ok (14285, 5).
Proof. repeat split. Qed.

(* ---------- C379: div elsewhere ---------- *)

(* Types narrower than int: the least value by -1 gives the least value. *)
Theorem C379_least_value_refuted : forall wi w, 1 <= w < wi ->
  div_generic wi true w (- 2 ^ (w - 1)) (-1) = Ok (- 2 ^ (w - 1), 0) /\ ~ division (- 2 ^ (w - 1)) (-1) (- 2 ^ (w - 1)) 0.
Proof.
  intros wi w W. pose proof (pow_half w ltac:(lia)). assert (0 < 2 ^ (w - 1)) by (apply Z.pow_pos_nonneg; lia).
  assert (2 ^ w <= 2 ^ (wi - 1)) by (apply Z.pow_le_mono_r; lia). split.
  - unfold div_generic, divide. destruct (Z.ltb_spec w wi); [|lia].
    destruct (Z.eqb_spec (- 2 ^ (w - 1)) (- 2 ^ (wi - 1))); [lia|].
    cbn [andb Z.eqb]. rewrite (Z.quot_opp_l _ (-1)) by lia. change (-1) with (- (1)). rewrite Z.quot_opp_r, Z.quot_1_r, Z.opp_involutive by lia.
    rewrite Z.rem_opp_r, Z.rem_1_r by lia. f_equal. f_equal.
    + unfold wrap. rewrite Z.mod_small by lia. cbn [andb]. destruct (Z.leb_spec (2 ^ (w - 1)) (2 ^ (w - 1))); lia.
    + apply wrap_id; [lia|]. cbn. lia.
  - intros (E & _). lia.
Qed.
Print Assumptions C379_least_value_refuted.

(* div<long> without <cstdlib>: every value that is not an int is divided as another. *)
Theorem C379_long_refuted : forall wi wl x q r, 2 <= wi < wl -> in_type true wl x -> ~ in_type true wi x ->
  div_long false wi wl x 1 = Ok (q, r) -> ~ division x 1 q r.
Proof.
  intros wi wl x q r W X N H (E & B & _). assert (r = 0) by lia. subst r.
  assert (I : forall z, in_type true wi (wrap true wi z)).
  { intros z. unfold wrap, in_type. pose proof (pow_half wi ltac:(lia)). pose proof (Z.mod_pos_bound z (2 ^ wi) ltac:(apply Z.pow_pos_nonneg; lia)).
    cbn [andb]. destruct (Z.leb_spec (2 ^ (wi - 1)) (z mod 2 ^ wi)); lia. }
  assert (W1 : wrap true wi 1 = 1).
  { apply wrap_id; [lia|]. cbn. assert (2 ^ 1 <= 2 ^ (wi - 1)) by (apply Z.pow_le_mono_r; lia). lia. }
  unfold div_long, divide in H. rewrite W1 in H. destruct (1 =? 0); [discriminate|]. destruct (_ && _); [discriminate|]. injection H as Hq Hr.
  rewrite Z.quot_1_r in Hq. apply N. replace x with (wrap true wi x) by lia. apply I.
Qed.
Print Assumptions C379_long_refuted.

Example C379_case : div_generic 32 true 8 (-128) (-1) = Ok (-128, 0) /\ div_long false 16 32 100000 7 = Ok (-4438, -6) /\
  in_type true 32 100000 /\ ~ in_type true 16 100000.
Proof. split; [reflexivity|]. split; [reflexivity|]. split; [split; vm_compute; discriminate|]. intros (_ & H). vm_compute in H. now apply H. Qed.

(* ---------- C380: errc ---------- *)

(* errno numbers are positive, so no error is success, errc(0); *)
Theorem C380_no_error_is_success : forall full e c x, 0 < EDOM e -> 0 < ERANGE e ->
  (full = true -> Forall (Z.lt 0) [EAFNOSUPPORT e; EADDRINUSE e; E2BIG e; EFAULT e; EBUSY e; EINVAL e; ENOENT e; ESRCH e; ENOMEM e; ENOTSUP e; ETIMEDOUT e; EOVERFLOW e]) ->
  value full e c = Some x -> x <> 0.
Proof.
  intros full e c x D R F H. destruct full.
  - specialize (F eq_refl). repeat match goal with F : Forall _ (_ :: _) |- _ => inversion F; clear F; subst end.
    destruct c; injection H as <-; lia.
  - destruct c; try discriminate H; injection H as <-; lia.
Qed.
Print Assumptions C380_no_error_is_success.

(* where the list of C380 has the number of an error *)
Definition place (c : errc) : nat :=
  match c with
  | argument_out_of_domain => 0 | result_out_of_range => 1 | address_family_not_supported => 2 | address_in_use => 3
  | argument_list_too_long => 4 | bad_address => 5 | device_or_resource_busy => 6 | invalid_argument => 7
  | no_such_file_or_directory => 8 | no_such_process => 9 | not_enough_memory => 10 | not_supported => 11
  | timed_out => 12 | value_too_large => 13
  end%nat.
Lemma place_inj : forall c c', place c = place c' -> c = c'.
Proof. intros c c' H. destruct c, c'; first [reflexivity|discriminate H]. Qed.

(* on a platform with all of them and all different, different errors are; without, they are
   unless ERANGE is 10, 20, 30 or 40 above EDOM *)
Theorem C380_different_errors : forall full e c c' x,
  (full = true -> NoDup [EDOM e; ERANGE e; EAFNOSUPPORT e; EADDRINUSE e; E2BIG e; EFAULT e; EBUSY e; EINVAL e; ENOENT e; ESRCH e; ENOMEM e; ENOTSUP e; ETIMEDOUT e; EOVERFLOW e]) ->
  (full = false -> ~ In (ERANGE e - EDOM e) [0; 10; 20; 30; 40]) ->
  value full e c = Some x -> value full e c' = Some x -> c = c'.
Proof.
  intros full e c c' x F N H H'. destruct full.
  - specialize (F eq_refl). rewrite (NoDup_nth _ 0) in F. specialize (F (place c) (place c')).
    assert (E : forall d y, value true e d = Some y -> nth (place d) [EDOM e; ERANGE e; EAFNOSUPPORT e; EADDRINUSE e; E2BIG e; EFAULT e; EBUSY e; EINVAL e; ENOENT e; ESRCH e; ENOMEM e; ENOTSUP e; ETIMEDOUT e; EOVERFLOW e] 0 = y)
      by (intros d y D; destruct d; injection D as D; exact D).
    rewrite (E _ _ H), (E _ _ H') in F.
    assert (B : forall d, (place d < 14)%nat) by (intros d; destruct d; cbn [place]; lia).
    apply place_inj. apply F; [apply B|apply B|reflexivity].
  - specialize (N eq_refl). cbn [In] in N. destruct c; try discriminate H; injection H as <-; destruct c'; try reflexivity; try discriminate H'; injection H' as H'; exfalso; lia.
Qed.
Print Assumptions C380_different_errors.

(* Linux, and the three of ISO C with their usual numbers *)
Definition linux : errno := Errno 33 34 97 98 7 14 16 22 2 3 12 95 110 75.
Example C380_case : value true linux not_supported = Some 95 /\ value false linux not_supported = Some 53 /\ value false linux bad_address = None /\
  ~ In (ERANGE linux - EDOM linux) [0; 10; 20; 30; 40].
Proof. repeat split. cbn. lia. Qed.

(* ---------- C381: errc without all of errno ---------- *)

Theorem C381_same_number_refuted : forall e, In (ERANGE e - EDOM e) [10; 20; 30; 40] ->
  exists c x, c <> result_out_of_range /\ value false e c = Some x /\ value false e result_out_of_range = Some x.
Proof.
  intros e [H|[H|[H|[H|[]]]]]; [exists invalid_argument|exists not_supported|exists timed_out|exists value_too_large];
    exists (ERANGE e); (split; [discriminate|]); split; try reflexivity; cbn; f_equal; lia.
Qed.
Print Assumptions C381_same_number_refuted.

Example C381_case : value false (Errno 1 11 0 0 0 0 0 0 0 0 0 0 0 0) invalid_argument = value false (Errno 1 11 0 0 0 0 0 0 0 0 0 0 0 0) result_out_of_range.
Proof. reflexivity. Qed.
