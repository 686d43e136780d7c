(* C99-C102: expected. *)
From Verif Require Import Base Vst_Model Exp_Model Exp_Spec Vst_Proofs Exp_Proofs.
Local Open Scope prog_scope.

(* ---------- C99: histories ---------- *)

(* Any legal program over expecteds runs to its end without exception, abort or undefined
   behaviour; afterwards every variable holds the value or the error the program says,
   has_value() tells which, and every value and error made is destroyed or still held.  A
   "moved" value or error needs a copy constructor here, C102. *)
Theorem C99_history {V} (t e : alt) n (ops : list (eop V)) :
  eall_legal t e (repeat None n) ops ->
  exists w, run_eops t e ops (World (repeat None n) []) = Val tt w /\
    eshows w (eeffects (repeat None n) ops).
Proof. intros L. apply run_ehistory; auto. apply eshows_start. Qed.

Theorem C99_no_leak {V} (t e : alt) n (ops : list (eop V)) :
  eall_legal t e (repeat None n) ops ->
  (forall k, elookup (eeffects (repeat None n) ops) k = None) ->
  exists w, run_eops t e ops (World (repeat None n) []) = Val tt w /\
    forall b, emade (w_log w) b = edead (w_log w) b.
Proof.
  intros L Hn. destruct (C99_history t e n ops L) as (w & R & (_ & _ & B)).
  exists w. split; [exact R|]. intros b. rewrite B, eholding_none by exact Hn. lia.
Qed.

Theorem C99_step {V} (t e : alt) (s : exps V) w p :
  eshows w s -> elegal t e s p ->
  exists w', run_eop t e p w = Val tt w' /\ eshows w' (eeffect s p).
Proof. apply run_estep. Qed.

Definition hv : alt := Alt 7 false true false true.   (* not trivial, not copy assignable *)
Definition he : alt := Alt 9 false true true true.
Definition eops1 : list (eop Z) :=
  [EValue 0 5; EError 1 6; EAssign 1 7; EAssignError 1 8; EAssignError 1 9; ECopy 2 1; EAssign 0 4; EMove 3 0;
   EEmplace 2 3; EDestroy 0; EDestroy 1; EDestroy 2; EDestroy 3]%Z.
Example C99_case :
  eall_legal hv he (repeat None 4) eops1 /\
  run_eops hv he eops1 (World (repeat None 4) []) =
    Val tt (World [None; None; None; None]
      [Made 0 5; Made 1 6; Dead 1 6; Made 0 7; Dead 0 7; Made 1 8; Made 1 9; Dead 0 5; Made 0 4; Made 0 4;
       Dead 1 9; Made 0 3; Dead 0 4; Dead 1 9; Dead 0 3; Dead 0 4]%Z).
Proof.
  split.
  - cbn. repeat split; try discriminate; try lia.
  - vm_compute. reflexivity.
Qed.

(* ---------- C100: access ---------- *)

(* has_value, value (throws when there is none), value_or. *)
Theorem C100_access {V} (s : exps V) k b v w :
  eshows w s -> elookup s k = Some (b, v) ->
  exp_has_value k w = Val b w /\
  exp_get k w = (if b then Val v w else Thrown w) /\
  forall d, exp_value_or k d w = Val (if b then v else d) w.
Proof. intros H E. destruct (eaccess s k b v w H E) as (A & B & _ & _ & D). auto. Qed.
(* Unchecked access gives what is held and is undefined for what is not. *)
Theorem C100_unchecked {V} (s : exps V) k b v w :
  eshows w s -> elookup s k = Some (b, v) ->
  exp_deref k w = (if b then Val v w else Undef) /\
  exp_get_error k w = (if b then Undef else Val v w).
Proof. intros H E. destruct (eaccess s k b v w H E) as (_ & _ & A & B & _). auto. Qed.

Definition we : world Z bool :=
  World [Some (Obj (Live 0 5%Z) true); Some (Obj (Live 1 6%Z) false); None] [Made 0 5%Z; Made 1 6%Z].
Definition se : exps Z := [Some (true, 5%Z); Some (false, 6%Z); None].
Lemma showse : eshows we se.
Proof. split; [reflexivity|]. split; [repeat constructor|]. intros [|]; reflexivity. Qed.
Example C100_case :
  eshows we se /\ exp_get 0 we = Val 5%Z we /\ exp_get 1 we = Thrown we /\ exp_get_error 1 we = Val 6%Z we /\
  exp_value_or 1 3%Z we = Val 3%Z we /\ exp_get_error 0 we = Undef.
Proof. split; [exact showse|]. repeat split. Qed.

(* ---------- C101: exceptions ---------- *)

(* When the constructor of the value or error throws out of a constructor of expected, no
   variable appears and nothing changes. *)
Theorem C101_constructor_throws {V} (s : exps V) k args w :
  eshows w s -> nth_error s k = Some None -> ethrows args ->
  exp_value k args w = Thrown w /\ exp_error k args w = Thrown w.
Proof.
  intros H Hk Ht. split.
  - exact (enew_throws s k args w true H Hk Ht).
  - exact (enew_throws s k args w false H Hk Ht).
Qed.
(* A throwing assignment to a held value (held error) of an assignable type changes nothing. *)
Theorem C101_assign_throws {V} (t e : alt) (s : exps V) k b v c w :
  eshows w s -> elookup s k = Some (b, v) ->
  c_convertible c = true -> ethrows (c_value c) -> c_assignable c = true ->
  (if b then exp_assign t e k c else exp_assign_error t e k c) w = Thrown w.
Proof. intros H E Hc Ht Ha. now apply (proj1 (eassign_throws t e s k c w b b v H E Hc Ht)). Qed.
(* A throwing change from value to error or back, and a throwing emplace, break the variable:
   has_value() still says what it held, which is destroyed. *)
Theorem C229_switch_throws_refuted {V} (t e : alt) (s : exps V) k (b : bool) v c w :
  eshows w s -> elookup s k = Some (b, v) -> c_convertible c = true -> ethrows (c_value c) ->
  a_trivial (if b then t else e) = false ->
  exists w', (if b then exp_assign_error t e k c else exp_assign t e k c) w = Thrown w' /\ ebroken t e w' k b.
Proof.
  intros H E Hc Ht Hr.
  destruct b;
    [apply (proj2 (eassign_throws t e s k c w true false v H E Hc Ht))
    |apply (proj2 (eassign_throws t e s k c w false true v H E Hc Ht))];
    solve [left; discriminate|exact Hr].
Qed.
Theorem C229_emplace_throws_refuted {V} (t e : alt) (s : exps V) k (b : bool) v args w :
  eshows w s -> elookup s k = Some (b, v) -> ethrows args -> a_trivial (if b then t else e) = false ->
  exists w', exp_emplace t e k args w = Thrown w' /\ ebroken t e w' k b.
Proof. apply eemplace_throws. Qed.
(* ... and so does assigning to a held value whose type cannot be assigned. *)
Theorem C229_unassignable_throws_refuted {V} (t e : alt) (s : exps V) k (b : bool) v c w :
  eshows w s -> elookup s k = Some (b, v) -> c_convertible c = true -> ethrows (c_value c) ->
  c_assignable c = false -> a_trivial (if b then t else e) = false ->
  exists w', (if b then exp_assign t e k c else exp_assign_error t e k c) w = Thrown w' /\ ebroken t e w' k b.
Proof. intros H E Hc Ht Ha Hr. apply (proj2 (eassign_throws t e s k c w b b v H E Hc Ht)); auto. Qed.

Example C101_case :
  eshows we se /\ ethrows (V := Z) throw /\ a_trivial hv = false /\ a_trivial he = false /\
  exp_assign hv he 1 (Src true true true throw) we =
    Thrown (World [Some (Obj (Live 0 5%Z) true); Some (Obj Raw false); None] [Made 0 5%Z; Made 1 6%Z; Dead 1 6%Z]) /\
  exp_assign_error hv he 1 (Src true true true throw) we = Thrown we.
Proof. split; [exact showse|]. split; [intros w; reflexivity|]. repeat split. Qed.

(* ---------- C102: move construction ---------- *)

(* The new variable holds what the source held; the source keeps its value unchanged: nothing
   is moved out of it. *)
Theorem C102_move_copies {V} (t e : alt) (s : exps V) k src b v w :
  eshows w s -> nth_error s k = Some None -> elookup s src = Some (b, v) ->
  a_copyable (if b then t else e) = true ->
  exists w', exp_move t e k src w = Val tt w' /\ eshows w' (upd s k (Some (b, v))) /\
    elookup (upd s k (Some (b, v))) src = Some (b, v).
Proof.
  intros H Hk Es Hc.
  assert (Q : ecan_copy t e s src) by (unfold ecan_copy; rewrite Es; destruct b; exact Hc).
  destruct (run_emove t e s k src w H Hk Q) as (w' & R & S1). rewrite Es in S1.
  exists w'. split; [exact R|]. split; [exact S1|].
  unfold elookup. rewrite nth_upd_other.
  - exact Es.
  - intros ->. apply nth_elookup in Hk. congruence.
Qed.
(* A move-only value or error is neither moved nor copied: the new variable claims to hold
   one, and using or destroying it is undefined behaviour. *)
Theorem C230_move_only_refuted {V} (t e : alt) (s : exps V) k src (b : bool) v w :
  eshows w s -> nth_error s k = Some None -> elookup s src = Some (b, v) ->
  a_copyable (if b then t else e) = false -> a_trivial (if b then t else e) = false ->
  exists w', exp_move t e k src w = Val tt w' /\ ebroken t e w' k b.
Proof.
  intros H Hk Es Hc Ht. destruct (emove_only t e s k src b v w H Hk Es Hc Ht) as (w' & R & _ & B). eauto.
Qed.

Definition unique : alt := Alt 8 false false false true.   (* move-only *)
Example C102_case :
  eshows we se /\ a_copyable unique = false /\ a_trivial unique = false /\
  exp_move hv he 2 1 we =
    Val tt (World [Some (Obj (Live 0 5%Z) true); Some (Obj (Live 1 6%Z) false); Some (Obj (Live 1 6%Z) false)]
              [Made 0 5%Z; Made 1 6%Z; Made 1 6%Z]) /\
  (exp_move unique he 2 0 ;;; exp_destroy unique he 2) we = Undef.
Proof. split; [exact showse|]. repeat split. Qed.

Print Assumptions C99_history.
Print Assumptions C99_no_leak.
Print Assumptions C99_step.
Print Assumptions C100_access.
Print Assumptions C100_unchecked.
Print Assumptions C101_constructor_throws.
Print Assumptions C101_assign_throws.
Print Assumptions C229_switch_throws_refuted.
Print Assumptions C229_emplace_throws_refuted.
Print Assumptions C229_unassignable_throws_refuted.
Print Assumptions C102_move_copies.
Print Assumptions C230_move_only_refuted.
