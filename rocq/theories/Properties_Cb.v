(* Properties of the functions that do not own their model, and of their models. *)
From Coq Require Import List Arith Bool Lia.
From Verif Require Import Base Cb_Spec Cb_Model Cb_Proofs.
Import ListNotations.

(* ---- C256: whatever functions are made, copied, assigned, ended and called, each call runs the callable
   the function names, with the state that callable's earlier calls left, whichever function made them. *)
Theorem C256_calls : forall St Obj C A R (step : St -> A -> St * R) (meth : nat -> Obj -> A -> Obj * R) (plain : nat -> A -> C -> R)
  (init : nat -> Obj) (h : list (cop St C A)),
  all_legal [] h ->
  exists w, run step meth plain (start init) h = Ok (w, replies step meth plain init [] h) /\
    (forall o, objs w o = object_after meth o (init o) h) /\ dtors w = destroyed h.
Proof.
  intros St Obj C A R step meth plain init h L. destruct (run_ok step meth plain init h [] _ (inv_start step meth init) L) as (w & E & I).
  exists w. split; [exact E|]. split; apply I.
Qed.
Print Assumptions C256_calls.
(* No functor's destructor runs twice. *)
Theorem C256_once : forall St Obj C A R (step : St -> A -> St * R) (meth : nat -> Obj -> A -> Obj * R) (plain : nat -> A -> C -> R)
  (init : nat -> Obj) (h : list (cop St C A)),
  all_legal [] h ->
  exists w l, run step meth plain (start init) h = Ok (w, l) /\ NoDup (dtors w).
Proof.
  intros St Obj C A R step meth plain init h L. destruct (C256_calls _ _ _ _ _ step meth plain init h L) as (w & E & _ & D).
  exists w, (replies step meth plain init [] h). split; [exact E|]. rewrite D. exact (d_dup _ (dead_all h [] dead_nil L)).
Qed.
Print Assumptions C256_once.

(* a functor that sums its arguments, an object with two methods, a function with a context *)
Definition sum (s x : nat) : nat * nat := (s + x, s + x).
Definition two (m v x : nat) : nat * nat := match m with 0 => (v + x, v) | _ => (0, v * x) end.
Definition times (f x c : nat) : nat := f + x * c.
Definition hist2 : list (cop nat nat nat) :=
  [NewModel 0 (Functor 5); NewFun 0 0; NewNull 1; Test 1; Assign 1 0; Test 1; Call 0 2; Call 1 3; CopyFun 2 1; EndFun 0; Call 2 4;
   NewThis 3 0 7; CopyFun 4 3; Call 3 6; NewModel 1 (Method 1 7); NewFun 5 1; Call 5 2; Call 4 9;
   NewModel 2 (Context 100 4); Assign 4 5; NewFun 6 2; Call 6 3; NewStatic 7 0 1; NewStatic 8 1 1; Call 7 1; Call 8 1; Call 7 1;
   NewModel 3 (Once 50); NewFun 9 3; Call 9 1; EndModel 0].
Example C256_case :
  all_legal [] hist2 /\
  replies sum two times (fun _ => 10) [] hist2 =
    [Nothing; Nothing; Nothing; Is false; Nothing; Is true; Result 7; Result 10; Nothing; Nothing; Result 14;
     Nothing; Nothing; Result 10; Nothing; Nothing; Result 32; Result 0;
     Nothing; Nothing; Nothing; Result 112; Nothing; Nothing; Result 2; Result 2; Result 3;
     Nothing; Nothing; Result 51; Nothing] /\
  destroyed hist2 = [Made 3; Made 0].
Proof.
  split; [|split; vm_compute; reflexivity].
  repeat (split; [cbn; repeat split; try discriminate; try reflexivity|]); try exact I;
    try (eexists; split; [reflexivity|]; split; [reflexivity|]; intros s; cbn; try discriminate; intros _; cbn; intuition discriminate).
Qed.

(* ---- C257 (refuted): a copy of a thisify_function is a function of its own.  While the original lives a
   copy calls the original's model; when the original has ended the call is undefined. *)
Theorem C257_copy_refuted : forall St Obj C A R (step : St -> A -> St * R) (meth : nat -> Obj -> A -> Obj * R) (plain : nat -> A -> C -> R)
  (w : @world St Obj C) j k m o (x : A), j <> k ->
  (exists w' l, run step meth plain w [NewThis k m o; CopyThis j k; Call j x] = Ok (w', l)) /\
  run step meth plain w [NewThis k m o; CopyThis j k; EndFun k; Call j x] = UB.
Proof.
  intros St Obj C A R step meth plain w j k m o x N. apply Nat.eqb_neq in N. pose proof N as N'. rewrite Nat.eqb_sym in N'.
  unfold run, do_op, copy_this, new_this, end_fun, call, invoke.
  split.
  - do 4 (cbn; unfold put; rewrite ?Nat.eqb_refl, ?N, ?N'). destruct (meth m (objs w o) x) as [v r]. eauto.
  - do 6 (cbn; unfold put; rewrite ?Nat.eqb_refl, ?N, ?N'). reflexivity.
Qed.
Print Assumptions C257_copy_refuted.
(* Even returning a thisify_function by value is such a copy: create does it. *)

(* ---- C258 (refuted): a static_function calls the functor it was made with.  The second static_function
   of a functor type ignores its functor and shares the first one's, state and all. *)
Theorem C258_second_refuted : forall St Obj C A R (step : St -> A -> St * R) (meth : nat -> Obj -> A -> Obj * R) (plain : nat -> A -> C -> R)
  (w : @world St Obj C) j k ty s1 s2 (x y : A), j <> k -> cells w (Static ty) = None ->
  exists w' , run step meth plain w [NewStatic k ty s1; NewStatic j ty s2; Call k x; Call j y] =
    Ok (w', [Nothing; Nothing; Result (snd (step s1 x)); Result (snd (step (fst (step s1 x)) y))]).
Proof.
  intros St Obj C A R step meth plain w j k ty s1 s2 x y N Hc. apply Nat.eqb_neq in N. pose proof N as N'. rewrite Nat.eqb_sym in N'.
  unfold run, do_op, new_static, call, invoke. rewrite Hc.
  do 6 (cbn; unfold put; rewrite ?Nat.eqb_refl, ?N, ?N'). destruct (step s1 x) as [s' r] eqn:E.
  do 6 (cbn; unfold put; rewrite ?Nat.eqb_refl, ?N, ?N'). destruct (step s' y) as [s'' r'].
  cbn. eauto.
Qed.
Print Assumptions C258_second_refuted.

(* ---- C259 (refuted): the models that destroy their functor after the call can be used like the others.
   A second call is undefined, and so is the end of the model after a call, since its destructor
   destroys the functor again. *)
Theorem C259_once_refuted : forall St Obj C A R (step : St -> A -> St * R) (meth : nat -> Obj -> A -> Obj * R) (plain : nat -> A -> C -> R)
  (w : @world St Obj C) i k s (x y : A),
  run step meth plain w [NewModel i (Once s); NewFun k i; Call k x; Call k y] = UB /\
  run step meth plain w [NewModel i (Once s); NewFun k i; Call k x; EndModel i] = UB.
Proof.
  intros St Obj C A R step meth plain w i k s x y. unfold run, do_op, call, invoke, end_model.
  split; do 6 (cbn; unfold put; rewrite ?Nat.eqb_refl); destruct (step s x) as [s' r];
    do 6 (cbn; unfold put; rewrite ?Nat.eqb_refl); reflexivity.
Qed.
Print Assumptions C259_once_refuted.

(* ---- C260 (refuted): calling an empty function is an error the caller can see. *)
Theorem C260_empty_refuted : forall St Obj C A R (step : St -> A -> St * R) (meth : nat -> Obj -> A -> Obj * R) (plain : nat -> A -> C -> R)
  (w : @world St Obj C) k j (x : A),
  run step meth plain w [NewNull k; Call k x] = UB /\
  run step meth plain w [NewNull k; CopyFun j k; Call j x] = UB.
Proof.
  intros St Obj C A R step meth plain w k j x. unfold run, do_op, call. split; do 6 (cbn; unfold put; rewrite ?Nat.eqb_refl); reflexivity.
Qed.
Print Assumptions C260_empty_refuted.
(* So is the call of a function whose model has ended, of any kind. *)
Theorem C260_ended_refuted : forall St Obj C A R (step : St -> A -> St * R) (meth : nat -> Obj -> A -> Obj * R) (plain : nat -> A -> C -> R)
  (w : @world St Obj C) i k d (x : A),
  run step meth plain w [NewModel i d; NewFun k i; EndModel i; Call k x] = UB.
Proof.
  intros St Obj C A R step meth plain w i k d x. unfold run, do_op, call, end_model, invoke.
  do 6 (cbn; unfold put; rewrite ?Nat.eqb_refl). destruct d; do 6 (cbn; unfold put; rewrite ?Nat.eqb_refl); reflexivity.
Qed.
Print Assumptions C260_ended_refuted.

Example C257_case : run sum two times (start (fun _ => 10)) [NewThis 0 0 7; CopyThis 1 0; Call 1 3; Call 0 2] =
    Ok (match run sum two times (start (fun _ => 10)) [NewThis 0 0 7; CopyThis 1 0; Call 1 3; Call 0 2] with Ok (w, _) => w | _ => start (fun _ => 0) end,
        [Nothing; Nothing; Result 10; Result 13]) /\
  run sum two times (start (fun _ => 10)) [NewThis 0 0 7; CopyThis 1 0; Call 1 3; EndFun 0; Call 1 2] = UB.
Proof. split; vm_compute; reflexivity. Qed.
Example C258_case : exists w, run sum two times (start (fun _ => 10)) [NewStatic 0 3 100; NewStatic 1 3 200; Call 1 5; Call 0 7] =
  Ok (w, [Nothing; Nothing; Result 105; Result 112]).
Proof. eexists. vm_compute. reflexivity. Qed.
Example C259_case : run sum two times (start (fun _ => 10)) [NewModel 0 (Once 1); NewFun 0 0; CopyFun 1 0; Call 1 4; Call 0 4] = UB.
Proof. vm_compute. reflexivity. Qed.
Example C260_case : run sum two times (start (fun _ => 10)) [NewNull 4; Test 4; Call 4 1] = UB.
Proof. vm_compute. reflexivity. Qed.
