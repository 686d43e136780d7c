From Coq Require Import Arith List.
From Verif Require Import Base Evp_Spec Evp_Model.
Import ListNotations.
Local Open Scope res_scope.

Section Evp.
Context {A : Type}.
Definition cell_of (h : nat) (past : list (vop A)) : option (cell A) :=
  match sort_of h past with
  | None => None
  | Some Own => match kept h past with Some v => Some (CValue v) | None => None end
  | Some Reference => match target h past with Some x => Some (CAddress x) | None => None end
  | Some Dangling => Some CDead
  | Some (Nothing d) => Some (CEmpty d)
  end.
(* a world tells what the past tells *)
Definition tells (w : world A) (past : list (vop A)) : Prop :=
  (forall h, cells w h = cell_of h past) /\ (forall x, vars w x = content x past).
(* every holder has what its sort needs *)
Definition whole (past : list (vop A)) : Prop := forall h,
  (sort_of h past = Some Own -> kept h past <> None) /\ (sort_of h past = Some Reference -> target h past <> None).

Lemma whole_step o past : whole past -> allowed o past -> whole (o :: past).
Proof.
  intros Wh Al h. destruct o as [h' k|h' g|h' v|h'|h' x|x v|x]; cbn [sort_of kept target]; unfold same_name in *;
    try apply Wh; try (destruct (Nat.eqb_spec h h') as [->|N]); try apply Wh.
  - destruct k; cbn; split; intros; congruence.
  - split; [congruence|]. apply Wh.
  - split; [apply Wh|congruence].
Qed.
Lemma value_held w past h : tells w past -> whole past ->
  value w h = match held h past with Some v => Ok v | None => UB end.
Proof.
  intros [C V] Wh. unfold value, held. rewrite C. unfold cell_of. destruct (Wh h) as [K T].
  destruct (sort_of h past) as [[| | |d]|]; try reflexivity.
  - destruct (kept h past); [reflexivity|now destruct K].
  - destruct (target h past) as [x|]; [now rewrite V|now destruct T].
Qed.
Lemma step_ok w past o : tells w past -> whole past -> allowed o past ->
  exists w', step w o = Ok (match o with Get h => match held h past with Some v => [v] | None => [] end | _ => [] end, w') /\
    tells w' (o :: past).
Proof.
  intros T Wh Al. pose proof T as [C V].
  destruct o as [h' k|h' g|h' v|h'|h' x|x v|x]; cbn [step allowed] in *.
  - assert (E : step w (Make h' k) = Ok ([], W (upd (cells w) h' (Some (construct k))) (vars w))).
    { cbn [step]. destruct k; try reflexivity. rewrite V. destruct (content x past); [reflexivity|congruence]. }
    cbn [step] in E. rewrite E. eexists. split; [reflexivity|]. split; cbn [cells vars].
    + intros h. unfold upd, cell_of. cbn [sort_of kept target]. unfold same_name. destruct (Nat.eqb h h').
      * destruct k; reflexivity.
      * apply C.
    + intros x. cbn [content]. apply V.
  - pose proof (C g) as Cg. destruct (Wh g) as [K R]. destruct (cells w g) as [c|] eqn:G.
    + eexists. split; [reflexivity|]. split; cbn [cells vars].
      * intros h. unfold upd, cell_of. cbn [sort_of kept target]. unfold same_name. destruct (Nat.eqb h h').
        -- exact Cg.
        -- apply C.
      * intros x. cbn [content]. apply V.
    + exfalso. unfold cell_of in Cg. destruct (sort_of g past) as [[| | |d]|]; try discriminate.
      * destruct (kept g past); [discriminate|now apply K].
      * destruct (target g past); [discriminate|now apply R].
      * congruence.
  - unfold set_value. pose proof (C h') as Ch. unfold cell_of in Ch. unfold held in Al.
    destruct (sort_of h' past) as [[| | |d]|] eqn:S; try congruence; rewrite ?Ch.
    + destruct (kept h' past) as [a|] eqn:K; [|congruence]. cbn [bind]. eexists. split; [reflexivity|].
      split; cbn [cells vars].
      * intros h. unfold upd, cell_of. cbn [sort_of kept target]. unfold same_name. destruct (Nat.eqb_spec h h') as [->|N].
        -- now rewrite S.
        -- apply C.
      * intros x. cbn [content]. rewrite S. apply V.
    + destruct (target h' past) as [x|] eqn:Tg; [|congruence]. rewrite V. destruct (content x past) as [a|]; [|congruence].
      cbn [bind]. eexists. split; [reflexivity|]. split; cbn [cells vars].
      * intros h. rewrite C. unfold cell_of. cbn [sort_of kept target]. unfold same_name.
        destruct (Nat.eqb_spec h h') as [->|N]; [rewrite S, Tg; reflexivity|reflexivity].
      * intros y. unfold upd. cbn [content]. rewrite S, Tg. unfold same_name. now destruct (Nat.eqb y x).
    + cbn [bind]. eexists. split; [reflexivity|]. split.
      * intros h. rewrite C. unfold cell_of. cbn [sort_of kept target]. unfold same_name.
        destruct (Nat.eqb_spec h h') as [->|N]; [rewrite S; reflexivity|reflexivity].
      * intros x. cbn [content]. rewrite S. apply V.
  - rewrite (value_held w past h' T Wh). destruct (held h' past) as [v|]; [|congruence]. cbn [bind].
    eexists. split; [reflexivity|]. split; [intros h; apply C|intros x; apply V].
  - destruct Al as [S X]. pose proof (C h') as Ch. unfold cell_of in Ch. rewrite S in Ch.
    destruct (Wh h') as [_ R]. destruct (target h' past) as [y|] eqn:Tg; [|now destruct (R S)].
    rewrite Ch, V. destruct (content x past); [|congruence]. eexists. split; [reflexivity|]. split; cbn [cells vars].
    + intros h. unfold upd, cell_of. cbn [sort_of kept target]. unfold same_name. destruct (Nat.eqb_spec h h') as [->|N].
      * now rewrite S.
      * apply C.
    + intros z. cbn [content]. apply V.
  - eexists. split; [reflexivity|]. split; cbn [cells vars].
    + intros h. rewrite C. reflexivity.
    + intros y. unfold upd. cbn [content]. unfold same_name. destruct (Nat.eqb y x); [reflexivity|apply V].
  - rewrite V. destruct (content x past); [|congruence]. eexists. split; [reflexivity|]. split; cbn [cells vars].
    + intros h. rewrite C. reflexivity.
    + intros y. unfold upd. cbn [content]. unfold same_name. destruct (Nat.eqb y x); [reflexivity|apply V].
Qed.
Lemma run_ok os : forall w past, tells w past -> whole past -> sound past os ->
  exists w', run w os = Ok (reads past os, w') /\ tells w' (rev os ++ past) /\ whole (rev os ++ past).
Proof.
  induction os as [|o r IH]; intros w past T Wh S; cbn [run reads sound rev].
  - exists w. split; [reflexivity|]. split; assumption.
  - destruct S as [Al S]. destruct (step_ok w past o T Wh Al) as (w1 & E & T1). rewrite E. cbn [bind].
    destruct (IH w1 (o :: past) T1 (whole_step o past Wh Al) S) as (w2 & E2 & T2 & W2). rewrite E2. cbn [bind].
    exists w2. rewrite <- app_assoc. split; [reflexivity|]. split; assumption.
Qed.
Lemma tells_nothing : tells (@nothing A) [] /\ whole [].
Proof. split; [split; reflexivity|]. intros h. split; discriminate. Qed.
End Evp.
