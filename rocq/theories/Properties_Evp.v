(* C487, C488: holders of values, references and nothing *)
From Coq Require Import ZArith List.
From Verif Require Import Base Evp_Spec Evp_Model Evp_Proofs.
Import ListNotations.
Local Open Scope res_scope.

(* C487: whatever is made, copied, set, pointed elsewhere and read, in any order, the values read are the
   ones last set: in the holder, in the variable it refers to, or the constant *)
Theorem C487_history : forall {A} (os : list (vop A)), sound [] os ->
  exists w, run nothing os = Ok (reads [] os, w) /\
    forall h, value w h = match held h (rev os) with Some v => Ok v | None => UB end.
Proof.
  intros A os S. destruct (@tells_nothing A) as [T Wh]. destruct (run_ok os _ _ T Wh S) as (w & E & T1 & W1).
  rewrite app_nil_r in *. exists w. split; [exact E|]. intros h. now apply value_held.
Qed.
Print Assumptions C487_history.
(* so a holder with a value of its own shares it with no other: what is set in a copy, or in what it was
   copied from, does not show in it *)
Theorem C487_copies_apart : forall {A} (os : list (vop A)) h g v, sound [] os -> sort_of g (rev os) = Some Own -> h <> g ->
  exists w, run nothing (os ++ [Copy h g; Put g v]) = Ok (reads [] os, w) /\
    value w h = match held g (rev os) with Some a => Ok a | None => UB end /\ value w g = Ok v.
Proof.
  intros A os h g v S G N. destruct (@tells_nothing A) as [T Wh]. destruct (run_ok os _ _ T Wh S) as (w & E & T1 & W1).
  rewrite app_nil_r in *.
  assert (K : kept g (rev os) <> None) by now apply W1.
  assert (GH : Nat.eqb g h = false) by (apply Nat.eqb_neq; congruence).
  assert (HG : Nat.eqb h g = false) by (apply Nat.eqb_neq; congruence).
  destruct (run_ok [Copy h g; Put g v] w (rev os) T1 W1) as (w2 & E2 & T2 & W2).
  { cbn [sound allowed]. split; [congruence|]. split; [|exact I]. unfold held. cbn [sort_of kept target]. unfold same_name.
    rewrite GH, G. exact K. }
  exists w2. split; [|split].
  - assert (R : forall (a b : list (vop A)) w0 x y, run w0 a = Ok (x, y) -> run w0 (a ++ b) = (' (z, y2) <- run y b ;; Ok (x ++ z, y2))).
    { clear. induction a as [|o a IH]; intros b w0 x y E; cbn [app run] in *.
      - injection E as <- <-. destruct (run w0 b) as [[? ?]| |]; reflexivity.
      - destruct (step w0 o) as [[u w1]| |]; try discriminate. cbn [bind] in *.
        destruct (run w1 a) as [[u2 w2]| |] eqn:Q; try discriminate. cbn [bind] in E. injection E as <- <-.
        rewrite (IH b w1 u2 w2 Q). destruct (run w2 b) as [[? ?]| |]; cbn [bind]; try reflexivity. now rewrite app_assoc. }
    rewrite (R _ _ _ _ _ E), E2. cbn [bind reads]. now rewrite !app_nil_r.
  - rewrite (value_held w2 _ h T2 W2). cbn [rev app held]. unfold held. cbn [sort_of kept target]. unfold same_name.
    rewrite HG, Nat.eqb_refl, G. reflexivity.
  - rewrite (value_held w2 _ g T2 W2). cbn [rev app held]. unfold held. cbn [sort_of kept target]. unfold same_name.
    rewrite GH, Nat.eqb_refl, G. reflexivity.
Qed.
Print Assumptions C487_copies_apart.
(* and holders that refer to one variable have one value *)
Theorem C487_shared : forall {A} (os : list (vop A)) h g x v, sound [] os ->
  sort_of h (rev os) = Some Reference -> sort_of g (rev os) = Some Reference ->
  target h (rev os) = Some x -> target g (rev os) = Some x -> content x (rev os) <> None ->
  exists w w', run nothing os = Ok (reads [] os, w) /\ set_value w g v = Ok w' /\ value w' h = Ok v /\ vars w' x = Some v.
Proof.
  intros A os h g x v S H G TH TG X. destruct (@tells_nothing A) as [T Wh]. destruct (run_ok os _ _ T Wh S) as (w & E & T1 & W1).
  rewrite app_nil_r in *.
  assert (Al : allowed (Put g v) (rev os)) by (cbn; unfold held; now rewrite G, TG).
  destruct (step_ok w (rev os) (Put g v) T1 W1 Al) as (w' & E' & T2). cbn [step] in E'.
  destruct (set_value w g v) as [w0| |] eqn:Q; cbn [bind] in E'; try discriminate. injection E' as ->.
  exists w, w'. split; [exact E|]. split; [exact Q|].
  assert (C : content x (Put g v :: rev os) = Some v) by (cbn [content]; rewrite G, TG; unfold same_name; now rewrite Nat.eqb_refl).
  split.
  - rewrite (value_held w' _ h T2 (whole_step _ _ W1 Al)). unfold held. cbn [sort_of target]. now rewrite H, TH, C.
  - destruct T2 as [_ V]. now rewrite V.
Qed.
Print Assumptions C487_shared.
Definition case_history : list (vop Z) :=
  [Assign 0 5; Make 0 (Refer 0); Make 1 (Keep 7); Copy 2 1; Put 1 8; Get 1; Get 2; Copy 3 0; Put 3 6; Get 0;
   Assign 1 9; Point 0 1; Get 0; Get 3; Make 4 (Gone 1 4); Put 4 3; Get 4; End 0; Get 0]%Z.
Example C487_case : sound [] case_history /\ reads [] case_history = [8; 7; 6; 9; 6; 1; 9]%Z /\
  match run nothing case_history with Ok (b, w) => b = [8; 7; 6; 9; 6; 1; 9]%Z /\ value w 3 = UB | _ => False end.
Proof. split; [cbn; repeat split; congruence|]. split; vm_compute; [reflexivity|split; reflexivity]. Qed.

(* C488 (false): a holder gives back the value it was made with or was last given.  An evaporated one gives
   its constant, *)
Theorem C488_evaporated_refuted : forall {A} (os : list (vop A)) h d u v, sound [] os -> v <> d ->
  exists w, run nothing (os ++ [Make h (Gone d u); Put h v]) = Ok (reads [] os, w) /\ value w h = Ok d.
Proof.
  intros A os h d u v S N. destruct (@tells_nothing A) as [T Wh].
  assert (S2 : sound [] (os ++ [Make h (Gone d u); Put h v])).
  { assert (R : forall p, sound p os -> sound p (os ++ [Make h (Gone d u); Put h v])); [|now apply R].
    clear. induction os as [|o r IH]; intros p S; cbn [app sound] in *.
    - split; [exact I|]. split; [|exact I]. cbn. unfold held. cbn [sort_of kept target]. unfold same_name. now rewrite Nat.eqb_refl.
    - destruct S as [Al S]. split; [exact Al|]. now apply IH. }
  destruct (run_ok _ _ _ T Wh S2) as (w & E & T1 & W1). rewrite app_nil_r in *. exists w. split.
  - rewrite E. f_equal. f_equal.
    assert (R : forall p, reads p (os ++ [Make h (Gone d u); Put h v]) = reads p os); [|apply R].
    clear. induction os as [|o r IH]; intros p; cbn [app reads]; [reflexivity|]. now rewrite IH.
  - rewrite (value_held w _ h T1 W1). rewrite rev_app_distr. cbn [rev app held]. unfold held. cbn [sort_of]. unfold same_name.
    now rewrite Nat.eqb_refl.
Qed.
Print Assumptions C488_evaporated_refuted.
(* one that was made with a temporary refers to nothing at all, *)
Theorem C488_temporary_refuted : forall {A} (w : world A) h u v,
  exists w', step w (Make h (Temporary u)) = Ok ([], w') /\ step w' (Get h) = UB /\ step w' (Put h v) = UB.
Proof.
  intros A w h u v. eexists. split; [reflexivity|]. cbn [step]. unfold value, set_value. cbn [cells].
  unfold upd. rewrite Nat.eqb_refl. split; reflexivity.
Qed.
Print Assumptions C488_temporary_refuted.
(* and one whose variable has ended cannot be used either. *)
Theorem C488_ended_refuted : forall {A} (os : list (vop A)) h x v, sound [] os ->
  sort_of h (rev os) = Some Reference -> target h (rev os) = Some x -> content x (rev os) <> None ->
  run nothing (os ++ [End x; Get h]) = UB /\ run nothing (os ++ [End x; Put h v]) = UB.
Proof.
  intros A os h x v S H TH X. destruct (@tells_nothing A) as [T Wh]. destruct (run_ok os _ _ T Wh S) as (w & E & T1 & W1).
  rewrite app_nil_r in *.
  destruct (step_ok w (rev os) (End x) T1 W1 X) as (w1 & E1 & T2).
  assert (C : content x (End x :: rev os) = None) by (cbn [content]; unfold same_name; now rewrite Nat.eqb_refl).
  assert (Cl : cells w1 h = Some (CAddress x)).
  { destruct T2 as [Q _]. rewrite Q. unfold cell_of. cbn [sort_of target]. now rewrite H, TH. }
  assert (V : vars w1 x = None) by (destruct T2 as [_ Q]; now rewrite Q).
  assert (R : forall (a b : list (vop A)) w0 p y, run w0 a = Ok (p, y) -> run y b = UB -> run w0 (a ++ b) = UB).
  { clear. induction a as [|o a IH]; intros b w0 p y E B; cbn [app run] in *.
    - now injection E as _ ->.
    - destruct (step w0 o) as [[u w1]| |]; try discriminate. cbn [bind] in *.
      destruct (run w1 a) as [[u2 w2]| |] eqn:Q; try discriminate. cbn [bind] in E. injection E as _ <-.
      now rewrite (IH b w1 u2 w2 Q B). }
  split; apply (R _ _ _ _ _ E); cbn [run]; rewrite E1; cbn [bind step]; unfold value, set_value; now rewrite Cl, V.
Qed.
Print Assumptions C488_ended_refuted.
Example C488_case :
  (exists w, run nothing (case_history ++ [Make 5 (Gone 1 2); Put 5 3])%Z = Ok (reads [] case_history, w) /\ value w 5 = Ok 1%Z) /\
  sound [] [Assign 0 5%Z; Make 0 (Refer 0)] /\ sort_of 0 (rev [Assign 0 5%Z; Make 0 (Refer 0)]) = Some Reference /\
  run nothing [Assign 0 5%Z; Make 0 (Refer 0); End 0; Get 0] = UB /\
  run nothing [Make 0 (Temporary 5%Z); Get 0] = UB.
Proof.
  split; [eexists; split; vm_compute; reflexivity|]. split; [cbn; repeat split; congruence|]. repeat split; reflexivity.
Qed.
