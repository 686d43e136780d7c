From Coq Require Import List Arith Bool Lia.
From Verif Require Import Base Cb_Spec Cb_Model.
Import ListNotations.

Lemma ident_eqb_eq a b : ident_eqb a b = true <-> a = b.
Proof.
  destruct a, b; cbn; try (split; discriminate); rewrite Nat.eqb_eq;
    (split; [intros ->; reflexivity|intros [= ->]; reflexivity]).
Qed.
Lemma ident_eqb_refl a : ident_eqb a a = true.
Proof. apply ident_eqb_eq. reflexivity. Qed.
Lemma ident_eqb_sym a b : ident_eqb a b = ident_eqb b a.
Proof. destruct a, b; cbn; try reflexivity; apply Nat.eqb_sym. Qed.

Section Cb.
Context {St Obj C A R : Type}.
Variable step : St -> A -> St * R.
Variable meth : nat -> Obj -> A -> Obj * R.
Variable plain : nat -> A -> C -> R.
Notation cop := (cop St C A).
Notation kind := (kind St C).
Notation world := (@world St Obj C).
Implicit Types (h : list cop) (o : cop) (w : world).

Lemma put_same {T} (n : nat -> T) k v : put n k v k = v.
Proof. unfold put. rewrite Nat.eqb_refl. reflexivity. Qed.
Lemma put_other {T} (n : nat -> T) k v j : j <> k -> put n k v j = n j.
Proof. intros H. unfold put. apply Nat.eqb_neq in H. rewrite H. reflexivity. Qed.

Lemma names_snoc h o : names (h ++ [o]) = names_step (names h) o.
Proof. unfold names. rewrite fold_left_app. reflexivity. Qed.
Lemma kind_snoc h o i : kind_of (h ++ [o]) i = match kind_of h i with Some d => Some d | None => made o i end.
Proof.
  induction h as [|a r IH]; cbn.
  - destruct (made o i); reflexivity.
  - destruct (made a i); [reflexivity|exact IH].
Qed.
Lemma alive_snoc h o i : alive (h ++ [o]) i = match made o i with Some _ => true | None => if ends o i then false else alive h i end.
Proof. unfold alive. rewrite fold_left_app. reflexivity. Qed.
Definition new_call (n : nat -> option (option ident)) o : list (ident * A) :=
  match o with Call k x => match n k with Some (Some i) => [(i, x)] | _ => [] end | _ => [] end.
Lemma calls_from_app n h o : calls_from n (h ++ [o]) = calls_from n h ++ new_call (fold_left names_step h n) o.
Proof.
  revert n. induction h as [|a r IH]; intros n; cbn.
  - rewrite app_nil_r. reflexivity.
  - rewrite IH, app_assoc. reflexivity.
Qed.
Lemma calls_snoc h o : calls (h ++ [o]) = calls h ++ new_call (names h) o.
Proof. apply calls_from_app. Qed.
Lemma destroyed_app b h o : destroyed_from b (h ++ [o]) = destroyed_from b h ++ destroys (b ++ h) o.
Proof.
  revert b. induction h as [|a r IH]; intros b; cbn.
  - rewrite !app_nil_r. reflexivity.
  - rewrite IH, <- app_assoc. cbn. rewrite app_assoc. reflexivity.
Qed.
Lemma destroyed_snoc h o : destroyed (h ++ [o]) = destroyed h ++ destroys h o.
Proof. apply destroyed_app. Qed.

Lemma state_snoc i s h o : state_after step i s (h ++ [o]) =
  fold_left (fun s c => if ident_eqb (fst c) i then fst (step s (snd c)) else s) (new_call (names h) o) (state_after step i s h).
Proof. unfold state_after. rewrite calls_snoc, fold_left_app. reflexivity. Qed.
Lemma fold_ext_in {X Y} (f g : X -> Y -> X) l : (forall y x, In y l -> f x y = g x y) -> forall x, fold_left f l x = fold_left g l x.
Proof.
  induction l as [|a r IH]; intros H x; cbn; [reflexivity|].
  rewrite H by (left; reflexivity). apply IH. intros. apply H. right. assumption.
Qed.
Definition objstep h (q : nat) (v : Obj) (c : ident * A) : Obj :=
  match kind_of h (fst c) with
  | Some (Method m o') => if o' =? q then fst (meth m v (snd c)) else v
  | _ => v
  end.
Lemma object_snoc q v h o : (forall i, In i (map fst (calls h)) -> kind_of h i <> None) ->
  object_after meth q v (h ++ [o]) = fold_left (objstep (h ++ [o]) q) (new_call (names h) o) (object_after meth q v h).
Proof.
  intros H. unfold object_after. rewrite calls_snoc, fold_left_app. fold (objstep (h ++ [o]) q). f_equal.
  apply fold_ext_in. intros [i x] v' Hin. unfold objstep. cbn.
  specialize (H i). rewrite kind_snoc. destruct (kind_of h i); [reflexivity|].
  exfalso. apply H; [|reflexivity]. apply in_map_iff. exists (i, x). auto.
Qed.

(* the model object a callable should be at *)
Definition called h i := existsb (ident_eqb i) (map fst (calls h)).
Definition cell_at h i : option cell :=
  if alive h i then
    match kind_of h i with
    | Some (Functor s) => Some {| exec := RunFunctor; data := Holds (state_after step i s h) |}
    | Some (Method m o) => Some {| exec := RunMethod m; data := Foreign o |}
    | Some (Context f c) => Some {| exec := RunContext f; data := Kept c |}
    | Some (Once s) => Some {| exec := RunOnce; data := if called h i then Destructed else Holds (state_after step i s h) |}
    | None => None
    end
  else None.
Record Inv (init : nat -> Obj) h w : Prop := {
  i_vars : forall k, vars w k = names h k;
  i_cells : forall i, cells w i = cell_at h i;
  i_objs : forall q, objs w q = object_after meth q (init q) h;
  i_owns : forall k, owns w k = alive h (Inside k);
  i_dtors : dtors w = destroyed h;
  i_kind : forall i, alive h i = true -> kind_of h i <> None;
  i_calls : forall i, In i (map fst (calls h)) -> kind_of h i <> None;
  i_fun : forall k, alive h (Inside k) = true -> names h k <> None
}.
Lemma inv_start init : Inv init [] (start init).
Proof. constructor; try reflexivity; cbn; try discriminate. intros i []. Qed.

Lemma called_snoc h o i : called (h ++ [o]) i = called h i || existsb (ident_eqb i) (map fst (new_call (names h) o)).
Proof. unfold called. rewrite calls_snoc, map_app, existsb_app. reflexivity. Qed.
Lemma not_called h i : (forall i, In i (map fst (calls h)) -> kind_of h i <> None) -> kind_of h i = None -> called h i = false.
Proof.
  intros H K. unfold called. destruct (existsb _ _) eqn:E; [|reflexivity].
  apply existsb_exists in E. destruct E as (j & Hj & E). apply ident_eqb_eq in E. subst j. destruct (H i Hj K).
Qed.
Lemma fold_skip i l : ~ In i (map fst l) -> forall s : St,
  fold_left (fun s (c : ident * A) => if ident_eqb (fst c) i then fst (step s (snd c)) else s) l s = s.
Proof.
  induction l as [|[j x] r IH]; intros N s; cbn; [reflexivity|].
  destruct (ident_eqb j i) eqn:E.
  - apply ident_eqb_eq in E. subst. destruct N. left. reflexivity.
  - apply IH. intros K. apply N. right. exact K.
Qed.
Lemma fresh_state h i s : (forall i, In i (map fst (calls h)) -> kind_of h i <> None) -> kind_of h i = None -> state_after step i s h = s.
Proof. intros H K. apply fold_skip. intros N. exact (H i N K). Qed.

(* an operation that is not a call leaves the states and calls alone *)
Definition is_call o := match o with Call _ _ => true | _ => false end.
Lemma quiet_call h o : is_call o = false -> new_call (names h) o = [].
Proof. destruct o; try reflexivity. discriminate. Qed.
Lemma quiet_cell h o i : is_call o = false -> made o i = None -> ends o i = false -> cell_at (h ++ [o]) i = cell_at h i.
Proof.
  intros Q M E. unfold cell_at. rewrite alive_snoc, kind_snoc, M, E, called_snoc, (quiet_call h o Q). cbn. rewrite orb_false_r.
  destruct (alive h i); [|reflexivity]. destruct (kind_of h i) as [[s|m q|f c|s]|]; try reflexivity;
    rewrite state_snoc, (quiet_call h o Q); reflexivity.
Qed.
Lemma made_cell h o i d : (forall i, In i (map fst (calls h)) -> kind_of h i <> None) -> is_call o = false -> kind_of h i = None -> made o i = Some d -> cell_at (h ++ [o]) i = Some (ctor d).
Proof.
  intros H Q K M. unfold cell_at. rewrite alive_snoc, kind_snoc, M, K, called_snoc, (quiet_call h o Q), (not_called h i H K). cbn.
  destruct d; try reflexivity; rewrite state_snoc, (quiet_call h o Q), (fresh_state h i _ H K); reflexivity.
Qed.
Lemma ended_cell h o i : made o i = None -> ends o i = true -> cell_at (h ++ [o]) i = None.
Proof. intros M E. unfold cell_at. rewrite alive_snoc, M, E. reflexivity. Qed.
Lemma quiet_object h o q v : (forall i, In i (map fst (calls h)) -> kind_of h i <> None) -> is_call o = false -> object_after meth q v (h ++ [o]) = object_after meth q v h.
Proof. intros H Q. rewrite object_snoc by exact H. rewrite (quiet_call h o Q). reflexivity. Qed.

Lemma step_kind init h w o : Inv init h w -> forall i, alive (h ++ [o]) i = true -> kind_of (h ++ [o]) i <> None.
Proof.
  intros I i. rewrite alive_snoc, kind_snoc. destruct (made o i); [destruct (kind_of h i); discriminate|].
  destruct (ends o i); [discriminate|]. intros Ha. pose proof (i_kind _ _ _ I i Ha). destruct (kind_of h i); congruence.
Qed.
Lemma step_calls init h w o : Inv init h w -> legal h o -> forall i, In i (map fst (calls (h ++ [o]))) -> kind_of (h ++ [o]) i <> None.
Proof.
  intros I L i. rewrite calls_snoc, map_app, in_app_iff, kind_snoc. intros [H|H].
  - pose proof (i_calls _ _ _ I i H). destruct (kind_of h i); congruence.
  - destruct o; cbn in H; try easy. cbn in L. destruct L as (j & Hn & Ha & _). rewrite Hn in H. cbn in H.
    destruct H as [<-|[]]. pose proof (i_kind _ _ _ I j Ha). destruct (kind_of h j); congruence.
Qed.
Lemma step_fun init h w o : Inv init h w -> legal h o -> forall k, alive (h ++ [o]) (Inside k) = true -> names (h ++ [o]) k <> None.
Proof.
  intros I L k. rewrite alive_snoc, names_snoc.
  assert (G : forall k' v, v <> None -> alive h (Inside k) = true -> put (names h) k' v k <> None).
  { intros k' v Hv Ha. unfold put. destruct (k =? k'); [exact Hv|exact (i_fun _ _ _ I k Ha)]. }
  destruct o; cbn in *; try (intros Ha; exact (i_fun _ _ _ I k Ha)); try (apply G; discriminate); try (apply G; tauto).
  - destruct (Nat.eqb_spec k0 k) as [->|N]; [intros _; rewrite put_same; discriminate|apply G; discriminate].
  - destruct (Nat.eqb_spec k0 k) as [->|N]; [discriminate|]. intros Ha. rewrite put_other by congruence. exact (i_fun _ _ _ I k Ha).
Qed.

Lemma step_ok init h w o : Inv init h w -> legal h o ->
  exists w', do_op step meth plain w o = Ok (w', reply_to step meth plain init h o) /\ Inv init (h ++ [o]) w'.
Proof.
  intros I L.
  pose proof (step_kind init h w o I) as K1. pose proof (step_calls init h w o I L) as K2. pose proof (step_fun init h w o I L) as K3.
  pose proof (i_calls _ _ _ I) as HC.
  assert (V : forall k, vars w k = names h k) by apply I.
  destruct o; cbn [legal] in L; unfold do_op; cbn [reply_to].
  - (* NewModel *)
    eexists. split; [reflexivity|]. constructor; cbn; try assumption.
    + intros k. rewrite names_snoc. apply V.
    + intros j. destruct (ident_eqb j (Made i)) eqn:E.
      * apply ident_eqb_eq in E. subst j. symmetry. apply made_cell; [exact HC|reflexivity|exact L|]. cbn. rewrite Nat.eqb_refl. reflexivity.
      * rewrite (i_cells _ _ _ I). symmetry. apply quiet_cell; try reflexivity. destruct j; try reflexivity.
        cbn in *. rewrite Nat.eqb_sym, E. reflexivity.
    + intros q. rewrite (i_objs _ _ _ I). symmetry. apply quiet_object; [exact HC|reflexivity].
    + intros k. rewrite (i_owns _ _ _ I), alive_snoc. reflexivity.
    + rewrite (i_dtors _ _ _ I), destroyed_snoc. cbn. rewrite app_nil_r. reflexivity.
  - (* EndModel *)
    destruct L as (Ha & No). unfold end_model. rewrite (i_cells _ _ _ I). unfold cell_at. rewrite Ha.
    pose proof (i_kind _ _ _ I _ Ha) as Hk.
    assert (G : forall w1 : world, cells w1 = cells (put_cell w (Made i) None) -> vars w1 = vars w -> objs w1 = objs w -> owns w1 = owns w ->
      dtors w1 = destroyed (h ++ [EndModel i]) -> Inv init (h ++ [EndModel i]) w1).
    { intros w1 E1 E2 E3 E4 E5. constructor; try assumption.
      - intros k. rewrite E2, names_snoc. apply V.
      - intros j. rewrite E1. cbn. destruct (ident_eqb j (Made i)) eqn:E.
        + apply ident_eqb_eq in E. subst j. symmetry. apply ended_cell; [reflexivity|]. cbn. apply Nat.eqb_refl.
        + rewrite (i_cells _ _ _ I). symmetry. apply quiet_cell; try reflexivity. destruct j; try reflexivity.
          cbn in *. rewrite Nat.eqb_sym, E. reflexivity.
      - intros q. rewrite E3, (i_objs _ _ _ I). symmetry. apply quiet_object; [exact HC|reflexivity].
      - intros k. rewrite E4, (i_owns _ _ _ I), alive_snoc. reflexivity. }
    assert (D : destroyed (h ++ [EndModel i]) = destroyed h ++ match kind_of h (Made i) with Some (Functor _) | Some (Once _) => [Made i] | _ => [] end) by apply destroyed_snoc.
    destruct (kind_of h (Made i)) as [[s|m q|f c|s]|] eqn:E; cbn.
    + eexists. split; [reflexivity|]. apply G; try reflexivity. cbn. rewrite D, (i_dtors _ _ _ I). reflexivity.
    + eexists. split; [reflexivity|]. apply G; try reflexivity. cbn. rewrite D, (i_dtors _ _ _ I), app_nil_r. reflexivity.
    + eexists. split; [reflexivity|]. apply G; try reflexivity. cbn. rewrite D, (i_dtors _ _ _ I), app_nil_r. reflexivity.
    + destruct (No s eq_refl).
    + destruct (Hk eq_refl).
  - (* NewFun *)
    destruct L as (Hn & Ha). eexists. split; [reflexivity|]. constructor; cbn; try assumption.
    + intros j. rewrite names_snoc. cbn. unfold put. rewrite V. reflexivity.
    + intros j. rewrite (i_cells _ _ _ I). symmetry. apply quiet_cell; destruct j; reflexivity.
    + intros q. rewrite (i_objs _ _ _ I). symmetry. apply quiet_object; [exact HC|reflexivity].
    + intros j. rewrite alive_snoc. cbn. unfold put. rewrite (i_owns _ _ _ I). destruct (Nat.eqb_spec j k) as [->|N]; [|reflexivity].
      destruct (alive h (Inside k)) eqn:E; [|reflexivity]. destruct (i_fun _ _ _ I k E Hn).
    + rewrite (i_dtors _ _ _ I), destroyed_snoc. cbn. rewrite app_nil_r. reflexivity.
  - (* NewNull *)
    eexists. split; [reflexivity|]. constructor; cbn; try assumption.
    + intros j. rewrite names_snoc. cbn. unfold put. rewrite V. reflexivity.
    + intros j. rewrite (i_cells _ _ _ I). symmetry. apply quiet_cell; destruct j; reflexivity.
    + intros q. rewrite (i_objs _ _ _ I). symmetry. apply quiet_object; [exact HC|reflexivity].
    + intros j. rewrite alive_snoc. cbn. unfold put. rewrite (i_owns _ _ _ I). destruct (Nat.eqb_spec j k) as [->|N]; [|reflexivity].
      destruct (alive h (Inside k)) eqn:E; [|reflexivity]. destruct (i_fun _ _ _ I k E L).
    + rewrite (i_dtors _ _ _ I), destroyed_snoc. cbn. rewrite app_nil_r. reflexivity.
  - (* CopyFun *)
    destruct L as (Hn & Hj). rewrite V. destruct (names h j) as [p|] eqn:E; [|destruct (Hj eq_refl)].
    eexists. split; [reflexivity|]. constructor; cbn; try assumption.
    + intros i. rewrite names_snoc. cbn. unfold put. rewrite V, E. reflexivity.
    + intros i. rewrite (i_cells _ _ _ I). symmetry. apply quiet_cell; destruct i; reflexivity.
    + intros q. rewrite (i_objs _ _ _ I). symmetry. apply quiet_object; [exact HC|reflexivity].
    + intros i. rewrite alive_snoc. cbn. unfold put. rewrite (i_owns _ _ _ I). destruct (Nat.eqb_spec i k) as [->|N]; [|reflexivity].
      destruct (alive h (Inside k)) eqn:E'; [|reflexivity]. destruct (i_fun _ _ _ I k E' Hn).
    + rewrite (i_dtors _ _ _ I), destroyed_snoc. cbn. rewrite app_nil_r. reflexivity.
  - (* Assign *)
    destruct L as (Hn & Hj). rewrite V. destruct (names h j) as [p|] eqn:E; [|destruct (Hj eq_refl)].
    eexists. split; [reflexivity|]. constructor; cbn; try assumption.
    + intros i. rewrite names_snoc. cbn. unfold put. rewrite V, E. reflexivity.
    + intros i. rewrite (i_cells _ _ _ I). symmetry. apply quiet_cell; destruct i; reflexivity.
    + intros q. rewrite (i_objs _ _ _ I). symmetry. apply quiet_object; [exact HC|reflexivity].
    + intros i. rewrite alive_snoc. cbn. apply (i_owns _ _ _ I).
    + rewrite (i_dtors _ _ _ I), destroyed_snoc. cbn. rewrite app_nil_r. reflexivity.
  - (* NewThis *)
    destruct L as (Hn & Hk). eexists. split; [reflexivity|]. constructor; cbn; try assumption.
    + intros j. rewrite names_snoc. cbn. unfold put. rewrite V. reflexivity.
    + intros j. destruct (ident_eqb j (Inside k)) eqn:E.
      * apply ident_eqb_eq in E. subst j. symmetry. apply (made_cell h (NewThis k m o) (Inside k) (Method m o)); [exact HC|reflexivity|exact Hk|].
        cbn. rewrite Nat.eqb_refl. reflexivity.
      * rewrite (i_cells _ _ _ I). symmetry. apply quiet_cell; try reflexivity; destruct j; try reflexivity.
        cbn in *. rewrite Nat.eqb_sym, E. reflexivity.
    + intros q. rewrite (i_objs _ _ _ I). symmetry. apply quiet_object; [exact HC|reflexivity].
    + intros j. rewrite alive_snoc. cbn. unfold put. rewrite (i_owns _ _ _ I), (Nat.eqb_sym k j). destruct (j =? k); reflexivity.
    + rewrite (i_dtors _ _ _ I), destroyed_snoc. cbn. rewrite app_nil_r. reflexivity.
  - destruct L.
  - (* NewStatic *)
    destruct L as (Hn & Hk). eexists. split; [reflexivity|]. unfold new_static.
    assert (Hc : cells w (Static ty) = None).
    { rewrite (i_cells _ _ _ I). unfold cell_at. rewrite Hk. destruct (alive h (Static ty)); reflexivity. }
    rewrite Hc. constructor; cbn; try assumption.
    + intros j. rewrite names_snoc. cbn. unfold put. rewrite V. reflexivity.
    + intros j. destruct (ident_eqb j (Static ty)) eqn:E.
      * apply ident_eqb_eq in E. subst j. symmetry. apply (made_cell h (NewStatic k ty s) (Static ty) (Functor s)); [exact HC|reflexivity|exact Hk|].
        cbn. rewrite Nat.eqb_refl. reflexivity.
      * rewrite (i_cells _ _ _ I). symmetry. apply quiet_cell; try reflexivity; destruct j; try reflexivity.
        cbn in *. rewrite Nat.eqb_sym, E. reflexivity.
    + intros q. rewrite (i_objs _ _ _ I). symmetry. apply quiet_object; [exact HC|reflexivity].
    + intros j. rewrite alive_snoc. cbn. unfold put. rewrite (i_owns _ _ _ I). destruct (Nat.eqb_spec j k) as [->|N]; [|reflexivity].
      destruct (alive h (Inside k)) eqn:E; [|reflexivity]. destruct (i_fun _ _ _ I k E Hn).
    + rewrite (i_dtors _ _ _ I), destroyed_snoc. cbn. rewrite app_nil_r. reflexivity.
  - (* EndFun *)
    eexists. split; [reflexivity|]. unfold end_fun. rewrite (i_owns _ _ _ I).
    assert (E0 : forall i, made (EndFun k : cop) i = None) by (intros []; reflexivity).
    constructor; try assumption.
    + intros j. rewrite names_snoc. cbn. unfold put. destruct (alive h (Inside k)); cbn; rewrite V; reflexivity.
    + intros j. destruct (ident_eqb j (Inside k)) eqn:E.
      * apply ident_eqb_eq in E. subst j. rewrite (ended_cell h (EndFun k) (Inside k)); [|apply E0|cbn; apply Nat.eqb_refl].
        destruct (alive h (Inside k)) eqn:Ea; cbn.
        -- rewrite Nat.eqb_refl. reflexivity.
        -- rewrite (i_cells _ _ _ I). unfold cell_at. rewrite Ea. reflexivity.
      * rewrite quiet_cell; [|reflexivity|apply E0|]. 2:{ destruct j; try reflexivity. cbn in *. rewrite Nat.eqb_sym. exact E. }
        destruct (alive h (Inside k)); cbn; [rewrite E|]; apply (i_cells _ _ _ I).
    + intros q. rewrite quiet_object by (exact HC || reflexivity). destruct (alive h (Inside k)); cbn; apply (i_objs _ _ _ I).
    + intros j. rewrite alive_snoc. cbn. rewrite (Nat.eqb_sym k j).
      destruct (alive h (Inside k)); cbn; unfold put; rewrite (i_owns _ _ _ I); reflexivity.
    + rewrite destroyed_snoc. cbn. rewrite app_nil_r. destruct (alive h (Inside k)); cbn; apply (i_dtors _ _ _ I).
  - (* Call *)
    destruct L as (i & Hn & Ha & Ho). unfold call. rewrite V, Hn. unfold invoke. rewrite (i_cells _ _ _ I). unfold cell_at. rewrite Ha.
    assert (E0 : forall j, made (Call k x : cop) j = None) by (intros []; reflexivity).
    assert (E1 : forall j, ends (Call k x : cop) j = false) by (intros []; reflexivity).
    assert (NC : new_call (names h) (Call k x : cop) = [(i, x)]) by (cbn; rewrite Hn; reflexivity).
    assert (Al : forall j, alive (h ++ [Call k x]) j = alive h j) by (intros j; rewrite alive_snoc, E0, E1; reflexivity).
    assert (Kd : forall j, kind_of (h ++ [Call k x]) j = kind_of h j) by (intros j; rewrite kind_snoc, E0; destruct (kind_of h j); reflexivity).
    assert (Cl : forall j, called (h ++ [Call k x]) j = called h j || ident_eqb j i).
    { intros j. rewrite called_snoc, NC. cbn. rewrite orb_false_r. reflexivity. }
    assert (Sa : forall j s, state_after step j s (h ++ [Call k x]) = if ident_eqb i j then fst (step (state_after step j s h) x) else state_after step j s h).
    { intros j s. rewrite state_snoc, NC. reflexivity. }
    assert (Oa : forall q v, object_after meth q v (h ++ [Call k x]) = match kind_of h i with Some (Method m o') => if o' =? q then fst (meth m (object_after meth q v h) x) else object_after meth q v h | _ => object_after meth q v h end).
    { intros q v. rewrite object_snoc by exact HC. rewrite NC. cbn. unfold objstep. cbn [fst snd]. rewrite Kd. reflexivity. }
    assert (Nm : names (h ++ [Call k x]) = names h) by (rewrite names_snoc; reflexivity).
    assert (D : destroyed (h ++ [Call k x]) = destroyed h ++ match kind_of h i with Some (Once _) => [i] | _ => [] end).
    { rewrite destroyed_snoc. cbn. rewrite Hn. reflexivity. }
    assert (Cd : forall j, ident_eqb j i = false -> cell_at (h ++ [Call k x]) j = cell_at h j).
    { intros j E. unfold cell_at. rewrite Al, Kd, Cl, E, orb_false_r. destruct (alive h j); [|reflexivity].
      destruct (kind_of h j) as [[]|]; try reflexivity; rewrite Sa, (ident_eqb_sym i j), E; reflexivity. }
    unfold cell_at in Cd.
    assert (Cm : (forall s, kind_of h i <> Some (Functor s)) -> (forall s, kind_of h i <> Some (Once s)) -> forall j, cell_at (h ++ [Call k x]) j = cell_at h j).
    { intros N1 N2 j. destruct (ident_eqb j i) eqn:E; [|apply Cd; exact E]. apply ident_eqb_eq in E. subst j.
      unfold cell_at. rewrite Al, Kd. destruct (alive h i); [|reflexivity]. destruct (kind_of h i) as [[]|] eqn:E'; try reflexivity.
      - destruct (N1 s eq_refl). - destruct (N2 s eq_refl). }
    pose proof (i_kind _ _ _ I i Ha) as Hki.
    destruct (kind_of h i) as [[s|m q|f c|s]|] eqn:Ek; cbn [exec data].
    + destruct (step (state_after step i s h) x) as [s' r] eqn:Es. cbn [snd]. eexists. split; [reflexivity|].
      constructor; cbn; try assumption; try (intros; rewrite ?Nm, ?Al; apply I).
      * intros j. destruct (ident_eqb j i) eqn:E.
        -- apply ident_eqb_eq in E. subst j. unfold cell_at. rewrite Al, Ha, Kd, Ek, Sa, ident_eqb_refl, Es. reflexivity.
        -- rewrite (i_cells _ _ _ I). symmetry. apply Cd. exact E.
      * intros q. rewrite Oa. apply I.
      * rewrite D, app_nil_r. apply I.
    + rewrite (i_objs _ _ _ I). destruct (meth m (object_after meth q (init q) h) x) as [v r] eqn:Es. cbn [snd]. eexists. split; [reflexivity|].
      constructor; cbn; try assumption; try (intros; rewrite ?Nm, ?Al; apply I).
      * intros j. rewrite (i_cells _ _ _ I). symmetry. apply Cm; intros; discriminate.
      * intros q'. rewrite Oa. unfold put. rewrite (Nat.eqb_sym q' q). destruct (Nat.eqb_spec q q') as [<-|N]; [rewrite Es; reflexivity|apply I].
      * rewrite D, app_nil_r. apply I.
    + eexists. split; [reflexivity|].
      constructor; cbn; try assumption; try (intros; rewrite ?Nm, ?Al; apply I).
      * intros j. rewrite (i_cells _ _ _ I). symmetry. apply Cm; intros; discriminate.
      * intros q. rewrite Oa. apply I.
      * rewrite D, app_nil_r. apply I.
    + assert (Hc : called h i = false).
      { unfold called. destruct (existsb _ _) eqn:E; [|reflexivity]. apply existsb_exists in E. destruct E as (j & Hj & E).
        apply ident_eqb_eq in E. subst j. destruct (Ho s eq_refl Hj). }
      rewrite Hc. cbn [exec data].
      destruct (step (state_after step i s h) x) as [s' r] eqn:Es. cbn [snd]. eexists. split; [reflexivity|].
      constructor; cbn; try assumption; try (intros; rewrite ?Nm, ?Al; apply I).
      * intros j. destruct (ident_eqb j i) eqn:E.
        -- apply ident_eqb_eq in E. subst j. unfold cell_at. rewrite Al, Ha, Kd, Ek, Cl, ident_eqb_refl, orb_true_r. reflexivity.
        -- rewrite (i_cells _ _ _ I). symmetry. apply Cd. exact E.
      * intros q. rewrite Oa. apply I.
      * rewrite D, (i_dtors _ _ _ I). reflexivity.
    + destruct (Hki eq_refl).
  - (* Test *)
    rewrite V. destruct (names h k) as [p|] eqn:E; [|destruct (L eq_refl)].
    eexists. split; [destruct p; reflexivity|]. constructor; try assumption.
    + intros j. rewrite names_snoc. apply V.
    + intros j. rewrite (i_cells _ _ _ I). symmetry. apply quiet_cell; destruct j; reflexivity.
    + intros q. rewrite (i_objs _ _ _ I). symmetry. apply quiet_object; [exact HC|reflexivity].
    + intros j. rewrite alive_snoc. cbn. apply (i_owns _ _ _ I).
    + rewrite (i_dtors _ _ _ I), destroyed_snoc. cbn. rewrite app_nil_r. reflexivity.
Qed.

Theorem run_ok init h : forall b w, Inv init b w -> all_legal b h ->
  exists w', run step meth plain w h = Ok (w', replies step meth plain init b h) /\ Inv init (b ++ h) w'.
Proof.
  induction h as [|o r IH]; intros b w I L; cbn.
  - rewrite app_nil_r. eauto.
  - cbn in L. destruct L as (L1 & L2). destruct (step_ok init b w o I L1) as (w1 & E1 & I1).
    destruct (IH _ _ I1 L2) as (w2 & E2 & I2). rewrite E1, E2. exists w2. split; [reflexivity|].
    rewrite <- app_assoc in I2. exact I2.
Qed.

(* a functor is destroyed once at most *)
Record Dead h : Prop := {
  d_dup : NoDup (destroyed h);
  d_in : forall i, In i (destroyed h) -> (exists s, kind_of h i = Some (Functor s) /\ alive h i = false) \/ (exists s, kind_of h i = Some (Once s) /\ In i (map fst (calls h)))
}.
Lemma nodup_snoc {X} (l : list X) x : NoDup l -> ~ In x l -> NoDup (l ++ [x]).
Proof.
  intros H N. apply NoDup_rev in H. rewrite <- (rev_involutive (l ++ [x])), rev_app_distr. apply NoDup_rev. cbn. constructor; [|exact H].
  rewrite <- in_rev. exact N.
Qed.
Lemma dead_step h o : Dead h -> legal h o -> Dead (h ++ [o]).
Proof.
  intros [D1 D2] L.
  assert (Keep : forall i, In i (destroyed h) -> (exists s, kind_of (h ++ [o]) i = Some (Functor s) /\ alive (h ++ [o]) i = false) \/ (exists s, kind_of (h ++ [o]) i = Some (Once s) /\ In i (map fst (calls (h ++ [o]))))).
  { intros i Hi. destruct (D2 i Hi) as [(s & K & Na)|(s & K & Hc)].
    - left. exists s. rewrite kind_snoc, K, alive_snoc. split; [reflexivity|].
      assert (M : made o i = None).
      { destruct (made o i) eqn:M; [|reflexivity]. exfalso. destruct o, i; cbn in M, L; try discriminate;
          match type of M with context [?a =? ?b] => destruct (Nat.eqb_spec a b); [subst|discriminate] end; try (pose proof (proj2 L)); congruence. }
      rewrite M, Na. destruct (ends o i); reflexivity.
    - right. exists s. rewrite kind_snoc, K, calls_snoc, map_app, in_app_iff. auto. }
  assert (New : forall i, In i (destroys h o) -> ~ In i (destroyed h) /\ ((exists s, kind_of (h ++ [o]) i = Some (Functor s) /\ alive (h ++ [o]) i = false) \/ (exists s, kind_of (h ++ [o]) i = Some (Once s) /\ In i (map fst (calls (h ++ [o])))))).
  { intros i Hi. destruct o; cbn in Hi; try easy.
    - cbn in L. destruct L as (Ha & No). destruct (kind_of h (Made i0)) as [[s| | |s]|] eqn:K; cbn in Hi; try easy.
      + destruct Hi as [<-|[]]. split.
        * intros Hd. destruct (D2 _ Hd) as [(s' & K' & Na)|(s' & K' & _)]; congruence.
        * left. exists s. rewrite kind_snoc, K, alive_snoc. cbn. rewrite Nat.eqb_refl. auto.
      + destruct (No s eq_refl).
    - cbn in L. destruct L as (j & Hn & Ha & Ho). rewrite Hn in Hi. destruct (kind_of h j) as [[s| | |s]|] eqn:K; cbn in Hi; try easy.
      destruct Hi as [<-|[]]. split.
      + intros Hd. destruct (D2 _ Hd) as [(s' & K' & Na)|(s' & K' & Hc)]; [congruence|]. exact (Ho s eq_refl Hc).
      + right. exists s. rewrite kind_snoc, K, calls_snoc, map_app, in_app_iff. split; [reflexivity|]. right. cbn. rewrite Hn. left. reflexivity. }
  assert (Small : destroys h o = [] \/ exists i, destroys h o = [i]).
  { destruct o; cbn; auto.
    - destruct (kind_of h (Made i)) as [[]|]; eauto.
    - destruct (names h k) as [[i|]|]; auto. destruct (kind_of h i) as [[]|]; eauto. }
  constructor; rewrite destroyed_snoc.
  - destruct Small as [->|(i & E)]; [rewrite app_nil_r; exact D1|]. rewrite E in *. apply nodup_snoc; [exact D1|]. apply New. left. reflexivity.
  - intros i Hi. apply in_app_iff in Hi. destruct Hi as [Hi|Hi]; [exact (Keep i Hi)|exact (proj2 (New i Hi))].
Qed.
Lemma dead_all h : forall b, Dead b -> all_legal b h -> Dead (b ++ h).
Proof.
  induction h as [|o r IH]; intros b D L; [rewrite app_nil_r; exact D|].
  cbn in L. destruct L as (L1 & L2). specialize (IH _ (dead_step b o D L1) L2). rewrite <- app_assoc in IH. exact IH.
Qed.
Lemma dead_nil : Dead [].
Proof. constructor; cbn; [constructor|intros i []]. Qed.
End Cb.
