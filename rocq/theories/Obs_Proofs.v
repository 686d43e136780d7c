From Coq Require Import List Arith Bool Lia.
From Verif Require Import Obs_Spec Obs_Model.
Import ListNotations.

Section P.
Context {S V C : Type}.
Variable xcls : nat -> ocls S V C.
Notation rcp := (recipient S V C).
Notation wld := (@world S).
Notation slt := (slot S V C).

Lemma slot_ind2 (P : slt -> Prop) :
  (forall a, P (Ref a)) -> (forall id c s, P (Own id c s)) ->
  (forall ty sub, Forall P sub -> P (Proxy ty sub)) -> forall o, P o.
Proof.
  intros H1 H2 H3. fix IH 1. intros [a|id c s|ty sub]; [apply H1|apply H2|apply H3].
  induction sub as [|x r IHr]; constructor; [apply IH|exact IHr].
Qed.

Lemma mem_In t l : mem t l = true <-> In t l.
Proof.
  unfold mem. rewrite existsb_exists. split.
  - intros (x & Hx & E). apply Nat.eqb_eq in E. subst. exact Hx.
  - intro H. exists t. rewrite Nat.eqb_refl. auto.
Qed.

Lemma sublist_flat {A B} (P : A -> Prop) (d : A -> bool) (f : A -> B) :
  (forall x, d x = true <-> P x) ->
  forall l, exists m, sublist_of P l m /\ flat_map (fun x => if d x then [f x] else []) l = map f m.
Proof.
  intro Hd. induction l as [|x l (m & Hm & E)].
  - exists []. split; [constructor|reflexivity].
  - destruct (d x) eqn:Ex.
    + exists (x :: m). split; [constructor; [apply Hd; exact Ex|exact Hm]|].
      cbn [flat_map map]. rewrite Ex, E. reflexivity.
    + exists m. split; [apply sub_drop; [intro Q; apply Hd in Q; congruence|exact Hm]|].
      cbn [flat_map]. rewrite Ex. exact E.
Qed.

Lemma sublist_filter {A} (P : A -> Prop) (d : A -> bool) :
  (forall x, d x = true <-> P x) -> forall l, sublist_of P l (filter d l).
Proof.
  intros Hd l. induction l as [|x l IH]; cbn [filter]; [constructor|].
  destruct (d x) eqn:E; constructor; try exact IH.
  - apply Hd, E.
  - intro Q. apply Hd in Q. congruence.
Qed.

Lemma sublist_det {A} (P : A -> Prop) l m m' : sublist_of P l m -> sublist_of P l m' -> m = m'.
Proof.
  intro H. revert m'. induction H; intros m' H'; inversion H'; subst; try contradiction; try reflexivity.
  - f_equal. auto.
  - auto.
Qed.

(* decidable form of the gates *)
Definition opens (t : nat) (g : list (list nat)) : bool := forallb (mem t) g.
Lemma opens_ok t (r : rcp) : opens t (r_gates r) = true <-> passes t r.
Proof.
  unfold opens, passes. rewrite forallb_forall, Forall_forall. split; intros H x Hx.
  - apply mem_In. auto.
  - apply mem_In. auto.
Qed.
Lemma opens_app t g ty : opens t (g ++ [ty]) = opens t g && mem t ty.
Proof. unfold opens. rewrite forallb_app. cbn. now rewrite andb_true_r. Qed.

Arguments opens : simpl never.
Definition hearsb (t : nat) (r : rcp) : bool :=
  opens t (r_gates r) && match plain (r_cls r) t with Some _ => true | None => false end.
Lemma hearsb_ok t r : hearsb t r = true <-> hears t r.
Proof.
  unfold hearsb, hears. rewrite andb_true_iff, opens_ok.
  destruct (plain (r_cls r) t); split; intros [H1 H2]; split; auto; congruence.
Qed.

Arguments hearsb : simpl never.
(* what one notification does to the flattened subject *)
Definition calls1 (n : nat * V) (h : rcp * option S) : list (call (V:=V)) :=
  if hearsb (fst n) (fst h) then [(r_whom (fst h), n, false)] else [].
Definition hold1 (n : nat * V) (h : rcp * option S) : rcp * option S :=
  (fst h, match snd h with
          | Some s => Some (if opens (fst n) (r_gates (fst h)) then hear1 (r_cls (fst h)) s n else s)
          | None => None end).
Definition world1 (n : nat * V) (h : rcp * option S) (w : wld) : wld :=
  match r_whom (fst h), snd h with
  | Outside a, None => if opens (fst n) (r_gates (fst h)) then setw w a (hear1 (r_cls (fst h)) (w a) n) else w
  | _, _ => w
  end.
Definition worlds (n : nat * V) (hs : list (rcp * option S)) (w : wld) : wld :=
  fold_left (fun w h => world1 n h w) hs w.

Lemma helper1_eq who c s n :
  @notify_helper1 S V C who c s n =
  ((match plain c (fst n) with Some _ => [(who, n, false)] | None => [] end), hear1 c s n).
Proof. unfold notify_helper1, hear1. destruct (plain c (fst n)); reflexivity. Qed.

Definition noch (n : nat * V) (hs : list (rcp * option S)) : Prop :=
  flat_map (calls1 n) hs = [] /\ map (hold1 n) hs = hs /\ forall w, worlds n hs w = w.

Lemma noch_app n a b : noch n a -> noch n b -> noch n (a ++ b).
Proof.
  intros (A1 & A2 & A3) (B1 & B2 & B3). split; [|split].
  - rewrite flat_map_app, A1, B1. reflexivity.
  - rewrite map_app, A2, B2. reflexivity.
  - intro w. unfold worlds. rewrite fold_left_app. fold (worlds n a w). rewrite A3. apply B3.
Qed.

Lemma closed_noch n o : forall g, opens (fst n) g = false -> noch n (holding xcls g o).
Proof.
  induction o as [a|id c s|ty sub IH] using slot_ind2; intros g Hg; cbn [holding].
  - split; [|split].
    + cbn. unfold calls1, hearsb. cbn. rewrite Hg. reflexivity.
    + reflexivity.
    + intro w. unfold worlds, world1. cbn. rewrite Hg. reflexivity.
  - split; [|split].
    + cbn. unfold calls1, hearsb. cbn. rewrite Hg. reflexivity.
    + cbn. unfold hold1. cbn. rewrite Hg. reflexivity.
    + intro w. reflexivity.
  - assert (Hg' : opens (fst n) (g ++ [ty]) = false) by (rewrite opens_app, Hg; reflexivity).
    induction IH as [|x r Hx _ IHr]; cbn [flat_map].
    + split; [|split]; reflexivity.
    + apply noch_app; [apply Hx; exact Hg'|exact IHr].
Qed.

(* worlds are functions: compare them pointwise *)
Definition weq (w w' : wld) : Prop := forall a, w a = w' a.

Lemma worlds_app n a b w : worlds n (a ++ b) w = worlds n b (worlds n a w).
Proof. unfold worlds. now rewrite fold_left_app. Qed.

Lemma world1_ext n h w w' : weq w w' -> weq (world1 n h w) (world1 n h w').
Proof.
  intros E a. unfold world1. destruct (r_whom (fst h)) as [b|]; [|apply E].
  destruct (snd h); [apply E|]. destruct (opens _ _); [|apply E].
  unfold setw. rewrite !E. destruct (Nat.eqb a b); auto.
Qed.
Lemma worlds_ext n hs : forall w w', weq w w' -> weq (worlds n hs w) (worlds n hs w').
Proof.
  induction hs as [|h hs IH]; intros w w' E; cbn; [exact E|]. apply IH, world1_ext, E.
Qed.

Definition agrees (n : nat * V) (w : wld) (hs : list (rcp * option S)) (k : list call) (w' : wld) (hs' : list (rcp * option S)) : Prop :=
  k = flat_map (calls1 n) hs /\ weq w' (worlds n hs w) /\ hs' = map (hold1 n) hs.

Lemma agrees_app n w a ka wa a' b kb wb b' :
  agrees n w a ka wa a' -> agrees n wa b kb wb b' -> agrees n w (a ++ b) (ka ++ kb) wb (a' ++ b').
Proof.
  intros (A1 & A2 & A3) (B1 & B2 & B3). subst. split; [|split].
  - rewrite flat_map_app. reflexivity.
  - intro x. rewrite B2, worlds_app. apply worlds_ext, A2.
  - rewrite map_app. reflexivity.
Qed.

(* a proxy that does not forward: everything inside is behind a closed gate *)
Lemma proxy_noch n ty sub g : mem (fst n) ty = false -> noch n (holding xcls g (Proxy ty sub)).
Proof.
  intro Em. cbn [holding].
  assert (Hg' : opens (fst n) (g ++ [ty]) = false) by (rewrite opens_app, Em; apply andb_false_r).
  induction sub as [|x r IHr]; cbn [flat_map].
  - split; [|split]; reflexivity.
  - apply noch_app; [apply closed_noch; exact Hg'|exact IHr].
Qed.

Lemma slot_agrees n o : forall w g, opens (fst n) g = true ->
  let '(k, w', o') := notify1_slot xcls n w o in agrees n w (holding xcls g o) k w' (holding xcls g o').
Proof.
  induction o as [a|id c s|ty sub IH] using slot_ind2; intros w g Hg; cbn [notify1_slot].
  - rewrite helper1_eq. cbn [holding]. split; [|split].
    + cbn. unfold calls1, hearsb. cbn. rewrite Hg. cbn. destruct (plain (xcls a) (fst n)); reflexivity.
    + intro b. cbn. unfold world1. cbn. rewrite Hg. reflexivity.
    + reflexivity.
  - rewrite helper1_eq. cbn [holding]. split; [|split].
    + cbn. unfold calls1, hearsb. cbn. rewrite Hg. cbn. destruct (plain c (fst n)); reflexivity.
    + intro b. reflexivity.
    + cbn. unfold hold1. cbn. rewrite Hg. reflexivity.
  - destruct (mem (fst n) ty) eqn:Em.
    + assert (Hg' : opens (fst n) (g ++ [ty]) = true) by (rewrite opens_app, Hg, Em; reflexivity).
      clear Hg Em.
      match goal with |- context [?f w sub] => set (go := f) end.
      assert (G : forall w, let '(k, w', sub') := go w sub in
        agrees n w (flat_map (holding xcls (g ++ [ty])) sub) k w' (flat_map (holding xcls (g ++ [ty])) sub')).
      { clear w. induction IH as [|x r Hx _ IHr]; intro w.
        - cbn. split; [|split]; try reflexivity. intro; reflexivity.
        - specialize (Hx w _ Hg'). cbn [go]. unfold go at 1. cbn [go]. 
          destruct (notify1_slot xcls n w x) as ((k1 & w1) & x').
          fold go. specialize (IHr w1). destruct (go w1 r) as ((k2 & w2) & r').
          cbn [flat_map]. eapply agrees_app; eassumption. }
      specialize (G w). destruct (go w sub) as ((k & w') & sub'). exact G.
    + destruct (proxy_noch n ty sub g Em) as (N1 & N2 & N3). split; [|split].
      * symmetry. exact N1.
      * intro b. rewrite N3. reflexivity.
      * symmetry. exact N2.
Qed.

Lemma notify1_agrees n l : forall w,
  let '(k, w', l') := notify1 xcls n w l in agrees n w (holdings xcls l) k w' (holdings xcls l').
Proof.
  induction l as [|x r IH]; intro w; cbn [notify1].
  - split; [|split]; try reflexivity. intro; reflexivity.
  - assert (X := slot_agrees n x w [] eq_refl).
    destruct (notify1_slot xcls n w x) as ((k1 & w1) & x'). specialize (IH w1).
    destruct (notify1 xcls n w1 r) as ((k2 & w2) & r'). unfold holdings. cbn [flat_map].
    eapply agrees_app; eassumption.
Qed.

Lemma sublist_map {A B} (f : A -> B) (P : B -> Prop) l m :
  sublist_of (fun x => P (f x)) l m -> sublist_of P (map f l) (map f m).
Proof. induction 1; cbn [map]; constructor; assumption. Qed.

Lemma calls_ok n w l k w' l' : notify1 xcls n w l = (k, w', l') ->
  exists m, sublist_of (hears (fst n)) (recipients xcls l) m /\ k = map (fun r => (r_whom r, n, false)) m.
Proof.
  intro E. assert (A := notify1_agrees n l w). rewrite E in A. destruct A as (A & _ & _).
  destruct (sublist_flat (fun h : rcp * option S => hears (fst n) (fst h)) (fun h => hearsb (fst n) (fst h))
              (fun h => (r_whom (fst h), n, false))) with (l := holdings xcls l) as (m & M1 & M2).
  { intro x. apply hearsb_ok. }
  exists (map fst m). split.
  - apply (sublist_map fst (hears (fst n))). exact M1.
  - rewrite A. etransitivity; [exact M2|]. rewrite map_map. reflexivity.
Qed.

Lemma recipients_ok n w l k w' l' : notify1 xcls n w l = (k, w', l') -> recipients xcls l' = recipients xcls l.
Proof.
  intro E. assert (A := notify1_agrees n l w). rewrite E in A. destruct A as (_ & _ & A).
  unfold recipients. rewrite A, map_map. apply map_ext. intros []; reflexivity.
Qed.

Lemma stored1 n w l k w' l' i r s : notify1 xcls n w l = (k, w', l') ->
  nth_error (holdings xcls l) i = Some (r, Some s) ->
  nth_error (holdings xcls l') i = Some (r, Some (if opens (fst n) (r_gates r) then hear1 (r_cls r) s n else s)).
Proof.
  intros E H. assert (A := notify1_agrees n l w). rewrite E in A. destruct A as (_ & _ & A).
  rewrite A, nth_error_map, H. reflexivity.
Qed.

Lemma stored_all ns : forall w l k w' l' i r s, notify_all xcls ns w l = (k, w', l') ->
  nth_error (holdings xcls l) i = Some (r, Some s) ->
  nth_error (holdings xcls l') i =
    Some (r, Some (hear (r_cls r) s (filter (fun n => opens (fst n) (r_gates r)) ns))).
Proof.
  induction ns as [|n ns IH]; intros w l k w' l' i r s E H; cbn [notify_all] in E.
  - injection E as <- <- <-. exact H.
  - destruct (notify1 xcls n w l) as ((k1 & w1) & l1) eqn:E1.
    destruct (notify_all xcls ns w1 l1) as ((k2 & w2) & l2) eqn:E2. injection E as <- <- <-.
    rewrite (IH _ _ _ _ _ _ _ _ E2 (stored1 _ _ _ _ _ _ _ _ _ E1 H)).
    cbn [filter]. destruct (opens (fst n) (r_gates r)); reflexivity.
Qed.

Lemma gates_filter (r : rcp) ns : sublist_of (fun n : nat * V => passes (fst n) r) ns (filter (fun n => opens (fst n) (r_gates r)) ns).
Proof. apply (sublist_filter (fun n : nat * V => passes (fst n) r)). intro x. apply opens_ok. Qed.

Lemma holding_outside g o r a : In (r, None) (holding xcls g o) -> r_whom r = Outside a -> r_cls r = xcls a.
Proof.
  revert g. induction o as [b|id c s|ty sub IH] using slot_ind2; intros g H W; cbn [holding] in H.
  - destruct H as [H|[]]. injection H as <-. cbn in W. injection W as <-. reflexivity.
  - destruct H as [H|[]]. discriminate.
  - apply in_flat_map in H. destruct H as (x & Hx & H). rewrite Forall_forall in IH. eapply IH; eassumption.
Qed.
Lemma holding_kind g o r st : In (r, st) (holding xcls g o) ->
  match r_whom r with Outside a => st = None /\ r_cls r = xcls a | Inside _ => st <> None end.
Proof.
  revert g. induction o as [b|id c s|ty sub IH] using slot_ind2; intros g H; cbn [holding] in H.
  - destruct H as [H|[]]. injection H as <- <-. cbn. auto.
  - destruct H as [H|[]]. injection H as <- <-. cbn. discriminate.
  - apply in_flat_map in H. destruct H as (x & Hx & H). rewrite Forall_forall in IH. eapply IH; eassumption.
Qed.
Lemma holdings_kind l r st : In (r, st) (holdings xcls l) ->
  match r_whom r with Outside a => st = None /\ r_cls r = xcls a | Inside _ => st <> None end.
Proof. intro H. apply in_flat_map in H. destruct H as (x & _ & H). eapply holding_kind, H. Qed.

Lemma hear_times_S k c s n : hear_times (Datatypes.S k) c s n = @hear_times S V C k c (hear1 c s n) n.
Proof. reflexivity. Qed.

Lemma worlds_at n a hs : (forall r st, In (r, st) hs ->
    match r_whom r with Outside b => st = None /\ r_cls r = xcls b | Inside _ => st <> None end) ->
  forall w, worlds n hs w a =
    hear_times (times a (filter (fun r => opens (fst n) (r_gates r)) (map fst hs))) (xcls a) (w a) n.
Proof.
  induction hs as [|[r st] hs IH]; intros K w; [reflexivity|].
  assert (K' := K r st (or_introl eq_refl)).
  assert (IH' := IH (fun r' st' H => K r' st' (or_intror H))). clear IH K.
  unfold worlds. cbn [fold_left]. fold (worlds n hs (world1 n (r, st) w)). rewrite IH'. clear IH'.
  cbn [map fst filter]. unfold world1. cbn [fst snd].
  destruct (opens (fst n) (r_gates r)) eqn:O.
  - cbn [times]. destruct (r_whom r) as [b|id].
    + destruct K' as [-> ->]. unfold setw. destruct (Nat.eqb_spec a b) as [->|]; reflexivity.
    + destruct st; reflexivity.
  - destruct (r_whom r); [|reflexivity]. destruct st; reflexivity.
Qed.

Lemma outside1 n w l k w' l' a : notify1 xcls n w l = (k, w', l') ->
  w' a = hear_times (times a (filter (fun r => opens (fst n) (r_gates r)) (recipients xcls l))) (xcls a) (w a) n.
Proof.
  intro E. assert (A := notify1_agrees n l w). rewrite E in A. destruct A as (_ & A & _).
  rewrite A. apply worlds_at. intros r st H. apply (holdings_kind l). exact H.
Qed.

Lemma recipients_filter t l : sublist_of (passes t) l (filter (fun r : rcp => opens t (r_gates r)) l).
Proof. apply sublist_filter. intro r. apply opens_ok. Qed.

Lemma outside_all ns : forall w l k w' l' a, notify_all xcls ns w l = (k, w', l') ->
  exists ks, Forall2 (fun n j => exists m, sublist_of (passes (fst n)) (recipients xcls l) m /\ j = times a m) ns ks /\
    w' a = fold_left (fun s nj => hear_times (snd nj) (xcls a) s (fst nj)) (combine ns ks) (w a).
Proof.
  induction ns as [|n ns IH]; intros w l k w' l' a E; cbn [notify_all] in E.
  - injection E as <- <- <-. exists []. split; [constructor|reflexivity].
  - destruct (notify1 xcls n w l) as ((k1 & w1) & l1) eqn:E1.
    destruct (notify_all xcls ns w1 l1) as ((k2 & w2) & l2) eqn:E2. injection E as <- <- <-.
    destruct (IH _ _ _ _ _ a E2) as (ks & F & Q). rewrite (recipients_ok _ _ _ _ _ _ E1) in F.
    eexists (_ :: ks). split; [constructor; [eexists; split; [apply recipients_filter|reflexivity]|exact F]|].
    cbn [combine fold_left fst snd]. rewrite Q, (outside1 _ _ _ _ _ _ a E1). reflexivity.
Qed.

Lemma calls_all ns : forall w l k w' l', notify_all xcls ns w l = (k, w', l') ->
  recipients xcls l' = recipients xcls l /\
  exists ms, Forall2 (fun n m => sublist_of (hears (fst n)) (recipients xcls l) m) ns ms /\
    k = flat_map (fun nm => map (fun r => (r_whom r, fst nm, false)) (snd nm)) (combine ns ms).
Proof.
  induction ns as [|n ns IH]; intros w l k w' l' E; cbn [notify_all] in E.
  - injection E as <- <- <-. split; [reflexivity|]. exists []. split; [constructor|reflexivity].
  - destruct (notify1 xcls n w l) as ((k1 & w1) & l1) eqn:E1.
    destruct (notify_all xcls ns w1 l1) as ((k2 & w2) & l2) eqn:E2. injection E as <- <- <-.
    destruct (IH _ _ _ _ _ E2) as (R & ms & F & Q). rewrite (recipients_ok _ _ _ _ _ _ E1) in R, F.
    split; [exact R|]. destruct (calls_ok _ _ _ _ _ _ E1) as (m & M1 & M2).
    exists (m :: ms). split; [constructor; assumption|]. cbn [combine flat_map fst snd]. rewrite Q, M2. reflexivity.
Qed.

(* contexts *)
Definition weq3 (a b : wld * list (rcp * option S) * C) : Prop :=
  weq (fst (fst a)) (fst (fst b)) /\ snd (fst a) = snd (fst b) /\ snd a = snd b.

Lemma relay_ext n hs : forall x w w', weq w w' -> weq3 (relay n x w hs) (relay n x w' hs).
Proof.
  induction hs as [|[r st] hs IH]; intros x w w' E; cbn [relay].
  - split; [exact E|split; reflexivity].
  - destruct st as [s|].
    + destruct (if match r_gates r with [] => true | _ :: _ => false end then _ else _) as [s1 x1].
      specialize (IH x1 w w' E). destruct (relay n x1 w hs) as ((a1 & a2) & a3), (relay n x1 w' hs) as ((b1 & b2) & b3).
      destruct IH as (I1 & I2 & I3). cbn in I1, I2, I3. subst. split; [exact I1|split; reflexivity].
    + destruct (r_whom r) as [a|id].
      * rewrite <- E.
        destruct (if match r_gates r with [] => true | _ :: _ => false end then _ else _) as [s1 x1].
        assert (E' : weq (fun b => if Nat.eqb b a then s1 else w b) (fun b => if Nat.eqb b a then s1 else w' b)).
        { intro b. destruct (Nat.eqb b a); [reflexivity|apply E]. }
        specialize (IH x1 _ _ E').
        destruct (relay n x1 (fun b => if Nat.eqb b a then s1 else w b) hs) as ((a1 & a2) & a3),
                 (relay n x1 (fun b => if Nat.eqb b a then s1 else w' b) hs) as ((b1 & b2) & b3).
        destruct IH as (I1 & I2 & I3). cbn in I1, I2, I3. subst. split; [exact I1|split; reflexivity].
      * specialize (IH x w w' E). destruct (relay n x w hs) as ((a1 & a2) & a3), (relay n x w' hs) as ((b1 & b2) & b3).
        destruct IH as (I1 & I2 & I3). cbn in I1, I2, I3. subst. split; [exact I1|split; reflexivity].
Qed.

Lemma relay_app (n : nat * V) (a : list (rcp * option S)) : forall (x : C) (w : wld) (b : list (rcp * option S)),
  relay n x w (a ++ b) =
  (let '(w1, a1, x1) := relay n x w a in let '(w2, b1, x2) := relay n x1 w1 b in (w2, a1 ++ b1, x2)).
Proof.
  induction a as [|[r st] a IH]; intros x w b; cbn [app relay].
  - destruct (relay n x w b) as ((? & ?) & ?). reflexivity.
  - destruct st as [s|]; [|destruct (r_whom r) as [q|]].
    + destruct (if match r_gates r with [] => true | _ :: _ => false end then _ else _) as [s1 x1].
      rewrite IH. destruct (relay n x1 w a) as ((? & ?) & x2). destruct (relay n x2 _ b) as ((? & ?) & ?). reflexivity.
    + destruct (if match r_gates r with [] => true | _ :: _ => false end then _ else _) as [s1 x1].
      rewrite IH. destruct (relay n x1 _ a) as ((? & ?) & x2). destruct (relay n x2 _ b) as ((? & ?) & ?). reflexivity.
    + rewrite IH. destruct (relay n x w a) as ((? & ?) & x2). destruct (relay n x2 _ b) as ((? & ?) & ?). reflexivity.
Qed.

(* behind a proxy the context plays no part *)
Lemma relay_behind n (hs : list (rcp * option S)) : (forall h, In h hs -> r_gates (fst h) <> []) ->
  (forall r st, In (r, st) hs -> match r_whom r with Outside b => st = None /\ r_cls r = xcls b | Inside _ => st <> None end) ->
  forall x w, weq3 (relay n x w hs) (worlds n hs w, map (hold1 n) hs, x).
Proof.
  induction hs as [|[r st] hs IH]; intros G K x w; cbn [relay].
  - split; [intro; reflexivity|split; reflexivity].
  - assert (G1 := G _ (or_introl eq_refl)). assert (K1 := K _ _ (or_introl eq_refl)). cbn in G1.
    specialize (IH (fun h H => G h (or_intror H)) (fun r' st' H => K r' st' (or_intror H))).
    assert (D : match r_gates r with [] => true | _ :: _ => false end = false) by (destruct (r_gates r); [congruence|reflexivity]).
    rewrite D. change (forallb (existsb (Nat.eqb (fst n))) (r_gates r)) with (opens (fst n) (r_gates r)).
    destruct (r_whom r) as [a|id] eqn:W.
    + destruct K1 as [-> KC].
      assert (EW : weq (fun b => if Nat.eqb b a then (if opens (fst n) (r_gates r) then hear1 (r_cls r) (w a) n else w a) else w b)
                       (world1 n (r, None) w)).
      { intro b. unfold world1. cbn [fst snd]. rewrite W. unfold setw.
        destruct (opens (fst n) (r_gates r)); destruct (Nat.eqb_spec b a) as [->|]; reflexivity. }
      set (w1 := fun b => if Nat.eqb b a then (if opens (fst n) (r_gates r) then hear1 (r_cls r) (w a) n else w a) else w b) in *.
      assert (R := IH x (world1 n (r, None) w)).
      assert (R' := relay_ext n hs x _ _ EW).
      destruct (opens (fst n) (r_gates r)) eqn:O.
      * fold w1. destruct (relay n x w1 hs) as ((a1 & a2) & a3), (relay n x (world1 n (r, None) w) hs) as ((b1 & b2) & b3).
        destruct R as (R1 & R2 & R3), R' as (P1 & P2 & P3). cbn in *. subst.
        split; [|split]; [|reflexivity|reflexivity]. intro b. cbn. rewrite P1. apply R1.
      * fold w1. destruct (relay n x w1 hs) as ((a1 & a2) & a3), (relay n x (world1 n (r, None) w) hs) as ((b1 & b2) & b3).
        destruct R as (R1 & R2 & R3), R' as (P1 & P2 & P3). cbn in *. subst.
        split; [|split]; [|reflexivity|reflexivity]. intro b. cbn. rewrite P1. apply R1.
    + destruct st as [s|]; [|congruence].
      assert (R := IH x w).
      assert (WN : world1 n (r, Some s) w = w) by (unfold world1; cbn; rewrite W; reflexivity).
      unfold worlds. cbn [fold_left map]. rewrite WN. fold (worlds n hs w).
      unfold hold1 at 1. cbn [fst snd].
      destruct (opens (fst n) (r_gates r)); destruct (relay n x w hs) as ((a1 & a2) & a3);
        destruct R as (R1 & R2 & R3); cbn in R1, R2, R3; subst; split; [exact R1|split; reflexivity|exact R1|split; reflexivity].
Qed.

Lemma gates_grow g o h : In h (holding xcls g o) -> exists g', r_gates (fst h) = g ++ g'.
Proof.
  revert g. induction o as [b|id c s|ty sub IH] using slot_ind2; intros g H; cbn [holding] in H.
  - destruct H as [<-|[]]. exists []. cbn. now rewrite app_nil_r.
  - destruct H as [<-|[]]. exists []. cbn. now rewrite app_nil_r.
  - apply in_flat_map in H. destruct H as (x & Hx & H). rewrite Forall_forall in IH.
    destruct (IH x Hx _ H) as (g' & E). exists ([ty] ++ g'). rewrite E, app_assoc. reflexivity.
Qed.

Lemma context_ok n l : forall x w k w' l' x', notify2 xcls n x w l = Some (k, w', l', x') ->
  weq3 (relay n x w (holdings xcls l)) (w', holdings xcls l', x').
Proof.
  induction l as [|o r IH]; intros x w k w' l' x' E; cbn [notify2] in E.
  - injection E as <- <- <- <-. split; [intro; reflexivity|split; reflexivity].
  - assert (first : exists k1 w1 o1 x1, notify2 xcls n x1 w1 r = notify2 xcls n x1 w1 r /\
        weq3 (relay n x w (holding xcls [] o)) (w1, holding xcls [] o1, x1) /\
        match notify2 xcls n x1 w1 r with
        | Some (k2, w2, r', x2) => Some (k1 ++ k2, w2, o1 :: r', x2) | None => None end = Some (k, w', l', x')).
    { destruct o as [a|id c s|ty sub].
      - unfold notify_helper2 in E. cbn [holding relay r_gates r_whom r_cls]. unfold hear_ctx, hear1.
        destruct (plain (xcls a) (fst n)) as [f|], (withctx (xcls a) (fst n)) as [g|]; try discriminate.
        + do 4 eexists. split; [reflexivity|]. split; [|exact E]. split; [intro; reflexivity|split; reflexivity].
        + destruct (g (snd n) x (w a)) as [s' x1]. do 4 eexists. split; [reflexivity|]. split; [|exact E].
          split; [intro; reflexivity|split; reflexivity].
        + do 4 eexists. split; [reflexivity|]. split; [|exact E]. split; [intro; reflexivity|split; reflexivity].
      - unfold notify_helper2 in E. cbn [holding relay r_gates r_whom r_cls]. unfold hear_ctx, hear1.
        destruct (plain c (fst n)) as [f|], (withctx c (fst n)) as [g|]; try discriminate.
        + do 4 eexists. split; [reflexivity|]. split; [|exact E]. split; [intro; reflexivity|split; reflexivity].
        + destruct (g (snd n) x s) as [s' x1]. do 4 eexists. split; [reflexivity|]. split; [|exact E].
          split; [intro; reflexivity|split; reflexivity].
        + do 4 eexists. split; [reflexivity|]. split; [|exact E]. split; [intro; reflexivity|split; reflexivity].
      - assert (A := slot_agrees n (Proxy ty sub) w [] eq_refl).
        destruct (notify1_slot xcls n w (Proxy ty sub)) as ((k1 & w1) & o1).
        do 4 eexists. split; [reflexivity|]. split; [|exact E].
        destruct A as (_ & A2 & A3).
        destruct (relay_behind n (holding xcls [] (Proxy ty sub))) with (x := x) (w := w) as (R1 & R2 & R3).
        { intros h H. cbn [holding] in H. apply in_flat_map in H. destruct H as (y & _ & H).
          destruct (gates_grow _ _ _ H) as (g' & ->). discriminate. }
        { intros r0 st H. eapply holding_kind, H. }
        split; [|split]; cbn [fst snd] in *.
        + intro b. rewrite A2. apply R1.
        + rewrite A3. exact R2.
        + exact R3. }
    destruct first as (k1 & w1 & o1 & x1 & _ & F & Q).
    destruct (notify2 xcls n x1 w1 r) as [[[[k2 w2] r'] x2]|] eqn:E2; [|discriminate].
    injection Q as <- <- <- <-. specialize (IH _ _ _ _ _ _ E2).
    unfold holdings in *. cbn [flat_map]. rewrite relay_app.
    destruct (relay n x w (holding xcls [] o)) as ((a1 & a2) & a3).
    destruct F as (F1 & F2 & F3). cbn [fst snd] in F1, F2, F3. subst a2 a3.
    assert (X := relay_ext n (flat_map (holding xcls []) r) x1 _ _ F1).
    destruct (relay n x1 a1 (flat_map (holding xcls []) r)) as ((b1 & b2) & b3).
    destruct (relay n x1 w1 (flat_map (holding xcls []) r)) as ((c1 & c2) & c3).
    destruct X as (X1 & X2 & X3), IH as (I1 & I2 & I3). cbn [fst snd] in *. subst.
    split; [|split]; cbn [fst snd]; [|reflexivity|reflexivity]. intro b. rewrite X1. apply I1.
Qed.

Definition eitherb (t : nat) (r : rcp) : bool := hearsb t r || given_context t r.
Lemma eitherb_ok t r : eitherb t r = true <-> hears_either t r.
Proof. unfold eitherb, hears_either. rewrite orb_true_iff, hearsb_ok. reflexivity. Qed.
Arguments eitherb : simpl never.
Definition calls2 (n : nat * V) (h : rcp * option S) : list (call (V:=V)) :=
  if eitherb (fst n) (fst h) then [(r_whom (fst h), n, given_context (fst n) (fst h))] else [].

Lemma calls2_behind n hs : (forall h, In h hs -> r_gates (fst h) <> []) -> flat_map (calls2 n) hs = flat_map (calls1 n) hs.
Proof.
  induction hs as [|h hs IH]; intro G; [reflexivity|]. cbn [flat_map].
  rewrite IH by (intros; apply G; right; assumption). f_equal.
  assert (Q := G h (or_introl eq_refl)). unfold calls2, calls1, eitherb, given_context.
  destruct (r_gates (fst h)); [congruence|]. rewrite orb_false_r. reflexivity.
Qed.

Lemma context_calls2 n l : forall x w k w' l' x', notify2 xcls n x w l = Some (k, w', l', x') ->
  k = flat_map (calls2 n) (holdings xcls l).
Proof.
  induction l as [|o r IH]; intros x w k w' l' x' E; cbn [notify2] in E.
  - injection E as <- _ _ _. reflexivity.
  - assert (K : forall k1 w1 o1 x1, k1 = flat_map (calls2 n) (holding xcls [] o) ->
       match notify2 xcls n x1 w1 r with
       | Some (k2, w2, r', x2) => Some (k1 ++ k2, w2, o1 :: r', x2) | None => None end = Some (k, w', l', x') ->
       k = flat_map (calls2 n) (holdings xcls (o :: r))).
    { intros k1 w1 o1 x1 -> Q. destruct (notify2 xcls n x1 w1 r) as [[[[k2 w2] r'] x2]|] eqn:E2; [|discriminate].
      injection Q as <- _ _ _. rewrite (IH _ _ _ _ _ _ E2). unfold holdings. cbn [flat_map].
      rewrite flat_map_app. reflexivity. }
    destruct o as [a|id c s|ty sub].
    + unfold notify_helper2 in E.
      destruct (plain (xcls a) (fst n)) as [f|] eqn:P, (withctx (xcls a) (fst n)) as [g|] eqn:W; try discriminate.
      * eapply K; [|exact E]. cbn. unfold calls2, eitherb, hearsb, given_context. cbn. rewrite P, W. reflexivity.
      * destruct (g (snd n) x (w a)). eapply K; [|exact E].
        cbn. unfold calls2, eitherb, hearsb, given_context. cbn. rewrite P, W. reflexivity.
      * eapply K; [|exact E]. cbn. unfold calls2, eitherb, hearsb, given_context. cbn. rewrite P, W. reflexivity.
    + unfold notify_helper2 in E.
      destruct (plain c (fst n)) as [f|] eqn:P, (withctx c (fst n)) as [g|] eqn:W; try discriminate.
      * eapply K; [|exact E]. cbn. unfold calls2, eitherb, hearsb, given_context. cbn. rewrite P, W. reflexivity.
      * destruct (g (snd n) x s). eapply K; [|exact E].
        cbn. unfold calls2, eitherb, hearsb, given_context. cbn. rewrite P, W. reflexivity.
      * eapply K; [|exact E]. cbn. unfold calls2, eitherb, hearsb, given_context. cbn. rewrite P, W. reflexivity.
    + assert (A := slot_agrees n (Proxy ty sub) w [] eq_refl).
      destruct (notify1_slot xcls n w (Proxy ty sub)) as ((k1 & w1) & o1). destruct A as (A & _ & _).
      eapply K; [|exact E]. rewrite A. symmetry. apply calls2_behind.
      intros h H. cbn [holding] in H. apply in_flat_map in H. destruct H as (y & _ & H).
      destruct (gates_grow _ _ _ H) as (g' & ->). discriminate.
Qed.

Lemma context_calls n x w l k w' l' x' : notify2 xcls n x w l = Some (k, w', l', x') ->
  exists m, sublist_of (hears_either (fst n)) (recipients xcls l) m /\
    k = map (fun r => (r_whom r, n, given_context (fst n) r)) m.
Proof.
  intro E. assert (A := context_calls2 _ _ _ _ _ _ _ _ E).
  destruct (sublist_flat (fun h : rcp * option S => hears_either (fst n) (fst h)) (fun h => eitherb (fst n) (fst h))
              (fun h => (r_whom (fst h), n, given_context (fst n) (fst h)))) with (l := holdings xcls l) as (m & M1 & M2).
  { intro h. apply eitherb_ok. }
  exists (map fst m). split.
  - apply (sublist_map fst (hears_either (fst n))). exact M1.
  - rewrite A. etransitivity; [exact M2|]. rewrite map_map. reflexivity.
Qed.

Definition both (n : nat * V) (r : rcp) : Prop :=
  r_gates r = [] /\ plain (r_cls r) (fst n) <> None /\ withctx (r_cls r) (fst n) <> None.

Lemma compiles_ok n l : forall x w, notify2 xcls n x w l = None <-> exists r, In r (recipients xcls l) /\ both n r.
Proof.
  assert (D : forall o r (h : rcp), In h (recipients xcls (o :: r)) <->
     In h (map fst (holding xcls [] o)) \/ In h (recipients xcls r)).
  { intros o r h. unfold recipients, holdings. cbn [flat_map]. rewrite map_app. apply in_app_iff. }
  assert (T : forall (X : Type) (p : option X), (exists y, p = Some y) -> p <> None) by (intros X p [y ->]; discriminate).
  induction l as [|o r IH]; intros x w; cbn [notify2].
  - split; [discriminate|]. intros (h & [] & _).
  - assert (K : forall k1 w1 o1 x1, (forall h, In h (map fst (holding xcls [] o)) -> ~ both n h) ->
      (match notify2 xcls n x1 w1 r with Some (k2, w2, r', x2) => Some (k1 ++ k2, w2, o1 :: r', x2) | None => None end = None
       <-> exists h, In h (recipients xcls (o :: r)) /\ both n h)).
    { intros k1 w1 o1 x1 N. specialize (IH x1 w1). split.
      - intro Q. destruct (notify2 xcls n x1 w1 r) as [[[[? ?] ?] ?]|]; [discriminate|].
        destruct (proj1 IH eq_refl) as (h & H1 & H2). exists h. split; [apply D; auto|exact H2].
      - intros (h & H1 & H2). apply D in H1. destruct H1 as [H1|H1]; [exfalso; exact (N h H1 H2)|].
        rewrite (proj2 IH); [reflexivity|eauto]. }
    destruct o as [a|id c s|ty sub].
    + unfold notify_helper2. destruct (plain (xcls a) (fst n)) as [f|] eqn:P, (withctx (xcls a) (fst n)) as [g|] eqn:W.
      * split; [intros _|reflexivity]. exists (mk_rcp [] (Outside a) (xcls a)). split; [apply D; left; left; reflexivity|].
        split; [reflexivity|]. cbn. rewrite P, W. split; discriminate.
      * apply K. intros h [<-|[]] (_ & _ & Q). cbn in Q. congruence.
      * destruct (g (snd n) x (w a)). apply K. intros h [<-|[]] (_ & Q & _). cbn in Q. congruence.
      * apply K. intros h [<-|[]] (_ & Q & _). cbn in Q. congruence.
    + unfold notify_helper2. destruct (plain c (fst n)) as [f|] eqn:P, (withctx c (fst n)) as [g|] eqn:W.
      * split; [intros _|reflexivity]. exists (mk_rcp [] (Inside id) c). split; [apply D; left; left; reflexivity|].
        split; [reflexivity|]. cbn. rewrite P, W. split; discriminate.
      * apply K. intros h [<-|[]] (_ & _ & Q). cbn in Q. congruence.
      * destruct (g (snd n) x s). apply K. intros h [<-|[]] (_ & Q & _). cbn in Q. congruence.
      * apply K. intros h [<-|[]] (_ & Q & _). cbn in Q. congruence.
    + destruct (notify1_slot xcls n w (Proxy ty sub)) as ((k1 & w1) & o1). apply K.
      intros h H (Q & _). apply in_map_iff in H. destruct H as (h' & <- & H). cbn [holding] in H.
      apply in_flat_map in H. destruct H as (y & _ & H). destruct (gates_grow _ _ _ H) as (g' & E).
      rewrite E in Q. discriminate.
Qed.

(* stateless *)
Lemma stateless_ok n l : forall w, let '(k, w', _) := notify1 xcls n w (map Ref l) in stateless_notify1 xcls n w l = (k, w').
Proof.
  induction l as [|a l IH]; intro w; cbn [map notify1 notify1_slot stateless_notify1]; [reflexivity|].
  destruct (notify_helper1 (Outside a) (xcls a) (w a) n) as [k1 s]. specialize (IH (setw w a s)).
  destruct (notify1 xcls n (setw w a s) (map Ref l)) as ((k2 & w2) & r'). rewrite IH. reflexivity.
Qed.

(* collections *)
Lemma upd_nth_same {X} i (y : X) l : i < length l -> nth_error (upd_nth i y l) i = Some y.
Proof.
  revert l. induction i as [|i IH]; intros [|z l] H; cbn in *; try lia; [reflexivity|].
  unfold upd_nth in *. cbn. apply IH. lia.
Qed.
Lemma upd_nth_other {X} i j (y : X) l : i <> j -> nth_error (upd_nth i y l) j = nth_error l j.
Proof.
  revert j l. induction i as [|i IH]; intros j [|z l] H; unfold upd_nth in *; cbn.
  - destruct j; reflexivity.
  - destruct j; [congruence|reflexivity].
  - destruct j; reflexivity.
  - destruct j; [reflexivity|]. cbn. apply IH. congruence.
Qed.

Lemma sstep_stored st op i l : nth_error (snd st) i = Some l ->
  exists l', nth_error (snd (sstep xcls st op)) i = Some l' /\ recipients xcls l' = recipients xcls l /\
   forall j r s, nth_error (holdings xcls l) j = Some (r, Some s) ->
     nth_error (holdings xcls l') j = Some (r, Some (hear (r_cls r) s
       (filter (fun n => opens (fst n) (r_gates r)) (sent_to i [op])))).
Proof.
  destruct st as [w subs]. cbn [snd]. intro H.
  assert (A : forall (y : list slt), nth_error (subs ++ [y]) i = Some l).
  { intro y. rewrite nth_error_app1; [exact H|]. apply nth_error_Some. congruence. }
  destruct op as [i0 n|i0|ty i0]; cbn [sstep sent_to].
  - destruct (Nat.eqb_spec i i0) as [<-|Hi].
    + rewrite H. destruct (notify1 xcls n w l) as ((k & w') & l') eqn:E. cbn [snd].
      exists l'. split; [apply upd_nth_same, nth_error_Some; congruence|]. split; [eapply recipients_ok, E|].
      intros j r s Hj. rewrite (stored1 _ _ _ _ _ _ _ _ _ E Hj). cbn [filter]. destruct (opens (fst n) (r_gates r)); reflexivity.
    + destruct (nth_error subs i0) as [l0|]; [|exists l; split; [exact H|split; [reflexivity|intros; assumption]]].
      destruct (notify1 xcls n w l0) as ((k & w') & l'). cbn [snd]. exists l.
      split; [rewrite upd_nth_other by congruence; exact H|]. split; [reflexivity|intros; assumption].
  - exists l. split; [destruct (nth_error subs i0); [apply A|exact H]|]. split; [reflexivity|intros; assumption].
  - exists l. split; [destruct (nth_error subs i0); [apply A|exact H]|]. split; [reflexivity|intros; assumption].
Qed.

Lemma sent_to_cons (i : nat) op (ops : list (sop V)) : sent_to i (op :: ops) = sent_to i [op] ++ sent_to i ops.
Proof. destruct op; cbn; try reflexivity. destruct (Nat.eqb i i0); reflexivity. Qed.

Lemma srun_stored ops : forall st i l, nth_error (snd st) i = Some l ->
  exists l', nth_error (snd (srun xcls st ops)) i = Some l' /\ recipients xcls l' = recipients xcls l /\
   forall j r s, nth_error (holdings xcls l) j = Some (r, Some s) ->
     nth_error (holdings xcls l') j = Some (r, Some (hear (r_cls r) s
       (filter (fun n => opens (fst n) (r_gates r)) (sent_to i ops)))).
Proof.
  induction ops as [|op ops IH]; intros st i l H.
  - exists l. split; [exact H|split; [reflexivity|intros; assumption]].
  - destruct (sstep_stored st op i l H) as (l1 & H1 & R1 & S1).
    destruct (IH (sstep xcls st op) i l1 H1) as (l2 & H2 & R2 & S2).
    exists l2. split; [exact H2|]. split; [congruence|]. intros j r s Hj.
    rewrite (S2 _ _ _ (S1 _ _ _ Hj)), (sent_to_cons i op ops), filter_app.
    unfold hear. rewrite fold_left_app. reflexivity.
Qed.

(* objects outside that no subject refers to *)
Definition unknown (a : nat) (subs : list (list slt)) : Prop :=
  forall l r, In l subs -> In r (recipients xcls l) -> r_whom r <> Outside a.

Lemma times_0 a (m : list rcp) : (forall r, In r m -> r_whom r <> Outside a) -> times a m = 0.
Proof.
  induction m as [|r m IH]; intro H; [reflexivity|]. cbn [times]. rewrite IH by (intros; apply H; right; assumption).
  assert (Q := H r (or_introl eq_refl)). destruct (r_whom r) as [b|]; [|reflexivity].
  destruct (Nat.eqb_spec a b); [congruence|reflexivity].
Qed.

Lemma holding_whom g g' o : map (fun h : rcp * option S => r_whom (fst h)) (holding xcls g o) =
  map (fun h => r_whom (fst h)) (holding xcls g' o).
Proof.
  revert g g'. induction o as [b|id c s|ty sub IH] using slot_ind2; intros g g'; cbn [holding]; try reflexivity.
  induction IH as [|x r Hx _ IHr]; cbn [flat_map]; [reflexivity|]. rewrite !map_app. f_equal; [apply Hx|exact IHr].
Qed.

Lemma proxy_whom ty l : map r_whom (recipients xcls [Proxy ty l]) = map r_whom (recipients xcls l).
Proof.
  unfold recipients, holdings. cbn [flat_map holding]. rewrite app_nil_r, !map_map.
  induction l as [|x r IH]; cbn [flat_map]; [reflexivity|]. rewrite !map_app. f_equal; [apply holding_whom|exact IH].
Qed.

Lemma In_upd {X} i (y z : X) l : In z (upd_nth i y l) -> z = y \/ In z l.
Proof.
  unfold upd_nth. intro H. apply in_app_iff in H. destruct H as [H|H].
  - right. rewrite <- (firstn_skipn i l). apply in_app_iff. auto.
  - assert (Q : skipn i l = skipn i l) by reflexivity. destruct (skipn i l) as [|u v] eqn:E; [destruct H|].
    destruct H as [H|H]; [left; congruence|]. right. rewrite <- (firstn_skipn i l), E. apply in_app_iff. right. right. exact H.
Qed.

Lemma sstep_unknown st op a : unknown a (snd st) -> unknown a (snd (sstep xcls st op)) /\ fst (sstep xcls st op) a = fst st a.
Proof.
  destruct st as [w subs]. cbn [fst snd]. intro U.
  destruct op as [i n|i|ty i]; cbn [sstep].
  - destruct (nth_error subs i) as [l|] eqn:E; [|split; [exact U|reflexivity]].
    destruct (notify1 xcls n w l) as ((k & w') & l') eqn:En. cbn [fst snd].
    assert (Ul : forall r, In r (recipients xcls l) -> r_whom r <> Outside a)
      by (intros r; apply (U l r), (nth_error_In _ _ E)).
    split.
    + intros l0 r H. apply In_upd in H. destruct H as [->|H]; [|apply (U _ r H)].
      rewrite (recipients_ok _ _ _ _ _ _ En). apply Ul.
    + rewrite (outside1 _ _ _ _ _ _ a En), times_0; [reflexivity|].
      intros r H. apply filter_In in H. apply Ul, H.
  - destruct (nth_error subs i) as [l|] eqn:E; [|split; [exact U|reflexivity]]. split; [|reflexivity].
    intros l0 r H. apply in_app_iff in H. destruct H as [H|[<-|[]]]; [apply (U _ r H)|].
    apply (U l r), (nth_error_In _ _ E).
  - destruct (nth_error subs i) as [l|] eqn:E; [|split; [exact U|reflexivity]]. split; [|reflexivity].
    intros l0 r H. apply in_app_iff in H. destruct H as [H|[<-|[]]]; [apply (U _ r H)|].
    intros Hr Q. assert (M : In (Outside a) (map r_whom (recipients xcls l))).
    { rewrite <- (proxy_whom ty l), <- Q. apply in_map, Hr. }
    apply in_map_iff in M. destruct M as (r' & Q' & M). exact (U l r' (nth_error_In _ _ E) M Q').
Qed.

Lemma srun_unknown ops : forall st a, unknown a (snd st) -> fst (srun xcls st ops) a = fst st a.
Proof.
  induction ops as [|op ops IH]; intros st a U; [reflexivity|].
  destruct (sstep_unknown st op a U) as [U' E]. change (srun xcls st (op :: ops)) with (srun xcls (sstep xcls st op) ops).
  rewrite IH by exact U'. exact E.
Qed.

(* silence *)
Lemma hear1_none (c : ocls S V C) s n : plain c (fst n) = None -> hear1 c s n = s.
Proof. unfold hear1. intros ->. reflexivity. Qed.

Lemma deaf_ok n w l k w' l' : notify1 xcls n w l = (k, w', l') ->
  (forall r, In r (recipients xcls l) -> plain (r_cls r) (fst n) = None) ->
  k = [] /\ (forall a, w' a = w a) /\ holdings xcls l' = holdings xcls l.
Proof.
  intros E D. split; [|split].
  - destruct (calls_ok _ _ _ _ _ _ E) as (m & M & ->). destruct m as [|r m]; [reflexivity|].
    assert (In r (recipients xcls l) /\ hears (fst n) r) as [I [_ H]].
    { clear E. revert M. generalize (recipients xcls l). intros q M. remember (r :: m) as rm eqn:Q. revert r m Q.
      induction M; intros r' m' Q; [discriminate| |].
      - injection Q as -> ->. split; [left; reflexivity|assumption].
      - destruct (IHM _ _ Q) as [A B]. split; [right; exact A|exact B]. }
    elim H. apply D, I.
  - intro a. rewrite (outside1 _ _ _ _ _ _ a E).
    set (m := filter _ _). assert (Hm : forall r, In r m -> r_whom r = Outside a -> plain (xcls a) (fst n) = None).
    { intros r H W. apply filter_In in H. destruct H as [H _]. assert (P := D r H).
      unfold recipients in H. apply in_map_iff in H. destruct H as ((r0 & st) & Q & H). cbn in Q. subst r0.
      assert (K := holdings_kind l r st H). rewrite W in K. destruct K as [_ K]. rewrite <- K. exact P. }
    clearbody m. induction m as [|r m IH]; [reflexivity|]. cbn [times].
    destruct (r_whom r) as [b|] eqn:W; [|apply IH; intros; eapply Hm; [right|]; eassumption].
    destruct (Nat.eqb_spec a b) as [<-|]; [|apply IH; intros; eapply Hm; [right|]; eassumption].
    cbn [Nat.add hear_times]. rewrite hear1_none by (eapply Hm; [left; reflexivity|exact W]).
    apply IH. intros; eapply Hm; [right|]; eassumption.
  - assert (A := notify1_agrees n l w). rewrite E in A. destruct A as (_ & _ & A). rewrite A.
    rewrite <- (map_id (holdings xcls l)) at 2. apply map_ext_in. intros (r & st) H.
    unfold hold1. cbn [fst snd]. destruct st as [s|]; [|reflexivity].
    rewrite hear1_none; [destruct (opens _ _); reflexivity|]. apply D. unfold recipients. apply in_map_iff.
    exists (r, Some s). auto.
Qed.

Lemma proxy_drops n x w ty l k w' l' : notify1 xcls n w [Proxy ty l] = (k, w', l') ->
  notify2 xcls n x w [Proxy ty l] = Some (k, w', l', x).
Proof.
  cbn [notify1 notify2]. destruct (notify1_slot xcls n w (Proxy ty l)) as ((k1 & w1) & o1).
  intro E. injection E as <- <- <-. reflexivity.
Qed.

Lemma holding_cls g g' o : map (fun h : rcp * option S => r_cls (fst h)) (holding xcls g o) =
  map (fun h => r_cls (fst h)) (holding xcls g' o).
Proof.
  revert g g'. induction o as [b|id c s|ty sub IH] using slot_ind2; intros g g'; cbn [holding]; try reflexivity.
  induction IH as [|x r Hx _ IHr]; cbn [flat_map]; [reflexivity|]. rewrite !map_app. f_equal; [apply Hx|exact IHr].
Qed.

Lemma proxy_plain ty l t : (forall r, In r (recipients xcls l) -> plain (r_cls r) t = None) ->
  forall r, In r (recipients xcls [Proxy ty l]) -> plain (r_cls r) t = None.
Proof.
  intros D r H.
  assert (E : map r_cls (recipients xcls [Proxy ty l]) = map r_cls (recipients xcls l)).
  { unfold recipients, holdings. cbn [flat_map holding]. rewrite app_nil_r, !map_map.
    clear H D. induction l as [|x r0 IH]; cbn [flat_map]; [reflexivity|]. rewrite !map_app. f_equal; [apply holding_cls|exact IH]. }
  apply (in_map r_cls) in H. rewrite E in H. apply in_map_iff in H. destruct H as (r' & Q & H). rewrite <- Q. apply D, H.
Qed.

Lemma nth_error_eq {X} (a : list X) : forall b, (forall j, nth_error a j = nth_error b j) -> a = b.
Proof.
  induction a as [|x a IH]; intros [|y b] H; try reflexivity.
  - specialize (H 0). discriminate.
  - specialize (H 0). discriminate.
  - f_equal; [specialize (H 0); cbn in H; congruence|]. apply IH. intro j. exact (H (Datatypes.S j)).
Qed.

Lemma same_holdings l l' : recipients xcls l' = recipients xcls l ->
  (forall j r s, nth_error (holdings xcls l) j = Some (r, Some s) -> nth_error (holdings xcls l') j = Some (r, Some s)) ->
  holdings xcls l' = holdings xcls l.
Proof.
  intros R D. apply nth_error_eq. intro j.
  assert (Rj : nth_error (recipients xcls l') j = nth_error (recipients xcls l) j) by congruence.
  unfold recipients in Rj. rewrite !nth_error_map in Rj.
  destruct (nth_error (holdings xcls l) j) as [[r [s|]]|] eqn:E; cbn in Rj.
  - apply D, E.
  - destruct (nth_error (holdings xcls l') j) as [[r' st]|] eqn:E'; [|discriminate]. cbn in Rj. injection Rj as ->.
    assert (K := holdings_kind l r None (nth_error_In _ _ E)).
    assert (K' := holdings_kind l' r st (nth_error_In _ _ E')).
    destruct (r_whom r); [destruct K' as [-> _]; reflexivity|]. congruence.
  - destruct (nth_error (holdings xcls l') j) as [[r' st]|]; [discriminate|reflexivity].
Qed.

End P.
