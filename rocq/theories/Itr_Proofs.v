(* Proofs about the iterators and element proxies of Itr_Model.v. *)
From Verif Require Import Base Dyn_Spec Dyn_Model Dyn_View Dyn_Proofs Itr_Spec Itr_Model.

Lemma upd_at {A} (l : list A) i a : i < length l -> upd l i a = firstn i l ++ a :: skipn (S i) l.
Proof.
  revert i. induction l as [|x t IH]; intros [|i] H; cbn in *; try lia; auto.
  rewrite IH by lia. reflexivity.
Qed.
Lemma upd_app1 {A} (l r : list A) i a : i < length l -> upd (l ++ r) i a = upd l i a ++ r.
Proof.
  revert i. induction l as [|x t IH]; intros [|i] H; cbn in *; try lia; auto.
  rewrite IH by lia. reflexivity.
Qed.
Lemma upd_len {A} (l : list A) i a : length (upd l i a) = length l.
Proof. revert i. induction l as [|x t IH]; intros [|i]; cbn; auto. Qed.

Section Gen.
Context {A : Type} (eqA : A -> A -> bool) (c : cfg A).

Lemma holds_rd v l i a : holds c v l -> nth_error l i = Some a -> rd (buf v) i = Ok a.
Proof.
  intros [(rest & E & _) _ _ _] H. unfold rd. rewrite E, nth_error_app1; [now rewrite H|].
  apply nth_error_Some. congruence.
Qed.
Lemma holds_wr v l i a : holds c v l -> i < length l -> Forall (nz c) (firstn i l ++ a :: skipn (S i) l) ->
  wr (buf v) i a = Ok (upd (buf v) i a) /\
  holds c (Arr (upd (buf v) i a) (msize v)) (firstn i l ++ a :: skipn (S i) l).
Proof.
  intros [(rest & E & M) F Z B] Hi NZ. split.
  - unfold wr. rewrite E, app_length. destruct (Nat.ltb_spec i (length l + length (term c ++ rest))); [auto|lia].
  - split; auto.
    + exists rest. cbn [buf msize]. rewrite E, upd_app1 by auto. rewrite upd_at by auto. split; auto.
      intros K. rewrite (M K), app_length. cbn [length]. rewrite firstn_length, skipn_length. lia.
    + cbn [buf]. rewrite upd_len. auto.
Qed.

Lemma padd_ok n p d q : (Z.of_nat p + d = Z.of_nat q)%Z -> q <= n -> padd n (Z.of_nat p) d = Ok (Z.of_nat q).
Proof.
  intros E H. unfold padd. rewrite E.
  destruct (Z.leb_spec 0 (Z.of_nat q)); [|lia]. destruct (Z.leb_spec (Z.of_nat q) (Z.of_nat n)); [|lia]. reflexivity.
Qed.
Lemma pget_nat (m : list A) i : pget m (Z.of_nat i) = rd m i.
Proof. unfold pget. destruct (Z.ltb_spec (Z.of_nat i) 0); [lia|]. now rewrite Nat2Z.id. Qed.
Lemma pset_nat (m : list A) i a : pset m (Z.of_nat i) a = wr m i a.
Proof. unfold pset. destruct (Z.ltb_spec (Z.of_nat i) 0); [lia|]. now rewrite Nat2Z.id. Qed.

(* ---------- programs ---------- *)
Section Prog.
Variables (ok : list A -> vop A -> list A -> Prop) (good : arr A -> Prop) (cap N : nat).
Hypothesis ok_nz : forall l o l1, ok l o l1 -> Forall (nz c) l1.
Hypothesis good_step : forall v l o l1 v', good v -> holds c v l -> vstep l o = Some l1 -> ok l o l1 ->
  step c v o = vret v' -> holds c v' l1 -> good v'.
Hypothesis good_set : forall v l l1 i a, good v -> l1 = firstn i l ++ a :: skipn (S i) l -> ok l (Assign l1) l1 ->
  good (Arr (upd (buf v) i a) (msize v)).
Hypothesis erase_mm : forall v l i l1, good v -> holds c v l -> i < length l -> ok l (Erase i) l1 ->
  forall rest, buf v = l ++ term c ++ rest ->
  exists rest', mm c (buf v) i (i + 1) (length l + tlen c - (i + 1)) =
       Ok (firstn i l ++ skipn (i + 1) l ++ term c ++ rest') /\ length rest' = length rest + 1.
Hypothesis cap_ok : cap + tlen c <= N.

Record rel (s : st (A := A)) (i : ideal A) : Prop := Rel {
  r_holds : holds c (cont s) (els i);
  r_good : good (cont s);
  r_len : length (buf (cont s)) = N;
  r_its : forall x, its s x = option_map Z.of_nat (it_at i x);
  r_pxs : forall x, pxs s x = option_map Z.of_nat (px_at i x) }.

Lemma rel_set (f : nat -> option ptr) (g : nat -> option nat) x p :
  (forall y, f y = option_map Z.of_nat (g y)) ->
  forall y, set f x (Z.of_nat p) y = option_map Z.of_nat (set g x p y).
Proof. intros H y. unfold set. destruct (Nat.eqb y x); auto. Qed.

Lemma place_inv (i : ideal A) x p : place i x = Some p -> it_at i x = Some p /\ p <= length (els i).
Proof.
  unfold place. destruct (it_at i x) as [q|]; [|discriminate].
  destruct (Nat.leb_spec q (length (els i))); [|discriminate]. intros E. injection E as <-. auto.
Qed.
Lemma move_inv (i : ideal A) p n q : move i p n = Some q -> (Z.of_nat p + n = Z.of_nat q)%Z /\ q <= length (els i).
Proof.
  unfold move. destruct (Z.leb_spec 0 (Z.of_nat p + n)); [|discriminate].
  destruct (Z.leb_spec (Z.of_nat p + n) (Z.of_nat (length (els i)))); [|discriminate].
  cbn [andb]. intros E. injection E as <-. lia.
Qed.
Lemma replace_inv (i : ideal A) k a s' : replace i k a = Some s' -> k < length (els i) /\
  s' = with_els i (firstn k (els i) ++ a :: skipn (S k) (els i)).
Proof.
  unfold replace. destruct (Nat.ltb_spec k (length (els i))); [|discriminate]. intros E. injection E as <-. auto.
Qed.
Lemma fits s i : rel s i -> length (els i) <= N.
Proof. intros [H _ L _ _]. destruct H as [Sh _ _ _]. pose proof (shape_len _ _ _ Sh). lia. Qed.

Lemma rel_it s i x p : rel s i -> rel (St (cont s) (set (its s) x (Z.of_nat p)) (pxs s)) (with_it i x p).
Proof. intros [H G L I P]. split; cbn; auto. now apply rel_set. Qed.
Lemma rel_wr s i k a : rel s i -> k < length (els i) ->
  ok (els i) (Assign (firstn k (els i) ++ a :: skipn (S k) (els i))) (firstn k (els i) ++ a :: skipn (S k) (els i)) ->
  wr (buf (cont s)) k a = Ok (upd (buf (cont s)) k a) /\
  rel (St (Arr (upd (buf (cont s)) k a) (msize (cont s))) (its s) (pxs s))
      (with_els i (firstn k (els i) ++ a :: skipn (S k) (els i))).
Proof.
  intros [H G L I P] Hk K. destruct (holds_wr (cont s) (els i) k a H Hk) as [W H']; [eapply ok_nz; eauto|].
  split; auto. split; cbn; auto.
  - eapply good_set; eauto.
  - now rewrite upd_len.
Qed.

Lemma cont_ok s i o l1 : rel s i -> vstep (els i) o = Some l1 -> length l1 <= cap -> ok (els i) o l1 ->
  exists v', step c (cont s) o = vret v' /\ rel (St v' (its s) (pxs s)) (with_els i l1).
Proof.
  intros [H G L I P] S R K.
  destruct (step_ok c ok good ok_nz erase_mm (cont s) (els i) o l1 G H S) as (v' & E & H' & L'); auto; [lia|].
  exists v'. split; auto. split; cbn; auto.
  - eapply good_step; eauto.
  - lia.
Qed.

Ltac it_var I := rewrite I; cbn [var].
Lemma mstep_ok s i k o i' : rel s i -> istep eqA i k = Some (o, i') -> length (els i') <= cap ->
  ok (els i) (effect i k i') (els i') ->
  exists s', mstep eqA c s k = vret (o, s') /\ rel s' i'.
Proof.
  intros R S C K. pose proof (fits _ _ R) as LN. pose proof R as [H G L I P].
  assert (forall x p, place i x = Some p -> var (its s) x = vret (Z.of_nat p) /\ p <= length (els i)) as VAR.
  { intros x p E. apply place_inv in E. destruct E as [E ?]. unfold var. rewrite I, E. auto. }
  assert (forall x p, px_at i x = Some p -> var (pxs s) x = vret (Z.of_nat p)) as PVAR.
  { intros x p E. unfold var. rewrite P, E. auto. }
  destruct k; cbn [istep] in S; unfold quiet, tell, obind in S.
  - injection S as <- <-. eexists. split; [reflexivity|]. exact (rel_it s i x 0 R).
  - injection S as <- <-. cbn [mstep]. unfold end_. rewrite (size_ok c _ _ H).
    eexists. split; [reflexivity|]. exact (rel_it s i x (length (els i)) R).
  - destruct (place i y) as [p|] eqn:E; [|discriminate]. injection S as <- <-. destruct (VAR y p E) as [V _].
    cbn [mstep]. rewrite V. eexists. split; [reflexivity|]. exact (rel_it s i x p R).
  - destruct (place i y) as [p|] eqn:E; [|discriminate]. destruct (VAR y p E) as [V _].
    destruct (move i p 1) as [q|] eqn:Em; [|discriminate]. injection S as <- <-. apply move_inv in Em. destruct Em as [Em Lq].
    cbn [mstep]. rewrite V. cbn [vbind vret bind]. unfold it_inc. rewrite (padd_ok _ p 1 q) by lia.
    eexists. split; [reflexivity|]. exact (rel_it _ _ x q (rel_it s i y q R)).
  - destruct (place i y) as [p|] eqn:E; [|discriminate]. destruct (VAR y p E) as [V _].
    destruct (move i p (-1)) as [q|] eqn:Em; [|discriminate]. injection S as <- <-. apply move_inv in Em. destruct Em as [Em Lq].
    cbn [mstep]. rewrite V. cbn [vbind vret bind]. unfold it_dec. rewrite (padd_ok _ p (-1) q) by lia.
    eexists. split; [reflexivity|]. exact (rel_it _ _ x q (rel_it s i y q R)).
  - destruct (place i y) as [p|] eqn:E; [|discriminate]. destruct (VAR y p E) as [V _].
    destruct (move i p 1) as [q|] eqn:Em; [|discriminate]. injection S as <- <-. apply move_inv in Em. destruct Em as [Em Lq].
    cbn [mstep]. rewrite V. cbn [vbind vret bind]. unfold it_post_inc, it_inc. rewrite (padd_ok _ p 1 q) by lia.
    eexists. split; [reflexivity|]. exact (rel_it _ _ x p (rel_it s i y q R)).
  - destruct (place i y) as [p|] eqn:E; [|discriminate]. destruct (VAR y p E) as [V _].
    destruct (move i p (-1)) as [q|] eqn:Em; [|discriminate]. injection S as <- <-. apply move_inv in Em. destruct Em as [Em Lq].
    cbn [mstep]. rewrite V. cbn [vbind vret bind]. unfold it_post_dec, it_dec. rewrite (padd_ok _ p (-1) q) by lia.
    eexists. split; [reflexivity|]. exact (rel_it _ _ x p (rel_it s i y q R)).
  - destruct (place i y) as [p|] eqn:E; [|discriminate]. destruct (VAR y p E) as [V _].
    destruct (move i p n) as [q|] eqn:Em; [|discriminate]. injection S as <- <-. apply move_inv in Em. destruct Em as [Em Lq].
    cbn [mstep]. rewrite V. cbn [vbind vret bind]. unfold it_plus, it_add. rewrite (padd_ok _ p n q) by lia.
    eexists. split; [reflexivity|]. exact (rel_it s i x q R).
  - destruct (place i y) as [p|] eqn:E; [|discriminate]. destruct (VAR y p E) as [V _].
    destruct (move i p (- n)) as [q|] eqn:Em; [|discriminate]. injection S as <- <-. apply move_inv in Em. destruct Em as [Em Lq].
    cbn [mstep]. rewrite V. cbn [vbind vret bind]. unfold it_minus. rewrite (padd_ok _ p (- n) q) by lia.
    eexists. split; [reflexivity|]. exact (rel_it s i x q R).
  - destruct (place i x) as [p|] eqn:E; [|discriminate]. destruct (VAR x p E) as [V _].
    destruct (move i p n) as [q|] eqn:Em; [|discriminate]. injection S as <- <-. apply move_inv in Em. destruct Em as [Em Lq].
    cbn [mstep]. rewrite V. cbn [vbind vret bind]. unfold it_add. rewrite (padd_ok _ p n q) by lia.
    eexists. split; [reflexivity|]. exact (rel_it s i x q R).
  - destruct (place i x) as [p|] eqn:E; [|discriminate]. destruct (VAR x p E) as [V _].
    destruct (move i p (- n)) as [q|] eqn:Em; [|discriminate]. injection S as <- <-. apply move_inv in Em. destruct Em as [Em Lq].
    cbn [mstep]. rewrite V. cbn [vbind vret bind]. unfold it_sub. rewrite (padd_ok _ p (- n) q) by lia.
    eexists. split; [reflexivity|]. exact (rel_it s i x q R).
  - destruct (place i x) as [p|] eqn:E; [|discriminate]. destruct (VAR x p E) as [V _].
    destruct (place i y) as [q|] eqn:E2; [|discriminate]. destruct (VAR y q E2) as [V2 _]. injection S as <- <-.
    cbn [mstep]. rewrite V. cbn [vbind vret bind]. rewrite V2. eexists. split; [reflexivity|auto].
  - destruct (place i x) as [p|] eqn:E; [|discriminate]. destruct (VAR x p E) as [V _].
    destruct (place i y) as [q|] eqn:E2; [|discriminate]. destruct (VAR y q E2) as [V2 _]. injection S as <- <-.
    cbn [mstep]. rewrite V. cbn [vbind vret bind]. rewrite V2. cbn [vbind vret bind].
    assert (it_cmp k (Z.of_nat p) (Z.of_nat q) = compare k p q) as ->; [|eexists; split; [reflexivity|auto]].
    destruct k; cbn [it_cmp compare]; unfold it_eq.
    + destruct (Z.eqb_spec (Z.of_nat p) (Z.of_nat q)), (Nat.eqb_spec p q); auto; lia.
    + destruct (Z.eqb_spec (Z.of_nat p) (Z.of_nat q)), (Nat.eqb_spec p q); auto; lia.
    + destruct (Z.ltb_spec (Z.of_nat p) (Z.of_nat q)), (Nat.ltb_spec p q); auto; lia.
    + destruct (Z.ltb_spec (Z.of_nat q) (Z.of_nat p)), (Nat.ltb_spec q p); auto; lia.
    + destruct (Z.leb_spec (Z.of_nat q) (Z.of_nat p)), (Nat.leb_spec q p); auto; lia.
  - destruct (place i x) as [p|] eqn:E; [|discriminate]. destruct (VAR x p E) as [V _].
    destruct (nth_error (els i) p) as [a|] eqn:En; [|discriminate]. injection S as <- <-.
    cbn [mstep]. rewrite V. cbn [vbind vret bind]. unfold it_get. rewrite pget_nat, (holds_rd _ _ _ _ H En).
    eexists. split; [reflexivity|auto].
  - destruct (place i x) as [p|] eqn:E; [|discriminate]. destruct (VAR x p E) as [V _].
    destruct (replace i p a) as [s'|] eqn:Er; [|discriminate]. injection S as <- <-. apply replace_inv in Er. destruct Er as [Lp ->].
    destruct (rel_wr s i p a R Lp K) as [W R']. cbn [mstep]. rewrite V. cbn [vbind vret bind]. unfold it_set.
    rewrite pset_nat, W. eexists. split; [reflexivity|exact R'].
  - destruct (nth_error (els i) i0) as [a|] eqn:En; [|discriminate]. injection S as <- <-.
    cbn [mstep]. unfold px_get, index_, create_accessor. rewrite pget_nat, (holds_rd _ _ _ _ H En).
    eexists. split; [reflexivity|auto].
  - destruct (replace i i0 a) as [s'|] eqn:Er; [|discriminate]. injection S as <- <-. apply replace_inv in Er. destruct Er as [Lp ->].
    destruct (rel_wr s i i0 a R Lp K) as [W R']. cbn [mstep]. unfold px_set, index_, create_accessor.
    rewrite pset_nat, W. eexists. split; [reflexivity|exact R'].
  - destruct (nth_error (els i) i0) as [b|] eqn:En; [|discriminate]. injection S as <- <-.
    cbn [mstep]. unfold px_eq, index_, create_accessor. rewrite pget_nat, (holds_rd _ _ _ _ H En).
    eexists. split; [reflexivity|auto].
  - destruct (nth_error (els i) i0) as [b|] eqn:En; [|discriminate]. injection S as <- <-.
    cbn [mstep]. unfold px_ne, index_, create_accessor. rewrite pget_nat, (holds_rd _ _ _ _ H En).
    eexists. split; [reflexivity|auto].
  - destruct (nth_error (els i) 0) as [b|] eqn:En; [|discriminate]. injection S as <- <-.
    cbn [mstep]. unfold px_get, front_, create_accessor. rewrite pget_nat, (holds_rd _ _ _ _ H En).
    eexists. split; [reflexivity|auto].
  - destruct (nth_error (els i) (length (els i) - 1)) as [b|] eqn:En; [|discriminate]. injection S as <- <-.
    assert (length (els i) - 1 < length (els i)) by (apply nth_error_Some; congruence).
    cbn [mstep]. unfold back_. rewrite (size_ok c _ _ H). cbn [bind lift vret vbind].
    rewrite sub_ok by (destruct H as [_ _ _ B]; lia).
    unfold px_get, create_accessor. rewrite pget_nat, (holds_rd _ _ _ _ H En).
    eexists. split; [reflexivity|auto].
  - destruct (nth_error (els i) i0) as [b|] eqn:En; [|discriminate]. injection S as <- <-.
    cbn [mstep]. eexists. split; [reflexivity|]. split; cbn; auto. unfold index_, create_accessor. now apply rel_set.
  - destruct (px_at i p) as [q|] eqn:E; [|discriminate]. pose proof (PVAR p q E) as V.
    destruct (nth_error (els i) q) as [a|] eqn:En; [|discriminate]. injection S as <- <-.
    cbn [mstep]. rewrite V. cbn [vbind vret bind]. unfold px_get. rewrite pget_nat, (holds_rd _ _ _ _ H En).
    eexists. split; [reflexivity|auto].
  - destruct (px_at i p) as [q|] eqn:E; [|discriminate]. pose proof (PVAR p q E) as V.
    destruct (replace i q a) as [s'|] eqn:Er; [|discriminate]. injection S as <- <-. apply replace_inv in Er. destruct Er as [Lp ->].
    destruct (rel_wr s i q a R Lp K) as [W R']. cbn [mstep]. rewrite V. cbn [vbind vret bind]. unfold px_set.
    rewrite pset_nat, W. eexists. split; [reflexivity|exact R'].
  - destruct (place i y) as [p|] eqn:E; [|discriminate]. destruct (VAR y p E) as [V Lp].
    destruct (vstep (els i) (Erase p)) as [l|] eqn:Ev; [|discriminate]. injection S as <- <-.
    apply place_inv in E. destruct E as [E _]. cbn [effect] in K. rewrite E in K. cbn [els with_it with_els] in C, K.
    destruct (cont_ok s i (Erase p) l R Ev C K) as (v' & Es & R'). cbn [step] in Es.
    cbn [mstep]. rewrite V. cbn [vbind vret bind]. unfold erase_it, begin_, create_iterator, create_accessor, it_diff.
    replace (Z.of_nat p - Z.of_nat 0)%Z with (Z.of_nat p) by lia.
    assert (p < smod c) as LB by (destruct H as [_ _ _ B]; lia).
    rewrite <- Nat2Z.inj_mod, Nat2Z.id, Nat.mod_small by auto.
    unfold erase in Es. destruct (raw_erase c (cont s) p 1) as [[v1|]| |]; try discriminate.
    cbn [vbind vret bind] in *. injection Es as <-.
    eexists. split; [reflexivity|]. exact (rel_it _ _ x p R').
  - destruct (place i y) as [p|] eqn:E; [|discriminate]. destruct (VAR y p E) as [V Lp].
    destruct (vstep (els i) (Insert p a)) as [l|] eqn:Ev; [|discriminate]. injection S as <- <-.
    apply place_inv in E. destruct E as [E _]. cbn [effect] in K. rewrite E in K. cbn [els with_it with_els] in C, K.
    destruct (cont_ok s i (Insert p a) l R Ev C K) as (v' & Es & R'). cbn [step] in Es.
    cbn [mstep]. rewrite V. cbn [vbind vret bind]. unfold insert_it, begin_, create_iterator, create_accessor, it_diff.
    replace (Z.of_nat p - Z.of_nat 0)%Z with (Z.of_nat p) by lia.
    destruct (Z.ltb_spec (Z.of_nat p) 0); [lia|]. rewrite Nat2Z.id, Es. cbn [vbind vret bind].
    eexists. split; [reflexivity|]. exact (rel_it _ _ x p R').
  - destruct (vstep (els i) o0) as [l|] eqn:Ev; [|discriminate]. injection S as <- <-.
    destruct (cont_ok s i o0 l R Ev C K) as (v' & Es & R').
    cbn [mstep]. rewrite Es. eexists. split; [reflexivity|auto].
Qed.

Lemma mrun_ok : forall cs s i os i', rel s i -> irun eqA cap ok i cs os i' ->
  exists s', mrun eqA c s cs = vret (os, s') /\ rel s' i'.
Proof.
  induction cs as [|k cs IH]; intros s i os i' R X; inversion X; subst.
  - exists s. split; auto.
  - destruct (mstep_ok s i k o s1 R) as (s' & E & R'); auto.
    destruct (IH s' s1 os0 i' R') as (s2 & E2 & R2); auto.
    cbn [mrun]. rewrite E. cbn [vbind vret bind]. rewrite E2. eexists. split; [reflexivity|auto].
Qed.
End Prog.
End Gen.

(* ---------- loops ---------- *)
Section Loops.
Context {A : Type} (c : cfg A).

Lemma skipn_past (a b : list A) x : skipn (S (length a)) (a ++ x :: b) = b.
Proof. induction a as [|y a IH]; [reflexivity|exact IH]. Qed.
Lemma set_mid (a b : list A) x y :
  firstn (length a) (a ++ x :: b) ++ y :: skipn (S (length a)) (a ++ x :: b) = a ++ y :: b.
Proof.
  rewrite firstn_app_exact by auto. f_equal. f_equal.
  apply skipn_past.
Qed.
Lemma nth_mid (a b : list A) x : nth_error (a ++ x :: b) (length a) = Some x.
Proof. rewrite nth_error_app2, Nat.sub_diag by auto. reflexivity. Qed.
Lemma holds_room v l : holds c v l -> length l <= length (buf v).
Proof. intros [Sh _ _ _]. pose proof (shape_len _ _ _ Sh). lia. Qed.

Lemma cne_nat p q : it_cmp CNe (Z.of_nat p) (Z.of_nat q) = negb (Nat.eqb p q).
Proof. cbn. unfold it_eq. destruct (Z.eqb_spec (Z.of_nat p) (Z.of_nat q)), (Nat.eqb_spec p q); auto; lia. Qed.

Lemma for_loop_ok f : forall todo fuel v done, holds c v (done ++ todo) -> Forall (nz c) (map f todo) ->
  length todo < fuel ->
  exists v', for_loop f fuel v (Z.of_nat (length done)) (Z.of_nat (length (done ++ todo))) = Ok (todo, v') /\
    holds c v' (done ++ map f todo).
Proof.
  induction todo as [|a todo IH]; intros fuel v done H F L; (destruct fuel as [|n]; [cbn in L; lia|]);
    cbn [for_loop]; rewrite cne_nat.
  - rewrite app_nil_r in *. rewrite Nat.eqb_refl. cbn [negb map]. rewrite app_nil_r. eauto.
  - destruct (Nat.eqb_spec (length done) (length (done ++ a :: todo))) as [K|_].
    { rewrite app_length in K. cbn in K. lia. }
    cbn [negb]. unfold it_get, it_set. rewrite pget_nat, (holds_rd c v _ _ a H) by apply nth_mid.
    cbn [bind]. rewrite pset_nat.
    inversion F as [|? ? Fa Ft]; subst.
    assert (length done < length (done ++ a :: todo)) as Ld by (rewrite app_length; cbn; lia).
    destruct (holds_wr c v (done ++ a :: todo) (length done) (f a) H Ld) as [W H'].
    { rewrite set_mid. destruct H as [_ NZ _ _]. apply Forall_app in NZ. destruct NZ as [N1 N2].
      inversion N2; subst. apply Forall_app. auto. }
    rewrite set_mid in H'. rewrite W. cbn [bind]. unfold it_inc. cbn [buf].
    pose proof (holds_room _ _ H) as Lr. rewrite app_length in Lr. cbn in Lr.
    rewrite (padd_ok _ (length done) 1 (length (done ++ [f a]))) by (rewrite ?upd_len, app_length; cbn; lia).
    cbn [bind].
    replace (length (done ++ a :: todo)) with (length ((done ++ [f a]) ++ todo)) by (rewrite !app_length; cbn; lia).
    destruct (IH n (Arr (upd (buf v) (length done) (f a)) (msize v)) (done ++ [f a])) as (v' & E & H2).
    + rewrite <- app_assoc. exact H'.
    + exact Ft.
    + cbn in L. lia.
    + rewrite E. cbn [bind]. exists v'. split; auto. cbn [map]. rewrite <- app_assoc in H2. exact H2.
Qed.
Lemma for_each_ok f fuel v l : holds c v l -> Forall (nz c) (map f l) -> length l < fuel ->
  exists v', for_each c f fuel v = Ok (l, v') /\ holds c v' (map f l).
Proof.
  intros H F L. unfold for_each, end_. rewrite (size_ok c _ _ H). cbn [bind].
  destruct (for_loop_ok f l fuel v [] H F L) as (v' & E & H'). exists v'. split; auto.
Qed.

Lemma back_loop_ok : forall todo fuel v rest, holds c v (todo ++ rest) -> length todo < fuel ->
  back_loop fuel v (Z.of_nat (length todo)) = Ok (rev todo).
Proof.
  intros todo. induction todo as [|a todo IH] using rev_ind; intros fuel v rest H L;
    (destruct fuel as [|n]; [lia|]); cbn [back_loop]; unfold begin_, create_iterator, create_accessor; rewrite cne_nat.
  - reflexivity.
  - rewrite app_length. cbn [length]. destruct (Nat.eqb_spec (length todo + 1) 0); [lia|]. cbn [negb].
    pose proof (holds_room _ _ H) as Lr. rewrite !app_length in Lr. cbn in Lr.
    unfold it_dec. rewrite (padd_ok _ (length todo + 1) (-1) (length todo)) by lia. cbn [bind].
    unfold it_get. rewrite <- app_assoc in H. cbn [app] in H. rewrite pget_nat, (holds_rd c v _ _ a H) by apply nth_mid.
    cbn [bind]. rewrite (IH n v (a :: rest)); auto.
    + cbn [bind]. rewrite rev_unit. reflexivity.
    + rewrite app_length in L. cbn in L. lia.
Qed.
Lemma walk_back_ok fuel v l : holds c v l -> length l < fuel -> walk_back c fuel v = Ok (rev l).
Proof.
  intros H L. unfold walk_back, end_. rewrite (size_ok c _ _ H). cbn [bind].
  apply (back_loop_ok l fuel v []); auto. now rewrite app_nil_r.
Qed.

Variable good : arr A -> Prop.
Hypothesis erase_one : forall v l i, good v -> holds c v l -> i < length l ->
  exists v', raw_erase c v i 1 = vret v' /\ holds c v' (firstn i l ++ skipn (i + 1) l) /\ good v'.
Lemma erase_loop_ok bad : forall todo fuel v kept, good v -> holds c v (kept ++ todo) -> length todo < fuel ->
  exists v', erase_loop c bad fuel v (Z.of_nat (length kept)) = vret v' /\
    holds c v' (kept ++ filter (fun a => negb (bad a)) todo).
Proof.
  induction todo as [|a todo IH]; intros fuel v kept G H L; (destruct fuel as [|n]; [cbn in L; lia|]);
    cbn [erase_loop]; unfold end_; rewrite (size_ok c _ _ H); cbn [bind lift vret vbind];
    unfold create_iterator, create_accessor; rewrite cne_nat.
  - rewrite app_nil_r in *. rewrite Nat.eqb_refl. cbn. rewrite app_nil_r. eauto.
  - destruct (Nat.eqb_spec (length kept) (length (kept ++ a :: todo))) as [K|_].
    { rewrite app_length in K. cbn in K. lia. }
    cbn [negb]. unfold it_get. rewrite pget_nat, (holds_rd c v _ _ a H) by apply nth_mid.
    cbn [bind lift vret vbind filter]. pose proof (holds_room _ _ H) as Lr. rewrite app_length in Lr. cbn in Lr.
    cbn in L. destruct (bad a).
    + cbn [negb]. unfold erase_it, begin_, create_iterator, create_accessor, it_diff.
      replace (Z.of_nat (length kept) - Z.of_nat 0)%Z with (Z.of_nat (length kept)) by lia.
      assert (length kept < smod c) as LB by (destruct H as [_ _ _ B]; lia).
      rewrite <- Nat2Z.inj_mod, Nat2Z.id, Nat.mod_small by auto.
      destruct (erase_one v (kept ++ a :: todo) (length kept) G H) as (v' & E & H' & G').
      { rewrite app_length. cbn. lia. }
      rewrite E. cbn [bind lift vret vbind].
      rewrite firstn_app_exact in H' by auto. rewrite Nat.add_1_r, skipn_past in H'.
      apply IH; auto. lia.
    + cbn [negb]. unfold it_inc. rewrite (padd_ok _ (length kept) 1 (length (kept ++ [a]))) by (rewrite ?app_length; cbn; lia).
      cbn [bind lift vret vbind]. destruct (IH n v (kept ++ [a]) G) as (v' & E & H').
      * rewrite <- app_assoc. exact H.
      * lia.
      * rewrite E. exists v'. split; auto. rewrite <- app_assoc in H'. exact H'.
Qed.
End Loops.

(* ---------- vectors ---------- *)
Section Vec.
Variables (sm : nat) (na nd : bool) (w N : nat).
Let c := vec_cfg sm na nd w.
Let good (v : arr (list Z)) := Forall (fun x => length x = w) (buf v).

Lemma vec_ok_nz l o l1 : vec_ok w l o l1 -> Forall (nz c) l1.
Proof. intros _. apply Forall_forall. intros; exact I. Qed.
Lemma vec_good_step v l o l1 v' : good v -> holds c v l -> vstep l o = Some l1 -> vec_ok w l o l1 ->
  step c v o = vret v' -> holds c v' l1 -> good v'.
Proof.
  intros G H S K E _. eapply (step_keep _ c); eauto.
  - intros m d s n m' Em Fm. exact (memmove_bytes_keep w m d s n m' Em Fm).
  - eapply vec_input; eauto.
Qed.
Lemma vec_good_set v (l l1 : list (list Z)) i a : good v -> l1 = firstn i l ++ a :: skipn (S i) l ->
  vec_ok w l (Assign l1) l1 -> good (Arr (upd (buf v) i a) (msize v)).
Proof.
  intros G -> [F _]. apply Forall_app in F. destruct F as [_ F]. inversion F; subst.
  unfold good. cbn [buf]. now apply Forall_upd.
Qed.
Lemma vec_erase_mm v l i l1 : good v -> holds c v l -> i < length l -> vec_ok w l (Erase i) l1 ->
  forall rest, buf v = l ++ term c ++ rest ->
  exists rest', mm c (buf v) i (i + 1) (length l + tlen c - (i + 1)) =
       Ok (firstn i l ++ skipn (i + 1) l ++ term c ++ rest') /\ length rest' = length rest + 1.
Proof.
  intros G H Hi [_ K] rest Er.
  assert (length rest + length l = length (buf v)) as LR by (rewrite Er, !app_length; cbn; lia).
  destruct K as [K|K].
  - cbn [mm c vec_cfg]. unfold good in G. rewrite K in *. rewrite memmove_bytes_1 by auto. rewrite Er.
    apply (memmove1_erase l (term c) rest i 1). lia.
  - cbn [mm c vec_cfg]. replace (length l + tlen c - (i + 1)) with 0 by (cbn; lia).
    rewrite (memmove_bytes_none w) by (auto; lia).
    exists (skipn i l ++ rest). split.
    + f_equal. rewrite (skipn_all2 l) by lia. cbn [app term kind c vec_cfg].
      rewrite Er. cbn [app term kind c vec_cfg]. rewrite app_assoc, firstn_skipn. reflexivity.
    + rewrite app_length, skipn_length. lia.
Qed.

Lemma vec_good_run : forall os v l l2, good v -> holds c v l -> N <= length (buf v) -> vrun N (vec_ok w) l os l2 ->
  exists v', run c v os = vret v' /\ holds c v' l2 /\ good v'.
Proof.
  induction os as [|o os IH]; intros v l l2 G H C R; inversion R; subst; cbn [run].
  - eauto.
  - destruct (step_ok c (vec_ok w) good vec_ok_nz vec_erase_mm v l o l1 G H) as (v1 & E & H1 & L1); auto; [cbn; lia|].
    rewrite E. cbn [vbind vret bind].
    destruct (IH v1 l1 l2) as (v2 & E2 & Hv2 & G2); auto.
    + eapply vec_good_step; eauto.
    + lia.
    + exists v2. auto.
Qed.
Lemma vec_after_good os l v : vec_after sm na nd w N os l v -> holds c v l /\ length (buf v) = N /\ good v.
Proof.
  intros X. destruct (vec_after_holds _ _ _ _ _ _ _ _ X) as [H L]. split; [auto|]. split; [auto|].
  destruct X as (HN & b & v0 & Hb & F & E0 & R & E).
  destruct (init_holds c b) as (v0' & E0' & H0 & L0); [exact I|cbn; lia|cbn; lia|].
  fold c in E0, E. rewrite E0 in E0'. injection E0' as <-.
  assert (good v0) as G0. { unfold init, set_size in E0. cbn in E0. injection E0 as <-. exact F. }
  destruct (vec_good_run os v0 [] l G0 H0) as (v' & E' & _ & G'); auto; [lia|].
  rewrite E in E'. injection E' as <-. auto.
Qed.

Lemma vec_program eqA os l v cs out s : vec_after sm na nd w N os l v ->
  irun eqA N (vec_ok w) (fresh l) cs out s ->
  exists s', mrun eqA c (start v) cs = Ok (Go (out, s')) /\ looks_like c (cont s') (els s) /\ length (buf (cont s')) = N.
Proof.
  intros X R. destruct (vec_after_good os l v X) as (H & L & G).
  destruct (mrun_ok eqA c (vec_ok w) good N N vec_ok_nz vec_good_step vec_good_set vec_erase_mm) with
    (cs := cs) (s := start v) (i := fresh l) (os := out) (i' := s) as (s' & E & R'); auto.
  - cbn. lia.
  - split; auto.
  - exists s'. split; auto. destruct R' as [H' _ L' _ _]. split; auto. now apply holds_looks.
Qed.
Lemma vec_for_each f fuel os l v : vec_after sm na nd w N os l v -> length l < fuel ->
  exists v', for_each c f fuel v = Ok (l, v') /\ looks_like c v' (map f l).
Proof.
  intros X Lf. destruct (vec_after_good os l v X) as (H & L & G).
  destruct (for_each_ok c f fuel v l H) as (v' & E & H'); auto.
  - apply Forall_forall. intros; exact I.
  - exists v'. split; auto. now apply holds_looks.
Qed.
Lemma vec_walk_back fuel os l v : vec_after sm na nd w N os l v -> length l < fuel ->
  walk_back c fuel v = Ok (rev l).
Proof. intros X Lf. destruct (vec_after_good os l v X) as (H & L & G). now apply walk_back_ok. Qed.
Lemma vec_erase_if bad fuel os l v : w = 1 -> vec_after sm na nd w N os l v -> length l < fuel ->
  exists v', erase_if c bad fuel v = Ok (Go v') /\ looks_like c v' (filter (fun a => negb (bad a)) l).
Proof.
  intros W X Lf. destruct (vec_after_good os l v X) as (H & L & G).
  destruct (erase_loop_ok c good) with (bad := bad) (todo := l) (fuel := fuel) (v := v) (kept := @nil (list Z)) as (v' & E & H'); auto.
  - intros v1 l1 i G1 H1 Hi. destruct (raw_erase_ok c v1 l1 i 1 H1) as (v' & E & H' & _); [lia| |].
    + intros rest Er. cbn [mm c vec_cfg]. unfold good in G1. rewrite W in *. rewrite memmove_bytes_1 by auto. rewrite Er.
      apply (memmove1_erase l1 (term c) rest i 1). lia.
    + exists v'. split; auto. split; auto.
      unfold raw_erase in E. rewrite (size_ok c _ _ H1) in E. cbn [c vec_cfg kind lift vbind vret bind set_size] in E.
      apply vbind_inv in E. destruct E as (m & Em & E). injection E as <-. apply lift_inv in Em. unfold good. cbn [buf].
      cbn [narrow vec_cfg] in Em. destruct na.
      * destruct (Nat.leb _ _) in Em; [|discriminate]. exact (memmove_bytes_keep w _ _ _ _ _ Em G1).
      * exact (memmove_bytes_keep w _ _ _ _ _ Em G1).
  - exists v'. split; auto. now apply holds_looks.
Qed.
Lemma vec_el_copy os l v i j : vec_after sm na nd w N os l v -> looks_like c (el_copy v i j) l.
Proof. intros X. destruct (vec_after_good os l v X) as (H & L & G). now apply holds_looks. Qed.
Lemma vec_px_copy os l v i j a x : vec_after sm na nd w N os l v -> nth_error l j = Some x ->
  exists v', px_set (snd (px_copy v (index_ v i) (index_ v j))) (fst (px_copy v (index_ v i) (index_ v j))) a = Ok v' /\
    looks_like c v' (firstn j l ++ a :: skipn (S j) l).
Proof.
  intros X E. destruct (vec_after_good os l v X) as (H & L & G).
  assert (j < length l) as Lj by (apply nth_error_Some; congruence).
  destruct (holds_wr c v l j a H Lj) as [W H']. { apply Forall_forall. intros; exact I. }
  cbn [px_copy fst snd]. unfold px_set, index_, create_accessor. rewrite pset_nat, W. cbn [bind].
  eexists. split; [reflexivity|]. now apply holds_looks.
Qed.
End Vec.

(* ---------- strings ---------- *)
Section Str.
Variables (sm : nat) (na nd nul : bool) (N : nat).
Let c := str_cfg sm na nd nul.

Lemma str_room os l v : str_after sm na nd nul N os l v -> room nul N + tlen c <= N.
Proof.
  intros X. destruct (str_after_holds _ _ _ _ _ _ _ _ X) as [H L]. destruct H as [Sh _ _ _].
  pose proof (shape_len _ _ _ Sh) as K. unfold c. rewrite str_tlen in *. unfold room. destruct nul; lia.
Qed.
Lemma str_erase_mm v l i (l1 : list Z) : True -> holds c v l -> i < length l -> str_ok nul l (Erase i) l1 ->
  forall rest, buf v = l ++ term c ++ rest ->
  exists rest', mm c (buf v) i (i + 1) (length l + tlen c - (i + 1)) =
       Ok (firstn i l ++ skipn (i + 1) l ++ term c ++ rest') /\ length rest' = length rest + 1.
Proof. intros _ H Hi _ rest Er. cbn [mm c str_cfg]. rewrite Er. apply (memmove1_erase l (term c) rest i 1). lia. Qed.

Lemma str_program eqA os l v cs out s : str_after sm na nd nul N os l v ->
  irun eqA (room nul N) (str_ok nul) (fresh l) cs out s ->
  exists s', mrun eqA c (start v) cs = Ok (Go (out, s')) /\ looks_like c (cont s') (els s) /\ length (buf (cont s')) = N.
Proof.
  intros X R. destruct (str_after_holds _ _ _ _ _ _ _ _ X) as [H L].
  destruct (mrun_ok eqA c (str_ok nul) (fun _ => True) (room nul N) N) with
    (cs := cs) (s := start v) (i := fresh l) (os := out) (i' := s) as (s' & E & R'); auto.
  - intros l' o l1 K. now apply str_nz.
  - exact str_erase_mm.
  - eapply str_room; eauto.
  - split; auto.
  - exists s'. split; auto. destruct R' as [H' _ L' _ _]. split; auto. now apply holds_looks.
Qed.
Lemma str_for_each f fuel os l v : str_after sm na nd nul N os l v -> (nul = true -> ~ In 0%Z (map f l)) ->
  length l < fuel ->
  exists v', for_each c f fuel v = Ok (l, v') /\ looks_like c v' (map f l).
Proof.
  intros X NZ Lf. destruct (str_after_holds _ _ _ _ _ _ _ _ X) as [H L].
  destruct (for_each_ok c f fuel v l H) as (v' & E & H'); auto.
  - now apply str_nz.
  - exists v'. split; auto. now apply holds_looks.
Qed.
Lemma str_walk_back fuel os l v : str_after sm na nd nul N os l v -> length l < fuel ->
  walk_back c fuel v = Ok (rev l).
Proof. intros X Lf. destruct (str_after_holds _ _ _ _ _ _ _ _ X) as [H L]. now apply walk_back_ok. Qed.
Lemma str_erase_if bad fuel os l v : str_after sm na nd nul N os l v -> length l < fuel ->
  exists v', erase_if c bad fuel v = Ok (Go v') /\ looks_like c v' (filter (fun a => negb (bad a)) l).
Proof.
  intros X Lf. destruct (str_after_holds _ _ _ _ _ _ _ _ X) as [H L].
  destruct (erase_loop_ok c (fun _ => True)) with (bad := bad) (todo := l) (fuel := fuel) (v := v) (kept := @nil Z) as (v' & E & H'); auto.
  - intros v1 l1 i _ H1 Hi. destruct (raw_erase_ok c v1 l1 i 1 H1) as (v' & E & H' & _); [lia| |].
    + intros rest Er. cbn [mm c str_cfg]. rewrite Er. apply (memmove1_erase l1 (term c) rest i 1). lia.
    + exists v'. auto.
  - exists v'. split; auto. now apply holds_looks.
Qed.
Lemma str_el_copy os l v i j : str_after sm na nd nul N os l v -> looks_like c (el_copy v i j) l.
Proof. intros X. destruct (str_after_holds _ _ _ _ _ _ _ _ X) as [H L]. now apply holds_looks. Qed.
End Str.
