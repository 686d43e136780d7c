From Coq Require Import ZArith.
From Verif Require Import Base BaseLemmas MachInt Pool_Spec Pool_Proofs Mp_Spec Mp_Model Mp_Proofs Sptr_Model Sptr_Spec Sptr_Proofs Psp_Model Psp_Spec.
Local Open Scope res_scope.

Lemma upd_out {A} (l : list A) k v : nth_error l k = None -> upd l k v = l.
Proof. revert k; induction l as [|h t IH]; intros [|k] E; cbn in *; try congruence. now rewrite IH. Qed.
(* the log of destructors is not read *)
Definition dd (d : list nat) (x : world) : world := World (w_blocks x) (w_followers x) (w_made x) d.

Section P.
Context (w : Z) (N : nat).
Hypothesis Hw : (1 <= w)%Z.
Hypothesis H0 : 0 < N.
Hypothesis H1 : (Z.of_nat N < 2 ^ 31)%Z.

(* the pool's live blocks are those that hold a pointer *)
Definition qinv (q : pool1 unit) (m : list (option bool)) : Prop :=
  length m = N /\ exists l fl, inv1 N l q fl /\ forall b, In b (blocks l) <-> exists a, nth_error m b = Some (Some a).
Definition pinv (x : pworld) (s : owners) : Prop :=
  (exists d, inv w (dd d (ptrs x)) s) /\ qinv (pool x) (o_masters s) /\ w_dead (ptrs x) = [].

Lemma wrap_small z : (0 <= z < 2 ^ w)%Z -> wrapu w z = z.
Proof. unfold wrapu. apply Z.mod_small. Qed.

Lemma qinv_ext q m m' : qinv q m -> length m' = length m -> (forall b, (exists a, nth_error m' b = Some (Some a)) <-> (exists a, nth_error m b = Some (Some a))) -> qinv q m'.
Proof.
  intros (L & l & fl & I & H) E X. split; [congruence|]. exists l, fl. split; [exact I|]. intros b. rewrite H. symmetry. apply X.
Qed.
Lemma qinv_some q m b a0 a : qinv q m -> nth_error m b = Some (Some a0) -> qinv q (upd m b (Some a)).
Proof.
  intros Q E. apply (qinv_ext q m); [exact Q|apply upd_length|]. intros c. destruct (Nat.eq_dec c b) as [->|Hc].
  - rewrite nth_error_upd_eq by (apply nth_error_Some; congruence). split; eauto.
  - rewrite nth_error_upd_neq by auto. tauto.
Qed.
Lemma qinv_free q m b a0 : qinv q m -> nth_error m b = Some (Some a0) ->
  exists q', deallocate1 N q b = Ok q' /\ qinv q' (upd m b None).
Proof.
  intros (L & l & fl & I & H) E. assert (K : In b (blocks l)) by (apply H; eauto).
  destruct (free1_inv N H0 H1 l q fl b I K) as (q' & R & I'). exists q'. split; [exact R|]. split; [now rewrite upd_length|].
  exists (drop b l), (b :: fl). split; [exact I'|]. intros c. destruct (Nat.eq_dec c b) as [->|Hc].
  - rewrite nth_error_upd_eq by (apply nth_error_Some; congruence). split; [|intros (a & A); discriminate].
    unfold blocks, drop. intros J. apply in_map_iff in J. destruct J as ((b' & v) & J1 & J2). apply filter_In in J2. cbn in *. subst b'.
    rewrite Nat.eqb_refl in J2. destruct J2. discriminate.
  - rewrite nth_error_upd_neq by auto. rewrite <- H. unfold blocks, drop. rewrite !in_map_iff. split.
    + intros (v & J1 & J2). apply filter_In in J2. exists v. tauto.
    + intros (v & J1 & J2). exists v. split; [exact J1|]. apply filter_In. split; [exact J2|]. subst c.
      destruct (Nat.eqb_spec (fst v) b); [contradiction|reflexivity].
Qed.
Lemma qinv_alloc q m : qinv q m -> (exists b, nth_error m b = Some None) ->
  exists q' b, allocate1 N q = Ok (q', Some b) /\ nth_error m b = Some None /\ forall a, qinv q' (upd m b (Some a)).
Proof.
  intros (L & l & fl & I & H) (b0 & E0). assert (Nb : ~ In b0 (blocks l)). { rewrite H. intros (a & A). congruence. }
  assert (Lb : b0 < N) by (rewrite <- L; apply nth_error_Some; congruence).
  pose proof (alloc1_inv N H0 H1 l q fl I) as A. destruct fl as [|b t].
  - exfalso. apply Nb. pose proof (i1_parts _ _ _ _ I) as P. unfold parts in P. cbn in P.
    apply (Permutation_in b0 (Permutation_sym P)). apply in_seq. lia.
  - destruct A as (n & R & Lt & Nl & C). exists (Pool1 (vals q) (nexts q) n), b. split; [exact R|].
    assert (Em : nth_error m b = Some None).
    { destruct (nth_error m b) as [[a|]|] eqn:E; [|reflexivity|].
      - exfalso. apply Nl. apply H. eauto.
      - apply nth_error_None in E. lia. }
    split; [exact Em|]. intros a. split; [now rewrite upd_length|].
    exists ((b, None) :: l), t. split.
    + constructor; cbn [vals nexts front]; try apply I; [exact C| |].
      * apply (parts_alloc _ _ _ _ None (i1_parts _ _ _ _ I)).
      * intros c v [K|K]; [discriminate|]. apply (i1_val _ _ _ _ I _ _ K).
    + intros c. cbn. destruct (Nat.eq_dec c b) as [->|Hc].
      * rewrite nth_error_upd_eq by lia. split; [eauto|auto].
      * rewrite nth_error_upd_neq by auto. rewrite <- H. split; [intros [->|K]; [congruence|exact K]|auto].
Qed.

(* ---------- a block goes back ---------- *)
Lemma inv_gone d x s b a : inv w (dd d x) s -> nth_error (o_masters s) b = Some (Some a) -> master_owns s b = false -> followers_of b (o_followers s) = 0 ->
  inv w (dd d (set_block b None x)) (with_m s b None).
Proof.
  intros I E M F. assert (a = false) by (rewrite (owns_a s b a E) in M; exact M). subst a.
  destruct (step_run w Hw s _ (MDestroy b) I) as (y & R & Iy); [split; [exists false; exact E|exact F]|].
  cbn [run_op] in R. unfold master_destroy in R. rewrite (get_b w _ s b false I E) in R. cbn [bind c_active] in R.
  injection R as <-. exact Iy.
Qed.
Lemma give_back_ok x s b :
  pinv x s -> nth_error (o_masters s) b = Some (Some false) -> owner_count s b = 0 ->
  exists y, give_back N b x = Ok y /\ pinv y (with_m s b None).
Proof.
  intros ((d & I) & Q & D) E C. destruct (qinv_free _ _ _ _ Q E) as (q & R & Q'). unfold give_back. rewrite R. cbn [bind].
  eexists. split; [reflexivity|]. split; [exists d|split; [exact Q'|exact D]]. cbn [ptrs].
  eapply inv_gone; [exact I|exact E|now apply (owns_a s b false)|unfold owner_count in C; lia].
Qed.

(* ---------- release ---------- *)
Section Rel.
(* s1: the owners after the release; x: the state before, with the count one too high for b *)
Lemma let_go_ok x s1 b d :
  w_followers (ptrs x) = o_followers s1 ->
  cinv (dd d (ptrs x)) (o_masters s1) (inc (owner_count s1) b) -> bounded w s1 -> (Z.of_nat (owner_count s1 b) + 1 < 2 ^ w)%Z ->
  qinv (pool x) (o_masters s1) -> w_dead (ptrs x) = [] -> exists_m s1 b -> (owner_count s1 b = 0 -> nth_error (o_masters s1) b = Some (Some false)) ->
  exists y, let_go w N true b x = Ok y /\ pinv y (swept b s1).
Proof.
  intros F C B U Q D (a & E) Z0.
  assert (P : 0 < inc (owner_count s1) b b) by (unfold inc; rewrite Nat.eqb_refl; lia).
  assert (Ib : inc (owner_count s1) b b = owner_count s1 b + 1) by (unfold inc; rewrite Nat.eqb_refl; reflexivity).
  destruct (release_run w Hw (dd d (ptrs x)) _ _ b a C E P ltac:(lia)) as (y & R & Cy & Fy).
  pose proof (cinv_block _ _ _ b a C E) as Eb. cbn [dd w_blocks] in Eb.
  assert (Lb : b < length (w_blocks (ptrs x))) by (apply nth_error_Some; congruence).
  assert (Iy : inv w y s1).
  { split; [rewrite Fy; exact F|]. split; [|exact B]. eapply cinv_ext; [exact Cy|]. intros c. unfold dec, inc. destruct (Nat.eqb_spec c b); lia. }
  unfold let_go, prelease. unfold get_block. rewrite Eb. cbn [bind c_count c_active c_alive].
  unfold release, get_block in R. cbn [dd w_blocks] in R. rewrite Eb in R. cbn [bind c_count c_active c_alive] in R.
  rewrite Ib in *. rewrite wrap_small in * by lia. replace (Z.of_nat (owner_count s1 b + 1) - 1)%Z with (Z.of_nat (owner_count s1 b)) in * by lia.
  unfold swept. destruct (Z.eqb_spec (Z.of_nat (owner_count s1 b)) 0) as [Zz|Zz].
  - assert (Oz : owner_count s1 b = 0) by lia. rewrite Oz. cbn [Nat.eqb]. specialize (Z0 Oz). rewrite Z0 in E. injection E as <-.
    cbn [pdeleter]. change (pdestroy w N true 2 b) with (fun x => c <- get_block b (ptrs x) ;; y <- (if c_active c then prelease w true (pdestroy w N true 1) b x else Ok x) ;; give_back N b y).
    cbn beta. unfold get_block. cbn [ptrs set_block w_blocks]. rewrite nth_error_upd_eq by exact Lb. cbn [bind c_active].
    unfold deleter, get_block in R. cbn [set_block dd w_blocks] in R. rewrite nth_error_upd_eq in R by exact Lb. cbn [bind c_alive c_count c_active] in R.
    assert (Al : Nat.ltb 0 (owner_count s1 b + 1) = true) by (apply Nat.ltb_lt; lia). rewrite Al in *. cbn iota in R.
    injection R as <-. unfold give_back. destruct (qinv_free _ _ _ _ Q Z0) as (q & Rq & Qq). cbn [pool]. rewrite Rq. cbn [bind].
    eexists. split; [reflexivity|]. split; [|split; [exact Qq|exact D]].
    pose proof (inv_gone _ _ s1 b false Iy Z0 ltac:(now apply (owns_a s1 b false)) ltac:(unfold owner_count in Oz; lia)) as G.
    exists (w_dead (World (upd (upd (w_blocks (ptrs x)) b (Some (Block (Z.of_nat (owner_count s1 b)) false true))) b (Some (Block (Z.of_nat (owner_count s1 b)) false false))) (w_followers (ptrs x)) (w_made (ptrs x)) (d ++ [b]))).
    unfold dd, set_block in G |- *. cbn [w_blocks w_followers w_made w_dead ptrs] in G |- *. rewrite !upd_twice in G. rewrite !upd_twice. exact G.
  - destruct (owner_count s1 b =? 0) eqn:Oz; [apply Nat.eqb_eq in Oz; lia|]. injection R as <-.
    eexists. split; [reflexivity|]. split; [exists d; exact Iy|]. split; [exact Q|exact D].
Qed.
End Rel.

(* ---------- what does not release ---------- *)
Lemma acquire_dd d t x Y : acquire w t (dd d x) = Ok Y -> exists y, acquire w t x = Ok y /\ dd d y = Y /\ w_dead y = w_dead x.
Proof.
  unfold acquire. destruct t as [b|]; [|intros [= <-]; eauto]. unfold get_block. cbn [dd w_blocks].
  destruct (nth_error (w_blocks x) b) as [[c|]|]; cbn [bind]; try discriminate. destruct (c_active c); intros [= <-]; eauto.
Qed.
Lemma plain_dd d p x Y : match p with Construct _ | FromMaster _ _ | Copy _ _ | Move _ _ | Swap _ _ => True | _ => False end ->
  run_op w p (dd d x) = Ok Y -> exists y, run_op w p x = Ok y /\ dd d y = Y /\ w_dead y = w_dead x.
Proof.
  intros K. destruct p as [b|b|b|b|b|k b|k j|k j|k j|k b|k|k|k j]; try contradiction; cbn [run_op].
  - unfold construct, get_block. cbn [dd w_blocks]. destruct (nth_error (w_blocks x) b) as [[c|]|]; cbn [bind]; try discriminate.
    destruct (c_alive c); try discriminate. intros [= <-]. eauto.
  - unfold from_master, get_block. cbn [dd w_blocks]. destruct (nth_error (w_blocks x) b) as [[c|]|]; cbn [bind]; try discriminate.
    unfold new_follower. cbn [dd w_followers]. destruct (nth_error (w_followers x) k) as [[t|]|]; try discriminate.
    intros R. apply (acquire_dd d _ (set_follower k _ x)) in R. exact R.
  - unfold copy, get_follower. cbn [dd w_followers]. destruct (nth_error (w_followers x) j) as [[t|]|]; cbn [bind]; try discriminate.
    unfold new_follower. cbn [dd w_followers]. destruct (nth_error (w_followers x) k) as [[u|]|]; try discriminate.
    intros R. apply (acquire_dd d _ (set_follower k _ x)) in R. exact R.
  - unfold move, get_follower. cbn [dd w_followers]. destruct (nth_error (w_followers x) j) as [[t|]|]; cbn [bind]; try discriminate.
    destruct (nth_error (w_followers x) k) as [[u|]|]; try discriminate. intros [= <-]. eauto.
  - unfold swap, get_follower. cbn [dd w_followers]. destruct (nth_error (w_followers x) k) as [[t|]|]; cbn [bind]; try discriminate.
    destruct (nth_error (w_followers x) j) as [[u|]|]; cbn [bind]; try discriminate. intros [= <-]. eauto.
Qed.
Lemma plain_step x s p : pinv x s -> match p with Construct _ | FromMaster _ _ | Copy _ _ | Move _ _ | Swap _ _ => True | _ => False end -> legal w s p ->
  exists y, on_ptrs (run_op w p (ptrs x)) x = Ok y /\ pinv y (effect s p).
Proof.
  intros ((d & I) & Q & D) K L. destruct (step_run w Hw s _ p I L) as (Y & R & IY).
  destruct (plain_dd d p (ptrs x) Y K R) as (y & Ry & Ey & Dy). unfold on_ptrs. rewrite Ry. cbn [bind]. eexists. split; [reflexivity|].
  split; [exists d; cbn [ptrs]; rewrite Ey; exact IY|]. split; [|cbn [ptrs]; now rewrite Dy].
  cbn [pool]. destruct p as [b|b|b|b|b|k b|k j|k j|k j|k b|k|k|k j]; try contradiction; cbn [effect with_m with_f o_masters]; try exact Q.
  destruct L as (L & _). eapply qinv_some; eauto.
Qed.
(* a variable that counts for nothing takes t *)
Lemma take_ok x s k y0 t : pinv x s -> nth_error (o_followers s) k = Some y0 -> (forall b, h1 y0 b = 0) -> can_share w s t ->
  exists y, on_ptrs (acquire w t (set_follower k (Some t) (ptrs x))) x = Ok y /\ pinv y (with_f s k (Some t)).
Proof.
  intros ((d & I) & Q & D) E Z S. destruct (take_run w _ s k y0 t I E Z S) as (Y & R & IY).
  apply (acquire_dd d t (set_follower k (Some t) (ptrs x))) in R. destruct R as (y & Ry & Ey & Dy). unfold on_ptrs. rewrite Ry. cbn [bind].
  eexists. split; [reflexivity|]. split; [exists d; cbn [ptrs]; rewrite Ey; exact IY|]. split; [exact Q|]. cbn [ptrs]. rewrite Dy. exact D.
Qed.

(* ---------- followers let go ---------- *)
Lemma orphan s k b u : nth_error (o_followers s) k = Some (Some (Some b)) -> u = None \/ u = Some None ->
  owner_count s b = owner_count (with_f s k u) b + 1 /\ forall c, c <> b -> owner_count (with_f s k u) c = owner_count s c.
Proof.
  intros E Hu. assert (U : forall c, h1 u c = 0) by (intros c; destruct Hu as [->| ->]; reflexivity). split.
  - pose proof (owners_with_f s k _ u b E) as Q. rewrite U in Q. cbn [h1] in Q. rewrite Nat.eqb_refl in Q. lia.
  - intros c Hc. pose proof (owners_with_f s k _ u c E) as Q. rewrite U in Q. cbn [h1] in Q. destruct (Nat.eqb_spec b c); [congruence|lia].
Qed.
Lemma no_owner_no_master s b : owner_count s b = 0 -> exists_m s b -> nth_error (o_masters s) b = Some (Some false).
Proof. intros Z (a & E). unfold owner_count in Z. rewrite (owns_a s b a E) in Z. destruct a; [lia|exact E]. Qed.
Lemma held_ok x s k b u : pinv x s -> nth_error (o_followers s) k = Some (Some (Some b)) -> u = None \/ u = Some None ->
  exists y, let_go w N true b (PWorld (set_follower k u (ptrs x)) (pool x)) = Ok y /\ pinv y (swept b (with_f s k u)).
Proof.
  intros ((d & I) & Q & D) E Hu. pose proof I as (F & H & B). destruct (held_master w _ s k b I E) as (a & Ea).
  destruct (orphan s k b u E Hu) as (Ob & Oc). apply (let_go_ok _ (with_f s k u) b d).
  - cbn [ptrs set_follower w_followers with_f o_followers]. cbn [dd w_followers] in F. now rewrite F.
  - apply (cinv_follower (dd d (ptrs x)) _ _ k u). eapply cinv_ext; [exact H|]. intros c. unfold inc. destruct (Nat.eqb_spec c b) as [->|Hc]; [lia|]. rewrite Oc by exact Hc. lia.
  - intros c. specialize (B c). destruct (Nat.eq_dec c b) as [->|Hc]; [lia|]. rewrite Oc by exact Hc. exact B.
  - specialize (B b). lia.
  - exact Q.
  - exact D.
  - exists a. exact Ea.
  - intros Z. apply no_owner_no_master; [exact Z|]. exists a. exact Ea.
Qed.
Lemma f_reset_ok x s k : pinv x s -> exists_f s k -> exists y, f_reset w N true k x = Ok y /\ pinv y (without k (Some None) s).
Proof.
  intros P (t & E). pose proof P as ((d & I) & Q & D). unfold f_reset. rewrite (get_f (ptrs x) s k t (proj1 I) E). cbn [bind].
  unfold without. rewrite (holds_nth s k t E). destruct t as [b|].
  - apply held_ok; auto.
  - exists x. split; [reflexivity|]. replace (with_f s k (Some None)) with s; [exact P|].
    unfold with_f. rewrite (nth_upd_id _ _ _ E). now destruct s.
Qed.
(* the destructor empties the variable after the release; the order does not matter *)
Definition sf (k : nat) (t : option (option nat)) (x : pworld) : pworld := PWorld (set_follower k t (ptrs x)) (pool x).
Definition rmap (f : pworld -> pworld) (r : result pworld) : result pworld := y <- r ;; Ok (f y).
Lemma give_back_f b k t x : give_back N b (sf k t x) = rmap (sf k t) (give_back N b x).
Proof. unfold give_back, rmap. cbn [sf pool ptrs]. destruct (deallocate1 N (pool x) b); reflexivity. Qed.
Lemma prelease_f D b k t x : (forall b x, D b (sf k t x) = rmap (sf k t) (D b x)) -> prelease w true D b (sf k t x) = rmap (sf k t) (prelease w true D b x).
Proof.
  intros HD. unfold prelease, get_block. cbn [sf ptrs set_follower w_blocks pool]. destruct (nth_error (w_blocks (ptrs x)) b) as [[c|]|]; cbn [bind rmap]; try reflexivity.
  destruct (Z.eqb (wrapu w (c_count c - 1)) 0); [|reflexivity]. cbn [pdeleter]. rewrite <- HD. reflexivity.
Qed.
Lemma pdestroy_f f k t : forall b x, pdestroy w N true f b (sf k t x) = rmap (sf k t) (pdestroy w N true f b x).
Proof.
  induction f as [|f IH]; intros b x; [reflexivity|]. cbn [pdestroy]. unfold get_block. cbn [sf ptrs set_follower w_blocks]. 
  destruct (nth_error (w_blocks (ptrs x)) b) as [[c|]|]; cbn [bind rmap]; try reflexivity.
  change (PWorld (set_follower k t (ptrs x)) (pool x)) with (sf k t x). destruct (c_active c).
  - rewrite (prelease_f _ b k t x IH). destruct (prelease w true (pdestroy w N true f) b x) as [y| |]; cbn [bind rmap]; try reflexivity. apply give_back_f.
  - cbn [bind]. apply give_back_f.
Qed.
Lemma let_go_f b k t x y : let_go w N true b (PWorld (set_follower k t (ptrs x)) (pool x)) = Ok y ->
  exists z, let_go w N true b x = Ok z /\ y = PWorld (set_follower k t (ptrs z)) (pool z).
Proof.
  change (PWorld (set_follower k t (ptrs x)) (pool x)) with (sf k t x). unfold let_go. rewrite prelease_f by apply pdestroy_f.
  destruct (prelease w true (pdestroy w N true 2) b x) as [z| |]; cbn [rmap bind]; try discriminate. intros R. injection R as <-. eauto.
Qed.
Lemma f_destroy_ok x s k : pinv x s -> exists_f s k -> exists y, f_destroy w N true k x = Ok y /\ pinv y (without k None s).
Proof.
  intros P (t & E). pose proof P as ((d & I) & Q & D). unfold f_destroy. rewrite (get_f (ptrs x) s k t (proj1 I) E). cbn [bind].
  unfold without. rewrite (holds_nth s k t E). destruct t as [b|].
  - destruct (held_ok x s k b None P E (or_introl eq_refl)) as (y & R & Py). apply let_go_f in R. destruct R as (z & Rz & ->).
    rewrite Rz. cbn [bind]. eexists. split; [reflexivity|exact Py].
  - cbn [bind]. eexists. split; [reflexivity|]. split; [|split; [exact Q|exact D]]. exists d. cbn [ptrs]. destruct I as (F & H & B).
    assert (O : forall c, owner_count (with_f s k None) c = owner_count s c).
    { intros c. pose proof (owners_with_f s k _ None c E) as Qc. cbn [h1] in Qc. lia. }
    split; [cbn; cbn in F; now rewrite F|]. split; [|intros c; rewrite O; apply B].
    apply (cinv_follower (dd d (ptrs x)) _ _ k None). eapply cinv_ext; [exact H|]. intros c. now rewrite O.
Qed.
Lemma ptr_reset_ok x s b : pinv x s -> exists_m s b ->
  exists y, ptr_reset w N true b x = Ok y /\ pinv y (if master_owns s b then swept b (with_m s b (Some false)) else s).
Proof.
  intros P (a & E). pose proof P as ((d & I) & Q & D). pose proof (get_b w _ s b a I E) as G.
  change (get_block b (dd d (ptrs x))) with (get_block b (ptrs x)) in G. unfold ptr_reset. rewrite G. cbn [bind c_active]. rewrite (owns_a s b a E).
  destruct a; [|exists x; auto]. unfold deactivate. rewrite G. cbn [bind c_count c_alive on_ptrs].
  destruct I as (F & H & B). assert (Lm : b < length (o_masters s)) by (apply nth_error_Some; congruence).
  pose proof (cinv_block _ _ _ b true H E) as Eb. cbn [dd w_blocks] in Eb.
  assert (Lb : b < length (w_blocks (ptrs x))) by (apply nth_error_Some; congruence).
  assert (Ob : owner_count s b = owner_count (with_m s b (Some false)) b + 1).
  { rewrite (owners_with_m s b _ (Some false) b E), Nat.eqb_refl. unfold owner_count. rewrite (owns_a s b true E). cbn. lia. }
  assert (Oc : forall c, c <> b -> owner_count (with_m s b (Some false)) c = owner_count s c).
  { intros c Hc. rewrite (owners_with_m s b _ (Some false) c E). destruct (Nat.eqb_spec c b); [contradiction|reflexivity]. }
  apply (let_go_ok _ (with_m s b (Some false)) b d).
  - exact F.
  - intros c. cbn [ptrs dd set_block w_blocks w_made w_dead with_m o_masters]. unfold inc. destruct (Nat.eqb_spec c b) as [->|Hc].
    + rewrite !nth_error_upd_eq by assumption. rewrite <- Ob. cbn [c_active c_count c_alive]. split; [auto|]. apply (H b).
    + rewrite !nth_error_upd_neq by auto. change (owner_count (Owners _ _) c) with (owner_count (with_m s b (Some false)) c). rewrite Nat.add_0_r, Oc by exact Hc. apply (H c).
  - intros c. destruct (Nat.eq_dec c b) as [->|Hc]; [specialize (B b); lia|]. rewrite Oc by exact Hc. apply B.
  - specialize (B b). lia.
  - cbn [with_m o_masters pool]. eapply qinv_some; eauto.
  - exact D.
  - exists false. cbn. now apply nth_error_upd_eq.
  - intros _. cbn. now apply nth_error_upd_eq.
Qed.

Lemma without_masters k t s : forall b a, nth_error (o_masters s) b = Some (Some a) -> (holds s k = Some b -> owner_count (with_f s k t) b <> 0) -> nth_error (o_masters (without k t s)) b = Some (Some a).
Proof.
  intros b a E K. unfold without. destruct (holds s k) as [c|]; [|exact E]. unfold swept. destruct (Nat.eqb_spec (owner_count (with_f s k t) c) 0) as [Z|Z]; [|exact E].
  destruct (Nat.eq_dec b c) as [->|Hc]; [exfalso; now apply K|]. cbn. rewrite nth_error_upd_neq by auto. exact E.
Qed.
Lemma without_followers k t s : o_followers (without k t s) = upd (o_followers s) k t.
Proof. unfold without, swept. destruct (holds s k); [destruct (_ =? _)|]; reflexivity. Qed.
Lemma swept_count b s c : owner_count (swept b s) c <= owner_count s c.
Proof.
  unfold swept. destruct (owner_count s b =? 0) eqn:Z; [|lia]. apply Nat.eqb_eq in Z.
  destruct (nth_error (o_masters s) b) as [y|] eqn:E.
  - rewrite (owners_with_m s b y None c E). destruct (Nat.eqb_spec c b) as [->|Hc]; [|lia]. unfold owner_count. cbn. lia.
  - unfold with_m, owner_count, master_owns. cbn [o_masters o_followers]. rewrite (upd_out _ _ _ E). lia.
Qed.

Lemma drop_count s k t0 c : nth_error (o_followers s) k = Some (Some t0) -> owner_count (with_f s k (Some None)) c <= owner_count s c.
Proof. intros E. pose proof (owners_with_f s k _ (Some None) c E) as Q. cbn [h1] in Q. lia. Qed.
Lemma without_count s k t0 c : nth_error (o_followers s) k = Some (Some t0) -> owner_count (without k (Some None) s) c <= owner_count s c.
Proof.
  intros E. pose proof (drop_count s k t0 c E). unfold without. destruct (holds s k) as [b|]; [|exact H].
  pose proof (swept_count b (with_f s k (Some None)) c). lia.
Qed.
Lemma without_owns s k b : master_owns s b = true -> master_owns (without k (Some None) s) b = true.
Proof.
  intros O. apply owns_nth in O. apply (owns_a _ b true). apply without_masters; [exact O|]. intros _ Z.
  unfold owner_count in Z. change (master_owns (with_f s k (Some None)) b) with (master_owns s b) in Z. rewrite (owns_a s b true O) in Z. lia.
Qed.
Lemma without_share s k t0 t : nth_error (o_followers s) k = Some (Some t0) -> can_share w s t -> can_share w (without k (Some None) s) t.
Proof.
  intros E S. destruct t as [b|]; [|exact I]. destruct S as (O & U). split; [now apply without_owns|].
  pose proof (without_count s k t0 b E). lia.
Qed.
Lemma without_from s k b : exists_m (without k (Some None) s) b -> from (without k (Some None) s) b = from s b.
Proof.
  intros (a & E). unfold from. rewrite (owns_a _ b a E). enough (nth_error (o_masters s) b = Some (Some a)) as E' by now rewrite (owns_a s b a E').
  unfold without in E. destruct (holds s k) as [c|]; [|exact E]. unfold swept in E. destruct (_ =? _); [|exact E]. cbn in E.
  destruct (Nat.eq_dec b c) as [->|Hc].
  - exfalso. assert (c < length (o_masters s)) by (erewrite <- upd_length; apply nth_error_Some; rewrite E; discriminate).
    rewrite nth_error_upd_eq in E by assumption. discriminate.
  - rewrite nth_error_upd_neq in E by auto. exact E.
Qed.
Lemma with_m_twice s b a c : with_m (with_m s b a) b c = with_m s b c.
Proof. unfold with_m. cbn. now rewrite upd_twice. Qed.

Lemma new_ok x s : pinv x s -> (exists b, nth_error (o_masters s) b = Some None) ->
  exists y b, pool_construct N x = Ok (y, b) /\ nth_error (o_masters s) b = Some None /\ pinv y (with_m s b (Some false)).
Proof.
  intros ((d & I) & Q & D) E. destruct (qinv_alloc _ _ Q E) as (q & b & R & Eb & Qq). unfold pool_construct. rewrite R. cbn [bind].
  eexists _, b. split; [reflexivity|]. split; [exact Eb|]. split; [|split; [apply Qq|exact D]]. exists d. cbn [ptrs].
  destruct (step_run w Hw s _ (Master1 b) I Eb) as (Y & RY & IY). cbn [run_op effect] in *. unfold master1 in RY. cbn [dd w_blocks] in RY.
  destruct (nth_error (w_blocks (ptrs x)) b) as [[c|]|]; try discriminate. injection RY as <-. exact IY.
Qed.
Lemma pstep_ok x s p : pinv x s -> plegal w s p ->
  exists y r, prun_op w N true p x = Ok (y, r) /\ panswers s p r /\ pinv y (peffect s p r).
Proof.
  intros P L. destruct p as [| |b|b|b|k b|k j|k j|k j|k b|k|k|k j]; cbn [prun_op plegal panswers] in *.
  - destruct (new_ok x s P L) as (y & b & R & E & Py). unfold make_shared. rewrite R. cbn [bind].
    destruct (plain_step y _ (Construct b) Py I) as (z & Rz & Pz).
    { cbn [legal]. cbn [with_m o_masters]. rewrite nth_error_upd_eq by (apply nth_error_Some; congruence). split; [reflexivity|].
      rewrite (owners_with_m s b _ (Some false) b E), Nat.eqb_refl. cbn. destruct P as ((d & (_ & H & _)) & _). destruct (H b) as (Hb & _).
      destruct (nth_error (w_blocks (dd d (ptrs x))) b) as [[c|]|]; [destruct Hb; congruence| |]; destruct Hb as (_ & Hb); unfold owner_count in Hb; lia. }
    unfold ptr_construct. cbn [run_op] in Rz. rewrite Rz. cbn [bind]. exists z, (Some b). split; [reflexivity|]. split; [eauto|].
    cbn [peffect effect] in *. now rewrite with_m_twice in Pz.
  - destruct (new_ok x s P L) as (y & b & R & E & Py). rewrite R. cbn [bind]. exists y, (Some b). split; [reflexivity|]. split; [eauto|exact Py].
  - destruct (plain_step x s (Construct b) P I L) as (y & R & Py). cbn [run_op] in R. unfold ptr_construct. rewrite R. cbn [quiet bind]. eauto.
  - destruct (ptr_reset_ok x s b P L) as (y & R & Py). rewrite R. cbn [quiet bind]. eauto.
  - destruct L as (E & O). pose proof P as ((d & I) & _). pose proof (get_b w _ s b false I E) as G. change (get_block b (dd d (ptrs x))) with (get_block b (ptrs x)) in G.
    destruct (give_back_ok x s b P E O) as (y & R & Py). unfold pool_destroy. cbn [pdestroy]. rewrite G. cbn [bind c_active]. rewrite R. cbn [quiet bind]. eauto.
  - destruct (plain_step x s (FromMaster k b) P I L) as (y & R & Py). cbn [run_op] in R. rewrite R. cbn [quiet bind]. eauto.
  - destruct (plain_step x s (Copy k j) P I L) as (y & R & Py). cbn [run_op] in R. rewrite R. cbn [quiet bind]. eauto.
  - destruct (plain_step x s (Move k j) P I L) as (y & R & Py). cbn [run_op] in R. rewrite R. cbn [quiet bind]. eauto.
  - destruct L as (Hkj & Lk & (t & Lj) & S). destruct (f_reset_ok x s k P Lk) as (y & R & Py). unfold f_assign. rewrite R. cbn [bind].
    destruct Lk as (t0 & Lk).
    assert (Ey : nth_error (o_followers (without k (Some None) s)) j = Some (Some t)).
    { rewrite without_followers. rewrite nth_error_upd_neq by auto. exact Lj. }
    assert (Ek : nth_error (o_followers (without k (Some None) s)) k = Some (Some None)).
    { rewrite without_followers. apply nth_error_upd_eq. apply nth_error_Some. congruence. }
    pose proof Py as ((d & (F & _)) & _). rewrite (get_f (ptrs y) _ j t F Ey). cbn [bind].
    rewrite (holds_nth s j t Lj) in *. destruct (take_ok y _ k _ t Py Ek ltac:(reflexivity) (without_share s k t0 t Lk S)) as (z & Rz & Pz).
    rewrite Rz. cbn [quiet bind]. eexists _, _. split; [reflexivity|]. split; [reflexivity|]. cbn [peffect]. rewrite (holds_nth s j t Lj). exact Pz.
  - destruct L as (Lk & Lb & S). destruct (f_reset_ok x s k P Lk) as (y & R & Py). unfold f_assign_ptr. rewrite R. cbn [bind].
    destruct Lk as (t0 & Lk). pose proof (without_from s k b Lb) as Fr. destruct Lb as (a & Lb).
    pose proof Py as ((d & I) & _). pose proof (get_b w _ _ b a I Lb) as G. change (get_block b (dd d (ptrs y))) with (get_block b (ptrs y)) in G. rewrite G. cbn [bind c_active].
    assert (Ek : nth_error (o_followers (without k (Some None) s)) k = Some (Some None)).
    { rewrite without_followers. apply nth_error_upd_eq. apply nth_error_Some. congruence. }
    assert (Ft : (if a then Some b else None) = from s b) by (rewrite <- Fr; unfold from; now rewrite (owns_a _ b a Lb)).
    rewrite Ft. destruct (take_ok y _ k _ _ Py Ek ltac:(reflexivity) (without_share s k t0 _ Lk S)) as (z & Rz & Pz).
    rewrite Rz. cbn [quiet bind]. eexists _, _. split; [reflexivity|]. split; [reflexivity|]. exact Pz.
  - destruct (f_reset_ok x s k P L) as (y & R & Py). rewrite R. cbn [quiet bind]. eauto.
  - destruct (f_destroy_ok x s k P L) as (y & R & Py). rewrite R. cbn [quiet bind]. eauto.
  - destruct (plain_step x s (Swap k j) P I L) as (y & R & Py). cbn [run_op] in R. rewrite R. cbn [quiet bind]. eauto.
Qed.
Lemma pstart_ok nf : exists x, pstart N nf = Ok x /\ pinv x (Owners (repeat None N) (repeat None nf)).
Proof.
  destruct (init1_starts (A := unit) N H0 H1) as (q & E). unfold pstart. rewrite E. cbn [bind]. eexists. split; [reflexivity|].
  split; [exists []; apply inv_start; exact Hw|]. split; [|reflexivity]. cbn [pool o_masters]. split; [apply repeat_length|].
  exists [], (seq 0 N). split; [now apply init1_inv|]. intros b. split; [intros []|]. intros (a & A). apply nth_error_In, repeat_spec in A. discriminate.
Qed.

(* ---------- kept = false can only fail ---------- *)
Definition below {A} (r r' : result A) : Prop := forall v, r = Ok v -> r' = Ok v.
Lemma below_bind {A B} (r r' : result A) (k k' : A -> result B) : below r r' -> (forall a, below (k a) (k' a)) -> below (bind r k) (bind r' k').
Proof. intros H K v. destruct r as [a| |]; cbn [bind]; try discriminate. rewrite (H a eq_refl). cbn [bind]. apply K. Qed.
Lemma below_refl {A} (r : result A) : below r r. Proof. exact (fun v E => E). Qed.
Lemma below_if {A} (c : bool) (r r' q q' : result A) : below r r' -> below q q' -> below (if c then r else q) (if c then r' else q').
Proof. now destruct c. Qed.
Lemma let_go_below b x : below (let_go w N false b x) (let_go w N true b x).
Proof.
  unfold let_go, prelease. apply below_bind; [apply below_refl|]. intros c. apply below_if; [|apply below_refl]. intros v. discriminate.
Qed.
Lemma pool_destroy_below b x : below (pool_destroy w N false b x) (pool_destroy w N true b x).
Proof.
  unfold pool_destroy. cbn [pdestroy]. apply below_bind; [apply below_refl|]. intros c. apply below_bind; [|intros y; apply below_refl].
  apply below_if; [|apply below_refl]. unfold prelease. apply below_bind; [apply below_refl|]. intros c'. apply below_if; [|apply below_refl]. intros v. discriminate.
Qed.
Lemma f_reset_below k x : below (f_reset w N false k x) (f_reset w N true k x).
Proof. unfold f_reset. apply below_bind; [apply below_refl|]. intros [b|]; [apply let_go_below|apply below_refl]. Qed.
Lemma prun_below p x : below (prun_op w N false p x) (prun_op w N true p x).
Proof.
  destruct p as [| |b|b|b|k b|k j|k j|k j|k b|k|k|k j]; cbn [prun_op]; try apply below_refl; (apply below_bind; [|intros y; apply below_refl]).
  - unfold ptr_reset. apply below_bind; [apply below_refl|]. intros c. apply below_if; [|apply below_refl]. apply below_bind; [apply below_refl|]. intros y. apply let_go_below.
  - apply pool_destroy_below.
  - unfold f_assign. apply below_bind; [apply f_reset_below|]. intros y. apply below_refl.
  - unfold f_assign_ptr. apply below_bind; [apply f_reset_below|]. intros y. apply below_refl.
  - apply f_reset_below.
  - unfold f_destroy. apply below_bind; [apply below_refl|]. intros t. apply below_bind; [|intros y; apply below_refl]. destruct t; [apply let_go_below|apply below_refl].
Qed.
Lemma pruns_inv kept nf tr s x : pruns w N kept nf tr s x -> pinv x s.
Proof.
  intros R. induction R as [x E|tr s x p r y R IH L E].
  - destruct (pstart_ok nf) as (x' & E' & P). rewrite E in E'. now injection E' as <-.
  - destruct (pstep_ok x s p IH L) as (y' & r' & E' & _ & P). destruct kept; [|apply prun_below in E]; rewrite E in E'; injection E' as <- <-; exact P.
Qed.

(* ---------- what can be seen ---------- *)
Lemma map_nth_seq {A} (l : list A) d : map (fun i => nth i l d) (seq 0 (length l)) = l.
Proof. induction l as [|a l IH]; [reflexivity|]. cbn [length seq map nth]. f_equal. rewrite <- seq_shift, map_map. exact IH. Qed.
Lemma filter_map_len {A B} (f : B -> bool) (g : A -> B) l : length (filter f (map g l)) = length (filter (fun a => f (g a)) l).
Proof. induction l as [|a l IH]; [reflexivity|]. cbn. destruct (f (g a)); cbn; now rewrite IH. Qed.
Lemma free_count x s : pinv x s -> count_free1 N (pool x) = Ok (Z.of_nat (free_blocks s)).
Proof.
  intros (_ & (L & l & fl & I & H) & _). rewrite (count1_ok N H0 H1 l (pool x) fl I). do 2 f_equal. unfold free_blocks.
  rewrite <- (map_nth_seq (o_masters s) None) at 1. rewrite filter_map_len. apply Permutation_length.
  pose proof (i1_parts _ _ _ _ I) as P. pose proof (parts_nodup _ _ _ P) as Nd.
  apply NoDup_Permutation.
  - clear -Nd. induction fl as [|c fl IH]; [constructor|]. cbn in Nd. inversion Nd; subst. constructor; [|auto]. intros K. apply H1, in_or_app. now left.
  - apply NoDup_filter, seq_NoDup.
  - intros b. rewrite filter_In, in_seq, L. cbn [Nat.add].
    assert (K : b < N -> In b fl \/ In b (blocks l)).
    { intros Lb. apply in_app_or. apply (Permutation_in b (Permutation_sym P)). apply in_seq. lia. }
    split.
    + intros J. assert (Lb : b < N) by (eapply parts_lt; [exact P|apply in_or_app; now left]). split; [lia|].
      destruct (nth b (o_masters s) None) as [a|] eqn:E; [|reflexivity]. exfalso.
      assert (E' : nth_error (o_masters s) b = Some (Some a)) by (rewrite (nth_error_nth' _ None) by lia; now rewrite E).
      assert (J2 : In b (blocks l)) by (apply H; eauto). destruct (parts_used _ _ _ _ P J2) as (_ & Q). contradiction.
    + intros (Lb & E). destruct (K ltac:(lia)) as [J|J]; [exact J|]. exfalso. apply H in J. destruct J as (a & J).
      rewrite (nth_error_nth _ _ None J) in E. discriminate.
Qed.
Lemma pshows x s : pinv x s ->
  w_followers (ptrs x) = o_followers s /\ map (option_map c_active) (w_blocks (ptrs x)) = o_masters s /\
  (forall k b, nth_error (o_followers s) k = Some (Some (Some b)) -> use k (ptrs x) = Ok b /\ use_count k (ptrs x) = Ok (Z.of_nat (owner_count s b)) /\ exists_m s b) /\
  (forall b a, nth_error (o_masters s) b = Some (Some a) -> master_use_count b (ptrs x) = Ok (if a then Z.of_nat (owner_count s b) else 0%Z)) /\
  count_free1 N (pool x) = Ok (Z.of_nat (free_blocks s)) /\ w_dead (ptrs x) = [].
Proof.
  intros P. pose proof P as ((d & I) & _ & D). pose proof (proj1 (inv_shows w _ _) I) as ((F & M & _) & _).
  split; [exact F|]. split; [exact M|]. split; [|split; [|split; [now apply free_count|exact D]]].
  - intros k b E. destruct (use_held w _ s k b I E) as (U & V). split; [exact U|]. split; [exact V|]. exact (held_master w _ s k b I E).
  - intros b a E. exact (master_counts w _ s b a I E).
Qed.
Lemma pget x s b a : pinv x s -> nth_error (o_masters s) b = Some (Some a) ->
  nth_error (w_blocks (ptrs x)) b = Some (Some (Block (Z.of_nat (owner_count s b)) a (Nat.ltb 0 (owner_count s b)))).
Proof. intros ((d & (_ & H & _)) & _) E. exact (cinv_block _ _ _ b a H E). Qed.

(* the last owner of b goes, and kept = false *)
Lemma let_go_ub b x c : nth_error (w_blocks (ptrs x)) b = Some (Some c) -> c_count c = 1%Z -> let_go w N false b x = UB.
Proof.
  intros E C. unfold let_go, prelease, get_block. rewrite E. cbn [bind]. rewrite C. unfold wrapu. change ((1 - 1) mod 2 ^ w)%Z with (0 mod 2 ^ w)%Z.
  rewrite Zmod_0_l. reflexivity.
Qed.
Lemma last_ptr_ub x s b : pinv x s -> master_owns s b = true -> owner_count s b = 1 -> prun_op w N false (PReset b) x = UB.
Proof.
  intros P O C. pose proof (pget x s b true P (owns_nth s b O)) as E. rewrite C in E. assert (Lb : b < length (w_blocks (ptrs x))) by (apply nth_error_Some; congruence).
  cbn [prun_op]. unfold ptr_reset, deactivate, get_block. rewrite E. cbn [bind c_active c_count c_alive on_ptrs].
  erewrite let_go_ub; [reflexivity| |]; [cbn [ptrs set_block w_blocks]; apply nth_error_upd_eq; exact Lb|reflexivity].
Qed.
Lemma last_follower_ub x s k b : pinv x s -> nth_error (o_followers s) k = Some (Some (Some b)) -> owner_count s b = 1 ->
  prun_op w N false (PFReset k) x = UB /\ prun_op w N false (PFDestroy k) x = UB.
Proof.
  intros P E C. pose proof P as ((d & I) & _). destruct (held_master w _ s k b I E) as (a & Ea). pose proof (pget x s b a P Ea) as G. rewrite C in G.
  cbn [prun_op]. unfold f_reset, f_destroy. rewrite (get_f (ptrs x) s k _ (proj1 I) E). cbn [bind].
  split; (erewrite let_go_ub; [reflexivity|exact G|reflexivity]).
Qed.

(* ---------- pool.destroy ---------- *)
Lemma live_block x s b a : pinv x s -> nth_error (o_masters s) b = Some (Some a) -> b < N /\ length (nexts (pool x)) = N.
Proof.
  intros (_ & (L & l & fl & I & H) & _) E. split; [rewrite <- L; apply nth_error_Some; congruence|]. apply (i1_n _ _ _ _ I).
Qed.
Definition looped (b : nat) (q : pool1 unit) : Prop := front q = Z.of_nat b /\ nth_error (nexts q) b = Some (Some (Z.of_nat b)).
Lemma looped_alloc b q : b < N -> looped b q -> allocate1 N q = Ok (q, Some b).
Proof.
  intros Lb (F & E). unfold allocate1, empty1. rewrite F. pose proof (below_eol N H0 H1 b Lb). destruct (Z.eqb_spec (Z.of_nat b) (eol N)); [lia|].
  unfold next1. destruct (Z.ltb_spec (Z.of_nat b) (Z.of_nat N)); [|lia]. rewrite Nat2Z.id. unfold rd. rewrite E. cbn [bind].
  do 2 f_equal. destruct q as [v0 n0 f0]. cbn in *. now rewrite F.
Qed.
Lemma looped_distance b q : b < N -> looped b q -> forall fuel c n, distance1 N fuel q (Z.of_nat b) c <> Ok n.
Proof.
  intros Lb (F & E). induction fuel as [|fuel IH]; intros c n; [discriminate|]. cbn [distance1].
  pose proof (below_eol N H0 H1 b Lb). destruct (Z.eqb_spec (Z.of_nat b) (eol N)); [lia|]. destruct (Z.eqb_spec c (2 ^ 31 - 1)); [discriminate|].
  unfold next1. destruct (Z.ltb_spec (Z.of_nat b) (Z.of_nat N)); [|lia]. rewrite Nat2Z.id. unfold rd. rewrite E. cbn [bind]. apply IH.
Qed.
Lemma wrap_minus : wrapu w (0 - 1) <> 0%Z.
Proof. unfold wrapu. intros E. pose proof (pow_big w Hw). rewrite <- (Z_mod_plus_full _ 1), Z.mod_small in E; lia. Qed.
Lemma construct_ok b x c : nth_error (w_blocks x) b = Some (Some c) -> c_alive c = false ->
  construct w b x = Ok (World (upd (w_blocks x) b (Some (Block (wrapu w (c_count c + 1)) true true))) (w_followers x) (w_made x ++ [b]) (w_dead x)).
Proof. intros E A. unfold construct, get_block. rewrite E. cbn [bind]. rewrite A. reflexivity. Qed.
Lemma make_at b q q' x : pool x = q -> allocate1 N q = Ok (q', Some b) -> b < length (w_blocks (ptrs x)) ->
  make_shared w N x = Ok (PWorld (World (upd (w_blocks (ptrs x)) b (Some (Block 1 true true))) (w_followers (ptrs x)) (w_made (ptrs x) ++ [b]) (w_dead (ptrs x))) q', b).
Proof.
  intros <- R Lb. unfold make_shared, pool_construct. rewrite R. cbn [bind]. unfold ptr_construct. cbn [ptrs].
  rewrite (construct_ok b _ (Block 0 false false)); [|cbn; apply nth_error_upd_eq; exact Lb|reflexivity].
  cbn [on_ptrs bind set_block w_blocks w_followers w_made w_dead c_count pool]. rewrite upd_twice. pose proof (pow_big w Hw). rewrite wrap_small by lia. reflexivity.
Qed.
Lemma destroy_sole x s b : pinv x s -> master_owns s b = true -> owner_count s b = 1 ->
  exists y, pool_destroy w N true b x = Ok y /\ looped b (pool y) /\ b < N /\ b < length (w_blocks (ptrs y)).
Proof.
  intros P O C. pose proof (owns_nth s b O) as E. pose proof (pget x s b true P E) as G. rewrite C in G.
  destruct (live_block x s b true P E) as (Lb & Ln). assert (Lx : b < length (w_blocks (ptrs x))) by (apply nth_error_Some; congruence).
  unfold pool_destroy. cbn [pdestroy]. unfold get_block. rewrite G. cbn [bind c_active]. unfold prelease at 1. unfold get_block. rewrite G. cbn [bind c_count c_active c_alive].
  change (Z.of_nat 1 - 1)%Z with 0%Z. change (wrapu w 0) with (0 mod 2 ^ w)%Z. rewrite Zmod_0_l. cbn [Z.eqb pdeleter].
  cbn [ptrs set_block w_blocks]. rewrite nth_error_upd_eq by exact Lx. cbn [bind c_active]. unfold prelease, get_block. cbn [ptrs set_block w_blocks w_followers w_made w_dead pool].
  rewrite nth_error_upd_eq by exact Lx. cbn [bind c_count c_active c_alive]. destruct (Z.eqb_spec (wrapu w (0 - 1)) 0) as [Z|_]; [now apply wrap_minus in Z|].
  cbn [bind]. unfold give_back, deallocate1. cbn [pool ptrs]. rewrite (push_ok N H0 H1) by assumption. cbn [bind pool ptrs].
  rewrite (push_ok N H0 H1) by (cbn [nexts]; rewrite ?upd_length; assumption). cbn [bind]. eexists. split; [reflexivity|].
  cbn [pool ptrs set_block w_blocks]. split; [|split; [exact Lb|rewrite !upd_length; exact Lx]].
  split; [reflexivity|]. cbn [nexts front]. apply nth_error_upd_eq. rewrite upd_length, Ln. exact Lb.
Qed.
Lemma destroy_shared x s k b : pinv x s -> master_owns s b = true -> nth_error (o_followers s) k = Some (Some (Some b)) ->
  exists y z, pool_destroy w N true b x = Ok y /\ use k (ptrs y) = UB /\
    make_shared w N y = Ok (z, b) /\ use k (ptrs z) = Ok b /\ use_count k (ptrs z) = Ok 1%Z.
Proof.
  intros P O Ek. pose proof (owns_nth s b O) as E. pose proof (pget x s b true P E) as G. destruct P as (P1 & Q & D). pose proof P1 as (d & (F & _ & B)).
  destruct (live_block x s b true (conj P1 (conj Q D)) E) as (Lb & Ln). assert (Lx : b < length (w_blocks (ptrs x))) by (apply nth_error_Some; congruence).
  assert (C2 : 2 <= owner_count s b) by (apply followers_ge in Ek; unfold owner_count; rewrite O; lia). specialize (B b).
  destruct (qinv_free _ _ _ _ Q E) as (q & Rq & Qq).
  destruct (qinv_alloc q _ Qq) as (q2 & b2 & R2 & _); [exists b; apply nth_error_upd_eq, nth_error_Some; congruence|].
  assert (b2 = b) as ->.
  { unfold deallocate1 in Rq. rewrite (push_ok N H0 H1) in Rq by assumption. injection Rq as <-. unfold allocate1, empty1 in R2. cbn [front] in R2.
    pose proof (below_eol N H0 H1 b Lb). destruct (Z.eqb_spec (Z.of_nat b) (eol N)); [lia|]. destruct (next1 _ _ _); cbn [bind] in R2; try discriminate.
    injection R2 as _ R2. rewrite Nat2Z.id in R2. congruence. }
  unfold pool_destroy. cbn [pdestroy]. unfold get_block. rewrite G. cbn [bind c_active]. unfold prelease, get_block. rewrite G. cbn [bind c_count c_active c_alive].
  rewrite wrap_small by lia. destruct (Z.eqb_spec (Z.of_nat (owner_count s b) - 1) 0); [lia|]. cbn [bind]. unfold give_back. cbn [pool ptrs]. rewrite Rq. cbn [bind].
  eexists _, _. split; [reflexivity|]. unfold use at 1. unfold get_follower. cbn [ptrs set_block w_followers]. cbn [dd w_followers] in F. rewrite F, Ek. cbn [bind].
  unfold get_block at 1. cbn [ptrs set_block w_blocks]. rewrite nth_error_upd_eq by (rewrite upd_length; exact Lx). split; [reflexivity|].
  split; [apply (make_at b q q2); [reflexivity|exact R2|cbn [ptrs set_block w_blocks]; rewrite !upd_length; exact Lx]|].
  unfold use, use_count, get_follower, get_block. cbn [ptrs set_block w_followers w_blocks]. rewrite F, Ek. cbn [bind].
  rewrite nth_error_upd_eq by (rewrite !upd_length; exact Lx). split; reflexivity.
Qed.

Lemma make_full x s : pinv x s -> (forall b, nth_error (o_masters s) b <> Some None) -> make_shared w N x = UB /\ pool_construct N x = UB.
Proof.
  intros (_ & (L & l & fl & I & H) & _) Z. assert (fl = []) as ->.
  { destruct fl as [|b t]; [reflexivity|]. exfalso. destruct (parts_alloc _ _ _ _ None (i1_parts _ _ _ _ I)) as (Lb & Nl & _).
    destruct (nth_error (o_masters s) b) as [[a|]|] eqn:E; [|now apply (Z b)|apply nth_error_None in E; lia]. apply Nl, H. eauto. }
  unfold make_shared, pool_construct. rewrite (alloc1_inv N H0 H1 l (pool x) [] I). auto.
Qed.
Lemma copy_then_drop x s k j b : pinv x s -> nth_error (o_followers s) j = Some (Some (Some b)) -> nth_error (o_followers s) k = Some None ->
  master_owns s b = false -> owner_count s b = 1 ->
  exists x1 y z, prun_op w N true (PCopy k j) x = Ok (x1, None) /\ prun_op w N true (PFDestroy j) x1 = Ok (y, None) /\
    get_follower k (ptrs y) = Ok (Some b) /\ use k (ptrs y) = UB /\
    make_shared w N y = Ok (z, b) /\ use k (ptrs z) = Ok b /\ use_count k (ptrs z) = Ok 1%Z.
Proof.
  intros P Ej Ek O C. pose proof P as ((d & I) & Q & _). pose proof I as (F & _ & _). cbn [dd w_followers] in F. destruct (held_master w _ s j b I Ej) as (a & Ea).
  rewrite (owns_a s b a Ea) in O. subst a. pose proof (pget x s b false P Ea) as G. rewrite C in G. cbn [Nat.ltb Nat.leb] in G.
  destruct (live_block x s b false P Ea) as (Lb & Ln). assert (Lx : b < length (w_blocks (ptrs x))) by (apply nth_error_Some; congruence).
  assert (Hkj : k <> j) by congruence. assert (Lk : k < length (o_followers s)) by (apply nth_error_Some; congruence).
  destruct (qinv_free _ _ _ _ Q Ea) as (q & Rq & Qq).
  destruct (qinv_alloc q _ Qq) as (q2 & b2 & R2 & _); [exists b; apply nth_error_upd_eq, nth_error_Some; congruence|].
  assert (b2 = b) as ->.
  { unfold deallocate1 in Rq. rewrite (push_ok N H0 H1) in Rq by assumption. injection Rq as <-. unfold allocate1, empty1 in R2. cbn [front] in R2.
    pose proof (below_eol N H0 H1 b Lb). destruct (Z.eqb_spec (Z.of_nat b) (eol N)); [lia|]. destruct (next1 _ _ _); cbn [bind] in R2; try discriminate.
    injection R2 as _ R2. rewrite Nat2Z.id in R2. congruence. }
  cbn [prun_op]. unfold copy. rewrite (get_f (ptrs x) s j _ F Ej). cbn [bind]. unfold new_follower. rewrite F, Ek. unfold acquire, get_block.
  cbn [set_follower w_blocks]. rewrite G. cbn [bind c_active on_ptrs quiet]. eexists _, _, _. split; [reflexivity|].
  unfold f_destroy, get_follower. cbn [ptrs set_follower w_followers]. rewrite nth_error_upd_neq by auto. rewrite F, Ej. cbn [bind].
  unfold let_go, prelease, get_block. cbn [ptrs set_follower w_blocks]. rewrite G. cbn [bind c_count c_active c_alive].
  change (Z.of_nat 1 - 1)%Z with 0%Z. change (wrapu w 0) with (0 mod 2 ^ w)%Z. rewrite Zmod_0_l. cbn [Z.eqb pdeleter pdestroy].
  unfold get_block. cbn [ptrs set_block set_follower w_blocks w_followers w_made w_dead]. rewrite nth_error_upd_eq by exact Lx. cbn [bind c_active].
  unfold give_back. cbn [pool ptrs]. rewrite Rq. cbn [bind ptrs pool quiet set_block set_follower w_blocks w_followers w_made w_dead]. split; [reflexivity|].
  assert (W : nth_error (upd (upd (w_followers (ptrs x)) k (Some (Some b))) j None) k = Some (Some (Some b))).
  { rewrite nth_error_upd_neq by auto. apply nth_error_upd_eq. rewrite F. exact Lk. }
  unfold use, use_count, get_follower, get_block. cbn [ptrs set_follower set_block w_followers w_blocks w_made w_dead]. rewrite W. cbn [bind]. split; [reflexivity|].
  rewrite nth_error_upd_eq by (rewrite upd_length; exact Lx). split; [reflexivity|].
  split; [apply (make_at b q q2); [reflexivity|exact R2|cbn [ptrs set_follower set_block w_blocks]; rewrite !upd_length; exact Lx]|].
  cbn [ptrs set_follower set_block w_followers w_blocks]. rewrite W. cbn [bind]. rewrite nth_error_upd_eq by (rewrite !upd_length; exact Lx). split; reflexivity.
Qed.
End P.
