From Verif Require Import Base BaseLemmas MachInt Sptr_Model Sptr_Spec.
Local Open Scope res_scope.

Definition h1 (t : option (option nat)) (b : nat) : nat :=
  match t with Some (Some c) => if Nat.eqb c b then 1 else 0 | _ => 0 end.
Lemma followers_cons t l b : followers_of b (t :: l) = h1 t b + followers_of b l.
Proof. now destruct t as [[c|]|]. Qed.
Lemma followers_upd l k y t b : nth_error l k = Some y ->
  followers_of b (upd l k t) + h1 y b = followers_of b l + h1 t b.
Proof.
  revert k; induction l as [|c r IH]; intros [|k] H; simpl in H; try discriminate.
  - injection H as ->. cbn [upd]. rewrite !followers_cons. lia.
  - cbn [upd]. rewrite !followers_cons. specialize (IH k H). lia.
Qed.
Lemma followers_ge l k b : nth_error l k = Some (Some (Some b)) -> 0 < followers_of b l.
Proof.
  revert k; induction l as [|c r IH]; intros [|k] H; simpl in H; try discriminate; rewrite followers_cons.
  - injection H as ->. cbn. rewrite Nat.eqb_refl. lia.
  - specialize (IH k H). lia.
Qed.

Definition cinv (x : world) (m : list (option bool)) (n : nat -> nat) : Prop := forall b,
  match nth_error (w_blocks x) b with
  | Some (Some c) => nth_error m b = Some (Some (c_active c)) /\ c_count c = Z.of_nat (n b) /\ c_alive c = Nat.ltb 0 (n b)
  | Some None => nth_error m b = Some None /\ n b = 0
  | None => nth_error m b = None /\ n b = 0
  end /\
  count_occ Nat.eq_dec (w_made x) b = count_occ Nat.eq_dec (w_dead x) b + (if Nat.ltb 0 (n b) then 1 else 0).

Lemma cinv_ext x m n n' : cinv x m n -> (forall b, n b = n' b) -> cinv x m n'.
Proof. intros H E b. specialize (H b). now rewrite <- E. Qed.
Lemma cinv_follower x m n k t : cinv x m n -> cinv (set_follower k t x) m n.
Proof. exact (fun H => H). Qed.
Lemma cinv_alive x m n b : cinv x m n -> alive x b = Nat.ltb 0 (n b).
Proof.
  intros H. specialize (H b). unfold alive. destruct (nth_error (w_blocks x) b) as [[c|]|]; destruct H as (H & _).
  - now destruct H as (_ & _ & ->).
  - now destruct H as (_ & ->).
  - now destruct H as (_ & ->).
Qed.
Lemma cinv_block x m n b a : cinv x m n -> nth_error m b = Some (Some a) ->
  nth_error (w_blocks x) b = Some (Some (Block (Z.of_nat (n b)) a (Nat.ltb 0 (n b)))).
Proof.
  intros H E. specialize (H b). destruct (nth_error (w_blocks x) b) as [[[c ac al]|]|]; destruct H as (H & _); cbn in H.
  - destruct H as (H1 & H2 & H3). do 2 f_equal. rewrite E in H1. injection H1 as <-. now subst.
  - destruct H. congruence.
  - destruct H. congruence.
Qed.

Lemma shows_cinv x s :
  shows x s <-> w_followers x = o_followers s /\ cinv x (o_masters s) (owner_count s).
Proof.
  split.
  - intros (F & M & C & A & X & D). split; [exact F|]. intros b. split.
    + pose proof (f_equal (fun l => nth_error l b) M) as Mb. cbn in Mb. rewrite nth_error_map in Mb.
      assert (N : ~ exists_m s b -> owner_count s b = 0).
      { intros Q. unfold owner_count. destruct (followers_of b (o_followers s)) eqn:E; [|exfalso; apply Q, X; lia].
        destruct (master_owns s b) eqn:E2; [|reflexivity]. exfalso. apply Q. unfold master_owns in E2.
        destruct (nth_error (o_masters s) b) as [[[|]|]|] eqn:E3; try discriminate. exists true. exact E3. }
      destruct (nth_error (w_blocks x) b) as [[c|]|] eqn:Eb; cbn in Mb.
      * split; [now symmetry|]. destruct (C b) as (c' & E1 & E2); [eexists; symmetry; exact Mb|].
        rewrite Eb in E1. injection E1 as <-. split; [exact E2|].
        specialize (A b). unfold alive in A. rewrite Eb in A.
        destruct (Nat.ltb_spec 0 (owner_count s b)) as [L|L]; [now apply A|].
        destruct (c_alive c); [|reflexivity]. exfalso. assert (0 < owner_count s b) by now apply A. lia.
      * split; [now symmetry|]. apply N. intros (a & Q). congruence.
      * split; [now symmetry|]. apply N. intros (a & Q). congruence.
    + rewrite D. f_equal. specialize (A b). destruct (alive x b).
      * assert (0 < owner_count s b) by now apply A. destruct (Nat.ltb_spec 0 (owner_count s b)); [reflexivity|lia].
      * destruct (Nat.ltb_spec 0 (owner_count s b)); [|reflexivity]. exfalso. assert (false = true) by now apply A. discriminate.
  - intros (F & H). split; [exact F|]. split; [|split; [|split; [|split]]].
    + apply nth_error_ext. intros b. rewrite nth_error_map. destruct (H b) as (H1 & _).
      destruct (nth_error (w_blocks x) b) as [[c|]|]; cbn; symmetry; apply H1.
    + intros b (a & E). exists (Block (Z.of_nat (owner_count s b)) a (Nat.ltb 0 (owner_count s b))).
      split; [|reflexivity]. exact (cinv_block x _ _ b a H E).
    + intros b. rewrite (cinv_alive x _ _ b H). apply Nat.ltb_lt.
    + intros b L. destruct (H b) as (H1 & _). unfold exists_m.
      destruct (nth_error (w_blocks x) b) as [[c|]|].
      * destruct H1 as (H1 & _). eauto.
      * destruct H1 as (_ & H1). unfold owner_count in H1. lia.
      * destruct H1 as (_ & H1). unfold owner_count in H1. lia.
    + intros b. destruct (H b) as (_ & H2). rewrite H2, (cinv_alive x _ _ b H). reflexivity.
Qed.

(* ---------- changes of one count ---------- *)
Definition inc (n : nat -> nat) (b c : nat) : nat := n c + (if Nat.eqb c b then 1 else 0).
Definition dec (n : nat -> nat) (b c : nat) : nat := n c - (if Nat.eqb c b then 1 else 0).

Section P.
Context (w : Z) (Hw : (1 <= w)%Z).

Lemma wrapu_id z : (0 <= z < 2 ^ w)%Z -> wrapu w z = z.
Proof. unfold wrapu. apply Z.mod_small. Qed.

Lemma release_run x m n b a :
  cinv x m n -> nth_error m b = Some (Some a) -> 0 < n b -> (Z.of_nat (n b) < 2 ^ w)%Z ->
  exists y, release w b x = Ok y /\ cinv y m (dec n b) /\ w_followers y = w_followers x.
Proof.
  intros H E L U. pose proof (cinv_block x m n b a H E) as Eb.
  assert (Lb : b < length (w_blocks x)) by (apply nth_error_Some; congruence).
  unfold release, get_block. rewrite Eb. cbn [bind c_count c_active c_alive].
  rewrite wrapu_id by lia.
  assert (Hoth : forall c, c <> b -> dec n b c = n c).
  { intros c Hc. unfold dec. destruct (Nat.eqb_spec c b); [contradiction|lia]. }
  assert (Hb : dec n b b = n b - 1) by (unfold dec; rewrite Nat.eqb_refl; reflexivity).
  destruct (Z.eqb_spec (Z.of_nat (n b) - 1) 0) as [Z0|Z0].
  - assert (N1 : n b = 1) by lia. unfold deleter, get_block, set_block. cbn [w_blocks].
    rewrite nth_error_upd_eq by exact Lb. cbn [bind c_alive c_count c_active]. rewrite N1. cbn [Nat.ltb Nat.leb].
    eexists. split; [reflexivity|]. split; [|reflexivity].
    intros c. cbn [w_blocks w_made w_dead]. destruct (Nat.eq_dec c b) as [->|Hc].
    + rewrite nth_error_upd_eq by (rewrite upd_length; exact Lb). rewrite Hb, N1. cbn.
      split; [repeat split; auto; lia|]. rewrite count_occ_app. cbn. destruct (Nat.eq_dec b b); [|congruence].
      destruct (H b) as (_ & D). rewrite N1 in D. cbn in D. lia.
    + rewrite !nth_error_upd_neq by auto. rewrite Hoth by exact Hc. rewrite count_occ_app. cbn.
      destruct (Nat.eq_dec b c); [congruence|]. rewrite Nat.add_0_r. apply (H c).
  - eexists. split; [reflexivity|]. split; [|reflexivity].
    intros c. cbn [set_block w_blocks w_made w_dead]. destruct (Nat.eq_dec c b) as [->|Hc].
    + rewrite nth_error_upd_eq by exact Lb. cbn [c_active c_count c_alive]. rewrite Hb.
      destruct (H b) as (_ & D). destruct (Nat.ltb_spec 0 (n b)); [|lia]. destruct (Nat.ltb_spec 0 (n b - 1)); [|lia].
      repeat split; auto; lia.
    + rewrite !nth_error_upd_neq by auto. rewrite Hoth by exact Hc. apply (H c).
Qed.

Lemma acquire_run x m n b :
  cinv x m n -> nth_error m b = Some (Some true) -> 0 < n b -> (Z.of_nat (n b) + 1 < 2 ^ w)%Z ->
  exists y, acquire w (Some b) x = Ok y /\ cinv y m (inc n b) /\ w_followers y = w_followers x.
Proof.
  intros H E L U. pose proof (cinv_block x m n b true H E) as Eb.
  assert (Lb : b < length (w_blocks x)) by (apply nth_error_Some; congruence).
  unfold acquire, get_block. rewrite Eb. cbn [bind c_active c_count c_alive]. rewrite wrapu_id by lia.
  eexists. split; [reflexivity|]. split; [|reflexivity].
  intros c. cbn [set_block w_blocks w_made w_dead]. unfold inc. destruct (Nat.eqb_spec c b) as [->|Hc].
  - rewrite nth_error_upd_eq by exact Lb. cbn [c_active c_count c_alive].
    destruct (H b) as (_ & D). destruct (Nat.ltb_spec 0 (n b)); [|lia]. destruct (Nat.ltb_spec 0 (n b + 1)); [|lia].
    repeat split; auto; lia.
  - rewrite !nth_error_upd_neq by auto. rewrite Nat.add_0_r. apply (H c).
Qed.

(* ---------- counting owners ---------- *)
Lemma owners_with_f s k y t b : nth_error (o_followers s) k = Some y ->
  owner_count (with_f s k t) b + h1 y b = owner_count s b + h1 t b.
Proof.
  intros E. unfold owner_count, with_f, master_owns. cbn [o_masters o_followers].
  pose proof (followers_upd (o_followers s) k y t b E). lia.
Qed.
Definition m1 (a : option bool) : nat := match a with Some true => 1 | _ => 0 end.
Lemma owners_with_m s c y a b : nth_error (o_masters s) c = Some y ->
  owner_count (with_m s c a) b = if Nat.eqb b c then m1 a + followers_of b (o_followers s) else owner_count s b.
Proof.
  intros E. assert (L : c < length (o_masters s)) by (apply nth_error_Some; congruence).
  unfold owner_count, with_m, master_owns. cbn [o_masters o_followers].
  destruct (Nat.eqb_spec b c) as [->|Hn].
  - rewrite nth_error_upd_eq by exact L. now destruct a as [[|]|].
  - rewrite nth_error_upd_neq by auto. reflexivity.
Qed.
Lemma holds_nth s k t : nth_error (o_followers s) k = Some (Some t) -> holds s k = t.
Proof. unfold holds. now intros ->. Qed.
Lemma owns_nth s b : master_owns s b = true -> nth_error (o_masters s) b = Some (Some true).
Proof. unfold master_owns. destruct (nth_error (o_masters s) b) as [[[|]|]|]; congruence. Qed.
Lemma owns_pos s b : master_owns s b = true -> 0 < owner_count s b.
Proof. unfold owner_count. intros ->. lia. Qed.

Definition bounded (s : owners) : Prop := forall b, (Z.of_nat (owner_count s b) < 2 ^ w)%Z.
Definition inv (x : world) (s : owners) : Prop :=
  w_followers x = o_followers s /\ cinv x (o_masters s) (owner_count s) /\ bounded s.

Lemma pow_big : (2 <= 2 ^ w)%Z.
Proof. change 2%Z with (2 ^ 1)%Z at 1. apply Z.pow_le_mono_r; lia. Qed.

(* the master of something held exists *)
Lemma held_master x s k b : inv x s -> nth_error (o_followers s) k = Some (Some (Some b)) ->
  exists a, nth_error (o_masters s) b = Some (Some a).
Proof.
  intros (_ & H & _) E. apply followers_ge in E. destruct (H b) as (H1 & _).
  destruct (nth_error (w_blocks x) b) as [[c|]|].
  - destruct H1 as (H1 & _). eauto.
  - destruct H1 as (_ & H1). unfold owner_count in H1. lia.
  - destruct H1 as (_ & H1). unfold owner_count in H1. lia.
Qed.

(* A follower lets go and takes value t without counting it. *)
Lemma drop_run x s k t0 :
  inv x s -> nth_error (o_followers s) k = Some (Some t0) ->
  exists y, follower_reset w k x = Ok y /\ inv y (with_f s k (Some None)).
Proof.
  intros I E. pose proof I as (F & H & B).
  assert (Lk : k < length (w_followers x)) by (rewrite F; apply nth_error_Some; congruence).
  unfold follower_reset, get_follower. rewrite F, E. cbn [bind].
  assert (Bd : bounded (with_f s k (Some None))).
  { intros b. pose proof (owners_with_f s k _ (Some None) b E) as Q. specialize (B b). cbn [h1] in Q. lia. }
  destruct t0 as [b|].
  - destruct (held_master x s k b I E) as (a & Ea).
    assert (P : 0 < owner_count s b) by (apply followers_ge in E; unfold owner_count; lia).
    destruct (release_run (set_follower k (Some None) x) _ _ b a (cinv_follower _ _ _ _ _ H) Ea P (B b)) as (y & R & C & Fy).
    exists y. split; [exact R|]. split; [|split; [|exact Bd]].
    + rewrite Fy. cbn. now rewrite F.
    + eapply cinv_ext; [exact C|]. intros c. unfold dec. pose proof (owners_with_f s k _ (Some None) c E) as Q.
      cbn [h1] in Q. rewrite (Nat.eqb_sym b c) in Q. lia.
  - exists x. split; [reflexivity|]. split; [|split; [|exact Bd]].
    + cbn. rewrite F. symmetry. now apply upd_same.
    + cbn [with_f o_masters]. eapply cinv_ext; [exact H|]. intros c.
      pose proof (owners_with_f s k _ (Some None) c E) as Q. cbn [h1] in Q. lia.
Qed.

(* A variable that counts for nothing takes t and counts it. *)
Lemma take_run x s k y0 t :
  inv x s -> nth_error (o_followers s) k = Some y0 -> (forall b, h1 y0 b = 0) -> can_share w s t ->
  exists y, acquire w t (set_follower k (Some t) x) = Ok y /\ inv y (with_f s k (Some t)).
Proof.
  intros (F & H & B) E Z0 S.
  assert (Q : forall b, owner_count (with_f s k (Some t)) b = owner_count s b + h1 (Some t) b).
  { intros b. pose proof (owners_with_f s k _ (Some t) b E). rewrite Z0 in H0. lia. }
  destruct t as [b|].
  - destruct S as (O & U). pose proof (owns_nth s b O) as Em. pose proof (owns_pos s b O) as P.
    destruct (acquire_run (set_follower k (Some (Some b)) x) _ _ b (cinv_follower _ _ _ _ _ H) Em P U) as (y & R & C & Fy).
    exists y. split; [exact R|]. split; [|split].
    + rewrite Fy. cbn. now rewrite F.
    + eapply cinv_ext; [exact C|]. intros c. rewrite Q. unfold inc. cbn [h1]. now rewrite (Nat.eqb_sym b c).
    + intros c. rewrite Q. cbn [h1]. destruct (Nat.eqb_spec b c) as [->|Hn]; [lia|]. specialize (B c). lia.
  - eexists. split; [reflexivity|]. split; [|split].
    + cbn. now rewrite F.
    + apply cinv_follower. eapply cinv_ext; [exact H|]. intros c. rewrite Q. cbn. lia.
    + intros c. rewrite Q. cbn. specialize (B c). lia.
Qed.

Lemma with_f_twice s k a b : with_f (with_f s k a) k b = with_f s k b.
Proof.
  unfold with_f. cbn. f_equal. generalize (o_followers s) as l. intros l. revert k.
  induction l as [|h t IH]; intros [|k]; cbn; auto. now rewrite IH.
Qed.
Lemma upd_len {A} (l : list A) k v : length (upd l k v) = length l.
Proof. revert k; induction l as [|h t IH]; intros [|k]; cbn; auto. Qed.

Lemma share_after_drop s k t0 t : nth_error (o_followers s) k = Some (Some t0) ->
  can_share w s t -> can_share w (with_f s k (Some None)) t.
Proof.
  intros E S. destruct t as [b|]; [|exact I]. destruct S as (O & U). split; [exact O|].
  pose proof (owners_with_f s k _ (Some None) b E) as Q. cbn [h1] in Q. lia.
Qed.

Lemma get_f x s k t : w_followers x = o_followers s -> nth_error (o_followers s) k = Some (Some t) ->
  get_follower k x = Ok t.
Proof. unfold get_follower. intros -> ->. reflexivity. Qed.
Lemma get_b x s b a : inv x s -> nth_error (o_masters s) b = Some (Some a) ->
  get_block b x = Ok (Block (Z.of_nat (owner_count s b)) a (Nat.ltb 0 (owner_count s b))).
Proof. intros (_ & H & _) E. unfold get_block. now rewrite (cinv_block x _ _ b a H E). Qed.
Lemma owns_a s b a : nth_error (o_masters s) b = Some (Some a) -> master_owns s b = a.
Proof. unfold master_owns. intros ->. now destruct a. Qed.

Lemma nth_upd_id {A} (l : list A) b v : nth_error l b = Some v -> upd l b v = l.
Proof. revert b; induction l as [|h t IH]; intros [|b] H; cbn in *; try congruence. f_equal. now apply IH. Qed.

Lemma upd_twice {A} (l : list A) b v u : upd (upd l b v) b u = upd l b u.
Proof. revert b; induction l as [|h t IH]; intros [|b]; cbn; auto. now rewrite IH. Qed.

Lemma step_run s x p :
  inv x s -> legal w s p -> exists y, run_op w p x = Ok y /\ inv y (effect s p).
Proof.
  intros I L. pose proof I as (F & H & B). pose proof pow_big as Pw.
  destruct p as [b|b|b|b|b|k b|k j|k j|k j|k b|k|k|k j]; cbn [run_op effect legal] in *.
  - (* Master2 *)
    destruct (H b) as (H1 & D). unfold master2.
    assert (Lm : b < length (o_masters s)) by (apply nth_error_Some; congruence).
    destruct (nth_error (w_blocks x) b) as [[c|]|] eqn:Eb; [destruct H1; congruence| |destruct H1; congruence].
    destruct H1 as (_ & N). assert (Lb : b < length (w_blocks x)) by (apply nth_error_Some; congruence).
    assert (N2 : followers_of b (o_followers s) = 0) by (unfold owner_count in N; lia).
    eexists. split; [reflexivity|]. split; [exact F|]. split.
    + intros c. cbn [set_block w_blocks w_made w_dead with_m o_masters]. change (upd (o_masters s) b (Some true)) with (o_masters (with_m s b (Some true))).
      rewrite (owners_with_m s b None (Some true) c L). rewrite count_occ_app. cbn [count_occ].
      destruct (Nat.eqb_spec c b) as [->|Hc].
      * cbn [with_m o_masters]. rewrite !nth_error_upd_eq by assumption. rewrite N2. cbn.
        destruct (Nat.eq_dec b b); [|congruence]. rewrite N in D. cbn in D. repeat split; lia.
      * cbn [with_m o_masters]. rewrite !nth_error_upd_neq by auto. destruct (Nat.eq_dec b c); [congruence|].
        rewrite Nat.add_0_r. apply (H c).
    + intros c. rewrite (owners_with_m s b None (Some true) c L). destruct (Nat.eqb_spec c b) as [->|Hc].
      * rewrite N2. cbn. lia.
      * apply B.
  - (* Master1 *)
    destruct (H b) as (H1 & D). unfold master1.
    assert (Lm : b < length (o_masters s)) by (apply nth_error_Some; congruence).
    destruct (nth_error (w_blocks x) b) as [[c|]|] eqn:Eb; [destruct H1; congruence| |destruct H1; congruence].
    destruct H1 as (_ & N). assert (Lb : b < length (w_blocks x)) by (apply nth_error_Some; congruence).
    assert (N2 : followers_of b (o_followers s) = 0) by (unfold owner_count in N; lia).
    eexists. split; [reflexivity|]. split; [exact F|]. split.
    + intros c. cbn [set_block w_blocks w_made w_dead with_m o_masters]. change (upd (o_masters s) b (Some false)) with (o_masters (with_m s b (Some false))).
      rewrite (owners_with_m s b None (Some false) c L).
      destruct (Nat.eqb_spec c b) as [->|Hc].
      * cbn [with_m o_masters]. rewrite !nth_error_upd_eq by assumption. rewrite N2. cbn.
        rewrite N in D. cbn in D. repeat split; lia.
      * cbn [with_m o_masters]. rewrite !nth_error_upd_neq by auto. apply (H c).
    + intros c. rewrite (owners_with_m s b None (Some false) c L). destruct (Nat.eqb_spec c b) as [->|Hc].
      * rewrite N2. cbn. lia.
      * apply B.
  - (* Construct *)
    destruct L as (L & N). pose proof (cinv_block x _ _ b false H L) as Eb.
    assert (Lm : b < length (o_masters s)) by (apply nth_error_Some; congruence).
    assert (Lb : b < length (w_blocks x)) by (apply nth_error_Some; congruence).
    assert (N2 : followers_of b (o_followers s) = 0) by (unfold owner_count in N; lia).
    unfold construct, get_block. rewrite Eb. cbn [bind c_alive c_count]. rewrite N. cbn [Nat.ltb Nat.leb Z.of_nat Z.add].
    rewrite wrapu_id by lia. eexists. split; [reflexivity|]. split; [exact F|]. split.
    + intros c. cbn [set_block w_blocks w_made w_dead with_m o_masters]. change (upd (o_masters s) b (Some true)) with (o_masters (with_m s b (Some true))).
      rewrite (owners_with_m s b _ (Some true) c L). rewrite count_occ_app. cbn [count_occ].
      destruct (Nat.eqb_spec c b) as [->|Hc].
      * cbn [with_m o_masters]. rewrite !nth_error_upd_eq by assumption. rewrite N2. cbn.
        destruct (Nat.eq_dec b b); [|congruence]. destruct (H b) as (_ & D). rewrite N in D. cbn in D. repeat split; lia.
      * cbn [with_m o_masters]. rewrite !nth_error_upd_neq by auto. destruct (Nat.eq_dec b c); [congruence|].
        rewrite Nat.add_0_r. apply (H c).
    + intros c. rewrite (owners_with_m s b _ (Some true) c L). destruct (Nat.eqb_spec c b) as [->|Hc].
      * rewrite N2. cbn. lia.
      * apply B.
  - (* MReset *)
    destruct L as (a & L). pose proof (get_b x s b a I L) as G.
    assert (Lm : b < length (o_masters s)) by (apply nth_error_Some; congruence).
    unfold master_reset. rewrite G. cbn [bind c_active]. destruct a.
    + unfold deactivate. rewrite G. cbn [bind c_count c_alive]. set (z := set_block b _ x).
      assert (P : 0 < owner_count s b) by (apply owns_pos, owns_a, L).
      assert (Hz : cinv z (upd (o_masters s) b (Some false)) (owner_count s)).
      { intros c. unfold z. cbn [set_block w_blocks w_made w_dead]. destruct (Nat.eq_dec c b) as [->|Hc].
        - pose proof (cinv_block x _ _ b true H L) as Eb.
          assert (Lb : b < length (w_blocks x)) by (apply nth_error_Some; congruence).
          rewrite !nth_error_upd_eq by assumption. cbn. split; [now repeat split|]. apply (H b).
        - rewrite !nth_error_upd_neq by auto. apply (H c). }
      destruct (release_run z _ _ b false Hz ltac:(apply nth_error_upd_eq; exact Lm) P (B b)) as (y & R & C & Fy).
      exists y. split; [exact R|]. split; [now rewrite Fy|].
      assert (Q : forall c, dec (owner_count s) b c = owner_count (with_m s b (Some false)) c).
      { intros c. rewrite (owners_with_m s b _ (Some false) c L). unfold dec. destruct (Nat.eqb_spec c b) as [->|Hc]; [|lia].
        unfold owner_count. rewrite (owns_a s b true L). cbn. lia. }
      split.
      * eapply cinv_ext; [exact C|exact Q].
      * intros c. rewrite <- Q. unfold dec. specialize (B c). lia.
    + exists x. split; [reflexivity|].
      assert (E : with_m s b (Some false) = s).
      { unfold with_m. rewrite (nth_upd_id _ _ _ L). now destruct s. }
      now rewrite E.
  - (* MDestroy *)
    destruct L as ((a & L) & N). pose proof (get_b x s b a I L) as G.
    assert (Lm : b < length (o_masters s)) by (apply nth_error_Some; congruence).
    unfold master_destroy. rewrite G. cbn [bind c_active].
    assert (X : exists y, (if a then release w b x else Ok x) = Ok y /\
       (exists n, cinv y (o_masters s) n /\ n b = 0 /\ forall c, c <> b -> n c = owner_count s c) /\ w_followers y = w_followers x).
    { destruct a.
      - assert (P : owner_count s b = 1) by (unfold owner_count; rewrite (owns_a s b true L), N; reflexivity).
        destruct (release_run x _ _ b true H L ltac:(lia) (B b)) as (y & R & C & Fy).
        exists y. split; [exact R|]. split; [|exact Fy]. exists (dec (owner_count s) b). split; [exact C|].
        unfold dec. rewrite Nat.eqb_refl. split; [lia|]. intros c Hc. destruct (Nat.eqb_spec c b); [contradiction|lia].
      - exists x. split; [reflexivity|]. split; [|reflexivity]. exists (owner_count s). split; [exact H|]. split; [|auto].
        unfold owner_count. rewrite (owns_a s b false L), N. reflexivity. }
    destruct X as (y & R & (n & C & N0 & Nc) & Fy). rewrite R. cbn [bind]. eexists. split; [reflexivity|].
    split; [cbn; rewrite Fy; exact F|].
    assert (Q : forall c, n c = owner_count (with_m s b None) c).
    { intros c. rewrite (owners_with_m s b _ None c L). destruct (Nat.eqb_spec c b) as [->|Hc]; [rewrite N0, N; reflexivity|auto]. }
    split.
    + intros c. cbn [set_block w_blocks w_made w_dead with_m o_masters]. rewrite <- Q.
      destruct (Nat.eq_dec c b) as [->|Hc].
      * pose proof (cinv_block y _ _ b a C L) as Eb.
        assert (Lb : b < length (w_blocks y)) by (apply nth_error_Some; congruence).
        rewrite !nth_error_upd_eq by assumption. split; [auto|]. apply (C b).
      * rewrite !nth_error_upd_neq by auto. apply (C c).
    + intros c. rewrite <- Q. destruct (Nat.eq_dec c b) as [->|Hc]; [lia|]. rewrite Nc by exact Hc. apply B.
  - (* FromMaster *)
    destruct L as (Lk & (a & L) & S). unfold from_master. rewrite (get_b x s b a I L). cbn [bind c_active].
    unfold new_follower. rewrite F, Lk. unfold from in *. rewrite (owns_a s b a L) in *.
    apply (take_run x s k None _ I Lk); [reflexivity|exact S].
  - (* Copy *)
    destruct L as (Lk & (t & Lj) & S). unfold copy. rewrite (get_f x s j t F Lj). cbn [bind].
    unfold new_follower. rewrite F, Lk. rewrite (holds_nth s j t Lj) in *.
    apply (take_run x s k None _ I Lk); [reflexivity|exact S].
  - (* Move *)
    destruct L as (Lk & (t & Lj)). unfold move. rewrite (get_f x s j t F Lj). cbn [bind]. rewrite F, Lk.
    rewrite (holds_nth s j t Lj). eexists. split; [reflexivity|].
    assert (Hkj : k <> j) by congruence.
    assert (E2 : nth_error (o_followers (with_f s k (Some t))) j = Some (Some t)).
    { cbn. rewrite nth_error_upd_neq by auto. exact Lj. }
    assert (Q : forall b, owner_count (with_f (with_f s k (Some t)) j (Some None)) b = owner_count s b).
    { intros b. pose proof (owners_with_f _ j _ (Some None) b E2). pose proof (owners_with_f s k _ (Some t) b Lk).
      cbn [h1] in *. lia. }
    split; [cbn; now rewrite F|]. split.
    + apply cinv_follower, cinv_follower. eapply cinv_ext; [exact H|]. intros b. now rewrite Q.
    + intros b. rewrite Q. apply B.
  - (* Assign *)
    destruct L as (Hkj & (t0 & Lk) & (t & Lj) & S). rewrite (holds_nth s j t Lj) in *.
    destruct (drop_run x s k t0 I Lk) as (y & R & Iy). unfold assign. rewrite R. cbn [bind].
    assert (Ey : nth_error (o_followers (with_f s k (Some None))) j = Some (Some t)).
    { cbn. rewrite nth_error_upd_neq by auto. exact Lj. }
    rewrite (get_f y _ j t (proj1 Iy) Ey). cbn [bind].
    assert (Ek : nth_error (o_followers (with_f s k (Some None))) k = Some (Some None)).
    { cbn. apply nth_error_upd_eq. apply nth_error_Some. congruence. }
    destruct (take_run y _ k _ t Iy Ek ltac:(reflexivity) (share_after_drop s k t0 t Lk S)) as (z & Rz & Iz).
    exists z. split; [exact Rz|]. now rewrite with_f_twice in Iz.
  - (* AssignMaster *)
    destruct L as ((t0 & Lk) & (a & L) & S).
    destruct (drop_run x s k t0 I Lk) as (y & R & Iy). unfold assign_master. rewrite R. cbn [bind].
    rewrite (get_b y (with_f s k (Some None)) b a Iy L). cbn [bind c_active].
    assert (Ek : nth_error (o_followers (with_f s k (Some None))) k = Some (Some None)).
    { cbn. apply nth_error_upd_eq. apply nth_error_Some. congruence. }
    unfold from in *. rewrite (owns_a s b a L) in *.
    destruct (take_run y _ k _ _ Iy Ek ltac:(reflexivity) (share_after_drop s k t0 _ Lk S)) as (z & Rz & Iz).
    exists z. split; [exact Rz|]. now rewrite with_f_twice in Iz.
  - (* Reset *)
    destruct L as (t0 & Lk). now apply (drop_run x s k t0).
  - (* Destroy *)
    destruct L as (t0 & Lk). unfold follower_destroy. rewrite (get_f x s k t0 F Lk). cbn [bind].
    assert (Bd : bounded (with_f s k None)).
    { intros b. pose proof (owners_with_f s k _ None b Lk) as Q. specialize (B b). cbn [h1] in Q. lia. }
    destruct t0 as [b|].
    + destruct (held_master x s k b I Lk) as (a & Ea).
      assert (P : 0 < owner_count s b) by (apply followers_ge in Lk; unfold owner_count; lia).
      destruct (release_run x _ _ b a H Ea P (B b)) as (y & R & C & Fy). rewrite R. cbn [bind].
      eexists. split; [reflexivity|]. split; [cbn; now rewrite Fy, F|]. split; [|exact Bd].
      apply cinv_follower. eapply cinv_ext; [exact C|]. intros c. unfold dec.
      pose proof (owners_with_f s k _ None c Lk) as Q. cbn [h1] in Q. rewrite (Nat.eqb_sym b c) in Q. lia.
    + eexists. split; [reflexivity|]. split; [cbn; now rewrite F|]. split; [|exact Bd].
      apply cinv_follower. eapply cinv_ext; [exact H|]. intros c.
      pose proof (owners_with_f s k _ None c Lk) as Q. cbn [h1] in Q. lia.
  - (* Swap *)
    destruct L as ((t & Lk) & (u & Lj)). unfold swap. rewrite (get_f x s k t F Lk), (get_f x s j u F Lj). cbn [bind].
    rewrite (holds_nth s k t Lk), (holds_nth s j u Lj). eexists. split; [reflexivity|].
    assert (Q : forall b, owner_count (with_f (with_f s k (Some u)) j (Some t)) b = owner_count s b).
    { intros b. destruct (Nat.eq_dec k j) as [->|Hkj].
      - rewrite with_f_twice. rewrite Lj in Lk. injection Lk as ->.
        pose proof (owners_with_f s j _ (Some t) b Lj). lia.
      - assert (E2 : nth_error (o_followers (with_f s k (Some u))) j = Some (Some u)).
        { cbn. rewrite nth_error_upd_neq by auto. exact Lj. }
        pose proof (owners_with_f _ j _ (Some t) b E2). pose proof (owners_with_f s k _ (Some u) b Lk). lia. }
    split; [cbn; now rewrite F|]. split.
    + apply cinv_follower, cinv_follower. eapply cinv_ext; [exact H|]. intros b. now rewrite Q.
    + intros b. rewrite Q. apply B.
Qed.
Lemma history_run s x ops : inv x s -> all_legal w s ops ->
  exists y, run_ops w ops x = Ok y /\ inv y (effects s ops).
Proof.
  revert s x; induction ops as [|p r IH]; intros s x I L.
  - exists x. auto.
  - destruct L as (L1 & L2). destruct (step_run s x p I L1) as (y & R & Iy).
    destruct (IH _ y Iy L2) as (z & Rz & Iz). exists z. cbn [run_ops effects]. rewrite R. auto.
Qed.
Lemma inv_start nb nf : inv (World (repeat None nb) (repeat None nf) [] []) (Owners (repeat None nb) (repeat None nf)).
Proof.
  assert (N : forall b, owner_count (Owners (repeat None nb) (repeat None nf)) b = 0).
  { intros b. unfold owner_count, master_owns. cbn [o_masters o_followers].
    assert (Q : followers_of b (repeat None nf) = 0) by (induction nf; cbn; auto). rewrite Q.
    destruct (nth_error (repeat None nb) b) eqn:E; [|reflexivity]. apply nth_error_In, repeat_spec in E. now subst. }
  split; [reflexivity|]. split.
  - intros b. rewrite N. cbn [w_blocks w_made w_dead o_masters]. split; [|reflexivity].
    destruct (Nat.lt_ge_cases b nb) as [L|L].
    + rewrite (nth_error_repeat None L), (nth_error_repeat None L). auto.
    + rewrite (proj2 (nth_error_None (repeat None nb) b)) by (rewrite repeat_length; lia).
      rewrite (proj2 (nth_error_None (repeat None nb) b)) by (rewrite repeat_length; lia). auto.
  - intros b. rewrite N. pose proof pow_big. lia.
Qed.
Lemma inv_shows x s : inv x s <-> shows x s /\ bounded s.
Proof. unfold inv. rewrite shows_cinv. tauto. Qed.
End P.

Lemma use_held w x s k b : inv w x s -> nth_error (o_followers s) k = Some (Some (Some b)) ->
  use k x = Ok b /\ use_count k x = Ok (Z.of_nat (owner_count s b)).
Proof.
  intros I E. pose proof I as (F & H & _). destruct (held_master w x s k b I E) as (a & Ea).
  assert (P : 0 < owner_count s b) by (apply followers_ge in E; unfold owner_count; lia).
  unfold use, use_count. rewrite (get_f x s k _ F E). cbn [bind].
  rewrite (get_b w x s b a I Ea). cbn [bind c_alive c_count].
  destruct (Nat.ltb_spec 0 (owner_count s b)); [auto|lia].
Qed.
Lemma use_null w x s k : inv w x s -> nth_error (o_followers s) k = Some (Some None) ->
  use k x = UB /\ use_count k x = Ok 0%Z.
Proof. intros (F & _) E. unfold use, use_count. rewrite (get_f x s k _ F E). auto. Qed.
Lemma master_counts w x s b a : inv w x s -> nth_error (o_masters s) b = Some (Some a) ->
  master_use_count b x = Ok (if a then Z.of_nat (owner_count s b) else 0%Z).
Proof. intros I E. unfold master_use_count. rewrite (get_b w x s b a I E). reflexivity. Qed.

(* ---------- self assignment ---------- *)
Lemma self_assign w x s k t : inv w x s -> (1 <= w)%Z -> nth_error (o_followers s) k = Some (Some t) ->
  exists y, assign w k k x = Ok y /\ inv w y (with_f s k (Some None)).
Proof.
  intros I Hw E. destruct (drop_run w Hw x s k t I E) as (y & R & Iy). unfold assign. rewrite R. cbn [bind].
  assert (Ek : nth_error (o_followers (with_f s k (Some None))) k = Some (Some None)).
  { cbn. apply nth_error_upd_eq. apply nth_error_Some. congruence. }
  rewrite (get_f y _ k None (proj1 Iy) Ek). cbn [bind acquire]. eexists. split; [reflexivity|].
  destruct Iy as (F & H & B). split; [|split; [exact H|exact B]].
  cbn [set_follower w_followers]. rewrite F. apply nth_upd_id. exact Ek.
Qed.

(* ---------- copying after the master let go ---------- *)
Lemma copy_orphan w x s k j b : inv w x s ->
  nth_error (o_followers s) j = Some (Some (Some b)) -> nth_error (o_followers s) k = Some None ->
  master_owns s b = false -> owner_count s b = 1 ->
  exists y, run_ops w [Copy k j; Destroy j] x = Ok y /\
    get_follower k y = Ok (Some b) /\ use k y = UB /\ w_dead y = w_dead x ++ [b].
Proof.
  intros I Ej Ek Mo N. pose proof I as (F & H & B). destruct (held_master w x s j b I Ej) as (a & Ea).
  rewrite (owns_a s b a Ea) in Mo. subst a. assert (Hkj : k <> j) by congruence.
  assert (Lb : b < length (w_blocks x)).
  { apply nth_error_Some. rewrite (cinv_block x _ _ b false H Ea). discriminate. }
  assert (Lk : k < length (w_followers x)) by (rewrite F; apply nth_error_Some; congruence).
  cbn [run_ops run_op]. unfold copy. rewrite (get_f x s j _ F Ej). cbn [bind]. unfold new_follower. rewrite F, Ek.
  pose proof (cinv_block x _ _ b false H Ea) as Eb. rewrite N in Eb. cbn in Eb.
  unfold acquire. unfold get_block at 1. cbn [set_follower w_blocks]. rewrite Eb. cbn [bind c_active].
  unfold follower_destroy, get_follower. cbn [set_follower w_followers]. rewrite nth_error_upd_neq by auto. rewrite F, Ej. cbn [bind].
  unfold release, get_block. cbn [set_follower w_blocks]. rewrite Eb. cbn [bind c_count c_active c_alive].
  unfold wrapu. change ((1 - 1) mod 2 ^ w)%Z with (0 mod 2 ^ w)%Z. rewrite Zmod_0_l. cbn [Z.eqb].
  unfold deleter, get_block, set_block. cbn [set_follower w_blocks w_followers w_made w_dead]. rewrite nth_error_upd_eq by exact Lb.
  cbn [bind c_alive c_count c_active]. eexists. split; [reflexivity|].
  unfold use, get_follower, get_block. cbn [set_follower w_followers w_blocks w_dead].
  assert (Q : nth_error (upd (upd (o_followers s) k (Some (Some b))) j None) k = Some (Some (Some b))).
  { rewrite nth_error_upd_neq by auto. apply nth_error_upd_eq. now rewrite F in Lk. }
  rewrite F, Q. cbn [bind]. rewrite nth_error_upd_eq by (rewrite upd_length; exact Lb). auto.
Qed.

(* ---------- the count wraps ---------- *)
Lemma upd_mid {A} n m (a b : A) : upd (repeat a n ++ repeat b (S m)) n a = repeat a (S n) ++ repeat b m.
Proof.
  induction n as [|n IH]; [reflexivity|].
  change (a :: upd (repeat a n ++ repeat b (S m)) n a = a :: (repeat a (S n) ++ repeat b m)). now rewrite IH.
Qed.
Lemma nth_mid {A} n m (a b : A) : nth_error (repeat a n ++ repeat b (S m)) n = Some b.
Proof. induction n as [|n IH]; [reflexivity|exact IH]. Qed.
Lemma wrap_adds w c n : wrapu w (wrapu w c + n) = wrapu w (c + n).
Proof. unfold wrapu. apply Zplus_mod_idemp_l. Qed.
Lemma fill_run w m : forall n, let g c := World [Some (Block (wrapu w c) true true)] in
  run_ops w (map (fun k => FromMaster k 0) (seq n m)) (g (1 + Z.of_nat n)%Z (repeat (Some (Some 0)) n ++ repeat None m) [0] [])
  = Ok (g (1 + Z.of_nat (n + m))%Z (repeat (Some (Some 0)) (n + m)) [0] []).
Proof.
  induction m as [|m IH]; intros n g.
  - cbn [seq map run_ops]. cbn [repeat]. now rewrite app_nil_r, Nat.add_0_r.
  - cbn [seq map run_ops run_op]. unfold g; clear g. unfold from_master, get_block. cbn [w_blocks nth_error bind c_active].
    unfold new_follower. cbn [w_followers]. rewrite nth_mid. unfold acquire, get_block, set_follower.
    cbn [w_blocks nth_error bind c_active c_count c_alive]. unfold set_block. cbn [w_blocks w_followers w_made w_dead upd].
    rewrite upd_mid, wrap_adds. specialize (IH (S n)). cbn zeta in IH.
    replace (1 + Z.of_nat n + 1)%Z with (1 + Z.of_nat (S n))%Z by lia.
    etransitivity; [exact IH|]. now rewrite <- Nat.add_succ_comm.
Qed.
Lemma repeat_nth {A} (a : A) n k : k < n -> nth_error (repeat a n) k = Some a.
Proof. revert k; induction n as [|n IH]; intros [|k] L; cbn; auto; try lia. apply IH. lia. Qed.
Lemma wraps (v : nat) : 0 < v ->
  let n := 2 ^ v in
  exists y, run_ops (Z.of_nat v) (Master2 0 :: map (fun k => FromMaster k 0) (seq 0 n) ++ [Destroy 0])
      (World [None] (repeat None n) [] []) = Ok y /\
    (forall k, 0 < k < n -> get_follower k y = Ok (Some 0) /\ use k y = UB) /\ w_dead y = [0].
Proof.
  intros Hv n. assert (Hn : 2 <= n).
  { unfold n. change 2 with (2 ^ 1) at 1. apply Nat.pow_le_mono_r; lia. }
  cbn [run_ops run_op]. unfold master2. cbn [w_blocks nth_error set_block upd bind w_followers w_made w_dead app].
  assert (RA : forall l1 l2 x, run_ops (Z.of_nat v) (l1 ++ l2) x = (y <- run_ops (Z.of_nat v) l1 x ;; run_ops (Z.of_nat v) l2 y)).
  { induction l1 as [|p l1 IH]; intros l2 x; [reflexivity|]. cbn [app run_ops].
    destruct (run_op (Z.of_nat v) p x); cbn [bind]; auto. }
  rewrite RA. pose proof (fill_run (Z.of_nat v) n 0) as Q. cbn zeta in Q. cbn [repeat app Nat.add] in Q.
  assert (P2 : (2 ^ Z.of_nat v)%Z = Z.of_nat n).
  { unfold n. rewrite Nat2Z.inj_pow. reflexivity. }
  assert (W1 : wrapu (Z.of_nat v) (1 + Z.of_nat 0) = 1%Z).
  { unfold wrapu. rewrite P2. apply Z.mod_small. lia. }
  rewrite W1 in Q. rewrite Q. cbn [bind].
  assert (W2 : wrapu (Z.of_nat v) (1 + Z.of_nat n) = 1%Z).
  { unfold wrapu. rewrite P2. rewrite <- (Z.mul_1_l (Z.of_nat n)) at 1. rewrite Z.mod_add by lia. apply Z.mod_small. lia. }
  rewrite W2. cbn [run_ops run_op]. unfold follower_destroy, get_follower. cbn [w_followers].
  rewrite (repeat_nth _ n 0) by lia. cbn [bind]. unfold release, get_block. cbn [w_blocks nth_error bind c_count c_active c_alive].
  unfold wrapu. change ((1 - 1) mod 2 ^ Z.of_nat v)%Z with (0 mod 2 ^ Z.of_nat v)%Z. rewrite Zmod_0_l.
  cbn -[n]. eexists. split; [reflexivity|]. split; [|reflexivity].
  intros k Hk. unfold use, get_follower. cbn [set_follower w_followers w_blocks].
  rewrite nth_error_upd_neq by lia. rewrite (repeat_nth _ n k) by lia. auto.
Qed.
