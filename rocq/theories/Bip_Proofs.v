(* Proofs about Bip_Model.v. *)
From Verif Require Import Base MachInt SliceLemmas Bip_Model Bip_Spec.
Local Open Scope Z_scope.

Section Proofs.
Context {B : Type}.
Implicit Type me : bip B.

Record Inv me : Prop := {
  inv_size : 0 <= bsize me < 2147483648;
  inv_mem : Z.of_nat (length (mem me)) = bsize me;
  inv_a : 0 <= a_start me <= a_end me;
  inv_ae : a_end me <= bsize me;
  inv_b : if b_inuse me
          then 0 <= b_end me <= a_start me /\ a_start me < a_end me /\ bsize me - a_end me < a_start me
          else b_end me = 0 /\ a_start me <= bsize me - a_end me /\
               (a_start me = a_end me -> a_start me = 0) }.

Lemma inv_init m : Z.of_nat (length m) < 2147483648 -> Inv (bip_init (Z.of_nat (length m)) m).
Proof. intros H. split; simpl; lia. Qed.

(* numeric meaning of the observers under Inv *)
Lemma unused_inv me : Inv me ->
  bip_unused me = if b_inuse me then a_start me - b_end me else bsize me - a_end me.
Proof.
  intros [H1 H2 H3 H4 H5]. unfold bip_unused. destruct (b_inuse me).
  - rewrite u32_id by lia. apply s32_id. lia.
  - rewrite u64_id by lia. apply s32_id. lia.
Qed.

Lemma used_inv me : Inv me -> bip_used me = (a_end me - a_start me) + b_end me.
Proof.
  intros [H1 H2 H3 H4 H5]. unfold bip_used.
  assert (0 <= b_end me <= a_start me) by (destruct (b_inuse me); lia).
  rewrite u32_id with (z := a_end me - a_start me) by lia.
  rewrite u32_id by lia. apply s32_id. lia.
Qed.

(* everything but the "gap" condition, before check_switch *)
Record Inv0 me : Prop := {
  inv0_size : 0 <= bsize me < 2147483648;
  inv0_mem : Z.of_nat (length (mem me)) = bsize me;
  inv0_a : 0 <= a_start me <= a_end me;
  inv0_ae : a_end me <= bsize me;
  inv0_b : if b_inuse me
          then 0 <= b_end me <= a_start me /\ a_start me < a_end me /\ bsize me - a_end me < a_start me
          else b_end me = 0 /\ (a_start me = a_end me -> a_start me = 0) }.

Lemma check_switch_inv me : Inv0 me ->
  Inv (check_switch me) /\ mem (check_switch me) = mem me /\
  a_start (check_switch me) = a_start me /\ a_end (check_switch me) = a_end me /\
  b_end (check_switch me) = b_end me /\ bsize (check_switch me) = bsize me.
Proof.
  intros [H1 H2 H3 H4 H5]. unfold check_switch.
  rewrite u64_id by lia.
  rewrite u32_id by (destruct (b_inuse me); lia).
  destruct (Z.ltb_spec (bsize me - a_end me) (a_start me - b_end me)) as [Hlt|Hge];
    (split; [split; simpl; auto|simpl; auto]).
  - destruct (b_inuse me) eqn:E; lia.
  - destruct (b_inuse me) eqn:E; lia.
Qed.

Lemma contents_slices me : Inv me ->
  contents me = sl (mem me) (Z.to_nat (a_start me)) (Z.to_nat (a_end me)) ++
                sl (mem me) 0 (Z.to_nat (b_end me)).
Proof.
  intros [H1 H2 H3 H4 H5]. unfold contents, slice, sl.
  f_equal.
  - f_equal. lia.
  - simpl. f_equal. lia.
Qed.

Lemma contents_same me me' :
  mem me' = mem me -> a_start me' = a_start me -> a_end me' = a_end me -> b_end me' = b_end me ->
  contents me' = contents me.
Proof. intros E1 E2 E3 E4. unfold contents. now rewrite E1, E2, E3, E4. Qed.

Lemma contents_length me : Inv me -> Z.of_nat (length (contents me)) = bip_used me.
Proof.
  intros HI. rewrite contents_slices, used_inv by auto. destruct HI as [H1 H2 H3 H4 H5].
  assert (0 <= b_end me <= a_start me) by (destruct (b_inuse me); lia).
  rewrite app_length, !sl_length by lia. lia.
Qed.

Lemma contents_nil me : Inv me -> (contents me = [] <-> bip_is_empty me = true).
Proof.
  intros HI. pose proof (contents_length me HI) as HL. rewrite used_inv in HL by auto.
  destruct HI as [H1 H2 H3 H4 H5]. unfold bip_is_empty. rewrite Z.eqb_eq. split.
  - intros E. rewrite E in HL. simpl in HL. destruct (b_inuse me); lia.
  - intros E. destruct (contents me); auto. simpl in HL. destruct (b_inuse me); lia.
Qed.

(* writing d at the offer position and closing with offer_end *)
Lemma offer_core me d :
  Inv me -> Z.of_nat (length d) <= bip_unused me ->
  exists m, mem_write (mem me) (bip_offer_begin me) d = Ok m /\
    let me1 := bip_offer_end (mkBip (bsize me) (a_start me) (a_end me) (b_end me) (b_inuse me) m)
                 (Z.of_nat (length d)) in
    Inv me1 /\ contents me1 = contents me ++ d /\ bsize me1 = bsize me /\
    (forall i, 0 <= i < bsize me -> nth_error m (Z.to_nat i) <> nth_error (mem me) (Z.to_nat i) ->
       bip_offer_begin me <= i < bip_offer_begin me + Z.of_nat (length d)).
Proof.
  intros HI Hd. rewrite unused_inv in Hd by auto. pose proof HI as [H1 H2 H3 H4 H5].
  assert (Hoff : 0 <= bip_offer_begin me /\
                 bip_offer_begin me + Z.of_nat (length d) <= bsize me).
  { unfold bip_offer_begin. destruct (b_inuse me); lia. }
  unfold mem_write.
  destruct (Z.leb_spec 0 (bip_offer_begin me)); [|lia].
  destruct (Z.leb_spec (bip_offer_begin me + Z.of_nat (length d)) (Z.of_nat (length (mem me)))); [|lia].
  cbn [andb]. eexists. split; [reflexivity|].
  set (e := Z.to_nat (bip_offer_begin me)).
  change (firstn e (mem me) ++ d ++ skipn (e + length d) (mem me)) with (overwrite (mem me) e d).
  set (m := overwrite (mem me) e d).
  assert (Hm : length m = length (mem me)) by (apply overwrite_length; lia).
  unfold bip_offer_end. cbn [b_inuse bsize a_start a_end b_end mem].
  set (me0 := if b_inuse me then _ else _).
  assert (HI0 : Inv0 me0).
  { unfold me0. unfold bip_offer_begin in Hoff. destruct (b_inuse me) eqn:Eb.
    - rewrite (u32_id (b_end me + _)) by lia. split; simpl; rewrite ?Hm; auto; lia.
    - rewrite (u32_id (a_end me + _)) by lia. split; simpl; rewrite ?Hm; auto; lia. }
  destruct (check_switch_inv me0 HI0) as (G1 & G2 & G3 & G4 & G5 & G6).
  split; [exact G1|]. split; [|split].
  - rewrite (contents_same me0 (check_switch me0)) by auto.
    rewrite (contents_slices me HI).
    unfold contents, slice.
    unfold me0, bip_offer_begin in *. destruct (b_inuse me) eqn:Eb; cbn [a_start a_end b_end mem].
    + rewrite (u32_id (b_end me + _)) by lia.
      change (firstn (Z.to_nat (a_end me - a_start me)) (skipn (Z.to_nat (a_start me)) m))
        with (firstn (Z.to_nat (a_end me - a_start me)) (skipn (Z.to_nat (a_start me)) m)).
      replace (firstn (Z.to_nat (a_end me - a_start me)) (skipn (Z.to_nat (a_start me)) m))
        with (sl m (Z.to_nat (a_start me)) (Z.to_nat (a_end me))) by (unfold sl; f_equal; lia).
      replace (firstn (Z.to_nat (b_end me + Z.of_nat (length d) - 0)) (skipn (Z.to_nat 0) m))
        with (sl m 0 (e + length d)) by (unfold sl; simpl; f_equal; unfold e; lia).
      unfold m. rewrite sl_overwrite_disjoint by (unfold e; lia).
      rewrite sl_overwrite_append by (unfold e; lia).
      rewrite app_assoc. reflexivity.
    + rewrite (u32_id (a_end me + _)) by lia.
      destruct H5 as (Hb0 & _). rewrite Hb0. simpl (Z.to_nat 0).
      replace (firstn (Z.to_nat (a_end me + Z.of_nat (length d) - a_start me))
                 (skipn (Z.to_nat (a_start me)) m))
        with (sl m (Z.to_nat (a_start me)) (e + length d)) by (unfold sl; f_equal; unfold e; lia).
      unfold m. rewrite sl_overwrite_append by (unfold e; lia).
      rewrite (sl_nil (mem me) 0 0) by lia. cbn [Z.sub Z.to_nat firstn]. rewrite !app_nil_r. reflexivity.
  - rewrite G6. unfold me0. destruct (b_inuse me); reflexivity.
  - intros i Hi Hne. unfold m in Hne. rewrite nth_error_overwrite in Hne by lia.
    destruct (Nat.ltb_spec (Z.to_nat i) e); [congruence|].
    destruct (Nat.ltb_spec (Z.to_nat i) (e + length d)); [|congruence].
    unfold e in *. lia.
Qed.

Lemma offer_spec me d size :
  Inv me -> 0 <= size <= Z.of_nat (length d) ->
  (bip_unused me < size /\ bip_offer me d size = Ok (me, 0)) \/
  (size <= bip_unused me /\ exists me1, bip_offer me d size = Ok (me1, size) /\
     Inv me1 /\ contents me1 = contents me ++ firstn (Z.to_nat size) d /\ bsize me1 = bsize me).
Proof.
  intros HI Hs. unfold bip_offer.
  destruct (Z.ltb_spec (bip_unused me) size) as [Hlt|Hge]; [left; auto|right].
  split; auto.
  destruct (Z.ltb_spec size 0); [lia|]. destruct (Z.ltb_spec (Z.of_nat (length d)) size); [lia|].
  cbn [orb].
  set (d' := firstn (Z.to_nat size) d).
  assert (Hd' : Z.of_nat (length d') = size) by (unfold d'; rewrite firstn_length; lia).
  destruct (offer_core me d' HI) as (m & -> & G); [lia|]. cbn [bind].
  rewrite Hd' in G. destruct G as (G1 & G2 & G3 & _). eauto 6.
Qed.

(* poll within the contiguous region *)
Lemma poll_spec me n :
  Inv me -> 0 <= n <= contiguous me -> 0 < contiguous me ->
  exists me', bip_poll me n = (me', Some (a_start me)) /\ Inv me' /\
    mem me' = mem me /\ bsize me' = bsize me /\
    contents me = sl (mem me) (Z.to_nat (a_start me)) (Z.to_nat (a_start me + n)) ++ contents me'.
Proof.
  intros HI Hn Hc. pose proof HI as [H1 H2 H3 H4 H5]. unfold contiguous in *.
  unfold bip_poll, bip_is_empty.
  destruct (Z.eqb_spec (a_start me) (a_end me)); [lia|].
  rewrite (u32_id n) by lia. rewrite u32_id by lia.
  destruct (Z.ltb_spec (bsize me) (a_start me + n)); [lia|].
  set (me1 := if a_start me + n =? a_end me then _ else _).
  assert (HI0 : Inv0 me1).
  { unfold me1. destruct (Z.eqb_spec (a_start me + n) (a_end me)); destruct (b_inuse me) eqn:Eb;
      split; simpl; rewrite ?Eb; auto; lia. }
  destruct (check_switch_inv me1 HI0) as (G1 & G2 & G3 & G4 & G5 & G6).
  exists (check_switch me1). split; [reflexivity|]. split; [exact G1|].
  assert (Hmem : mem me1 = mem me).
  { unfold me1. destruct (_ =? _); destruct (b_inuse me); reflexivity. }
  split; [now rewrite G2|]. split.
  { rewrite G6. unfold me1. destruct (_ =? _); destruct (b_inuse me); reflexivity. }
  rewrite (contents_same me1 (check_switch me1)) by auto.
  rewrite (contents_slices me HI).
  assert (E : contents me1 = sl (mem me) (Z.to_nat (a_start me + n)) (Z.to_nat (a_end me)) ++
                             sl (mem me) 0 (Z.to_nat (b_end me))).
  { unfold contents, slice, me1.
    destruct (Z.eqb_spec (a_start me + n) (a_end me)) as [Ee|Ee].
    - rewrite (sl_nil _ (Z.to_nat (a_start me + n))) by lia.
      destruct (b_inuse me) eqn:Eb; cbn [a_start a_end b_end mem]; simpl (Z.to_nat 0).
      + simpl. unfold sl. rewrite app_nil_r. simpl. f_equal. lia.
      + destruct H5 as (-> & _). reflexivity.
    - cbn [a_start a_end b_end mem]. unfold sl. f_equal; f_equal; try lia. }
  rewrite E, app_assoc. f_equal.
  apply sl_split; lia.
Qed.

Lemma poll_empty me n : bip_is_empty me = true -> bip_poll me n = (me, None).
Proof. unfold bip_poll. intros ->. reflexivity. Qed.

Lemma step_sim me o :
  Inv me -> entitled me o ->
  exists me' x, bip_step me o = Ok (me', x) /\ Inv me' /\ bsize me' = bsize me /\
    fifo_step (contents me) o x (contents me').
Proof.
  intros HI He. destruct o as [d|d|n]; cbn [entitled] in He.
  - cbn [bip_step].
    destruct (offer_spec me d (Z.of_nat (length d)) HI ltac:(lia))
      as [[Hlt E]|[Hle (me1 & E & G1 & G2 & G3)]]; rewrite E; cbn [bind fst snd].
    + exists me, (Took 0). repeat split; auto; try apply HI. constructor.
    + exists me1, (Took (Z.of_nat (length d))). split; auto. split; auto. split; auto.
      rewrite G2. replace (Z.to_nat (Z.of_nat (length d))) with (length d) by lia.
      rewrite firstn_all. destruct d as [|b d].
      * simpl. rewrite app_nil_r. constructor.
      * constructor. discriminate.
  - cbn [bip_step]. destruct (offer_core me d HI He) as (m & -> & G). cbn [bind].
    destruct G as (G1 & G2 & G3 & _). eexists _, _. split; [reflexivity|].
    split; [exact G1|]. split; [exact G3|]. rewrite G2. constructor.
  - cbn [bip_step]. destruct He as (Hn & Hor & Hb).
    destruct (bip_is_empty me) eqn:Ee.
    + rewrite (poll_empty me n Ee). exists me, Null. split; auto. split; auto. split; auto.
      apply contents_nil in Ee; auto. rewrite Ee. constructor.
    + assert (Hne : contents me <> []).
      { intros E. apply contents_nil in E; auto. congruence. }
      pose proof HI as [H1 H2 H3 H4 H5].
      assert (Hc : 0 < contiguous me).
      { unfold contiguous. unfold bip_is_empty in Ee. apply Z.eqb_neq in Ee. lia. }
      destruct Hor as [Hn2|]; [|contradiction].
      destruct (poll_spec me n HI ltac:(lia) Hc) as (me' & -> & G1 & G2 & G3 & G4).
      unfold contiguous in *.
      unfold bip_read. rewrite G2.
      destruct (Z.leb_spec 0 (a_start me)); [|lia]. destruct (Z.leb_spec 0 n); [|lia].
      destruct (Z.leb_spec (a_start me + n) (Z.of_nat (length (mem me)))); [|lia].
      cbn [andb bind]. eexists _, _. split; [reflexivity|]. split; auto. split; auto.
      rewrite G4 at 1.
      replace (sl (mem me) (Z.to_nat (a_start me)) (Z.to_nat (a_start me + n)))
        with (firstn (Z.to_nat n) (skipn (Z.to_nat (a_start me)) (mem me)))
        by (unfold sl; f_equal; lia).
      constructor. rewrite firstn_length, skipn_length. lia.
Qed.

Lemma run_inv me h me' : bip_run me h me' -> Inv me -> Inv me' /\ bsize me' = bsize me.
Proof.
  induction 1 as [me|me o x me1 h me2 He Hs Hr IH]; intros HI; [auto|].
  destruct (step_sim me o HI He) as (m1 & x1 & E & G1 & G2 & _).
  rewrite E in Hs. injection Hs as <- <-.
  destruct (IH G1) as [J1 J2]. split; auto. congruence.
Qed.

Lemma run_fifo me h me' : bip_run me h me' -> Inv me ->
  contents me ++ accepted h = delivered h ++ contents me'.
Proof.
  induction 1 as [me|me o x me1 h me2 He Hs Hr IH]; intros HI.
  - simpl. now rewrite app_nil_r.
  - destruct (step_sim me o HI He) as (m1 & x1 & E & G1 & G2 & G3).
    rewrite E in Hs. injection Hs as <- <-. specialize (IH G1).
    inversion G3; subst; cbn [accepted delivered].
    + destruct (Z.eqb_spec (Z.of_nat (length d)) 0) as [E0|E0].
      { destruct d; [congruence|simpl in E0; lia]. }
      rewrite <- IH. match goal with H : _ = contents m1 |- _ => rewrite <- H end.
      now rewrite app_assoc.
    + simpl. congruence.
    + rewrite <- IH. match goal with H : _ = contents m1 |- _ => rewrite <- H end.
      now rewrite app_assoc.
    + rewrite <- app_assoc. rewrite <- app_assoc. f_equal. exact IH.
    + match goal with H : [] = contents m1 |- _ => rewrite <- H in IH end. exact IH.
Qed.

(* ---------- statements ---------- *)

Lemma fifo_correct m h me :
  Z.of_nat (length m) < 2147483648 ->
  bip_run (bip_init (Z.of_nat (length m)) m) h me ->
  accepted h = delivered h ++ contents me.
Proof.
  intros Hm Hr. pose proof (run_fifo _ _ _ Hr (inv_init m Hm)) as H.
  rewrite <- H. reflexivity.
Qed.

Lemma reach_inv m h me :
  Z.of_nat (length m) < 2147483648 ->
  bip_run (bip_init (Z.of_nat (length m)) m) h me ->
  Inv me /\ bsize me = Z.of_nat (length m).
Proof. intros Hm Hr. apply (run_inv _ _ _ Hr (inv_init m Hm)). Qed.

Lemma fifo_step_correct m h me o :
  Z.of_nat (length m) < 2147483648 ->
  bip_run (bip_init (Z.of_nat (length m)) m) h me -> entitled me o ->
  exists me' x, bip_step me o = Ok (me', x) /\ fifo_step (contents me) o x (contents me').
Proof.
  intros Hm Hr He. destruct (reach_inv m h me Hm Hr) as [HI _].
  destruct (step_sim me o HI He) as (me' & x & E & _ & _ & G). eauto.
Qed.

Lemma accounting m h me :
  Z.of_nat (length m) < 2147483648 ->
  bip_run (bip_init (Z.of_nat (length m)) m) h me ->
  bip_used me = Z.of_nat (length (contents me)) /\
  0 <= bip_unused me /\ bip_used me + bip_unused me <= Z.of_nat (length m) /\
  (forall d, Z.of_nat (length d) < 2147483648 ->
     exists me' n, bip_offer me d (Z.of_nat (length d)) = Ok (me', n) /\
       (if Z.of_nat (length d) <=? bip_unused me
        then n = Z.of_nat (length d) /\ bip_used me' = bip_used me + n /\
             contents me' = contents me ++ d
        else n = 0 /\ me' = me)).
Proof.
  intros Hm Hr. destruct (reach_inv m h me Hm Hr) as [HI HS].
  pose proof (contents_length me HI) as HL.
  split; [auto|].
  split; [rewrite unused_inv by auto; destruct HI as [H1 H2 H3 H4 H5]; destruct (b_inuse me); lia|].
  split.
  { rewrite used_inv, unused_inv by auto. destruct HI as [H1 H2 H3 H4 H5].
    destruct (b_inuse me); lia. }
  intros d Hd.
  destruct (offer_spec me d (Z.of_nat (length d)) HI ltac:(lia))
    as [[Hlt E]|[Hle (me1 & E & G1 & G2 & G3)]].
  - exists me, 0. split; auto. destruct (Z.leb_spec (Z.of_nat (length d)) (bip_unused me)); [lia|auto].
  - exists me1, (Z.of_nat (length d)). split; auto.
    destruct (Z.leb_spec (Z.of_nat (length d)) (bip_unused me)); [|lia].
    replace (Z.to_nat (Z.of_nat (length d))) with (length d) in G2 by lia.
    rewrite firstn_all in G2. split; auto. split; auto.
    rewrite <- (contents_length me1), <- HL by auto. rewrite G2, app_length. lia.
Qed.

Lemma poll_accounting m h me n :
  Z.of_nat (length m) < 2147483648 ->
  bip_run (bip_init (Z.of_nat (length m)) m) h me -> 0 <= n <= contiguous me -> contents me <> [] ->
  exists me' d, bip_step me (Poll n) = Ok (me', Bytes d) /\ contents me = d ++ contents me' /\
    Z.of_nat (length d) = n /\ bip_used me' = bip_used me - n.
Proof.
  intros Hm Hr Hn NE. destruct (reach_inv m h me Hm Hr) as [HI HS].
  assert (He : entitled me (Poll n)).
  { cbn. split; [lia|]. split; [left; lia|].
    pose proof (contents_length me HI). pose proof (used_inv me HI). unfold contiguous in Hn.
    destruct HI as [H1 H2 H3 H4 H5]. destruct (b_inuse me); lia. }
  destruct (step_sim me (Poll n) HI He) as (me' & x & E & HI' & _ & G).
  inversion G as [| | |q d k L Q|k Q]; subst; [|congruence].
  exists me', d. split; [exact E|]. split; [congruence|]. split; [reflexivity|].
  rewrite <- (contents_length me'), <- (contents_length me) by auto.
  match goal with H : d ++ contents me' = contents me |- _ => rewrite <- H end. rewrite app_length. lia.
Qed.

Lemma drained_offer m h me d :
  Z.of_nat (length m) < 2147483648 ->
  bip_run (bip_init (Z.of_nat (length m)) m) h me -> delivered h = accepted h -> (length d <= length m)%nat ->
  exists me', bip_offer me d (Z.of_nat (length d)) = Ok (me', Z.of_nat (length d)) /\ contents me' = d.
Proof.
  intros Hm Hr Hd Hl. destruct (reach_inv m h me Hm Hr) as [HI HS].
  assert (NE : contents me = []).
  { pose proof (fifo_correct m h me Hm Hr) as F. rewrite Hd in F.
    rewrite <- (app_nil_r (accepted h)) in F at 1. now apply app_inv_head in F. }
  assert (U : bip_unused me = Z.of_nat (length m)).
  { apply (contents_nil me HI) in NE. pose proof (unused_inv me HI) as UE. unfold bip_is_empty in NE.
    pose proof HI as [H1 H2 H3 H4 H5]. revert NE. rewrite UE. destruct (b_inuse me); intros NE; lia. }
  destruct (accounting m h me Hm Hr) as (_ & _ & _ & A).
  destruct (A d ltac:(lia)) as (me' & n & E & C). rewrite U in C.
  destruct (Z.leb_spec (Z.of_nat (length d)) (Z.of_nat (length m))); [|lia].
  destruct C as (-> & _ & C). exists me'. rewrite C, NE. auto.
Qed.

Lemma larger_gap m h me :
  Z.of_nat (length m) < 2147483648 ->
  bip_run (bip_init (Z.of_nat (length m)) m) h me -> b_end me = 0 ->
  bip_unused me = Z.max (a_start me) (Z.of_nat (length m) - a_end me).
Proof.
  intros Hm Hr Hb. destruct (reach_inv m h me Hm Hr) as [HI HS].
  rewrite unused_inv by auto. destruct HI as [H1 H2 H3 H4 H5]. destruct (b_inuse me); lia.
Qed.

(* an accepted write touches only bytes that are neither outside nor unread *)
Lemma offer_frame m h me d me' n :
  Z.of_nat (length m) < 2147483648 ->
  bip_run (bip_init (Z.of_nat (length m)) m) h me ->
  bip_offer me d (Z.of_nat (length d)) = Ok (me', n) ->
  length (mem me') = length m /\
  forall i, nth_error (mem me') i <> nth_error (mem me) i ->
    0 <= Z.of_nat i < Z.of_nat (length m) /\
    ~ (a_start me <= Z.of_nat i < a_end me) /\ ~ (0 <= Z.of_nat i < b_end me).
Proof.
  intros Hm Hr E. destruct (reach_inv m h me Hm Hr) as [HI HS].
  pose proof HI as [H1 H2 H3 H4 H5].
  unfold bip_offer in E.
  destruct (Z.ltb_spec (bip_unused me) (Z.of_nat (length d))) as [Hlt|Hge].
  - injection E as <- <-. split; [lia|]. intros i Hi; congruence.
  - destruct (Z.ltb_spec (Z.of_nat (length d)) 0); [lia|].
    destruct (Z.ltb_spec (Z.of_nat (length d)) (Z.of_nat (length d))); [lia|].
    cbn [orb] in E.
    replace (firstn (Z.to_nat (Z.of_nat (length d))) d) with d in E
      by (rewrite Nat2Z.id; symmetry; apply firstn_all).
    destruct (offer_core me d HI Hge) as (m1 & Em & G).
    rewrite Em in E. cbn [bind] in E. injection E as <- <-.
    assert (Hmem : mem (bip_offer_end (mkBip (bsize me) (a_start me) (a_end me) (b_end me) (b_inuse me) m1)
                 (Z.of_nat (length d))) = m1).
    { unfold bip_offer_end, check_switch. cbn [b_inuse bsize a_start a_end b_end mem].
      destruct (b_inuse me); cbn [b_inuse bsize a_start a_end b_end mem]; destruct (_ <? _); reflexivity. }
    rewrite Hmem. destruct G as (G1 & G2 & G3 & G4).
    assert (Hl : Z.of_nat (length m1) = bsize me).
    { rewrite <- G3. rewrite <- Hmem at 1. apply (inv_mem _ G1). }
    split; [lia|]. intros i Hi.
    assert (Hilt : Z.of_nat i < bsize me).
    { destruct (Z.lt_ge_cases (Z.of_nat i) (bsize me)); auto. exfalso. apply Hi.
      rewrite (proj2 (nth_error_None m1 i)) by lia.
      rewrite (proj2 (nth_error_None (mem me) i)) by lia. reflexivity. }
    specialize (G4 (Z.of_nat i) ltac:(lia)). rewrite Nat2Z.id in G4. specialize (G4 Hi).
    rewrite unused_inv in Hge by auto. unfold bip_offer_begin in G4.
    destruct (b_inuse me); lia.
Qed.

Lemma drained m h me :
  Z.of_nat (length m) < 2147483648 ->
  bip_run (bip_init (Z.of_nat (length m)) m) h me ->
  (bip_is_empty me = true <-> delivered h = accepted h) /\
  (bip_is_empty me = true -> bip_used me = 0 /\ bip_unused me = Z.of_nat (length m)).
Proof.
  intros Hm Hr. destruct (reach_inv m h me Hm Hr) as [HI HS].
  pose proof (fifo_correct m h me Hm Hr) as F.
  split.
  - rewrite <- contents_nil by auto. rewrite F. split.
    + intros ->. now rewrite app_nil_r.
    + intros E. rewrite <- (app_nil_r (delivered h)) in E at 1. apply app_inv_head in E. auto.
  - intros E. rewrite used_inv, unused_inv by auto.
    unfold bip_is_empty in E. apply Z.eqb_eq in E.
    destruct HI as [H1 H2 H3 H4 H5]. destruct (b_inuse me); lia.
Qed.

(* ---------- message-passing client ---------- *)


Lemma app_inj_len {A} (a1 a2 b1 b2 : list A) :
  a1 ++ b1 = a2 ++ b2 -> length a1 = length a2 -> a1 = a2 /\ b1 = b2.
Proof.
  revert a2; induction a1 as [|x a1 IH]; intros [|y a2] H HL; simpl in *; try lia; auto.
  injection H as -> H. destruct (IH a2 H ltac:(lia)) as [-> ->]. auto.
Qed.

Definition regA me := sl (mem me) (Z.to_nat (a_start me)) (Z.to_nat (a_end me)).
Definition regB me := sl (mem me) 0 (Z.to_nat (b_end me)).

Lemma regA_length me : Inv me -> Z.of_nat (length (regA me)) = a_end me - a_start me.
Proof. intros [H1 H2 H3 H4 H5]. unfold regA. rewrite sl_length by lia. lia. Qed.

(* pending messages split between the regions *)
Definition MInv me (pend : list (list B)) : Prop :=
  Inv me /\ Forall (fun d => d <> []) pend /\
  exists qa qb, pend = qa ++ qb /\ concat qa = regA me /\ concat qb = regB me /\
    (b_inuse me = false -> qb = []).

Lemma offer_fields me d me1 :
  Inv me -> Z.of_nat (length d) <= bip_unused me ->
  bip_offer me d (Z.of_nat (length d)) = Ok (me1, Z.of_nat (length d)) ->
  if b_inuse me
  then a_start me1 = a_start me /\ a_end me1 = a_end me /\ b_inuse me1 = true
  else a_start me1 = a_start me /\ a_end me1 = a_end me + Z.of_nat (length d) /\ b_end me1 = 0.
Proof.
  intros HI Hle E. unfold bip_offer in E.
  destruct (Z.ltb_spec (bip_unused me) (Z.of_nat (length d))) as [|_]; [lia|].
  destruct (Z.ltb_spec (Z.of_nat (length d)) 0); [lia|].
  destruct (Z.ltb_spec (Z.of_nat (length d)) (Z.of_nat (length d))); [lia|].
  cbn [orb] in E.
  destruct (mem_write _ _ _) as [m| |]; cbn [bind] in E; try discriminate.
  injection E as <-. rewrite unused_inv in Hle by auto. destruct HI as [H1 H2 H3 H4 H5].
  unfold bip_offer_end, check_switch. cbn [b_inuse bsize a_start a_end b_end mem].
  destruct (b_inuse me); cbn [b_inuse bsize a_start a_end b_end mem]; destruct (_ <? _);
    cbn [b_inuse bsize a_start a_end b_end mem]; rewrite ?(u32_id (a_end me + _)) by lia; auto;
    destruct H5 as (-> & _); auto.
Qed.

Lemma send_minv me pend d :
  MInv me pend -> d <> [] -> Z.of_nat (length d) < 2147483648 ->
  exists me1 n, bip_step me (Offer d) = Ok (me1, Took n) /\
    ((n = Z.of_nat (length d) /\ Z.of_nat (length d) <= bip_unused me /\ MInv me1 (pend ++ [d])) \/
     (n = 0 /\ bip_unused me < Z.of_nat (length d) /\ me1 = me)).
Proof.
  intros (HI & HF & qa & qb & Hp & Ha & Hb & Hu) Hne Hd.
  cbn [bip_step].
  destruct (offer_spec me d (Z.of_nat (length d)) HI ltac:(lia))
    as [[Hlt E]|[Hle (me1 & E & G1 & G2 & G3)]]; rewrite E; cbn [bind fst snd].
  - exists me, 0. auto.
  - exists me1, (Z.of_nat (length d)). split; auto. left. split; auto. split; auto.
    rewrite Nat2Z.id, firstn_all in G2.
    pose proof (offer_fields me d me1 HI Hle E) as Hf.
    rewrite (contents_slices me HI), (contents_slices me1 G1) in G2.
    fold (regA me) (regB me) (regA me1) (regB me1) in G2.
    split; auto. split.
    { apply Forall_app; auto. }
    pose proof (regA_length me HI) as LA. pose proof (regA_length me1 G1) as LA1.
    destruct (b_inuse me) eqn:Eb.
    + destruct Hf as (F1 & F2 & F3). rewrite <- app_assoc in G2.
      apply app_inj_len in G2; [|lia]. destruct G2 as [GA GB].
      exists qa, (qb ++ [d]). rewrite Hp, app_assoc. split; auto. split; [congruence|].
      split; [|congruence]. rewrite concat_app. simpl. rewrite app_nil_r. congruence.
    + destruct Hf as (F1 & F2 & F3).
      assert (RB1 : regB me1 = []) by (unfold regB; rewrite F3; apply sl_nil; lia).
      assert (qb = []) by auto; subst qb. simpl in Hb. rewrite <- Hb, RB1, !app_nil_r in G2.
      exists (qa ++ [d]), []. rewrite Hp, !app_nil_r. split; auto. split; [|auto].
      rewrite concat_app. simpl. rewrite app_nil_r. congruence.
Qed.

Lemma poll_fields me n :
  Inv me -> 0 <= n <= contiguous me -> 0 < contiguous me ->
  let me' := fst (bip_poll me n) in
  if a_start me + n =? a_end me
  then a_start me' = 0 /\ a_end me' = b_end me /\ b_end me' = 0 /\ b_inuse me' = false
  else a_start me' = a_start me + n /\ a_end me' = a_end me /\ b_end me' = b_end me /\
       (b_inuse me' = false -> b_inuse me = false).
Proof.
  intros HI Hn Hc. pose proof HI as [H1 H2 H3 H4 H5]. unfold contiguous in *.
  unfold bip_poll, bip_is_empty.
  destruct (Z.eqb_spec (a_start me) (a_end me)); [lia|].
  rewrite (u32_id n) by lia. rewrite u32_id by lia.
  destruct (Z.ltb_spec (bsize me) (a_start me + n)); [lia|]. cbn [fst].
  destruct (Z.eqb_spec (a_start me + n) (a_end me)) as [E|E].
  - destruct (b_inuse me) eqn:Eb; unfold check_switch; cbn [b_inuse bsize a_start a_end b_end mem].
    + rewrite u64_id by lia. change (u32 (0 - 0)) with 0.
      destruct (Z.ltb_spec (bsize me - b_end me) 0); [lia|]. cbn [b_inuse a_start a_end b_end]. auto.
    + destruct H5 as (Hb0 & _). rewrite Hb0. rewrite u64_id by lia. change (u32 (0 - 0)) with 0.
      destruct (Z.ltb_spec (bsize me - 0) 0); [lia|]. cbn [b_inuse a_start a_end b_end]. auto.
  - unfold check_switch. cbn [b_inuse bsize a_start a_end b_end mem].
    destruct (_ <? _); cbn [b_inuse bsize a_start a_end b_end mem]; repeat split; auto; discriminate.
Qed.

Lemma recv_minv me d pend :
  MInv me (d :: pend) ->
  exists me1, bip_step me (Poll (Z.of_nat (length d))) = Ok (me1, Bytes d) /\ MInv me1 pend.
Proof.
  intros (HI & HF & qa & qb & Hp & Ha & Hb & Hu).
  inversion HF as [|? ? Hdne HF']; subst.
  pose proof (regA_length me HI) as LA.
  destruct qa as [|d0 qa].
  { exfalso. simpl in Hp, Ha. rewrite <- Ha in LA. simpl in LA.
    destruct HI as [H1 H2 H3 H4 H5]. destruct (b_inuse me); [lia|].
    rewrite Hu in Hp by auto. discriminate. }
  simpl in Hp. injection Hp as <- Hp. simpl in Ha.
  assert (Hdl : (0 < length d)%nat) by (destruct d; [congruence|simpl; lia]).
  assert (Hlen : Z.of_nat (length d) + Z.of_nat (length (concat qa)) = a_end me - a_start me).
  { rewrite <- LA, <- Ha, app_length. lia. }
  set (n := Z.of_nat (length d)) in *.
  assert (Hn : 0 <= n <= contiguous me) by (unfold contiguous; lia).
  assert (Hc : 0 < contiguous me) by (unfold contiguous; lia).
  destruct (poll_spec me n HI Hn Hc) as (me' & Ep & G1 & G2 & G3 & G4).
  pose proof (poll_fields me n HI Hn Hc) as Hf. rewrite Ep in Hf. cbn [fst] in Hf.
  pose proof HI as [H1 H2 H3 H4 H5].
  cbn [bip_step]. rewrite Ep. unfold bip_read. rewrite G2.
  destruct (Z.leb_spec 0 (a_start me)); [|lia]. destruct (Z.leb_spec 0 n); [|lia].
  destruct (Z.leb_spec (a_start me + n) (Z.of_nat (length (mem me)))); [|unfold contiguous in *; lia].
  cbn [andb bind].
  assert (Esl : sl (mem me) (Z.to_nat (a_start me)) (Z.to_nat (a_start me + n)) = d).
  { rewrite (contents_slices me HI) in G4. fold (regA me) in G4. rewrite <- Ha in G4.
    rewrite <- !app_assoc in G4. apply app_inj_len in G4; [symmetry; tauto|].
    rewrite sl_length by (unfold contiguous in *; lia). unfold n. lia. }
  replace (firstn (Z.to_nat n) (skipn (Z.to_nat (a_start me)) (mem me))) with d
    by (rewrite <- Esl at 1; unfold sl; f_equal; lia).
  exists me'. split; [reflexivity|]. split; auto. split; auto.
  rewrite Esl in G4. rewrite (contents_slices me HI), (contents_slices me' G1) in G4.
  fold (regA me) (regB me) (regA me') (regB me') in G4. rewrite <- Ha, <- app_assoc in G4.
  apply app_inv_head in G4.
  pose proof (regA_length me' G1) as LA'.
  destruct (Z.eqb_spec (a_start me + n) (a_end me)) as [E|E].
  - destruct Hf as (F1 & F2 & F3 & F4).
    assert (Hq : qa = []).
    { destruct qa as [|x qa]; auto. exfalso. simpl in Hlen. rewrite app_length in Hlen.
      assert (Hx : x <> []) by (rewrite Hp in HF'; now inversion HF').
      destruct x; [congruence|simpl in *; lia]. }
    subst qa. simpl in *. exists qb, []. rewrite app_nil_r.
    assert (RB : regB me' = []) by (unfold regB; rewrite F3; apply sl_nil; lia).
    rewrite RB, app_nil_r in G4. repeat split; auto. congruence.
  - destruct Hf as (F1 & F2 & F3 & F4).
    apply app_inj_len in G4; [|lia]. destruct G4 as [GA GB].
    exists qa, qb. repeat split; auto; congruence.
Qed.

Lemma msg_run_correct ops : forall me pend,
  MInv me pend -> Forall send_ok ops ->
  exists me' lens' recv acc pend',
    msg_run me (map (fun d => Z.of_nat (length d)) pend) ops = Ok (me', lens', recv, acc) /\
    MInv me' pend' /\ lens' = map (fun d => Z.of_nat (length d)) pend' /\
    pend ++ acc = recv ++ pend'.
Proof.
  induction ops as [|[d|] ops IH]; intros me pend HM HF.
  - exists me, (map (fun d => Z.of_nat (length d)) pend), [], [], pend. simpl. rewrite app_nil_r. auto.
  - inversion HF as [|? ? Hso HF']; subst. destruct Hso as [Hne Hd]. cbn [msg_run].
    destruct (send_minv me pend d HM Hne Hd) as (me1 & n & E & Hcase).
    rewrite E. cbn [bind fst snd].
    assert (Hdl : (0 < length d)%nat) by (destruct d; [congruence|simpl; lia]).
    destruct Hcase as [(-> & Hle & HM1)|(-> & Hlt & ->)].
    + rewrite Z.eqb_refl.
      destruct (IH me1 (pend ++ [d]) HM1 HF') as (me' & l' & recv & acc & pend' & R & G1 & G2 & G3).
      rewrite map_app in R. cbn [map] in R. rewrite R. cbn [bind].
      exists me', l', recv, (d :: acc), pend'. split; auto. split; auto. split; auto.
      rewrite <- app_assoc in G3. exact G3.
    + destruct (Z.eqb_spec 0 (Z.of_nat (length d))); [lia|].
      destruct (IH me pend HM HF') as (me' & l' & recv & acc & pend' & R & G1 & G2 & G3).
      rewrite R. cbn [bind]. exists me', l', recv, acc, pend'. auto.
  - inversion HF as [|? ? _ HF']; subst. cbn [msg_run].
    destruct pend as [|d pend]; cbn [map].
    + exact (IH me [] HM HF').
    + destruct (recv_minv me d pend HM) as (me1 & -> & HM1). cbn [bind fst snd].
      destruct (IH me1 pend HM1 HF') as (me' & l' & recv & acc & pend' & R & G1 & G2 & G3).
      rewrite R. cbn [bind]. exists me', l', (d :: recv), acc, pend'.
      split; auto. split; auto. split; auto. simpl. congruence.
Qed.

Lemma minv_init m : Z.of_nat (length m) < 2147483648 ->
  MInv (bip_init (Z.of_nat (length m)) m) [].
Proof.
  intros Hm. split; [now apply inv_init|]. split; [constructor|].
  exists [], []. unfold regA, regB. simpl. unfold sl. simpl. auto.
Qed.

Lemma message_fifo m ops :
  Z.of_nat (length m) < 2147483648 -> Forall send_ok ops ->
  exists me lens recv acc pend,
    msg_run (bip_init (Z.of_nat (length m)) m) [] ops = Ok (me, lens, recv, acc) /\
    acc = recv ++ pend /\ lens = map (fun d => Z.of_nat (length d)) pend /\
    contents me = concat pend.
Proof.
  intros Hm HF.
  destruct (msg_run_correct ops _ [] (minv_init m Hm) HF) as (me & l & recv & acc & pend & R & G1 & G2 & G3).
  exists me, l, recv, acc, pend. split; auto. split; auto. split; auto.
  destruct G1 as (HI & _ & qa & qb & -> & Ha & Hb & _).
  rewrite contents_slices, concat_app by auto. rewrite Ha, Hb. reflexivity.
Qed.

(* A poll the check does let through although it asks for more than is readable. *)
Lemma overpoll me n :
  Inv me -> 0 < contiguous me -> contiguous me < n -> a_start me + n <= bsize me ->
  exists me', bip_poll me n = (me', Some (a_start me)) /\ a_end me' < a_start me' /\
    bip_peek me n = Some (a_start me).
Proof.
  intros HI Hc Hn Hs. pose proof HI as [H1 H2 H3 H4 H5]. unfold contiguous in *.
  unfold bip_poll, bip_peek, bip_is_empty.
  destruct (Z.eqb_spec (a_start me) (a_end me)); [lia|].
  rewrite (u32_id n) by lia. rewrite (u32_id (a_start me + n)) by lia.
  destruct (Z.ltb_spec (bsize me) (a_start me + n)); [lia|].
  destruct (Z.eqb_spec (a_start me + n) (a_end me)); [lia|].
  eexists. split; [reflexivity|]. split; auto.
  unfold check_switch; cbn [b_inuse bsize a_start a_end b_end mem].
  destruct (_ <? _); cbn [a_start a_end]; lia.
Qed.


Lemma poll_refused m h me n :
  Z.of_nat (length m) < 2147483648 ->
  bip_run (bip_init (Z.of_nat (length m)) m) h me -> 0 <= n < 2147483648 ->
  (snd (bip_poll me n) = None <-> contents me = [] \/ Z.of_nat (length m) < a_start me + n) /\
  (snd (bip_poll me n) = None -> fst (bip_poll me n) = me) /\
  (bip_peek me n = snd (bip_poll me n)).
Proof.
  intros Hm Hr Hn. destruct (reach_inv m h me Hm Hr) as [HI HS].
  rewrite contents_nil by auto. pose proof HI as [H1 H2 H3 H4 H5].
  unfold bip_poll, bip_peek.
  rewrite (u32_id n) by lia. rewrite (u32_id (a_start me + n)) by lia. rewrite HS.
  destruct (bip_is_empty me) eqn:Ee; cbn [fst snd].
  - split; [tauto|]. split; auto. destruct (_ <? _); auto.
  - destruct (Z.ltb_spec (Z.of_nat (length m)) (a_start me + n)); cbn [fst snd].
    + tauto.
    + split; [|split; [discriminate|auto]]. split; [discriminate|]. intros [?|?]; [discriminate|lia].
Qed.

Lemma overpoll_reachable m h me n :
  Z.of_nat (length m) < 2147483648 ->
  bip_run (bip_init (Z.of_nat (length m)) m) h me ->
  0 < contiguous me < n -> a_start me + n <= Z.of_nat (length m) ->
  exists me', bip_poll me n = (me', Some (a_start me)) /\ a_end me' < a_start me' /\
    bip_peek me n = Some (a_start me).
Proof.
  intros Hm Hr Hc Hn. destruct (reach_inv m h me Hm Hr) as [HI HS].
  apply overpoll; auto; lia.
Qed.

End Proofs.
