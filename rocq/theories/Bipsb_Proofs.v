From Coq Require Import List ZArith Bool Lia.
From Verif Require Import Base BaseLemmas MachInt SliceLemmas Bip_Model Bip_Spec Bip_Proofs Streambuf_Model Bipsb_Model Bipsb_Spec.
Import ListNotations.
Local Open Scope Z_scope.
Local Open Scope res_scope.

Lemma used_bounds (me : bip Z) : Inv me -> 0 <= bip_used me <= bsize me /\ 0 <= bip_unused me <= bsize me.
Proof.
  intros HI. rewrite used_inv, unused_inv by exact HI. destruct HI as [H1 H2 H3 H4 H5]. destruct (b_inuse me); lia.
Qed.
Lemma to_char_id c : is_char c -> to_char_type c = c.
Proof.
  unfold is_char, to_char_type, wraps. intros H. change (2 ^ (8 - 1)) with 128. change (2 ^ 8) with 256.
  rewrite Z.mod_small; lia.
Qed.

(* ---------- reading one character ---------- *)
Lemma peek0 (me : bip Z) : Inv me -> contents me <> [] -> bip_peek me 0 = Some (a_start me).
Proof.
  intros HI Hc. pose proof HI as [H1 H2 H3 H4 H5]. unfold bip_peek.
  change (u32 0) with 0. rewrite Z.add_0_r, u32_id by lia. destruct (Z.ltb_spec (bsize me) (a_start me)); [lia|].
  destruct (bip_is_empty me) eqn:E; [|reflexivity]. exfalso. apply Hc. now apply contents_nil.
Qed.
Lemma contig_pos (me : bip Z) : Inv me -> contents me <> [] -> 0 < contiguous me.
Proof.
  intros HI Hc. unfold contiguous. pose proof HI as [H1 H2 H3 H4 H5].
  destruct (Z.eq_dec (a_start me) (a_end me)) as [E|E]; [|lia]. exfalso. apply Hc. apply contents_nil; [exact HI|].
  unfold bip_is_empty. now apply Z.eqb_eq.
Qed.
Lemma head_at (me : bip Z) c r : Inv me -> contents me = c :: r -> nth_error (mem me) (Z.to_nat (a_start me)) = Some c.
Proof.
  intros HI E. assert (Hc : contents me <> []) by congruence. pose proof (contig_pos me HI Hc) as P. unfold contiguous in P.
  rewrite contents_slices in E by exact HI. pose proof HI as [H1 H2 H3 H4 H5].
  pose proof (f_equal (fun l => nth_error l 0) E) as Q. cbn beta in Q. change (nth_error (c :: r) 0) with (Some c) in Q.
  rewrite nth_error_app1 in Q by (rewrite sl_length by lia; lia).
  rewrite nth_error_sl in Q. destruct (Nat.ltb_spec 0 (Z.to_nat (a_end me) - Z.to_nat (a_start me))); [|lia].
  now rewrite Nat.add_0_r in Q.
Qed.
Lemma poll1 (me : bip Z) c r : Inv me -> contents me = c :: r ->
  exists me', fst (bip_poll me 1) = me' /\ Inv me' /\ contents me' = r /\ bsize me' = bsize me.
Proof.
  intros HI E. assert (Hc : contents me <> []) by congruence. pose proof (contig_pos me HI Hc) as P.
  destruct (poll_spec me 1 HI) as (me' & Ep & I' & M & S & C); try lia.
  exists me'. rewrite Ep. split; [reflexivity|]. split; [exact I'|]. split; [|exact S].
  rewrite C in E. pose proof HI as [H1 H2 H3 H4 H5]. unfold contiguous in P.
  assert (L : length (sl (mem me) (Z.to_nat (a_start me)) (Z.to_nat (a_start me + 1))) = 1%nat) by (rewrite sl_length by lia; lia).
  destruct (sl (mem me) _ _) as [|x [|y t]]; cbn in L; try lia. cbn in E. now injection E.
Qed.

Section In.
Context (give : nat -> nat) (tr : traits).

Lemma i_avail_len b : Inv (i_bip b) -> i_avail b = Z.of_nat (length (contents (i_bip b))).
Proof.
  intros HI. unfold i_avail. pose proof (used_bounds _ HI) as (U & _). pose proof (inv_size _ HI).
  rewrite u32_id by lia. rewrite s32_id by lia. symmetry. now apply contents_length.
Qed.

Lemma i_sync_run b : Inv (i_bip b) ->
  exists a b', i_sync give b = Ok (a, b') /\ Inv (i_bip b') /\ bsize (i_bip b') = bsize (i_bip b) /\ unread b' = unread b /\
    (a = 0 /\ contents (i_bip b') <> [] \/
     a = -1 /\ contents (i_bip b') = contents (i_bip b) /\ i_rest b' = i_rest b /\
       (bip_unused (i_bip b) = 0 \/ i_rest b' = [] \/ i_calls b' = S (i_calls b) /\ give (i_calls b) = O)).
Proof.
  intros HI. pose proof (used_bounds _ HI) as (_ & U). pose proof (inv_size _ HI) as Sz. unfold i_sync.
  rewrite u32_id by lia. destruct (Z.eqb_spec (bip_unused (i_bip b)) 0) as [E|E].
  - exists (-1), b. split; [reflexivity|]. split; [exact HI|]. split; [reflexivity|]. split; [reflexivity|].
    right. split; [reflexivity|]. split; [reflexivity|]. split; [reflexivity|]. now left.
  - set (n := Nat.min (Nat.min _ _) _). set (d := firstn n (i_rest b)).
    assert (Ld : length d = n) by (unfold d; rewrite firstn_length; unfold n; lia).
    destruct (offer_core (i_bip b) d HI) as (m & -> & I1 & C1 & B1 & _); [unfold n in Ld; lia|]. cbn [bind].
    destruct (Nat.eqb_spec n 0) as [N|N].
    + assert (Dn : d = []) by (destruct d; cbn in Ld; [reflexivity|lia]).
      assert (Cm : contents (mkBip (bsize (i_bip b)) (a_start (i_bip b)) (a_end (i_bip b)) (b_end (i_bip b)) (b_inuse (i_bip b)) m) = contents (i_bip b) /\
                   Inv (mkBip (bsize (i_bip b)) (a_start (i_bip b)) (a_end (i_bip b)) (b_end (i_bip b)) (b_inuse (i_bip b)) m)).
      { rewrite Dn in *. clear - HI I1 C1 Ld. cbn [length Z.of_nat] in *. rewrite app_nil_r in C1.
        unfold bip_offer_end in *. cbn [b_inuse bsize a_start a_end b_end mem] in *.
        pose proof HI as [H1 H2 H3 H4 H5].
        assert (K : forall me0, me0 = mkBip (bsize (i_bip b)) (a_start (i_bip b)) (a_end (i_bip b)) (b_end (i_bip b)) (b_inuse (i_bip b)) m ->
                    Inv (check_switch me0) -> contents (check_switch me0) = contents (i_bip b) -> contents me0 = contents (i_bip b) /\ Inv me0).
        { intros me0 -> J1 J2. split.
          - rewrite <- J2. unfold check_switch. cbn [bsize a_start a_end b_end mem]. destruct (_ <? _); reflexivity.
          - constructor; cbn [bsize a_start a_end b_end b_inuse mem]; auto.
            pose proof (inv_mem _ J1) as Q. revert Q. unfold check_switch. cbn [bsize a_start a_end b_end mem].
            destruct (_ <? _); exact (fun q => q). }
        destruct (b_inuse (i_bip b)) eqn:Eb.
        - rewrite Z.add_0_r, u32_id in I1, C1 by lia. now apply K.
        - rewrite Z.add_0_r, u32_id in I1, C1 by lia. now apply K. }
      destruct Cm as (Cm & Im). do 2 eexists. split; [reflexivity|]. cbn [i_bip i_rest i_calls].
      split; [exact Im|]. split; [reflexivity|]. split; [unfold unread; cbn [i_bip i_rest]; now rewrite Cm|].
      right. split; [reflexivity|]. split; [exact Cm|]. split; [reflexivity|]. right.
      destruct (i_rest b) as [|x t]; [now left|]. right. split; [reflexivity|]. unfold n in N. cbn [length] in N. lia.
    + do 2 eexists. split; [reflexivity|]. cbn [i_bip i_rest i_calls]. rewrite Ld in I1, C1, B1.
      split; [exact I1|]. split; [exact B1|]. split.
      * unfold unread. cbn [i_bip i_rest]. rewrite C1, <- app_assoc. f_equal. apply firstn_skipn.
      * left. split; [reflexivity|]. rewrite C1. intros Q. apply app_eq_nil in Q as (_ & Q). rewrite Q in Ld. cbn in Ld. lia.
Qed.

Lemma i_xsgetc_run b c r : Inv (i_bip b) -> contents (i_bip b) = c :: r -> i_xsgetc b = Ok c.
Proof.
  intros HI E. unfold i_xsgetc. rewrite (peek0 _ HI) by congruence. unfold rd. now rewrite (head_at _ _ _ HI E).
Qed.

Definition good (cap : Z) (b : ib) : Prop := Inv (i_bip b) /\ bsize (i_bip b) = cap /\ 0 < cap.

Lemma empty_unused (me : bip Z) : Inv me -> contents me = [] -> bip_unused me = bsize me.
Proof.
  intros HI E. apply (contents_nil me HI) in E. unfold bip_is_empty in E. apply Z.eqb_eq in E.
  rewrite unused_inv by exact HI. destruct HI as [H1 H2 H3 H4 H5]. destruct (b_inuse me); lia.
Qed.

(* underflow, for any characters *)
Lemma i_underflow_run cap b : good cap b ->
  exists a b', i_underflow give b = Ok (a, b') /\ good cap b' /\ unread b' = unread b /\
    ((exists r, contents (i_bip b') = a :: r) \/ a = -1 /\ dry give b').
Proof.
  intros (HI & HS & HC). unfold i_underflow. rewrite (i_avail_len b HI).
  destruct (contents (i_bip b)) as [|c r] eqn:E; cbn [length].
  - cbn [Z.of_nat Z.eqb]. destruct (i_sync_run b HI) as (a & b' & R & I' & S' & U' & [(A & C)|(A & C & Rs & D)]); rewrite R; cbn [bind fst snd].
    + subst a. cbn [Z.eqb]. destruct (contents (i_bip b')) as [|x t] eqn:Ec; [contradiction|].
      rewrite (i_xsgetc_run b' x t I' Ec). cbn [bind]. exists x, b'. split; [reflexivity|].
      split; [split; [exact I'|]; split; [congruence|exact HC]|]. split; [exact U'|]. left. now exists t.
    + subst a. rewrite Z.eqb_refl. exists (-1), b'. split; [reflexivity|].
      split; [split; [exact I'|]; split; [congruence|exact HC]|]. split; [exact U'|]. right. split; [reflexivity|].
      split; [congruence|]. destruct D as [D|[D|(D1 & D2)]].
      * rewrite (empty_unused _ HI E) in D. lia.
      * now left.
      * right. exists (i_calls b). auto.
  - destruct (Z.eqb_spec (Z.of_nat (S (length r))) 0); [lia|]. rewrite (i_xsgetc_run b c r HI E). cbn [bind].
    exists c, b. split; [reflexivity|]. split; [now split|]. split; [reflexivity|]. left. now exists r.
Qed.

Lemma to_int_ascii c : ascii c -> to_int tr c = c.
Proof. unfold ascii, to_int. intros H. destruct tr; [apply Z.mod_small; lia|reflexivity]. Qed.

Lemma head_unread b a r : contents (i_bip b) = a :: r -> exists t, unread b = a :: t.
Proof. intros E. exists (r ++ i_rest b). unfold unread. now rewrite E. Qed.

Lemma i_sgetc_run cap b : good cap b -> Forall ascii (unread b) ->
  exists a b', i_sgetc give tr b = Ok (a, b') /\ good cap b' /\ unread b' = unread b /\
    ((exists r, contents (i_bip b') = a :: r) \/ a = -1 /\ dry give b').
Proof.
  intros G F. pose proof G as (HI & HS & HC). unfold i_sgetc. rewrite (i_avail_len b HI).
  destruct (contents (i_bip b)) as [|c r] eqn:E; cbn [length].
  - cbn [Z.of_nat Z.eqb]. now apply i_underflow_run.
  - destruct (Z.eqb_spec (Z.of_nat (S (length r))) 0); [lia|]. rewrite (i_xsgetc_run b c r HI E). cbn [bind].
    rewrite to_int_ascii.
    + exists c, b. split; [reflexivity|]. split; [exact G|]. split; [reflexivity|]. left. now exists r.
    + destruct (head_unread b c r E) as (t & Et). rewrite Et in F. now inversion F.
Qed.
Lemma i_gbump_run cap b a r : good cap b -> contents (i_bip b) = a :: r ->
  good cap (i_gbump b 1) /\ unread b = a :: unread (i_gbump b 1).
Proof.
  intros (HI & HS & HC) E. destruct (poll1 _ a r HI E) as (me' & Em & I' & C' & S').
  unfold good, unread, i_gbump. cbn [i_bip i_rest]. rewrite Em, C', E. split; [split; [exact I'|split; [congruence|exact HC]]|reflexivity].
Qed.
Lemma ascii_head b a r : Forall ascii (unread b) -> contents (i_bip b) = a :: r -> a <> eof.
Proof.
  intros F E. destruct (head_unread b a r E) as (t & Et). rewrite Et in F. inversion F as [|? ? A]. unfold ascii, eof in *. lia.
Qed.

Lemma i_sbumpc_run cap b : good cap b -> Forall ascii (unread b) ->
  exists a b', i_sbumpc give tr b = Ok (a, b') /\ good cap b' /\
    (unread b = a :: unread b' /\ a <> eof \/ a = -1 /\ unread b' = unread b /\ dry give b').
Proof.
  intros G F. destruct (i_sgetc_run cap b G F) as (a & b1 & R & G1 & U1 & [(r & E)|(A & D)]); unfold i_sbumpc; rewrite R; cbn [bind fst snd].
  - rewrite <- U1 in F. pose proof (ascii_head b1 a r F E) as Na. destruct (Z.eqb_spec a eof); [contradiction|].
    destruct (i_gbump_run cap b1 a r G1 E) as (G2 & U2). do 2 eexists. split; [reflexivity|]. split; [exact G2|]. left.
    split; [now rewrite <- U1|exact Na].
  - subst a. change (-1 =? eof) with true. cbn iota.
    destruct (i_underflow_run cap b1 G1) as (a & b2 & R2 & G2 & U2 & [(r & E)|(A & D2)]); unfold i_uflow; rewrite R2; cbn [bind fst snd].
    + rewrite <- U1, <- U2 in F. pose proof (ascii_head b2 a r F E) as Na. destruct (Z.eqb_spec a eof); [contradiction|].
      destruct (i_gbump_run cap b2 a r G2 E) as (G3 & U3). do 2 eexists. split; [reflexivity|]. split; [exact G3|]. left.
      split; [now rewrite <- U1, <- U2|exact Na].
    + subst a. change (-1 =? eof) with true. do 2 eexists. split; [reflexivity|]. split; [exact G2|]. right.
      split; [reflexivity|]. split; [now rewrite U2|exact D2].
Qed.

Lemma i_step_run cap b o : good cap b -> Forall ascii (unread b) ->
  exists a b', i_step give tr b o = Ok (a, b') /\ good cap b' /\ reads give o (unread b) a b' /\ Forall ascii (unread b').
Proof.
  intros G F. destruct o; cbn [i_step reads].
  - destruct (i_sgetc_run cap b G F) as (a & b1 & R & G1 & U1 & D). exists a, b1.
    split; [exact R|]. split; [exact G1|]. rewrite U1. split; [|exact F]. split; [reflexivity|].
    destruct D as [(r & E)|D]; [|now right]. left. rewrite <- U1. now apply head_unread with r.
  - destruct (i_sbumpc_run cap b G F) as (a & b1 & R & G1 & D). exists a, b1. split; [exact R|]. split; [exact G1|].
    destruct D as [(U & N)|(A & U & D)].
    + split; [now left|]. rewrite U in F. now inversion F.
    + split; [now right|]. now rewrite U.
  - destruct (i_sbumpc_run cap b G F) as (a & b1 & R & G1 & D). unfold i_snextc. rewrite R. cbn [bind fst snd].
    destruct D as [(U & N)|(A & U & D)].
    + destruct (Z.eqb_spec a eof); [contradiction|].
      assert (F1 : Forall ascii (unread b1)) by (rewrite U in F; now inversion F).
      destruct (i_sgetc_run cap b1 G1 F1) as (c & b2 & R2 & G2 & U2 & D2). exists c, b2. split; [exact R2|]. split; [exact G2|].
      rewrite U2. split; [|exact F1]. left. exists a. split; [exact U|].
      destruct D2 as [(r & E)|D2]; [|now right]. left. rewrite <- U2. now apply head_unread with r.
    + subst a. change (-1 =? eof) with true. exists (-1), b1. split; [reflexivity|]. split; [exact G1|].
      split; [now right|]. now rewrite U.
  - destruct G as (HI & HS & HC). destruct (i_sync_run b HI) as (a & b1 & R & I1 & S1 & U1 & D). exists a, b1.
    split; [exact R|]. split; [split; [exact I1|]; split; [congruence|exact HC]|]. rewrite U1. split; [|exact F].
    split; [reflexivity|]. destruct D as [(-> & _)|(-> & _)]; auto.
  - exists (i_avail b), b. split; [reflexivity|]. split; [exact G|]. split; [|exact F]. split; [reflexivity|].
    apply i_avail_len. apply G.
Qed.
Lemma i_run_all cap l : forall b, good cap b -> Forall ascii (unread b) ->
  exists answers c, i_run give tr b l = Ok (answers, c) /\ reads_all give tr b l answers c /\ good cap c.
Proof.
  induction l as [|o r IH]; intros b G F.
  - exists [], b. split; [reflexivity|]. split; [reflexivity|exact G].
  - destruct (i_step_run cap b o G F) as (a & b' & R & G' & Rd & F'). destruct (IH b' G' F') as (t & c & R2 & Ra & Gc).
    exists (a :: t), c. cbn [i_run]. rewrite R. cbn [bind fst snd]. rewrite R2. cbn [bind fst snd].
    split; [reflexivity|]. split; [|exact Gc]. cbn [reads_all]. exists b'. auto.
Qed.

(* sgetn gives the front of what is buffered, and consumes nothing. *)
Lemma i_sgetn_run b n : Inv (i_bip b) -> 0 <= n <= contiguous (i_bip b) ->
  i_sgetn b n = Ok (firstn (Z.to_nat n) (contents (i_bip b)), b).
Proof.
  intros HI Hn. unfold i_sgetn. rewrite (i_avail_len b HI). pose proof (contents_length _ HI) as L.
  rewrite used_inv in L by exact HI. pose proof HI as [H1 H2 H3 H4 H5]. unfold contiguous in Hn.
  assert (Be : 0 <= b_end (i_bip b)) by (destruct (b_inuse (i_bip b)); lia).
  destruct (Z.ltb_spec (Z.of_nat (length (contents (i_bip b)))) n); [lia|].
  destruct (Z.ltb_spec n 0); [lia|]. destruct (Z.eqb_spec n 0) as [->|N]; [reflexivity|].
  assert (Hc : contents (i_bip b) <> []) by (intros Q; rewrite Q in L; cbn in L; lia).
  rewrite (peek0 _ HI Hc). unfold bip_read.
  destruct (Z.leb_spec 0 (a_start (i_bip b))); [|lia]. destruct (Z.leb_spec 0 n); [|lia].
  destruct (Z.leb_spec (a_start (i_bip b) + n) (Z.of_nat (length (mem (i_bip b))))); [|lia].
  cbn [andb bind]. do 2 f_equal. rewrite contents_slices by exact HI.
  rewrite firstn_app. rewrite sl_length by lia.
  replace (Z.to_nat n - (Z.to_nat (a_end (i_bip b)) - Z.to_nat (a_start (i_bip b))))%nat with O by lia.
  rewrite firstn_O, app_nil_r. unfold sl. rewrite firstn_firstn. f_equal. lia.
Qed.
Lemma i_sgetn_over b n : Inv (i_bip b) -> bip_used (i_bip b) <= n ->
  bsize (i_bip b) < a_start (i_bip b) + bip_used (i_bip b) -> i_sgetn b n = UB.
Proof.
  intros HI Hn Ho. unfold i_sgetn. rewrite (i_avail_len b HI), (contents_length _ HI).
  pose proof HI as [H1 H2 H3 H4 H5]. pose proof (used_bounds _ HI) as (U & _).
  assert (E : (if bip_used (i_bip b) <? n then bip_used (i_bip b) else n) = bip_used (i_bip b)).
  { destruct (Z.ltb_spec (bip_used (i_bip b)) n); lia. }
  rewrite E. destruct (Z.ltb_spec (bip_used (i_bip b)) 0); [lia|].
  destruct (Z.eqb_spec (bip_used (i_bip b)) 0); [lia|].
  destruct (bip_peek (i_bip b) 0) as [off|] eqn:P; [|reflexivity].
  assert (Ea : off = a_start (i_bip b)).
  { revert P. unfold bip_peek. destruct (bsize _ <? _); [intros P; discriminate P|]. destruct (bip_is_empty _); intros P; [discriminate P|]. now injection P. }
  subst off. unfold bip_read. destruct (Z.leb_spec (a_start (i_bip b) + bip_used (i_bip b)) (Z.of_nat (length (mem (i_bip b))))); [lia|].
  now rewrite andb_false_r.
Qed.
(* the first character of a refill comes out with its sign *)
Lemma i_sgetc_signed cap b c r : good cap b -> contents (i_bip b) = [] -> i_rest b = c :: r -> (0 < give (i_calls b))%nat ->
  exists b', i_sgetc give tr b = Ok (c, b') /\ unread b' = c :: r.
Proof.
  intros G E Er Hg. pose proof G as (HI & HS & HC). unfold i_sgetc. rewrite (i_avail_len b HI), E. cbn [length Z.of_nat Z.eqb].
  destruct (i_underflow_run cap b G) as (a & b1 & R & G1 & U1 & D). exists b1.
  assert (U : unread b1 = c :: r) by (rewrite U1; unfold unread; now rewrite E, Er).
  destruct D as [(t & Ec)|(A & (Ec & D))].
  - rewrite R. unfold unread in U. rewrite Ec in U. injection U as -> U. rewrite U1. unfold unread. rewrite E, Er. auto.
  - exfalso. revert R. unfold i_underflow. rewrite (i_avail_len b HI), E. cbn [length Z.of_nat Z.eqb].
    destruct (i_sync_run b HI) as (a2 & b2 & R & I' & S' & U' & [(A2 & C)|(A2 & C & Rs & D2)]); rewrite R; cbn [bind fst snd].
    + subst a2. cbn [Z.eqb]. destruct (contents (i_bip b2)) as [|x t] eqn:Ec2; [contradiction|].
      rewrite (i_xsgetc_run b2 x t I' Ec2). cbn [bind]. intros Q. injection Q as Q1 Q2. congruence.
    + intros _. destruct D2 as [D2|[D2|(D2 & D3)]].
      * rewrite (empty_unused _ HI E) in D2. lia.
      * congruence.
      * lia.
Qed.
End In.

(* ---------- writing ---------- *)
Definition straight (cap : Z) (me : bip Z) : Prop :=
  Inv me /\ bsize me = cap /\ 0 < cap /\ a_start me = 0 /\ b_inuse me = false.

Lemma straight_q cap me : straight cap me ->
  b_end me = 0 /\ a_end me = Z.of_nat (length (contents me)) /\ bip_used me = a_end me /\
  bip_unused me = cap - a_end me /\ 0 <= a_end me <= cap /\ contents me = sl (mem me) 0 (Z.to_nat (a_end me)).
Proof.
  intros (HI & HS & HC & HA & HB). pose proof (contents_length me HI) as L. rewrite used_inv in L by exact HI.
  rewrite used_inv, unused_inv by exact HI. pose proof (contents_slices me HI) as C. destruct HI as [H1 H2 H3 H4 H5].
  rewrite HB in *. destruct H5 as (B0 & _). rewrite B0, HA in *. repeat split; try lia.
  rewrite C. rewrite (sl_nil _ 0 (Z.to_nat 0)) by (cbn; lia). rewrite app_nil_r. reflexivity.
Qed.

Lemma straight_switch cap me : straight cap me -> check_switch me = me.
Proof.
  intros H. pose proof (straight_q cap me H) as (B0 & _ & _ & _ & R & _). destruct H as (HI & HS & HC & HA & HB).
  unfold check_switch. rewrite HA, B0. change (u32 (0 - 0)) with 0. pose proof (inv_size me HI).
  rewrite u64_id by lia. destruct (Z.ltb_spec (bsize me - a_end me) 0); [lia|reflexivity].
Qed.

Lemma straight_write cap me d : straight cap me -> Z.of_nat (length d) <= cap - a_end me ->
  exists m, mem_write (mem me) (bip_offer_begin me) d = Ok m /\
    let me1 := bip_offer_end (mkBip (bsize me) (a_start me) (a_end me) (b_end me) (b_inuse me) m) (Z.of_nat (length d)) in
    straight cap me1 /\ contents me1 = contents me ++ d /\ a_end me1 = a_end me + Z.of_nat (length d).
Proof.
  intros H Hd. pose proof (straight_q cap me H) as (B0 & _ & _ & Un & R & _). pose proof H as (HI & HS & HC & HA & HB).
  pose proof (inv_size me HI) as Sz.
  destruct (offer_core me d HI) as (m & W & I1 & C1 & S1 & _); [lia|].
  exists m. split; [exact W|]. cbn zeta. set (me1 := bip_offer_end _ _) in *.
  assert (F : a_start me1 = 0 /\ b_inuse me1 = false /\ a_end me1 = a_end me + Z.of_nat (length d)).
  { unfold me1, bip_offer_end. cbn [b_inuse bsize a_start a_end b_end mem]. rewrite HB. cbn [b_inuse bsize a_start a_end b_end mem].
    rewrite u32_id by lia. unfold check_switch. cbn [b_inuse bsize a_start a_end b_end mem]. rewrite HA, B0.
    change (u32 (0 - 0)) with 0. rewrite u64_id by lia.
    destruct (Z.ltb_spec (bsize me - (a_end me + Z.of_nat (length d))) 0); [lia|]. auto. }
  destruct F as (F1 & F2 & F3). split; [|split; [exact C1|exact F3]].
  split; [exact I1|]. split; [congruence|]. auto.
Qed.

Lemma straight_poll cap me : straight cap me -> 0 < a_end me ->
  straight cap (fst (bip_poll me (a_end me))) /\ contents (fst (bip_poll me (a_end me))) = [].
Proof.
  intros H Hp. pose proof (straight_q cap me H) as (B0 & _ & _ & _ & R & _). pose proof H as (HI & HS & HC & HA & HB).
  pose proof (inv_size me HI) as Sz. unfold bip_poll, bip_is_empty. rewrite HA, HB.
  destruct (Z.eqb_spec 0 (a_end me)); [lia|]. rewrite (u32_id (a_end me)) by lia. rewrite Z.add_0_l, u32_id by lia.
  destruct (Z.ltb_spec (bsize me) (a_end me)); [lia|]. rewrite Z.eqb_refl. cbn [fst].
  assert (Q : straight cap (mkBip (bsize me) 0 0 (b_end me) false (mem me))).
  { destruct HI as [H1 H2 H3 H4 H5]. repeat split; cbn; auto; lia. }
  rewrite (straight_switch cap _ Q). split; [exact Q|]. unfold contents, slice. cbn [mem a_start a_end b_end]. rewrite B0. reflexivity.
Qed.

Section Out.
Context (accept : nat -> nat) (cap : Z) (greedy : forall i, cap <= Z.of_nat (accept i)).

Lemma o_sync_greedy b : straight cap (o_bip b) ->
  exists b', o_sync accept b = Ok (if a_end (o_bip b) =? 0 then -1 else 0, b') /\ straight cap (o_bip b') /\
    contents (o_bip b') = [] /\ a_end (o_bip b') = 0 /\ o_sunk b' = o_sunk b ++ contents (o_bip b).
Proof.
  intros H. pose proof (straight_q _ _ H) as (B0 & Q & Us & Un & R & C). pose proof H as (HI & HS & HC & HA & HB).
  pose proof (inv_size _ HI) as Sz. pose proof (inv_mem _ HI) as Me. pose proof (greedy (o_calls b)) as G.
  unfold o_sync. rewrite Us. rewrite (u32_id (a_end (o_bip b))) by lia. rewrite s32_id by lia.
  rewrite Z.min_l by lia. unfold bip_peek at 1. rewrite (u32_id (a_end (o_bip b))) by lia. rewrite HA, Z.add_0_l, u32_id by lia.
  destruct (Z.ltb_spec (bsize (o_bip b)) (a_end (o_bip b))); [lia|]. unfold bip_is_empty. rewrite HA.
  destruct (Z.eqb_spec (a_end (o_bip b)) 0) as [E|E].
  - rewrite E in *. cbn [Z.eqb bind]. eexists. split; [reflexivity|]. cbn [o_bip o_sunk]. split; [exact H|].
    assert (Cn : contents (o_bip b) = []) by (destruct (contents (o_bip b)); [reflexivity|cbn in Q; lia]).
    rewrite Cn. auto.
  - destruct (Z.eqb_spec 0 (a_end (o_bip b))); [lia|]. unfold bip_read.
    destruct (Z.leb_spec 0 (a_end (o_bip b))); [|lia]. rewrite Z.add_0_l.
    destruct (Z.leb_spec (a_end (o_bip b)) (Z.of_nat (length (mem (o_bip b))))); [|lia]. cbn [Z.leb Z.compare andb bind].
    rewrite ?HA. destruct (straight_poll cap _ H ltac:(lia)) as (S1 & C1).
    eexists. split; [reflexivity|]. cbn [o_bip o_sunk]. rewrite s32_id by lia. split; [exact S1|]. split; [exact C1|].
    split.
    + pose proof (straight_q _ _ S1) as (_ & Q1 & _). rewrite C1 in Q1. exact Q1.
    + f_equal. rewrite C. unfold sl. change (Z.to_nat 0) with O. now rewrite Nat.sub_0_r.
Qed.

Lemma o_overflow_greedy b c : straight cap (o_bip b) -> is_char c ->
  exists b', o_overflow accept b c = Ok (c, b') /\ straight cap (o_bip b') /\
    o_sunk b' ++ contents (o_bip b') = o_sunk b ++ contents (o_bip b) ++ [c] /\
    a_end (o_bip b') = if a_end (o_bip b) =? cap then 1 else a_end (o_bip b) + 1.
Proof.
  intros H Hc. pose proof (straight_q _ _ H) as (B0 & Q & Us & Un & R & C). pose proof H as (HI & HS & HC & HA & HB).
  pose proof (inv_size _ HI) as Sz. unfold o_overflow, xout_avail. rewrite Un, u32_id by lia.
  rewrite to_char_id by exact Hc.
  destruct (Z.eqb_spec (a_end (o_bip b)) cap) as [E|E].
  - rewrite E, Z.sub_diag. cbn [Z.eqb]. destruct (o_sync_greedy b H) as (b1 & R1 & S1 & C1 & A1 & K1). rewrite R1. cbn [bind snd].
    destruct (straight_write cap (o_bip b1) [c] S1) as (m & W & S2 & C2 & A2); [cbn; lia|].
    rewrite W. cbn [bind]. eexists. split; [reflexivity|]. cbn [o_bip o_sunk]. change (Z.of_nat (length [c])) with 1 in *.
    split; [exact S2|]. split; [rewrite C2, C1, K1; now rewrite <- app_assoc|]. rewrite A2, A1. reflexivity.
  - destruct (Z.eqb_spec (cap - a_end (o_bip b)) 0); [lia|]. cbn [bind].
    destruct (straight_write cap (o_bip b) [c] H) as (m & W & S2 & C2 & A2); [cbn; lia|].
    rewrite W. cbn [bind]. eexists. split; [reflexivity|]. cbn [o_bip o_sunk]. change (Z.of_nat (length [c])) with 1 in *.
    split; [exact S2|]. split; [now rewrite C2|]. exact A2.
Qed.
Lemma o_xsputn_greedy b s : straight cap (o_bip b) -> Z.of_nat (length s) < 2147483648 ->
  let n := Z.min (Z.of_nat (length s)) (cap - a_end (o_bip b)) in
  exists b', o_xsputn b s = Ok (n, b') /\ straight cap (o_bip b') /\ o_sunk b' = o_sunk b /\
    contents (o_bip b') = contents (o_bip b) ++ firstn (Z.to_nat n) s /\ a_end (o_bip b') = a_end (o_bip b) + n.
Proof.
  intros H Hs n. pose proof (straight_q _ _ H) as (B0 & Q & Us & Un & R & C). pose proof H as (HI & HS & HC & HA & HB).
  pose proof (inv_size _ HI) as Sz. unfold o_xsputn, xout_avail. rewrite Un, u32_id by lia. rewrite s32_id by lia.
  assert (E : (if cap - a_end (o_bip b) <? Z.of_nat (length s) then cap - a_end (o_bip b) else Z.of_nat (length s)) = n).
  { unfold n. destruct (Z.ltb_spec (cap - a_end (o_bip b)) (Z.of_nat (length s))); lia. }
  rewrite E. unfold bip_offer. rewrite Un. destruct (Z.ltb_spec (cap - a_end (o_bip b)) n); [lia|].
  destruct (Z.ltb_spec n 0); [lia|]. destruct (Z.ltb_spec (Z.of_nat (length s)) n); [lia|]. cbn [orb].
  assert (L : Z.of_nat (length (firstn (Z.to_nat n) s)) = n) by (rewrite firstn_length; lia).
  destruct (straight_write cap (o_bip b) (firstn (Z.to_nat n) s) H) as (m & W & S2 & C2 & A2); [lia|].
  rewrite W. cbn [bind fst]. rewrite L in *. eexists. split; [reflexivity|]. cbn [o_bip o_sunk]. auto.
Qed.

Lemma o_sputn_greedy b s : straight cap (o_bip b) -> Forall is_char s -> ~ In (-1) s -> Z.of_nat (length s) < 2147483648 ->
  let q := a_end (o_bip b) in let n := Z.of_nat (length s) in
  let a := Z.min n (cap - q + cap) in
  exists b', o_sputn accept b s = Ok (a, b') /\ straight cap (o_bip b') /\
    o_sunk b' ++ contents (o_bip b') = o_sunk b ++ contents (o_bip b) ++ firstn (Z.to_nat a) s /\
    a_end (o_bip b') = if n <=? cap - q then q + n else a - (cap - q).
Proof.
  intros H Fs Nm Hs q n a. pose proof (straight_q _ _ H) as (B0 & Q & Us & Un & R & C). assert (Rq : 0 <= q <= cap /\ 0 < cap) by (destruct H as (_ & _ & ? & _); unfold q; lia).
  destruct (o_xsputn_greedy b s H Hs) as (b1 & R1 & S1 & K1 & C1 & A1). unfold o_sputn. rewrite R1. cbn [bind fst snd].
  fold q n in R1, C1, A1 |- *. destruct (Z.ltb_spec (Z.min n (cap - q)) n) as [L|L].
  - rewrite Z.min_r in * by lia. destruct (Z.leb_spec n (cap - q)); [lia|].
    destruct (nth_error s (Z.to_nat (cap - q))) as [c|] eqn:Ec; [|apply nth_error_None in Ec; lia].
    unfold rd. rewrite Ec. cbn [bind].
    assert (Ic : is_char c) by (eapply Forall_forall; [exact Fs|eapply nth_error_In; exact Ec]).
    assert (Nc : c <> -1) by (intros ->; apply Nm; eapply nth_error_In; exact Ec).
    destruct (o_overflow_greedy b1 c S1 Ic) as (b2 & R2 & S2 & K2 & A2). rewrite R2. cbn [bind fst snd].
    unfold eof. destruct (Z.eqb_spec c (-1)); [contradiction|].
    assert (A2' : a_end (o_bip b2) = 1) by (rewrite A2, A1; destruct (Z.eqb_spec (q + (cap - q)) cap); lia).
    assert (L3 : Z.of_nat (length (skipn (Z.to_nat (cap - q) + 1) s)) = n - (cap - q) - 1) by (rewrite skipn_length; lia).
    destruct (o_xsputn_greedy b2 (skipn (Z.to_nat (cap - q) + 1) s) S2 ltac:(lia)) as (b3 & R3 & S3 & K3 & C3 & A3).
    rewrite R3. cbn [bind fst snd]. rewrite L3, A2' in *.
    exists b3. split; [f_equal; f_equal; unfold a; lia|]. split; [exact S3|]. split.
    + rewrite K3, C3, app_assoc, K2, K1, C1. rewrite <- !app_assoc. do 2 f_equal.
      replace (Z.to_nat a) with (Z.to_nat (cap - q) + (1 + Z.to_nat (Z.min (n - (cap - q) - 1) (cap - 1))))%nat by (unfold a; lia).
      rewrite <- (firstn_skipn (Z.to_nat (cap - q)) s) at 3. rewrite firstn_app.
      assert (Lf : length (firstn (Z.to_nat (cap - q)) s) = Z.to_nat (cap - q)) by (rewrite firstn_length; lia).
      rewrite Lf. rewrite firstn_all2 with (n := (Z.to_nat (cap - q) + _)%nat) by lia. f_equal.
      replace (Z.to_nat (cap - q) + (1 + Z.to_nat (Z.min (n - (cap - q) - 1) (cap - 1))) - Z.to_nat (cap - q))%nat
        with (1 + Z.to_nat (Z.min (n - (cap - q) - 1) (cap - 1)))%nat by lia.
      assert (Sk : skipn (Z.to_nat (cap - q)) s = c :: skipn (Z.to_nat (cap - q) + 1) s).
      { clear - Ec. revert s Ec. induction (Z.to_nat (cap - q)) as [|k IH]; intros [|x s] Ec; cbn in *; try discriminate.
        - now injection Ec as ->.
        - now apply IH. }
      rewrite Sk. reflexivity.
    + rewrite A3. unfold a. lia.
  - assert (Ln : n <= cap - q) by lia. rewrite Z.min_l in R1, C1, A1 |- * by lia. destruct (Z.leb_spec n (cap - q)); [|lia]. assert (a = n) by (unfold a; lia).
    exists b1. split; [f_equal; f_equal; lia|]. split; [exact S1|]. split; [|exact A1]. rewrite K1, C1.
    now replace (Z.to_nat a) with (Z.to_nat n) by lia.
Qed.

Lemma o_run_greedy l : Forall plain_put l -> forall b, straight cap (o_bip b) ->
  let answers := greedy_answers cap l (a_end (o_bip b)) in
  exists b', o_run accept b l = Ok (answers, b') /\ straight cap (o_bip b') /\
    o_sunk b' ++ contents (o_bip b') = o_sunk b ++ contents (o_bip b) ++ accepted_of l answers.
Proof.
  induction 1 as [|o l Po Pl IH]; intros b H.
  - exists b. split; [reflexivity|]. split; [exact H|]. cbn. now rewrite app_nil_r.
  - cbn zeta. destruct o as [c|s|]; cbn [plain_put] in Po; cbn [greedy_answers o_run o_step accepted_of].
    + destruct (o_overflow_greedy b c H Po) as (b1 & R1 & S1 & K1 & A1). unfold o_sputc. rewrite R1. cbn [bind fst snd].
      destruct (IH b1 S1) as (b2 & R2 & S2 & K2). rewrite A1 in *. rewrite R2. cbn [bind fst snd].
      exists b2. split; [reflexivity|]. split; [exact S2|]. rewrite K2, app_assoc, K1. rewrite <- !app_assoc. reflexivity.
    + destruct Po as (P1 & P2 & P3). destruct (o_sputn_greedy b s H P1 P2 P3) as (b1 & R1 & S1 & K1 & A1). rewrite R1. cbn [bind fst snd].
      destruct (IH b1 S1) as (b2 & R2 & S2 & K2). rewrite A1 in *. rewrite R2. cbn [bind fst snd].
      exists b2. split; [reflexivity|]. split; [exact S2|]. rewrite K2, app_assoc, K1. rewrite <- !app_assoc. reflexivity.
    + destruct (o_sync_greedy b H) as (b1 & R1 & S1 & C1 & A1 & K1). rewrite R1. cbn [bind fst snd].
      destruct (IH b1 S1) as (b2 & R2 & S2 & K2). rewrite A1 in *. rewrite R2. cbn [bind fst snd].
      exists b2. split; [reflexivity|]. split; [exact S2|]. rewrite K2, K1, C1. rewrite <- !app_assoc. reflexivity.
Qed.
End Out.

Lemma straight_init (m : list Z) : 0 < Z.of_nat (length m) < 2147483648 -> straight (Z.of_nat (length m)) (bip_init (Z.of_nat (length m)) m).
Proof. intros H. split; [apply inv_init; lia|]. cbn. repeat split; lia. Qed.

(* Any sink, one sync. *)
Lemma o_sync_any accept b : Inv (o_bip b) ->
  let n := Z.min (bip_used (o_bip b)) (Z.of_nat (accept (o_calls b))) in
  n <= contiguous (o_bip b) -> (n = 0 \/ a_start (o_bip b) + bip_used (o_bip b) <= bsize (o_bip b)) ->
  exists b', o_sync accept b = Ok (if n =? 0 then -1 else 0, b') /\ Inv (o_bip b') /\
    o_sunk b' = o_sunk b ++ firstn (Z.to_nat n) (contents (o_bip b)) /\
    contents (o_bip b') = skipn (Z.to_nat n) (contents (o_bip b)).
Proof.
  intros HI n Hc Hp. pose proof (used_bounds _ HI) as (U & _). pose proof HI as [H1 H2 H3 H4 H5].
  unfold o_sync. rewrite (u32_id (bip_used _)) by lia. fold n. rewrite s32_id by lia.
  destruct (Z.eqb_spec n 0) as [E|E].
  - rewrite E. cbn [bind]. assert (Q : match bip_peek (o_bip b) (bip_used (o_bip b)) with
       | Some off => bip_read (o_bip b) off 0 | None => Ok [] end = Ok []).
    { destruct (bip_peek _ _) as [off|] eqn:P; [|reflexivity].
      assert (off = a_start (o_bip b)).
      { revert P. unfold bip_peek. destruct (bsize _ <? _); [intros P; discriminate P|]. destruct (bip_is_empty _); intros P; [discriminate P|]. now injection P. }
      subst off. unfold bip_read. destruct (Z.leb_spec 0 (a_start (o_bip b))); [|lia].
      destruct (Z.leb_spec (a_start (o_bip b) + 0) (Z.of_nat (length (mem (o_bip b))))); [|lia]. reflexivity. }
    rewrite Q. cbn [bind]. eexists. split; [reflexivity|]. cbn [o_bip o_sunk]. auto.
  - destruct Hp as [Hp|Hp]; [contradiction|]. assert (Pn : 0 < n) by (unfold n in *; lia).
    assert (Nn : contents (o_bip b) <> []).
    { intros Q. pose proof (contents_length _ HI) as L. rewrite Q in L. cbn in L. unfold n in *. lia. }
    unfold bip_peek. rewrite (u32_id (bip_used _)) by lia. rewrite u32_id by lia.
    destruct (Z.ltb_spec (bsize (o_bip b)) (a_start (o_bip b) + bip_used (o_bip b))); [lia|].
    destruct (bip_is_empty (o_bip b)) eqn:Em; [exfalso; apply Nn; now apply contents_nil|].
    unfold bip_read. unfold contiguous in *.
    destruct (Z.leb_spec 0 (a_start (o_bip b))); [|lia]. destruct (Z.leb_spec 0 n); [|lia].
    destruct (Z.leb_spec (a_start (o_bip b) + n) (Z.of_nat (length (mem (o_bip b))))); [|lia]. cbn [andb bind].
    rewrite s32_id by (unfold n in *; lia).
    destruct (poll_spec (o_bip b) n HI) as (me' & Ep & I' & M & S & C); try (unfold contiguous; lia).
    rewrite Ep. cbn [fst]. eexists. split; [reflexivity|]. cbn [o_bip o_sunk]. split; [exact I'|].
    assert (Lp : length (sl (mem (o_bip b)) (Z.to_nat (a_start (o_bip b))) (Z.to_nat (a_start (o_bip b) + n))) = Z.to_nat n).
    { rewrite sl_length by lia. lia. }
    rewrite C. split.
    + f_equal. rewrite firstn_app, Lp, Nat.sub_diag, firstn_O, app_nil_r. rewrite (firstn_all2 (sl (mem (o_bip b)) (Z.to_nat (a_start (o_bip b))) (Z.to_nat (a_start (o_bip b) + n)))) by lia.
      unfold sl. f_equal. lia.
    + rewrite skipn_app, Lp, Nat.sub_diag. rewrite skipn_all2 by lia. reflexivity.
Qed.
Lemma o_sync_null accept b : Inv (o_bip b) -> (0 < accept (o_calls b))%nat ->
  bsize (o_bip b) < a_start (o_bip b) + bip_used (o_bip b) -> o_sync accept b = UB.
Proof.
  intros HI Ha Ho. pose proof (used_bounds _ HI) as (U & _). pose proof HI as [H1 H2 H3 H4 H5].
  unfold o_sync. rewrite (u32_id (bip_used _)) by lia. rewrite s32_id by lia. unfold bip_peek.
  rewrite (u32_id (bip_used _)) by lia. rewrite u32_id by lia.
  destruct (Z.ltb_spec (bsize (o_bip b)) (a_start (o_bip b) + bip_used (o_bip b))); [|lia].
  destruct (Z.eqb_spec (Z.min (bip_used (o_bip b)) (Z.of_nat (accept (o_calls b)))) 0); [lia|reflexivity].
Qed.
(* A full buffer and a sink that takes nothing: the next character is written past the end. *)
Lemma o_full_refused accept cap b c : straight cap (o_bip b) -> a_end (o_bip b) = cap -> accept (o_calls b) = O ->
  o_sputc accept b c = UB.
Proof.
  intros H E Ha. pose proof (straight_q _ _ H) as (B0 & Q & Us & Un & R & C). pose proof H as (HI & HS & HC & HA & HB).
  pose proof (inv_size _ HI). unfold o_sputc, o_overflow, xout_avail. rewrite Un, E, Z.sub_diag. change (u32 0 =? 0) with true. cbn iota.
  destruct (o_sync_any accept b HI) as (b' & R' & I' & K' & C').
  - unfold contiguous. rewrite Ha. lia.
  - left. rewrite Ha. lia.
  - clear I' K' C'. revert R'. unfold o_sync. rewrite Ha. rewrite Us, E. rewrite (u32_id cap) by lia. rewrite Z.min_r by (cbn; lia). cbn [Z.of_nat Z.eqb].
    destruct (match bip_peek _ _ with Some _ => _ | None => _ end); cbn [bind]; [|discriminate|discriminate].
    intros R'. cbn [snd o_bip o_sunk o_calls]. unfold mem_write, bip_offer_begin. rewrite HB, E.
    pose proof (inv_mem _ HI). cbn [length]. destruct (Z.leb_spec (cap + Z.of_nat 1) (Z.of_nat (length (mem (o_bip b))))); [lia|].
    rewrite andb_false_r. reflexivity.
Qed.
(* '\xff' where the buffer is full is stored but not counted. *)
Lemma o_ff_uncounted accept cap b r : (forall i, cap <= Z.of_nat (accept i)) ->
  straight cap (o_bip b) -> a_end (o_bip b) = cap -> Z.of_nat (S (length r)) < 2147483648 ->
  exists b', o_sputn accept b (-1 :: r) = Ok (0, b') /\
    o_sunk b' ++ contents (o_bip b') = o_sunk b ++ contents (o_bip b) ++ [-1].
Proof.
  intros G H E L. destruct (o_xsputn_greedy cap b (-1 :: r) H L) as (b1 & R1 & S1 & K1 & C1 & A1).
  rewrite E, Z.sub_diag in *. rewrite Z.min_r in * by lia. unfold o_sputn. rewrite R1. cbn [bind fst snd].
  change (Z.of_nat (length (-1 :: r))) with (Z.of_nat (S (length r))). destruct (Z.ltb_spec 0 (Z.of_nat (S (length r)))); [|lia].
  cbn [Z.to_nat rd nth_error bind]. change (rd (-1 :: r) 0) with (Ok (-1)). cbn [bind].
  destruct (o_overflow_greedy accept cap G b1 (-1) S1 ltac:(unfold is_char; lia)) as (b2 & R2 & S2 & K2 & A2). rewrite R2. cbn [bind fst snd].
  change (-1 =? eof) with true. exists b2. split; [reflexivity|]. rewrite K2, K1, C1. cbn [Z.to_nat firstn]. now rewrite app_nil_r.
Qed.

Lemma fill_state accept (m s : list Z) : 0 < Z.of_nat (length m) < 2147483648 -> length s = length m ->
  exists b, o_sputn accept (o_init m) s = Ok (Z.of_nat (length m), b) /\ straight (Z.of_nat (length m)) (o_bip b) /\
    a_end (o_bip b) = Z.of_nat (length m) /\ o_calls b = O /\ o_sunk b = [] /\ contents (o_bip b) = s.
Proof.
  intros Hm Hs. pose proof (straight_init m Hm) as H0.
  destruct (o_xsputn_greedy _ (o_init m) s H0 ltac:(lia)) as (b1 & R1 & S1 & K1 & C1 & A1).
  cbn [o_init o_bip bip_init a_end o_sunk] in *. rewrite Z.sub_0_r, Hs, Z.min_l in * by lia.
  unfold o_sputn. rewrite R1. cbn [bind fst snd]. rewrite Hs. destruct (Z.ltb_spec (Z.of_nat (length m)) (Z.of_nat (length m))); [lia|].
  exists b1. split; [reflexivity|]. split; [exact S1|]. split; [lia|]. split; [|split; [exact K1|]].
  - revert R1. unfold o_xsputn. destruct (bip_offer _ _ _); cbn [bind]; [|discriminate|discriminate]. intros Q. injection Q as _ <-. reflexivity.
  - rewrite C1. rewrite Nat2Z.id, <- Hs, firstn_all. reflexivity.
Qed.

Lemma wrapped_flush accept (m s t : list Z) :
  0 < Z.of_nat (length m) < 2147483648 -> length s = length m -> (0 < accept O < length m)%nat ->
  (0 < length t <= accept O)%nat -> (0 < accept 1%nat)%nat ->
  o_run accept (o_init m) [Putn s; Flush; Putn t; Flush] = UB.
Proof.
  intros Hm Hs Ha Ht Ha1. destruct (fill_state accept m s Hm Hs) as (b & R & S & A & Cl & K & C).
  cbn [o_run o_step]. rewrite R. cbn [bind fst snd]. set (cap := Z.of_nat (length m)) in *.
  pose proof (straight_q _ _ S) as (B0 & Q & Us & Un & Rg & Cs). pose proof S as (HI & HS & HC & HA & HB).
  pose proof (inv_mem _ HI) as Me. set (k := Z.of_nat (accept 0%nat)).
  assert (R2 : exists b2, o_sync accept b = Ok (0, b2) /\ o_calls b2 = 1%nat /\ Inv (o_bip b2) /\
      a_start (o_bip b2) = k /\ a_end (o_bip b2) = cap /\ b_end (o_bip b2) = 0 /\ b_inuse (o_bip b2) = true /\ bsize (o_bip b2) = cap).
  { destruct (o_sync_any accept b HI) as (b2 & R2 & I2 & _ & _).
    - rewrite Cl, Us. unfold contiguous. lia.
    - right. rewrite Us. lia.
    - rewrite Cl, Us, A in R2. replace (Z.min cap (Z.of_nat (accept 0%nat))) with k in R2 by (unfold k, cap; lia).
      destruct (Z.eqb_spec k 0); [unfold k in *; lia|].
      exists b2. split; [exact R2|].
      revert R2. unfold o_sync. rewrite Cl, Us, A. rewrite (u32_id cap) by lia.
      replace (Z.min cap (Z.of_nat (accept 0%nat))) with k by (unfold k, cap; lia).
      destruct (match bip_peek _ _ with Some _ => _ | None => _ end); cbn [bind]; [|discriminate|discriminate].
      destruct (Z.eqb_spec k 0); [contradiction|]. intros E. injection E as <-. cbn [o_calls o_bip].
      cbn [o_bip] in I2. rewrite s32_id in * by (unfold k, cap in *; lia).
      split; [reflexivity|]. split; [exact I2|]. unfold bip_poll, bip_is_empty. rewrite HA, A, HB, HS, B0.
      destruct (Z.eqb_spec 0 cap); [lia|]. rewrite (u32_id k) by (unfold k, cap in *; lia). rewrite Z.add_0_l, u32_id by (unfold k, cap in *; lia).
      destruct (Z.ltb_spec cap k); [unfold k, cap in *; lia|]. destruct (Z.eqb_spec k cap); [unfold k, cap in *; lia|]. cbn [fst].
      unfold check_switch. cbn [bsize a_start a_end b_end b_inuse mem]. rewrite Z.sub_diag, Z.sub_0_r. change (u64 0) with 0.
      rewrite u32_id by (unfold k, cap in *; lia). destruct (Z.ltb_spec 0 k); [|unfold k in *; lia].
      cbn [bsize a_start a_end b_end b_inuse mem]. auto 6. }
  destruct R2 as (b2 & R2 & Cl2 & I2 & F1 & F2 & F3 & F4 & F5). rewrite R2. cbn [bind fst snd].
  assert (Un2 : bip_unused (o_bip b2) = k) by (rewrite unused_inv by exact I2; rewrite F4; lia).
  assert (Lt : Z.of_nat (length t) <= k) by (unfold k; lia).
  destruct (offer_spec (o_bip b2) t (Z.of_nat (length t)) I2 ltac:(lia)) as [(Q1 & _)|(_ & me1 & Q2 & I3 & C3 & S3)]; [lia|].
  pose proof (offer_fields (o_bip b2) t me1 I2 ltac:(lia) Q2) as Fl. rewrite F4 in Fl. destruct Fl as (G1 & G2 & G3).
  assert (R3 : o_sputn accept b2 t = Ok (Z.of_nat (length t), Ob me1 (o_sunk b2) (o_calls b2))).
  { unfold o_sputn, o_xsputn, xout_avail. rewrite Un2. rewrite u32_id by (unfold k, cap in *; lia). rewrite s32_id by (unfold k, cap in *; lia).
    destruct (Z.ltb_spec k (Z.of_nat (length t))); [lia|]. rewrite Q2. cbn [bind fst snd].
    destruct (Z.ltb_spec (Z.of_nat (length t)) (Z.of_nat (length t))); [lia|]. reflexivity. }
  rewrite R3. cbn [bind fst snd]. rewrite (o_sync_null accept (Ob me1 (o_sunk b2) (o_calls b2))).
  - reflexivity.
  - exact I3.
  - cbn [o_calls]. now rewrite Cl2.
  - cbn [o_bip]. rewrite G1, F1, S3, F5. rewrite <- (contents_length me1 I3), C3, app_length.
    rewrite Nat2Z.id, firstn_all. pose proof (contents_length _ I2) as L2. rewrite used_inv in L2 by exact I2. lia.
Qed.
