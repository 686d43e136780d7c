From Verif Require Import Base BaseLemmas MachInt Pool_Spec Pool_Model.

Section Pool.
Context {A : Type}.
Implicit Types (cs : list (cell A)) (p : pool A) (l : list (nat * option A)).

(* the free list: fl from the head *)
Fixpoint chain cs (h : option nat) (fl : list nat) : Prop :=
  match fl with
  | [] => h = None
  | b :: t => h = Some b /\ exists n, nth_error cs b = Some (Next n) /\ chain cs n t
  end.

Lemma chain_upd cs h fl b x : ~ In b fl -> chain cs h fl -> chain (upd cs b x) h fl.
Proof.
  revert h. induction fl as [|c fl IH]; intros h Nin C; [exact C|].
  destruct C as (-> & n & E & C). split; [reflexivity|]. exists n. split.
  - rewrite nth_error_upd_neq; [exact E|]. intros ->. apply Nin. now left.
  - apply IH; [|exact C]. intros K. apply Nin. now right.
Qed.

Record inv (N : nat) l p (fl : list nat) : Prop := {
  i_len : length (cells p) = N;
  i_chain : chain (cells p) (head p) fl;
  i_perm : Permutation (fl ++ blocks l) (seq 0 N);
  i_val : forall b v, In (b, Some v) l -> nth_error (cells p) b = Some (Bytes v) }.

Lemma inv_nodup N l p fl : inv N l p fl -> NoDup (fl ++ blocks l).
Proof. intros I. eapply Permutation_NoDup; [symmetry; apply (i_perm _ _ _ _ I)|apply seq_NoDup]. Qed.
Lemma inv_lt N l p fl b : inv N l p fl -> In b (fl ++ blocks l) -> b < N.
Proof.
  intros I K. apply (Permutation_in _ (i_perm _ _ _ _ I)) in K. apply in_seq in K. lia.
Qed.
Lemma inv_count N l p fl : inv N l p fl -> length fl + length l = N.
Proof.
  intros I. pose proof (Permutation_length (i_perm _ _ _ _ I)) as E.
  rewrite app_length, seq_length in E. unfold blocks in E. rewrite map_length in E. exact E.
Qed.

Lemma reset_ok i cs cur fl : i <= length cs -> chain cs cur fl -> Forall (fun b => i <= b) fl ->
  exists cs', reset_loop i cs cur = Ok cs' /\ length cs' = length cs /\
    exists h, chain cs' h (seq 0 i ++ fl) /\ (0 < i -> h = Some 0).
Proof.
  revert cs cur fl. induction i as [|i IH]; intros cs cur fl L C F.
  - exists cs. repeat split; auto. exists cur. split; [exact C|lia].
  - cbn [reset_loop]. unfold link. rewrite wr_ok by lia. cbn [bind].
    destruct (IH (upd cs i (Next cur)) (Some i) (i :: fl)) as (cs' & E & L' & h & C' & H).
    + rewrite upd_length. lia.
    + split; [reflexivity|]. exists cur. split; [apply nth_error_upd_eq; lia|].
      apply chain_upd; [|exact C]. intros K. rewrite Forall_forall in F. specialize (F _ K). lia.
    + constructor; [lia|]. eapply Forall_impl; [|exact F]. cbn. lia.
    + exists cs'. split; [exact E|]. split; [rewrite L', upd_length; reflexivity|].
      exists h. rewrite seq_S. cbn [Nat.add]. rewrite <- app_assoc. cbn [app]. split; [exact C'|].
      intros _. destruct i; [|apply H; lia]. cbn in C'. tauto.
Qed.

Lemma init_ok N : 0 < N -> exists p, pool_init N = Ok p /\ inv N [] p (seq 0 N).
Proof.
  intros P. destruct (reset_ok N (repeat (@Raw A) N) None []) as (cs & E & L & h & C & H).
  - rewrite repeat_length. lia.
  - reflexivity.
  - constructor.
  - rewrite repeat_length in L. rewrite app_nil_r in C. specialize (H P). subst h.
    unfold pool_init. rewrite E. cbn [bind]. eexists. split; [reflexivity|]. split; cbn; auto.
    + rewrite app_nil_r. reflexivity.
    + tauto.
Qed.

Lemma blocks_drop b l : blocks (drop b l) = filter (fun c => negb (Nat.eqb c b)) (blocks l).
Proof. unfold drop, blocks. induction l as [|[c x] l IH]; [reflexivity|]. cbn. destruct (negb _); cbn; congruence. Qed.

Lemma filter_out b m : ~ In b m -> filter (fun c => negb (Nat.eqb c b)) m = m.
Proof.
  induction m as [|c m IH]; intros K; [reflexivity|]. cbn.
  destruct (Nat.eqb_spec c b) as [->|]; cbn; [exfalso; apply K; now left|].
  rewrite IH; [reflexivity|]. intros J. apply K. now right.
Qed.

Lemma drop_perm b l : NoDup (blocks l) -> In b (blocks l) -> Permutation (b :: blocks (drop b l)) (blocks l).
Proof.
  rewrite blocks_drop. generalize (blocks l) as m. induction m as [|c m IH]; intros D K; [destruct K|].
  inversion D as [|? ? K' D']; subst. cbn. destruct (Nat.eqb_spec c b) as [->|Ne]; cbn.
  - rewrite filter_out by exact K'. reflexivity.
  - destruct K as [->|K]; [congruence|]. rewrite perm_swap. constructor. apply IH; assumption.
Qed.

Lemma in_drop b l c x : In (c, x) (drop b l) <-> In (c, x) l /\ c <> b.
Proof.
  unfold drop. rewrite filter_In. cbn. destruct (Nat.eqb_spec c b); cbn; split; intros [H1 H2]; split; auto; congruence.
Qed.

Lemma in_blocks b x l : In (b, x) l -> In b (blocks l).
Proof. intros K. apply (in_map fst) in K. exact K. Qed.

(* one call *)
Lemma alloc_inv N l p fl x : inv N l p fl ->
  exists p' r, alloc p = Ok (p', r) /\
    match fl with
    | [] => r = None /\ p' = p
    | b :: t => r = Some b /\ cells p' = cells p /\ b < N /\ ~ In b (blocks l) /\
                (x = None -> inv N ((b, x) :: l) p' t) /\
                (forall v, inv N ((b, Some v) :: l) (Pool (upd (cells p) b (Bytes v)) (head p')) t)
    end.
Proof.
  intros I. unfold alloc, full, alloc_next. pose proof (i_chain _ _ _ _ I) as C. destruct fl as [|b t].
  - cbn in C. rewrite C. eauto.
  - destruct C as (-> & n & E & C). cbn [bind]. unfold next_of, rd. rewrite E. cbn [bind].
    exists (Pool (cells p) n), (Some b). split; [reflexivity|]. split; [reflexivity|]. split; [reflexivity|].
    pose proof (inv_nodup _ _ _ _ I) as D. cbn in D. inversion D as [|? ? Nin D']; subst.
    assert (b < N) as Lt by (eapply inv_lt; [exact I|now left]).
    assert (~ In b (blocks l)) as Nl by (intros K; apply Nin; apply in_or_app; now right).
    assert (~ In b t) as Nt by (intros K; apply Nin; apply in_or_app; now left).
    assert (forall y, Permutation (t ++ blocks ((b, y) :: l)) (seq 0 N)) as P.
    { intros y. rewrite <- (i_perm _ _ _ _ I). cbn. symmetry. apply Permutation_middle. }
    split; [exact Lt|]. split; [exact Nl|]. split.
    + intros ->. split; cbn.
      * apply (i_len _ _ _ _ I).
      * exact C.
      * exact (P None).
      * intros c v [K|K]; [discriminate|]. apply (i_val _ _ _ _ I _ _ K).
    + intros v. split; cbn.
      * rewrite upd_length. apply (i_len _ _ _ _ I).
      * apply chain_upd; assumption.
      * exact (P None).
      * intros c w [K|K].
        -- injection K as <- <-. apply nth_error_upd_eq. rewrite (i_len _ _ _ _ I). exact Lt.
        -- rewrite nth_error_upd_neq; [apply (i_val _ _ _ _ I _ _ K)|]. intros ->. apply Nl. eapply in_blocks, K.
Qed.

Lemma free_inv N l p fl b : inv N l p fl -> In b (blocks l) ->
  exists p', free p b = Ok p' /\ inv N (drop b l) p' (b :: fl).
Proof.
  intros I K. assert (b < N) as Lt by (eapply inv_lt; [exact I|apply in_or_app; now right]).
  pose proof (inv_nodup _ _ _ _ I) as D.
  assert (~ In b fl) as Nf.
  { intros J. clear -D K J. induction fl as [|c fl IH]; [destruct J|]. cbn in D. inversion D; subst.
    destruct J as [->|J]; [|auto]. apply H1. apply in_or_app. now right. }
  assert (NoDup (blocks l)) as Dl.
  { clear -D. induction fl as [|c fl IH]; [exact D|]. inversion D; subst. auto. }
  unfold free, link. rewrite wr_ok by (rewrite (i_len _ _ _ _ I); exact Lt). cbn [bind].
  eexists. split; [reflexivity|]. split; cbn.
  - rewrite upd_length. apply (i_len _ _ _ _ I).
  - split; [reflexivity|]. exists (head p). split.
    + apply nth_error_upd_eq. rewrite (i_len _ _ _ _ I). exact Lt.
    + apply chain_upd; [exact Nf|apply (i_chain _ _ _ _ I)].
  - rewrite <- (i_perm _ _ _ _ I). rewrite Permutation_middle. apply Permutation_app_head, drop_perm; assumption.
  - intros c v J. apply in_drop in J. destruct J as [J Ne]. rewrite nth_error_upd_neq by congruence.
    apply (i_val _ _ _ _ I _ _ J).
Qed.

Lemma put_inv N l p fl b v : inv N l p fl -> In b (blocks l) ->
  exists p', put p b v = Ok p' /\ inv N ((b, Some v) :: drop b l) p' fl.
Proof.
  intros I K. assert (b < N) as Lt by (eapply inv_lt; [exact I|apply in_or_app; now right]).
  pose proof (inv_nodup _ _ _ _ I) as D.
  assert (~ In b fl) as Nf.
  { intros J. clear -D K J. induction fl as [|c fl IH]; [destruct J|]. cbn in D. inversion D; subst.
    destruct J as [->|J]; [|auto]. apply H1. apply in_or_app. now right. }
  assert (NoDup (blocks l)) as Dl.
  { clear -D. induction fl as [|c fl IH]; [exact D|]. inversion D; subst. auto. }
  unfold put. rewrite wr_ok by (rewrite (i_len _ _ _ _ I); exact Lt). cbn [bind].
  eexists. split; [reflexivity|]. split; cbn.
  - rewrite upd_length. apply (i_len _ _ _ _ I).
  - apply chain_upd; [exact Nf|apply (i_chain _ _ _ _ I)].
  - rewrite <- (i_perm _ _ _ _ I). apply Permutation_app_head. apply drop_perm; assumption.
  - intros c w [J|J].
    + injection J as <- <-. apply nth_error_upd_eq. rewrite (i_len _ _ _ _ I). exact Lt.
    + apply in_drop in J. destruct J as [J Ne]. rewrite nth_error_upd_neq by congruence.
      apply (i_val _ _ _ _ I _ _ J).
Qed.

Lemma get_inv N l p fl b v : inv N l p fl -> In (b, Some v) l -> get p b = Ok v.
Proof. intros I K. unfold get, rd. rewrite (i_val _ _ _ _ I _ _ K). reflexivity. Qed.

Lemma step_inv N l p fl op : inv N l p fl -> may l op ->
  exists p', step p op = Ok (p', snd (spare1 fl op)) /\
    inv N (live1 l (op, snd (spare1 fl op))) p' (fst (spare1 fl op)) /\
    answers_well N l op (snd (spare1 fl op)).
Proof.
  intros I M. pose proof (inv_count _ _ _ _ I) as Cnt.
  destruct op as [|b|b v|v|b]; cbn [step].
  - destruct (alloc_inv _ _ _ _ None I) as (p' & r & -> & H). destruct fl as [|b t].
    + destruct H as [-> ->]. exists p. cbn in *. split; [reflexivity|]. split; [exact I|].
      split; [split; [intros _; lia|reflexivity]|]. discriminate.
    + destruct H as (-> & _ & Lt & Nl & H & _). exists p'. cbn in *. split; [reflexivity|]. split; [now apply H|].
      split; [split; [discriminate|intros; lia]|]. intros c E. injection E as <-. auto.
  - destruct (free_inv _ _ _ _ _ I M) as (p' & -> & H). exists p'. cbn. auto.
  - destruct (put_inv _ _ _ _ _ v I M) as (p' & -> & H). exists p'. cbn. auto.
  - unfold emplace. destruct (alloc_inv _ _ _ _ None I) as (p' & r & -> & H). cbn [bind]. destruct fl as [|b t].
    + destruct H as [-> ->]. exists p. cbn in *. split; [reflexivity|]. split; [exact I|].
      split; [split; [intros _; lia|reflexivity]|]. discriminate.
    + destruct H as (-> & E & Lt & Nl & _ & H). unfold put. rewrite E, wr_ok by (rewrite (i_len _ _ _ _ I); exact Lt).
      cbn [bind]. eexists. cbn in *. split; [reflexivity|]. split; [apply H|].
      split; [split; [discriminate|intros; lia]|]. intros c J. injection J as <-. auto.
  - destruct M as [v K]. unfold erase. rewrite (get_inv _ _ _ _ _ _ I K). cbn [bind].
    destruct (free_inv _ _ _ _ b I (in_blocks _ _ _ K)) as (p' & -> & H). exists p'. cbn. auto.
Qed.

Definition spare_of (N : nat) (ops : list (pop_ A)) : list nat :=
  fold_left (fun s op => fst (spare1 s op)) ops (seq 0 N).

Lemma live_snoc tr (e : pop_ A * answer) : live (tr ++ [e]) = live1 (live tr) e.
Proof. unfold live. rewrite fold_left_app. reflexivity. Qed.

Lemma exec_inv N tr p : 0 < N -> exec N tr p -> inv N (live tr) p (spare_of N (map fst tr)).
Proof.
  intros P E. induction E as [p E|tr p op r p' E IH M St].
  - destruct (init_ok N P) as (q & E' & I). rewrite E in E'. injection E' as <-. exact I.
  - destruct (step_inv _ _ _ _ _ IH M) as (q & E' & I & _). rewrite St in E'. injection E' as <- ->.
    rewrite live_snoc. unfold spare_of. rewrite map_app, fold_left_app. exact I.
Qed.

Lemma exclusive N tr p op : 0 < N -> exec N tr p -> may (live tr) op ->
  exists p' r, step p op = Ok (p', r) /\ answers_well N (live tr) op r.
Proof.
  intros P E M. destruct (step_inv _ _ _ _ _ (exec_inv _ _ _ P E) M) as (q & E' & _ & W). eauto.
Qed.

Lemma starts N : 0 < N -> exists p : pool A, pool_init N = Ok p.
Proof. intros P. destruct (init_ok N P) as (q & E & _). eauto. Qed.

Lemma count_ok cs h fl fuel n : chain cs h fl -> length fl < fuel -> count_free fuel cs h n = Ok (length fl + n).
Proof.
  revert h fuel n. induction fl as [|b t IH]; intros h fuel n C L; (destruct fuel as [|fuel]; [cbn in L; lia|]); cbn.
  - rewrite C. reflexivity.
  - destruct C as (-> & m & E & C). unfold next_of, rd. rewrite E. cbn [bind]. rewrite IH; [|exact C|cbn in L; lia].
    f_equal. lia.
Qed.

Lemma accounting N tr p : 0 < N -> exec N tr p ->
  exists a, available p = Ok a /\ a + length (live tr) = N /\ (full p = true <-> length (live tr) = N).
Proof.
  intros P E. pose proof (exec_inv _ _ _ P E) as I. pose proof (inv_count _ _ _ _ I) as Cnt.
  pose proof (i_chain _ _ _ _ I) as C. pose proof (i_len _ _ _ _ I) as L.
  eexists. unfold available. split; [apply count_ok; [exact C|lia]|]. split; [lia|].
  unfold full. destruct (spare_of N (map fst tr)) as [|b t].
  - cbn in C. rewrite C. cbn in Cnt. tauto.
  - destruct C as (-> & _). cbn in Cnt. split; [discriminate|lia].
Qed.

Lemma contents N tr p : 0 < N -> exec N tr p ->
  NoDup (blocks (live tr)) /\ Forall (fun b => b < N) (blocks (live tr)) /\
  (forall b v, In (b, Some v) (live tr) -> get p b = Ok v).
Proof.
  intros P E. pose proof (exec_inv _ _ _ P E) as I. split; [|split].
  - pose proof (inv_nodup _ _ _ _ I) as D. clear -D. induction (spare_of N (map fst tr)); [exact D|]. inversion D; auto.
  - apply Forall_forall. intros b K. eapply inv_lt; [exact I|]. apply in_or_app. now right.
  - intros b v K. eapply get_inv; eauto.
Qed.

Lemma spare_snoc s ops (op : pop_ A) :
  spare s (ops ++ [op]) = spare s ops ++ [snd (spare1 (fold_left (fun s op => fst (spare1 s op)) ops s) op)].
Proof.
  revert s. induction ops as [|o ops IH]; intros s; cbn.
  - destruct (spare1 s op); reflexivity.
  - destruct (spare1 s o) as [s' r] eqn:E. cbn. f_equal. apply IH.
Qed.

Lemma reuse N tr p : 0 < N -> exec N tr p -> map snd tr = spare (seq 0 N) (map fst tr).
Proof.
  intros P E. induction E as [p E|tr p op r p' E IH M St]; [reflexivity|].
  destruct (step_inv _ _ _ _ _ (exec_inv _ _ _ P E) M) as (q & E' & _). rewrite St in E'. injection E' as _ ->.
  rewrite !map_app. cbn [map snd fst]. rewrite spare_snoc, IH. reflexivity.
Qed.
Lemma copy_same N tr (p : pool A) : 0 < N -> exec N tr p -> length (live tr) < N ->
  exists p' b, alloc p = Ok (p', Some b) /\ exists q c, copy_alloc p' (copy p) = Ok (q, c, Some b).
Proof.
  intros HN E L. destruct (exclusive N tr p Alloc HN E I) as (p' & r & S1 & [W _]).
  cbn in S1. destruct r as [b|]; [|exfalso; pose proof (proj1 W eq_refl); lia].
  exists p', b. split; [exact S1|].
  unfold copy_alloc, copy. cbn [copied_head own_cells].
  assert (Ec : cells p' = cells p).
  { revert S1. unfold alloc, alloc_next. destruct (full p); [discriminate|].
    destruct (head p) as [h|]; cbn; [|discriminate].
    destruct (next_of (cells p) h) as [n| |]; cbn; try discriminate. intros Q. injection Q as <- <-. reflexivity. }
  rewrite Ec. replace (Pool (cells p) (head p)) with p by (destruct p; reflexivity).
  rewrite S1. cbn. eauto.
Qed.

Lemma copy_used N tr (p : pool A) v : 0 < N -> exec N tr p -> length (live tr) < N ->
  exists p' b, emplace p v = Ok (p', Some b) /\ copy_alloc p' (copy p) = UB.
Proof.
  intros HN E L. destruct (exclusive N tr p (Emplace v) HN E I) as (p' & r & S1 & [W _]).
  cbn in S1. destruct r as [b|]; [|exfalso; pose proof (proj1 W eq_refl); lia].
  exists p', b. split; [exact S1|]. revert S1.
  unfold emplace, alloc, alloc_next, copy_alloc, copy, full. cbn [copied_head own_cells].
  destruct (head p) as [h|] eqn:Eh; cbn; [|discriminate].
  destruct (next_of (cells p) h) as [n| |]; cbn; try discriminate.
  unfold put. cbn [cells head]. destruct (wr (cells p) h (Bytes v)) as [cs| |] eqn:Ew; cbn; try discriminate.
  intros Q. injection Q as <- <-. destruct (wr_inv _ _ _ _ Ew) as [Lh ->].
  cbn [cells head]. unfold next_of, rd.
  rewrite nth_error_upd_eq by exact Lh. reflexivity.
Qed.

End Pool.

Lemma handle_ok N b : b < N -> b < 128 -> from_handle N (to_handle b) = Ok b.
Proof.
  intros L H. unfold to_handle, wraps. change (2 ^ (8 - 1))%Z with 128%Z. change (2 ^ 8)%Z with 256%Z.
  rewrite Z.mod_small by lia. unfold from_handle.
  replace (Z.of_nat b + 128 - 128)%Z with (Z.of_nat b) by lia.
  destruct (Z.leb_spec 0 (Z.of_nat b)); [|lia]. destruct (Z.ltb_spec (Z.of_nat b) (Z.of_nat N)); [|lia].
  cbn. now rewrite Nat2Z.id.
Qed.

Lemma handle_bad N b : 128 <= b -> from_handle N (to_handle b) <> Ok b.
Proof.
  intros H. unfold to_handle, wraps, from_handle. change (2 ^ (8 - 1))%Z with 128%Z. change (2 ^ 8)%Z with 256%Z.
  set (h := ((Z.of_nat b + 128) mod 256 - 128)%Z).
  assert (-128 <= h < 128)%Z by (pose proof (Z.mod_pos_bound (Z.of_nat b + 128) 256 ltac:(lia)); subst h; lia).
  destruct ((0 <=? h)%Z && _) eqn:E; [|discriminate]. apply andb_true_iff in E. destruct E as [E _].
  intros K. injection K as K. lia.
Qed.
