From Coq Require Import ZArith.
From Verif Require Import Base BaseLemmas MachInt Pool_Spec Pool_Proofs Mp_Spec Mp_Model.

(* ---- blocks in use and blocks to spare *)
Section Parts.
Context {A : Type}.
Implicit Types (l : list (nat * option A)) (fl : list nat).
Definition parts (N : nat) l fl : Prop := Permutation (fl ++ blocks l) (seq 0 N).
Lemma parts_nodup N l fl : parts N l fl -> NoDup (fl ++ blocks l).
Proof. intros I. eapply Permutation_NoDup; [symmetry; exact I|apply seq_NoDup]. Qed.
Lemma parts_lt N l fl b : parts N l fl -> In b (fl ++ blocks l) -> b < N.
Proof. intros I K. apply (Permutation_in _ I) in K. apply in_seq in K. lia. Qed.
Lemma parts_count N l fl : parts N l fl -> length fl + length l = N.
Proof.
  intros I. pose proof (Permutation_length I) as E. rewrite app_length, seq_length in E. unfold blocks in E. rewrite map_length in E. exact E.
Qed.
Lemma parts_live N l fl : parts N l fl -> NoDup (blocks l).
Proof. intros I. apply parts_nodup in I. induction fl as [|c fl IH]; [exact I|]. inversion I; auto. Qed.
Lemma parts_alloc N l b t x : parts N l (b :: t) -> b < N /\ ~ In b (blocks l) /\ ~ In b t /\ parts N ((b, x) :: l) t.
Proof.
  intros I. pose proof (parts_nodup _ _ _ I) as D. cbn in D. inversion D as [|? ? Nin D']; subst. repeat split.
  - eapply parts_lt; [exact I|now left].
  - intros K. apply Nin, in_or_app. now right.
  - intros K. apply Nin, in_or_app. now left.
  - unfold parts in *. rewrite <- I. cbn. symmetry. apply Permutation_middle.
Qed.
Lemma parts_used N l fl b : parts N l fl -> In b (blocks l) -> b < N /\ ~ In b fl.
Proof.
  intros I K. split; [eapply parts_lt; [exact I|apply in_or_app; now right]|].
  intros J. pose proof (parts_nodup _ _ _ I) as D. clear -D K J. induction fl as [|c fl IH]; [destruct J|]. cbn in D. inversion D; subst.
  destruct J as [->|J]; [|auto]. apply H1. apply in_or_app. now right.
Qed.
Lemma parts_free N l fl b : parts N l fl -> In b (blocks l) -> parts N (drop b l) (b :: fl).
Proof.
  intros I K. unfold parts in *. rewrite <- I. cbn. rewrite Permutation_middle. apply Permutation_app_head, drop_perm; [eapply parts_live; eauto|exact K].
Qed.
Lemma parts_write N l fl b v : parts N l fl -> In b (blocks l) -> parts N ((b, Some v) :: drop b l) fl.
Proof.
  intros I K. unfold parts in *. rewrite <- I. cbn. apply Permutation_app_head. apply drop_perm; [eapply parts_live; eauto|exact K].
Qed.
(* a program whose every allowed step is that of the stack of spare blocks *)
Variable S : Type.
Variable init : result S.
Variable step : S -> pop_ A -> result (S * answer).
Variable allowed : list (nat * option A) -> pop_ A -> Prop.
Variable N : nat.
Variable inv : list (nat * option A) -> S -> list nat -> Prop.
Hypothesis Hinit : forall p, init = Ok p -> inv [] p (seq 0 N).
Hypothesis Hstep : forall l p fl op, inv l p fl -> allowed l op ->
  exists p', step p op = Ok (p', snd (spare1 fl op)) /\ inv (live1 l (op, snd (spare1 fl op))) p' (fst (spare1 fl op)).
Hypothesis Hparts : forall l p fl, inv l p fl -> parts N l fl.
Lemma execs_inv tr p : execs init step allowed tr p -> inv (live tr) p (spare_of N (map fst tr)).
Proof.
  intros E. induction E as [p E|tr p op r p' E IH M St]; [apply Hinit; exact E|].
  destruct (Hstep _ _ _ _ IH M) as (q & E' & I). rewrite St in E'. injection E' as <- ->.
  rewrite live_snoc. unfold spare_of. rewrite map_app, fold_left_app. exact I.
Qed.
Lemma answers l p fl op : inv l p fl -> allowed l op -> answers_well N l op (snd (spare1 fl op)).
Proof.
  intros I _. pose proof (parts_count _ _ _ (Hparts _ _ _ I)) as Cnt. apply Hparts in I.
  destruct op as [|b|b v|v|b]; cbn; try reflexivity; (destruct fl as [|b t]; cbn in *; [split; [split; [intros _; lia|reflexivity]|discriminate]|];
    destruct (parts_alloc _ _ _ _ None I) as (Lt & Nl & _); split; [split; [discriminate|intros; lia]|]; intros c [= <-]; auto).
Qed.
Lemma execs_exclusive tr p op : execs init step allowed tr p -> allowed (live tr) op -> exists p' r, step p op = Ok (p', r) /\ answers_well N (live tr) op r.
Proof.
  intros E M. pose proof (execs_inv _ _ E) as I. destruct (Hstep _ _ _ _ I M) as (q & E' & _). eexists. eexists. split; [exact E'|]. eapply answers; eauto.
Qed.
Lemma execs_reuse tr p : execs init step allowed tr p -> map snd tr = spare (seq 0 N) (map fst tr).
Proof.
  intros E. induction E as [p E|tr p op r p' E IH M St]; [reflexivity|].
  destruct (Hstep _ _ _ _ (execs_inv _ _ E) M) as (q & E' & _). rewrite St in E'. injection E' as _ ->.
  rewrite !map_app. cbn [map snd fst]. rewrite spare_snoc, IH. reflexivity.
Qed.
Lemma execs_live tr p : execs init step allowed tr p -> NoDup (blocks (live tr)) /\ Forall (fun b => b < N) (blocks (live tr)).
Proof.
  intros E. pose proof (Hparts _ _ _ (execs_inv _ _ E)) as I. split; [eapply parts_live; eauto|].
  apply Forall_forall. intros b K. eapply parts_lt; [exact I|]. apply in_or_app. now right.
Qed.
End Parts.

(* ---- memory_pool_1 *)
Section One.
Context {A : Type}.
Variable N : nat.
Hypothesis Hn : 0 < N.
Hypothesis HN : (Z.of_nat N < 2 ^ 31)%Z.
Implicit Types (p : pool1 A).
Lemma below_eol b : b < N -> (Z.of_nat b < eol N)%Z.
Proof.
  intros L. unfold eol, width. destruct (Z.leb_spec (Z.of_nat N) 255); [change (2 ^ 8)%Z with 256%Z; lia|].
  destruct (Z.leb_spec (Z.of_nat N) 65535); [change (2 ^ 16)%Z with 65536%Z; lia|]. change (2 ^ 32)%Z with (2 * 2 ^ 31)%Z. lia.
Qed.
Lemma small_wrap z : (0 <= z <= Z.of_nat N)%Z -> wrapu (width N) z = z.
Proof.
  intros L. unfold wrapu. apply Z.mod_small. unfold width. destruct (Z.leb_spec (Z.of_nat N) 255); [change (2 ^ 8)%Z with 256%Z; lia|].
  destruct (Z.leb_spec (Z.of_nat N) 65535); [change (2 ^ 16)%Z with 65536%Z; lia|]. change (2 ^ 32)%Z with (2 * 2 ^ 31)%Z. lia.
Qed.
Lemma handle_id b : b < N -> handle_of N b = Z.of_nat b.
Proof. intros L. apply small_wrap. lia. Qed.

Fixpoint chain1 (nx : list (option Z)) (h : Z) (fl : list nat) : Prop :=
  match fl with
  | [] => h = eol N
  | b :: t => h = Z.of_nat b /\ b < N /\ exists n, nth_error nx b = Some (Some n) /\ chain1 nx n t
  end.
Lemma chain1_upd nx h fl b x : ~ In b fl -> chain1 nx h fl -> chain1 (upd nx b x) h fl.
Proof.
  revert h. induction fl as [|c fl IH]; intros h Nin C; [exact C|]. destruct C as (-> & L & n & E & C). split; [reflexivity|]. split; [exact L|]. exists n. split.
  - rewrite nth_error_upd_neq; [exact E|]. intros ->. apply Nin. now left.
  - apply IH; [|exact C]. intros K. apply Nin. now right.
Qed.
Record inv1 (l : list (nat * option A)) p (fl : list nat) : Prop := {
  i1_v : length (vals p) = N; i1_n : length (nexts p) = N;
  i1_chain : chain1 (nexts p) (front p) fl;
  i1_parts : parts N l fl;
  i1_val : forall b v, In (b, Some v) l -> nth_error (vals p) b = Some (Some v) }.
Lemma push_ok p b : length (nexts p) = N -> b < N -> push_front N p b = Ok (Pool1 (vals p) (upd (nexts p) b (Some (front p))) (Z.of_nat b)).
Proof.
  intros E L. unfold push_front, set_next1. rewrite handle_id by exact L. destruct (Z.ltb_spec (Z.of_nat b) (Z.of_nat N)); [|lia].
  rewrite Nat2Z.id, wr_ok by (rewrite E; exact L). reflexivity.
Qed.
Lemma prime_ok k : forall i p, i + k < N -> length (nexts p) = N ->
  exists nx, prime N k i p = Ok (Pool1 (vals p) nx (front p)) /\ length nx = N /\
    (forall j, nth_error nx j = if (i <=? j) && (j <? i + k) then Some (Some (Z.of_nat (S j))) else nth_error (nexts p) j).
Proof.
  induction k as [|k IH]; intros i p L E.
  - exists (nexts p). split; [destruct p; reflexivity|]. split; [exact E|]. intros j. replace ((i <=? j) && (j <? i + 0)) with false; [reflexivity|].
    symmetry. destruct (Nat.leb_spec i j), (Nat.ltb_spec j (i + 0)); cbn; lia.
  - cbn [prime]. rewrite wr_ok by lia. cbn [bind]. rewrite small_wrap by lia.
    destruct (IH (S i) (Pool1 (vals p) (upd (nexts p) i (Some (Z.of_nat (S i)))) (front p)) ltac:(lia) ltac:(cbn; rewrite upd_length; exact E)) as (nx & E1 & L1 & H).
    exists nx. split; [exact E1|]. split; [exact L1|]. intros j. rewrite H. cbn [nexts].
    destruct (Nat.eq_dec j i) as [->|Ne].
    + rewrite nth_error_upd_eq by lia. destruct (Nat.leb_spec (S i) i); [lia|]. cbn [andb]. destruct (Nat.leb_spec i i), (Nat.ltb_spec i (i + S k)); cbn; try lia. reflexivity.
    + rewrite nth_error_upd_neq by congruence.
      destruct (Nat.leb_spec (S i) j), (Nat.ltb_spec j (S i + k)), (Nat.leb_spec i j), (Nat.ltb_spec j (i + S k)); cbn; try lia; reflexivity.
Qed.
Lemma init1_inv p : init1 N = Ok p -> inv1 [] p (seq 0 N).
Proof.
  unfold init1. destruct (Nat.ltb_spec 0 N) as [_|]; [|lia]. rewrite push_ok by (cbn; rewrite ?repeat_length; lia). cbn [bind].
  destruct (prime_ok (N - 1) 0 (Pool1 (repeat None N) (upd (repeat None N) 0 (Some (eol N))) (Z.of_nat 0)) ltac:(lia) ltac:(cbn; rewrite upd_length, repeat_length; reflexivity)) as (nx & E & L & H).
  cbn [vals nexts front] in *. rewrite E. cbn [bind nexts]. rewrite wr_ok by lia. cbn [bind]. intros [= <-]. constructor; cbn [vals nexts front].
  - apply repeat_length.
  - rewrite upd_length. exact L.
  - assert (G : forall k i, i + k = N -> 0 < k -> chain1 (upd nx (N - 1) (Some (eol N))) (Z.of_nat i) (seq i k)).
    { induction k as [|k IH]; intros i Ei Ek; [lia|]. cbn [seq chain1]. split; [reflexivity|]. split; [lia|]. destruct k as [|k].
      - exists (eol N). replace (N - 1) with i by lia. rewrite nth_error_upd_eq by lia. split; reflexivity.
      - exists (Z.of_nat (S i)). split; [|apply IH; lia]. rewrite nth_error_upd_neq, H by lia.
        destruct (Nat.leb_spec 0 i), (Nat.ltb_spec i (0 + (N - 1))); cbn; try lia. reflexivity. }
    apply (G N 0); lia.
  - unfold parts. cbn. rewrite app_nil_r. reflexivity.
  - intros b v [].
Qed.
Lemma init1_starts : exists p : pool1 A, init1 N = Ok p.
Proof.
  unfold init1. destruct (Nat.ltb_spec 0 N) as [_|]; [|lia]. rewrite push_ok by (cbn; rewrite ?repeat_length; lia). cbn [bind].
  destruct (prime_ok (N - 1) 0 (Pool1 (repeat None N) (upd (repeat None N) 0 (Some (eol N))) (Z.of_nat 0)) ltac:(lia) ltac:(cbn; rewrite upd_length, repeat_length; reflexivity)) as (nx & E & L & _).
  cbn [vals nexts front] in *. rewrite E. cbn [bind nexts]. rewrite wr_ok by lia. cbn [bind]. eauto.
Qed.
Lemma alloc1_inv l p fl : inv1 l p fl ->
  match fl with
  | [] => allocate1 N p = Ok (p, None)
  | b :: t => exists n, allocate1 N p = Ok (Pool1 (vals p) (nexts p) n, Some b) /\ b < N /\ ~ In b (blocks l) /\ chain1 (nexts p) n t
  end.
Proof.
  intros I. unfold allocate1, empty1. pose proof (i1_chain _ _ _ I) as C. destruct fl as [|b t].
  - cbn in C. rewrite C, Z.eqb_refl. reflexivity.
  - destruct C as (-> & L & n & E & C). pose proof (below_eol b L). destruct (Z.eqb_spec (Z.of_nat b) (eol N)); [lia|].
    unfold next1. destruct (Z.ltb_spec (Z.of_nat b) (Z.of_nat N)); [|lia]. rewrite Nat2Z.id. unfold rd. rewrite E. cbn [bind].
    exists n. split; [reflexivity|]. split; [exact L|]. split; [|exact C]. apply (parts_alloc _ _ _ _ None (i1_parts _ _ _ I)).
Qed.
Lemma free1_inv l p fl b : inv1 l p fl -> In b (blocks l) -> exists p', deallocate1 N p b = Ok p' /\ inv1 (drop b l) p' (b :: fl).
Proof.
  intros I K. destruct (parts_used _ _ _ _ (i1_parts _ _ _ I) K) as (L & Nf). unfold deallocate1. rewrite push_ok by (exact L || apply (i1_n _ _ _ I)).
  eexists. split; [reflexivity|]. constructor; cbn [vals nexts front].
  - apply (i1_v _ _ _ I).
  - rewrite upd_length. apply (i1_n _ _ _ I).
  - split; [reflexivity|]. split; [exact L|]. exists (front p). split; [apply nth_error_upd_eq; rewrite (i1_n _ _ _ I); exact L|].
    apply chain1_upd; [exact Nf|apply (i1_chain _ _ _ I)].
  - apply parts_free; [apply (i1_parts _ _ _ I)|exact K].
  - intros c v J. apply in_drop in J. apply (i1_val _ _ _ I), J.
Qed.
Lemma step1_inv l p fl op : inv1 l p fl -> allowed1 N l op ->
  exists p', step1 N p op = Ok (p', snd (spare1 fl op)) /\ inv1 (live1 l (op, snd (spare1 fl op))) p' (fst (spare1 fl op)).
Proof.
  intros I (M & M2). pose proof (parts_count _ _ _ (i1_parts _ _ _ I)) as Cnt. destruct op as [|b|b v|v|b]; cbn [step1].
  - pose proof (alloc1_inv _ _ _ I) as H. destruct fl as [|b t]; [rewrite H; exists p; split; [reflexivity|exact I]|].
    destruct H as (n & -> & L & Nl & C). eexists. split; [reflexivity|]. cbn. constructor; cbn [vals nexts front]; try apply I; [exact C| |].
    + apply (parts_alloc _ _ _ _ None (i1_parts _ _ _ I)).
    + intros c v [K|K]; [discriminate|]. apply (i1_val _ _ _ I _ _ K).
  - destruct (free1_inv _ _ _ _ I M) as (p' & -> & H). exists p'. split; [reflexivity|exact H].
  - destruct (parts_used _ _ _ _ (i1_parts _ _ _ I) M) as (L & Nf). unfold put1. rewrite wr_ok by (rewrite (i1_v _ _ _ I); exact L). cbn [bind].
    eexists. split; [reflexivity|]. cbn. constructor; cbn [vals nexts front]; try apply I.
    + rewrite upd_length. apply (i1_v _ _ _ I).
    + apply (parts_write _ _ _ _ v (i1_parts _ _ _ I) M).
    + intros c w [J|J].
      * injection J as <- <-. apply nth_error_upd_eq. rewrite (i1_v _ _ _ I). exact L.
      * apply in_drop in J. destruct J as [J Ne]. rewrite nth_error_upd_neq by congruence. apply (i1_val _ _ _ I _ _ J).
  - pose proof (alloc1_inv _ _ _ I) as H. destruct fl as [|b t]; [cbn in Cnt; lia|].
    destruct H as (n & E & L & Nl & C). unfold construct1. rewrite E. cbn [bind]. unfold put1. cbn [vals]. rewrite wr_ok by (rewrite (i1_v _ _ _ I); exact L). cbn [bind].
    eexists. split; [reflexivity|]. cbn. constructor; cbn [vals nexts front]; try apply I; [|exact C| |].
    + rewrite upd_length. apply (i1_v _ _ _ I).
    + apply (parts_alloc _ _ _ _ (Some v) (i1_parts _ _ _ I)).
    + intros c w [K|K].
      * injection K as <- <-. apply nth_error_upd_eq. rewrite (i1_v _ _ _ I). exact L.
      * rewrite nth_error_upd_neq; [apply (i1_val _ _ _ I _ _ K)|]. intros ->. apply Nl. eapply in_blocks, K.
  - destruct M as [v K]. pose proof (in_blocks _ _ _ K) as Kb. destruct (parts_used _ _ _ _ (i1_parts _ _ _ I) Kb) as (L & Nf).
    unfold destroy1, get1, rd. rewrite (i1_val _ _ _ I _ _ K). cbn [bind]. rewrite wr_ok by (rewrite (i1_v _ _ _ I); exact L). cbn [bind].
    unfold deallocate1. rewrite push_ok by (exact L || apply (i1_n _ _ _ I)). cbn [bind vals nexts front]. eexists. split; [reflexivity|]. cbn. constructor; cbn [vals nexts front].
    + rewrite upd_length. apply (i1_v _ _ _ I).
    + rewrite upd_length. apply (i1_n _ _ _ I).
    + split; [reflexivity|]. split; [exact L|]. exists (front p). split; [apply nth_error_upd_eq; rewrite (i1_n _ _ _ I); exact L|].
      apply chain1_upd; [exact Nf|apply (i1_chain _ _ _ I)].
    + apply parts_free; [apply (i1_parts _ _ _ I)|exact Kb].
    + intros c w J. apply in_drop in J. destruct J as (J & Ne). rewrite nth_error_upd_neq by congruence. apply (i1_val _ _ _ I _ _ J).
Qed.
Lemma distance_ok nx v f : forall fl fuel h c, chain1 nx h fl -> length fl < fuel -> (0 <= c)%Z -> (c + Z.of_nat (length fl) < 2 ^ 31)%Z ->
  distance1 N fuel (Pool1 v nx f : pool1 A) h c = Ok (c + Z.of_nat (length fl))%Z.
Proof.
  induction fl as [|b t IH]; intros [|fuel] h c C Lf Hc Hs; cbn in Lf; try lia.
  - cbn in C. cbn. rewrite C, Z.eqb_refl. f_equal. lia.
  - destruct C as (-> & L & n & E & C). cbn [distance1]. pose proof (below_eol b L). destruct (Z.eqb_spec (Z.of_nat b) (eol N)); [lia|].
    cbn [length] in Hs. destruct (Z.eqb_spec c (2 ^ 31 - 1)); [lia|].
    unfold next1. destruct (Z.ltb_spec (Z.of_nat b) (Z.of_nat N)); [|lia]. rewrite Nat2Z.id. unfold rd. cbn [nexts]. rewrite E. cbn [bind].
    rewrite IH by (auto; lia). f_equal. cbn [length]. lia.
Qed.
Lemma count1_ok l p fl : inv1 l p fl -> count_free1 N p = Ok (Z.of_nat (length fl)).
Proof.
  intros I. pose proof (parts_count _ _ _ (i1_parts _ _ _ I)) as Cnt. unfold count_free1. destruct p as [v nx f].
  rewrite (distance_ok nx v f fl); [|apply (i1_chain _ _ _ I)|lia|lia|lia]. cbn [bind]. rewrite Z.add_0_l, small_wrap by lia. reflexivity.
Qed.
Lemma construct_full l p v : inv1 l p [] -> construct1 N p v = UB.
Proof. intros I. unfold construct1. rewrite (alloc1_inv _ _ _ I). reflexivity. Qed.
End One.

(* ---- alignment *)
Lemma item_size_exact sz wid : (0 < wid)%Z -> (sz mod wid = 0)%Z -> item_size sz wid = (sz + wid)%Z.
Proof.
  intros P H. unfold item_size. replace (- (sz + wid))%Z with (0 + (- (sz / wid) - 1) * wid)%Z; [rewrite Z_mod_plus_full, Z.mod_0_l by lia; lia|].
  pose proof (Z.div_mod sz wid ltac:(lia)). nia.
Qed.
Lemma misaligned base sz wid al : (0 < wid < al)%Z -> (sz mod wid = 0)%Z -> (sz mod al = 0)%Z ->
  (block_address base sz wid 0 mod al = 0)%Z -> (block_address base sz wid 1 mod al <> 0)%Z.
Proof.
  intros P Hw Ha H0 H1. unfold block_address in *. rewrite item_size_exact in * by lia. cbn in H0, H1. rewrite Z.add_0_r in H0.
  replace (base + match sz + wid with 0 => 0 | Z.pos y' => Z.pos y' | Z.neg y' => Z.neg y' end)%Z with (base + (sz + wid))%Z in H1 by (destruct (sz + wid)%Z; reflexivity).
  rewrite Z.add_mod, H0, Z.add_0_l, Z.mod_mod, Z.add_mod, Ha, Z.add_0_l, Z.mod_mod in H1 by lia. rewrite Z.mod_small in H1 by lia. lia.
Qed.

(* ---- the second pool *)
Section Two.
Context {A : Type}.
Variable N : nat.
Implicit Types (p : pool2 A) (cs : list (cell2 A)).
Fixpoint chain2 cs (h : nat) (fl : list nat) : Prop :=
  match fl with
  | [] => h = N
  | b :: t => h = b /\ b < N /\ exists n, nth_error cs b = Some (Link n) /\ chain2 cs n t
  end.
Lemma chain2_upd cs h fl b x : ~ In b fl -> chain2 cs h fl -> chain2 (upd cs b x) h fl.
Proof.
  revert h. induction fl as [|c fl IH]; intros h Nin C; [exact C|]. destruct C as (-> & L & n & E & C). split; [reflexivity|]. split; [exact L|]. exists n. split.
  - rewrite nth_error_upd_neq; [exact E|]. intros ->. apply Nin. now left.
  - apply IH; [|exact C]. intros K. apply Nin. now right.
Qed.
Record inv2 (l : list (nat * option A)) p (fl : list nat) : Prop := {
  i2_n : length (cells2 p) = N;
  i2_chain : chain2 (cells2 p) (head2 p) fl;
  i2_parts : parts N l fl;
  i2_val : forall b v, In (b, Some v) l -> nth_error (cells2 p) b = Some (Held v) }.
Lemma init_loop_ok k : forall i cs, i + k = N -> length cs = N ->
  exists cs', init_loop k i cs = Ok cs' /\ length cs' = N /\ forall j, nth_error cs' j = if (i <=? j) && (j <? N) then Some (Link (S j)) else nth_error cs j.
Proof.
  induction k as [|k IH]; intros i cs E L.
  - exists cs. split; [reflexivity|]. split; [exact L|]. intros j. destruct (Nat.leb_spec i j), (Nat.ltb_spec j N); cbn; try reflexivity; lia.
  - cbn [init_loop]. rewrite wr_ok by lia. cbn [bind]. destruct (IH (S i) (upd cs i (Link (S i))) ltac:(lia) ltac:(rewrite upd_length; exact L)) as (cs' & E1 & L1 & H).
    exists cs'. split; [exact E1|]. split; [exact L1|]. intros j. rewrite H. destruct (Nat.eq_dec j i) as [->|Ne].
    + rewrite nth_error_upd_eq by lia. destruct (Nat.leb_spec (S i) i); [lia|]. cbn [andb]. destruct (Nat.leb_spec i i), (Nat.ltb_spec i N); cbn; try lia. reflexivity.
    + rewrite nth_error_upd_neq by congruence. destruct (Nat.leb_spec (S i) j), (Nat.ltb_spec j N), (Nat.leb_spec i j); cbn; try lia; reflexivity.
Qed.
Lemma init2_ok : exists p, init2 N = Ok p /\ inv2 [] p (seq 0 N).
Proof.
  unfold init2. destruct (init_loop_ok N 0 (repeat Raw2 N) eq_refl (repeat_length _ _)) as (cs & E & L & H). rewrite E. cbn [bind].
  eexists. split; [reflexivity|]. constructor; cbn [cells2 head2].
  - exact L.
  - assert (G : forall k i, i + k = N -> chain2 cs i (seq i k)).
    { induction k as [|k IH]; intros i Ei; cbn; [lia|]. split; [reflexivity|]. split; [lia|]. exists (S i). split; [|apply IH; lia].
      rewrite H. destruct (Nat.leb_spec 0 i), (Nat.ltb_spec i N); cbn; try lia. reflexivity. }
    apply (G N 0). reflexivity.
  - unfold parts. cbn. rewrite app_nil_r. reflexivity.
  - intros b v [].
Qed.
Lemma init2_inv p : init2 N = Ok p -> inv2 [] p (seq 0 N).
Proof. intros E. destruct init2_ok as (q & E' & I). rewrite E in E'. injection E' as <-. exact I. Qed.
Lemma step2_inv l p fl op : inv2 l p fl -> allowed2 l op ->
  exists p', step2 N p op = Ok (p', snd (spare1 fl op)) /\ inv2 (live1 l (op, snd (spare1 fl op))) p' (fst (spare1 fl op)).
Proof.
  intros I (M & M2). destruct op as [|b|b v|v|b]; cbn [step2]; try contradiction.
  - unfold allocate2. pose proof (i2_chain _ _ _ I) as C. destruct fl as [|b t].
    + cbn in C. rewrite C, Nat.eqb_refl. exists p. split; [reflexivity|exact I].
    + destruct C as (E0 & L & n & E & C). rewrite E0. destruct (Nat.eqb_spec b N); [lia|]. unfold rd. rewrite E. cbn [bind]. eexists. split; [reflexivity|].
      cbn. constructor; cbn [cells2 head2]; try apply I; [exact C| |].
      * apply (parts_alloc _ _ _ _ None (i2_parts _ _ _ I)).
      * intros c v [K|K]; [discriminate|]. apply (i2_val _ _ _ I _ _ K).
  - destruct (parts_used _ _ _ _ (i2_parts _ _ _ I) M) as (L & Nf). unfold deallocate2. rewrite wr_ok by (rewrite (i2_n _ _ _ I); exact L). cbn [bind].
    eexists. split; [reflexivity|]. cbn. constructor; cbn [cells2 head2].
    + rewrite upd_length. apply (i2_n _ _ _ I).
    + split; [reflexivity|]. split; [exact L|]. exists (head2 p). split; [apply nth_error_upd_eq; rewrite (i2_n _ _ _ I); exact L|].
      apply chain2_upd; [exact Nf|apply (i2_chain _ _ _ I)].
    + apply parts_free; [apply (i2_parts _ _ _ I)|exact M].
    + intros c v J. apply in_drop in J. destruct J as (J & Ne). rewrite nth_error_upd_neq by congruence. apply (i2_val _ _ _ I _ _ J).
  - destruct (parts_used _ _ _ _ (i2_parts _ _ _ I) M) as (L & Nf). unfold put2. rewrite wr_ok by (rewrite (i2_n _ _ _ I); exact L). cbn [bind].
    eexists. split; [reflexivity|]. cbn. constructor; cbn [cells2 head2].
    + rewrite upd_length. apply (i2_n _ _ _ I).
    + apply chain2_upd; [exact Nf|apply (i2_chain _ _ _ I)].
    + apply (parts_write _ _ _ _ v (i2_parts _ _ _ I) M).
    + intros c w [J|J].
      * injection J as <- <-. apply nth_error_upd_eq. rewrite (i2_n _ _ _ I). exact L.
      * apply in_drop in J. destruct J as [J Ne]. rewrite nth_error_upd_neq by congruence. apply (i2_val _ _ _ I _ _ J).
Qed.
Lemma count2_ok k : forall fuel i c, i + k = N -> k < fuel -> count_loop2 N fuel i c = Ok (c + k).
Proof.
  induction k as [|k IH]; intros [|fuel] i c E L; try lia; cbn.
  - destruct (Nat.eqb_spec i N); [|lia]. f_equal. lia.
  - destruct (Nat.eqb_spec i N); [lia|]. rewrite IH by lia. f_equal. lia.
Qed.
Lemma count2_position l p fl : inv2 l p fl -> count_free2 N p = Ok (N - match fl with [] => N | b :: _ => b end).
Proof.
  intros I. unfold count_free2. pose proof (i2_chain _ _ _ I) as C.
  assert (head2 p = match fl with [] => N | b :: _ => b end /\ head2 p <= N) as (E & L) by (destruct fl; cbn in C; lia).
  rewrite <- E. rewrite (count2_ok (N - head2 p)) by lia. f_equal.
Qed.
End Two.
