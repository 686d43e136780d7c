(* C332-C337: proxies for elements of memory that must be locked *)
From Coq Require Import ZArith Lia.
From Verif Require Import Base Acc_Spec Acc_Model Acc_Proofs.
Local Open Scope res_scope.

(* C332: whatever the allocator moves, every history of proxies acts on the elements they stand for and leaves
   nothing locked *)
Theorem C332_proxies_lock_and_unlock : forall {A} (ltA eqA : A -> A -> bool) moves c at_ os b i,
  aideal_run ltA eqA (AI c at_) os = Some (b, i) ->
  exists s, arun ltA eqA moves (astart c at_) os = Ok (b, s) /\
    (forall k, cont (a_mem s) k = ai_mem i k) /\ (forall k, locks (a_mem s) k = 0).
Proof.
  intros A ltA eqA moves c at_ os b i E.
  destruct (run_ok ltA eqA moves os (astart c at_) (AI c at_) b i) as (s & Q & C & _ & F); auto.
  - split; [|split]; intro; reflexivity.
  - eauto.
Qed.
Print Assumptions C332_proxies_lock_and_unlock.
Definition case_mem (b : nat) : list nat := match b with 0 => [1; 2; 3] | 1 => [4; 5] | _ => [] end.
Definition case_ops : list (aop nat) :=
  [ARead 0; AForward 0 2; AAssign 0 9; ACopy 1 0; ABack 1 1; ARead 1; ALess 0 10; AEq 0 9; ANe 1 2; AGreater 2 3; AAssign 2 7; ARead 2].
Example C332_case :
  (exists i, aideal_run Nat.ltb Nat.eqb (AI case_mem (fun t => match t with 2 => (1, 0) | _ => (0, 0) end)) case_ops =
    Some ([AoVal 1; AoVal 2; AoBool true; AoBool true; AoBool false; AoBool true; AoVal 7], i) /\ ai_mem i 0 = [1; 2; 9] /\ ai_mem i 1 = [7; 5]) /\
  match arun Nat.ltb Nat.eqb (fun _ _ => true) (astart case_mem (fun t => match t with 2 => (1, 0) | _ => (0, 0) end)) case_ops with
  | Ok (b, s) => b = [AoVal 1; AoVal 2; AoBool true; AoBool true; AoBool false; AoBool true; AoVal 7] /\ Nat.ltb 5 (gen (a_mem s) 0) = true
  | _ => False
  end.
Proof. split; [eexists; (split; [cbv; reflexivity|]); split; reflexivity|vm_compute; split; reflexivity]. Qed.

(* C333 (false): t = u between two proxies gives the element of t the value of the element of u *)
Theorem C333_assigning_proxies_rebinds_refuted : forall {A} (ltA eqA : A -> A -> bool) moves c at_ os b b' i s t u v x y,
  aideal_run ltA eqA (AI c at_) os = Some (b, i) -> arun ltA eqA moves (astart c at_) os = Ok (b', s) ->
  v <> t -> ai_at i v = ai_at i t -> ai_value i t = Some x -> ai_value i u = Some y -> x <> y ->
  exists s1 s2, astep ltA eqA moves (assign_acc s t u) (ARead v) = Ok ([AoVal x], s1) /\
    astep ltA eqA moves s1 (ARead t) = Ok ([AoVal y], s2).
Proof.
  intros A ltA eqA moves c at_ os b b' i s t u v x y E Q N P X Y _.
  destruct (run_ok ltA eqA moves os (astart c at_) (AI c at_) b i) as (s' & Q' & R); auto; [split; [|split]; intro; reflexivity|].
  rewrite Q in Q'. injection Q' as _ <-.
  assert (R1 : rel (assign_acc s t u) (AI (ai_mem i) (set_at (ai_at i) t (ai_at i u)))).
  { destruct R as (C & T & F). split; [|split]; simpl; auto. intros z. unfold set_at. destruct (Nat.eqb z t); auto. }
  destruct (step_ok ltA eqA moves _ _ (ARead v) [AoVal x] (AI (ai_mem i) (set_at (ai_at i) t (ai_at i u))) R1) as (s1 & S1 & R2).
  { simpl. unfold ai_value. simpl. unfold set_at. destruct (Nat.eqb_spec v t); [contradiction|]. rewrite P.
    unfold ai_value in X. rewrite X. reflexivity. }
  destruct (step_ok ltA eqA moves _ _ (ARead t) [AoVal y] (AI (ai_mem i) (set_at (ai_at i) t (ai_at i u))) R2) as (s2 & S2 & _).
  { simpl. unfold ai_value. simpl. unfold set_at. rewrite Nat.eqb_refl. unfold ai_value in Y. rewrite Y. reflexivity. }
  eauto.
Qed.
Print Assumptions C333_assigning_proxies_rebinds_refuted.
Example C333_case : exists i, aideal_run Nat.ltb Nat.eqb (AI case_mem (fun _ => (0, 0))) [AForward 1 1] = Some ([], i) /\
  ai_at i 2 = ai_at i 0 /\ ai_value i 0 = Some 1 /\ ai_value i 1 = Some 2.
Proof. eexists. split; [cbv; reflexivity|]. repeat split. Qed.

(* C334 (false): proxies of the second kind and iterators leave the memory unlocked *)
Theorem C334_conversion_leaves_locked_refuted : forall {A} moves (m : @mem A) t v m',
  la_convert moves m t = Ok (v, m') -> locks m' (fst t) = S (locks m (fst t)).
Proof.
  intros A moves m t v m'. unfold la_convert. destruct (lock moves m (fst t) (snd t)) as [r m1] eqn:E.
  destruct (load m1 r); try discriminate. cbn [bind]. intros Q. injection Q as _ <-. unfold lock in E. injection E as _ <-.
  simpl. apply set_at_same.
Qed.
Print Assumptions C334_conversion_leaves_locked_refuted.
Theorem C334_iterator_life_refuted : forall {A} moves (m : @mem A) t d,
  (forall b, locks m b = 0) -> snd t < length (cont m (fst t)) ->
  (d = 0 -> it_life moves d m t = UB) /\
  (d = 1 -> exists m', it_life moves d m t = Ok m' /\ forall b, locks m' b = 0) /\
  (2 <= d -> exists m', it_life moves d m t = Ok m' /\ locks m' (fst t) = d - 1 /\ 0 < locks m' (fst t)).
Proof.
  intros A moves m t d F H. unfold it_life. destruct (derefs_ok moves d t m H) as (m1 & Q & C & L & O). rewrite Q. cbn [bind].
  rewrite F, Nat.add_0_r in L. unfold it_end, unlock. rewrite L. split; [|split].
  - intros ->. reflexivity.
  - intros ->. eexists. split; [reflexivity|]. intros b. simpl. unfold set_at. destruct (Nat.eqb_spec b (fst t)); auto.
    rewrite O; auto.
  - intros D. destruct d as [|d]; [lia|]. eexists. split; [reflexivity|]. simpl. rewrite set_at_same. lia.
Qed.
Print Assumptions C334_iterator_life_refuted.
Example C334_case : exists m', la_convert (fun _ _ => true) (a_mem (astart case_mem (fun _ => (0, 1)))) (0, 1) = Ok (2, m') /\
  snd (0, 1) < length (cont (a_mem (astart case_mem (fun _ => (0, 1)))) 0).
Proof. eexists. split; [cbv; reflexivity|]. simpl. lia. Qed.

(* C335: offsets add, subtract and differ exactly, and order elements of one block, as long as they stay in range *)
Section Offsets.
Local Open Scope Z_scope.
Theorem C335_offsets_exact : forall w iw pw a n,
  0 < w -> 1 < iw -> iw <= pw -> w < iw \/ w = pw ->
  0 <= a -> 0 <= n -> a + n < 2 ^ w -> n < 2 ^ (pw - 1) ->
  off_add w a n = a + n /\ off_sub w (a + n) n = a /\ off_diff w iw pw (a + n) a = n /\ off_diff w iw pw a (a + n) = - n.
Proof.
  intros w iw pw a n Hw Hi Hp C Ha Hn Hs Hd.
  assert (PP : forall k, 0 < k -> 2 ^ k = 2 * 2 ^ (k - 1)).
  { intros k Hk. rewrite <- Z.pow_succ_r by lia. f_equal. lia. }
  assert (S : forall k v, 0 < k -> - 2 ^ (k - 1) <= v < 2 ^ (k - 1) -> wraps k v = v).
  { intros k v Hk Hv. unfold wraps. rewrite Z.mod_small; [lia|]. rewrite (PP k Hk). lia. }
  split; [|split; [|split]].
  - unfold off_add, wrapu. apply Z.mod_small. lia.
  - unfold off_sub, wrapu. rewrite Z.mod_small; lia.
  - unfold off_diff. replace (a + n - a) with n by lia. destruct (Z.ltb_spec w iw) as [W|W].
    + assert (2 ^ w <= 2 ^ (iw - 1)) by (apply Z.pow_le_mono_r; lia). rewrite (S iw) by lia. apply S; lia.
    + destruct C as [C|C]; [lia|]. unfold wrapu. rewrite Z.mod_small by lia. apply S; lia.
  - unfold off_diff. replace (a - (a + n)) with (- n) by lia. destruct (Z.ltb_spec w iw) as [W|W].
    + assert (2 ^ w <= 2 ^ (iw - 1)) by (apply Z.pow_le_mono_r; lia). rewrite (S iw) by lia. apply S; lia.
    + destruct C as [C|C]; [lia|]. subst w. unfold wraps, wrapu. rewrite Z.add_mod_idemp_l by (apply Z.pow_nonzero; lia).
      rewrite Z.mod_small; [lia|]. rewrite (PP pw) by lia. lia.
Qed.
Theorem C335_order_in_one_block : forall h a b : Z,
  (hwo_lt (h, a) (h, b) = true <-> a < b) /\ (hwo_gt (h, a) (h, b) = true <-> b < a) /\
  (hwo_ge (h, a) (h, b) = true <-> b <= a) /\ (hwo_eq (h, a) (h, b) = true <-> a = b).
Proof.
  intros h a b. unfold hwo_lt, hwo_gt, hwo_ge, hwo_eq. cbn [fst snd]. rewrite Z.eqb_refl, Z.ltb_lt, Z.ltb_lt, Z.leb_le. cbn [andb].
  rewrite Z.eqb_eq. tauto.
Qed.

(* C336 (false): the difference is exact for every size type *)
Theorem C336_difference_of_unsigned_int_refuted : forall w iw pw a b,
  0 < iw -> iw <= w -> w < pw -> 0 <= a < b -> b < 2 ^ w ->
  off_diff w iw pw a b = a - b + 2 ^ w /\ 0 < off_diff w iw pw a b.
Proof.
  intros w iw pw a b Hi Hw Hp Ha Hb. unfold off_diff. destruct (Z.ltb_spec w iw) as [|_]; [lia|].
  assert (E : wrapu w (a - b) = a - b + 2 ^ w).
  { unfold wrapu. rewrite <- (Z_mod_plus_full _ 1). rewrite Z.mod_small; lia. }
  rewrite E. assert (2 ^ w <= 2 ^ (pw - 1)) by (apply Z.pow_le_mono_r; lia).
  assert (2 ^ pw = 2 * 2 ^ (pw - 1)) by (rewrite <- Z.pow_succ_r by lia; f_equal; lia).
  unfold wraps. rewrite Z.mod_small by lia. lia.
Qed.

(* C337 (false): >= is > or == *)
Theorem C337_ge_of_other_blocks_refuted : forall h k a : Z, h <> k ->
  hwo_ge (h, a) (k, a) = true /\ hwo_gt (h, a) (k, a) = false /\ hwo_lt (h, a) (k, a) = false /\ hwo_eq (h, a) (k, a) = false.
Proof.
  intros h k a N. unfold hwo_lt, hwo_gt, hwo_ge, hwo_eq. cbn [fst snd]. rewrite Z.leb_refl, Z.ltb_irrefl.
  destruct (Z.eqb_spec h k); [contradiction|]. auto.
Qed.
Example C335_case : off_add 16 7 5 = 12 /\ off_diff 16 32 64 7 12 = -5 /\ off_diff 64 32 64 7 12 = -5.
Proof. repeat split. Qed.
Example C336_case : off_diff 32 32 64 7 12 = 4294967291.
Proof. reflexivity. Qed.
Example C337_case : (1 <> 2) /\ hwo_ge (1, 5) (2, 5) = true.
Proof. split; [lia|reflexivity]. Qed.
End Offsets.
Print Assumptions C335_offsets_exact.
Print Assumptions C335_order_in_one_block.
Print Assumptions C336_difference_of_unsigned_int_refuted.
Print Assumptions C337_ge_of_other_blocks_refuted.
