(* C485, C486: the predefined durations and their literals *)
From Coq Require Import ZArith QArith Lia Bool.
From Verif Require Import Base MachInt Ratio_Spec Ratio_Model Ratio_Proofs Chrono_Spec Chrono_Model Chrono_Proofs
  Properties_Chrono Timep_Proofs Lit_Spec Lit_Model Lit_Proofs.
Local Open Scope Z_scope.

(* C485: a tick of each predefined duration has the length of its name *)
Theorem C485_length : forall c u, (seconds_of 1 (per (predefined c u)) == length_of u)%Q.
Proof. intros c u. rewrite seconds_length. ring. Qed.
Print Assumptions C485_length.
(* a literal has the number written, as long as max() is not less *)
Theorem C485_literal : forall c u n m, literal c u n = Some m -> 0 <= n <= d_max (predefined c u) ->
  m = n /\ (seconds_of m (per (predefined c u)) == inject_Z n * length_of u)%Q.
Proof.
  intros c u n m E H. assert (m = n) as ->; [|split; [reflexivity|apply seconds_length]].
  assert (M : d_max (predefined c u) = imax (rep (predefined c u))) by (destruct c, u; reflexivity).
  rewrite M in H.
  assert (U : wrap U64 n = n).
  { apply wrap_id; [discriminate|]. unfold in_range. destruct c, u; cbn in *; lia. }
  assert (R : make (predefined c u) n = n).
  { apply pre_id. unfold in_range. split; [|lia]. destruct c, u; cbn in *; lia. }
  unfold literal in E; rewrite U, R in E; destruct u; congruence.
Qed.
Print Assumptions C485_literal.
Theorem C485_literals : forall c u n, literal c u n <> None <-> u = Second \/ u = Milli \/ u = Micro \/ u = Nano.
Proof. intros c u n. destruct u; cbn; split; intros H; auto; try discriminate; try congruence; intuition discriminate. Qed.
Print Assumptions C485_literals.
(* conversion to another predefined duration whose ticks go evenly into those of this one is exact
   wherever the result can be represented, and converting back gives what it was *)
Theorem C485_to_finer : forall c u w K v, (length_of u == inject_Z K * length_of w)%Q ->
  in_range (rep (predefined c u)) v -> in_range (rep (predefined c w)) (v * K) ->
  convert (predefined c u) (predefined c w) v = Some (Ok (v * K)) /\
  (seconds_of (v * K) (per (predefined c w)) == seconds_of v (per (predefined c u)))%Q.
Proof.
  intros c u w K v E V R. apply C55_finer_exact; auto using pre_std, pre_positive, pre_fits.
  - rewrite Z.mul_comm. apply pre_fits.
  - rewrite (pre_signed c w). discriminate.
  - now rewrite !pre_length.
  - unfold int64. unfold in_range in R. destruct c, w; cbn in *; lia.
Qed.
Print Assumptions C485_to_finer.
Theorem C485_and_back : forall c u w K v, (length_of u == inject_Z K * length_of w)%Q ->
  in_range (rep (predefined c u)) v -> in_range (rep (predefined c w)) (v * K) ->
  convert (predefined c w) (predefined c u) (v * K) = Some (Ok v).
Proof.
  intros c u w K v E V R.
  assert (N : ~ (length_of u == 0)%Q) by (destruct u; vm_compute; discriminate).
  assert (Q : (seconds_of (v * K) (per (predefined c w)) == inject_Z v * length_of u)%Q).
  { rewrite seconds_length, E, inject_Z_mult. ring. }
  assert (NW : ~ (length_of w == 0)%Q) by (destruct w; vm_compute; discriminate).
  rewrite C55_conversion_truncates; auto using pre_std, pre_positive, pre_fits.
  - rewrite (truncated_frac _ v 1); [|lia|].
    + rewrite Z.quot_1_r. f_equal. f_equal. apply pre_id. exact V.
    + rewrite Q, pre_length. unfold frac. field. exact N.
  - rewrite Z.mul_comm. apply pre_fits.
  - rewrite (pre_signed c u). discriminate.
  - (* the ratio is 1 / K *)
    destruct (pre_positive c u) as [U1 U2], (pre_positive c w) as [W1 W2].
    set (a := fst (per (predefined c w)) * snd (per (predefined c u))) in *.
    set (b := snd (per (predefined c w)) * fst (per (predefined c u))) in *.
    assert (X : b = a * K).
    { rewrite <- !(pre_length c) in E. unfold value in E.
      assert (H : (frac (fst (per (predefined c u))) (snd (per (predefined c u))) ==
                   frac (K * fst (per (predefined c w))) (snd (per (predefined c w))))%Q).
      { rewrite E. unfold frac. rewrite inject_Z_mult. field. apply inj_nz. lia. }
      apply frac_cross in H; [|lia|lia]. unfold a, b. lia. }
    assert (A : 0 < a) by (unfold a; nia).
    rewrite X, Z.gcd_mul_diag_l, Z.div_same, Z.mul_1_r by lia.
    unfold int64. unfold in_range in R. destruct c, w; cbn in *; lia.
Qed.
Print Assumptions C485_and_back.
(* min() and max() are the least and the greatest duration of the type, zero() is no time *)
Theorem C485_extremes : forall c u v, in_range (rep (predefined c u)) v <-> d_min (predefined c u) <= v <= d_max (predefined c u).
Proof. intros c u v. unfold in_range. destruct c, u; cbn; lia. Qed.
Print Assumptions C485_extremes.
Theorem C485_zero : forall c u, (seconds_of (d_zero (predefined c u)) (per (predefined c u)) == 0)%Q.
Proof. intros c u. destruct c, u; vm_compute; reflexivity. Qed.
Print Assumptions C485_zero.
(* With full precision every predefined duration but years reaches as far as it has to. *)
Theorem C485_reach : forall u n, u <> Year -> (- reach_of u <= inject_Z n * length_of u <= reach_of u)%Q ->
  make (predefined Full u) n = n.
Proof.
  intros u n Y [L H]. apply pre_id. unfold in_range.
  destruct u; try congruence; unfold Qle in L, H; cbn in *; lia.
Qed.
Print Assumptions C485_reach.
Example C485_case :
  literal Full Milli 1500 = Some 1500 /\ d_max (predefined Full Milli) = 2 ^ 63 - 1 /\ literal Low Second 32767 = Some 32767 /\
  d_max (predefined Low Second) = 32767 /\
  convert (predefined Full Week) (predefined Full Nano) 2 = Some (Ok 1209600000000000) /\
  (length_of Week == inject_Z 604800000000000 * length_of Nano)%Q /\
  convert (predefined Full Nano) (predefined Full Week) 1209600000000000 = Some (Ok 2) /\
  (length_of Year == inject_Z 12 * length_of Month)%Q /\ convert (predefined Low Year) (predefined Low Month) 10 = Some (Ok 120) /\
  d_min (predefined Full Day) = - 2 ^ 31.
Proof. repeat split; vm_compute; reflexivity. Qed.

(* C486 (false): every literal is the number written, every conversion to a finer predefined duration
   keeps the value, and the years reach as far as the days.  A literal above max() is negative. *)
Theorem C486_literal_refuted : forall c u n m, literal c u n = Some m ->
  d_max (predefined c u) < n <= 2 * d_max (predefined c u) + 1 -> m = n - 2 ^ bits (rep_of c u) /\ m < 0.
Proof.
  intros c u n m E H.
  assert (M : d_max (predefined c u) = imax (rep (predefined c u))) by (destruct c, u; reflexivity).
  rewrite M in H.
  assert (U : wrap U64 n = n).
  { apply wrap_id; [discriminate|]. unfold in_range. destruct c, u; cbn in *; lia. }
  assert (F : m = n - 2 ^ bits (rep_of c u)).
  { change (rep_of c u) with (rep (predefined c u)). rewrite <- (pre_wraps c u n H).
    unfold literal in E; rewrite U in E; destruct u; congruence. }
  split; [exact F|]. rewrite F. destruct c, u; cbn in *; lia.
Qed.
Print Assumptions C486_literal_refuted.
(* A conversion whose exact result cannot be represented gives another length, and says nothing. *)
Theorem C486_to_finer_refuted : forall c u w K v, (length_of u == inject_Z K * length_of w)%Q ->
  in_range (rep (predefined c u)) v -> int64 (v * K) -> ~ in_range (rep (predefined c w)) (v * K) ->
  exists x, convert (predefined c u) (predefined c w) v = Some (Ok x) /\
    ~ (seconds_of x (per (predefined c w)) == seconds_of v (per (predefined c u)))%Q.
Proof.
  intros c u w K v E V I R.
  assert (NW : ~ (length_of w == 0)%Q) by (destruct w; vm_compute; discriminate).
  assert (Q : (seconds_of v (per (predefined c u)) == inject_Z (v * K) * length_of w)%Q).
  { rewrite seconds_length, E, inject_Z_mult. ring. }
  eexists. split.
  - apply C55_conversion_truncates; auto using pre_std, pre_positive, pre_fits.
    + rewrite Z.mul_comm. apply pre_fits.
    + rewrite (pre_signed c w). discriminate.
    + destruct (pre_positive c u) as [U1 U2], (pre_positive c w) as [W1 W2].
      set (a := fst (per (predefined c u)) * snd (per (predefined c w))) in *.
      set (b := snd (per (predefined c u)) * fst (per (predefined c w))) in *.
      assert (X : a = b * K).
      { rewrite <- !(pre_length c) in E. unfold value in E.
        assert (H : (frac (fst (per (predefined c u))) (snd (per (predefined c u))) ==
                     frac (K * fst (per (predefined c w))) (snd (per (predefined c w))))%Q).
        { rewrite E. unfold frac. rewrite inject_Z_mult. field. apply inj_nz. lia. }
        apply frac_cross in H; [|lia|lia]. unfold a, b. lia. }
      assert (B : 0 < b) by (unfold b; nia).
      rewrite X, (Z.gcd_comm (b * K)), Z.gcd_mul_diag_l, (Z.mul_comm b K), Z.div_mul by lia. exact I.
  - rewrite (truncated_frac _ (v * K) 1); [|lia|].
    + rewrite Z.quot_1_r, seconds_length, Q. intros H. apply Qmult_inj_r in H; [|exact NW].
      unfold Qeq in H. cbn [inject_Z Qnum Qden] in H. rewrite !Z.mul_1_r in H. apply R. rewrite <- H. apply wrap_range. apply std_pos, pre_std.
    + rewrite Q, pre_length. unfold frac. field. exact NW.
Qed.
Print Assumptions C486_to_finer_refuted.
(* The years wrap from 32768 on, within the 40000 they have to reach. *)
Theorem C486_years_refuted : forall n, 32768 <= n <= 40000 ->
  (inject_Z n * length_of Year <= reach_of Year)%Q /\ make (predefined Full Year) n = n - 65536.
Proof.
  intros n H. split.
  - unfold Qle. cbn. lia.
  - rewrite pre_wraps; [reflexivity|]. cbn. lia.
Qed.
Print Assumptions C486_years_refuted.
Example C486_case :
  literal Low Second 40000 = Some (-25536) /\ literal Full Nano (2 ^ 63) = Some (- 2 ^ 63) /\
  convert (predefined Low Hour) (predefined Low Second) 10 = Some (Ok (-29536)) /\
  (length_of Hour == inject_Z 3600 * length_of Second)%Q /\ in_range (rep (predefined Low Hour)) 10 /\
  ~ in_range (rep (predefined Low Second)) (10 * 3600) /\ make (predefined Full Year) 40000 = -25536.
Proof.
  repeat split; try (vm_compute; reflexivity); try (vm_compute; discriminate).
  unfold in_range. vm_compute. intros [_ H]. now apply H.
Qed.
