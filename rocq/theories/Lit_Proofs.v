From Coq Require Import ZArith QArith Lia Bool.
From Verif Require Import Base MachInt Ratio_Spec Ratio_Model Ratio_Proofs Chrono_Spec Chrono_Model Chrono_Proofs Lit_Spec Lit_Model.
Local Open Scope Z_scope.

Lemma pre_std c u : std_ity (rep (predefined c u)).
Proof. destruct c, u; unfold std_ity; cbn; lia. Qed.
Lemma pre_signed c u : sgn (rep (predefined c u)) = true.
Proof. destruct c, u; reflexivity. Qed.
Lemma pre_positive c u : positive_period (per (predefined c u)).
Proof. destruct c, u; split; reflexivity. Qed.
Lemma pre_fits c u w : fits (fst (per (predefined c u)) * snd (per (predefined c w))).
Proof. destruct c, u, w; unfold fits; cbn; lia. Qed.
Lemma pre_length c u : (value (per (predefined c u)) == length_of u)%Q.
Proof. destruct c, u; vm_compute; reflexivity. Qed.
Lemma seconds_length c u v : (seconds_of v (per (predefined c u)) == inject_Z v * length_of u)%Q.
Proof. unfold seconds_of. fold (value (per (predefined c u))). now rewrite pre_length. Qed.
Lemma pre_id c u z : in_range (rep (predefined c u)) z -> make (predefined c u) z = z.
Proof. intros R. unfold make. apply wrap_id; [apply std_pos, pre_std|exact R]. Qed.
Lemma pre_wraps c u n : imax (rep (predefined c u)) < n <= 2 * imax (rep (predefined c u)) + 1 ->
  make (predefined c u) n = n - 2 ^ bits (rep (predefined c u)).
Proof.
  intros H. unfold make.
  assert (E : forall w, 1 <= w -> 2 ^ (w - 1) <= n < 2 ^ w -> wraps w n = n - 2 ^ w).
  { intros w W B. unfold wraps. pose proof (pow_half w W) as P.
    replace (n + 2 ^ (w - 1)) with (n - 2 ^ (w - 1) + 1 * 2 ^ w) by lia.
    rewrite Z.mod_add by lia. rewrite Z.mod_small by lia. lia. }
  destruct c, u; cbn [rep predefined rep_of] in *; unfold wrap; cbn [sgn bits] in *; apply E; unfold imax in H; cbn in *; lia.
Qed.
