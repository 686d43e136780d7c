(* Stream state, flags, width and fill character (C53, C59).  States are those reachable
   from a fresh stream by any history of state calls. *)
From Coq Require Import List ZArith Bool Lia.
From Verif Require Import MachInt Ios_Model Ios_Proofs.
Import ListNotations.
Local Open Scope Z_scope.

(* setstate adds exactly the given bits and touches nothing else. *)
Theorem C59_setstate_adds : forall ops st i, 0 <= i < 4 ->
  let s := ios_run ops ios_init in
  Z.testbit (rdstate (setstate s st)) i = Z.testbit (rdstate s) i || Z.testbit st i
  /\ flags (setstate s st) = flags s /\ width (setstate s st) = width s.
Proof. intros ops st i H s. exact (conj (setstate_bit s st i (wf_reachable ops) H) (conj eq_refl eq_refl)). Qed.
Print Assumptions C59_setstate_adds.

(* clear replaces the state. *)
Theorem C59_clear_replaces : forall ops st, 0 <= st < 16 ->
  let s := ios_run ops ios_init in
  rdstate (clear s st) = st /\ flags (clear s st) = flags s /\ width (clear s st) = width s.
Proof. intros ops st H s. exact (conj (field_id 4 st H) (conj eq_refl eq_refl)). Qed.
Print Assumptions C59_clear_replaces.

(* The four queries read the documented bits: bad 0, fail 1 or 0, eof 2, good none. *)
Theorem C59_queries : forall ops,
  let s := ios_run ops ios_init in
  bad s = Z.testbit (rdstate s) 0 /\ fail s = Z.testbit (rdstate s) 1 || Z.testbit (rdstate s) 0
  /\ eof_set s = Z.testbit (rdstate s) 2
  /\ (good s = true <-> forall i, Z.testbit (rdstate s) i = false).
Proof. intros ops s. exact (conj (bad_bit s) (conj (fail_bit s) (conj (eof_bit s) (good_bits s)))). Qed.
Print Assumptions C59_queries.

(* setf adds, unsetf removes exactly the given flags; both return the earlier flags. *)
Theorem C59_setf_unsetf : forall ops f i, 0 <= f < 256 -> 0 <= i ->
  let s := ios_run ops ios_init in
  Z.testbit (flags (fst (setf1 s f))) i = Z.testbit (flags s) i || Z.testbit f i /\
  Z.testbit (flags (fst (unsetf s f))) i = Z.testbit (flags s) i && negb (Z.testbit f i) /\
  snd (setf1 s f) = flags s /\ snd (unsetf s f) = flags s.
Proof.
  intros ops f i Hf Hi s. exact (conj (setf1_bit s f i (proj1 (wf_reachable ops)) Hf Hi)
    (conj (unsetf_bit s f i (proj1 (wf_reachable ops)) Hi) (conj eq_refl eq_refl))).
Qed.
Print Assumptions C59_setf_unsetf.

(* flags(f), width(w) for w below 16 and fill(c) each set what they name, leave the rest, and
   return what was there before. *)
Theorem C59_setters : forall ops f w b c, let s := ios_run ops ios_init in
  (0 <= f < 256 -> flags (fst (set_flags s f)) = f) /\
  snd (set_flags s f) = flags s /\ rdstate (fst (set_flags s f)) = rdstate s /\
  width (fst (set_flags s f)) = width s /\ fill b (fst (set_flags s f)) = fill b s /\
  (0 <= w -> (width (fst (set_width s w)) = w <-> w < 16)) /\
  snd (set_width s w) = width s /\ rdstate (fst (set_width s w)) = rdstate s /\
  flags (fst (set_width s w)) = flags s /\ fill b (fst (set_width s w)) = fill b s /\
  snd (set_fill b s c) = fill b s.
Proof.
  intros ops f w b c s. split; [intro H; apply field_id; change (2 ^ 8) with 256; lia|].
  repeat (split; [reflexivity|]). split; [apply width_round|]. repeat split.
Qed.
Print Assumptions C59_setters.

(* Each operation leaves what it is not about: those on the flags the state, the width and the
   fill; those on the state the flags, the width and the fill; fill(c) all but the fill. *)
Theorem C59_frame : forall ops f m b c st, let s := ios_run ops ios_init in
  (forall s', In s' [fst (setf1 s f); fst (setf2 s f m); fst (unsetf s f); fst (set_flags s f)] ->
     rdstate s' = rdstate s /\ width s' = width s /\ fill b s' = fill b s) /\
  (forall s', In s' [setstate s st; clear s st; unsetstate s st] ->
     flags s' = flags s /\ width s' = width s /\ fill b s' = fill b s) /\
  (let s' := fst (set_fill b s c) in flags s' = flags s /\ rdstate s' = rdstate s /\ width s' = width s).
Proof.
  intros ops f m b c st s. split; [|split].
  - intros s' H. cbn [In] in H. repeat destruct H as [H|H]; try contradiction; subst s'; repeat split.
  - intros s' H. cbn [In] in H. repeat destruct H as [H|H]; try contradiction; subst s'; repeat split.
  - repeat split.
Qed.
Print Assumptions C59_frame.

(* setf(flags, mask): inside the mask the flags are the given ones, outside the earlier
   ones, provided the given flags lie inside the mask.  Excluded:
   flags outside the mask, see the refutation. *)
Theorem C59_setf_mask : forall ops f m i, 0 <= f < 256 -> 0 <= i ->
  (forall k, Z.testbit f k = true -> Z.testbit m k = true) ->
  let s := ios_run ops ios_init in
  Z.testbit (flags (fst (setf2 s f m))) i = if Z.testbit m i then Z.testbit f i else Z.testbit (flags s) i.
Proof.
  intros ops f m i Hf Hi Hm s. exact (setf2_masked s f m i (proj1 (wf_reachable ops)) Hf Hi Hm).
Qed.
Print Assumptions C59_setf_mask.

(* Flags outside the mask are set as well: setf(f, m) is not the masked update. *)
Theorem C203_setf_mask_refuted : forall ops f m i, 0 <= f < 256 -> 0 <= i ->
  let s := ios_run ops ios_init in
  Z.testbit f i = true -> Z.testbit m i = false -> Z.testbit (flags s) i = false ->
  Z.testbit (flags (fst (setf2 s f m))) i = true.
Proof. intros ops f m i Hf Hi s. exact (setf2_extra s f m i (proj1 (wf_reachable ops)) Hf Hi). Qed.
Print Assumptions C203_setf_mask_refuted.
Example C59_case :
  let s := ios_run [OpSetf2 f_hex f_basefield; OpSetstate eofbit] ios_init in
  flags s = 18 /\ rdstate s = 4 /\ good s = false /\ fail s = false /\
  flags (fst (setf2 s f_uppercase f_basefield)) = 20.
Proof. repeat split. Qed.

(* The named flags do not overlap: setting or clearing one never changes another, the three
   bases share one field and the two alignments another. *)
Theorem C59_flags_apart : forall ops f g, let s := ios_run ops ios_init in
  let names := [f_basefield; f_uppercase; f_left; f_right; f_boolalpha; f_unitbuf] in
  In f names -> In g names -> f <> g ->
  Z.land (flags (fst (setf1 s f))) g = Z.land (flags s) g /\ Z.land (flags (fst (unsetf s f))) g = Z.land (flags s) g /\
  Z.land (flags (fst (setf1 s f))) f = f /\ Z.land (flags (fst (unsetf s f))) f = 0.
Proof.
  intros ops f g s names Hf Hg Hd. pose proof (proj1 (wf_reachable ops)) as W. fold s in W.
  assert (Rf : 0 <= f < 256) by (cbn in Hf; decompose [or] Hf; subst; try contradiction; cbv; split; congruence).
  assert (Rg : 0 <= g < 256) by (cbn in Hg; decompose [or] Hg; subst; try contradiction; cbv; split; congruence).
  assert (D : Z.land f g = 0).
  { cbn in Hf, Hg. decompose [or] Hf; decompose [or] Hg; subst; try contradiction; try congruence; reflexivity. }
  assert (Db : forall i, Z.testbit f i && Z.testbit g i = false) by (intros i; rewrite <- Z.land_spec, D; apply Z.bits_0).
  repeat split; apply Z.bits_inj'; intros i Hi; rewrite ?Z.land_spec, ?Z.bits_0.
  - rewrite (setf1_bit s f i W Rf Hi). specialize (Db i). destruct (Z.testbit (flags s) i), (Z.testbit f i), (Z.testbit g i); cbn in *; congruence.
  - rewrite (unsetf_bit s f i W Hi). specialize (Db i). destruct (Z.testbit (flags s) i), (Z.testbit f i), (Z.testbit g i); cbn in *; congruence.
  - rewrite (setf1_bit s f i W Rf Hi). destruct (Z.testbit (flags s) i), (Z.testbit f i); reflexivity.
  - rewrite (unsetf_bit s f i W Hi). destruct (Z.testbit (flags s) i), (Z.testbit f i); reflexivity.
Qed.
Print Assumptions C59_flags_apart.

(* A new stream: good, decimal, aligned right, no width, filled with spaces, nothing else set. *)
Theorem C59_initial : good ios_init = true /\ bad ios_init = false /\ fail ios_init = false /\ eof_set ios_init = false /\
  get_base (Z.land (flags ios_init) f_basefield) = 10 /\ Z.land (flags ios_init) f_adjustfield = f_right /\
  Forall (fun f => Z.land (flags ios_init) f = 0) [f_uppercase; f_left; f_boolalpha; f_unitbuf] /\
  width ios_init = 0 /\ forall schar, fill schar ios_init = 32.
Proof. repeat split; [repeat constructor|]. intros []; reflexivity. Qed.
Print Assumptions C59_initial.

(* setbase selects the base used for writing and leaves the other flags alone. *)
Theorem C59_setbase : forall ops base, base = 8 \/ base = 10 \/ base = 16 ->
  let s := ios_run ops ios_init in
  get_base (Z.land (flags (setbase s base)) f_basefield) = base /\
  (forall i, 2 <= i -> Z.testbit (flags (setbase s base)) i = Z.testbit (flags s) i).
Proof. intros ops base H s. exact (setbase_get s base (proj1 (wf_reachable ops)) H). Qed.
Print Assumptions C59_setbase.

(* fill(c) then fill() gives c exactly for c in 0..63 where char is signed, and exactly
   for 32..95 where it is unsigned; other stream state is untouched. *)
Theorem C53_fill_round_trip : forall ops c,
  let s := ios_run ops ios_init in
  (-128 <= c <= 127 -> (fill true (fst (set_fill true s c)) = c <-> 0 <= c < 64)) /\
  (0 <= c <= 255 -> (fill false (fst (set_fill false s c)) = c <-> 32 <= c < 96)) /\
  (forall b, flags (fst (set_fill b s c)) = flags s /\ rdstate (fst (set_fill b s c)) = rdstate s
             /\ width (fst (set_fill b s c)) = width s).
Proof.
  intros ops c s. exact (conj (fill_signed s c) (conj (fill_unsigned s c) (fun b => fill_only s b c))).
Qed.
Print Assumptions C53_fill_round_trip.

(* 'a' does not survive on either kind of platform. *)
Theorem C198_fill_round_trip_refuted : forall ops,
  let s := ios_run ops ios_init in
  fill true (fst (set_fill true s 97)) <> 97 /\ fill false (fst (set_fill false s 97)) <> 97.
Proof.
  intros ops s. exact (fill_a s).
Qed.
Print Assumptions C198_fill_round_trip_refuted.
Example C53_case : fill true ios_init = 32 /\ fill true (fst (set_fill true ios_init 48)) = 48
  /\ fill true (fst (set_fill true ios_init 97)) = 33.
Proof. repeat split. Qed.
