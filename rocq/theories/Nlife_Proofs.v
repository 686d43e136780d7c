From Verif Require Import Base Lnk_Spec Lnk_Model Lnk_Proofs Lnk_Proofs2 Nlife_Spec Nlife_Model.
Local Open Scope res_scope.

Section Values.
Context {L O V : Type}.
Variable step : L -> O -> result L.
Variable adds : O -> option nat.
Fixpoint srun (l : L) (ops : list O) : result L :=
  match ops with [] => Ok l | o :: t => l' <- step l o ;; srun l' t end.

Lemma n_run_ok h : forall (s : nst L V) l', srun (lk s) (links h) = Ok l' ->
  exists s', n_run step adds s h = Ok s' /\ lk s' = l' /\ died s' = died s /\
    made s' = made s + puts adds h /\
    (forall a, option_map snd (obj s' a) = value_of adds h a (option_map snd (obj s a))).
Proof.
  induction h as [|[o v] h IH]; intros s l' E.
  - cbn in E. exists s. cbn. repeat split; auto; congruence.
  - cbn [links map fst srun] in E. cbn [n_run]. unfold n_step. cbn [fst snd].
    destruct (step (lk s) o) as [l1| |]; try discriminate. cbn [bind] in E |- *.
    destruct (adds o) as [b|] eqn:A.
    + destruct (IH (Nst l1 (obj (construct s b v)) (made (construct s b v)) (died (construct s b v))) l' E) as (s' & R & K & D & M & Ob).
      exists s'. split; [exact R|]. split; [exact K|]. cbn [died made construct obj] in *. split; [exact D|]. split.
      * rewrite M. unfold puts. cbn [filter fst]. rewrite A. cbn [length]. lia.
      * intros a. rewrite Ob. cbn [value_of]. rewrite A. f_equal. unfold at_.
        rewrite (Nat.eqb_sym b a). now destruct (Nat.eqb a b).
    + destruct (IH (Nst l1 (obj s) (made s) (died s)) l' E) as (s' & R & K & D & M & Ob).
      exists s'. split; [exact R|]. split; [exact K|]. cbn [died made obj] in *. split; [exact D|]. split.
      * rewrite M. unfold puts. cbn [filter fst]. rewrite A. reflexivity.
      * intros a. rewrite Ob. cbn [value_of]. now rewrite A.
Qed.

Lemma values_at_ok (s : nst L V) (val : nat -> option V) l :
  (forall a, option_map snd (obj s a) = val a) -> (forall a, In a l -> val a <> None) ->
  exists vs, values_at s l = Ok vs /\ map Some vs = map val l.
Proof.
  intros Ob. induction l as [|a l IH]; intros H.
  - exists []. split; reflexivity.
  - destruct IH as (vs & E & M); [intros b K; apply H; now right|].
    cbn [values_at]. unfold value_at. pose proof (H a (or_introl eq_refl)) as Ha. rewrite <- Ob in Ha.
    destruct (obj s a) as [[id v]|] eqn:Eo; [|exfalso; now apply Ha]. cbn [bind]. rewrite E. cbn [bind].
    exists (v :: vs). split; [reflexivity|]. cbn [map]. rewrite M. f_equal. rewrite <- Ob, Eo. reflexivity.
Qed.

Lemma value_of_some (h : list (O * V)) : forall a v, exists w, value_of adds h a (Some v) = Some w.
Proof.
  induction h as [|[o x] h IH]; intros a v; cbn [value_of]; [eauto|].
  destruct (adds o) as [b|]; [|apply IH]. destruct (Nat.eqb b a); apply IH.
Qed.

(* every element has been put in *)
Variable seq : O -> list nat -> list nat.
Hypothesis seq_in : forall o l a, In a (seq o l) -> In a l \/ adds o = Some a.
Lemma value_in (h : list (O * V)) : forall l a before,
  In a (fold_left (fun l o => seq o l) (links h) l) -> (In a l -> before <> None) ->
  value_of adds h a before <> None.
Proof.
  induction h as [|[o v] h IH]; intros l a before I Hb; cbn [links map fold_left value_of fst] in *.
  - now apply Hb.
  - apply (IH _ _ _ I). intros K. apply seq_in in K. destruct K as [K|K].
    + destruct (adds o) as [b|]; [destruct (Nat.eqb b a); [discriminate|]|]; now apply Hb.
    + rewrite K, Nat.eqb_refl. discriminate.
Qed.
End Values.

Lemma put_after_in i a l x : In x (put_after i a l) -> In x l \/ x = a.
Proof.
  induction l as [|y l IH]; cbn; [tauto|]. destruct (Nat.eqb y i); cbn.
  - intros [->|[->|H]]; auto.
  - intros [->|H]; auto. destruct (IH H); auto.
Qed.
Lemma put_before_in i a l x : In x (put_before i a l) -> In x l \/ x = a.
Proof.
  induction l as [|y l IH]; cbn; [tauto|]. destruct (Nat.eqb y i); cbn.
  - intros [->|[->|H]]; auto.
  - intros [->|H]; auto. destruct (IH H); auto.
Qed.
Lemma drop_after_in i l x : In x (drop_after i l) -> In x l.
Proof.
  induction l as [|y l IH]; cbn; [tauto|]. destruct (Nat.eqb y i); cbn.
  - intros [->|H]; auto. destruct l; cbn in *; auto.
  - intros [->|H]; auto.
Qed.

Lemma seq1_in op l a : In a (seq1 op l) -> In a l \/ adds op = Some a.
Proof.
  destruct op as [b| |i b|i|i b|]; cbn.
  - intros [->|H]; auto.
  - intros H. destruct l; cbn in *; auto.
  - intros H. apply put_after_in in H. destruct H; subst; auto.
  - intros H. apply drop_after_in in H. auto.
  - intros H. apply put_after_in in H. destruct H as [H|H]; subst; auto. apply drop_after_in in H. auto.
  - tauto.
Qed.
Lemma dseq1_in op l a : In a (dseq1 op l) -> In a l \/ dadds op = Some a.
Proof.
  destruct op as [b|b|[i|] b]; cbn.
  - intros [->|H]; auto.
  - intros H. apply in_app_or in H. cbn in H. destruct H as [H|[H|[]]]; subst; auto.
  - intros H. apply put_before_in in H. destruct H; subst; auto.
  - intros H. apply in_app_or in H. cbn in H. destruct H as [H|[H|[]]]; subst; auto.
Qed.

Lemma srun_fl ops : forall s, srun (fl_step true) s ops = fl_run true s ops.
Proof. induction ops as [|o t IH]; intros s; cbn [srun fl_run]; [reflexivity|]. destruct (fl_step true s o); cbn [bind]; auto. Qed.
Lemma srun_d ops : forall s, srun d_step s ops = d_run s ops.
Proof. induction ops as [|o t IH]; intros s; cbn [srun d_run]; [reflexivity|]. destruct (d_step s o); cbn [bind]; auto. Qed.

Lemma forward_main {V} m (h : list (lop * V)) : fits (links h) [] -> Forall forward_list_op (links h) ->
  exists s, f_run (n_init (m, None)) h = Ok s /\ lst (fst (lk s)) (snd (lk s)) (seqs (links h) []) /\
    died s = [] /\ made s = puts adds h /\
    (forall fuel, length (seqs (links h) []) <= fuel ->
       exists vs, f_values fuel s = Ok vs /\
         map Some vs = map (fun a => value_of adds h a None) (seqs (links h) [])).
Proof.
  intros F K.
  destruct (fl_run_ok true (links h) m None [] ltac:(discriminate) (lst_nil m) F K) as (m' & f' & E & _ & C).
  destruct (n_run_ok (fl_step true) adds h (n_init (m, None)) (m', f')) as (s & R & Kl & D & M & Ob).
  { cbn [lk n_init]. rewrite srun_fl. exact E. }
  exists s. rewrite Kl. cbn [fst snd]. split; [exact R|]. split; [exact C|]. split; [exact D|]. split; [exact M|].
  intros fuel Lf. unfold f_values, n_values. rewrite Kl. cbn [fst snd].
  rewrite (walk_ok m' f' (seqs (links h) []) fuel (l_seg _ _ _ C) (l_ok _ _ _ C) Lf). cbn [bind].
  apply values_at_ok; [exact Ob|]. intros a I.
  apply (value_in adds seq1 seq1_in h [] a None I). tauto.
Qed.

Lemma list_main {V} m (h : list (dop * V)) : dfits (links h) [] -> no_end (links h) [] ->
  exists s, l_run (n_init (WB m None None)) h = Ok s /\ dinv (lk s) (dseqs (links h) []) /\
    died s = [] /\ made s = puts dadds h /\
    (forall fuel, length (dseqs (links h) []) <= fuel ->
       exists vs, l_values fuel s = Ok vs /\
         map Some vs = map (fun a => value_of dadds h a None) (dseqs (links h) [])).
Proof.
  intros F K. destruct (d_run_ok (links h) _ [] (dinv_init m) F K) as (l' & E & I).
  destruct (n_run_ok d_step dadds h (n_init (WB m None None)) l') as (s & R & Kl & D & M & Ob).
  { cbn [lk n_init]. rewrite srun_d. exact E. }
  exists s. rewrite Kl. split; [exact R|]. split; [exact I|]. split; [exact D|]. split; [exact M|].
  intros fuel Lf. unfold l_values, n_values. rewrite Kl.
  rewrite (walk_ok _ _ (dseqs (links h) []) fuel (d_fwd _ _ I) (d_ok _ _ I) Lf). cbn [bind].
  apply values_at_ok; [exact Ob|]. intros a J.
  apply (value_in dadds dseq1 dseq1_in h [] a None J). tauto.
Qed.

Lemma copy_pop {V} (s : fnst V) l : lst (fst (lk s)) (snd (lk s)) l -> l <> [] ->
  exists s1 f1, pop_on s (snd (lk s)) = Ok (s1, f1) /\ pop_on s1 (snd (lk s)) = UB /\
    (forall fuel, walk (S fuel) (fst (lk s1)) (snd (lk s)) = UB).
Proof.
  intros C N. destruct l as [|a l]; [congruence|]. pose proof (l_seg _ _ _ C) as [Ef _].
  destruct s as [[m f] ob md di]. cbn [lk fst snd] in *. subst f.
  unfold pop_on, fl_pop_front. cbn [lk fst snd]. rewrite next_ok by (apply (l_ok _ _ _ C); now left). cbn [bind].
  do 2 eexists. split; [reflexivity|]. cbn [lk fst snd deallocate].
  assert (X : forall n p, next (Mem n p (a :: freed m)) (Some a) = UB).
  { intros n p. unfold next, deref, is_freed. cbn. now rewrite Nat.eqb_refl. }
  rewrite X. split; [reflexivity|]. intros fuel. cbn [walk]. now rewrite X.
Qed.
