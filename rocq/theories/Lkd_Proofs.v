(* Proofs about Lkd_Model.v. *)
From Coq Require Import ZArith.
From Verif Require Import Base Lkd_Spec Lkd_Model.
Local Open Scope res_scope.

Lemma set_same {X} (f : nat -> X) k x : set_at f k x k = x.
Proof. unfold set_at. now rewrite Nat.eqb_refl. Qed.
Lemma set_other {X} (f : nat -> X) k x b : b <> k -> set_at f k x b = f b.
Proof. intros H. unfold set_at. apply Nat.eqb_neq in H. now rewrite H. Qed.

(* lists *)
Lemma firstn_app0 {X} (a b : list X) : firstn (length a) (a ++ b) = a.
Proof. rewrite <- (Nat.add_0_r (length a)), firstn_app_2. now rewrite firstn_O, app_nil_r. Qed.
Lemma skipn_app0 {X} (a b : list X) : skipn (length a) (a ++ b) = b.
Proof. rewrite skipn_app, skipn_all, Nat.sub_diag. reflexivity. Qed.
Lemma firstn_app_n {X} (a b : list X) n : n = length a -> firstn n (a ++ b) = a.
Proof. intros ->. apply firstn_app0. Qed.
Lemma skipn_app_n {X} (a b : list X) n : n = length a -> skipn n (a ++ b) = b.
Proof. intros ->. apply skipn_app0. Qed.
Lemma firstn_le {X} (a b : list X) n : n <= length a -> firstn n (a ++ b) = firstn n a.
Proof. intros H. rewrite firstn_app. replace (n - length a) with 0 by lia. now rewrite firstn_O, app_nil_r. Qed.
Lemma skipn_le {X} (a b : list X) n : n <= length a -> skipn n (a ++ b) = skipn n a ++ b.
Proof. intros H. rewrite skipn_app. replace (n - length a) with 0 by lia. reflexivity. Qed.
Lemma slice_app {X} (a b c : list X) : firstn (length b) (skipn (length a) (a ++ b ++ c)) = b.
Proof. rewrite skipn_app0. apply firstn_app0. Qed.
Lemma splice_app {X} (a b c l : list X) : length l = length b ->
  firstn (length a) (a ++ b ++ c) ++ l ++ skipn (length a + length l) (a ++ b ++ c) = a ++ l ++ c.
Proof.
  intros H. rewrite firstn_app0. rewrite (app_assoc a b c), skipn_app_n; [reflexivity|].
  rewrite app_length. lia.
Qed.

Definition term (nt : bool) : list Z := if nt then [0%Z] else [].
Definition clean (nt : bool) (l : list Z) : Prop := nt = true -> forall a, In a l -> a <> 0%Z.
Lemma s_text_clean c l : s_text c l = true <-> clean (s_nt c) l.
Proof.
  unfold s_text, clean. destruct (s_nt c); cbn.
  - rewrite forallb_forall. split.
    + intros H _ a Ha. specialize (H a Ha). destruct (Z.eqb_spec a 0); [discriminate|assumption].
    + intros H a Ha. specialize (H eq_refl a Ha). destruct (Z.eqb_spec a 0); [contradiction|reflexivity].
  - split; [discriminate|reflexivity].
Qed.
Lemma strlen_app l r : (forall a, In a l -> a <> 0%Z) -> strlen (l ++ 0%Z :: r) = Ok (length l).
Proof.
  induction l as [|a l IH]; intros H; cbn; [reflexivity|].
  destruct (Z.eqb_spec a 0); [exfalso; apply (H a); [now left|assumption]|].
  rewrite IH; [reflexivity|]. intros x Hx. apply H. now right.
Qed.
Lemma clean_app nt a b : clean nt (a ++ b) <-> clean nt a /\ clean nt b.
Proof.
  unfold clean. split.
  - intros H. split; intros E x Hx; apply (H E); apply in_or_app; auto.
  - intros [H1 H2] E x Hx. apply in_app_or in Hx. destruct Hx; auto.
Qed.
Lemma clean_firstn nt l n : clean nt l -> clean nt (firstn n l).
Proof. intros H E a Ha. apply (H E). rewrite <- (firstn_skipn n l). apply in_or_app. now left. Qed.
Lemma clean_skipn nt l n : clean nt l -> clean nt (skipn n l).
Proof. intros H E a Ha. apply (H E). rewrite <- (firstn_skipn n l). apply in_or_app. now right. Qed.

Section Lkd.
Context (moves : nat -> nat -> bool) (junk : nat -> nat -> Z) (nest : bool) (pad : nat).
Notation lock := (lock moves nest).
Notation unlock := (unlock moves nest).
Notation size := (size moves nest).
Notation set_size := (set_size moves nest).
Notation reserve := (reserve moves junk).
Notation ensure_total_capacity := (ensure_total_capacity moves junk).
Notation ensure_total_size := (ensure_total_size moves junk nest).
Notation grow := (grow moves junk nest pad).
Notation copy_to := (copy_to moves nest).

Definition ok1 (s : st) (k : nat) : Prop := nest = true \/ locks (mm s) k = 0.
(* everything but container k and its memory is as before; mv: its memory may have moved although locked *)
Definition upto (k : nat) (mv : bool) (s s' : st) : Prop :=
  ptrs s' = ptrs s /\ (forall b, locks (mm s') b = locks (mm s) b) /\
  (forall b, locks (mm s) b <> 0 -> (mv = true -> b <> k) -> gen (mm s') b = gen (mm s) b) /\
  (forall b, b <> k -> cs s' b = cs s b /\ cont (mm s') b = cont (mm s) b).
(* nothing but unlocked memory has moved *)
Definition same (s s' : st) : Prop :=
  ptrs s' = ptrs s /\ (forall b, locks (mm s') b = locks (mm s) b) /\
  (forall b, locks (mm s) b <> 0 -> gen (mm s') b = gen (mm s) b) /\ cs s' = cs s /\ cont (mm s') = cont (mm s).
(* s' holds a lock on k that s does not *)
Definition hold (k : nat) (s s' : st) : Prop :=
  ptrs s' = ptrs s /\ locks (mm s') k = (if nest then S (locks (mm s) k) else 1) /\
  (forall b, b <> k -> locks (mm s') b = locks (mm s) b) /\
  (forall b, locks (mm s) b <> 0 -> gen (mm s') b = gen (mm s) b) /\ cs s' = cs s /\ cont (mm s') = cont (mm s).

Lemma same_refl s : same s s.
Proof. repeat split; auto. Qed.
Lemma same_trans a b c : same a b -> same b c -> same a c.
Proof.
  intros (P & L & G & C & D) (P' & L' & G' & C' & D').
  split; [congruence|]. split; [intro x; rewrite L', L; reflexivity|].
  split; [intros x Hx; rewrite G', G; auto; now rewrite L|]. split; congruence.
Qed.
Lemma same_upto k mv s s' : same s s' -> upto k mv s s'.
Proof.
  intros (P & L & G & C & D). split; [exact P|]. split; [exact L|]. split; [intros b H _; now apply G|].
  intros b _. rewrite C, D. auto.
Qed.
Lemma upto_trans k mv mv' a b c : upto k mv a b -> upto k mv' b c -> upto k (mv || mv') a c.
Proof.
  intros (P & L & G & C) (P' & L' & G' & C').
  split; [congruence|]. split; [intro x; rewrite L', L; reflexivity|].
  split.
  - intros x Hx Hm. rewrite G'; [apply G; auto|now rewrite L|].
    + intros E. apply Hm. rewrite E. reflexivity.
    + intros E. apply Hm. rewrite E. apply orb_true_r.
  - intros x Hx. destruct (C x Hx), (C' x Hx). split; congruence.
Qed.
Lemma upto_weak k s s' mv : upto k false s s' -> upto k mv s s'.
Proof. intros (P & L & G & C). split; [exact P|]. split; [exact L|]. split; [|exact C]. intros b H _. apply G; [exact H|discriminate]. Qed.
Lemma upto_refl k mv s : upto k mv s s.
Proof. apply same_upto, same_refl. Qed.

Lemma lock_ok s k i : c_alloc (cs s k) = true ->
  exists s', lock s k i = Ok (Ref k (gen (mm s') k) i, s') /\ hold k s s'.
Proof.
  intros H. unfold Lkd_Model.lock. rewrite H.
  set (m := compact moves (mm s)).
  exists (with_mem s (Mem (cont m) (set_at (locks m) k (if nest then S (locks m k) else 1)) (gen m) (calls m))).
  split; [reflexivity|]. unfold hold, m, compact; cbn.
  split; [reflexivity|]. split; [now rewrite set_same|]. split; [intros b Hb; now rewrite set_other|].
  split; [intros b Hb; apply Nat.eqb_neq in Hb; now rewrite Hb|]. split; reflexivity.
Qed.
Lemma unlock_ok s k : locks (mm s) k <> 0 ->
  exists s', unlock s k = Ok s' /\ ptrs s' = ptrs s /\ cs s' = cs s /\ cont (mm s') = cont (mm s) /\
  locks (mm s') k = (if nest then locks (mm s) k - 1 else 0) /\
  (forall b, b <> k -> locks (mm s') b = locks (mm s) b) /\
  (forall b, locks (mm s') b <> 0 -> gen (mm s') b = gen (mm s) b).
Proof.
  intros H. unfold Lkd_Model.unlock. destruct (locks (mm s) k) as [|n] eqn:E; [contradiction|].
  eexists. split; [reflexivity|]. cbn. repeat split.
  - rewrite set_same. destruct nest; [lia|reflexivity].
  - intros b Hb. now rewrite set_other.
  - intros b Hb. apply Nat.eqb_neq in Hb. rewrite Hb. reflexivity.
Qed.
(* a lock on j given back after work on k *)
Lemma bracket s s1 s2 j k mv : hold j s s1 -> upto k mv s1 s2 -> ok1 s j ->
  exists s3, unlock s2 j = Ok s3 /\ upto k mv s s3 /\ cs s3 = cs s2 /\ cont (mm s3) = cont (mm s2).
Proof.
  intros (P & Lj & Lo & G & C & D) (P' & L' & G' & C') Hok.
  assert (Hn : locks (mm s2) j <> 0). { rewrite L', Lj. destruct nest; discriminate. }
  destruct (unlock_ok s2 j Hn) as (s3 & E & P3 & C3 & D3 & Lj3 & Lo3 & G3).
  exists s3. split; [exact E|]. split; [|split; assumption].
  assert (LL : forall b, locks (mm s3) b = locks (mm s) b).
  { intros b. destruct (Nat.eq_dec b j) as [->|Hb].
    - rewrite Lj3, L', Lj. destruct Hok as [->|H0]; [lia|]. rewrite H0. now destruct nest.
    - rewrite Lo3, L', Lo by assumption. reflexivity. }
  split; [congruence|]. split; [exact LL|]. split.
  - intros b Hb Hm. rewrite G3 by (rewrite LL; exact Hb).
    rewrite G'; [now apply G| |exact Hm].
    destruct (Nat.eq_dec b j) as [->|Hbj]; [rewrite Lj; destruct nest; discriminate|now rewrite Lo].
  - intros b Hb. destruct (C' b Hb) as [A1 A2]. rewrite C3, D3, A1, A2, C, D. split; reflexivity.
Qed.
Lemma bracket_same s s1 s2 j : hold j s s1 -> same s1 s2 -> ok1 s j ->
  exists s3, unlock s2 j = Ok s3 /\ same s s3.
Proof.
  intros Hh Hs Hok. destruct (bracket s s1 s2 j 0 false Hh (same_upto 0 false _ _ Hs) Hok) as (s3 & E & (P & L & G & _) & C3 & D3).
  exists s3. split; [exact E|]. split; [exact P|]. split; [exact L|].
  split; [intros b Hb; apply G; [exact Hb|discriminate]|].
  destruct Hs as (_ & _ & _ & C1 & D1). destruct Hh as (_ & _ & _ & _ & C & D). split; congruence.
Qed.
Lemma hold_locked k s s' : hold k s s' -> locks (mm s') k <> 0.
Proof. intros (_ & L & _). rewrite L. destruct nest; discriminate. Qed.
Lemma ok1_hold_other j k s s' : hold j s s' -> ok1 s k -> k <> j \/ nest = true -> ok1 s' k.
Proof.
  intros (_ & _ & L & _) [H|H] [Hk| Hk]; try (now left). right. rewrite L; assumption.
Qed.
Lemma ok1_same s s' k : same s s' -> ok1 s k -> ok1 s' k.
Proof. intros (_ & L & _) [H|H]; [now left|right; now rewrite L]. Qed.
Lemma ok1_upto s s' j mv k : upto j mv s s' -> ok1 s k -> ok1 s' k.
Proof. intros (_ & L & _) [H|H]; [now left|right; now rewrite L]. Qed.

(* accesses *)
Lemma loadn_ok s k i a b c : cont (mm s) k = a ++ b ++ c -> i = length a ->
  loadn s (Ref k (gen (mm s) k) i) (length b) = Ok b.
Proof.
  intros E ->. unfold loadn; cbn. rewrite Nat.eqb_refl, E. cbn.
  assert (H : length a + length b <=? length (a ++ b ++ c) = true) by (apply Nat.leb_le; rewrite !app_length; lia).
  rewrite H. now rewrite slice_app.
Qed.
Lemma loadn_gen s g k i a b c n : gen (mm s) k = g -> cont (mm s) k = a ++ b ++ c -> i = length a -> n = length b ->
  loadn s (Ref k g i) n = Ok b.
Proof. intros <- E Hi ->. now apply (loadn_ok s k i a b c). Qed.
Lemma load_gen s g k i a x c : gen (mm s) k = g -> cont (mm s) k = a ++ x :: c -> i = length a ->
  load s (Ref k g i) = Ok x.
Proof. intros H E Hi. unfold load. rewrite (loadn_gen s g k i a [x] c 1 H E Hi eq_refl). reflexivity. Qed.
Lemma storen_gen s g k i a b c l : gen (mm s) k = g -> cont (mm s) k = a ++ b ++ c -> i = length a -> length l = length b ->
  exists s', storen s (Ref k g i) l = Ok s' /\ cs s' = cs s /\ gen (mm s') = gen (mm s) /\ locks (mm s') = locks (mm s) /\
  ptrs s' = ptrs s /\ cont (mm s') k = a ++ l ++ c /\ (forall b0, b0 <> k -> cont (mm s') b0 = cont (mm s) b0).
Proof.
  intros Hg E -> Hl. unfold storen; cbn. rewrite Hg, Nat.eqb_refl, E. cbn.
  assert (H : length a + length l <=? length (a ++ b ++ c) = true) by (apply Nat.leb_le; rewrite !app_length; lia).
  rewrite H. eexists. split; [reflexivity|]. cbn. repeat split.
  - rewrite set_same. now apply splice_app.
  - intros b0 Hb. now rewrite set_other.
Qed.
Lemma stored_upto k s s' : cs s' = cs s -> gen (mm s') = gen (mm s) -> locks (mm s') = locks (mm s) ->
  ptrs s' = ptrs s -> (forall b0, b0 <> k -> cont (mm s') b0 = cont (mm s) b0) -> upto k false s s'.
Proof.
  intros C G L P D. split; [exact P|]. split; [now rewrite L|]. split; [now rewrite G|].
  intros b Hb. rewrite C. split; [reflexivity|now apply D].
Qed.

(* size *)
Definition sized (s : st) (k n : nat) : Prop :=
  c_alloc (cs s k) = true /\ (if c_nt (cs s k) then strlen (cont (mm s) k) = Ok n else c_sz (cs s k) = n).
Lemma size_ok s k n : sized s k n -> ok1 s k \/ c_nt (cs s k) = false -> exists s', size s k = Ok (n, s') /\ same s s'.
Proof.
  intros [Ha Hn] Hok. unfold Lkd_Model.size. rewrite Ha. cbn [negb].
  destruct (c_nt (cs s k)) eqn:E.
  - destruct Hok as [Hok|?]; [|discriminate].
    destruct (lock_ok s k 0 Ha) as (s1 & E1 & H1). rewrite E1. cbn [bind].
    assert (D1 : cont (mm s1) k = cont (mm s) k) by (destruct H1 as (_ & _ & _ & _ & _ & D); now rewrite D).
    rewrite (loadn_gen s1 _ k 0 [] (cont (mm s1) k) [] (length (cont (mm s1) k)) eq_refl); [|now rewrite app_nil_r|reflexivity|reflexivity].
    cbn [bind]. rewrite D1, Hn. cbn [bind].
    destruct (bracket_same s s1 s1 k H1 (same_refl s1) Hok) as (s3 & E3 & H3).
    rewrite E3. cbn [bind]. exists s3. split; [reflexivity|assumption].
  - rewrite Hn. exists s. split; [reflexivity|apply same_refl].
Qed.
Lemma sized_same s s' k n : same s s' -> sized s k n -> sized s' k n.
Proof. intros (_ & _ & _ & C & D) [H1 H2]. unfold sized. now rewrite C, D. Qed.
Lemma sized_hold j s s' k n : hold j s s' -> sized s k n -> sized s' k n.
Proof. intros (_ & _ & _ & _ & C & D) [H1 H2]. unfold sized. now rewrite C, D. Qed.
Lemma sized_upto k mv s s' j n : upto k mv s s' -> j <> k -> sized s j n -> sized s' j n.
Proof. intros (_ & _ & _ & C) Hj [H1 H2]. destruct (C j Hj) as [A B]. unfold sized. now rewrite A, B. Qed.

(* container k holds text l *)
Definition holds (s : st) (k : nat) (nt al : bool) (cap : nat) (l : list Z) : Prop :=
  c_nt (cs s k) = nt /\ c_alloc (cs s k) = al /\ c_cap (cs s k) = cap /\
  (nt = false -> c_sz (cs s k) = length l) /\
  (al = false -> cap = 0 /\ nt = false /\ l = []) /\
  (al = true -> length (cont (mm s) k) = cap /\ exists rest, cont (mm s) k = l ++ term nt ++ rest) /\ clean nt l.
Lemma holds_same s s' k nt al cap l : same s s' -> holds s k nt al cap l -> holds s' k nt al cap l.
Proof. intros (_ & _ & _ & C & D). unfold holds. now rewrite C, D. Qed.
Lemma holds_hold j s s' k nt al cap l : hold j s s' -> holds s k nt al cap l -> holds s' k nt al cap l.
Proof. intros (_ & _ & _ & _ & C & D). unfold holds. now rewrite C, D. Qed.
Lemma holds_upto k mv s s' j nt al cap l : upto k mv s s' -> j <> k -> holds s j nt al cap l -> holds s' j nt al cap l.
Proof. intros (_ & _ & _ & C) Hj. destruct (C j Hj) as [A B]. unfold holds. now rewrite A, B. Qed.
Lemma holds_sized s k nt cap l : holds s k nt true cap l -> sized s k (length l).
Proof.
  intros (Hn & Ha & Hc & Hs & _ & Hb & Hcl). split; [assumption|]. rewrite Hn.
  destruct nt.
  - destruct (Hb eq_refl) as (_ & rest & E). rewrite E. cbn. apply strlen_app. now apply Hcl.
  - now apply Hs.
Qed.
Lemma holds_size s k nt al cap l : holds s k nt al cap l -> ok1 s k \/ nt = false -> exists s', size s k = Ok (length l, s') /\ same s s'.
Proof.
  intros H Hok. destruct al.
  - apply size_ok; [now apply holds_sized with (nt := nt) (cap := cap)|]. destruct H as (Hn & _). now rewrite Hn.
  - destruct H as (Hn & Ha & _ & _ & H0 & _). destruct (H0 eq_refl) as (_ & _ & ->).
    unfold Lkd_Model.size. rewrite Ha. exists s. split; [reflexivity|apply same_refl].
Qed.
Lemma holds_alloc s k nt al cap l : holds s k nt al cap l -> c_alloc (cs s k) = al.
Proof. intros (_ & H & _). exact H. Qed.
Lemma holds_le s k nt cap l : holds s k nt true cap l -> length l + (if nt then 1 else 0) <= cap.
Proof.
  intros (_ & _ & _ & _ & _ & Hb & _). destruct (Hb eq_refl) as (<- & rest & ->).
  rewrite !app_length. destruct nt; cbn; lia.
Qed.

(* growing: after it k has memory for n characters, its first characters as before *)
Lemma room_ok s k nt al cap l n pd : holds s k nt al cap l -> length l <= n ->
  let cap' := if n <=? cap then cap else n + pd in
  let al' := al || (cap <? n) in
  let s' := ensure_total_capacity s k n pd in
  upto k (cap <? n) s s' /\ c_nt (cs s' k) = nt /\ c_alloc (cs s' k) = al' /\ c_cap (cs s' k) = cap' /\
  c_sz (cs s' k) = c_sz (cs s k) /\
  (al' = true -> length (cont (mm s') k) = cap' /\ exists rest, cont (mm s') k = l ++ rest /\ (al = true -> length l < cap -> nt = true -> exists r, rest = 0%Z :: r)).
Proof.
  intros (Hn & Ha & Hc & Hs & H0 & Hb & Hcl) Hle cap' al' s'.
  unfold s', Lkd_Model.ensure_total_capacity. rewrite Hc.
  destruct (cap <? n) eqn:E.
  - apply Nat.ltb_lt in E. unfold al', cap'. rewrite orb_true_r.
    assert (E2 : n <=? cap = false) by (apply Nat.leb_gt; lia). rewrite E2.
    unfold Lkd_Model.reserve. rewrite Ha, Hn. split; [|cbn].
    { split; [reflexivity|]. split; [reflexivity|]. split.
      - intros b Hlb Hbk. cbn. specialize (Hbk eq_refl). apply Nat.eqb_neq in Hbk, Hlb. rewrite Hbk, Hlb. reflexivity.
      - intros b Hbk. cbn. rewrite !set_other by assumption. split; reflexivity. }
    rewrite !set_same. cbn. split; [reflexivity|]. split; [reflexivity|]. split; [reflexivity|]. split; [reflexivity|].
    intros _. split.
    + rewrite app_length, map_length, seq_length.
      set (x := length (firstn (n + pd) (if al then cont (mm s) k else []))).
      assert (x <= n + pd) by (unfold x; rewrite firstn_length; lia). lia.
    + destruct al.
      * destruct (Hb eq_refl) as (Hlen & rest & Er).
        assert (Hf : firstn (n + pd) (cont (mm s) k) = cont (mm s) k) by (apply firstn_all2; lia).
        rewrite Hf, Er. exists (term nt ++ rest ++ map (junk (calls (mm s))) (seq (length (l ++ term nt ++ rest)) (n + pd - length (l ++ term nt ++ rest)))).
        rewrite <- !app_assoc. split; [reflexivity|]. intros _ _ ->. cbn. eauto.
      * destruct (H0 eq_refl) as (_ & _ & ->). rewrite firstn_nil. cbn. eexists. split; [reflexivity|discriminate].
  - apply Nat.ltb_ge in E. unfold al', cap'. rewrite orb_false_r.
    assert (E2 : n <=? cap = true) by (apply Nat.leb_le; lia). rewrite E2.
    split; [apply upto_refl|]. split; [exact Hn|]. split; [exact Ha|]. split; [exact Hc|]. split; [reflexivity|].
    intros H. destruct (Hb H) as (Hlen & rest & Er). split; [exact Hlen|]. exists (term nt ++ rest). split; [assumption|].
    intros _ _ ->. cbn. eauto.
Qed.
Lemma clean_hd (l : list Z) : clean true l -> match l with [] => True | a :: _ => a <> 0%Z end.
Proof. destruct l; [auto|]. intros H. apply H; [reflexivity|now left]. Qed.

(* size(len) on memory with room *)
Lemma set_size_nt s k len a x c : c_nt (cs s k) = true -> c_alloc (cs s k) = true -> ok1 s k ->
  cont (mm s) k = a ++ x :: c -> len = length a ->
  exists s', set_size s k len = Ok s' /\ upto k false s s' /\ cs s' = cs s /\ cont (mm s') k = a ++ 0%Z :: c.
Proof.
  intros Hn Ha Hok E ->. unfold Lkd_Model.set_size. rewrite Hn.
  destruct (lock_ok s k (length a) Ha) as (s1 & E1 & H1). rewrite E1. cbn [bind].
  assert (D1 : cont (mm s1) k = cont (mm s) k) by (destruct H1 as (_ & _ & _ & _ & _ & D); now rewrite D).
  destruct (storen_gen s1 _ k (length a) a [x] c [0%Z] eq_refl) as (s2 & E2 & C2 & G2 & L2 & P2 & D2 & O2);
    [now rewrite D1|reflexivity|reflexivity|].
  rewrite E2. cbn [bind].
  destruct (bracket s s1 s2 k k false H1 (stored_upto k s1 s2 C2 G2 L2 P2 O2) Hok) as (s3 & E3 & U3 & C3 & D3).
  rewrite E3. exists s3. split; [reflexivity|]. split; [exact U3|]. split.
  - rewrite C3, C2. now destruct H1 as (_ & _ & _ & _ & C & _).
  - now rewrite D3, D2.
Qed.
Lemma set_size_ex s k len : c_nt (cs s k) = false ->
  exists s', set_size s k len = Ok s' /\ upto k false s s' /\ cont (mm s') = cont (mm s) /\
  cs s' k = Con false (c_alloc (cs s k)) (c_cap (cs s k)) len.
Proof.
  intros Hn. unfold Lkd_Model.set_size. rewrite Hn. eexists. split; [reflexivity|]. split; [|split; [reflexivity|cbn; now rewrite set_same]].
  split; [reflexivity|]. split; [reflexivity|]. split; [reflexivity|]. intros b Hb. cbn. rewrite set_other by assumption. auto.
Qed.

(* the state of k between growing to n characters and writing them: text l, then mid, then the terminator *)
Definition grown (s : st) (k : nat) (nt : bool) (cap : nat) (l mid : list Z) : Prop :=
  c_nt (cs s k) = nt /\ c_alloc (cs s k) = true /\ c_cap (cs s k) = cap /\
  (nt = false -> c_sz (cs s k) = length l + length mid) /\
  length (cont (mm s) k) = cap /\ exists rest, cont (mm s) k = l ++ mid ++ term nt ++ rest.
Lemma ensure_ok s k nt al cap l n pd : holds s k nt al cap l -> length l <= n -> ok1 s k ->
  let cap' := if n <=? cap then cap else n + pd in
  (nt = true -> n < cap') ->
  exists s', ensure_total_size s k n pd = Ok s' /\ upto k (cap <? n) s s' /\
  (al || (cap <? n) = true -> exists mid, grown s' k nt cap' l mid /\ length mid = n - length l /\
     (nt = true -> strlen (mid ++ [0%Z]) = Ok 0)) /\
  (al || (cap <? n) = false -> l = [] -> holds s' k nt false cap []).
Proof.
  intros Hh Hle Hok cap' Hroom.
  destruct (room_ok s k nt al cap l n pd Hh Hle) as (U & Kn & Ka & Kc & Ks & Kb).
  fold cap' in Kc, Kb. unfold Lkd_Model.ensure_total_size.
  set (s1 := ensure_total_capacity s k n pd) in *.
  destruct nt.
  - assert (Hal : al = true). { destruct al; [reflexivity|]. destruct Hh as (_ & _ & _ & _ & H0 & _). destruct (H0 eq_refl) as (_ & ? & _). discriminate. }
    subst al. cbn [orb] in *. destruct (Kb eq_refl) as (Hlen & rest & Er & Hr).
    destruct (Hr eq_refl) as (r & ->); [apply holds_le in Hh; lia|reflexivity|].
    (* 0 :: r = m ++ x :: c with length m = n - length l *)
    assert (Hsp : exists m x c, 0%Z :: r = m ++ x :: c /\ length m = n - length l).
    { exists (firstn (n - length l) (0%Z :: r)).
      assert (Hlr : n - length l < length (0%Z :: r)).
      { rewrite Er in Hlen. rewrite app_length in Hlen. specialize (Hroom eq_refl). lia. }
      destruct (skipn (n - length l) (0%Z :: r)) as [|x c] eqn:Es.
      - apply (f_equal (@length Z)) in Es. rewrite skipn_length in Es. cbn [length] in Es, Hlr. lia.
      - exists x, c. split; [rewrite <- Es; symmetry; apply firstn_skipn|]. apply firstn_length_le. lia. }
    destruct Hsp as (m & x & c & Em & Lm).
    destruct (set_size_nt s1 k n (l ++ m) x c) as (s2 & E2 & U2 & C2 & D2).
    { exact Kn. } { exact Ka. } { apply (ok1_upto s s1 k (cap <? n)); assumption. }
    { rewrite Er, Em, app_assoc. reflexivity. } { rewrite app_length. lia. }
    exists s2. rewrite E2. split; [reflexivity|]. split.
    { rewrite <- (orb_false_r (cap <? n)). apply (upto_trans k _ _ _ _ _ U U2). }
    split; [|discriminate]. intros _. exists m. repeat split.
    + now rewrite C2. + now rewrite C2. + now rewrite C2. + discriminate.
    + rewrite D2. rewrite Er, Em in Hlen. rewrite !app_length in *. cbn in *. lia.
    + exists c. rewrite D2, <- app_assoc. reflexivity.
    + exact Lm.
    + intros _. destruct m as [|y m]; [reflexivity|]. cbn in Em. injection Em as <- _. reflexivity.
  - destruct (set_size_ex s1 k n Kn) as (s2 & E2 & U2 & D2 & C2).
    exists s2. rewrite E2. split; [reflexivity|]. split.
    { rewrite <- (orb_false_r (cap <? n)). apply (upto_trans k _ _ _ _ _ U U2). }
    split.
    + intros Hal. destruct (Kb Hal) as (Hlen & rest & Er & _).
      assert (Hlr : n - length l <= length rest).
      { rewrite Er in Hlen. rewrite app_length in Hlen. assert (n <= cap') by (unfold cap'; destruct (n <=? cap) eqn:E; [apply Nat.leb_le in E|]; lia). lia. }
      exists (firstn (n - length l) rest). split; [|split; [apply firstn_length_le; lia|discriminate]].
      split; [now rewrite C2|]. split; [rewrite C2; cbn; congruence|]. split; [rewrite C2; cbn; congruence|].
      split; [intros _; rewrite C2; cbn; rewrite firstn_length_le; lia|].
      split; [rewrite D2; exact Hlen|]. exists (skipn (n - length l) rest). rewrite D2, Er. cbn. now rewrite firstn_skipn.
    + intros Hal ->. apply orb_false_iff in Hal as [-> Hc]. destruct Hh as (_ & _ & Hcap & Hs0 & H0 & _). destruct (H0 eq_refl) as (-> & _ & _).
      apply Nat.ltb_ge in Hc. assert (n = 0) by lia. subst n.
      split; [now rewrite C2|]. split; [rewrite C2; cbn [c_alloc]; exact Ka|]. split; [rewrite C2; cbn [c_cap]; exact Kc|].
      split; [intros _; now rewrite C2|]. split; [intros _; repeat split|]. split; [discriminate|]. intros ?; discriminate.
Qed.
(* size(n) that cuts the text *)
Lemma cut_ok s k nt al cap l n : holds s k nt al cap l -> n <= length l -> ok1 s k -> al = true \/ nt = false ->
  exists s', set_size s k n = Ok s' /\ upto k false s s' /\ holds s' k nt al cap (firstn n l).
Proof.
  intros Hh Hle Hok Hal. pose proof Hh as (Hn & Ha & Hc & Hs & H0 & Hb & Hcl).
  destruct nt.
  - destruct Hal as [->|?]; [|discriminate]. destruct (Hb eq_refl) as (Hlen & rest & Er).
    assert (Hx : exists x c, skipn n (cont (mm s) k) = x :: c).
    { destruct (skipn n (cont (mm s) k)) as [|x c] eqn:E; [|eauto].
      apply (f_equal (@length Z)) in E. rewrite skipn_length, Er, !app_length in E. cbn [length term] in E. lia. }
    destruct Hx as (x & c & Ex).
    assert (Hf : length (firstn n (cont (mm s) k)) = n) by (apply firstn_length_le; rewrite Er, !app_length; lia).
    destruct (set_size_nt s k n (firstn n (cont (mm s) k)) x c Hn Ha Hok) as (s' & E & U & C & D).
    { rewrite <- Ex. now rewrite firstn_skipn. } { now rewrite Hf. }
    exists s'. split; [exact E|]. split; [exact U|].
    assert (Ef : firstn n (cont (mm s) k) = firstn n l) by (rewrite Er; now apply firstn_le).
    split; [now rewrite C|]. split; [now rewrite C|]. split; [now rewrite C|]. split; [discriminate|].
    split; [discriminate|]. split; [|now apply clean_firstn].
    intros _. split.
    + rewrite D, app_length. cbn [length]. rewrite Hf.
      apply (f_equal (@length Z)) in Ex. rewrite skipn_length in Ex. cbn [length] in Ex. lia.
    + exists c. rewrite D, Ef. reflexivity.
  - destruct (set_size_ex s k n Hn) as (s' & E & U & D & C).
    exists s'. split; [exact E|]. split; [exact U|].
    split; [now rewrite C|]. split; [rewrite C; cbn [c_alloc]; exact Ha|]. split; [rewrite C; cbn [c_cap]; exact Hc|].
    split; [intros _; rewrite C; cbn [c_sz]; symmetry; now apply firstn_length_le|].
    split; [intros Hf; destruct (H0 Hf) as (-> & _ & ->); rewrite firstn_nil; auto|].
    split; [|intros ?; discriminate].
    intros Ht. destruct (Hb Ht) as (Hlen & rest & Er). rewrite D. split; [exact Hlen|].
    exists (skipn n l ++ rest). rewrite Er. cbn. now rewrite app_assoc, firstn_skipn.
Qed.
Lemma grown_holds s k nt cap l mid : grown s k nt cap l mid -> clean nt (l ++ mid) -> holds s k nt true cap (l ++ mid).
Proof.
  intros (H1 & H2 & H3 & H4 & H5 & rest & H6) Hc. split; [exact H1|]. split; [exact H2|]. split; [exact H3|].
  split; [intros E; rewrite app_length; now apply H4|]. split; [discriminate|]. split; [|exact Hc].
  intros _. split; [exact H5|]. exists rest. rewrite H6. now rewrite app_assoc.
Qed.
Lemma grown_cont s s' k nt cap l mid x y : grown s k nt cap l mid -> cs s' k = cs s k -> length x + length y = length l + length mid ->
  (forall rest, cont (mm s) k = l ++ mid ++ term nt ++ rest -> cont (mm s') k = x ++ y ++ term nt ++ rest) -> grown s' k nt cap x y.
Proof.
  intros (H1 & H2 & H3 & H4 & H5 & rest & H6) Hcs Hl Hc. unfold grown. rewrite Hcs.
  repeat (split; [assumption || (intros E; rewrite Hl; now apply H4)|]).
  rewrite (Hc rest H6). split; [|eauto]. rewrite H6 in H5. rewrite !app_length in *. lia.
Qed.
Definition ends (nt : bool) (mid : list Z) : Prop := nt = true -> strlen (mid ++ [0%Z]) = Ok 0.
Lemma strlen_mid l mid r : clean true l -> strlen (mid ++ [0%Z]) = Ok 0 -> strlen (l ++ mid ++ 0%Z :: r) = Ok (length l).
Proof.
  intros Hc H. destruct mid as [|a mid]; cbn in *; [now apply strlen_app, Hc|].
  destruct (Z.eqb_spec a 0) as [->|]; [apply strlen_app; now apply Hc|]. destruct (strlen (mid ++ [0%Z])); discriminate.
Qed.
Lemma grown_sized s k nt cap l mid : grown s k nt cap l mid -> clean nt l -> ends nt mid ->
  sized s k (if nt then length l else length l + length mid).
Proof.
  intros (H1 & H2 & H3 & H4 & H5 & rest & H6) Hc He. split; [exact H2|]. rewrite H1. destruct nt; [|now apply H4].
  rewrite H6. cbn. apply strlen_mid; auto.
Qed.
Lemma grow_ok s k nt al cap l by_ : holds s k nt al cap l -> ok1 s k ->
  let n := length l + by_ in
  let cap' := if n <=? cap then cap else n + pad in
  (nt = true -> n < cap') -> al || (cap <? n) = true ->
  exists s' mid, grow s k by_ = Ok (length l, s') /\ upto k (cap <? n) s s' /\
  grown s' k nt cap' l mid /\ length mid = by_ /\ ends nt mid.
Proof.
  intros Hh Hok n cap' Hroom Hal. unfold Lkd_Model.grow.
  destruct (holds_size s k nt al cap l Hh (or_introl Hok)) as (s1 & E1 & S1). rewrite E1. cbn [bind].
  destruct (ensure_ok s1 k nt al cap l n pad (holds_same _ _ _ _ _ _ _ S1 Hh) ltac:(unfold n; lia) (ok1_same _ _ _ S1 Hok) Hroom)
    as (s2 & E2 & U2 & H2 & _).
  unfold Lkd_Model.ensure_total_size in E2. fold n. rewrite E2. cbn [bind].
  destruct (H2 Hal) as (mid & Hg & Hm & He).
  exists s2, mid. split; [reflexivity|]. split; [apply (upto_trans k false (cap <? n) s s1 s2); [now apply same_upto|exact U2]|].
  split; [exact Hg|]. split; [unfold n in Hm; lia|exact He].
Qed.
(* ensure_total_size whatever the size: n characters of something, then the terminator *)
Lemma sized_ok s k nt al cap l n : holds s k nt al cap l -> ok1 s k ->
  let cap' := if n <=? cap then cap else n + 0 in
  (nt = true -> n < cap') -> al || (cap <? n) = true ->
  exists s' x, ensure_total_size s k n 0 = Ok s' /\ upto k (cap <? n) s s' /\ grown s' k nt cap' [] x /\ length x = n.
Proof.
  intros Hh Hok cap' Hroom Hal. destruct (Nat.le_gt_cases (length l) n) as [Hle|Hgt].
  - destruct (ensure_ok s k nt al cap l n 0 Hh Hle Hok Hroom) as (s' & E & U & H & _).
    destruct (H Hal) as (mid & Hg & Hm & _). exists s', (l ++ mid). split; [exact E|]. split; [exact U|].
    split; [|rewrite app_length; lia].
    apply (grown_cont s' s' k nt cap' l mid [] (l ++ mid) Hg eq_refl); [rewrite app_length; reflexivity|].
    intros rest ->. cbn. now rewrite app_assoc.
  - assert (Hat : al = true). { destruct al; [reflexivity|]. destruct Hh as (_ & _ & _ & _ & H0 & _). destruct (H0 eq_refl) as (_ & _ & ->). cbn in Hgt. lia. }
    subst al. assert (Hc : length l <= cap) by (apply holds_le in Hh; lia).
    assert (E1 : n <=? cap = true) by (apply Nat.leb_le; lia). assert (E2 : cap <? n = false) by (apply Nat.ltb_ge; lia).
    destruct (cut_ok s k nt true cap l n Hh ltac:(lia) Hok (or_introl eq_refl)) as (s' & E & U & H).
    exists s', (firstn n l). unfold Lkd_Model.ensure_total_size, Lkd_Model.ensure_total_capacity.
    assert (Ecap : c_cap (cs s k) = cap) by now destruct Hh as (_ & _ & ? & _).
    rewrite Ecap. unfold cap'. rewrite E1, E2. split; [exact E|]. split; [exact U|].
    assert (Hl : length (firstn n l) = n) by (apply firstn_length_le; lia). split; [|exact Hl].
    destruct H as (A1 & A2 & A3 & A4 & _ & A6 & _). destruct (A6 eq_refl) as (A7 & rest & A8).
    split; [exact A1|]. split; [exact A2|]. split; [exact A3|]. split; [exact A4|]. split; [exact A7|]. exists rest. exact A8.
Qed.

(* lock, write, unlock *)
Lemma put_ok s k i a b c x : c_alloc (cs s k) = true -> ok1 s k -> cont (mm s) k = a ++ b ++ c -> i = length a -> length x = length b ->
  exists s', ('(p, s) <- lock s k i ;; s <- storen s p x ;; unlock s k) = Ok s' /\ upto k false s s' /\ cs s' = cs s /\
  cont (mm s') k = a ++ x ++ c.
Proof.
  intros Ha Hok E Hi Hl. destruct (lock_ok s k i Ha) as (s1 & E1 & H1). rewrite E1. cbn [bind].
  assert (D1 : cont (mm s1) k = cont (mm s) k) by (destruct H1 as (_ & _ & _ & _ & _ & D); now rewrite D).
  destruct (storen_gen s1 _ k i a b c x eq_refl) as (s2 & E2 & C2 & G2 & L2 & P2 & D2 & O2); [now rewrite D1|exact Hi|exact Hl|].
  rewrite E2. cbn [bind].
  destruct (bracket s s1 s2 k k false H1 (stored_upto k s1 s2 C2 G2 L2 P2 O2) Hok) as (s3 & E3 & U3 & C3 & D3).
  rewrite E3. exists s3. split; [reflexivity|]. split; [exact U3|]. split.
  - rewrite C3, C2. now destruct H1 as (_ & _ & _ & _ & C & _).
  - now rewrite D3, D2.
Qed.
(* lock, read, unlock *)
Lemma get_ok {X} s k i a b c (f : list Z -> X) : c_alloc (cs s k) = true -> ok1 s k -> cont (mm s) k = a ++ b ++ c -> i = length a ->
  exists s', ('(p, s) <- lock s k i ;; l <- loadn s p (length b) ;; s <- unlock s k ;; Ok (f l, s)) = Ok (f b, s') /\ same s s'.
Proof.
  intros Ha Hok E Hi. destruct (lock_ok s k i Ha) as (s1 & E1 & H1). rewrite E1. cbn [bind].
  assert (D1 : cont (mm s1) k = cont (mm s) k) by (destruct H1 as (_ & _ & _ & _ & _ & D); now rewrite D).
  rewrite (loadn_gen s1 _ k i a b c (length b) eq_refl); [|now rewrite D1|exact Hi|reflexivity]. cbn [bind].
  destruct (bracket_same s s1 s1 k H1 (same_refl s1) Hok) as (s3 & E3 & H3). rewrite E3. cbn [bind]. eauto.
Qed.

Definition outcome (s s' : st) (k : nat) (nt : bool) (cap : nat) (L : list Z) (pd : nat) : Prop :=
  upto k (cap <? length L) s s' /\ holds s' k nt true (if length L <=? cap then cap else length L + pd) L.

Lemma grown_put s k i nt cap l mid buf : grown s k nt cap l mid -> ok1 s k -> length buf = length mid -> clean nt (l ++ buf) -> i = length l ->
  exists s', ('(p, s) <- lock s k i ;; s <- storen s p buf ;; unlock s k) = Ok s' /\ upto k false s s' /\ holds s' k nt true cap (l ++ buf).
Proof.
  intros Hg Hok Hl Hc Hi. pose proof Hg as (_ & H2 & _ & _ & _ & rest & H6).
  destruct (put_ok s k i l mid (term nt ++ rest) buf H2 Hok H6 Hi Hl) as (s' & E & U & C & D).
  exists s'. split; [exact E|]. split; [exact U|]. apply grown_holds; [|exact Hc].
  apply (grown_cont s s' k nt cap l mid l buf Hg); [now rewrite C|lia|].
  intros r Er. rewrite D. rewrite H6 in Er. apply app_inv_head, app_inv_head in Er. now rewrite Er.
Qed.
Lemma append_ok s k nt al cap l buf : holds s k nt al cap l -> ok1 s k -> clean nt (l ++ buf) ->
  let n := length (l ++ buf) in
  (nt = true -> n < (if n <=? cap then cap else n + pad)) -> al || (cap <? n) = true ->
  exists s', append moves junk nest pad s k buf = Ok s' /\ outcome s s' k nt cap (l ++ buf) pad.
Proof.
  intros Hh Hok Hc n Hroom Hal. unfold append. unfold n in *. rewrite app_length in *.
  destruct (grow_ok s k nt al cap l (length buf) Hh Hok Hroom Hal) as (s1 & mid & E1 & U1 & Hg & Hm & He).
  rewrite E1. cbn [bind]. unfold copy_from.
  destruct (grown_put s1 k (length l) nt _ l mid buf Hg (ok1_upto _ _ _ _ _ U1 Hok) (eq_sym Hm) Hc eq_refl) as (s2 & E2 & U2 & H2).
  rewrite E2. exists s2. split; [reflexivity|]. unfold outcome. rewrite app_length. split; [|exact H2].
  rewrite <- (orb_false_r (cap <? _)). apply (upto_trans k _ _ _ _ _ U1 U2).
Qed.
Lemma push_ok s k nt al cap l a : holds s k nt al cap l -> ok1 s k -> clean nt (l ++ [a]) ->
  let n := length (l ++ [a]) in
  (nt = true -> n < (if n <=? cap then cap else n + pad)) -> al || (cap <? n) = true ->
  exists s', push_back moves junk nest pad s k a = Ok s' /\ outcome s s' k nt cap (l ++ [a]) pad.
Proof. exact (append_ok s k nt al cap l [a]). Qed.

(* copy of j's text to an address in k *)
Lemma copy_to_ok s j k g i n count a b c a' b' c' :
  sized s j n -> count <= n -> ok1 s j -> nest = true \/ c_nt (cs s j) = false ->
  cont (mm s) j = a ++ b ++ c -> length a = 0 -> length b = count ->
  gen (mm s) k = g -> locks (mm s) k <> 0 -> cont (mm s) k = a' ++ b' ++ c' -> i = length a' -> length b' = count ->
  exists s', copy_to s j count 0 (fun s l => storen s (Ref k g i) l) = Ok (count, s') /\ upto k false s s' /\ cs s' = cs s /\
  cont (mm s') k = a' ++ b ++ c'.
Proof.
  intros Hsz Hle Hok Hd Ej Ha Hb Hg Hlk Ek Hi Hb'. unfold Lkd_Model.copy_to.
  destruct (lock_ok s j 0 (proj1 Hsz)) as (s1 & E1 & H1). rewrite E1. cbn [bind].
  pose proof H1 as (P1 & Lj1 & Lo1 & G1 & C1 & D1).
  assert (Hd1 : ok1 s1 j \/ c_nt (cs s1 j) = false) by (destruct Hd as [Hd|Hd]; [left; now left|right; now rewrite C1]).
  destruct (size_ok s1 j n (sized_hold _ _ _ _ _ H1 Hsz) Hd1) as (s2 & E2 & S2). rewrite E2. cbn [bind].
  assert (El : n <? 0 + count = false) by (apply Nat.ltb_ge; lia). rewrite El. cbn [bind].
  pose proof S2 as (P2 & L2 & G2 & C2 & D2).
  assert (Gj : gen (mm s2) j = gen (mm s1) j) by (apply G2; exact (hold_locked j s s1 H1)).
  rewrite (loadn_gen s2 _ j 0 a b c count Gj); [|now rewrite D2, D1|now rewrite Ha|now rewrite Hb]. cbn [bind].
  assert (Gk : gen (mm s2) k = g).
  { rewrite G2, G1; [exact Hg|exact Hlk|]. destruct (Nat.eq_dec k j) as [->|Hkj]; [exact (hold_locked j s s1 H1)|now rewrite Lo1]. }
  destruct (storen_gen s2 g k i a' b' c' b Gk) as (s3 & E3 & C3 & G3 & L3 & P3 & D3 & O3); [now rewrite D2, D1|exact Hi|lia|].
  rewrite E3. cbn [bind].
  assert (U13 : upto k false s1 s3).
  { apply (upto_trans k false false s1 s2 s3); [now apply same_upto|now apply stored_upto]. }
  destruct (bracket s s1 s3 j k false H1 U13 Hok) as (s4 & E4 & U4 & C4 & D4).
  rewrite E4. cbn [bind]. exists s4. split; [reflexivity|]. split; [exact U4|]. split; [congruence|]. now rewrite D4, D3.
Qed.
Lemma holds_inj s k nt al cap l nt' al' cap' l' : holds s k nt al cap l -> holds s k nt' al' cap' l' -> l = l'.
Proof.
  intros (Q1 & Q2 & Q3 & Q4 & Q5 & Q6 & Q7) (Q1' & Q2' & Q3' & Q4' & Q5' & Q6' & Q7').
  rewrite Q1 in Q1'. rewrite Q2 in Q2'. subst nt' al'.
  destruct al.
  - destruct (Q6 eq_refl) as (_ & r & Er), (Q6' eq_refl) as (_ & r' & Er'). rewrite Er in Er'.
    assert (El : length l = length l').
    { destruct nt.
      - cbn in Er'.
        assert (F1 : strlen (l ++ 0%Z :: r) = Ok (length l)) by (apply strlen_app; now apply Q7).
        assert (F2 : strlen (l' ++ 0%Z :: r') = Ok (length l')) by (apply strlen_app; now apply Q7').
        rewrite Er' in F1. congruence.
      - rewrite <- Q4, <- Q4'; reflexivity. }
    apply (f_equal (firstn (length l))) in Er'. rewrite firstn_app0 in Er'. rewrite Er'. now apply firstn_app_n.
  - destruct (Q5 eq_refl) as (_ & _ & ->), (Q5' eq_refl) as (_ & _ & ->). reflexivity.
Qed.
Lemma append_arr_ok s k j nt al cap l ntj alj capj lj : holds s k nt al cap l -> holds s j ntj alj capj lj ->
  ok1 s k -> ok1 s j -> nest = true \/ (ntj = false /\ k <> j) -> (alj = true \/ k = j) -> clean nt (l ++ lj) ->
  let n := length (l ++ lj) in
  (nt = true -> n < (if n <=? cap then cap else n + pad)) -> al || (cap <? n) = true ->
  exists s', append_arr moves junk nest pad s k j = Ok s' /\ outcome s s' k nt cap (l ++ lj) pad.
Proof.
  intros Hk Hj Hok Hokj Hd Halj Hc n Hroom Hal. unfold append_arr. unfold n in *. rewrite app_length in *.
  destruct (holds_size s j ntj alj capj lj Hj (or_introl Hokj)) as (s0 & E0 & S0). rewrite E0. cbn [bind].
  apply (holds_same _ _ _ _ _ _ _ S0) in Hk, Hj. apply (ok1_same _ _ _ S0) in Hok, Hokj.
  destruct (grow_ok s0 k nt al cap l (length lj) Hk Hok Hroom Hal) as (s1 & mid & E1 & U1 & Hg & Hm & He).
  rewrite E1. cbn [bind]. pose proof (ok1_upto _ _ _ _ _ U1 Hok) as Hok1.
  pose proof Hg as (N1 & A1 & _ & _ & _ & rest & D1).
  destruct (lock_ok s1 k (length l) A1) as (s2 & E2 & H2). rewrite E2. cbn [bind].
  pose proof H2 as (P2 & Lk2 & Lo2 & G2 & C2 & D2).
  (* the source *)
  assert (Hcl : clean nt l /\ clean nt lj) by now apply clean_app.
  assert (Hsrc : exists m c, sized s2 j m /\ length lj <= m /\ cont (mm s2) j = [] ++ lj ++ c /\
                 ok1 s2 j /\ (nest = true \/ c_nt (cs s2 j) = false)).
  { destruct (Nat.eq_dec k j) as [<-|Hkj].
    - assert (Hn : nest = true) by (destruct Hd as [?|[_ ?]]; [assumption|congruence]).
      assert (El : lj = l).
      { symmetry. exact (holds_inj _ _ _ _ _ _ _ _ _ _ Hk Hj). }
      exists (if nt then length l else length l + length mid), (mid ++ term nt ++ rest). split; [|split].
      + apply (sized_hold k s1 s2); [exact H2|]. apply (grown_sized s1 k nt _ l mid Hg); [tauto|exact He].
      + rewrite El. destruct nt; lia.
      + split; [rewrite D2, El; exact D1|]. split; [now left|now left].
    - assert (Ha : alj = true) by (destruct Halj; [assumption|congruence]). subst alj.
      assert (Hj2 : holds s2 j ntj true capj lj).
      { apply (holds_hold k s1 s2); [exact H2|]. apply (holds_upto k (cap <? length l + length lj) s0 s1); [exact U1|congruence|exact Hj]. }
      pose proof (holds_sized _ _ _ _ _ Hj2) as Hsz. destruct Hj2 as (Q1 & _ & _ & _ & _ & Q6 & _).
      destruct (Q6 eq_refl) as (_ & r & Er).
      exists (length lj), (term ntj ++ r). split; [exact Hsz|]. split; [lia|]. split; [exact Er|]. split.
      + apply (ok1_hold_other k j s1 s2 H2 (ok1_upto _ _ _ _ _ U1 Hokj)). left. congruence.
      + destruct Hd as [?|[? _]]; [now left|right; congruence]. }
  destruct Hsrc as (m & c & Z1 & Z2 & Z3 & Z4 & Z5).
  destruct (copy_to_ok s2 j k (gen (mm s2) k) (length l) m (length lj) [] lj c l mid (term nt ++ rest))
    as (s3 & E3 & U3 & C3 & D3); auto.
  { exact (hold_locked k s1 s2 H2). } { now rewrite D2. }
  rewrite E3. cbn [bind].
  destruct (bracket s1 s2 s3 k k false H2 U3 Hok1) as (s4 & E4 & U4 & C4 & D4).
  rewrite E4. exists s4. split; [reflexivity|]. unfold outcome. rewrite app_length. split.
  - apply (upto_trans k false (cap <? length l + length lj) s s0 s4); [now apply same_upto|].
    rewrite <- (orb_false_r (cap <? _)). apply (upto_trans k _ _ _ _ _ U1 U4).
  - apply grown_holds; [|exact Hc]. apply (grown_cont s1 s4 k nt _ l mid l lj Hg); [now rewrite C4, C3, C2|lia|].
    intros r Er. rewrite D4, D3. rewrite D1 in Er. apply app_inv_head, app_inv_head in Er. now rewrite Er.
Qed.
(* the part of insertion after growing *)
Definition shift (s : st) (k pos n1 i2 : nat) (src : st -> result (list Z)) : result st :=
  '(data, s) <- lock s k 0 ;;
  l <- loadn s (at_ data pos) n1 ;;
  s <- storen s (at_ data i2) l ;;
  x <- src s ;;
  s <- storen s (at_ data pos) x ;;
  unlock s k.
Definition steady (s : st) (k : nat) (src : st -> result (list Z)) (x : list Z) : Prop :=
  forall s', (forall b, b <> k -> locks (mm s) b <> 0 -> gen (mm s') b = gen (mm s) b) ->
             (forall b, b <> k -> cont (mm s') b = cont (mm s) b) -> src s' = Ok x.
Lemma steady_upto s s' k mv src x : upto k mv s s' -> steady s k src x -> steady s' k src x.
Proof.
  intros (_ & L & G & C) H s2 H1 H2. apply H.
  - intros b Hb Hl. rewrite H1; [apply G; [exact Hl|auto]|exact Hb|now rewrite L].
  - intros b Hb. rewrite H2 by exact Hb. apply (C b Hb).
Qed.
Lemma split3 {X} (w : list X) p n q : length w = length p + n + q -> firstn (length p) w = p ->
  exists y z, w = p ++ y ++ z /\ length y = n /\ length z = q.
Proof.
  intros Hl Hp. exists (firstn n (skipn (length p) w)), (skipn n (skipn (length p) w)). split.
  - rewrite firstn_skipn. rewrite <- Hp at 1. symmetry. apply firstn_skipn.
  - rewrite firstn_length, !skipn_length. lia.
Qed.
Lemma shift_ok s k nt cap p q mid n x src : grown s k nt cap (p ++ q) mid -> ok1 s k -> length mid = n -> length x = n ->
  steady s k src x -> clean nt (p ++ x ++ q) ->
  exists s', shift s k (length p) (length q) (length p + n) src = Ok s' /\ upto k false s s' /\ holds s' k nt true cap (p ++ x ++ q).
Proof.
  intros Hg Hok Hm Hx Hst Hc. unfold shift. pose proof Hg as (N1 & A1 & _ & _ & _ & rest & D1).
  destruct (lock_ok s k 0 A1) as (s1 & E1 & H1). rewrite E1. cbn [bind]. unfold at_; cbn [r_blk r_gen r_pos Nat.add].
  pose proof H1 as (P1 & Lk1 & Lo1 & G1 & C1 & DD1).
  rewrite (loadn_gen s1 _ k (length p) p q (mid ++ term nt ++ rest) (length q) eq_refl); [|rewrite DD1, D1; now rewrite <- app_assoc|reflexivity|reflexivity].
  cbn [bind].
  destruct (split3 ((p ++ q) ++ mid) p n (length q)) as (y & z & Ew & Ly & Lz).
  { rewrite !app_length. lia. } { rewrite <- app_assoc. apply firstn_app0. }
  assert (Dk : cont (mm s1) k = (p ++ y) ++ z ++ (term nt ++ rest)).
  { rewrite DD1, D1. rewrite app_assoc, Ew. now rewrite <- !app_assoc. }
  destruct (storen_gen s1 (gen (mm s1) k) k (length p + n) (p ++ y) z (term nt ++ rest) q eq_refl) as (s2 & E2 & C2 & G2 & L2 & P2 & D2 & O2);
    [exact Dk|rewrite app_length; lia|lia|].
  rewrite E2. cbn [bind].
  rewrite (Hst s2). 2:{ intros b Hb Hlb. rewrite G2. now apply G1. } 2:{ intros b Hb. rewrite O2 by exact Hb. now rewrite DD1. }
  cbn [bind].
  destruct (storen_gen s2 (gen (mm s1) k) k (length p) p y (q ++ term nt ++ rest) x) as (s3 & E3 & C3 & G3 & L3 & P3 & D3 & O3);
    [now rewrite G2|rewrite D2; now rewrite <- app_assoc|reflexivity|lia|].
  rewrite E3. cbn [bind].
  assert (U : upto k false s1 s3).
  { apply (upto_trans k false false s1 s2 s3); apply stored_upto; assumption. }
  destruct (bracket s s1 s3 k k false H1 U Hok) as (s4 & E4 & U4 & C4 & D4).
  rewrite E4. exists s4. split; [reflexivity|]. split; [exact U4|].
  pose proof (grown_holds s4 k nt cap (p ++ x) q) as Hgh. rewrite <- app_assoc in Hgh. apply Hgh; [|exact Hc].
  apply (grown_cont s s4 k nt cap (p ++ q) mid (p ++ x) q Hg); [congruence|rewrite !app_length; lia|].
  intros r Er. rewrite D4, D3. rewrite D1 in Er. apply app_inv_head, app_inv_head, app_inv_head in Er. rewrite Er. now rewrite <- !app_assoc.
Qed.
Lemma raw_insert_ok s k nt al cap p q x src : holds s k nt al cap (p ++ q) -> ok1 s k -> steady s k src x -> clean nt (p ++ x ++ q) ->
  let n := length (p ++ x ++ q) in
  (nt = true -> n < (if n <=? cap then cap else n + 0)) -> al || (cap <? n) = true ->
  exists s', raw_insert moves junk nest s k (length p) (length x) src = Ok s' /\ outcome s s' k nt cap (p ++ x ++ q) 0.
Proof.
  intros Hh Hok Hst Hc n Hroom Hal. unfold raw_insert.
  destruct (holds_size s k nt al cap _ Hh (or_introl Hok)) as (s1 & E1 & S1). rewrite E1. cbn [bind].
  assert (En : length (p ++ q) + length x = n) by (unfold n; rewrite !app_length; lia). rewrite En.
  destruct (ensure_ok s1 k nt al cap _ n 0 (holds_same _ _ _ _ _ _ _ S1 Hh) ltac:(lia) (ok1_same _ _ _ S1 Hok) Hroom) as (s2 & E2 & U2 & H2 & _).
  rewrite E2. cbn [bind]. destruct (H2 Hal) as (mid & Hg & Hm & _).
  destruct (shift_ok s2 k nt _ p q mid (length x) x src Hg) as (s3 & E3 & U3 & H3); auto.
  { apply (ok1_upto _ _ _ _ _ U2), (ok1_same _ _ _ S1 Hok). } { lia. }
  { apply (steady_upto _ _ _ _ _ _ U2), (steady_upto s s1 k false); [now apply same_upto|exact Hst]. }
  unfold shift in E3.
  assert (B1 : length (p ++ q) - length p = length q) by (rewrite app_length; lia).
  assert (B2 : n - length q = length p + length x) by (unfold n; rewrite !app_length; lia).
  rewrite B1, B2, E3. exists s3. split; [reflexivity|]. unfold outcome. fold n. split; [|exact H3].
  pose proof (upto_trans k _ _ _ _ _ U2 U3) as U23. rewrite orb_false_r in U23.
  exact (upto_trans k false _ s s1 s3 (same_upto k false s s1 S1) U23).
Qed.
Lemma insert_move_ok s k nt al cap p q a : holds s k nt al cap (p ++ q) -> ok1 s k -> clean nt (p ++ [a] ++ q) ->
  let n := length (p ++ [a] ++ q) in
  (nt = true -> n < (if n <=? cap then cap else n + pad)) -> al || (cap <? n) = true ->
  exists s', raw_insert_move moves junk nest pad s k (length p) a = Ok s' /\ outcome s s' k nt cap (p ++ [a] ++ q) pad.
Proof.
  intros Hh Hok Hc n Hroom Hal. unfold raw_insert_move.
  destruct (holds_size s k nt al cap _ Hh (or_introl Hok)) as (s1 & E1 & S1). rewrite E1. cbn [bind].
  assert (En : length (p ++ q) + 1 = n) by (unfold n; rewrite !app_length; cbn; lia).
  apply (holds_same _ _ _ _ _ _ _ S1) in Hh. apply (ok1_same _ _ _ S1) in Hok.
  destruct (grow_ok s1 k nt al cap _ 1 Hh Hok) as (s2 & mid & E2 & U2 & Hg & Hm & _); [now rewrite En|now rewrite En|].
  rewrite En in *. rewrite E2. cbn [bind].
  destruct (shift_ok s2 k nt _ p q mid 1 [a] (fun _ => Ok [a]) Hg) as (s3 & E3 & U3 & H3); auto.
  { apply (ok1_upto _ _ _ _ _ U2 Hok). } { intros ? _ _. reflexivity. }
  unfold shift in E3. cbn [bind] in E3.
  assert (B1 : n - 1 - length p = length q) by (unfold n; rewrite !app_length; cbn; lia).
  assert (B2 : n - length q = length p + 1) by (unfold n; rewrite !app_length; cbn; lia).
  rewrite B1, B2, E3. exists s3. split; [reflexivity|]. unfold outcome. fold n. split; [|exact H3].
  pose proof (upto_trans k _ _ _ _ _ U2 U3) as U23. rewrite orb_false_r in U23.
  exact (upto_trans k false _ s s1 s3 (same_upto k false s s1 S1) U23).
Qed.
Lemma insert_str_ok s k j nt al cap p q ntj capj x : holds s k nt al cap (p ++ q) -> holds s j ntj true capj x -> k <> j ->
  ok1 s k -> ok1 s j -> nest = true \/ ntj = false -> clean nt (p ++ x ++ q) ->
  let n := length (p ++ x ++ q) in
  (nt = true -> n < (if n <=? cap then cap else n + 0)) -> al || (cap <? n) = true ->
  exists s', insert_str moves junk nest s k (length p) j = Ok s' /\ outcome s s' k nt cap (p ++ x ++ q) 0.
Proof.
  intros Hk Hj Hkj Hok Hokj Hd Hc n Hroom Hal. unfold insert_str.
  destruct (lock_ok s j 0 (holds_alloc _ _ _ _ _ _ Hj)) as (s1 & E1 & H1). rewrite E1. cbn [bind].
  assert (Hj1 : holds s1 j ntj true capj x) by exact (holds_hold _ _ _ _ _ _ _ _ H1 Hj).
  assert (Hd1 : ok1 s1 j \/ ntj = false) by (destruct Hd as [Hd|Hd]; [left; now left|now right]).
  destruct (holds_size s1 j ntj true capj x Hj1 Hd1) as (s2 & E2 & S2). rewrite E2. cbn [bind].
  pose proof S2 as (P2 & L2 & G2 & C2 & D2). pose proof (hold_locked j s s1 H1) as Hlj.
  assert (Hok2 : ok1 s2 k) by (apply (ok1_same s1 s2 k S2), (ok1_hold_other j k s s1 H1 Hok); now left).
  destruct (raw_insert_ok s2 k nt al cap p q x (fun s => loadn s (Ref j (gen (mm s1) j) 0) (length x))) as (s3 & E3 & U3 & H3); auto.
  { apply (holds_same _ _ _ _ _ _ _ S2), (holds_hold _ _ _ _ _ _ _ _ H1 Hk). }
  { intros s' Hg Hcn. destruct Hj1 as (_ & _ & _ & _ & _ & Hb & _). destruct (Hb eq_refl) as (_ & r & Er).
    apply (loadn_gen s' _ j 0 [] x (term ntj ++ r)); [|rewrite Hcn, D2 by congruence; exact Er|reflexivity|reflexivity].
    rewrite Hg; [apply G2; exact Hlj|congruence|now rewrite L2]. }
  rewrite E3. cbn [bind].
  assert (U13 : upto k (cap <? length (p ++ x ++ q)) s1 s3) by (apply (upto_trans k false _ s1 s2 s3); [now apply same_upto|exact U3]).
  destruct (bracket s s1 s3 j k _ H1 U13 Hokj) as (s4 & E4 & U4 & C4 & D4).
  rewrite E4. exists s4. split; [reflexivity|]. split; [exact U4|].
  destruct H3 as (A1 & A2 & A3 & A4 & A5 & A6 & A7). unfold holds. rewrite C4, D4. repeat (split; [assumption|]). assumption.
Qed.
Lemma insert_buf_ok s k nt al cap p q x : holds s k nt al cap (p ++ q) -> ok1 s k -> clean nt (p ++ x ++ q) ->
  let n := length (p ++ x ++ q) in
  (nt = true -> n < (if n <=? cap then cap else n + 0)) -> al || (cap <? n) = true ->
  exists s', insert moves junk nest s k (length p) x = Ok s' /\ outcome s s' k nt cap (p ++ x ++ q) 0.
Proof. intros Hh Hok Hc n Hroom Hal. apply raw_insert_ok with (al := al); auto. intros ? _ _. reflexivity. Qed.

Lemma erase_ok s k nt cap p e q count : holds s k nt true cap (p ++ e ++ q) -> ok1 s k -> nest = true \/ nt = false ->
  length e = Nat.min count (length (e ++ q)) ->
  exists s', erase moves nest s k (length p) count = Ok s' /\ upto k false s s' /\ holds s' k nt true cap (p ++ q).
Proof.
  intros Hh Hok Hd He. unfold erase.
  destruct (holds_size s k nt true cap _ Hh (or_introl Hok)) as (s0 & E0 & S0). rewrite E0. cbn [bind].
  apply (holds_same _ _ _ _ _ _ _ S0) in Hh. apply (ok1_same _ _ _ S0) in Hok.
  assert (Em : Nat.min count (length (p ++ e ++ q) - length p) = length e).
  { rewrite app_length. replace (length p + length (e ++ q) - length p) with (length (e ++ q)) by lia. now rewrite He. }
  rewrite Em. unfold erase_.
  destruct (lock_ok s0 k (length p) (holds_alloc _ _ _ _ _ _ Hh)) as (s1 & E1 & H1). rewrite E1. cbn [bind].
  pose proof (holds_hold _ _ _ _ _ _ _ _ H1 Hh) as Hh1.
  assert (Hd1 : ok1 s1 k \/ nt = false) by (destruct Hd as [Hd|Hd]; [left; now left|now right]).
  destruct (holds_size s1 k nt true cap _ Hh1 Hd1) as (s2 & E2 & S2). rewrite E2. cbn [bind].
  pose proof S2 as (P2 & L2 & G2 & C2 & D2). pose proof (hold_locked k s0 s1 H1) as Hlk.
  pose proof (holds_same _ _ _ _ _ _ _ S2 Hh1) as (B1 & B2 & B3 & B4 & _ & B6 & B7). rewrite B1.
  destruct (B6 eq_refl) as (Hlen & rest & Er).
  assert (Gk : gen (mm s2) k = gen (mm s1) k) by (apply G2; exact Hlk).
  assert (Hcl : clean nt (p ++ q)).
  { apply clean_app in B7 as [Q1 Q2]. apply clean_app in Q2 as [_ Q3]. apply clean_app. split; assumption. }
  unfold at_; cbn [r_blk r_gen r_pos].
  destruct nt.
  - cbn [bind].
    assert (Hw : exists z, e ++ q ++ [0%Z] = z ++ skipn (length q + 1) (e ++ q ++ [0%Z]) /\ length z = length q + 1).
    { exists (firstn (length q + 1) (e ++ q ++ [0%Z])). rewrite firstn_skipn. split; [reflexivity|].
      apply firstn_length_le. rewrite !app_length. cbn. lia. }
    destruct Hw as (z & Ez & Lz).
    rewrite (loadn_gen s2 _ k (length p + length e) (p ++ e) (q ++ [0%Z]) rest _ Gk);
      [|rewrite Er; cbn; now rewrite <- !app_assoc|rewrite app_length; lia|rewrite !app_length; cbn; lia].
    cbn [bind].
    destruct (storen_gen s2 _ k (length p) p z (skipn (length q + 1) (e ++ q ++ [0%Z]) ++ rest) (q ++ [0%Z]) Gk) as (s3 & E3 & C3 & G3 & L3 & P3 & D3 & O3);
      [|reflexivity|rewrite app_length; cbn; lia|].
    { rewrite Er. cbn. rewrite (app_assoc z), <- Ez. now rewrite <- !app_assoc. }
    rewrite E3. cbn [bind].
    assert (U13 : upto k false s1 s3).
    { apply (upto_trans k false false s1 s2 s3); [now apply same_upto|now apply stored_upto]. }
    destruct (bracket s0 s1 s3 k k false H1 U13 Hok) as (s4 & E4 & U4 & C4 & D4).
    rewrite E4. exists s4. split; [reflexivity|]. split.
    { apply (upto_trans k false false s s0 s4); [now apply same_upto|exact U4]. }
    unfold holds. rewrite C4, C3, D4, D3. repeat (split; [assumption|discriminate || idtac]); try discriminate.
    split; [discriminate|]. split; [discriminate|]. split; [|exact Hcl]. intros _. split.
    + rewrite Er in Hlen. rewrite <- Hlen. apply (f_equal (@length Z)) in Ez. rewrite !app_length in *. cbn in *. lia.
    + exists (skipn (length q + 1) (e ++ q ++ [0%Z]) ++ rest). cbn. now rewrite <- !app_assoc.
  - destruct (set_size_ex s2 k (length (p ++ e ++ q) - length e) B1) as (s3 & E3 & U3 & D3 & C3). rewrite E3. cbn [bind].
    pose proof U3 as (P3 & L3 & G3 & O3).
    assert (Gk3 : gen (mm s3) k = gen (mm s1) k).
    { rewrite G3; [exact Gk|now rewrite L2|discriminate]. }
    rewrite (loadn_gen s3 _ k (length p + length e) (p ++ e) q rest _ Gk3);
      [|rewrite D3, Er; cbn; now rewrite <- !app_assoc|rewrite app_length; lia|rewrite !app_length; lia].
    cbn [bind].
    assert (Hw : exists z, e ++ q = z ++ skipn (length q) (e ++ q) /\ length z = length q).
    { exists (firstn (length q) (e ++ q)). rewrite firstn_skipn. split; [reflexivity|].
      apply firstn_length_le. rewrite !app_length. lia. }
    destruct Hw as (z & Ez & Lz).
    destruct (storen_gen s3 _ k (length p) p z (skipn (length q) (e ++ q) ++ rest) q Gk3) as (s4 & E4 & C4 & G4 & L4 & P4 & D4 & O4);
      [|reflexivity|lia|].
    { rewrite D3, Er. cbn. rewrite (app_assoc z), <- Ez. now rewrite <- !app_assoc. }
    rewrite E4. cbn [bind].
    assert (U14 : upto k false s1 s4).
    { apply (upto_trans k false false s1 s2 s4); [now apply same_upto|].
      apply (upto_trans k false false s2 s3 s4); [exact U3|now apply stored_upto]. }
    destruct (bracket s0 s1 s4 k k false H1 U14 Hok) as (s5 & E5 & U5 & C5 & D5).
    rewrite E5. exists s5. split; [reflexivity|]. split.
    { apply (upto_trans k false false s s0 s5); [now apply same_upto|exact U5]. }
    unfold holds. rewrite C5, C4, D5, D4, C3. cbn [c_nt c_alloc c_cap c_sz].
    split; [reflexivity|]. split; [exact B2|]. split; [exact B3|]. split; [intros _; rewrite !app_length; lia|].
    split; [discriminate|]. split; [|exact Hcl]. intros _. split.
    + rewrite Er in Hlen. rewrite <- Hlen. apply (f_equal (@length Z)) in Ez. rewrite !app_length in *. cbn in *. lia.
    + exists (skipn (length q) (e ++ q) ++ rest). cbn. now rewrite <- !app_assoc.
Qed.
Lemma pop_ok s k nt cap l : holds s k nt true cap l -> 0 < length l -> ok1 s k ->
  exists s', pop_back moves nest s k = Ok s' /\ upto k false s s' /\ holds s' k nt true cap (removelast l).
Proof.
  intros Hh Hl Hok. unfold pop_back.
  destruct (holds_size s k nt true cap _ Hh (or_introl Hok)) as (s0 & E0 & S0). rewrite E0. cbn [bind].
  apply (holds_same _ _ _ _ _ _ _ S0) in Hh. apply (ok1_same _ _ _ S0) in Hok.
  assert (Hne : l <> []) by (intros ->; cbn in Hl; lia).
  pose proof (app_removelast_last 0%Z Hne) as El.
  assert (Ll : length (removelast l) = length l - 1).
  { apply (f_equal (@length Z)) in El. rewrite app_length in El. cbn in El. lia. }
  destruct (lock_ok s0 k (length l - 1) (holds_alloc _ _ _ _ _ _ Hh)) as (s1 & E1 & H1). rewrite E1. cbn [bind].
  pose proof (holds_hold _ _ _ _ _ _ _ _ H1 Hh) as (_ & _ & _ & _ & _ & B6 & _). destruct (B6 eq_refl) as (_ & rest & Er).
  rewrite (load_gen s1 _ k (length l - 1) (removelast l) (last l 0%Z) (term nt ++ rest) eq_refl); [|rewrite Er; rewrite El at 1; now rewrite <- app_assoc|lia].
  cbn [bind]. destruct (bracket_same s0 s1 s1 k H1 (same_refl s1) Hok) as (s3 & E3 & S3). rewrite E3. cbn [bind].
  destruct (cut_ok s3 k nt true cap l (length l - 1) (holds_same _ _ _ _ _ _ _ S3 Hh) ltac:(lia) (ok1_same _ _ _ S3 Hok) (or_introl eq_refl)) as (s4 & E4 & U4 & H4).
  rewrite E4. exists s4. split; [reflexivity|]. split.
  - apply (upto_trans k false false s s3 s4); [apply same_upto; exact (same_trans _ _ _ S0 S3)|exact U4].
  - replace (removelast l) with (firstn (length l - 1) l); [exact H4|]. rewrite El at 2. apply firstn_app_n. lia.
Qed.
Lemma assign_ok s k nt al cap l buf : holds s k nt al cap l -> ok1 s k -> clean nt buf ->
  (nt = true -> length buf < (if length buf <=? cap then cap else length buf + 0)) -> al || (cap <? length buf) = true ->
  exists s', assign moves junk nest s k buf = Ok s' /\ outcome s s' k nt cap buf 0.
Proof.
  intros Hh Hok Hc Hroom Hal. unfold assign.
  destruct (sized_ok s k nt al cap l (length buf) Hh Hok Hroom Hal) as (s1 & x & E1 & U1 & Hg & Hx). rewrite E1. cbn [bind].
  destruct (grown_put s1 k 0 nt _ [] x buf Hg (ok1_upto _ _ _ _ _ U1 Hok) (eq_sym Hx) Hc eq_refl) as (s2 & E2 & U2 & H2).
  rewrite E2. exists s2. split; [reflexivity|]. split; [|exact H2].
  rewrite <- (orb_false_r (cap <? _)). apply (upto_trans k _ _ _ _ _ U1 U2).
Qed.
Lemma assign_arr_ok s k j nt al cap l ntj capj lj : holds s k nt al cap l -> holds s j ntj true capj lj -> k <> j ->
  ok1 s k -> ok1 s j -> nest = true \/ ntj = false -> clean nt lj ->
  (nt = true -> length lj < (if length lj <=? cap then cap else length lj + 0)) -> al || (cap <? length lj) = true ->
  exists s', assign_arr moves junk nest s k j = Ok s' /\ outcome s s' k nt cap lj 0.
Proof.
  intros Hk Hj Hkj Hok Hokj Hd Hc Hroom Hal. unfold assign_arr.
  destruct (holds_size s j ntj true capj lj Hj (or_introl Hokj)) as (s0 & E0 & S0). rewrite E0. cbn [bind].
  apply (holds_same _ _ _ _ _ _ _ S0) in Hk, Hj. apply (ok1_same _ _ _ S0) in Hok, Hokj.
  destruct (sized_ok s0 k nt al cap l (length lj) Hk Hok Hroom Hal) as (s1 & x & E1 & U1 & Hg & Hx). rewrite E1. cbn [bind].
  pose proof (ok1_upto _ _ _ _ _ U1 Hok) as Hok1.
  pose proof Hg as (N1 & A1 & _ & _ & _ & rest & D1). cbn [app] in D1.
  destruct (lock_ok s1 k 0 A1) as (s2 & E2 & H2). rewrite E2. cbn [bind].
  pose proof H2 as (P2 & Lk2 & Lo2 & G2 & C2 & D2).
  assert (Hj2 : holds s2 j ntj true capj lj).
  { apply (holds_hold k s1 s2); [exact H2|]. apply (holds_upto k _ s0 s1 j ntj true capj lj U1); [congruence|exact Hj]. }
  pose proof (holds_sized _ _ _ _ _ Hj2) as Hsz. pose proof Hj2 as (Q1 & _ & _ & _ & _ & Q6 & _).
  destruct (Q6 eq_refl) as (_ & r & Er).
  destruct (copy_to_ok s2 j k (gen (mm s2) k) 0 (length lj) (length lj) [] lj (term ntj ++ r) [] x (term nt ++ rest))
    as (s3 & E3 & U3 & C3 & D3); auto.
  { apply (ok1_hold_other k j s1 s2 H2 (ok1_upto _ _ _ _ _ U1 Hokj)). left. congruence. }
  { rewrite Q1. exact Hd. }
  { exact (hold_locked k s1 s2 H2). } { now rewrite D2. }
  rewrite E3. cbn [bind].
  destruct (bracket s1 s2 s3 k k false H2 U3 Hok1) as (s4 & E4 & U4 & C4 & D4).
  rewrite E4. exists s4. split; [reflexivity|]. split.
  - apply (upto_trans k false (cap <? length lj) s s0 s4); [now apply same_upto|].
    rewrite <- (orb_false_r (cap <? _)). apply (upto_trans k _ _ _ _ _ U1 U4).
  - apply (grown_holds s4 k nt _ [] lj); [|exact Hc]. apply (grown_cont s1 s4 k nt _ [] x [] lj Hg); [now rewrite C4, C3, C2|cbn; lia|].
    intros r' Er'. rewrite D4, D3. cbn [app] in *. rewrite D1 in Er'. apply app_inv_head in Er'. now rewrite Er'.
Qed.
Lemma init_ok s k nt cap buf : holds s k nt true cap [] -> ok1 s k -> nest = true \/ nt = false -> clean nt buf ->
  length buf + (if nt then 1 else 0) <= cap ->
  exists s', init_list moves nest s k buf = Ok s' /\ upto k false s s' /\ holds s' k nt true cap buf.
Proof.
  intros Hh Hok Hd Hc Hroom. unfold init_list.
  destruct (lock_ok s k 0 (holds_alloc _ _ _ _ _ _ Hh)) as (s1 & E1 & H1). rewrite E1. cbn [bind].
  pose proof (holds_hold _ _ _ _ _ _ _ _ H1 Hh) as (B1 & B2 & B3 & B4 & _ & B6 & _). destruct (B6 eq_refl) as (Hlen & _ & _).
  set (M := cont (mm s1) k) in *.
  destruct (storen_gen s1 _ k 0 [] (firstn (length buf) M) (skipn (length buf) M) buf eq_refl) as (s2 & E2 & C2 & G2 & L2 & P2 & D2 & O2);
    [cbn; now rewrite firstn_skipn|reflexivity|symmetry; apply firstn_length_le; lia|].
  cbn [app] in D2. rewrite E2. cbn [bind].
  pose proof (stored_upto k s1 s2 C2 G2 L2 P2 O2) as U2.
  assert (H3 : exists s3, set_size s2 k (length buf) = Ok s3 /\ upto k false s2 s3 /\ holds s3 k nt true cap buf).
  { destruct nt.
    - assert (Hn : nest = true) by (destruct Hd; [assumption|discriminate]).
      destruct (skipn (length buf) M) as [|x c] eqn:Es.
      { apply (f_equal (@length Z)) in Es. rewrite skipn_length in Es. cbn [length] in Es. lia. }
      destruct (set_size_nt s2 k (length buf) buf x c) as (s3 & E3 & U3 & C3 & D3); [now rewrite C2|now rewrite C2|now left|exact D2|reflexivity|].
      exists s3. split; [exact E3|]. split; [exact U3|]. unfold holds. rewrite C3, C2.
      split; [exact B1|]. split; [exact B2|]. split; [exact B3|]. split; [discriminate|]. split; [discriminate|].
      split; [|exact Hc]. intros _. split; [|exists c; exact D3].
      rewrite D3, app_length. cbn [length]. apply (f_equal (@length Z)) in Es. rewrite skipn_length in Es. cbn [length] in Es. lia.
    - destruct (set_size_ex s2 k (length buf)) as (s3 & E3 & U3 & D3 & C3); [now rewrite C2|].
      exists s3. split; [exact E3|]. split; [exact U3|]. unfold holds. rewrite C3, D3, D2, C2. cbn [c_nt c_alloc c_cap c_sz].
      split; [reflexivity|]. split; [exact B2|]. split; [exact B3|]. split; [reflexivity|]. split; [discriminate|].
      split; [|exact Hc]. intros _. split; [|exists (skipn (length buf) M); reflexivity].
      rewrite app_length, skipn_length. lia. }
  destruct H3 as (s3 & E3 & U3 & H3). rewrite E3. cbn [bind].
  destruct (bracket s s1 s3 k k false H1 (upto_trans k false false _ _ _ U2 U3) Hok) as (s4 & E4 & U4 & C4 & D4).
  rewrite E4. exists s4. split; [reflexivity|]. split; [exact U4|]. unfold holds in *. now rewrite C4, D4.
Qed.

(* reading *)
Lemma holds_cont s k nt cap l : holds s k nt true cap l -> exists rest, cont (mm s) k = l ++ term nt ++ rest.
Proof. intros (_ & _ & _ & _ & _ & H & _). now destruct (H eq_refl). Qed.
Lemma load_at s k g l rest i : gen (mm s) k = g -> cont (mm s) k = l ++ rest -> i < length l ->
  load s (Ref k g i) = Ok (nth i l 0%Z).
Proof.
  intros Hg E Hi. destruct (nth_split l 0%Z Hi) as (a & b & El & La).
  apply (load_gen s g k i a _ (b ++ rest) Hg); [|now rewrite La]. rewrite E. rewrite El at 1. now rewrite <- app_assoc.
Qed.
Lemma loadn_at s k g l rest i n : gen (mm s) k = g -> cont (mm s) k = l ++ rest -> i + n <= length l ->
  loadn s (Ref k g i) n = Ok (firstn n (skipn i l)).
Proof.
  intros Hg E Hi. apply (loadn_gen s g k i (firstn i l) _ (skipn n (skipn i l) ++ rest) n Hg).
  - rewrite (app_assoc (firstn n _)), firstn_skipn, app_assoc, firstn_skipn. exact E.
  - symmetry. apply firstn_length_le. lia.
  - symmetry. apply firstn_length_le. rewrite skipn_length. lia.
Qed.
Lemma char_in_nth t l i : i < length l -> char_in t l i = is_in t (nth i l 0%Z).
Proof. intros H. unfold char_in. now rewrite (nth_error_nth' l 0%Z H). Qed.
Lemma scan_ok F f a n : (forall i, a <= i < a + n -> F i = Ok (f i)) -> scan F a n = Ok (least f a n).
Proof.
  revert a. induction n as [|n IH]; intros a H; cbn; [reflexivity|].
  rewrite H by lia. cbn. destruct (f a); [reflexivity|]. apply IH. intros i Hi. apply H. lia.
Qed.
Lemma least_range f a n i : least f a n = Some i -> a <= i < a + n /\ f i = true.
Proof.
  revert a. induction n as [|n IH]; intros a H; cbn in H; [discriminate|].
  destruct (f a) eqn:E; [injection H as <-; split; [lia|assumption]|]. apply IH in H as [H1 H2]. split; [lia|exact H2].
Qed.
Lemma scan_least F f a n i : least f a n = Some i -> (forall x, a <= x <= i -> F x = Ok (f x)) -> scan F a n = Ok (Some i).
Proof.
  revert a. induction n as [|n IH]; intros a H HF; cbn in *; [discriminate|].
  assert (Hi : a <= i). { destruct (f a); [injection H as <-; lia|apply least_range in H; lia]. }
  rewrite HF by lia. cbn. destruct (f a); [congruence|]. apply IH; [exact H|]. intros x Hx. apply HF. lia.
Qed.
Lemma scan_down_ok F f n : (forall i, i <= n -> F i = Ok (f i)) -> scan_down F n = Ok (greatest f n).
Proof.
  induction n as [|n IH]; intros H; cbn; rewrite H by lia; cbn; destruct (f _); try reflexivity. apply IH. intros i Hi. apply H. lia.
Qed.
Lemma memcmp0_ok s k g l rest t i : gen (mm s) k = g -> cont (mm s) k = l ++ rest -> i + length t <= length l ->
  memcmp0 s t (Ref k g i) = Ok (occurs_at t l i).
Proof. intros Hg E Hi. unfold memcmp0. rewrite (loadn_at s k g l rest i (length t) Hg E Hi). reflexivity. Qed.
Lemma occurs_fits t l i : i <= length l -> occurs_at t l i = true -> i + length t <= length l.
Proof.
  unfold occurs_at. intros Hi H. destruct (list_eq_dec _ _ _) as [E|]; [|discriminate].
  apply (f_equal (@length Z)) in E. rewrite firstn_length, skipn_length in E. lia.
Qed.

(* lock, ask for the size, look, unlock *)
Lemma look_ok {X} s k nt cap l (f : st -> ref -> nat -> result X) x : holds s k nt true cap l -> ok1 s k -> nest = true \/ nt = false ->
  (forall s' g, gen (mm s') k = g -> cont (mm s') = cont (mm s) -> f s' (Ref k g 0) (length l) = Ok x) ->
  exists s', ('(p, s) <- lock s k 0 ;; '(sz, s) <- size s k ;; r <- f s p sz ;; s <- unlock s k ;; Ok (r, s)) = Ok (x, s') /\ same s s'.
Proof.
  intros Hh Hok Hd Hf.
  destruct (lock_ok s k 0 (holds_alloc _ _ _ _ _ _ Hh)) as (s1 & E1 & H1). rewrite E1. cbn [bind].
  assert (Hd1 : ok1 s1 k \/ nt = false) by (destruct Hd as [Hd|Hd]; [left; now left|now right]).
  destruct (holds_size s1 k nt true cap l (holds_hold _ _ _ _ _ _ _ _ H1 Hh) Hd1) as (s2 & E2 & S2). rewrite E2. cbn [bind].
  pose proof S2 as (P2 & L2 & G2 & C2 & D2). pose proof H1 as (P1 & Lk1 & Lo1 & G1 & C1 & D1).
  rewrite Hf; [|apply G2; exact (hold_locked k s s1 H1)|congruence]. cbn [bind].
  destruct (bracket_same s s1 s2 k H1 S2 Hok) as (s3 & E3 & S3). rewrite E3. cbn [bind]. eauto.
Qed.
Lemma peek_ok {X} s k i (f : st -> ref -> result X) x : c_alloc (cs s k) = true -> ok1 s k ->
  (forall s' g, gen (mm s') k = g -> cont (mm s') = cont (mm s) -> f s' (Ref k g i) = Ok x) ->
  exists s', ('(p, s) <- lock s k i ;; r <- f s p ;; s <- unlock s k ;; Ok (r, s)) = Ok (x, s') /\ same s s'.
Proof.
  intros Ha Hok Hf.
  destruct (lock_ok s k i Ha) as (s1 & E1 & H1). rewrite E1. cbn [bind].
  pose proof H1 as (P1 & Lk1 & Lo1 & G1 & C1 & D1).
  rewrite Hf; [|reflexivity|congruence]. cbn [bind].
  destruct (bracket_same s s1 s1 k H1 (same_refl s1) Hok) as (s3 & E3 & S3). rewrite E3. cbn [bind]. eauto.
Qed.
Lemma find_ch_ok s k nt cap l ch pos : holds s k nt true cap l -> ok1 s k -> nest = true \/ nt = false ->
  exists s', find_ch moves nest s k ch pos = Ok (least (char_in [ch] l) pos (length l - pos), s') /\ same s s'.
Proof.
  intros Hh Hok Hd. destruct (holds_cont _ _ _ _ _ Hh) as (rest & Er).
  apply (look_ok s k nt cap l (fun s data sz => scan (fun i => a <- load s (at_ data i) ;; Ok (Z.eqb a ch)) pos (sz - pos))); auto.
  intros s' g Hg Hc. apply scan_ok. intros i Hi. unfold at_; cbn [r_blk r_gen r_pos Nat.add].
  rewrite (load_at s' k g l (term nt ++ rest) i Hg); [|now rewrite Hc|lia]. cbn [bind]. rewrite char_in_nth by lia.
  unfold is_in; cbn. now rewrite orb_false_r.
Qed.
Lemma first_of_ok s k nt cap l t pos : holds s k nt true cap l -> ok1 s k -> nest = true \/ nt = false -> pos <= length l ->
  exists s', find_first_of moves nest s k t pos = Ok (least (char_in t l) pos (length l - pos), s') /\ same s s'.
Proof.
  intros Hh Hok Hd Hp. destruct (holds_cont _ _ _ _ _ Hh) as (rest & Er).
  destruct (look_ok s k nt cap l (fun s data sz => if sz <? pos then UB else scan (fun i => a <- load s (at_ data i) ;; Ok (is_in t a)) pos (sz - pos)) (least (char_in t l) pos (length l - pos))) as (s' & E & S'); auto.
  - intros s' g Hg Hc. assert (Hl : length l <? pos = false) by (apply Nat.ltb_ge; lia). rewrite Hl.
    apply scan_ok. intros i Hi. unfold at_; cbn [r_blk r_gen r_pos Nat.add].
    rewrite (load_at s' k g l (term nt ++ rest) i Hg); [|now rewrite Hc|lia]. cbn [bind]. now rewrite char_in_nth by lia.
  - exists s'. split; [|exact S']. rewrite <- E. unfold find_first_of.
    destruct (lock s k 0) as [[p s1]| |]; cbn [bind]; try reflexivity. destruct (size s1 k) as [[z s2]| |]; cbn [bind]; try reflexivity.
    destruct (z <? pos); reflexivity.
Qed.
Lemma find_ok s k nt cap l t pos i : holds s k nt true cap l -> ok1 s k -> nest = true \/ nt = false ->
  least (occurs_at t l) pos (length l - pos) = Some i ->
  exists s', find moves nest s k t pos = Ok (Some (i - pos), s') /\ same s s'.
Proof.
  intros Hh Hok Hd Hi. destruct (holds_cont _ _ _ _ _ Hh) as (rest & Er).
  pose proof (least_range _ _ _ _ Hi) as [Hr Ho]. pose proof (occurs_fits t l i ltac:(lia) Ho) as Hfit.
  destruct (look_ok s k nt cap l (fun s data sz => if sz <? pos then UB else r <- scan (fun i => memcmp0 s t (at_ data i)) pos (sz - pos) ;; Ok (match r with Some i => Some (i - pos) | None => None end)) (Some (i - pos))) as (s' & E & S'); auto.
  - intros s' g Hg Hc. assert (Hl : length l <? pos = false) by (apply Nat.ltb_ge; lia). rewrite Hl.
    rewrite (scan_least _ (occurs_at t l) pos _ i Hi); [reflexivity|]. intros x Hx. unfold at_; cbn [r_blk r_gen r_pos Nat.add].
    apply (memcmp0_ok s' k g l (term nt ++ rest)); [exact Hg|now rewrite Hc|lia].
  - exists s'. split; [|exact S']. rewrite <- E. unfold find.
    destruct (lock s k 0) as [[p s1]| |]; cbn [bind]; try reflexivity. destruct (size s1 k) as [[z s2]| |]; cbn [bind]; try reflexivity.
    destruct (z <? pos); cbn [bind]; try reflexivity. destruct (scan _ _ _); reflexivity.
Qed.
Lemma rfind_ok s k nt cap l t pos : holds s k nt true cap l -> ok1 s k -> 0 < length t -> 0 < length l ->
  exists s', rfind moves nest s k t pos =
    Ok (if length l <? length t then None
        else greatest (occurs_at t l) (Nat.min (match pos with Some p => p | None => length l end) (length l - length t)), s') /\ same s s'.
Proof.
  intros Hh Hok Ht Hl. destruct (holds_cont _ _ _ _ _ Hh) as (rest & Er). unfold rfind.
  destruct (holds_size s k nt true cap _ Hh (or_introl Hok)) as (s0 & E0 & S0). rewrite E0. cbn [bind].
  apply (holds_same _ _ _ _ _ _ _ S0) in Hh. apply (ok1_same _ _ _ S0) in Hok.
  assert (D0 : cont (mm s0) = cont (mm s)) by now destruct S0 as (_ & _ & _ & _ & ?).
  assert (Hz : length l =? 0 = false) by (apply Nat.eqb_neq; lia). rewrite Hz.
  set (p0 := match pos with Some p => if length l <=? p then length l - 1 else p | None => length l - 1 end).
  assert (Hp0 : p0 = Nat.min (match pos with Some p => p | None => length l end) (length l - 1)).
  { unfold p0. destruct pos as [p|]; [destruct (length l <=? p) eqn:E; [apply Nat.leb_le in E|apply Nat.leb_gt in E]; lia|lia]. }
  destruct (length l - p0 <? length t) eqn:E1; [apply Nat.ltb_lt in E1|apply Nat.ltb_ge in E1].
  - destruct (p0 <? length t - (length l - p0)) eqn:E2; cbn [andb]; [apply Nat.ltb_lt in E2|apply Nat.ltb_ge in E2].
    + assert (E3 : length l <? length t = true) by (apply Nat.ltb_lt; lia). rewrite E3. exists s0. auto.
    + assert (E3 : length l <? length t = false) by (apply Nat.ltb_ge; lia). rewrite E3.
      destruct (peek_ok s0 k 0 (fun s data => scan_down (fun i => memcmp0 s t (at_ data i)) (p0 - (length t - (length l - p0))))
        (greatest (occurs_at t l) (Nat.min (match pos with Some p => p | None => length l end) (length l - length t)))) as (s' & E & S').
      * exact (holds_alloc _ _ _ _ _ _ Hh). * exact Hok.
      * intros s' g Hg Hc. replace (Nat.min _ _) with (p0 - (length t - (length l - p0))) by lia.
        apply scan_down_ok. intros i Hi. unfold at_; cbn [r_blk r_gen r_pos Nat.add].
        apply (memcmp0_ok s' k g l (term nt ++ rest)); [exact Hg|now rewrite Hc, D0|lia].
      * exists s'. split; [exact E|exact (same_trans _ _ _ S0 S')].
  - assert (E3 : length l <? length t = false) by (apply Nat.ltb_ge; lia). rewrite E3. cbn [andb].
    destruct (peek_ok s0 k 0 (fun s data => scan_down (fun i => memcmp0 s t (at_ data i)) p0)
        (greatest (occurs_at t l) (Nat.min (match pos with Some p => p | None => length l end) (length l - length t)))) as (s' & E & S').
    + exact (holds_alloc _ _ _ _ _ _ Hh). + exact Hok.
    + intros s' g Hg Hc. replace (Nat.min _ _) with p0 by lia.
      apply scan_down_ok. intros i Hi. unfold at_; cbn [r_blk r_gen r_pos Nat.add].
      apply (memcmp0_ok s' k g l (term nt ++ rest)); [exact Hg|now rewrite Hc, D0|lia].
    + exists s'. split; [exact E|exact (same_trans _ _ _ S0 S')].
Qed.
Lemma last_of_ok s k nt cap l t pos : holds s k nt true cap l -> ok1 s k ->
  let p := match pos with Some p => p | None => length l - 1 end in p < length l ->
  exists s', find_last_of moves nest s k t pos = Ok (greatest (char_in t l) p, s') /\ same s s'.
Proof.
  intros Hh Hok p Hp. destruct (holds_cont _ _ _ _ _ Hh) as (rest & Er). unfold find_last_of.
  assert (Hpos : exists s0, (match pos with Some p => Ok (p, s) | None => '(sz, s) <- size s k ;; Ok (sz - 1, s) end) = Ok (p, s0) /\ same s s0).
  { unfold p. destruct pos as [q|]; [exists s; split; [reflexivity|apply same_refl]|].
    destruct (holds_size s k nt true cap _ Hh (or_introl Hok)) as (s0 & E0 & S0). rewrite E0. exists s0. auto. }
  destruct Hpos as (s0 & E0 & S0). rewrite E0. cbn [bind].
  assert (D0 : cont (mm s0) = cont (mm s)) by now destruct S0 as (_ & _ & _ & _ & ?).
  destruct (peek_ok s0 k 0 (fun s data => scan_down (fun i => a <- load s (at_ data i) ;; Ok (is_in t a)) p) (greatest (char_in t l) p)) as (s' & E & S').
  - exact (holds_alloc _ _ _ _ _ _ (holds_same _ _ _ _ _ _ _ S0 Hh)). - exact (ok1_same _ _ _ S0 Hok).
  - intros s' g Hg Hc. apply scan_down_ok. intros i Hi. unfold at_; cbn [r_blk r_gen r_pos Nat.add].
    rewrite (load_at s' k g l (term nt ++ rest) i Hg); [|now rewrite Hc, D0|lia]. cbn [bind]. now rewrite char_in_nth by lia.
  - exists s'. split; [exact E|exact (same_trans _ _ _ S0 S')].
Qed.
Lemma empty_ok s k nt al cap l : holds s k nt al cap l -> ok1 s k -> al = true \/ nt = false ->
  exists s', empty moves nest s k = Ok (Nat.eqb (length l) 0, s') /\ same s s'.
Proof.
  intros Hh Hok Hal. pose proof Hh as (B1 & B2 & B3 & B4 & _ & B6 & B7). unfold empty. rewrite B1. destruct nt.
  - destruct Hal as [->|?]; [|discriminate]. destruct (B6 eq_refl) as (_ & rest & Er).
    apply (peek_ok s k 0 (fun s p => a <- load s p ;; Ok (Z.eqb a 0)) (Nat.eqb (length l) 0)) in Hok; [|exact B2|].
    + destruct Hok as (s' & E & S'). exists s'. split; [|exact S']. rewrite <- E.
      destruct (lock s k 0) as [[p s1]| |]; cbn [bind]; try reflexivity. destruct (load s1 p); reflexivity.
    + intros s' g Hg Hc. destruct l as [|a l]; cbn [app term] in Er.
      * rewrite (load_gen s' g k 0 [] 0%Z rest Hg); [reflexivity|now rewrite Hc, Er|reflexivity].
      * rewrite (load_gen s' g k 0 [] a (l ++ term true ++ rest) Hg); [|now rewrite Hc, Er|reflexivity]. cbn.
        destruct (Z.eqb_spec a 0) as [->|]; [|reflexivity]. exfalso. apply (B7 eq_refl 0%Z); [now left|reflexivity].
  - rewrite (B4 eq_refl). exists s. split; [reflexivity|apply same_refl].
Qed.
Lemma starts_ch_ok s k nt cap a l ch : holds s k nt true cap (a :: l) -> ok1 s k ->
  exists s', starts_with_ch moves nest s k ch = Ok (Z.eqb a ch, s') /\ same s s'.
Proof.
  intros Hh Hok. destruct (holds_cont _ _ _ _ _ Hh) as (rest & Er).
  destruct (peek_ok s k 0 (fun s p => a <- load s p ;; Ok (Z.eqb a ch)) (Z.eqb a ch)) as (s' & E & S').
  - exact (holds_alloc _ _ _ _ _ _ Hh). - exact Hok.
  - intros s' g Hg Hc. now rewrite (load_gen s' g k 0 [] a (l ++ term nt ++ rest) Hg); [|rewrite Hc, Er|].
  - exists s'. split; [|exact S']. rewrite <- E. unfold starts_with_ch.
    destruct (lock s k 0) as [[p s1]| |]; cbn [bind]; try reflexivity. destruct (load s1 p); reflexivity.
Qed.
Lemma ends_ch_ok s k nt cap l ch : holds s k nt true cap l -> ok1 s k -> 0 < length l ->
  exists s', ends_with_ch moves nest s k ch = Ok (Z.eqb (last l 0%Z) ch, s') /\ same s s'.
Proof.
  intros Hh Hok Hl. destruct (holds_cont _ _ _ _ _ Hh) as (rest & Er). unfold ends_with_ch.
  destruct (holds_size s k nt true cap _ Hh (or_introl Hok)) as (s0 & E0 & S0). rewrite E0. cbn [bind].
  assert (Hz : length l =? 0 = false) by (apply Nat.eqb_neq; lia). rewrite Hz.
  assert (D0 : cont (mm s0) = cont (mm s)) by now destruct S0 as (_ & _ & _ & _ & ?).
  destruct (peek_ok s0 k (length l - 1) (fun s p => a <- load s p ;; Ok (Z.eqb a ch)) (Z.eqb (last l 0%Z) ch)) as (s' & E & S').
  - exact (holds_alloc _ _ _ _ _ _ (holds_same _ _ _ _ _ _ _ S0 Hh)). - exact (ok1_same _ _ _ S0 Hok).
  - intros s' g Hg Hc.
    assert (Hne : l <> []) by (intros ->; cbn in Hl; lia). pose proof (app_removelast_last 0%Z Hne) as El.
    rewrite (load_gen s' g k (length l - 1) (removelast l) (last l 0%Z) (term nt ++ rest) Hg); [reflexivity| |].
    + rewrite Hc, D0, Er. rewrite El at 1. now rewrite <- app_assoc.
    + apply (f_equal (@length Z)) in El. rewrite app_length in El. cbn in El. lia.
  - exists s'. split; [|exact (same_trans _ _ _ S0 S')]. rewrite <- E.
    destruct (lock s0 k (length l - 1)) as [[p s1]| |]; cbn [bind]; try reflexivity. destruct (load s1 p); reflexivity.
Qed.
(* two locks, given back in the order they were taken *)
Lemma bracket2 s s1 s2 s3 k j : hold k s s1 -> hold j s1 s2 -> same s2 s3 -> ok1 s k -> ok1 s j -> nest = true \/ k <> j ->
  exists s4 s5, unlock s3 k = Ok s4 /\ unlock s4 j = Ok s5 /\ same s s5.
Proof.
  intros (P1 & K1 & O1 & G1 & C1 & D1) (P2 & K2 & O2 & G2 & C2 & D2) (P3 & L3 & G3 & C3 & D3) Hk Hj Hkj.
  assert (Hn3 : locks (mm s3) k <> 0).
  { rewrite L3. destruct (Nat.eq_dec k j) as [->|Hd]; [rewrite K2; destruct nest; discriminate|].
    rewrite O2 by exact Hd. rewrite K1. destruct nest; discriminate. }
  destruct (unlock_ok s3 k Hn3) as (s4 & E4 & P4 & C4 & D4 & K4 & O4 & G4).
  assert (Hn4 : locks (mm s4) j <> 0).
  { destruct (Nat.eq_dec k j) as [<-|Hd].
    - destruct Hkj as [Hn|?]; [|contradiction]. rewrite K4, L3, K2, K1, Hn. lia.
    - rewrite O4 by congruence. rewrite L3, K2. destruct nest; discriminate. }
  destruct (unlock_ok s4 j Hn4) as (s5 & E5 & P5 & C5 & D5 & K5 & O5 & G5).
  exists s4, s5. split; [exact E4|]. split; [exact E5|].
  assert (LL : forall b, locks (mm s5) b = locks (mm s) b).
  { intros b. destruct (Nat.eq_dec b j) as [->|Hb].
    - rewrite K5. destruct (Nat.eq_dec k j) as [<-|Hd].
      + destruct Hkj as [Hn|?]; [|contradiction]. rewrite K4, L3, K2, K1, Hn. lia.
      + rewrite O4 by congruence. rewrite L3, K2. rewrite O1 by congruence.
        destruct Hj as [->|H0]; [lia|]. rewrite H0. now destruct nest.
    - rewrite O5 by exact Hb. destruct (Nat.eq_dec b k) as [->|Hbk].
      + rewrite K4, L3, O2, K1 by exact Hb. destruct Hk as [->|H0]; [lia|]. rewrite H0. now destruct nest.
      + rewrite O4, L3, O2, O1 by assumption. reflexivity. }
  assert (NZ1 : forall b, locks (mm s) b <> 0 -> locks (mm s1) b <> 0).
  { intros b Hb. destruct (Nat.eq_dec b k) as [->|Hbk]; [rewrite K1; destruct nest; discriminate|now rewrite O1]. }
  assert (NZ2 : forall b, locks (mm s) b <> 0 -> locks (mm s2) b <> 0).
  { intros b Hb. destruct (Nat.eq_dec b j) as [->|Hbk]; [rewrite K2; destruct nest; discriminate|rewrite O2 by exact Hbk; now apply NZ1]. }
  split; [congruence|]. split; [exact LL|]. split; [|split; congruence].
  intros b Hb. assert (H5 : locks (mm s5) b <> 0) by now rewrite LL.
  rewrite G5 by exact H5.
  assert (H4 : locks (mm s4) b <> 0).
  { destruct (Nat.eq_dec b j) as [->|Hbj]; [exact Hn4|]. rewrite <- O5 by exact Hbj. exact H5. }
  rewrite G4 by exact H4. rewrite G3 by now apply NZ2. rewrite G2 by now apply NZ1. now apply G1.
Qed.
Lemma both_ok s k j nt cap l ntj capj lj f : holds s k nt true cap l -> holds s j ntj true capj lj -> ok1 s k -> ok1 s j ->
  nest = true \/ (k <> j /\ nt = false /\ ntj = false) ->
  exists s', both moves nest s k j f = Ok (f l lj, s') /\ same s s'.
Proof.
  intros Hk Hj Hok Hokj Hd. unfold both.
  destruct (lock_ok s k 0 (holds_alloc _ _ _ _ _ _ Hk)) as (s1 & E1 & H1). rewrite E1. cbn [bind].
  pose proof (holds_hold _ _ _ _ _ _ _ _ H1 Hk) as Hk1. pose proof (holds_hold _ _ _ _ _ _ _ _ H1 Hj) as Hj1.
  destruct (lock_ok s1 j 0 (holds_alloc _ _ _ _ _ _ Hj1)) as (s2 & E2 & H2). rewrite E2. cbn [bind].
  pose proof (holds_hold _ _ _ _ _ _ _ _ H2 Hk1) as Hk2. pose proof (holds_hold _ _ _ _ _ _ _ _ H2 Hj1) as Hj2.
  destruct (holds_size s2 k nt true cap l Hk2) as (s3 & E3 & S3). { destruct Hd as [Hd|(_ & Hd & _)]; [left; now left|now right]. }
  rewrite E3. cbn [bind].
  destruct (holds_size s3 j ntj true capj lj (holds_same _ _ _ _ _ _ _ S3 Hj2)) as (s4 & E4 & S4). { destruct Hd as [Hd|(_ & _ & Hd)]; [left; now left|now right]. }
  rewrite E4. cbn [bind]. pose proof (same_trans _ _ _ S3 S4) as S24.
  pose proof S24 as (P & L & G & C & D).
  assert (Lk2 : locks (mm s2) k <> 0).
  { destruct (Nat.eq_dec k j) as [->|Hkj]; [exact (hold_locked j s1 s2 H2)|]. destruct H2 as (_ & _ & O2 & _). rewrite O2 by exact Hkj. exact (hold_locked k s s1 H1). }
  assert (Gk : gen (mm s4) k = gen (mm s1) k).
  { rewrite G by exact Lk2. destruct H2 as (_ & _ & _ & G2 & _). apply G2. exact (hold_locked k s s1 H1). }
  assert (Gj : gen (mm s4) j = gen (mm s2) j) by (apply G; exact (hold_locked j s1 s2 H2)).
  destruct (holds_cont _ _ _ _ _ Hk2) as (r & Er). destruct (holds_cont _ _ _ _ _ Hj2) as (r' & Er').
  rewrite (loadn_gen s4 _ k 0 [] l (term nt ++ r) (length l) Gk); [|now rewrite D|reflexivity|reflexivity]. cbn [bind].
  rewrite (loadn_gen s4 _ j 0 [] lj (term ntj ++ r') (length lj) Gj); [|now rewrite D|reflexivity|reflexivity]. cbn [bind].
  destruct (bracket2 s s1 s2 s4 k j H1 H2 S24 Hok Hokj) as (s5 & s6 & E5 & E6 & S6). { tauto. }
  rewrite E5. cbn [bind]. rewrite E6. cbn [bind]. eauto.
Qed.
Lemma equals_ok s k j nt cap l ntj capj lj : holds s k nt true cap l -> holds s j ntj true capj lj -> ok1 s k -> ok1 s j ->
  nest = true \/ k <> j ->
  exists s', equals moves nest s k j = Ok (if list_eq_dec Z.eq_dec l lj then true else false, s') /\ same s s'.
Proof.
  intros Hk Hj Hok Hokj Hd. unfold equals.
  destruct (holds_size s k nt true cap l Hk (or_introl Hok)) as (a & Ea & Sa). rewrite Ea. cbn [bind].
  apply (holds_same _ _ _ _ _ _ _ Sa) in Hk, Hj. apply (ok1_same _ _ _ Sa) in Hok, Hokj.
  destruct (holds_size a j ntj true capj lj Hj (or_introl Hokj)) as (b & Eb & Sb). rewrite Eb. cbn [bind].
  apply (holds_same _ _ _ _ _ _ _ Sb) in Hk, Hj. apply (ok1_same _ _ _ Sb) in Hok, Hokj.
  pose proof (same_trans _ _ _ Sa Sb) as Sab.
  destruct (Nat.eqb_spec (length l) (length lj)) as [El|El]; cbn [negb].
  - destruct (lock_ok b k 0 (holds_alloc _ _ _ _ _ _ Hk)) as (s1 & E1 & H1). rewrite E1. cbn [bind].
    pose proof (holds_hold _ _ _ _ _ _ _ _ H1 Hk) as Hk1. pose proof (holds_hold _ _ _ _ _ _ _ _ H1 Hj) as Hj1.
    destruct (lock_ok s1 j 0 (holds_alloc _ _ _ _ _ _ Hj1)) as (s2 & E2 & H2). rewrite E2. cbn [bind].
    pose proof (holds_hold _ _ _ _ _ _ _ _ H2 Hk1) as Hk2. pose proof (holds_hold _ _ _ _ _ _ _ _ H2 Hj1) as Hj2.
    assert (Gk : gen (mm s2) k = gen (mm s1) k).
    { destruct H2 as (_ & _ & _ & G2 & _). apply G2. exact (hold_locked k b s1 H1). }
    destruct (holds_cont _ _ _ _ _ Hk2) as (r & Er). destruct (holds_cont _ _ _ _ _ Hj2) as (r' & Er').
    rewrite (loadn_gen s2 _ k 0 [] l (term nt ++ r) (length l) Gk Er eq_refl eq_refl). cbn [bind].
    rewrite (loadn_gen s2 _ j 0 [] lj (term ntj ++ r') (length l) eq_refl Er' eq_refl El). cbn [bind].
    destruct (bracket2 b s1 s2 s2 k j H1 H2 (same_refl s2) Hok Hokj Hd) as (s5 & s6 & E5 & E6 & S6).
    rewrite E5. cbn [bind]. rewrite E6. cbn [bind]. exists s6. split; [reflexivity|exact (same_trans _ _ _ Sab S6)].
  - exists b. split; [|exact Sab]. destruct (list_eq_dec _ _ _) as [->|]; [contradiction|reflexivity].
Qed.
Lemma compare_ok s k j nt cap l ntj capj lj : holds s k nt true cap l -> holds s j ntj true capj lj -> ok1 s k -> ok1 s j ->
  nest = true \/ (k <> j /\ ntj = false) ->
  exists s', compare moves nest s k j =
    Ok (if length l <? length lj then (-1)%Z else if length lj <? length l then 1%Z else sign_of l lj, s') /\ same s s'.
Proof.
  intros Hk Hj Hok Hokj Hd. unfold compare.
  destruct (lock_ok s j 0 (holds_alloc _ _ _ _ _ _ Hj)) as (s1 & E1 & H1). rewrite E1. cbn [bind].
  pose proof (holds_hold _ _ _ _ _ _ _ _ H1 Hk) as Hk1. pose proof (holds_hold _ _ _ _ _ _ _ _ H1 Hj) as Hj1.
  destruct (holds_size s1 j ntj true capj lj Hj1) as (s2 & E2 & S2). { destruct Hd as [Hd|(_ & Hd)]; [left; now left|now right]. }
  rewrite E2. cbn [bind].
  assert (Hok1 : ok1 s1 k). { apply (ok1_hold_other j k s s1 H1 Hok). destruct Hd as [?|[? _]]; [now right|now left]. }
  pose proof (ok1_same _ _ _ S2 Hok1) as Hok2.
  destruct (holds_size s2 k nt true cap l (holds_same _ _ _ _ _ _ _ S2 Hk1) (or_introl Hok2)) as (s3 & E3 & S3). rewrite E3. cbn [bind].
  pose proof (same_trans _ _ _ S2 S3) as S13. pose proof S13 as (P & L & G & C & D).
  pose proof (ok1_same _ _ _ S13 Hok1) as Hok3.
  pose proof (holds_same _ _ _ _ _ _ _ S13 Hk1) as Hk3. pose proof (holds_same _ _ _ _ _ _ _ S13 Hj1) as Hj3.
  pose proof (hold_locked j s s1 H1) as Lj1.
  assert (HH : exists s4, (if length l <? length lj then Ok ((-1)%Z, s3)
              else if length lj <? length l then Ok (1%Z, s3)
              else '(raw, s) <- lock s3 k 0 ;;
                   a <- loadn s raw (length lj) ;; b <- loadn s (Ref j (gen (mm s1) j) 0) (length lj) ;;
                   s <- unlock s k ;; Ok (sign_of a b, s)) =
     Ok (if length l <? length lj then (-1)%Z else if length lj <? length l then 1%Z else sign_of l lj, s4) /\ same s1 s4).
  { destruct (length l <? length lj) eqn:F1; [eauto|]. destruct (length lj <? length l) eqn:F2; [eauto|].
    apply Nat.ltb_ge in F1, F2. assert (El : length lj = length l) by lia.
    destruct (lock_ok s3 k 0 (holds_alloc _ _ _ _ _ _ Hk3)) as (s4 & E4 & H4). rewrite E4. cbn [bind].
    pose proof (holds_hold _ _ _ _ _ _ _ _ H4 Hk3) as Hk4. pose proof (holds_hold _ _ _ _ _ _ _ _ H4 Hj3) as Hj4.
    destruct (holds_cont _ _ _ _ _ Hk4) as (r & Er). destruct (holds_cont _ _ _ _ _ Hj4) as (r' & Er').
    rewrite (loadn_gen s4 _ k 0 [] l (term nt ++ r) (length lj) eq_refl Er eq_refl El). cbn [bind].
    assert (Gj : gen (mm s4) j = gen (mm s1) j).
    { destruct H4 as (_ & _ & _ & G4 & _). rewrite G4 by now rewrite L. now apply G. }
    rewrite (loadn_gen s4 _ j 0 [] lj (term ntj ++ r') (length lj) Gj Er' eq_refl eq_refl). cbn [bind].
    destruct (bracket_same s3 s4 s4 k H4 (same_refl s4) Hok3) as (s5 & E5 & S5). rewrite E5. cbn [bind].
    exists s5. split; [reflexivity|exact (same_trans _ _ _ S13 S5)]. }
  destruct HH as (s4 & E4 & S4). rewrite E4. cbn [bind].
  destruct (bracket_same s s1 s4 j H1 S4 Hokj) as (s5 & E5 & S5). rewrite E5. cbn [bind]. eauto.
Qed.
Lemma copy_ok s k nt cap l cnt pos : holds s k nt true cap l -> ok1 s k -> nest = true \/ nt = false -> pos <= length l ->
  exists s', copy moves nest s k cnt pos = Ok (firstn cnt (skipn pos l), s') /\ same s s'.
Proof.
  intros Hh Hok Hd Hp. unfold copy.
  destruct (lock_ok s k pos (holds_alloc _ _ _ _ _ _ Hh)) as (s1 & E1 & H1). rewrite E1. cbn [bind].
  assert (Hd1 : forall s', ok1 s' k \/ nt = false) by (intros; destruct Hd as [Hd|Hd]; [left; now left|now right]).
  pose proof (holds_hold _ _ _ _ _ _ _ _ H1 Hh) as Hh1.
  destruct (holds_size s1 k nt true cap l Hh1 (Hd1 s1)) as (s2 & E2 & S2). rewrite E2. cbn [bind].
  assert (HH : exists s3, (if length l <? pos + cnt then '(sz, s0) <- size s2 k ;; Ok (sz - pos, s0) else Ok (cnt, s2)) =
               Ok (Nat.min cnt (length l - pos), s3) /\ same s1 s3).
  { destruct (length l <? pos + cnt) eqn:F; [apply Nat.ltb_lt in F|apply Nat.ltb_ge in F].
    - destruct (holds_size s2 k nt true cap l (holds_same _ _ _ _ _ _ _ S2 Hh1) (Hd1 s2)) as (s3 & E3 & S3). rewrite E3. cbn [bind].
      exists s3. split; [|exact (same_trans _ _ _ S2 S3)]. do 2 f_equal. lia.
    - exists s2. split; [|exact S2]. do 2 f_equal. lia. }
  destruct HH as (s3 & E3 & S3). rewrite E3. cbn [bind].
  pose proof S3 as (P & L & G & C & D). destruct (holds_cont _ _ _ _ _ Hh1) as (r & Er).
  rewrite (loadn_at s3 k _ l (term nt ++ r) pos); [|apply G; exact (hold_locked k s s1 H1)|now rewrite D|lia]. cbn [bind].
  destruct (bracket_same s s1 s3 k H1 S3 Hok) as (s4 & E4 & S4). rewrite E4. cbn [bind].
  exists s4. split; [|exact S4]. do 2 f_equal.
  replace (length l - pos) with (length (skipn pos l)) by (rewrite skipn_length; lia).
  destruct (Nat.le_gt_cases cnt (length (skipn pos l))); [now rewrite Nat.min_l|].
  rewrite Nat.min_r by lia. rewrite !firstn_all2; [reflexivity|lia|lia].
Qed.
Lemma starts_n l t : starts_with_n l t = (length t <? length l) && occurs_at t l 0.
Proof.
  unfold occurs_at. cbn [skipn]. revert t. induction l as [|x l IH]; intros [|y t]; try reflexivity.
  cbn [starts_with_n length firstn]. rewrite IH.
  change (S (length t) <? S (length l)) with (length t <? length l).
  destruct (length t <? length l); cbn [andb]; [|now destruct (Z.eqb x y)].
  destruct (Z.eqb_spec x y) as [<-|Hne].
  - destruct (list_eq_dec Z.eq_dec (firstn (length t) l) t) as [E|E], (list_eq_dec Z.eq_dec (x :: firstn (length t) l) (x :: t)) as [F|F]; try reflexivity; congruence.
  - destruct (list_eq_dec Z.eq_dec (x :: firstn (length t) l) (y :: t)) as [F|F]; [congruence|reflexivity].
Qed.
Lemma ends_n l t : ends_with_n l t = (length t <=? length l) && occurs_at t l (length l - length t).
Proof.
  unfold ends_with_n, occurs_at. destruct (length l <? length t) eqn:E; [apply Nat.ltb_lt in E|apply Nat.ltb_ge in E].
  - assert (F : length t <=? length l = false) by (apply Nat.leb_gt; lia). now rewrite F.
  - assert (F : length t <=? length l = true) by (apply Nat.leb_le; lia). rewrite F. cbn [andb].
    rewrite (firstn_all2 (n := length t)) by (rewrite skipn_length; lia). reflexivity.
Qed.

(* the states agree *)
Definition R (s : st) (t : sst) : Prop :=
  (forall k, holds s k (s_nt (s_c t k)) (s_alloc (s_c t k)) (s_cap (s_c t k)) (s_l (s_c t k)) /\
     locks (mm s) k = s_lk (s_c t k) /\ (nest = false -> s_lk (s_c t k) <= 1)) /\
  (forall v k i, s_p t v = Some (k, i) -> ptrs s v = Ref k (gen (mm s) k) i /\ s_lk (s_c t k) <> 0).
Lemma R_same s s' t : R s t -> same s s' -> R s' t.
Proof.
  intros [H1 H2] S. split.
  - intros k. destruct (H1 k) as (A & B & C). split; [exact (holds_same _ _ _ _ _ _ _ S A)|].
    split; [|exact C]. destruct S as (_ & L & _). now rewrite L.
  - intros v k i Hv. destruct (H2 v k i Hv) as [A B]. split; [|exact B]. destruct (H1 k) as (_ & Lk & _).
    destruct S as (P & _ & G & _). rewrite P, G; [exact A|congruence].
Qed.
Lemma R_put s s' t k mv moved d : R s t -> upto k mv s s' -> holds s' k (s_nt d) (s_alloc d) (s_cap d) (s_l d) ->
  s_lk d = s_lk (s_c t k) -> (mv = true -> moved = true) -> R s' (s_put t k d moved).
Proof.
  intros [H1 H2] U Hh Hlk Hm. pose proof U as (P & L & G & C). split.
  - intros b. cbn [s_c s_put]. destruct (Nat.eq_dec b k) as [->|Hb].
    + rewrite set_same. split; [exact Hh|]. rewrite L, Hlk. apply (H1 k).
    + rewrite set_other by exact Hb. destruct (H1 b) as (A & B & D). split; [exact (holds_upto _ _ _ _ _ _ _ _ _ U Hb A)|].
      rewrite L. split; assumption.
  - intros v b i Hv. cbn [s_p s_put s_c] in *. destruct (s_p t v) as [[b0 i0]|] eqn:E; [|discriminate].
    destruct (moved && Nat.eqb b0 k) eqn:F; [discriminate|]. injection Hv as -> ->.
    destruct (H2 v b i E) as [A B]. destruct (H1 b) as (_ & Lb & _). split.
    + rewrite P, G; [exact A|congruence|]. intros M -> . rewrite (Hm M), Nat.eqb_refl in F. discriminate.
    + destruct (Nat.eq_dec b k) as [->|Hb]; [rewrite set_same; congruence|now rewrite set_other].
Qed.
Lemma quiet_ok s t k : R s t -> s_quiet nest (s_c t k) = true -> ok1 s k.
Proof.
  intros [H1 _] H. destruct (H1 k) as (_ & L & _). unfold s_quiet in H. apply orb_true_iff in H as [H|H]; [now left|right].
  apply Nat.eqb_eq in H. congruence.
Qed.
Lemma deep_ok s t k : R s t -> s_deep nest (s_c t k) = true -> ok1 s k /\ (nest = true \/ s_nt (s_c t k) = false).
Proof.
  intros H Hd. unfold s_deep in Hd. apply andb_true_iff in Hd as [A B]. split; [exact (quiet_ok _ _ _ H A)|].
  apply orb_true_iff in B as [B|B]; [now left|right]. now apply negb_true_iff in B.
Qed.
Lemma pair_ok k j : s_pair nest k j = true -> nest = true \/ k <> j.
Proof. unfold s_pair. intros H. apply orb_true_iff in H as [H|H]; [now left|right]. apply negb_true_iff in H. now apply Nat.eqb_neq. Qed.
Lemma become_inv t k L pd obs t' : s_become t k L pd = Some (obs, t') ->
  let c := s_c t k in
  obs = [] /\ (s_nt c = true -> length L < (if length L <=? s_cap c then s_cap c else length L + pd)) /\
  s_alloc c || (s_cap c <? length L) = true /\ clean (s_nt c) L /\
  t' = s_put t k (SC (s_nt c) true (if length L <=? s_cap c then s_cap c else length L + pd) L (s_lk c)) (s_cap c <? length L).
Proof.
  intros H c. unfold s_become in H. fold c in H. unfold s_grow in H.
  destruct (s_nt c && _) eqn:E; [discriminate|]. cbn [s_alloc] in H.
  destruct (s_alloc c || (s_cap c <? length L)) eqn:E2; [|discriminate]. cbn [andb] in H.
  destruct (s_text c L) eqn:E3; [|discriminate]. injection H as <- <-. split; [reflexivity|].
  split. { intros Hn. rewrite Hn in E. cbn [andb] in E. now apply Nat.leb_gt in E. }
  split; [reflexivity|]. split; [now apply s_text_clean|]. reflexivity.
Qed.
Lemma become_ok s t k L pd obs t' (r : result st) : R s t -> s_become t k L pd = Some (obs, t') ->
  (forall s', outcome s s' k (s_nt (s_c t k)) (s_cap (s_c t k)) L pd -> r = Ok s' -> exists s2, quietly r = Ok (obs, s2) /\ R s2 t').
Proof.
  intros HR Hb s' [U H] ->. apply become_inv in Hb as (-> & _ & _ & _ & ->). exists s'. split; [reflexivity|].
  apply (R_put s s' t k _ _ _ HR U); auto.
Qed.
Ltac bools := repeat match goal with
  | H : _ && _ = true |- _ => apply andb_true_iff in H; destruct H
  | H : (_ <=? _) = true |- _ => apply Nat.leb_le in H
  | H : (_ <? _) = true |- _ => apply Nat.ltb_lt in H
  | H : (_ =? _) = true |- _ => apply Nat.eqb_eq in H
  | H : negb (_ =? _) = true |- _ => apply negb_true_iff, Nat.eqb_neq in H
  end.
Lemma answer_ok {X} s t (f : X -> lobs) (r : result (X * st)) x s' o : R s t -> r = Ok (x, s') -> same s s' -> say t (f x) = o ->
  exists obs s2 t2, o = Some (obs, t2) /\ answer f r = Ok (obs, s2) /\ R s2 t2.
Proof. intros H -> Hs <-. exists [f x], s', t. split; [reflexivity|]. split; [reflexivity|exact (R_same _ _ _ H Hs)]. Qed.
Lemma user_lock_ok s t v k pos : R s t -> s_quiet nest (s_c t k) = true -> s_alloc (s_c t k) = true ->
  exists s', ('(p, s) <- lock s k pos ;; Ok (@nil lobs, St (mm s) (cs s) (set_at (ptrs s) v p))) = Ok ([], s') /\
  R s' (SS (set_at (s_c t) k (SC (s_nt (s_c t k)) (s_alloc (s_c t k)) (s_cap (s_c t k)) (s_l (s_c t k)) (S (s_lk (s_c t k)))))
           (set_at (s_p t) v (Some (k, pos)))).
Proof.
  intros HR Hq Hal. pose proof HR as [HC HP]. pose proof (quiet_ok _ _ _ HR Hq) as Hok.
  destruct (HC k) as (Hh & Lk & Hle).
  destruct (lock_ok s k pos) as (s1 & E1 & H1). { rewrite (holds_alloc _ _ _ _ _ _ Hh). exact Hal. }
  rewrite E1. cbn [bind]. eexists. split; [reflexivity|]. pose proof H1 as (P1 & K1 & O1 & G1 & C1 & D1).
  assert (Lk1 : locks (mm s1) k = S (s_lk (s_c t k))).
  { rewrite K1, Lk. destruct Hok as [->|H0]; [reflexivity|]. rewrite <- Lk, H0. now destruct nest. }
  split.
  - intros b. cbn [s_c mm cs]. destruct (Nat.eq_dec b k) as [->|Hb].
    + rewrite set_same. cbn [s_nt s_alloc s_cap s_l s_lk]. split; [unfold holds in *; cbn [mm cs]; now rewrite C1, D1|]. split; [exact Lk1|].
      intros Hn. destruct Hok as [?|H0]; [congruence|]. lia.
    + rewrite set_other by exact Hb. destruct (HC b) as (A & B & C). split; [unfold holds in *; cbn [mm cs]; now rewrite C1, D1|].
      split; [now rewrite O1|exact C].
  - intros w b i Hw. cbn [s_p s_c ptrs mm] in *. unfold set_at in Hw |- * at 1. destruct (w =? v) eqn:Ew.
    + injection Hw as <- <-. split; [reflexivity|]. rewrite set_same. discriminate.
    + destruct (HP w b i Hw) as [A B]. destruct (HC b) as (_ & Lb & _). split.
      * rewrite P1, A. f_equal. symmetry. apply G1. congruence.
      * destruct (Nat.eq_dec b k) as [->|Hb]; [rewrite set_same; discriminate|now rewrite set_other].
Qed.
Lemma user_unlock_ok s t k : R s t -> 0 < s_lk (s_c t k) ->
  exists s', quietly (unlock s k) = Ok ([], s') /\
  R s' (s_put t k (SC (s_nt (s_c t k)) (s_alloc (s_c t k)) (s_cap (s_c t k)) (s_l (s_c t k)) (s_lk (s_c t k) - 1)) (s_lk (s_c t k) =? 1)).
Proof.
  intros HR Hl. pose proof HR as [HC HP]. destruct (HC k) as (Hh & Lk & Hle).
  destruct (unlock_ok s k) as (s1 & E1 & P1 & C1 & D1 & K1 & O1 & G1); [lia|].
  rewrite E1. cbn [quietly bind]. exists s1. split; [reflexivity|].
  assert (Lk1 : locks (mm s1) k = s_lk (s_c t k) - 1).
  { rewrite K1, Lk. destruct nest; [reflexivity|]. specialize (Hle eq_refl). lia. }
  split.
  - intros b. cbn [s_c s_put]. destruct (Nat.eq_dec b k) as [->|Hb].
    + rewrite set_same. cbn [s_nt s_alloc s_cap s_l s_lk]. split; [unfold holds in *; now rewrite C1, D1|]. split; [exact Lk1|].
      intros Hn. specialize (Hle Hn). lia.
    + rewrite set_other by exact Hb. destruct (HC b) as (A & B & C). split; [unfold holds in *; now rewrite C1, D1|].
      split; [now rewrite O1|exact C].
  - intros w b i Hw. cbn [s_p s_c s_put] in *. destruct (s_p t w) as [[b0 i0]|] eqn:Ew; [|discriminate].
    destruct ((s_lk (s_c t k) =? 1) && (b0 =? k)) eqn:F; [discriminate|]. injection Hw as -> ->.
    destruct (HP w b i Ew) as [A B]. destruct (HC b) as (_ & Lb & _).
    destruct (Nat.eq_dec b k) as [->|Hb].
    + rewrite Nat.eqb_refl, andb_true_r in F. apply Nat.eqb_neq in F. rewrite set_same. cbn [s_lk]. split; [|lia].
      rewrite P1, A. f_equal. symmetry. apply G1. lia.
    + rewrite set_other by exact Hb. split; [|exact B]. rewrite P1, A. f_equal. symmetry. apply G1. rewrite O1 by exact Hb. congruence.
Qed.
Lemma step_ok s t o obs t' : R s t -> sstep nest pad t o = Some (obs, t') -> exists s', step moves junk nest pad s o = Ok (obs, s') /\ R s' t'.
Proof.
  intros HR Hs. pose proof HR as [HC HP].
  destruct o; cbn [sstep step] in *; unfold when in Hs;
    match type of Hs with (if ?b then _ else _) = _ => destruct b eqn:EC; [|discriminate]; bools | _ => idtac end.
  - (* reserve *) injection Hs as <- <-. eexists. split; [reflexivity|]. destruct (HC k) as (Hh & _ & _).
    apply (R_put s _ t k true true _ HR); [| |reflexivity|auto]; unfold Lkd_Model.reserve; cbn [cs mm ptrs].
    + split; [reflexivity|]. split; [reflexivity|]. split.
      * intros b Hlb Hbk. cbn. specialize (Hbk eq_refl). apply Nat.eqb_neq in Hbk, Hlb. rewrite Hbk, Hlb. reflexivity.
      * intros b Hbk. cbn. rewrite !set_other by assumption. split; reflexivity.
    + destruct Hh as (B1 & B2 & B3 & B4 & B5 & B6 & B7). unfold holds. cbn [cs mm cont s_nt s_alloc s_cap s_l]. rewrite !set_same. cbn [c_nt c_alloc c_cap c_sz].
      split; [exact B1|]. split; [reflexivity|]. split; [reflexivity|]. split; [exact B4|]. split; [discriminate|]. split; [|exact B7].
      intros _. rewrite B2. set (old := if s_alloc (s_c t k) then cont (mm s) k else []). split.
      { rewrite app_length, map_length, seq_length. assert (length (firstn n old) <= n) by (rewrite firstn_length; lia). lia. }
      unfold old. destruct (s_alloc (s_c t k)).
      * destruct (B6 eq_refl) as (_ & rest & Er). rewrite Er.
        destruct (s_nt (s_c t k)); cbn [negb orb andb] in *.
        -- bools. exists (firstn (n - length (s_l (s_c t k)) - 1) rest ++ map (junk (calls (mm s))) (seq (length (firstn n (s_l (s_c t k) ++ term true ++ rest))) (n - length (firstn n (s_l (s_c t k) ++ term true ++ rest))))).
           rewrite !app_assoc. f_equal. rewrite firstn_app. rewrite (firstn_all2 (n := n) (s_l _ ++ _)) by (rewrite app_length; cbn; lia).
           f_equal. f_equal. rewrite app_length. cbn. lia.
        -- exists (firstn (n - length (s_l (s_c t k))) rest ++ map (junk (calls (mm s))) (seq (length (firstn n (s_l (s_c t k) ++ term false ++ rest))) (n - length (firstn n (s_l (s_c t k) ++ term false ++ rest))))).
           cbn [term app]. rewrite app_assoc. f_equal. rewrite firstn_app. now rewrite (firstn_all2 (n := n) (s_l _)) by lia.
      * destruct (B5 eq_refl) as (_ & -> & ->). cbn. rewrite firstn_nil. cbn. eexists. reflexivity.
  - (* append *) pose proof (quiet_ok _ _ _ HR EC) as Hok. destruct (HC k) as (Hh & _ & _).
    pose proof (become_inv _ _ _ _ _ _ Hs) as (_ & A & B & C & _).
    destruct (append_ok s k _ _ _ _ buf Hh Hok C A B) as (s' & E & O).
    exact (become_ok s t k _ _ _ _ _ HR Hs s' O E).
  - (* append container *) destruct (deep_ok s t j HR) as [Hokj Hd]; [assumption|].
    destruct (HC k) as (Hh & _ & _). destruct (HC j) as (Hj & _ & _).
    pose proof (become_inv _ _ _ _ _ _ Hs) as (_ & A & B & C & _).
    destruct (append_arr_ok s k j _ _ _ _ _ _ _ _ Hh Hj) as (s' & E & O); auto.
    + now apply (quiet_ok s t).
    + match goal with H : s_pair _ _ _ = true |- _ => destruct (pair_ok _ _ H) end; tauto.
    + match goal with H : _ || (k =? j) = true |- _ => apply orb_true_iff in H as [H|H] end; [now left|right; now apply Nat.eqb_eq].
    + exact (become_ok s t k _ _ _ _ _ HR Hs s' O E).
  - (* push *) pose proof (quiet_ok _ _ _ HR EC) as Hok. destruct (HC k) as (Hh & _ & _).
    pose proof (become_inv _ _ _ _ _ _ Hs) as (_ & A & B & C & _).
    destruct (push_ok s k _ _ _ _ a Hh Hok C A B) as (s' & E & O).
    exact (become_ok s t k _ _ _ _ _ HR Hs s' O E).
  - (* insert *) destruct (HC k) as (Hh & _ & _).
    pose proof (become_inv _ _ _ _ _ _ Hs) as (_ & A & B & C & _).
    rewrite <- (firstn_skipn pos (s_l (s_c t k))) in Hh at 1.
    destruct (insert_buf_ok s k _ _ _ _ _ buf Hh) as (s' & E & O); auto. { now apply (quiet_ok s t). }
    rewrite firstn_length_le in E by assumption.
    exact (become_ok s t k _ _ _ _ _ HR Hs s' O E).
  - (* insert container *) destruct (deep_ok s t j HR) as [Hokj Hd]; [assumption|].
    destruct (HC k) as (Hh & _ & _). destruct (HC j) as (Hj & _ & _).
    pose proof (become_inv _ _ _ _ _ _ Hs) as (_ & A & B & C & _).
    rewrite <- (firstn_skipn pos (s_l (s_c t k))) in Hh at 1.
    match goal with H : s_alloc (s_c t j) = true |- _ => rewrite H in Hj end.
    destruct (insert_str_ok s k j _ _ _ _ _ _ _ _ Hh Hj) as (s' & E & O); auto. { now apply (quiet_ok s t). }
    rewrite firstn_length_le in E by assumption.
    exact (become_ok s t k _ _ _ _ _ HR Hs s' O E).
  - (* insert value *) destruct (HC k) as (Hh & _ & _).
    pose proof (become_inv _ _ _ _ _ _ Hs) as (_ & A & B & C & _).
    rewrite <- (firstn_skipn pos (s_l (s_c t k))) in Hh at 1.
    destruct (insert_move_ok s k _ _ _ _ _ a Hh) as (s' & E & O); auto. { now apply (quiet_ok s t). }
    rewrite firstn_length_le in E by assumption.
    exact (become_ok s t k _ _ _ _ _ HR Hs s' O E).
  - (* erase *) injection Hs as <- <-. destruct (deep_ok s t k HR) as [Hok Hd]; [assumption|]. destruct (HC k) as (Hh & _ & _).
    match goal with H : s_alloc (s_c t k) = true |- _ => rename H into Hal end. rewrite Hal in Hh.
    set (l := s_l (s_c t k)) in *.
    assert (El : l = firstn pos l ++ firstn cnt (skipn pos l) ++ skipn cnt (skipn pos l)) by (now rewrite !firstn_skipn).
    rewrite El in Hh.
    destruct (erase_ok s k _ _ _ _ _ cnt Hh Hok Hd) as (s' & E & U & H').
    { rewrite firstn_skipn, firstn_length. reflexivity. }
    rewrite firstn_length_le in E by assumption. rewrite E. cbn. exists s'. split; [reflexivity|].
    apply (R_put s s' t k false false _ HR U); auto. cbn [s_nt s_alloc s_cap s_l s_with]. rewrite Hal.
    replace (skipn (pos + cnt) l) with (skipn cnt (skipn pos l)); [exact H'|].
    generalize l. clear. intros l. revert l. induction pos as [|p IH]; intros l; [reflexivity|]. destruct l; [now rewrite !skipn_nil|apply IH].
  - (* pop *) injection Hs as <- <-. destruct (HC k) as (Hh & _ & _).
    assert (Hal : s_alloc (s_c t k) = true).
    { destruct (s_alloc (s_c t k)); [reflexivity|]. destruct Hh as (_ & _ & _ & _ & H5 & _). destruct (H5 eq_refl) as (_ & _ & E). rewrite E in *. cbn in *. lia. }
    rewrite Hal in Hh. destruct (pop_ok s k _ _ _ Hh) as (s' & E & U & H'); auto. { now apply (quiet_ok s t). }
    rewrite E. cbn. exists s'. split; [reflexivity|]. apply (R_put s s' t k false false _ HR U); auto.
    cbn [s_nt s_alloc s_cap s_l s_with]. now rewrite Hal.
  - (* resize *) injection Hs as <- <-. destruct (HC k) as (Hh & _ & _).
    assert (Hcap : c_cap (cs s k) = s_cap (s_c t k)) by now destruct Hh as (_ & _ & ? & _).
    assert (Hn : s_cap (s_c t k) <? n = false).
    { apply Nat.ltb_ge. destruct (s_alloc (s_c t k)) eqn:Hal; [apply holds_le in Hh; lia|]. destruct Hh as (_ & _ & _ & _ & H5 & _). destruct (H5 eq_refl) as (_ & _ & E). rewrite E in *. cbn in *. lia. }
    unfold Lkd_Model.ensure_total_size, Lkd_Model.ensure_total_capacity. rewrite Hcap, Hn.
    destruct (cut_ok s k _ _ _ _ n Hh) as (s' & E & U & H'); auto. { now apply (quiet_ok s t). }
    { match goal with H : _ || _ = true |- _ => apply orb_true_iff in H as [H|H] end; [now left|right; now apply negb_true_iff]. }
    rewrite E. cbn. exists s'. split; [reflexivity|]. apply (R_put s s' t k false false _ HR U); auto.
  - (* assign *) pose proof (quiet_ok _ _ _ HR EC) as Hok. destruct (HC k) as (Hh & _ & _).
    pose proof (become_inv _ _ _ _ _ _ Hs) as (_ & A & B & C & _).
    destruct (assign_ok s k _ _ _ _ buf Hh Hok C A B) as (s' & E & O).
    exact (become_ok s t k _ _ _ _ _ HR Hs s' O E).
  - (* assign container *) destruct (deep_ok s t j HR) as [Hokj Hd]; [assumption|].
    destruct (HC k) as (Hh & _ & _). destruct (HC j) as (Hj & _ & _).
    pose proof (become_inv _ _ _ _ _ _ Hs) as (_ & A & B & C & _).
    match goal with H : s_alloc (s_c t j) = true |- _ => rewrite H in Hj end.
    destruct (assign_arr_ok s k j _ _ _ _ _ _ _ Hh Hj) as (s' & E & O); auto. { now apply (quiet_ok s t). }
    exact (become_ok s t k _ _ _ _ _ HR Hs s' O E).
  - (* braced list *) injection Hs as <- <-. destruct (deep_ok s t k HR) as [Hok Hd]; [assumption|]. destruct (HC k) as (Hh & _ & _).
    match goal with H : s_alloc (s_c t k) = true |- _ => rename H into Hal end. rewrite Hal in Hh.
    match goal with H : length (s_l (s_c t k)) = 0 |- _ => apply length_zero_iff_nil in H; rewrite H in Hh end.
    destruct (init_ok s k _ _ buf Hh Hok Hd) as (s' & E & U & H').
    { now apply s_text_clean. } { destruct (s_nt (s_c t k)); bools; lia. }
    rewrite E. cbn. exists s'. split; [reflexivity|]. apply (R_put s s' t k false false _ HR U); auto.
    cbn [s_nt s_alloc s_cap s_l s_with]. now rewrite Hal.
  - (* size *) destruct (HC k) as (Hh & _ & _). destruct (holds_size s k _ _ _ _ Hh (or_introl (quiet_ok _ _ _ HR EC))) as (s' & E & Sm).
    injection Hs as <- <-. rewrite E. cbn. exists s'. split; [reflexivity|exact (R_same _ _ _ HR Sm)].
  - (* empty *) destruct (HC k) as (Hh & _ & _). destruct (empty_ok s k _ _ _ _ Hh) as (s' & E & Sm). { now apply (quiet_ok s t). }
    { match goal with H : _ || _ = true |- _ => apply orb_true_iff in H as [H|H] end; [now left|right; now apply negb_true_iff]. }
    injection Hs as <- <-. rewrite E. cbn. exists s'. split; [reflexivity|exact (R_same _ _ _ HR Sm)].
  - (* find ch *) destruct (deep_ok s t k HR) as [Hok Hd]; [assumption|]. destruct (HC k) as (Hh & _ & _).
    match goal with H : s_alloc (s_c t k) = true |- _ => rewrite H in Hh end.
    destruct (find_ch_ok s k _ _ _ ch pos Hh Hok Hd) as (s' & E & Sm).
    injection Hs as <- <-. rewrite E. cbn. exists s'. split; [reflexivity|exact (R_same _ _ _ HR Sm)].
  - (* find *) destruct (deep_ok s t k HR) as [Hok Hd]; [assumption|]. destruct (HC k) as (Hh & _ & _).
    match goal with H : s_alloc (s_c t k) = true |- _ => rewrite H in Hh end.
    destruct (least _ _ _) as [i|] eqn:El; [|discriminate].
    destruct (find_ok s k _ _ _ s0 pos i Hh Hok Hd El) as (s' & E & Sm).
    injection Hs as <- <-. rewrite E. cbn. exists s'. split; [reflexivity|exact (R_same _ _ _ HR Sm)].
  - (* rfind *) destruct (HC k) as (Hh & _ & _).
    match goal with H : s_alloc (s_c t k) = true |- _ => rewrite H in Hh end.
    destruct (rfind_ok s k _ _ _ s0 pos Hh) as (s' & E & Sm); auto. { now apply (quiet_ok s t). }
    injection Hs as <- <-. rewrite E. cbn [answer bind]. exists s'. split; [reflexivity|exact (R_same _ _ _ HR Sm)].
  - (* first of *) destruct (deep_ok s t k HR) as [Hok Hd]; [assumption|]. destruct (HC k) as (Hh & _ & _).
    match goal with H : s_alloc (s_c t k) = true |- _ => rewrite H in Hh end.
    destruct (first_of_ok s k _ _ _ s0 pos Hh Hok Hd) as (s' & E & Sm); auto.
    injection Hs as <- <-. rewrite E. cbn. exists s'. split; [reflexivity|exact (R_same _ _ _ HR Sm)].
  - (* last of *) destruct (HC k) as (Hh & _ & _).
    match goal with H : s_alloc (s_c t k) = true |- _ => rewrite H in Hh end.
    destruct (last_of_ok s k _ _ _ s0 pos Hh) as (s' & E & Sm); auto. { now apply (quiet_ok s t). }
    injection Hs as <- <-. rewrite E. cbn [answer bind]. exists s'. split; [reflexivity|exact (R_same _ _ _ HR Sm)].
  - (* starts with ch *) destruct (HC k) as (Hh & _ & _).
    match goal with H : s_alloc (s_c t k) = true |- _ => rewrite H in Hh end.
    destruct (s_l (s_c t k)) as [|a l]; [discriminate|].
    destruct (starts_ch_ok s k _ _ a l ch Hh) as (s' & E & Sm). { now apply (quiet_ok s t). }
    injection Hs as <- <-. rewrite E. cbn. exists s'. split; [reflexivity|exact (R_same _ _ _ HR Sm)].
  - (* ends with ch *) destruct (HC k) as (Hh & _ & _).
    match goal with H : s_alloc (s_c t k) = true |- _ => rewrite H in Hh end.
    destruct (ends_ch_ok s k _ _ _ ch Hh) as (s' & E & Sm); auto. { now apply (quiet_ok s t). }
    injection Hs as <- <-. rewrite E. cbn [answer bind]. exists s'. split; [reflexivity|exact (R_same _ _ _ HR Sm)].
  - (* starts with *) destruct (deep_ok s t k HR) as [Hok Hd]; [assumption|]. destruct (deep_ok s t j HR) as [Hokj Hdj]; [assumption|].
    destruct (HC k) as (Hh & _ & _). destruct (HC j) as (Hj & _ & _).
    repeat match goal with H : s_alloc (s_c t ?x) = true |- _ => rewrite H in *; clear H end.
    destruct (both_ok s k j _ _ _ _ _ _ starts_with_n Hh Hj Hok Hokj) as (s' & E & Sm). { match goal with H : s_pair _ _ _ = true |- _ => destruct (pair_ok _ _ H) end; tauto. }
    injection Hs as <- <-. rewrite E. cbn. exists s'. split; [now rewrite starts_n|exact (R_same _ _ _ HR Sm)].
  - (* ends with *) destruct (deep_ok s t k HR) as [Hok Hd]; [assumption|]. destruct (deep_ok s t j HR) as [Hokj Hdj]; [assumption|].
    destruct (HC k) as (Hh & _ & _). destruct (HC j) as (Hj & _ & _).
    repeat match goal with H : s_alloc (s_c t ?x) = true |- _ => rewrite H in *; clear H end.
    destruct (both_ok s k j _ _ _ _ _ _ ends_with_n Hh Hj Hok Hokj) as (s' & E & Sm). { match goal with H : s_pair _ _ _ = true |- _ => destruct (pair_ok _ _ H) end; tauto. }
    injection Hs as <- <-. rewrite E. cbn [answer bind]. exists s'. split; [now rewrite ends_n|exact (R_same _ _ _ HR Sm)].
  - (* equal *) destruct (HC k) as (Hh & _ & _). destruct (HC j) as (Hj & _ & _).
    repeat match goal with H : s_alloc (s_c t ?x) = true |- _ => rewrite H in *; clear H end.
    destruct (equals_ok s k j _ _ _ _ _ _ Hh Hj) as (s' & E & Sm). { now apply (quiet_ok s t). } { now apply (quiet_ok s t). } { now apply pair_ok. }
    injection Hs as <- <-. rewrite E. cbn [answer bind]. exists s'. split; [reflexivity|exact (R_same _ _ _ HR Sm)].
  - (* compare *) destruct (deep_ok s t j HR) as [Hokj Hdj]; [assumption|].
    destruct (HC k) as (Hh & _ & _). destruct (HC j) as (Hj & _ & _).
    repeat match goal with H : s_alloc (s_c t ?x) = true |- _ => rewrite H in *; clear H end.
    destruct (compare_ok s k j _ _ _ _ _ _ Hh Hj) as (s' & E & Sm); auto. { now apply (quiet_ok s t). } { match goal with H : s_pair _ _ _ = true |- _ => destruct (pair_ok _ _ H) end; tauto. }
    injection Hs as <- <-. rewrite E. cbn [answer bind]. exists s'. split; [reflexivity|exact (R_same _ _ _ HR Sm)].
  - (* copy *) destruct (deep_ok s t k HR) as [Hok Hd]; [assumption|]. destruct (HC k) as (Hh & _ & _).
    match goal with H : s_alloc (s_c t k) = true |- _ => rewrite H in Hh end.
    destruct (copy_ok s k _ _ _ cnt pos Hh Hok Hd) as (s' & E & Sm); auto.
    injection Hs as <- <-. rewrite E. cbn. exists s'. split; [reflexivity|exact (R_same _ _ _ HR Sm)].
  - (* lock *) injection Hs as <- <-. apply (user_lock_ok s t v k pos HR); auto.
  - (* data *) injection Hs as <- <-. apply (user_lock_ok s t v k 0 HR); auto.
  - (* unlock *) injection Hs as <- <-. apply (user_unlock_ok s t k HR); auto.
  - (* load *) destruct (s_p t v) as [[k i]|] eqn:Ev; [|discriminate]. destruct (nth_error _ _) as [a|] eqn:En; [|discriminate].
    injection Hs as <- <-. destruct (HP v k i Ev) as [Ep Hlk]. rewrite Ep. destruct (HC k) as (Hh & _ & _).
    assert (Hal : s_alloc (s_c t k) = true).
    { destruct (s_alloc (s_c t k)); [reflexivity|]. destruct Hh as (_ & _ & _ & _ & H5 & _). destruct (H5 eq_refl) as (_ & _ & E). rewrite E in *. now destruct i. }
    rewrite Hal in Hh. destruct (holds_cont _ _ _ _ _ Hh) as (r & Er).
    rewrite (load_at s k _ _ _ i eq_refl Er) by (apply nth_error_Some; congruence).
    cbn. exists s. split; [|exact HR]. do 4 f_equal. now apply nth_error_nth.
  - (* store *) destruct (s_p t v) as [[k i]|] eqn:Ev; [|discriminate].
    destruct (_ && _) eqn:EC; [|discriminate]. bools. injection Hs as <- <-.
    destruct (HP v k i Ev) as [Ep Hlk]. rewrite Ep. destruct (HC k) as (Hh & _ & _).
    assert (Hal : s_alloc (s_c t k) = true).
    { destruct (s_alloc (s_c t k)); [reflexivity|]. destruct Hh as (_ & _ & _ & _ & H5 & _). destruct (H5 eq_refl) as (_ & _ & E). rewrite E in *. cbn in *. lia. }
    rewrite Hal in Hh. pose proof Hh as (B1 & B2 & B3 & B4 & _ & B6 & B7). destruct (B6 eq_refl) as (Hlen & r & Er).
    set (l := s_l (s_c t k)) in *.
    assert (El : exists x, l = firstn i l ++ x :: skipn (S i) l).
    { destruct (nth_error l i) as [x|] eqn:En; [|apply nth_error_None in En; lia]. exists x. symmetry.
      revert En. generalize l. clear. intros l En. revert l En. induction i as [|i IH]; intros [|y l] En; try discriminate; cbn in *; [congruence|]. f_equal. now apply IH. }
    destruct El as (x & El).
    destruct (storen_gen s _ k i (firstn i l) [x] (skipn (S i) l ++ term (s_nt (s_c t k)) ++ r) [a] eq_refl) as (s' & E & C & G & L & P & D & O).
    { rewrite Er. rewrite El at 1. now rewrite <- app_assoc. } { symmetry. apply firstn_length_le. lia. } { reflexivity. }
    rewrite E. cbn [quietly bind]. exists s'. split; [reflexivity|].
    apply (R_put s s' t k false false _ HR (stored_upto k s s' C G L P O)); auto.
    unfold holds. cbn [s_nt s_alloc s_cap s_l s_with]. rewrite C, D, Hal.
    assert (Ll : length (firstn i l ++ a :: skipn (S i) l) = length l).
    { rewrite El at 3. rewrite !app_length. reflexivity. }
    split; [exact B1|]. split; [exact B2|]. split; [exact B3|]. split; [intros Hn; rewrite (B4 Hn); symmetry; exact Ll|]. split; [discriminate|].
    split.
    + intros _. split; [|exists r; rewrite <- app_assoc; reflexivity].
      rewrite <- Hlen, Er. change ([a] ++ skipn (S i) l ++ term (s_nt (s_c t k)) ++ r) with ((a :: skipn (S i) l) ++ term (s_nt (s_c t k)) ++ r).
      rewrite app_assoc. rewrite app_length, Ll. symmetry. apply app_length.
    + rewrite El in B7. apply clean_app in B7 as [Q1 Q2]. apply clean_app. split; [exact Q1|].
      match goal with H : s_text _ _ = true |- _ => apply s_text_clean in H; rename H into Q3 end.
      intros Hn b [<-|Hb]; [exact (Q3 Hn a (or_introl eq_refl))|]. apply (Q2 Hn). now right.
Qed.
Lemma run_ok os s t obs t' : R s t -> srun nest pad t os = Some (obs, t') -> exists s', run moves junk nest pad s os = Ok (obs, s') /\ R s' t'.
Proof.
  revert s t obs t'. induction os as [|o os IH]; intros s t obs t' HR Hs; cbn [srun run] in *; [injection Hs as <- <-; eauto|].
  destruct (sstep nest pad t o) as [[b t1]|] eqn:E1; [|discriminate].
  destruct (srun nest pad t1 os) as [[bs t2]|] eqn:E2; [|discriminate]. injection Hs as <- <-.
  destruct (step_ok s t o b t1 HR E1) as (s1 & F1 & R1). rewrite F1. cbn [bind].
  destruct (IH s1 t1 bs t2 R1 E2) as (s2 & F2 & R2). rewrite F2. cbn [bind]. eauto.
Qed.
End Lkd.

Lemma start_R nest c rest g : (forall k, s_start (c k)) -> (forall k, s_alloc (c k) = true -> length (block (c k) (rest k)) = s_cap (c k)) ->
  R nest (start c rest g) (SS c (fun _ => None)).
Proof.
  intros Hs Hb. split; [|discriminate]. intros k. cbn [s_c]. destruct (Hs k) as (H1 & H2 & H3 & H4).
  split; [|split; [cbn; now rewrite H1|intros _; rewrite H1; auto]].
  unfold holds, start. cbn [cs mm cont c_nt c_alloc c_cap c_sz]. split; [reflexivity|]. split; [reflexivity|]. split; [reflexivity|]. split; [reflexivity|].
  split; [|split].
  - intros Ha. specialize (H3 Ha). split; [exact H3|]. rewrite H3 in *. split.
    + destruct (s_nt (c k)); [|reflexivity]. destruct (H4 eq_refl). lia.
    + destruct (s_l (c k)); [reflexivity|cbn in H2; lia].
  - intros Ha. split; [exact (Hb k Ha)|]. exists (rest k). unfold block, term. now destruct (s_nt (c k)).
  - apply s_text_clean. unfold s_text. destruct (s_nt (c k)) eqn:E; [|reflexivity]. destruct (H4 eq_refl) as [_ H]. unfold s_text in H. now rewrite E in H.
Qed.
Lemma R_memory nest s t k : R nest s t -> s_alloc (s_c t k) = true -> exists rest, cont (mm s) k = block (s_c t k) rest.
Proof.
  intros [H _] Ha. destruct (H k) as (Hh & _). rewrite Ha in Hh. apply holds_cont in Hh as (r & Hr). exists r.
  rewrite Hr. unfold block, term. now destruct (s_nt (s_c t k)).
Qed.

(* counting locks are given back, whatever the state *)
Definition one (b k : nat) : nat := if Nat.eqb b k then 1 else 0.
Section Balance.
Context (moves : nat -> nat -> bool) (junk : nat -> nat -> Z) (pad b : nat).
Notation L s := (locks (mm s) b).
Lemma lock_lk s k p r s' : lock moves true s k p = Ok (r, s') -> L s' = L s + one b k.
Proof.
  unfold lock. destruct (c_alloc (cs s k)); [|discriminate]. intros H. injection H as <- <-. cbn. unfold set_at, one.
  destruct (Nat.eqb_spec b k) as [->|]; lia.
Qed.
Lemma unlock_lk s k s' : unlock moves true s k = Ok s' -> L s = L s' + one b k.
Proof.
  unfold unlock. destruct (locks (mm s) k) as [|n] eqn:E; [discriminate|]. intros H. injection H as <-. cbn. unfold set_at, one.
  destruct (Nat.eqb_spec b k) as [->|]; lia.
Qed.
Lemma storen_lk s p l s' : storen s p l = Ok s' -> L s' = L s.
Proof. unfold storen. destruct (_ && _); [|discriminate]. intros H. now injection H as <-. Qed.
Lemma reserve_lk s k n : L (reserve moves junk s k n) = L s.
Proof. reflexivity. Qed.
Lemma ensure_lk s k n p : L (ensure_total_capacity moves junk s k n p) = L s.
Proof. unfold ensure_total_capacity. now destruct (_ <? _). Qed.
Ltac pop := repeat match goal with
  | H : UB = Ok _ |- _ => discriminate
  | H : Ok _ = Ok _ |- _ => injection H as; subst
  | H : bind ?m _ = Ok _ |- _ => destruct m eqn:?; cbn [bind] in H; [|discriminate|discriminate]
  | H : (let '(_, _) := ?p in _) = Ok _ |- _ => destruct p; cbn [bind] in H
  | H : (if ?x then _ else _) = Ok _ |- _ => destruct x eqn:?; cbn [bind] in H
  | H : match ?x with Some _ => _ | None => _ end = Ok _ |- _ => destruct x eqn:?; cbn [bind] in H
  | p : (_ * _)%type |- _ => destruct p
  | H : lock _ _ _ _ _ = Ok _ |- _ => apply lock_lk in H
  | H : unlock _ _ _ _ = Ok _ |- _ => apply unlock_lk in H
  | H : storen _ _ _ = Ok _ |- _ => apply storen_lk in H
  end.
Lemma size_lk s k n s' : size moves true s k = Ok (n, s') -> L s' = L s.
Proof. unfold size. intros H. pop; lia. Qed.
Ltac pop1 := repeat (pop; match goal with H : size _ _ _ _ = Ok _ |- _ => apply size_lk in H end); pop.
Lemma set_size_lk s k n s' : set_size moves true s k n = Ok s' -> L s' = L s.
Proof. unfold set_size. intros H. pop; cbn in *; try reflexivity; lia. Qed.
Lemma ensure_size_lk s k n p s' : ensure_total_size moves junk true s k n p = Ok s' -> L s' = L s.
Proof. unfold ensure_total_size. intros H. apply set_size_lk in H. now rewrite ensure_lk in H. Qed.
Ltac pop2 := repeat (pop1; match goal with
  | H : set_size _ _ _ _ _ = Ok _ |- _ => apply set_size_lk in H
  | H : ensure_total_size _ _ _ _ _ _ _ = Ok _ |- _ => apply ensure_size_lk in H end); pop1.
Lemma grow_lk s k n m s' : grow moves junk true pad s k n = Ok (m, s') -> L s' = L s.
Proof. unfold grow. intros H. pop2. rewrite ensure_lk in *. congruence. Qed.
Ltac pop3 := repeat (pop2; match goal with H : grow _ _ _ _ _ _ _ = Ok _ |- _ => apply grow_lk in H end); pop2.
Lemma copy_to_lk s k n pos raw m s' : copy_to moves true s k n pos (fun s l => storen s raw l) = Ok (m, s') -> L s' = L s.
Proof. unfold copy_to. intros H. pop3; lia. Qed.
Ltac pop4 := repeat (pop3; match goal with H : copy_to _ _ _ _ _ _ _ = Ok _ |- _ => apply copy_to_lk in H end); pop3.
Definition inner (o : lop) : bool := match o with LLock _ _ _ | LData _ _ | LUnlock _ => false | _ => true end.
Lemma step_lk s o obs s' : inner o = true -> step moves junk true pad s o = Ok (obs, s') -> L s' = L s.
Proof.
  intros Hi H. destruct o; try discriminate; cbn [step] in H; unfold quietly, answer in H;
    cbv beta delta [append append_arr push_back raw_insert_move insert insert_str raw_insert erase erase_ pop_back assign assign_arr init_list
       copy_from find_ch find rfind find_first_of find_last_of starts_with_ch ends_with_ch both equals compare copy empty] in H; cbv zeta in H; pop4; try reflexivity; try lia.
  all: pop4; lia.
Qed.
End Balance.
