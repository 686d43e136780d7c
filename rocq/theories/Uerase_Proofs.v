(* Proofs about erasing at an iterator, bucket_size and count: definitions in Unordered_Model.v. *)
From Verif Require Import Base BaseLemmas Unordered_Spec Unordered_Model Unordered_Proofs.
From Coq Require Import Permutation.
Local Open Scope res_scope.

(* ================= the table ================= *)
Section Table.
Context {K C : Type} (keqb : K -> K -> bool) (null : K) (hash : K -> N) (w : N).
Context (ckey : C -> K) (csparse : C -> nat -> bool).
Hypothesis Hk : forall a b, keqb a b = true <-> a = b.
Hypothesis Hsp : forall c n, csparse c n = true -> is_empty keqb null ckey c = true.
Notation empty_c := (is_empty keqb null ckey).
Notation idx s := (index hash w s).

Definition memberb (s : list C) (n j : nat) : bool :=
  match nth_error s j with Some c => negb (empty_c c) && Nat.eqb (idx s (ckey c)) n | None => false end.
Lemma memberb_spec s n j : memberb s n j = true <-> member null hash w ckey s n j.
Proof.
  unfold memberb, member. split.
  - destruct (nth_error s j) as [c|] eqn:E; [|discriminate]. intros H. apply andb_prop in H. destruct H as [A B].
    apply negb_true_iff in A. apply Nat.eqb_eq in B. exists (ckey c). split; [now apply (live_of keqb null ckey Hk)|exact B].
  - intros (k & (c & E & Ec & D) & I). rewrite E. subst k. rewrite (proj2 (empty_false keqb null ckey Hk c) D). cbn. now apply Nat.eqb_eq.
Qed.
Lemma filter_none {A} (f : A -> bool) l : (forall x, In x l -> f x = false) -> filter f l = [].
Proof. induction l as [|a l IH]; intros H; cbn; [reflexivity|]. rewrite (H a) by now left. apply IH. intros x I. apply H. now right. Qed.

Lemma local_iter_all s n : ends keqb null ckey csparse s -> reachable null hash w ckey csparse s -> n < length s ->
  local_iter keqb null hash w ckey csparse s n = Ok (filter (memberb s n) (seq n (length s - n))).
Proof.
  intros He Hr Hn. pose proof He as [H0 Hs].
  assert (G : forall fuel it, n <= it <= length s - 1 -> length s - it <= fuel -> ~ sparse csparse s it n ->
    local_loop keqb null hash w ckey csparse fuel s n it = Ok (filter (memberb s n) (seq it (length s - it)))).
  { induction fuel as [|f IH]; intros it Hit Hf Hns; [lia|]. cbn [local_loop]. unfold local_more.
    destruct (Nat.eqb_spec it (length s)); [lia|]. destruct (rd_lt s it) as (c & Hc & ->); [lia|]. cbn [bind].
    destruct (csparse c n) eqn:Sc; [exfalso; apply Hns; exists c; auto|].
    assert (Stop : memberb s n it = false -> filter (memberb s n) (seq it (length s - it)) = []).
    { intros M. apply filter_none. intros j Hj. apply in_seq in Hj. destruct (memberb s n j) eqn:Mj; [|reflexivity].
      apply memberb_spec in Mj. destruct Mj as (k & L & Ek). destruct (Hr _ _ L) as [A B].
      destruct (Nat.eq_dec j it) as [->|D]; [exfalso; assert (member null hash w ckey s n it) as Q by (exists k; auto); apply memberb_spec in Q; congruence|].
      exfalso. destruct (B it ltac:(lia)) as [Q|Q]; rewrite Ek in Q; [apply memberb_spec in Q; congruence|contradiction]. }
    destruct (empty_c c) eqn:Ee.
    - cbn [bind]. rewrite Stop; [reflexivity|]. unfold memberb. rewrite Hc, Ee. reflexivity.
    - destruct (Nat.eqb_spec n (idx s (ckey c))) as [E|E]; cbn [bind].
      + assert (M : memberb s n it = true) by (unfold memberb; rewrite Hc, Ee; cbn; now apply Nat.eqb_eq).
        assert (it <> length s - 1).
        { intros ->. apply memberb_spec in M. destruct M as (k & L & _). exact (stop_not_live keqb null ckey csparse Hk _ _ _ Hs L). }
        unfold local_next. destruct (skip_spec keqb null ckey csparse s n He (S (length s)) (it + 1)) as (q & -> & Hq & Nq & Sk); [lia|lia|].
        cbn [bind]. rewrite IH by (auto; lia). cbn [bind]. do 1 f_equal.
        replace (length s - it) with (S ((q - (it + 1)) + (length s - q))) by lia. cbn [seq filter]. rewrite M. f_equal.
        rewrite seq_app, filter_app. rewrite (filter_none _ (seq (S it) _)).
        * cbn [app]. f_equal. f_equal. lia.
        * intros j Hj. apply in_seq in Hj. destruct (memberb s n j) eqn:Mj; [|reflexivity]. exfalso.
          apply memberb_spec in Mj. destruct Mj as (k & L & _).
          apply (live_not_sparse keqb null ckey csparse Hk Hsp _ _ _ n L). apply Sk. lia.
      + rewrite Stop; [reflexivity|]. unfold memberb. rewrite Hc, Ee. cbn. apply Nat.eqb_neq. congruence. }
  unfold local_iter, local_begin.
  destruct (skip_spec keqb null ckey csparse s n He (S (length s)) n) as (q & -> & Hq & Nq & Sk); [lia|lia|]. cbn [bind].
  rewrite G by (auto; lia). f_equal.
  replace (length s - n) with ((q - n) + (length s - q)) by lia. rewrite seq_app, filter_app.
  rewrite (filter_none _ (seq n _)); [cbn [app]; do 2 f_equal; lia|].
  intros j Hj. apply in_seq in Hj. destruct (memberb s n j) eqn:Mj; [|reflexivity]. exfalso.
  apply memberb_spec in Mj. destruct Mj as (k & L & _).
  apply (live_not_sparse keqb null ckey csparse Hk Hsp _ _ _ n L). apply Sk. lia.
Qed.

(* ---- the next element in slot order *)
Lemma skip_empty_to s q : (exists c, nth_error s q = Some c /\ empty_c c = false) ->
  forall fuel it, it <= q -> q - it < fuel -> (forall j c, it <= j < q -> nth_error s j = Some c -> empty_c c = true) ->
  skip_empty keqb null ckey fuel s it = Ok q.
Proof.
  intros (c & Hc & Ec). assert (q < length s) by (apply nth_error_Some; congruence).
  induction fuel as [|f IH]; intros it Hq Hf He; [lia|]. cbn [skip_empty].
  destruct (rd_lt s it) as (d & Hd & ->); [lia|]. cbn [bind]. destruct (Nat.eq_dec it q) as [->|D].
  - rewrite Hc in Hd. injection Hd as <-. rewrite Ec. reflexivity.
  - rewrite (He it d) by (auto; lia). destruct (Nat.eqb_spec it (length s)); [lia|]. cbn [negb andb]. apply IH; [lia|lia|].
    intros j e Hj. apply He. lia.
Qed.
Lemma skip_empty_off s : forall fuel it, it <= length s -> length s - it < fuel ->
  (forall j c, it <= j -> nth_error s j = Some c -> empty_c c = true) -> skip_empty keqb null ckey fuel s it = UB.
Proof.
  induction fuel as [|f IH]; intros it Hq Hf He; [lia|]. cbn [skip_empty]. destruct (Nat.eq_dec it (length s)) as [->|D].
  - unfold rd. rewrite (proj2 (nth_error_None s (length s)) (le_n _)). reflexivity.
  - destruct (rd_lt s it) as (d & Hd & ->); [lia|]. cbn [bind]. rewrite (He it d) by (auto; lia).
    destruct (Nat.eqb_spec it (length s)); [lia|]. cbn [negb andb]. apply IH; [lia|lia|]. intros j e Hj. apply He. lia.
Qed.
Lemma next_or_none s : forall m it, it + m = length s ->
  (exists q c, it <= q /\ nth_error s q = Some c /\ empty_c c = false /\
     forall j d, it <= j < q -> nth_error s j = Some d -> empty_c d = true) \/
  (forall j c, it <= j -> nth_error s j = Some c -> empty_c c = true).
Proof.
  induction m as [|m IH]; intros it E.
  - right. intros j c Hj Hc. assert (j < length s) by (apply nth_error_Some; congruence). lia.
  - destruct (rd_lt s it) as (c & Hc & _); [lia|]. destruct (empty_c c) eqn:Ec.
    + destruct (IH (it + 1) ltac:(lia)) as [(q & d & A & B & D & F)|N].
      * left. exists q, d. split; [lia|]. split; [exact B|]. split; [exact D|]. intros j e Hj He.
        destruct (Nat.eq_dec j it) as [->|]; [congruence|]. apply (F j e); [lia|exact He].
      * right. intros j e Hj He. destruct (Nat.eq_dec j it) as [->|]; [congruence|]. apply (N j e); [lia|exact He].
    + left. exists it, c. repeat split; auto; lia.
Qed.
End Table.

(* ================= the map ================= *)
Section Map.
Context {K : Type} (keqb : K -> K -> bool) (null : K) (hash : K -> N) (w : N).
Hypothesis Hk : forall a b, keqb a b = true <-> a = b.
Notation cell := (K * N)%type.
Notation spar := (is_sparse keqb null).
Notation mlive := (live null (@fst K N)).
Notation idx s := (index hash w s).
Notation inv2 := (inv2 keqb null hash w).
Notation aligned := (aligned w).

Lemma gc_sparse_frame (s s' : list cell) i : gc_sparse s i = Ok s' -> length s' = length s /\ forall j, j <> i -> nth_error s' j = nth_error s j.
Proof.
  unfold gc_sparse. destruct (rd s i) as [c| |]; cbn [bind]; try discriminate. intros H. apply wr_inv in H. destruct H as [_ ->].
  split; [apply upd_length|]. intros j D. apply nth_error_upd_neq. lia.
Qed.
Lemma prune_frame n : forall p (s s' : list cell), prune_sparse keqb null s n p = Ok s' -> length s' = length s /\ forall j, p <= j -> nth_error s' j = nth_error s j.
Proof.
  induction p as [|p IH]; intros s s' H; cbn [prune_sparse] in H; [discriminate|].
  destruct (rd s p) as [c| |]; cbn [bind] in H; try discriminate.
  destruct (spar c n && negb (Nat.eqb (S p) n)); [|injection H as <-; auto].
  destruct (gc_sparse s p) as [s1| |] eqn:E; cbn [bind] in H; try discriminate.
  apply gc_sparse_frame in E. destruct E as [L E]. apply IH in H. destruct H as [L' H]. split; [lia|].
  intros j Hj. rewrite H by lia. apply E. lia.
Qed.
Lemma erase_frame (s s' : list cell) i n : erase_ll keqb null s i n = Ok s' -> length s' = length s /\ forall j, i < j -> nth_error s' j = nth_error s j.
Proof.
  unfold erase_ll. destruct (rd s i) as [c| |]; cbn [bind]; try discriminate.
  destruct (wr s i (set_null null c)) as [s1| |] eqn:E1; cbn [bind]; try discriminate. apply wr_inv in E1. destruct E1 as [_ E1].
  assert (F1 : length s1 = length s /\ forall j, i < j -> nth_error s1 j = nth_error s j).
  { subst s1. split; [apply upd_length|]. intros j Hj. apply nth_error_upd_neq. lia. }
  destruct F1 as [L1 F1].
  destruct (if Nat.eqb (i + 1) (length s1) then Ok true else c' <- rd s1 (i + 1) ;; Ok (is_null_not_sparse keqb null c')) as [[|]| |];
    cbn [bind]; try discriminate.
  - destruct (gc_sparse s1 i) as [s2| |] eqn:E2; cbn [bind]; try discriminate. apply gc_sparse_frame in E2. destruct E2 as [L2 F2].
    intros H. apply prune_frame in H. destruct H as [L3 F3]. split; [lia|]. intros j Hj. rewrite F3, F2, F1 by lia. reflexivity.
  - destruct (rd s1 i) as [c1| |]; cbn [bind]; try discriminate. intros H. apply wr_inv in H. destruct H as [_ ->].
    rewrite upd_length. split; [exact L1|]. intros j Hj. rewrite nth_error_upd_neq by lia. auto.
Qed.

Notation hok N0 ops := (mhistory_ok keqb null N0 bucket_depth (index_of hash w N0) ops []).
Lemma reached storage ops m : clear_end storage -> length storage = 4 * m -> m <= 16 -> (2 <= w)%N -> hok (length storage) ops ->
  exists s, do_mops keqb null hash w ops (map_init null storage) = Ok (manswers keqb ops [], s) /\
    inv2 s (mrun keqb ops []) /\ aligned s /\ length s = length storage.
Proof.
  intros Hc Hm Hm16 Hw Hok.
  assert (Hl : length (map_init null storage) = length storage) by apply map_length.
  assert (Ha : aligned (map_init null storage)).
  { unfold Unordered_Proofs.aligned. rewrite Hl. split; [exists m; exact Hm|]. split; [lia|exact Hw]. }
  assert (G : forall ops s l, inv2 s l -> aligned s -> mhistory_ok keqb null (length s) bucket_depth (idx s) ops l ->
    exists s', do_mops keqb null hash w ops s = Ok (manswers keqb ops l, s') /\ inv2 s' (mrun keqb ops l) /\ length s' = length s).
  { induction ops0 as [|o os IH]; intros s l I A H; [exists s; auto|]. cbn [mhistory_ok] in H. destruct H as [Ho Hh].
    destruct (do_mop_spec keqb null hash w Hk s l o I A Ho) as (s1 & E1 & L1 & I1).
    assert (A1 : aligned s1) by (unfold Unordered_Proofs.aligned in *; now rewrite L1).
    destruct (IH s1 (mop_step keqb o l) I1 A1) as (s2 & E2 & I2 & L2).
    { replace (length s1) with (length s) by lia. replace (idx s1) with (idx s) by (unfold index; now rewrite L1). exact Hh. }
    exists s2. split; [|split; [exact I2|lia]]. cbn [do_mops]. rewrite E1. cbn [bind]. rewrite E2. reflexivity. }
  destruct (G ops (map_init null storage) []) as (s & E & I & L).
  - apply (init_inv2 keqb null hash w Hk storage Hc).
  - exact Ha.
  - unfold index. rewrite Hl. exact Hok.
  - exists s. split; [exact E|]. split; [exact I|]. split; [|lia]. unfold Unordered_Proofs.aligned in *. rewrite L. exact Ha.
Qed.

Lemma find_at s l k i : inv2 s l -> find_ll keqb null hash w fst spar s k = Ok (Some i) -> mlive s i k.
Proof.
  intros (He & Hr & Hu & Hh & _) H. destruct (keqb k null) eqn:E; [unfold find_ll in H; rewrite E in H; discriminate|].
  destruct (find_spec keqb null hash w fst spar Hk (sparse_empty keqb null) s k He Hr) as [(j & F & L)|[F _]].
  - intros ->. rewrite (proj2 (Hk null null) eq_refl) in E. discriminate.
  - rewrite F in H. injection H as <-. exact L.
  - congruence.
Qed.

(* erase(iterator) *)
Lemma erase_at_main storage ops m k i s : clear_end storage -> length storage = 4 * m -> m <= 16 -> (2 <= w)%N ->
  hok (length storage) ops -> index_of hash w (length storage) k <> 0 ->
  do_mops keqb null hash w ops (map_init null storage) = Ok (manswers keqb ops [], s) ->
  find_ll keqb null hash w fst spar s k = Ok (Some i) ->
  ((forall j c, i < j -> nth_error s j = Some c -> fst c = null) -> map_erase_at keqb null hash w s i = UB) /\
  ((exists j c, i < j /\ nth_error s j = Some c /\ fst c <> null) ->
   exists nx s' y, map_erase_at keqb null hash w s i = Ok (nx, s') /\
     i < nx /\ nth_error s nx = Some y /\ fst y <> null /\ nth_error s' nx = Some y /\
     (forall j c, i < j < nx -> nth_error s j = Some c -> fst c = null) /\
     map_find keqb null hash w s' k = Ok None /\
     forall x, x <> k -> map_find keqb null hash w s' x = map_find keqb null hash w s x).
Proof.
  intros A B C D E F G H. destruct (reached storage ops m A B C D E) as (s0 & G0 & I & Al & Ls). rewrite G in G0. injection G0 as <-.
  pose proof (find_at _ _ _ _ I H) as L. destruct (erase_ll_spec keqb null hash w Hk s _ k i I Al L) as (s' & Es & Ls' & I').
  { unfold index. rewrite Ls. exact F. }
  destruct (erase_frame _ _ _ _ Es) as [_ Fr]. pose proof (live_lt null fst _ _ _ L) as Hil.
  assert (Em : map_erase_at keqb null hash w s i = (nx <- skip_empty keqb null fst (S (length s')) s' (i + 1) ;; Ok (nx, s'))).
  { unfold map_erase_at. destruct L as (c & Hc & Ec & _). rewrite (rd_ok _ _ _ Hc). cbn [bind]. rewrite Ec, Es. reflexivity. }
  rewrite Em. split.
  - intros N. rewrite skip_empty_off; [reflexivity|lia|lia|]. intros j c Hj Hc. apply (empty_true keqb null fst Hk).
    apply (N j c); [lia|]. rewrite <- Fr by lia. exact Hc.
  - intros (j & c & Hj & Hc & Dc).
    destruct (next_or_none keqb null fst s (length s - (i + 1)) (i + 1)) as [(q & y & Q1 & Q2 & Q3 & Q4)|N]; [lia| |].
    + rewrite (skip_empty_to keqb null fst s' q).
      * exists q, s', y. cbn [bind]. split; [reflexivity|]. split; [lia|]. split; [exact Q2|].
        split; [now apply (empty_false keqb null fst Hk)|]. split; [rewrite Fr by lia; exact Q2|].
        split. { intros j' c' Hj' Hc'. apply (empty_true keqb null fst Hk). apply (Q4 j' c'); [lia|exact Hc']. }
        destruct I as (He & Hr & Hu & Hh & _). destruct I' as (He' & Hr' & Hu' & Hh' & _).
        split.
        -- rewrite (map_find_spec keqb null hash w Hk s' _ k He' Hr' Hu' Hh'). rewrite (alookup_remove keqb Hk), (proj2 (Hk k k) eq_refl). reflexivity.
        -- intros x Dx. rewrite (map_find_spec keqb null hash w Hk s' _ x He' Hr' Hu' Hh'), (map_find_spec keqb null hash w Hk s _ x He Hr Hu Hh).
           rewrite (alookup_remove keqb Hk). destruct (keqb k x) eqn:Ex; [|reflexivity]. apply Hk in Ex. congruence.
      * exists y. rewrite Fr by lia. auto.
      * lia.
      * assert (q < length s) by (apply nth_error_Some; congruence). lia.
      * intros j' c' Hj' Hc'. apply (Q4 j' c'); [exact Hj'|]. rewrite <- Fr by lia. exact Hc'.
    + exfalso. apply Dc. apply (empty_true keqb null fst Hk). apply (N j c); [lia|exact Hc].
Qed.

(* bucket_size and count *)
Lemma nodup_map_filter {A B} (f : A -> B) (l : list A) : NoDup l -> (forall x y, In x l -> In y l -> f x = f y -> x = y) -> NoDup (map f l).
Proof.
  induction l as [|a l IH]; intros N H; cbn; [constructor|]. inversion N; subst. constructor.
  - intros I. apply in_map_iff in I. destruct I as (y & E & I). rewrite (H y a) in I; auto; [now right|now left].
  - apply IH; auto. intros x y Ix Iy. apply H; now right.
Qed.
Lemma bucket_size_main s l n : inv2 s l -> n < length s -> bucket_size keqb null hash w fst spar s n = Ok (load_of (idx s) n l).
Proof.
  intros (He & Hr & Hu & Hh & _) Hn. unfold bucket_size.
  rewrite (local_iter_all keqb null hash w fst spar Hk (sparse_empty keqb null)) by assumption. cbn [bind]. f_equal.
  set (key := fun j => match nth_error s j with Some c => fst c | None => null end).
  set (ms := filter (memberb keqb null hash w fst s n) (seq n (length s - n))).
  assert (M : forall j, In j ms <-> member null hash w fst s n j).
  { intros j. unfold ms. rewrite filter_In, (memberb_spec keqb null hash w fst Hk), in_seq. split; [tauto|]. intros M. split; [|exact M].
    destruct M as (k & L & E). destruct (Hr _ _ L) as [Q _]. pose proof (live_lt null fst _ _ _ L). lia. }
  assert (KL : forall j k, mlive s j k -> key j = k) by (intros j k (c & Hc & Ec & _); unfold key; now rewrite Hc).
  unfold load_of. rewrite <- (map_length key ms), <- (map_length fst (filter _ l)).
  apply Permutation_length, NoDup_Permutation.
  - apply nodup_map_filter; [unfold ms; apply NoDup_filter, seq_NoDup|]. intros x y Ix Iy E. apply M in Ix, Iy.
    destruct Ix as (k & L & _), Iy as (k' & L' & _). rewrite (KL _ _ L), (KL _ _ L') in E. subst k'. exact (Hu _ _ _ L L').
  - destruct Hh as [Nd _]. clear - Nd. induction l as [|p l IH]; cbn; [constructor|]. inversion Nd; subst.
    destruct (Nat.eqb _ n); cbn; auto. constructor; auto. intros I. apply H1. apply in_map_iff in I. destruct I as (q & E & I).
    apply filter_In in I. rewrite <- E. apply in_map. tauto.
  - intros x. rewrite !in_map_iff. split.
    + intros (j & E & I). apply M in I. destruct I as (k & L & Ei). rewrite (KL _ _ L) in E. subst k.
      destruct (proj2 (holds_live null s l x Hh)) as (v & I); [now exists j|]. exists (x, v). split; [reflexivity|]. apply filter_In. split; [exact I|].
      cbn. now apply Nat.eqb_eq.
    + intros ((k & v) & E & I). cbn in E. subst k. apply filter_In in I. destruct I as [I B]. cbn in B. apply Nat.eqb_eq in B.
      destruct (proj1 (holds_live null s l x Hh)) as (j & L); [now exists v|]. exists j. split; [exact (KL _ _ L)|]. apply M. now exists x.
Qed.
Lemma count_main s l x : inv2 s l -> count keqb null hash w fst spar s x = Ok (if present keqb x l then 1 else 0).
Proof.
  intros (He & Hr & Hu & Hh & _). unfold count. pose proof He as [H0 _].
  rewrite (local_iter_all keqb null hash w fst spar Hk (sparse_empty keqb null)) by (auto using index_lt). cbn [bind]. f_equal.
  set (n := idx s x). set (f := fun i => match nth_error s i with Some c => keqb x (fst c) | None => false end).
  set (ms := filter (memberb keqb null hash w fst s n) (seq n (length s - n))).
  assert (M : forall j, In j (filter f ms) <-> mlive s j x).
  { intros j. unfold ms. rewrite !filter_In, (memberb_spec keqb null hash w fst Hk), in_seq. split.
    - intros [[_ (k & L & E)] F]. unfold f in F. destruct L as (c & Hc & Ec & D). rewrite Hc in F. apply Hk in F. subst. exists c. auto.
    - intros L. destruct (Hr _ _ L) as [Q _]. pose proof (live_lt null fst _ _ _ L). split.
      + split; [unfold n; lia|]. exists x. auto.
      + unfold f. destruct L as (c & Hc & Ec & _). rewrite Hc, Ec. now apply Hk. }
  assert (Nd : NoDup (filter f ms)) by (unfold ms; apply NoDup_filter, NoDup_filter, seq_NoDup).
  destruct (present keqb x l) eqn:P.
  - destruct (present_live keqb null Hk s l x Hh P) as (i & L).
    assert (Q : Permutation (filter f ms) [i]).
    { apply NoDup_Permutation; [exact Nd|constructor; [intros []|constructor]|]. intros j. rewrite M. cbn. split.
      - intros L'. left. exact (Hu _ _ _ L L').
      - intros [<-|[]]. exact L. }
    apply Permutation_length in Q. exact Q.
  - destruct (filter f ms) as [|j r] eqn:E; [reflexivity|]. exfalso.
    apply (not_present_live keqb null Hk s l x Hh P j). apply M. now left.
Qed.

(* erase_and_gc of the last key of a bucket *)
Lemma erase_gc_last s l k i v : inv2 s l -> aligned s -> nth_error s i = Some (k, v) -> k <> null ->
  (forall j x, mlive s j x -> idx s x = idx s k -> j <= i) ->
  map_erase_and_gc keqb null hash w s i = Ok (upd s i (null, v)) /\ inv2 (upd s i (null, v)) (aremove keqb k l).
Proof.
  intros I Al Hc Dk Last. pose proof I as (He & Hr & Hu & Hh & Hb). pose proof He as [H0 Hs].
  assert (L : mlive s i k) by (exists (k, v); auto). pose proof (live_lt null fst _ _ _ L) as Hil.
  assert (Hil2 : i < length s - 1).
  { assert (i <> length s - 1); [|lia]. intros ->. exact (stop_not_live keqb null fst spar Hk _ _ _ Hs L). }
  split.
  - unfold map_erase_and_gc, erase_and_gc. rewrite (rd_ok _ _ _ Hc). cbn [bind]. rewrite wr_ok by lia. cbn [bind].
    change (set_null null (k, v)) with (null, v). set (s1 := upd s i (null, v)).
    assert (L1 : length s1 = length s) by apply upd_length.
    destruct (rd_lt s1 (i + 1)) as (c & Hc1 & ->); [lia|]. cbn [bind].
    assert (Hcs : nth_error s (i + 1) = Some c) by (unfold s1 in Hc1; rewrite nth_error_upd_neq in Hc1 by lia; exact Hc1).
    destruct (is_empty keqb null fst c) eqn:Ee; [reflexivity|].
    assert (Lc : mlive s (i + 1) (fst c)) by (now apply (live_of keqb null fst Hk)).
    assert (Ix : idx s (fst c) <> i).
    { intros Q. pose proof (Hb _ _ L) as B1. pose proof (Hb _ _ Lc) as B2. destruct (Hr _ _ L) as [R1 _]. destruct (Hr _ _ Lc) as [R2 _].
      unfold bucket_depth in *. assert (E : idx s k = idx s (fst c)) by (apply (same_block hash w s k (fst c) i Al); lia).
      pose proof (Last _ _ Lc ltac:(congruence)). lia. }
    cbn [bucket_last]. rewrite (rd_ok _ _ _ Hc1). cbn [bind].
    assert (Ix1 : idx s1 (fst c) = idx s (fst c)) by (unfold index; now rewrite L1). rewrite Ix1.
    destruct (Nat.eqb_spec i (idx s (fst c))); [congruence|]. cbn [andb bind].
    replace (i + 1 - 1) with i by lia.
    assert (Hi : nth_error s1 i = Some (null, v)) by (apply nth_error_upd_eq; lia).
    rewrite (rd_ok _ _ _ Hi). cbn [bind]. rewrite wr_ok by lia. cbn [bind]. rewrite wr_ok by (rewrite upd_length; lia).
    f_equal. unfold s1. rewrite !upd_upd. reflexivity.
  - apply (inv2_remove keqb null hash w Hk s _ l k i); auto.
    + apply upd_length.
    + intros j Dj _. apply nth_error_upd_neq. lia.
    + intros j x. apply live_null_cell. lia.
    + intros i' j x L' Ex Di Hj Sj. pose proof (Last _ _ L' Ex). destruct Sj as [Sj|Sj]; [|lia].
      apply sparse_upd_neq; [lia|exact Sj].
Qed.

Lemma even_not_sparse v n : N.even v = true -> spar (null, v) n = false.
Proof.
  intros E. unfold is_sparse, marked. cbn [snd]. rewrite N.bit0_odd, <- N.negb_even, E. cbn. now rewrite andb_false_r.
Qed.
Lemma erase_gc_middle storage n kvs i k v j b vb : bucket_keys null (index_of hash w (length storage)) n kvs ->
  n + length kvs <= length storage -> nth_error kvs i = Some (k, v) -> nth_error kvs j = Some (b, vb) -> 0 < i < j ->
  N.even v = true ->
  exists s s', do_mops keqb null hash w (inserts kvs) (map_init null storage) = Ok (repeat true (length kvs), s) /\
    find_ll keqb null hash w fst spar s k = Ok (Some (n + i)) /\ map_find keqb null hash w s b = Ok (Some vb) /\
    map_erase_and_gc keqb null hash w s (n + i) = Ok s' /\ map_find keqb null hash w s' b = Ok None /\ In b (live_keys keqb null s').
Proof.
  intros Hb Hl Ei Ej Hij Ev. destruct (fill keqb null hash w Hk storage n kvs Hb Hl) as (s & Run & Hf).
  pose proof Hf as [Ls _].
  assert (Hlen : j < length kvs) by (apply nth_error_Some; congruence).
  destruct (filled_index null hash w storage n kvs s i k v Hf Hb Ei) as [Dk Ik].
  destruct (filled_index null hash w storage n kvs s j b vb Hf Hb Ej) as [Db Ib].
  pose proof (filled_slot null storage n kvs s i (k, v) Hf Ei) as Si.
  pose proof (filled_slot null storage n kvs s j (b, vb) Hf Ej) as Sj.
  exists s, (upd s (n + i) (null, v)). split.
  { specialize (Run []). rewrite app_nil_r in Run. rewrite Run. cbn [do_mops bind]. now rewrite app_nil_r. }
  split; [exact (filled_find keqb null hash w Hk storage n kvs s i k v Hf Hb Ei)|]. split.
  { unfold map_find. rewrite (filled_find keqb null hash w Hk storage n kvs s j b vb Hf Hb Ej). cbn [bind]. rewrite (rd_ok _ _ _ Sj). reflexivity. }
  destruct (nth_error kvs (i + 1)) as [[c vc]|] eqn:Ec; [|apply nth_error_None in Ec; lia].
  pose proof (filled_slot null storage n kvs s (i + 1) (c, vc) Hf Ec) as Sc. replace (n + (i + 1)) with (n + i + 1) in Sc by lia.
  destruct (filled_index null hash w storage n kvs s (i + 1) c vc Hf Hb Ec) as [Dc Ic].
  set (s1 := upd s (n + i) (null, v)). assert (L1 : length s1 = length s) by apply upd_length.
  assert (Ix : forall x, idx s1 x = idx s x) by (intros x; unfold index; now rewrite L1).
  assert (H1 : nth_error s1 (n + i) = Some (null, v)) by (apply nth_error_upd_eq; lia).
  split; [|split].
  - unfold map_erase_and_gc, erase_and_gc. rewrite (rd_ok _ _ _ Si). cbn [bind]. rewrite wr_ok by lia. cbn [bind].
    change (set_null null (k, v)) with (null, v). fold s1.
    assert (Sc1 : nth_error s1 (n + i + 1) = Some (c, vc)) by (unfold s1; rewrite nth_error_upd_neq by lia; exact Sc).
    rewrite (rd_ok _ _ _ Sc1). cbn [bind].
    rewrite (proj2 (empty_false keqb null fst Hk (c, vc)) Dc). cbn [bucket_last]. rewrite (rd_ok _ _ _ Sc1). cbn [bind fst].
    rewrite Ix, Ic. destruct (Nat.eqb_spec (n + i) n); [lia|]. cbn [andb bind]. replace (n + i + 1 - 1) with (n + i) by lia.
    rewrite (rd_ok _ _ _ H1). cbn [bind]. rewrite wr_ok by lia. cbn [bind]. rewrite wr_ok by (rewrite upd_length; lia).
    f_equal. unfold s1. rewrite !upd_upd. reflexivity.
  - unfold map_find. rewrite (find_stops keqb null hash w fst spar Hk (sparse_empty keqb null) s1 b (n + i)); [reflexivity|exact Db|rewrite Ix; lia| |].
    + rewrite Ix, Ib. intros t Ht. destruct (nth_error kvs (t - n)) as [[y vy]|] eqn:Ey; [|apply nth_error_None in Ey; lia].
      pose proof (filled_slot null storage n kvs s (t - n) (y, vy) Hf Ey) as Sy. replace (n + (t - n)) with t in Sy by lia.
      destruct (filled_index null hash w storage n kvs s (t - n) y vy Hf Hb Ey) as [Dy Iy].
      exists y. split; [|split].
      * exists (y, vy). split; [unfold s1; rewrite nth_error_upd_neq by lia; exact Sy|auto].
      * now rewrite Ix.
      * intros ->. destruct Hb as [Nd _]. pose proof (nodup_other kvs j b vb Nd Ej (t - n) (b, vy) Ey ltac:(lia)) as Q. now apply Q.
    + rewrite Ix, Ib. exists (null, v). split; [exact H1|]. split; [now apply even_not_sparse|]. left. now apply null_cell_empty.
  - apply (live_keys_in keqb null Hk). exists (n + j), (b, vb). split; [unfold s1; rewrite nth_error_upd_neq by lia; exact Sj|auto].
Qed.
End Map.
