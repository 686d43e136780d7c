(* Proofs about the model in Ulife_Model.v. *)
From Coq Require Import Permutation.
From Verif Require Import Base BaseLemmas Unordered_Spec Unordered_Model Unordered_Proofs Ulife_Spec Ulife_Model.
Local Open Scope res_scope.

(* ---- the objects of a list of slots *)
Section Ids.
Context {V : Type}.
Notation ids := (flat_map (fun o : option (nat * V) => match o with Some (id, _) => [id] | None => [] end)).
Lemma ids_new (l : list (option (nat * V))) i a v : nth_error l i = Some None ->
  Permutation (ids (upd l i (Some (a, v)))) (a :: ids l).
Proof.
  revert i. induction l as [|o l IH]; intros [|i] H; try discriminate; cbn in H.
  - injection H as ->. cbn. apply Permutation_refl.
  - cbn [upd flat_map]. etransitivity; [apply Permutation_app_head, (IH i H)|]. symmetry. apply Permutation_middle.
Qed.
Lemma ids_over (l : list (option (nat * V))) i a v b u : nth_error l i = Some (Some (b, u)) ->
  Permutation (b :: ids (upd l i (Some (a, v)))) (a :: ids l).
Proof.
  revert i. induction l as [|o l IH]; intros [|i] H; try discriminate; cbn in H.
  - injection H as ->. cbn. apply perm_swap.
  - cbn [upd flat_map].
    etransitivity; [apply (Permutation_middle (match o with Some (id, _) => [id] | None => [] end))|].
    etransitivity; [apply Permutation_app_head, (IH i H)|]. symmetry. apply Permutation_middle.
Qed.
Lemma ids_kill (l : list (option (nat * V))) i a v : nth_error l i = Some (Some (a, v)) ->
  Permutation (ids l) (a :: ids (upd l i None)).
Proof.
  revert i. induction l as [|o l IH]; intros [|i] H; try discriminate; cbn in H.
  - injection H as ->. cbn. apply Permutation_refl.
  - cbn [upd flat_map]. etransitivity; [apply Permutation_app_head, (IH i H)|]. symmetry. apply Permutation_middle.
Qed.
Lemma ids_assign (l : list (option (nat * V))) i a v u : nth_error l i = Some (Some (a, v)) ->
  ids (upd l i (Some (a, u))) = ids l.
Proof.
  revert i. induction l as [|o l IH]; intros [|i] H; try discriminate; cbn in H.
  - injection H as ->. reflexivity.
  - cbn [upd flat_map]. now rewrite (IH i H).
Qed.
Lemma ids_repeat n : ids (repeat None n) = [].
Proof. induction n as [|n IH]; [reflexivity|exact IH]. Qed.
End Ids.

Lemma nth_error_repeat_lt {A} (a : A) n i : i < n -> nth_error (repeat a n) i = Some a.
Proof. revert i. induction n as [|n IH]; intros [|i] H; try lia; [reflexivity|]. cbn. apply IH. lia. Qed.

Section Ulife.
Context {K V : Type} (keqb : K -> K -> bool) (null : K) (hash : K -> N) (w : N).
Context (bytes dead : V -> N) (kclass : bool).
Hypothesis Hk : forall a b, keqb a b = true <-> a = b.
Notation cell := (K * N)%type.
Notation lmap := (@lmap K V).
Notation idx s := (index hash w s).
Notation mlive := (live null (@fst K N)).
Notation inv2 := (inv2 keqb null hash w).
Notation aligned := (aligned (K := K) w).
Notation dolops := (do_lops keqb null hash w bytes dead kclass).
Notation dolop := (do_lop keqb null hash w bytes dead kclass).
Notation lfind := (l_find (V := V) keqb null hash w).

Definition fb (kv : K * V) : cell := (fst kv, bytes (snd kv)).

(* ---- the contents as keys and bytes *)
Lemma fst_fb l : map fst (map fb l) = map fst l.
Proof. rewrite map_map. reflexivity. Qed.
Lemma alookup_fb k l : alookup keqb k (map fb l) = option_map bytes (alookup keqb k l).
Proof. induction l as [|[x v] l IH]; [reflexivity|]. cbn. destruct (keqb k x); [reflexivity|exact IH]. Qed.
Lemma present_fb k l : present keqb k (map fb l) = present keqb k l.
Proof. unfold present. rewrite alookup_fb. now destruct (alookup keqb k l). Qed.
Lemma aremove_fb k l : aremove keqb k (map fb l) = map fb (aremove keqb k l).
Proof.
  unfold aremove. induction l as [|[x v] l IH]; [reflexivity|]. cbn. destruct (keqb k x); cbn; [exact IH|]. now rewrite IH.
Qed.
Lemma aset_fb k v l : aset keqb k (bytes v) (map fb l) = map fb (aset keqb k v l).
Proof. unfold aset. now rewrite aremove_fb. Qed.
Lemma load_fb ix b l : load_of ix b (map fb l) = load_of ix b l.
Proof.
  unfold load_of. induction l as [|[x v] l IH]; [reflexivity|]. cbn. destruct (Nat.eqb (ix x) b); cbn; [now f_equal|exact IH].
Qed.
Lemma aremove_twice {A} k (l : list (K * A)) : aremove keqb k (aremove keqb k l) = aremove keqb k l.
Proof.
  unfold aremove. induction l as [|[x v] l IH]; [reflexivity|]. cbn. destruct (keqb k x) eqn:E; cbn; [exact IH|]. rewrite E. cbn. now rewrite IH.
Qed.
Lemma aremove_aset {A} k (v : A) l : aremove keqb k (aset keqb k v l) = aremove keqb k l.
Proof.
  unfold aset. cbn [aremove filter fst]. rewrite (proj2 (Hk k k) eq_refl). cbn [negb]. exact (aremove_twice k l).
Qed.
Lemma aremove_absent {A} k (l : list (K * A)) : present keqb k l = false -> aremove keqb k l = l.
Proof.
  intros P. unfold aremove. pose proof (proj1 (present_false keqb Hk k l) P) as Q. clear P.
  induction l as [|[x y] l IH]; [reflexivity|]. cbn. destruct (keqb k x) eqn:E.
  - apply Hk in E. subst. exfalso. apply (Q y). now left.
  - cbn. f_equal. apply IH. intros v I. apply (Q v). now right.
Qed.
Lemma aremove_present {A} k (l : list (K * A)) : NoDup (map fst l) -> present keqb k l = true ->
  S (length (aremove keqb k l)) = length l.
Proof.
  induction l as [|[x y] l IH]; intros N P; [discriminate|]. cbn in N. inversion N as [|? ? N1 N2]; subst.
  unfold present in P. cbn [alookup] in P. cbn [aremove filter fst]. destruct (keqb k x) eqn:E; cbn [negb length].
  - f_equal. change (filter _ l) with (aremove keqb k l). apply Hk in E. subst x.
    rewrite aremove_absent; [reflexivity|]. apply (present_false keqb Hk). intros v I. apply N1. apply (in_map fst) in I. exact I.
  - f_equal. apply (IH N2). exact P.
Qed.

(* ---- what a reached state looks like *)
Record linv (st : lmap) (l : list (K * V)) : Prop := {
  li_tab : inv2 (tab st) (map fb l);
  li_al : aligned (tab st);
  li_len : length (objs st) = length (tab st);
  li_obj : forall i k b, nth_error (tab st) i = Some (k, b) ->
    (k = null -> nth_error (objs st) i = Some None) /\
    (k <> null -> exists id v, nth_error (objs st) i = Some (Some (id, v)) /\ In (k, v) l);
  li_perm : Permutation (seq 0 (made st)) (died st ++ living st);
  li_cnt : made st = length (died st) + length l;
  li_kal : kal st = repeat true (length (tab st));
  li_kd : kdied st = 0
}.

Lemma linv_nodup st l : linv st l -> NoDup (map fst l).
Proof. intros H. destruct (li_tab _ _ H) as (_ & _ & _ & [N _] & _). now rewrite fst_fb in N. Qed.
Lemma linv_pos st l : linv st l -> 0 < length (tab st).
Proof. intros H. destruct (li_tab _ _ H) as ([P _] & _). exact P. Qed.

Lemma linv_init storage m : clear_end storage -> length storage = 4 * m -> m <= 16 -> (2 <= w)%N ->
  linv (l_init null kclass storage) [].
Proof.
  intros Hc Hm H16 Hw. assert (Ln : length (map_init null storage) = length storage) by apply map_length.
  split; cbn [l_init tab objs made died kal kdied].
  - now apply init_inv2.
  - split; [exists m; lia|]. split; [lia|exact Hw].
  - rewrite repeat_length. now symmetry.
  - intros i k b H. unfold map_init in H. rewrite nth_error_map in H. destruct (nth_error storage i) as [c|] eqn:E; [|discriminate].
    cbn in H. injection H as <- <-. split; [|congruence]. intros _. apply nth_error_repeat_lt. apply nth_error_Some. congruence.
  - unfold living, l_init. cbn [objs]. rewrite ids_repeat. constructor.
  - reflexivity.
  - now rewrite Ln.
  - reflexivity.
Qed.

(* ---- find *)
Lemma find_live st l k : linv st l -> present keqb k l = true ->
  exists i b id v, find_ll keqb null hash w fst (is_sparse keqb null) (tab st) k = Ok (Some i) /\
    nth_error (tab st) i = Some (k, b) /\ k <> null /\ nth_error (objs st) i = Some (Some (id, v)) /\
    alookup keqb k l = Some v /\ mlive (tab st) i k.
Proof.
  intros H P. pose proof (li_tab _ _ H) as (He & Hre & Hu & Hh & Hb).
  rewrite <- present_fb in P. destruct (present_live keqb null Hk _ _ k Hh P) as (i & L).
  pose proof (find_found keqb null hash w fst (is_sparse keqb null) Hk (sparse_empty keqb null) (tab st) k i He Hre Hu L) as F.
  pose proof L as ((k' & b) & E & E2 & D). cbn in E2. subst k'.
  destruct (proj2 (li_obj _ _ H i k b E) D) as (id & v & Eo & I).
  exists i, b, id, v. split; [exact F|]. split; [exact E|]. split; [exact D|]. split; [exact Eo|]. split; [|exact L].
  apply (in_alookup keqb Hk); [exact (linv_nodup _ _ H)|exact I].
Qed.
Lemma find_absent st l k : linv st l -> present keqb k l = false ->
  find_ll keqb null hash w fst (is_sparse keqb null) (tab st) k = Ok None.
Proof.
  intros H P. pose proof (li_tab _ _ H) as (He & Hre & Hu & Hh & Hb). rewrite <- present_fb in P.
  exact (find_none keqb null hash w fst (is_sparse keqb null) Hk (sparse_empty keqb null) (tab st) k He Hre
           (not_present_live keqb null Hk _ _ k Hh P)).
Qed.
Lemma l_find_spec st l k : linv st l -> lfind st k = Ok (alookup keqb k l).
Proof.
  intros H. unfold l_find. destruct (present keqb k l) eqn:P.
  - destruct (find_live st l k H P) as (i & b & id & v & -> & _ & _ & Eo & A & _). cbn [bind].
    unfold obj_read. rewrite Eo. cbn [bind]. now rewrite A.
  - rewrite (find_absent st l k H P). cbn [bind]. unfold present in P. destruct (alookup keqb k l); congruence.
Qed.

(* ---- insert *)
Lemma precheck_true (s : list cell) n k : forall fuel it p,
  precheck_loop keqb null hash w fst fuel s n k false it = Ok (Some p, true) ->
  exists c, nth_error s p = Some c /\ fst c = null.
Proof.
  induction fuel as [|f IH]; intros it p H; [discriminate|]. cbn [precheck_loop] in H.
  destruct (rd s it) as [c| |] eqn:E; cbn [bind] in H; try discriminate.
  destruct (is_empty keqb null fst c) eqn:Ee.
  - injection H as <-. exists c. split; [now apply rd_inv|]. unfold is_empty in Ee. now apply Hk.
  - destruct (Nat.eqb it (length s) || negb (Nat.eqb (index hash w s (fst c)) n)); [discriminate|].
    destruct (negb false && keqb k (fst c)); [discriminate|]. exact (IH _ _ H).
Qed.
Definition room (s : list cell) (k : K) (l : list (K * V)) : Prop :=
  load_of (idx s) (idx s k) l < (if Nat.eqb (idx s k + bucket_depth) (length s) then bucket_depth - 1 else bucket_depth).

Lemma l_new st l k : linv st l -> k <> null -> present keqb k l = false -> room (tab st) k l ->
  exists p b, insert_precheck keqb null hash w fst (tab st) k false = Ok (Some p, true) /\
    nth_error (tab st) p = Some (null, b) /\ nth_error (objs st) p = Some None /\ p < length (tab st) /\
    forall v, inv2 (upd (tab st) p (k, v)) (aset keqb k v (map fb l)).
Proof.
  intros H Hn P R. destruct (new_key keqb null hash w Hk (tab st) (map fb l) k (li_tab _ _ H) (li_al _ _ H) Hn) as (p & c & E & Hc & Hp & Hinv).
  - now rewrite present_fb.
  - rewrite load_fb. exact R.
  - assert (C : exists c', nth_error (tab st) p = Some c' /\ fst c' = null).
    { unfold insert_precheck in E. destruct (keqb k null); [discriminate|]. exact (precheck_true _ _ _ _ _ _ E). }
    destruct C as ((k' & b) & Hc' & E'). cbn in E'. subst k'. exists p, b. split; [exact E|]. split; [exact Hc'|].
    split; [exact (proj1 (li_obj _ _ H p null b Hc') eq_refl)|]. split; [exact Hp|exact Hinv].
Qed.

Lemma key_new_same st l p : linv st l -> p < length (tab st) ->
  upd (kal st) p true = kal st.
Proof. intros H Hp. apply upd_same. rewrite (li_kal _ _ H). now apply nth_error_repeat_lt. Qed.

Lemma l_insert_spec st l k v : linv st l -> k <> null -> present keqb k l = false -> room (tab st) k l ->
  exists st', l_insert keqb null hash w bytes kclass st k v = Ok (true, st') /\ linv st' (aset keqb k v l) /\
    length (tab st') = length (tab st) /\ made st' = S (made st) /\ died st' = died st /\
    kmade st' = (if kclass then S (kmade st) else kmade st).
Proof.
  intros H Hn P R. destruct (l_new st l k H Hn P R) as (p & b & E & Ht & Ho & Hp & Hinv).
  unfold l_insert. rewrite E. cbn [bind]. unfold put. rewrite wr_ok by exact Hp. cbn [bind].
  set (st1 := obj_new (with_tab st (upd (tab st) p (k, bytes v))) p v).
  set (st' := key_new kclass st1 p).
  assert (T : tab st' = upd (tab st) p (k, bytes v)) by (unfold st', key_new; destruct kclass; reflexivity).
  assert (O : objs st' = upd (objs st) p (Some (made st, v))) by (unfold st', key_new; destruct kclass; reflexivity).
  assert (M : made st' = S (made st)) by (unfold st', key_new; destruct kclass; reflexivity).
  assert (D : died st' = died st) by (unfold st', key_new; destruct kclass; reflexivity).
  assert (Kd : kdied st' = kdied st) by (unfold st', key_new; destruct kclass; reflexivity).
  assert (Km : kmade st' = (if kclass then S (kmade st) else kmade st)) by (unfold st', key_new; destruct kclass; reflexivity).
  assert (Ka : kal st' = kal st).
  { unfold st', key_new. destruct kclass; [|reflexivity]. cbn [kal]. exact (key_new_same st l p H Hp). }
  exists st'. split; [reflexivity|]. split; [|split; [now rewrite T, upd_length|auto]].
  pose proof (li_len _ _ H) as Ln.
  split.
  - rewrite T, <- aset_fb. apply Hinv.
  - rewrite T. apply aligned_upd, (li_al _ _ H).
  - rewrite T, O, !upd_length. exact Ln.
  - intros i x c Hi. rewrite T in Hi. rewrite O. rewrite nth_error_upd in Hi. rewrite nth_error_upd. rewrite Ln.
    destruct (Nat.eqb_spec p i) as [->|Dp].
    + destruct (Nat.ltb i (length (tab st))) eqn:Lt; [|discriminate]. injection Hi as <- <-. split; [congruence|].
      intros _. exists (made st), v. split; [reflexivity|]. now left.
    + destruct (li_obj _ _ H i x c Hi) as [A B]. split; [exact A|]. intros Dx. destruct (B Dx) as (id & u & Eo & I).
      exists id, u. split; [exact Eo|]. apply (in_aset keqb Hk). right. split; [|exact I]. intros ->.
      exact (proj1 (present_false keqb Hk k l) P u I).
  - rewrite M, D. unfold living. rewrite O. rewrite seq_S. cbn [plus].
    etransitivity; [apply Permutation_app_comm|]. cbn [app].
    etransitivity; [apply perm_skip, (li_perm _ _ H)|].
    etransitivity; [apply Permutation_middle|]. apply Permutation_app_head. symmetry. now apply ids_new.
  - rewrite M, D, (li_cnt _ _ H). unfold aset. rewrite (aremove_absent k l P). cbn [length]. lia.
  - rewrite Ka, T, upd_length. apply (li_kal _ _ H).
  - rewrite Kd. apply (li_kd _ _ H).
Qed.

(* ---- assignment through m[k] *)
Lemma l_store_spec st l k v : linv st l -> present keqb k l = true ->
  exists st', l_store keqb null hash w bytes kclass st k v = Ok st' /\ linv st' (aset keqb k v l) /\
    length (tab st') = length (tab st) /\ made st' = made st /\ died st' = died st /\ kmade st' = kmade st.
Proof.
  intros H P. destruct (find_live st l k H P) as (i & b & id & u & F & Ht & Dk & Eo & A & L).
  unfold l_store, l_at. rewrite F. cbn [bind]. unfold obj_assign. rewrite Eo, Ht. cbn [fst].
  assert (Hil : i < length (tab st)) by (apply nth_error_Some; congruence).
  eexists. split; [reflexivity|]. cbn [tab made died kmade]. split; [|split; [apply upd_length|auto]].
  pose proof (li_len _ _ H) as Ln.
  split; cbn [tab objs made died kal kdied].
  - rewrite <- aset_fb. exact (inv2_assign keqb null hash w Hk _ _ k (bytes v) b i (li_tab _ _ H) Ht Dk).
  - apply aligned_upd, (li_al _ _ H).
  - rewrite !upd_length. exact Ln.
  - intros j x c Hj. rewrite nth_error_upd in Hj. rewrite nth_error_upd. rewrite Ln.
    destruct (Nat.eqb_spec i j) as [->|Dj].
    + destruct (Nat.ltb j (length (tab st))) eqn:Lt; [|discriminate]. injection Hj as <- <-. split; [congruence|].
      intros _. exists id, v. split; [reflexivity|]. now left.
    + destruct (li_obj _ _ H j x c Hj) as [A' B]. split; [exact A'|]. intros Dx. destruct (B Dx) as (id' & u' & Eo' & I).
      exists id', u'. split; [exact Eo'|]. apply (in_aset keqb Hk). right. split; [|exact I]. intros ->.
      apply Dj. destruct (li_tab _ _ H) as (_ & _ & Hu & _). apply (Hu i j k L). exists (k, c). auto.
  - unfold living. cbn [objs]. rewrite (ids_assign _ _ _ _ v Eo). exact (li_perm _ _ H).
  - rewrite (li_cnt _ _ H). unfold aset. cbn [length].
    pose proof (aremove_present k l (linv_nodup _ _ H) P). lia.
  - rewrite upd_length. apply (li_kal _ _ H).
  - apply (li_kd _ _ H).
Qed.

(* ---- erase *)
Lemma erase_ll_key (s : list cell) i n k k' b : i < length s ->
  erase_ll keqb null (upd s i (k, b)) i n = erase_ll keqb null (upd s i (k', b)) i n.
Proof.
  intros H. unfold erase_ll. rewrite (rd_ok (upd s i (k, b)) i (k, b)) by (now apply nth_error_upd_eq).
  rewrite (rd_ok (upd s i (k', b)) i (k', b)) by (now apply nth_error_upd_eq). cbn [bind].
  rewrite !wr_ok by (now rewrite upd_length). cbn [bind]. unfold set_null. cbn [snd]. now rewrite !upd_upd.
Qed.
(* erase_ll nulls the key of its slot and leaves the other keys *)
Lemma map_fst_upd (s : list cell) i c : map fst (upd s i c) = upd (map fst s) i (fst c).
Proof. revert i. induction s as [|d s IH]; intros [|i]; cbn; [reflexivity..|]. now rewrite IH. Qed.
Lemma gc_sparse_keys (s s' : list cell) i : gc_sparse s i = Ok s' -> map fst s' = map fst s.
Proof.
  unfold gc_sparse. destruct (rd s i) as [c| |] eqn:E; cbn [bind]; try discriminate. intros H.
  apply wr_inv in H. destruct H as [Hi ->]. rewrite map_fst_upd. cbn [fst]. apply upd_same.
  apply rd_inv in E. rewrite nth_error_map, E. reflexivity.
Qed.
Lemma prune_keys n : forall p (s s' : list cell), prune_sparse keqb null s n p = Ok s' -> map fst s' = map fst s.
Proof.
  induction p as [|p IH]; intros s s' H; [discriminate|]. cbn [prune_sparse] in H.
  destruct (rd s p) as [c| |] eqn:E; cbn [bind] in H; try discriminate.
  destruct (is_sparse keqb null c n && negb (Nat.eqb (S p) n)).
  - destruct (gc_sparse s p) as [s1| |] eqn:G; cbn [bind] in H; try discriminate.
    rewrite (IH _ _ H). exact (gc_sparse_keys _ _ _ G).
  - injection H as <-. reflexivity.
Qed.
Lemma erase_ll_keys (s s' : list cell) i n : erase_ll keqb null s i n = Ok s' -> map fst s' = upd (map fst s) i null.
Proof.
  unfold erase_ll. destruct (rd s i) as [c| |] eqn:E; cbn [bind]; try discriminate.
  destruct (wr s i (set_null null c)) as [s1| |] eqn:W; cbn [bind]; try discriminate.
  apply wr_inv in W. destruct W as [Hi ->]. set (s1 := upd s i (set_null null c)).
  assert (M : map fst s1 = upd (map fst s) i null) by (unfold s1; now rewrite map_fst_upd).
  destruct (if Nat.eqb (i + 1) (length s1) then Ok true else c' <- rd s1 (i + 1);; Ok (is_null_not_sparse keqb null c')) as [[|]| |];
    cbn [bind]; try discriminate.
  - destruct (gc_sparse s1 i) as [s2| |] eqn:G; cbn [bind]; try discriminate. intros H.
    rewrite (prune_keys _ _ _ _ H), (gc_sparse_keys _ _ _ G). exact M.
  - destruct (rd s1 i) as [c1| |] eqn:R; cbn [bind]; try discriminate. intros H. apply wr_inv in H. destruct H as [_ ->].
    rewrite map_fst_upd. cbn [fst]. apply rd_inv in R. rewrite M.
    assert (fst c1 = null) as ->.
    { unfold s1 in R. rewrite nth_error_upd_eq in R by exact Hi. injection R as <-. reflexivity. }
    apply upd_upd.
Qed.

Lemma l_erase_spec st l k : kclass = false -> linv st l -> present keqb k l = true -> idx (tab st) k <> 0 ->
  exists st' id, l_erase keqb null hash w dead kclass st k = Ok (true, st') /\ linv st' (aremove keqb k l) /\
    length (tab st') = length (tab st) /\ made st' = made st /\ died st' = died st ++ [id] /\ kmade st' = kmade st.
Proof.
  intros Kc H P Hx. destruct (find_live st l k H P) as (i & b & id & u & F & Ht & Dk & Eo & A & L).
  assert (Hil : i < length (tab st)) by (apply nth_error_Some; congruence).
  unfold l_erase. rewrite F. cbn [bind]. unfold l_erase_ll, destruct, key_kill, base_destruct. rewrite Kc. cbn [bind].
  unfold obj_kill at 1. rewrite Eo, Ht. cbn [bind fst]. unfold l_set_null, key_touch. cbn [tab bind].
  rewrite (rd_ok _ i (k, dead u)) by (now apply nth_error_upd_eq). cbn [bind].
  rewrite wr_ok by (now rewrite upd_length). cbn [bind with_tab tab]. unfold set_null. cbn [snd]. rewrite upd_upd.
  rewrite (erase_ll_key (tab st) i _ null k (dead u) Hil).
  set (s1 := upd (tab st) i (k, dead u)).
  assert (I1 : inv2 s1 (aset keqb k (dead u) (map fb l))) by exact (inv2_assign keqb null hash w Hk _ _ k (dead u) b i (li_tab _ _ H) Ht Dk).
  assert (Ix : idx (tab st) k = idx s1 k) by (unfold s1; now rewrite idx_upd).
  rewrite Ix. rewrite Ix in Hx.
  destruct (erase_ll_spec keqb null hash w Hk s1 _ k i I1) as (s' & E & Ln' & I').
  - apply aligned_upd, (li_al _ _ H).
  - exists (k, dead u). split; [now apply nth_error_upd_eq|]. auto.
  - exact Hx.
  - rewrite E. cbn [bind]. rewrite aremove_aset, aremove_fb in I'.
    assert (L1 : length s1 = length (tab st)) by apply upd_length.
    eexists _, id. split; [reflexivity|]. cbn [with_tab tab made died kmade]. split; [|split; [lia|auto]].
    pose proof (li_len _ _ H) as Ln. pose proof (erase_ll_keys _ _ _ _ E) as Ky.
    unfold s1 in Ky. rewrite map_fst_upd, upd_upd in Ky. cbn [fst] in Ky.
    split; cbn [with_tab tab objs made died kal kdied].
    + exact I'.
    + pose proof (li_al _ _ H) as Ha. unfold aligned in *. unfold Unordered_Proofs.aligned in *. rewrite Ln', L1. exact Ha.
    + rewrite upd_length. lia.
    + intros j x c Hj. rewrite nth_error_upd. rewrite Ln.
      assert (Kj : nth_error (upd (map fst (tab st)) i null) j = Some x) by (rewrite <- Ky, nth_error_map, Hj; reflexivity).
      rewrite nth_error_upd, map_length in Kj. destruct (Nat.eqb_spec i j) as [->|Dj].
      * destruct (Nat.ltb j (length (tab st))) eqn:Lt; [|discriminate]. injection Kj as <-. split; [reflexivity|congruence].
      * rewrite nth_error_map in Kj. destruct (nth_error (tab st) j) as [[x' c']|] eqn:Ej; [|discriminate]. cbn in Kj. injection Kj as ->.
        destruct (li_obj _ _ H j x c' Ej) as [A' B]. split; [exact A'|]. intros Dx. destruct (B Dx) as (id' & u' & Eo' & I).
        exists id', u'. split; [exact Eo'|]. apply (in_aremove keqb Hk). split; [|exact I]. intros ->.
        apply Dj. destruct (li_tab _ _ H) as (_ & _ & Hu & _). apply (Hu i j k L). exists (k, c'). auto.
    + unfold living. cbn [objs]. rewrite <- app_assoc. cbn [app].
      etransitivity; [exact (li_perm _ _ H)|]. apply Permutation_app_head. unfold living. now apply (ids_kill _ _ _ u).
    + rewrite (li_cnt _ _ H), app_length. cbn [length]. pose proof (aremove_present k l (linv_nodup _ _ H) P). lia.
    + rewrite (li_kal _ _ H). f_equal. lia.
    + apply (li_kd _ _ H).
Qed.

(* ---- histories *)
Notation mok st := (mop_ok keqb null (length (tab st)) bucket_depth (idx (tab st))).
Notation hok st := (mhistory_ok keqb null (length (tab st)) bucket_depth (idx (tab st))).
Lemma do_lop_spec st l o : linv st l -> mok st o l -> plain_op keqb o l -> kclass = false \/ removing keqb o l = 0 ->
  exists st', dolop o st = Ok (mop_answer keqb o l, st') /\ linv st' (mop_step keqb o l) /\
    length (tab st') = length (tab st) /\ made st' = made st + (if is_adding o then 1 else 0) /\
    length (died st') = length (died st) + removing keqb o l /\
    kmade st' = kmade st + (if kclass && is_adding o then 1 else 0).
Proof.
  intros H Hok Hp Hc. destruct o as [k v|k v|k v|k v|k|k|]; cbn in Hp; try contradiction; cbn [do_lop mop_answer mop_step is_adding removing mop_ok] in *.
  - destruct Hok as (Hn & P & R). destruct (l_insert_spec st l k v H Hn P R) as (st' & -> & I & Ln & M & D & Km).
    exists st'. split; [reflexivity|]. split; [exact I|]. split; [exact Ln|]. split; [lia|]. rewrite D. split; [lia|].
    rewrite Km. destruct kclass; cbn; lia.
  - destruct Hok as (Hn & P & R). destruct (l_insert_spec st l k v H Hn P R) as (st' & -> & I & Ln & M & D & Km).
    exists st'. split; [reflexivity|]. split; [exact I|]. split; [exact Ln|]. split; [lia|]. rewrite D. split; [lia|].
    rewrite Km. destruct kclass; cbn; lia.
  - destruct (l_store_spec st l k v H Hp) as (st' & -> & I & Ln & M & D & Km). cbn [bind].
    exists st'. split; [reflexivity|]. split; [exact I|]. split; [exact Ln|]. split; [lia|]. rewrite D. split; [lia|].
    rewrite andb_false_r. lia.
  - destruct (present keqb k l) eqn:P.
    + destruct Hc as [Hc|Hc]; [|discriminate].
      destruct (l_erase_spec st l k Hc H P (Hok eq_refl)) as (st' & id & -> & I & Ln & M & D & Km).
      exists st'. split; [reflexivity|]. split; [exact I|]. split; [exact Ln|]. split; [lia|].
      rewrite D, app_length. cbn [length]. split; [lia|]. rewrite andb_false_r. lia.
    + unfold l_erase. rewrite (find_absent st l k H P). cbn [bind]. exists st. split; [reflexivity|].
      rewrite (aremove_absent k l P). split; [exact H|]. split; [reflexivity|]. split; [lia|]. split; [lia|]. rewrite andb_false_r. lia.
Qed.
Lemma do_lops_spec : forall ops st l, linv st l -> hok st ops l -> plain_history keqb ops l ->
  kclass = false \/ removed keqb ops l = 0 ->
  exists st', dolops ops st = Ok (manswers keqb ops l, st') /\ linv st' (mrun keqb ops l) /\
    length (tab st') = length (tab st) /\ made st' = made st + added ops /\
    length (died st') = length (died st) + removed keqb ops l /\
    kmade st' = kmade st + (if kclass then added ops else 0).
Proof.
  induction ops as [|o ops IH]; intros st l H Hok Hp Hc.
  - exists st. split; [reflexivity|]. cbn. split; [exact H|]. split; [reflexivity|]. split; [unfold added; cbn; lia|].
    split; [lia|]. unfold added. cbn. destruct kclass; lia.
  - cbn [mhistory_ok plain_history removed] in *. destruct Hok as [Ho Hok]. destruct Hp as [Hp Hps].
    destruct (do_lop_spec st l o H Ho Hp) as (st1 & E1 & I1 & Ln & M & D & Km).
    { destruct Hc as [Hc|Hc]; [now left|right; lia]. }
    destruct (IH st1 (mop_step keqb o l) I1) as (st' & E & I & Ln' & M' & D' & Km').
    + unfold index in *. rewrite Ln. exact Hok.
    + exact Hps.
    + destruct Hc as [Hc|Hc]; [now left|right; lia].
    + cbn [do_lops]. rewrite E1. cbn [bind]. rewrite E. cbn [bind]. exists st'. split; [reflexivity|].
      cbn [mrun]. split; [exact I|]. split; [lia|].
      assert (Ad : added (o :: ops) = (if is_adding o then 1 else 0) + added ops).
      { unfold added. cbn [filter]. destruct (is_adding o); reflexivity. }
      split; [lia|]. split; [lia|]. rewrite Ad. destruct kclass; cbn [andb] in *; lia.
Qed.

Lemma living_length st l : linv st l -> length (living st) = length l.
Proof.
  intros H. pose proof (Permutation_length (li_perm _ _ H)) as P. rewrite seq_length, app_length in P.
  pose proof (li_cnt _ _ H). lia.
Qed.

Definition start_ok (storage : list cell) (ops : list (mop K V)) : Prop :=
  clear_end storage /\ (exists m, length storage = 4 * m /\ m <= 16) /\ (2 <= w)%N /\
  mhistory_ok keqb null (length storage) bucket_depth (index_of hash w (length storage)) ops [] /\
  plain_history keqb ops [].

Lemma reached storage ops : start_ok storage ops -> kclass = false \/ removed keqb ops [] = 0 ->
  exists st, dolops ops (l_init null kclass storage) = Ok (manswers keqb ops [], st) /\ linv st (mrun keqb ops []) /\
    length (tab st) = length storage /\ made st = added ops /\ length (died st) = removed keqb ops [] /\
    kmade st = (if kclass then length storage + added ops else 0).
Proof.
  intros (Hc & (m & Hm & H16) & Hw & Hok & Hp) Kc.
  assert (Ln : length (tab (l_init (V := V) null kclass storage)) = length storage) by apply map_length.
  destruct (do_lops_spec ops (l_init null kclass storage) []) as (st & E & I & L & M & D & Km).
  - now apply (linv_init storage m).
  - unfold index. rewrite Ln. exact Hok.
  - exact Hp.
  - exact Kc.
  - exists st. split; [exact E|]. split; [exact I|]. split; [lia|]. cbn in M, D, Km. split; [exact M|]. split; [exact D|].
    destruct kclass; lia.
Qed.

(* ---- the single calls of C413-C417 *)
Lemma obj_kill_objs (st st' : lmap) i : obj_kill dead st i = Ok st' -> objs st' = upd (objs st) i None.
Proof.
  unfold obj_kill. destruct (nth_error (objs st) i) as [[[id v]|]|]; try discriminate.
  destruct (nth_error (tab st) i) as [c|]; [|discriminate]. intros [= <-]. reflexivity.
Qed.
Lemma destruct_objs (st st' : lmap) i : destruct null dead kclass st i = Ok st' ->
  exists o, nth_error (objs st) i = Some (Some o) /\ objs st' = upd (objs st) i None.
Proof.
  unfold destruct, base_destruct. destruct (key_kill kclass st i) as [st1| |] eqn:Ek; cbn [bind]; try discriminate.
  assert (O1 : objs st1 = objs st).
  { unfold key_kill in Ek. destruct kclass; [|now injection Ek as <-]. destruct (nth_error (kal st) i) as [[|]|]; try discriminate.
    injection Ek as <-. reflexivity. }
  destruct (obj_kill dead st1 i) as [st2| |] eqn:Eo; cbn [bind]; try discriminate.
  unfold l_set_null. destruct (key_touch kclass st2 i); cbn [bind]; try discriminate.
  destruct (rd (tab st2) i) as [c| |]; cbn [bind]; try discriminate.
  destruct (wr (tab st2) i (set_null null c)) as [t| |]; cbn [bind]; try discriminate. intros [= <-]. cbn [with_tab objs].
  pose proof (obj_kill_objs _ _ _ Eo) as O2. rewrite O2, O1. unfold obj_kill in Eo. rewrite O1 in Eo.
  destruct (nth_error (objs st) i) as [[[id v]|]|]; try discriminate. exists (id, v). auto.
Qed.
Lemma no_diverge_rd {A} (l : list A) i : rd l i <> Diverge.
Proof. unfold rd. destruct (nth_error l i); discriminate. Qed.
Lemma no_diverge_wr {A} (l : list A) i x : wr l i x <> Diverge.
Proof. unfold wr. destruct (Nat.ltb i (length l)); discriminate. Qed.
Lemma destruct_total (st : lmap) i : destruct null dead kclass st i <> Diverge.
Proof.
  unfold destruct, base_destruct. destruct (key_kill kclass st i) as [st1| |] eqn:Ek; cbn [bind]; try discriminate.
  2:{ unfold key_kill in Ek. destruct kclass; [|discriminate]. destruct (nth_error (kal st) i) as [[|]|]; discriminate. }
  destruct (obj_kill dead st1 i) as [st2| |] eqn:Eo; cbn [bind]; try discriminate.
  2:{ unfold obj_kill in Eo. destruct (nth_error (objs st1) i) as [[[id v]|]|]; try discriminate. destruct (nth_error (tab st1) i); discriminate. }
  unfold l_set_null. destruct (key_touch kclass st2 i) eqn:Et; cbn [bind]; try discriminate.
  2:{ unfold key_touch in Et. destruct kclass; [|discriminate]. destruct (nth_error (kal st2) i) as [[|]|]; discriminate. }
  destruct (rd (tab st2) i) as [c| |] eqn:E; cbn [bind]; try discriminate; [|exfalso; exact (no_diverge_rd _ _ E)].
  destruct (wr (tab st2) i (set_null null c)) as [t| |] eqn:E2; cbn [bind]; try discriminate. exfalso; exact (no_diverge_wr _ _ _ E2).
Qed.
Lemma clear_from_ub j : forall n i (st : lmap), i <= j < i + n -> nth_error (objs st) j = Some None ->
  clear_from null dead kclass st i n = UB.
Proof.
  induction n as [|n IH]; intros i st Hj Ho; [lia|]. cbn [clear_from].
  destruct (destruct null dead kclass st i) as [st1| |] eqn:E; cbn [bind]; [|reflexivity|exfalso; exact (destruct_total _ _ E)].
  destruct (destruct_objs _ _ _ E) as (o & Eo & O1). assert (i <> j) by (intros ->; congruence).
  apply IH; [lia|]. rewrite O1, nth_error_upd_neq by assumption. exact Ho.
Qed.
Lemma l_clear_ub st l : linv st l -> l_clear null dead kclass st = UB.
Proof.
  intros H. pose proof (li_tab _ _ H) as ([H0 ((k & b) & Hc & Ee & _)] & _).
  unfold l_clear. apply (clear_from_ub (length (tab st) - 1)); [lia|].
  apply (proj1 (li_obj _ _ H _ _ _ Hc)). unfold is_empty in Ee. now apply Hk.
Qed.

(* a new key through m[k] or try_emplace(k) *)
Lemma l_try_emplace0_spec st l k : linv st l -> k <> null -> present keqb k l = false -> room (tab st) k l ->
  exists p st', l_try_emplace0 keqb null hash w kclass st k = Ok (Some p, st') /\ nth_error (objs st') p = Some None /\
    find_ll keqb null hash w fst (is_sparse keqb null) (tab st') k = Ok (Some p) /\ p < length (kal st').
Proof.
  intros H Hn P R. destruct (l_new st l k H Hn P R) as (p & b & E & Ht & Ho & Hp & Hinv).
  unfold l_try_emplace0. rewrite E. cbn [bind].
  assert (Et : key_touch kclass st p = Ok tt).
  { unfold key_touch. destruct kclass; [|reflexivity]. rewrite (li_kal _ _ H), nth_error_repeat_lt by exact Hp. reflexivity. }
  rewrite Et. cbn [bind]. rewrite (rd_ok _ _ _ Ht). cbn [bind snd]. rewrite wr_ok by exact Hp. cbn [bind].
  eexists p, _. split; [reflexivity|]. cbn [with_tab objs tab kal]. split; [exact Ho|]. split.
  - destruct (Hinv b) as (He & Hre & Hu & _). apply find_found; auto.
    + exact (sparse_empty keqb null).
    + exists (k, b). split; [now apply nth_error_upd_eq|]. auto.
  - rewrite (li_kal _ _ H), repeat_length. exact Hp.
Qed.
Lemma l_at_new st l k : linv st l -> k <> null -> present keqb k l = false -> room (tab st) k l ->
  exists p st', l_at keqb null hash w kclass st k = Ok (p, st') /\ l_try_emplace0 keqb null hash w kclass st k = Ok (Some p, st') /\
    nth_error (objs st') p = Some None /\
    find_ll keqb null hash w fst (is_sparse keqb null) (tab st') k = Ok (Some p) /\ p < length (kal st').
Proof.
  intros H Hn P R. destruct (l_try_emplace0_spec st l k H Hn P R) as (p & st' & E & Ho & F & Hp).
  exists p, st'. unfold l_at. rewrite (find_absent st l k H P). cbn [bind]. rewrite E. cbn [bind]. auto.
Qed.

(* insert_or_assign over an element *)
Lemma l_over st l k v : linv st l -> present keqb k l = true ->
  exists st' lost, l_insert_or_assign keqb null hash w bytes kclass st k v = Ok (true, st') /\
    lfind st' k = Ok (Some v) /\ died st' = died st /\ made st' = S (made st) /\ In lost (living st) /\
    Permutation (seq 0 (made st')) (lost :: died st' ++ living st').
Proof.
  intros H P. destruct (find_live st l k H P) as (i & b & id & u & F & Ht & Dk & Eo & A & L).
  assert (Hil : i < length (tab st)) by (apply nth_error_Some; congruence).
  unfold l_insert_or_assign. rewrite F. cbn [bind]. rewrite (rd_ok _ _ _ Ht). cbn [bind fst]. rewrite wr_ok by exact Hil. cbn [bind].
  eexists _, id. split; [reflexivity|]. split; [|split; [reflexivity|split; [reflexivity|split]]].
  - unfold l_find. cbn [obj_new with_tab tab].
    destruct (inv2_assign keqb null hash w Hk _ _ k (bytes v) b i (li_tab _ _ H) Ht Dk) as (He & Hre & Hu & _).
    rewrite (find_found keqb null hash w fst (is_sparse keqb null) Hk (sparse_empty keqb null) _ k i He Hre Hu).
    + cbn [bind]. unfold obj_read. cbn [obj_new with_tab objs]. rewrite nth_error_upd_eq by (rewrite (li_len _ _ H); exact Hil). reflexivity.
    + exists (k, bytes v). split; [now apply nth_error_upd_eq|]. auto.
  - unfold living. apply in_flat_map. exists (Some (id, u)). split; [exact (nth_error_In _ _ Eo)|]. now left.
  - cbn [obj_new with_tab made died]. rewrite seq_S. cbn [plus].
    etransitivity; [apply Permutation_app_comm|]. cbn [app].
    etransitivity; [apply perm_skip, (li_perm _ _ H)|].
    etransitivity; [apply Permutation_middle|]. symmetry.
    etransitivity; [apply Permutation_middle|]. apply Permutation_app_head. unfold living. cbn [obj_new with_tab objs]. now apply (ids_over _ _ _ _ _ u).
Qed.

(* gc_active of an element behind a hole of its bucket *)
Lemma gc_loop_hole (s : list cell) n pos j b : nth_error s j = Some (null, b) -> j < pos -> pos < length s ->
  (forall q c, n <= q < pos -> nth_error s q = Some c -> is_empty keqb null fst c = true -> is_sparse keqb null c n = true) ->
  forall fuel it, n <= it <= j -> j - it < fuel ->
  exists q t c, gc_loop keqb null fuel s n pos it = Ok (q, t) /\ q < pos /\ nth_error s q = Some (null, c).
Proof.
  intros Hj Hjp Hp Hs. induction fuel as [|f IH]; intros it Hit Hf; [lia|]. cbn [gc_loop].
  replace (negb (Nat.eqb it (length s)) && Nat.ltb it pos) with true.
  2:{ symmetry. apply andb_true_intro. split; [apply negb_true_iff, Nat.eqb_neq; lia|apply Nat.ltb_lt; lia]. }
  destruct (rd_lt s it) as (c & Hc & ->); [lia|]. cbn [bind].
  destruct (is_empty keqb null fst c) eqn:Ee.
  - pose proof (Hs it c ltac:(lia) Hc Ee) as Sp. unfold is_sparse in Sp. apply andb_prop in Sp. destruct Sp as [Sp Sb].
    rewrite Sb. cbn [negb]. rewrite andb_false_r.
    destruct (rd_lt s pos Hp) as (a & Ha & ->). cbn [bind]. rewrite wr_ok by lia. cbn [bind]. rewrite wr_ok by (rewrite upd_length; lia). cbn [bind].
    destruct c as [k c]. unfold is_empty in Ee. apply Hk in Ee. cbn in Ee. subst k. exists it, (upd (upd s it a) pos (null, c)), c.
    split; [reflexivity|]. split; [lia|exact Hc].
  - assert (it <> j). { intros ->. rewrite Hj in Hc. injection Hc as <-. unfold is_empty in Ee. cbn in Ee. rewrite (proj2 (Hk null null) eq_refl) in Ee. discriminate. }
    apply IH; lia.
Qed.
Lemma l_gc_ub st l k i j b : linv st l ->
  find_ll keqb null hash w fst (is_sparse keqb null) (tab st) k = Ok (Some i) ->
  idx (tab st) k <= j < i -> nth_error (tab st) j = Some (null, b) ->
  dolop (MGc k) st = UB.
Proof.
  intros H F Hj Hb. cbn [do_lop]. rewrite F. cbn [bind].
  assert (P : present keqb k l = true).
  { destruct (present keqb k l) eqn:P; [reflexivity|]. rewrite (find_absent st l k H P) in F. discriminate. }
  destruct (find_live st l k H P) as (i' & b' & id & u & F' & Ht & Dk & Eo & A & L).
  rewrite F in F'. injection F' as <-. unfold l_gc_active, gc_active.
  assert (Hil : i < length (tab st)) by (apply nth_error_Some; congruence).
  rewrite (rd_ok _ _ _ Ht). cbn [bind fst].
  pose proof (li_tab _ _ H) as (He & Hre & Hu & Hh & Hbl). destruct (Hre _ _ L) as [_ B].
  destruct (gc_loop_hole (tab st) (idx (tab st) k) i j b Hb) with (fuel := S (length (tab st))) (it := idx (tab st) k)
    as (q & t & c & -> & Hq & Hc); try lia.
  - intros q c Hq Hc Ee. destruct (B q ltac:(lia)) as [(k' & (c' & Hc' & E1 & D1) & _)|(c' & Hc' & Sp)].
    + rewrite Hc in Hc'. injection Hc' as <-. unfold is_empty in Ee. apply Hk in Ee. congruence.
    + rewrite Hc in Hc'. injection Hc' as <-. exact Sp.
  - cbn [bind]. destruct (Nat.eqb_spec q i); [lia|]. unfold obj_swap.
    rewrite (proj1 (li_obj _ _ H _ _ _ Hc) eq_refl). reflexivity.
Qed.
(* erase_and_gc of an element with another right behind it *)
Lemma bucket_last_total (s : list cell) n : forall fuel pos, length s - pos < fuel ->
  bucket_last hash w fst fuel s n pos <> Diverge.
Proof.
  induction fuel as [|f IH]; intros pos Hf; [lia|]. cbn [bucket_last].
  destruct (rd s pos) as [c| |] eqn:E; cbn [bind]; try discriminate; [|exfalso; exact (no_diverge_rd _ _ E)].
  destruct (Nat.eqb n (index hash w s (fst c)) && Nat.ltb pos (length s)) eqn:C; [|discriminate].
  apply andb_prop in C. destruct C as [_ C]. apply Nat.ltb_lt in C. apply IH. lia.
Qed.
Lemma l_erase_and_gc_ub st l i k b k2 b2 : linv st l -> nth_error (tab st) i = Some (k, b) -> k <> null ->
  nth_error (tab st) (i + 1) = Some (k2, b2) -> k2 <> null ->
  l_erase_and_gc keqb null hash w dead kclass st i = UB.
Proof.
  intros H Ht Dk Ht2 Dk2. assert (Hil : i < length (tab st)) by (apply nth_error_Some; congruence).
  destruct (proj2 (li_obj _ _ H i k b Ht) Dk) as (id & v & Eo & _).
  unfold l_erase_and_gc, base_destruct. unfold obj_kill at 1. rewrite Eo, Ht. cbn [bind fst].
  unfold l_set_null.
  match goal with |- context[key_touch kclass ?s i] => assert (Et : key_touch kclass s i = Ok tt) end.
  { unfold key_touch. destruct kclass; [|reflexivity]. cbn [kal]. rewrite (li_kal _ _ H), nth_error_repeat_lt by exact Hil. reflexivity. }
  rewrite Et. cbn [bind tab]. rewrite (rd_ok _ i (k, dead v)) by (now apply nth_error_upd_eq). cbn [bind].
  rewrite wr_ok by (now rewrite upd_length). cbn [bind with_tab tab].
  rewrite upd_upd. rewrite (rd_ok _ (i + 1) (k2, b2)) by (rewrite nth_error_upd_neq by lia; exact Ht2). cbn [bind].
  unfold is_empty at 1. cbn [fst]. destruct (keqb k2 null) eqn:E; [apply Hk in E; contradiction|].
  match goal with |- bind (bucket_last hash w fst ?f ?s ?n ?p) _ = _ => pose proof (bucket_last_total s n f p ltac:(lia)) as Bt;
    destruct (bucket_last hash w fst f s n p) as [e| |] end; cbn [bind]; [|reflexivity|contradiction].
  unfold obj_swap at 1. cbn [with_tab objs]. rewrite (nth_error_upd_eq (objs st) i) by (rewrite (li_len _ _ H); exact Hil).
  destruct (nth_error (upd (objs st) i None) (e - 1)) as [[o|]|]; reflexivity.
Qed.
(* gc_active of an element without a hole before it in its bucket *)
Lemma gc_loop_full (s : list cell) n pos : pos < length s ->
  (forall q, n <= q < pos -> exists k c, nth_error s q = Some (k, c) /\ k <> null) ->
  forall fuel it, n <= it <= pos -> pos - it < fuel -> gc_loop keqb null fuel s n pos it = Ok (pos, s).
Proof.
  intros Hp Hs. induction fuel as [|f IH]; intros it Hit Hf; [lia|]. cbn [gc_loop].
  destruct (Nat.ltb_spec it pos) as [L|L]; [|rewrite andb_false_r; reflexivity].
  replace (Nat.eqb it (length s)) with false by (symmetry; apply Nat.eqb_neq; lia). cbn [negb andb].
  destruct (Hs it ltac:(lia)) as (k & c & Hc & D). rewrite (rd_ok _ _ _ Hc). cbn [bind].
  unfold is_empty. cbn [fst]. destruct (keqb k null) eqn:E; [apply Hk in E; contradiction|]. apply IH; lia.
Qed.
Lemma l_gc_still st l k i : linv st l ->
  find_ll keqb null hash w fst (is_sparse keqb null) (tab st) k = Ok (Some i) ->
  (forall j, idx (tab st) k <= j < i -> exists k' b, nth_error (tab st) j = Some (k', b) /\ k' <> null) ->
  dolop (MGc k) st = Ok (true, st).
Proof.
  intros H F Hj. cbn [do_lop]. rewrite F. cbn [bind].
  assert (P : present keqb k l = true).
  { destruct (present keqb k l) eqn:P; [reflexivity|]. rewrite (find_absent st l k H P) in F. discriminate. }
  destruct (find_live st l k H P) as (i' & b' & id & u & F' & Ht & Dk & Eo & A & L).
  rewrite F in F'. injection F' as <-. unfold l_gc_active, gc_active.
  assert (Hil : i < length (tab st)) by (apply nth_error_Some; congruence).
  rewrite (rd_ok _ _ _ Ht). cbn [bind fst].
  pose proof (li_tab _ _ H) as (He & Hre & Hu & Hh & Hbl). destruct (Hre _ _ L) as [B0 _].
  rewrite (gc_loop_full (tab st) (idx (tab st) k) i Hil Hj) by lia. cbn [bind]. rewrite Nat.eqb_refl. reflexivity.
Qed.
(* erase_and_gc of an element with a free slot right behind it *)
Lemma l_erase_and_gc_last st l i k b b2 : linv st l -> nth_error (tab st) i = Some (k, b) -> k <> null ->
  nth_error (tab st) (i + 1) = Some (null, b2) ->
  exists st' id v, nth_error (objs st) i = Some (Some (id, v)) /\
    l_erase_and_gc keqb null hash w dead kclass st i = Ok st' /\ made st' = made st /\ died st' = died st ++ [id] /\
    objs st' = upd (objs st) i None /\ tab st' = upd (tab st) i (null, dead v).
Proof.
  intros H Ht Dk Ht2. assert (Hil : i < length (tab st)) by (apply nth_error_Some; congruence).
  destruct (proj2 (li_obj _ _ H i k b Ht) Dk) as (id & v & Eo & _).
  unfold l_erase_and_gc, base_destruct. unfold obj_kill at 1. rewrite Eo, Ht. cbn [bind fst].
  unfold l_set_null.
  match goal with |- context[key_touch kclass ?s i] => assert (Et : key_touch kclass s i = Ok tt) end.
  { unfold key_touch. destruct kclass; [|reflexivity]. cbn [kal]. rewrite (li_kal _ _ H), nth_error_repeat_lt by exact Hil. reflexivity. }
  rewrite Et. cbn [bind tab]. rewrite (rd_ok _ i (k, dead v)) by (now apply nth_error_upd_eq). cbn [bind].
  rewrite wr_ok by (now rewrite upd_length). cbn [bind with_tab tab].
  rewrite upd_upd. rewrite (rd_ok _ (i + 1) (null, b2)) by (rewrite nth_error_upd_neq by lia; exact Ht2). cbn [bind].
  unfold is_empty at 1. cbn [fst]. rewrite (proj2 (Hk null null) eq_refl).
  eexists; exists id, v. split; [reflexivity|]. split; [reflexivity|]. repeat split; reflexivity.
Qed.
(* erase with keys of class type *)
Lemma l_erase_key_ub st l k : kclass = true -> linv st l -> present keqb k l = true ->
  l_erase keqb null hash w dead kclass st k = UB.
Proof.
  intros Kc H P. destruct (find_live st l k H P) as (i & b & id & u & F & Ht & Dk & Eo & A & L).
  assert (Hil : i < length (tab st)) by (apply nth_error_Some; congruence).
  unfold l_erase. rewrite F. cbn [bind]. unfold l_erase_ll, destruct, key_kill, base_destruct. rewrite Kc.
  rewrite (li_kal _ _ H), nth_error_repeat_lt by exact Hil. cbn [bind].
  unfold obj_kill at 1. cbn [objs tab]. rewrite Eo, Ht. cbn [bind]. unfold l_set_null, key_touch. cbn [kal].
  rewrite nth_error_upd_eq by (now rewrite repeat_length). reflexivity.
Qed.
End Ulife.

(* ================= the theorems ================= *)
Section Main.
Context {K V : Type} (keqb : K -> K -> bool) (null : K) (hash : K -> N) (w : N).
Hypothesis Hk : forall a b, keqb a b = true <-> a = b.
Context (bytes dead : V -> N).
Variables (storage : list (K * N)) (ops : list (mop K V)) (m : nat).
Hypothesis Hc : clear_end storage.
Hypothesis Hm : length storage = 4 * m.
Hypothesis H16 : m <= 16.
Hypothesis Hw : (2 <= w)%N.
Hypothesis Hok : mhistory_ok keqb null (length storage) bucket_depth (index_of hash w (length storage)) ops [].
Hypothesis Hp : plain_history keqb ops [].

Lemma start : start_ok keqb null hash w storage ops.
Proof. split; [exact Hc|]. split; [exists m; auto|]. auto. Qed.

Lemma C412_main : exists st, do_lops keqb null hash w bytes dead false ops (l_init null false storage) = Ok (manswers keqb ops [], st) /\
  (forall k, l_find keqb null hash w st k = Ok (alookup keqb k (mrun keqb ops []))) /\
  Permutation (seq 0 (made st)) (died st ++ living st) /\
  made st = added ops /\ length (died st) = removed keqb ops [] /\ length (living st) = length (mrun keqb ops []).
Proof.
  destruct (reached keqb null hash w bytes dead false Hk storage ops start (or_introl eq_refl)) as (st & E & I & _ & M & D & _).
  exists st. split; [exact E|]. split; [|split; [|split; [exact M|split; [exact D|]]]].
  - intros k. exact (l_find_spec keqb null hash w bytes Hk st _ k I).
  - exact (li_perm _ _ _ _ _ _ _ I).
  - exact (living_length _ _ _ _ _ _ _ I).
Qed.

Lemma C413_clear : exists st, do_lops keqb null hash w bytes dead false ops (l_init null false storage) = Ok (manswers keqb ops [], st) /\
  l_clear null dead false st = UB.
Proof.
  destruct (reached keqb null hash w bytes dead false Hk storage ops start (or_introl eq_refl)) as (st & E & I & _).
  exists st. split; [exact E|]. exact (l_clear_ub keqb null hash w bytes dead false Hk st _ I).
Qed.
Lemma C413_end : exists st st', do_lops keqb null hash w bytes dead false ops (l_init null false storage) = Ok (manswers keqb ops [], st) /\
  l_end false st = Ok st' /\ made st' = length (died st') + length (mrun keqb ops []).
Proof.
  destruct (reached keqb null hash w bytes dead false Hk storage ops start (or_introl eq_refl)) as (st & E & I & _).
  exists st, st. split; [exact E|]. split; [reflexivity|]. exact (li_cnt _ _ _ _ _ _ _ I).
Qed.
Notation roomy k := (load_of (index_of hash w (length storage)) (index_of hash w (length storage) k) (mrun keqb ops []) <
  (if Nat.eqb (index_of hash w (length storage) k + bucket_depth) (length storage) then bucket_depth - 1 else bucket_depth)).
Lemma C414_new k : k <> null -> present keqb k (mrun keqb ops []) = false -> roomy k ->
  exists st, do_lops keqb null hash w bytes dead false ops (l_init null false storage) = Ok (manswers keqb ops [], st) /\
    l_load keqb null hash w false st k = UB /\ (forall v, l_store keqb null hash w bytes false st k v = UB) /\
    exists p st', l_try_emplace0 keqb null hash w false st k = Ok (Some p, st') /\
      l_find keqb null hash w st' k = UB /\ l_erase keqb null hash w dead false st' k = UB.
Proof.
  intros Hn P R. destruct (reached keqb null hash w bytes dead false Hk storage ops start (or_introl eq_refl)) as (st & E & I & Ln & _).
  exists st. split; [exact E|].
  destruct (l_at_new keqb null hash w bytes false Hk st _ k I Hn P) as (p & st' & Ea & Et & Ho & F & Hp').
  { unfold room, index. rewrite Ln. exact R. }
  split; [|split].
  - unfold l_load. rewrite Ea. cbn [bind]. unfold obj_read. now rewrite Ho.
  - intros v. unfold l_store. rewrite Ea. cbn [bind]. unfold obj_assign. now rewrite Ho.
  - exists p, st'. split; [exact Et|]. split.
    + unfold l_find. rewrite F. cbn [bind]. unfold obj_read. now rewrite Ho.
    + unfold l_erase. rewrite F. cbn [bind]. unfold l_erase_ll, destruct, key_kill, base_destruct. cbn [bind].
      unfold obj_kill. now rewrite Ho.
Qed.
Lemma C415_over k v : present keqb k (mrun keqb ops []) = true ->
  exists st st' lost, do_lops keqb null hash w bytes dead false ops (l_init null false storage) = Ok (manswers keqb ops [], st) /\
    In lost (living st) /\ l_insert_or_assign keqb null hash w bytes false st k v = Ok (true, st') /\
    l_find keqb null hash w st' k = Ok (Some v) /\ Permutation (seq 0 (made st')) (lost :: died st' ++ living st').
Proof.
  intros P. destruct (reached keqb null hash w bytes dead false Hk storage ops start (or_introl eq_refl)) as (st & E & I & _).
  destruct (l_over keqb null hash w bytes false Hk st _ k v I P) as (st' & lost & Eo & F & _ & _ & In' & Pm).
  exists st, st', lost. auto.
Qed.
Lemma C416_gc : exists st, do_lops keqb null hash w bytes dead false ops (l_init null false storage) = Ok (manswers keqb ops [], st) /\
  forall k i j b, find_ll keqb null hash w fst (is_sparse keqb null) (tab st) k = Ok (Some i) ->
    index hash w (tab st) k <= j < i -> nth_error (tab st) j = Some (null, b) ->
    do_lop keqb null hash w bytes dead false (MGc k) st = UB.
Proof.
  destruct (reached keqb null hash w bytes dead false Hk storage ops start (or_introl eq_refl)) as (st & E & I & _).
  exists st. split; [exact E|]. intros k i j b. exact (l_gc_ub keqb null hash w bytes dead false Hk st _ k i j b I).
Qed.
Lemma C416_erase : exists st, do_lops keqb null hash w bytes dead false ops (l_init null false storage) = Ok (manswers keqb ops [], st) /\
  forall i k b k2 b2, nth_error (tab st) i = Some (k, b) -> k <> null ->
    nth_error (tab st) (i + 1) = Some (k2, b2) -> k2 <> null ->
    l_erase_and_gc keqb null hash w dead false st i = UB.
Proof.
  destruct (reached keqb null hash w bytes dead false Hk storage ops start (or_introl eq_refl)) as (st & E & I & _).
  exists st. split; [exact E|]. intros i k b k2 b2. exact (l_erase_and_gc_ub keqb null hash w bytes dead false Hk st _ i k b k2 b2 I).
Qed.
Lemma C482_gc : exists st, do_lops keqb null hash w bytes dead false ops (l_init null false storage) = Ok (manswers keqb ops [], st) /\
  forall k i, find_ll keqb null hash w fst (is_sparse keqb null) (tab st) k = Ok (Some i) ->
    (forall j, index hash w (tab st) k <= j < i -> exists k' b, nth_error (tab st) j = Some (k', b) /\ k' <> null) ->
    do_lop keqb null hash w bytes dead false (MGc k) st = Ok (true, st).
Proof.
  destruct (reached keqb null hash w bytes dead false Hk storage ops start (or_introl eq_refl)) as (st & E & I & _).
  exists st. split; [exact E|]. intros k i. exact (l_gc_still keqb null hash w bytes dead false Hk st _ k i I).
Qed.
Lemma C482_erase : exists st, do_lops keqb null hash w bytes dead false ops (l_init null false storage) = Ok (manswers keqb ops [], st) /\
  forall i k b b2, nth_error (tab st) i = Some (k, b) -> k <> null -> nth_error (tab st) (i + 1) = Some (null, b2) ->
    exists st' id v, nth_error (objs st) i = Some (Some (id, v)) /\
      l_erase_and_gc keqb null hash w dead false st i = Ok st' /\ made st' = made st /\ died st' = died st ++ [id] /\
      objs st' = upd (objs st) i None /\ tab st' = upd (tab st) i (null, dead v).
Proof.
  destruct (reached keqb null hash w bytes dead false Hk storage ops start (or_introl eq_refl)) as (st & E & I & _).
  exists st. split; [exact E|]. intros i k b b2. exact (l_erase_and_gc_last keqb null hash w bytes dead false Hk st _ i k b b2 I).
Qed.
Lemma C417_lost : removed keqb ops [] = 0 ->
  exists st st', do_lops keqb null hash w bytes dead true ops (l_init null true storage) = Ok (manswers keqb ops [], st) /\
    l_end true st = Ok st' /\ kmade st' = kdied st' + added ops.
Proof.
  intros R. destruct (reached keqb null hash w bytes dead true Hk storage ops start (or_intror R)) as (st & E & I & Ln & _ & _ & Km).
  pose proof (li_kal _ _ _ _ _ _ _ I) as Ka. pose proof (li_kd _ _ _ _ _ _ _ I) as Kd. cbn [andb] in Km.
  exists st. unfold l_end. rewrite Ka.
  assert (F : forall n, forallb (fun b => b) (repeat true n) = true) by (induction n; auto). rewrite F.
  eexists. split; [exact E|]. split; [reflexivity|]. cbn [kmade kdied]. rewrite repeat_length. lia.
Qed.
Lemma C417_erase k : removed keqb ops [] = 0 -> present keqb k (mrun keqb ops []) = true ->
  exists st, do_lops keqb null hash w bytes dead true ops (l_init null true storage) = Ok (manswers keqb ops [], st) /\
    l_erase keqb null hash w dead true st k = UB.
Proof.
  intros R P. destruct (reached keqb null hash w bytes dead true Hk storage ops start (or_intror R)) as (st & E & I & _).
  exists st. split; [exact E|]. exact (l_erase_key_ub keqb null hash w bytes dead true Hk st _ k eq_refl I P).
Qed.
End Main.
