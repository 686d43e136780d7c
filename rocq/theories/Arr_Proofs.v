From Verif Require Import Base BaseLemmas SliceLemmas Dyn_Spec Dyn_Model Dyn_View Dyn_Proofs Itr_Proofs Arr_Spec Arr_Model.
Local Open Scope res_scope.

Lemma put_upd {A} (l : list A) i a : i < length l -> put l i a = upd l i a.
Proof. intros H. unfold put. now rewrite upd_at. Qed.
Lemma map_upd {A B} (f : A -> B) l i a : map f (upd l i a) = upd (map f l) i (f a).
Proof. revert i; induction l; intros [|i]; simpl; auto; now rewrite IHl. Qed.
Lemma load_some {A} (l : list A) i a : nth_error l i = Some a -> load (map Some l) i = Ok a.
Proof. intros H. unfold load. rewrite (rd_ok _ i (Some a)); [reflexivity|]. now rewrite nth_error_map, H. Qed.
Lemma skipn_nth {A} (l : list A) i a : nth_error l i = Some a -> skipn i l = a :: skipn (S i) l.
Proof.
  revert i; induction l; intros [|i] H; cbn [nth_error] in H; try discriminate.
  - now injection H as ->.
  - cbn [skipn]. now apply IHl.
Qed.
Lemma obind_inv {B C} (m : option B) (f : B -> option C) c : obind m f = Some c -> exists b, m = Some b /\ f b = Some c.
Proof. destruct m; simpl; [eauto|discriminate]. Qed.
Lemma guard_inv b : guard b = Some tt -> b = true.
Proof. destruct b; [auto|discriminate]. Qed.

Section Arrays.
Context {A : Type} (eqA : A -> A -> bool) (len : nat -> nat).

Lemma copy_list_ok : forall l (a b : list (option A)), length l <= length b ->
  copy_list (a ++ b) (length a) l = Ok (a ++ map Some l ++ skipn (length l) b).
Proof.
  induction l as [|x l IH]; intros a b H; [reflexivity|]. destruct b as [|y b]; [simpl in H; lia|].
  simpl copy_list. rewrite wr_ok by (rewrite app_length; simpl; lia). cbn [bind].
  rewrite upd_app_r by lia. rewrite Nat.sub_diag. cbn [upd].
  replace (a ++ Some x :: b) with ((a ++ [Some x]) ++ b) by now rewrite <- app_assoc.
  replace (S (length a)) with (length (a ++ [Some x])) by (rewrite app_length; simpl; lia).
  rewrite IH by (simpl in H; lia). now rewrite <- app_assoc.
Qed.
Lemma array_init_short n (l : list A) : length l <= n -> array_init n l = Ok (map Some l ++ repeat None (n - length l)).
Proof.
  intros H. unfold array_init.
  pose proof (copy_list_ok l [] (repeat None n)) as C. cbn [app length] in C. rewrite C by now rewrite repeat_length. do 2 f_equal. clear -H. revert n H. induction l; intros n H; simpl; [now rewrite Nat.sub_0_r|].
  destruct n; simpl in *; [lia|]. apply IHl. lia.
Qed.
Lemma copy_list_long : forall l (m : list (option A)) i, i + length l > length m -> i <= length m -> copy_list m i l = UB.
Proof.
  induction l as [|x l IH]; intros m i H H'; simpl in *; [lia|]. unfold wr.
  destruct (Nat.ltb_spec i (length m)); cbn [bind]; [|reflexivity]. apply IH; rewrite upd_length; lia.
Qed.
Lemma fill_n_ok a : forall n (p m : list (option A)), length m = n -> fill_n (p ++ m) (length p) n a = Ok (p ++ repeat (Some a) n).
Proof.
  induction n; intros p m H; [destruct m; [reflexivity|discriminate]|]. destruct m as [|y m]; [discriminate|].
  simpl fill_n. rewrite wr_ok by (rewrite app_length; simpl; lia). cbn [bind].
  rewrite upd_app_r by lia. rewrite Nat.sub_diag. cbn [upd].
  replace (p ++ Some a :: m) with ((p ++ [Some a]) ++ m) by now rewrite <- app_assoc.
  replace (S (length p)) with (length (p ++ [Some a])) by (rewrite app_length; simpl; lia).
  rewrite IHn by (simpl in H; lia). now rewrite <- app_assoc.
Qed.
Lemma sweep_ok : forall n (l : list A) i, i + n <= length l -> sweep (map Some l) i n = Ok (firstn n (skipn i l)).
Proof.
  induction n; intros l i H; [reflexivity|]. simpl sweep.
  destruct (nth_error l i) as [a|] eqn:E; [|apply nth_error_None in E; lia].
  rewrite (load_some _ _ _ E). cbn [bind]. rewrite IHn by lia. cbn [bind].
  apply nth_error_split in E. destruct E as (l1 & l2 & -> & <-).
  rewrite skipn_past. rewrite skipn_app, skipn_all, Nat.sub_diag. reflexivity.
Qed.
Lemma equal_loop_ok : forall n l r i, i + n = length l -> i + n = length r ->
  equal_loop eqA (map Some l) (map Some r) i n = Ok (same eqA (skipn i l) (skipn i r)).
Proof.
  induction n; intros l r i Hl Hr.
  - rewrite !skipn_all2 by lia. reflexivity.
  - simpl equal_loop.
    destruct (nth_error l i) as [a|] eqn:E; [|apply nth_error_None in E; lia].
    destruct (nth_error r i) as [b|] eqn:F; [|apply nth_error_None in F; lia].
    rewrite (load_some _ _ _ E), (load_some _ _ _ F). cbn [bind].
    rewrite (skipn_nth _ _ _ E), (skipn_nth _ _ _ F). cbn [same].
    destruct (eqA a b); cbn [negb andb]; [|reflexivity]. apply IHn; lia.
Qed.
Lemma same_len l r : length l <> length r -> same eqA l r = false.
Proof. revert r; induction l; destruct r; simpl; intros; auto; try lia. rewrite IHl by lia. apply Bool.andb_false_r. Qed.

Record rel (s : ast) (i : aideal A) : Prop := Rel {
  r_len : forall x, length (mem s x) = len x;
  r_val : forall x l, arrs i x = Some l -> mem s x = map Some l;
  r_win : forall w, win s w = wins i w;
  r_fit : forall w x n, wins i w = Some (x, n) -> n <= len x }.

Lemma rel_with s i x l : rel s i -> length l = len x -> rel (with_mem s x (map Some l)) (with_arr i x l).
Proof.
  intros [L V W F] H. split; cbn [mem win arrs wins with_mem with_arr]; auto.
  - intros y. unfold set. destruct (Nat.eqb_spec y x); subst; auto. now rewrite map_length.
  - intros y l'. unfold set. destruct (Nat.eqb_spec y x); subst; auto. now intros [= <-].
Qed.
Lemma rel_length s i x l : rel s i -> arrs i x = Some l -> length l = len x.
Proof. intros R H. rewrite <- (r_len _ _ R), (r_val _ _ R _ _ H). now rewrite map_length. Qed.
Lemma rel_put s i x l k a : rel s i -> arrs i x = Some l -> k < length l ->
  wr (mem s x) k (Some a) = Ok (map Some (put l k a)) /\ rel (with_mem s x (map Some (put l k a))) (with_arr i x (put l k a)).
Proof.
  intros R E H. rewrite (r_val _ _ R _ _ E). rewrite wr_ok by now rewrite map_length.
  rewrite put_upd by auto. rewrite map_upd. split; auto. rewrite <- map_upd. apply rel_with; auto.
  rewrite upd_length. now apply (rel_length _ _ _ _ R).
Qed.
Lemma window_inv s i w x n l : rel s i -> window i w = Some (x, n, l) ->
  the_win s w = Ok (x, n) /\ arrs i x = Some l /\ n <= length l.
Proof.
  intros R. unfold window. destruct (wins i w) as [[x' n']|] eqn:E; [|discriminate]. intros H.
  apply obind_inv in H. destruct H as (l' & El & [= <- <- <-]).
  unfold the_win. rewrite (r_win _ _ R), E. rewrite (rel_length _ _ _ _ R El). repeat split; auto. eapply r_fit; eauto.
Qed.
Ltac inv H := apply obind_inv in H; let b := fresh "b" in let E := fresh "E" in destruct H as (b & E & H).
Ltac done := eexists; split; [reflexivity|]; auto.

Lemma astep_ok s i o b i' : rel s i -> aideal_step eqA len i o = Some (b, i') ->
  exists s', astep eqA len s o = Ok (b, s') /\ rel s' i'.
Proof.
  intros R H. destruct o; cbn [aideal_step astep] in *.
  - inv H. destruct b0. apply guard_inv, Nat.eqb_eq in E. injection H as <- <-.
    rewrite array_init_short by lia. replace (len x - length l) with 0 by lia. cbn [repeat bind]. rewrite app_nil_r.
    done. now apply rel_with.
  - inv H. destruct b0. apply guard_inv in E. rewrite E. apply Nat.eqb_eq in E. inv H. injection H as <- <-.
    rewrite (r_val _ _ R _ _ E0). done. apply rel_with; auto. rewrite E. now apply (rel_length _ _ _ _ R).
  - injection H as <- <-. pose proof (fill_n_ok a (len x) [] (mem s x) (r_len _ _ R _)) as C. cbn [app length] in C. rewrite C. cbn [bind].
    done. replace (repeat (Some a) (len x)) with (map Some (repeat a (len x))).
    + apply rel_with; auto. apply repeat_length.
    + generalize (len x). induction n; simpl; congruence.
  - inv H. inv H. destruct b1. apply guard_inv, Nat.ltb_lt in E0. injection H as <- <-.
    destruct (rel_put _ _ _ _ i0 a R E E0) as (-> & R'). done.
  - inv H. inv H. injection H as <- <-. rewrite (r_val _ _ R _ _ E), (load_some _ _ _ E0). done.
  - inv H. inv H. injection H as <- <-. rewrite (r_val _ _ R _ _ E), (load_some _ _ _ E0). done.
  - injection H as <- <-. done.
  - inv H. injection H as <- <-. rewrite (r_val _ _ R _ _ E). rewrite <- (rel_length _ _ _ _ R E).
    rewrite sweep_ok by lia. cbn [skipn]. rewrite firstn_all. done.
  - inv H. inv H. injection H as <- <-. rewrite (r_val _ _ R _ _ E), (r_val _ _ R _ _ E0).
    rewrite <- (rel_length _ _ _ _ R E), <- (rel_length _ _ _ _ R E0). unfold array_eq.
    destruct (Nat.eqb_spec (length b0) (length b1)).
    + rewrite equal_loop_ok by auto. cbn [skipn]. done.
    + rewrite same_len by auto. done.
  - inv H. inv H. injection H as <- <-. rewrite (r_val _ _ R _ _ E), (r_val _ _ R _ _ E0).
    rewrite <- (rel_length _ _ _ _ R E), <- (rel_length _ _ _ _ R E0). unfold array_ne.
    destruct (Nat.eqb_spec (length b0) (length b1)).
    + rewrite equal_loop_ok by auto. cbn [skipn bind]. done.
    + rewrite same_len by auto. done.
  - inv H. destruct b0. apply guard_inv, Nat.leb_le in E. injection H as <- <-. done. destruct R as [L V W F].
    split; auto; cbn [win wins]; unfold set; intros w'; destruct (Nat.eqb_spec w' w); subst; auto.
    + intros ? ? [= <- <-]. auto.
    + apply F.
  - inv H. destruct b0 as [[x n] l]. inv H. destruct b0. apply guard_inv, Nat.ltb_lt in E0. injection H as <- <-.
    destruct (window_inv _ _ _ _ _ _ R E) as (-> & Ex & Hn). cbn [bind].
    destruct (rel_put _ _ _ _ i0 a R Ex) as (-> & R'); [lia|]. done.
  - inv H. destruct b0 as [[x n] l]. inv H. destruct b0. inv H. injection H as <- <-.
    destruct (window_inv _ _ _ _ _ _ R E) as (-> & Ex & Hn). cbn [bind].
    rewrite (r_val _ _ R _ _ Ex), (load_some _ _ _ E1). done.
  - inv H. destruct b0 as [[x n] l]. injection H as <- <-.
    destruct (window_inv _ _ _ _ _ _ R E) as (-> & Ex & Hn). cbn [bind].
    rewrite (r_val _ _ R _ _ Ex), sweep_ok by lia. done.
  - inv H. destruct b0 as [[x n] l]. inv H. destruct b0. inv H. injection H as <- <-.
    destruct (window_inv _ _ _ _ _ _ R E) as (-> & Ex & Hn). cbn [bind].
    rewrite (r_val _ _ R _ _ Ex), (load_some _ _ _ E1). done.
  - inv H. destruct b0 as [x n]. injection H as <- <-. unfold the_win. rewrite (r_win _ _ R), E. done.
Qed.
Lemma arun_ok : forall os s i b i', rel s i -> aideal_run eqA len i os = Some (b, i') ->
  exists s', arun eqA len s os = Ok (b, s') /\ rel s' i'.
Proof.
  induction os as [|o os IH]; intros s i b i' R H; simpl in *.
  - injection H as <- <-. done.
  - destruct (aideal_step eqA len i o) as [[b1 i1]|] eqn:E; [|discriminate].
    destruct (aideal_run eqA len i1 os) as [[b2 i2]|] eqn:F; [|discriminate]. injection H as <- <-.
    destruct (astep_ok _ _ _ _ _ R E) as (s1 & -> & R1). cbn [bind].
    destruct (IH _ _ _ _ R1 F) as (s2 & -> & R2). cbn [bind]. done.
Qed.
Lemma astart_rel : rel (astart len) no_arrays.
Proof. split; cbn; auto; try discriminate. intros. apply repeat_length. Qed.

(* an initializer list of another length *)
Lemma array_short_read n (l : list A) m i : array_init n l = Ok m -> length l <= i -> load m i = UB.
Proof.
  intros H Hi. assert (length l <= n) as L.
  { destruct (Nat.le_gt_cases (length l) n); auto. unfold array_init in H.
    rewrite copy_list_long in H by (rewrite repeat_length; lia). discriminate. }
  rewrite array_init_short in H by auto. injection H as <-. unfold load, rd.
  rewrite nth_error_app2 by (rewrite map_length; lia).
  destruct (nth_error (repeat None (n - length l)) _) eqn:E; [|reflexivity].
  apply nth_error_In, repeat_spec in E. now subst.
Qed.
End Arrays.

(* ---------- maps ---------- *)
Section Maps.
Context {K V : Type} (eqK : K -> K -> bool).
Implicit Types (l : list (K * V)).

Lemma find_ok : forall t (done_ : list (K * V)) k,
  (exists i p v, find_from eqK (map Some (done_ ++ t)) (length done_) (length t) k = Ok (Some i) /\
     nth_error (done_ ++ t) i = Some (p, v) /\ first eqK t k = Some v /\
     (forall u, done_ ++ store eqK t k u = upd (done_ ++ t) i (p, u))) \/
  (find_from eqK (map Some (done_ ++ t)) (length done_) (length t) k = Ok None /\ first eqK t k = None /\
   forall u, store eqK t k u = t).
Proof.
  induction t as [|[k1 v1] t IH]; intros d k; [right; cbn; auto|].
  cbn [length find_from first store].
  rewrite (load_some _ _ (k1, v1)) by apply nth_mid. cbn [bind].
  destruct (eqK k1 k) eqn:E.
  - left. exists (length d), k1, v1. rewrite nth_mid. repeat split; auto.
    intros u. rewrite upd_app_r by lia. rewrite Nat.sub_diag. reflexivity.
  - replace (d ++ (k1, v1) :: t) with ((d ++ [(k1, v1)]) ++ t) by now rewrite <- app_assoc.
    replace (S (length d)) with (length (d ++ [(k1, v1)])) by (rewrite app_length; simpl; lia).
    destruct (IH (d ++ [(k1, v1)]) k) as [(i & p & v & F & G & H & U)|(F & H & U)]; [left|right].
    + exists i, p, v. repeat split; auto. intros u. rewrite <- U. now rewrite <- app_assoc.
    + repeat split; auto. intros u. now rewrite U.
Qed.
Lemma index_ok l k :
  (exists i p v, index eqK (map Some l) k = Ok (Some i) /\ nth_error l i = Some (p, v) /\ first eqK l k = Some v /\
     (forall u, store eqK l k u = upd l i (p, u))) \/
  (index eqK (map Some l) k = Ok None /\ first eqK l k = None /\ forall u, store eqK l k u = l).
Proof. unfold index. rewrite map_length. exact (find_ok l [] k). Qed.

Definition shows (s : mst) (i : mideal K V) : Prop := m_own s = map Some (own i) /\ m_buf s = map Some (buffer i).
Lemma shows_of s i y : shows s i -> m_of s y = map Some (pairs i y).
Proof. intros [? ?]. destruct y; auto. Qed.
Lemma shows_with s i y l : shows s i -> shows (m_with s y (map Some l)) (with_pairs i y l).
Proof. intros [? ?]. destruct y; split; auto. Qed.
Lemma with_same (i : mideal K V) y : with_pairs i y (pairs i y) = i.
Proof. destruct i, y; reflexivity. Qed.
Lemma upd_lt {B} (l : list B) i b : nth_error l i = Some b -> i < length l.
Proof. intros H. apply nth_error_Some. congruence. Qed.

Lemma mstep_ok s i o n : shows s i -> length (buffer i) = n -> inside n o ->
  exists s', mstep eqK s o = Ok (fst (mideal_step eqK i o), s') /\ shows s' (snd (mideal_step eqK i o)) /\
    length (buffer (snd (mideal_step eqK i o))) = n.
Proof.
  intros R L I. destruct o as [y k|y k v|j k v]; cbn [mstep mideal_step fst snd].
  - rewrite (shows_of _ _ y R). destruct (index_ok (pairs i y) k) as [(j & p & w & -> & N & -> & U)|(-> & -> & U)]; cbn [bind].
    + rewrite (load_some _ _ _ N). eexists; split; [reflexivity|]. auto.
    + eexists; split; [reflexivity|]. auto.
  - rewrite (shows_of _ _ y R). destruct (index_ok (pairs i y) k) as [(j & p & w & -> & N & -> & U)|(-> & -> & U)]; cbn [bind].
    + rewrite (load_some _ _ _ N). cbn [bind]. rewrite wr_ok by (rewrite map_length; eapply upd_lt; eauto). cbn [bind].
      rewrite U. rewrite <- map_upd. eexists; split; [reflexivity|]. split; [now apply shows_with|].
      destruct y; cbn [pairs with_pairs buffer] in *; auto; now rewrite upd_length.
    + rewrite U, with_same. eexists; split; [reflexivity|]. auto.
  - cbn [inside] in I. destruct R as [R1 R2]. rewrite R2, wr_ok by (rewrite map_length; lia). cbn [bind].
    destruct (Nat.ltb_spec j (length (buffer i))); [|lia]. rewrite put_upd by lia. rewrite <- map_upd.
    eexists; split; [reflexivity|]. split; [split; auto|]. cbn [buffer]. now rewrite upd_length.
Qed.
Lemma mrun_ok n : forall os s i, shows s i -> length (buffer i) = n -> Forall (inside n) os ->
  exists s', mrun eqK s os = Ok (fst (mideal_run eqK i os), s') /\ shows s' (snd (mideal_run eqK i os)).
Proof.
  induction os as [|o os IH]; intros s i R L F; cbn [mrun mideal_run].
  - eexists; split; [reflexivity|]. auto.
  - inversion F as [|? ? F1 F2]; subst. destruct (mstep_ok s i o _ R eq_refl F1) as (s1 & E & R1 & L1). rewrite E. cbn [bind].
    destruct (mideal_step eqK i o) as [b i1]. cbn [fst snd] in *.
    destruct (IH s1 i1 R1 L1 F2) as (s2 & E2 & R2). rewrite E2. cbn [bind].
    destruct (mideal_run eqK i1 os) as [bs i2]. cbn [fst snd] in *. eexists; split; [reflexivity|]. auto.
Qed.

(* a map whose initializer list is short: an absent key is looked for beyond the list *)
Lemma find_past : forall n (m : list (option (K * V))) i k, i < length m ->
  (forall j p v, i <= j -> nth_error m j = Some (Some (p, v)) -> eqK p k = false) ->
  (exists j, i <= j < i + n /\ nth_error m j = Some None) -> find_from eqK m i n k = UB.
Proof.
  induction n; intros m i k L D (j & Hj & N); [lia|]. cbn [find_from]. unfold load.
  destruct (rd_lt m i L) as (c & Nc & ->). cbn [bind]. destruct c as [[p v]|]; [|reflexivity]. cbn [bind].
  rewrite (D i p v) by auto. assert (j < length m) by (eapply upd_lt; eauto).
  assert (j <> i) by (intros ->; congruence). apply IHn; try lia.
  - intros j' p' v' Hj'. apply D. lia.
  - exists j. split; auto. lia.
Qed.
Lemma map_short n (l : list (K * V)) k s : length l < n -> (forall p v, In (p, v) l -> eqK p k = false) ->
  map_init n l = Ok s -> mstep eqK s (MGet L1 k) = UB.
Proof.
  intros L D. unfold map_init. rewrite array_init_short by lia. intros [= <-]. cbn [mstep m_of m_own].
  assert (index eqK (map Some l ++ repeat None (n - length l)) k = UB) as ->; [|reflexivity].
  unfold index. apply find_past.
  - rewrite app_length, map_length, repeat_length. lia.
  - intros j p v _ N. apply nth_error_In, in_app_or in N. destruct N as [N|N].
    + apply in_map_iff in N. destruct N as (x & [= ->] & N). eauto.
    + apply repeat_spec in N. discriminate.
  - exists (length l). rewrite app_length, map_length, repeat_length. split; [lia|].
    rewrite nth_error_app2 by (rewrite map_length; lia). rewrite map_length, Nat.sub_diag.
    destruct (n - length l) eqn:E; [lia|reflexivity].
Qed.
Lemma map_exact n (l : list (K * V)) : length l = n -> map_init n l = Ok (MSt (map Some l) []).
Proof. intros <-. unfold map_init. rewrite array_init_short by lia. rewrite Nat.sub_diag, app_nil_r. reflexivity. Qed.
End Maps.

(* ---------- stack ---------- *)
Section Stack.
Context {A : Type} (c : cfg A).
Context (Ex : kind c = Explicit).

Lemma tlen0 : tlen c = 0.
Proof. unfold tlen, term. now rewrite Ex. Qed.
Lemma nz_all (l : list A) : Forall (nz c) l.
Proof. apply Forall_forall. intros x _. unfold nz. now rewrite Ex. Qed.
Lemma sstep_ok v l o b l' cap : holds c v (rev l) -> length (buf v) = cap -> sideal_step cap l o = Some (b, l') ->
  exists v', sstep c v o = vret (b, v') /\ holds c v' (rev l') /\ length (buf v') = cap.
Proof.
  intros H L E. pose proof (holds_looks _ _ _ H) as LL.
  assert (forall a t, l = a :: t -> rev l = rev t ++ [a]) as HR by (intros; subst; reflexivity).
  destruct o; cbn [sideal_step sstep] in *.
  - destruct (Nat.ltb_spec (length l) cap); [|discriminate]. injection E as <- <-. unfold push_back.
    destruct (append_ok c v (rev l) [a] H) as (v' & Ea & H' & L'); [rewrite rev_length, tlen0; simpl; lia|apply nz_all|].
    cbn [length] in Ea. rewrite Ea.
    cbn [vbind vret bind]. exists v'. rewrite L'. auto.
  - destruct l as [|a t]; [discriminate|]. injection E as <- <-. cbn [rev] in H.
    destruct (pop_ok _ _ _ _ H) as (v' & -> & H' & L'). exists v'. rewrite L'. auto.
  - destruct l as [|a t]; [discriminate|]. injection E as <- <-. rewrite (ll_back _ _ _ LL a (rev t)) by reflexivity.
    exists v. auto.
  - destruct l as [|a' t]; [discriminate|]. injection E as <- <-. rewrite (ll_size _ _ _ LL). cbn [lift vbind vret bind].
    assert (length (rev (a' :: t)) = S (length t)) as LR by (rewrite rev_length; reflexivity).
    pose proof (h_bound _ _ _ H) as B. pose proof (shape_len _ _ _ (h_shape _ _ _ H)) as SL.
    rewrite sub_ok by lia. rewrite LR. replace (S (length t) - 1) with (length t) by lia.
    destruct (holds_wr c v (rev (a' :: t)) (length t) a H) as (Em & Hm); [lia|apply nz_all|].
    rewrite Em. cbn [lift vbind vret bind]. eexists; split; [reflexivity|]. split; [|cbn [buf]; now rewrite upd_length].
    replace (rev (a :: t)) with (firstn (length t) (rev (a' :: t)) ++ a :: skipn (S (length t)) (rev (a' :: t))); auto.
    cbn [rev]. rewrite <- (rev_length t) at 1. rewrite firstn_app_exact by auto. f_equal. f_equal.
    apply skipn_all2. rewrite app_length, rev_length. simpl. lia.
  - injection E as <- <-. rewrite (ll_size _ _ _ LL). rewrite rev_length. exists v. auto.
  - injection E as <- <-. rewrite (ll_empty _ _ _ LL). exists v. split; auto. destruct l; cbn; auto.
    destruct (rev l); reflexivity.
  - injection E as <- <-. rewrite (ll_iter _ _ _ LL). exists v. auto.
Qed.
Lemma srun_ok cap : forall os v l b l', holds c v (rev l) -> length (buf v) = cap -> sideal_run cap l os = Some (b, l') ->
  exists v', srun c v os = vret (b, v') /\ looks_like c v' (rev l').
Proof.
  induction os as [|o os IH]; intros v l b l' H L E; cbn [srun sideal_run] in *.
  - injection E as <- <-. exists v. split; auto. now apply holds_looks.
  - destruct (sideal_step cap l o) as [[b1 l1]|] eqn:E1; [|discriminate].
    destruct (sideal_run cap l1 os) as [[b2 l2]|] eqn:E2; [|discriminate]. injection E as <- <-.
    destruct (sstep_ok _ _ _ _ _ _ H L E1) as (v1 & -> & H1 & L1). cbn [vbind vret bind].
    destruct (IH _ _ _ _ H1 L1 E2) as (v2 & -> & H2). cbn [vbind vret bind]. eauto.
Qed.
Lemma srun_top cap v l os b l' a : holds c v (rev l) -> length (buf v) = cap -> sideal_run cap l os = Some (b, a :: l') ->
  exists v', srun c v os = vret (b, v') /\ sstep c v' STop = vret ([SVal a], v') /\ const_top c v' = UB.
Proof.
  intros H L E. destruct (srun_ok _ _ _ _ _ _ H L E) as (v' & Er & LL). exists v'. split; auto.
  cbn [sstep]. unfold const_top. rewrite (ll_back _ _ _ LL a (rev l')) by reflexivity. split; reflexivity.
Qed.
End Stack.
