From Verif Require Import Base BaseLemmas Lnk_Spec Lnk_Model.

(* ---- segments: following f from p visits l and ends at q *)
Fixpoint lseg (f : nat -> ptr) (p : ptr) (l : list nat) (q : ptr) : Prop :=
  match l with
  | [] => p = q
  | a :: t => p = Some a /\ lseg f (f a) t q
  end.

Lemma at_eq A (f : nat -> A) a x : at_ f a x a = x.
Proof. unfold at_. now rewrite Nat.eqb_refl. Qed.
Lemma at_neq A (f : nat -> A) a x b : b <> a -> at_ f a x b = f b.
Proof. unfold at_. intros H. now apply Nat.eqb_neq in H as ->. Qed.

Lemma lseg_app f p l1 l2 q : lseg f p (l1 ++ l2) q <-> exists r, lseg f p l1 r /\ lseg f r l2 q.
Proof.
  revert p. induction l1 as [|a l1 IH]; intros p; cbn.
  - split; [intros H; exists p; auto|intros (r & -> & H); exact H].
  - split.
    + intros [-> H]. apply IH in H. destruct H as (r & H1 & H2). exists r. auto.
    + intros (r & [-> H1] & H2). split; [reflexivity|]. apply IH. eauto.
Qed.

Lemma lseg_ext f g p l q : (forall a, In a l -> f a = g a) -> lseg f p l q -> lseg g p l q.
Proof.
  revert p. induction l as [|a l IH]; intros p E H; [exact H|]. destruct H as [-> H]. split; [reflexivity|].
  rewrite <- E by now left. apply IH; [|exact H]. intros b K. apply E. now right.
Qed.

Lemma lseg_at f p l q a x : ~ In a l -> lseg f p l q -> lseg (at_ f a x) p l q.
Proof.
  intros Nin. apply lseg_ext. intros b K. symmetry. apply at_neq. intros ->. auto.
Qed.

Lemma lseg_hd f p l : lseg f p l None -> p = hd_error l.
Proof. destruct l; cbn; [auto|tauto]. Qed.

(* ---- the ideal operations, at a split *)
Lemma put_after_split i a u v : ~ In i u -> put_after i a (u ++ i :: v) = u ++ i :: a :: v.
Proof.
  induction u as [|x u IH]; intros Nin; cbn.
  - now rewrite Nat.eqb_refl.
  - destruct (Nat.eqb_spec x i) as [->|]; [exfalso; apply Nin; now left|].
    rewrite IH; [reflexivity|]. intros K. apply Nin. now right.
Qed.
Lemma put_before_split i a u v : ~ In i u -> put_before i a (u ++ i :: v) = u ++ a :: i :: v.
Proof.
  induction u as [|x u IH]; intros Nin; cbn.
  - now rewrite Nat.eqb_refl.
  - destruct (Nat.eqb_spec x i) as [->|]; [exfalso; apply Nin; now left|].
    rewrite IH; [reflexivity|]. intros K. apply Nin. now right.
Qed.
Lemma drop_after_split i u x v : ~ In i u -> drop_after i (u ++ i :: x :: v) = u ++ i :: v.
Proof.
  induction u as [|y u IH]; intros Nin; cbn.
  - now rewrite Nat.eqb_refl.
  - destruct (Nat.eqb_spec y i) as [->|]; [exfalso; apply Nin; now left|].
    rewrite IH; [reflexivity|]. intros K. apply Nin. now right.
Qed.

Lemma nodup_mid (u v : list nat) i : NoDup (u ++ i :: v) -> ~ In i u /\ ~ In i v /\ NoDup (u ++ v).
Proof.
  intros D. pose proof (NoDup_remove_2 _ _ _ D) as K. pose proof (NoDup_remove_1 _ _ _ D) as D'.
  repeat split; auto; intros J; apply K; apply in_or_app; auto.
Qed.

Lemma nodup_ins (u v : list nat) a : NoDup (u ++ v) -> ~ In a (u ++ v) -> NoDup (u ++ a :: v).
Proof. intros D N. apply NoDup_Add with (a := a) (l := u ++ v); [apply Add_app|auto]. Qed.

(* ---- reading and writing *)
Lemma deref_ok m a : is_freed m a = false -> deref m (Some a) = Ok a.
Proof. intros H. cbn. now rewrite H. Qed.
Lemma next_ok m a : is_freed m a = false -> next m (Some a) = Ok (nxt m a).
Proof. intros H. unfold next. now rewrite deref_ok. Qed.
Lemma prev_ok m a : is_freed m a = false -> prev m (Some a) = Ok (prv m a).
Proof. intros H. unfold prev. now rewrite deref_ok. Qed.
Lemma set_next_ok m a x : is_freed m a = false -> set_next m (Some a) x = Ok (Mem (at_ (nxt m) a x) (prv m) (freed m)).
Proof. intros H. unfold set_next. now rewrite deref_ok. Qed.
Lemma set_prev_ok m a x : is_freed m a = false -> set_prev m (Some a) x = Ok (Mem (nxt m) (at_ (prv m) a x) (freed m)).
Proof. intros H. unfold set_prev. now rewrite deref_ok. Qed.

Lemma peq_refl p : peq p p = true.
Proof. destruct p; cbn; [apply Nat.eqb_refl|reflexivity]. Qed.
Lemma peq_spec p q : peq p q = true <-> p = q.
Proof.
  destruct p as [a|], q as [b|]; cbn; split; intros H; try discriminate; try reflexivity.
  - apply Nat.eqb_eq in H. now subst.
  - injection H as ->. apply Nat.eqb_refl.
Qed.

(* the list l: no node of it given back *)
Record lst (m : mem) (front : ptr) (l : list nat) : Prop := {
  l_seg : lseg (nxt m) front l None;
  l_nd : NoDup l;
  l_ok : forall a, In a l -> is_freed m a = false }.

Lemma walk_ok m p l fuel : lseg (nxt m) p l None -> (forall a, In a l -> is_freed m a = false) ->
  length l <= fuel -> walk fuel m p = Ok l.
Proof.
  revert p fuel. induction l as [|a l IH]; intros p fuel C F L.
  - cbn in C. subst. now destruct fuel.
  - destruct C as [-> C]. destruct fuel as [|fuel]; [cbn in L; lia|]. cbn [walk].
    rewrite next_ok by (apply F; now left). cbn [bind]. rewrite IH; [reflexivity|exact C| |cbn in L; lia].
    intros b K. apply F. now right.
Qed.

(* ---- one forward step, for both list kinds *)
Lemma push_seg m front l a : lst m front l -> ~ In a l -> is_freed m a = false ->
  lst (Mem (at_ (nxt m) a front) (prv m) (freed m)) (Some a) (a :: l).
Proof.
  intros [C D F] N Fa. split; cbn.
  - split; [reflexivity|]. rewrite at_eq. now apply lseg_at.
  - now constructor.
  - intros b [<-|K]; [exact Fa|now apply F].
Qed.

Lemma insert_seg m front u i v a : lst m front (u ++ i :: v) -> ~ In a (u ++ i :: v) -> is_freed m a = false ->
  lst (Mem (at_ (at_ (nxt m) i (Some a)) a (nxt m i)) (prv m) (freed m)) front (u ++ i :: a :: v).
Proof.
  intros [C D F] N Fa. pose proof (nodup_mid _ _ _ D) as (Nu & Nv & D').
  assert (~ In a u) as Na by (intros K; apply N; apply in_or_app; auto).
  assert (~ In a v) as Na' by (intros K; apply N; apply in_or_app; cbn; auto).
  assert (a <> i) as Ne by (intros ->; apply N; apply in_or_app; cbn; auto).
  split; cbn.
  - apply lseg_app in C. destruct C as (r & C1 & C2). cbn in C2. destruct C2 as [-> C2].
    apply lseg_app. exists (Some i). split; [now apply lseg_at, lseg_at|]. cbn. split; [reflexivity|].
    rewrite at_neq by congruence. rewrite at_eq. split; [reflexivity|]. rewrite at_eq. now apply lseg_at, lseg_at.
  - assert (NoDup ((u ++ [i]) ++ a :: v)) as K; [|now rewrite <- app_assoc in K].
    apply nodup_ins; rewrite <- app_assoc; assumption.
  - intros b K. apply in_app_iff in K. cbn in K. destruct K as [K|[<-|[<-|K]]]; try exact Fa; apply F;
      apply in_or_app; cbn; auto.
Qed.

Lemma erase_seg m front u i x v : lst m front (u ++ i :: x :: v) ->
  nxt m i = Some x /\
  lst (Mem (at_ (nxt m) i (nxt m x)) (prv m) (freed m)) front (u ++ i :: v).
Proof.
  intros [C D F]. pose proof (nodup_mid _ _ _ D) as (Nu & Nv & D').
  apply lseg_app in C. destruct C as (r & C1 & C2). cbn in C2. destruct C2 as (-> & E & C2).
  split; [exact E|]. split; cbn.
  - apply lseg_app. exists (Some i). split; [now apply lseg_at|]. cbn. split; [reflexivity|]. rewrite at_eq.
    apply lseg_at; [|exact C2]. intros K. apply Nv. now right.
  - assert (NoDup ((u ++ [i]) ++ x :: v)) as K by (now rewrite <- app_assoc). apply nodup_mid in K.
    destruct K as (_ & _ & K). now rewrite <- app_assoc in K.
  - intros b K. apply F. apply in_app_iff in K. apply in_or_app. cbn in *. tauto.
Qed.

Lemma pop_seg m a l : lst m (Some a) (a :: l) -> lst m (nxt m a) l.
Proof.
  intros [[_ C] D F]. inversion D; subst. split; [exact C|assumption|]. intros b K. apply F. now right.
Qed.

Lemma in_lst_next m front l i : lst m front l -> In i l -> next m (Some i) = Ok (nxt m i).
Proof. intros [_ _ F] K. apply next_ok, F, K. Qed.

(* ---- internal/list/intrusive_forward.h *)
Lemma nobody m a : nobody_freed m -> is_freed m a = false.
Proof. unfold nobody_freed, is_freed. now intros ->. Qed.

Lemma if_step_ok m front l op : nobody_freed m -> lst m front l -> fits1 op l ->
  exists m' front', if_step (m, front) op = Ok (m', front') /\ nobody_freed m' /\ lst m' front' (seq1 op l).
Proof.
  intros Nf C F. pose proof (fun a => nobody m a Nf) as Fr. destruct op as [a| |i a|i|i a|]; cbn in F |- *.
  - rewrite set_next_ok by apply Fr. cbn [bind]. do 2 eexists. split; [reflexivity|]. split; [exact Nf|].
    now apply push_seg.
  - destruct l as [|a l]; [congruence|]. pose proof (l_seg _ _ _ C) as [-> _]. rewrite next_ok by apply Fr. cbn [bind].
    do 2 eexists. split; [reflexivity|]. split; [exact Nf|]. now apply pop_seg in C.
  - destruct F as [I N]. apply in_split in I. destruct I as (u & v & ->).
    pose proof (nodup_mid _ _ _ (l_nd _ _ _ C)) as (Nu & Nv & D').
    unfold if_insert_after. rewrite next_ok by apply Fr. cbn [bind]. rewrite set_next_ok by apply Fr. cbn [bind].
    rewrite set_next_ok by apply Fr. cbn [bind nxt prv freed]. do 2 eexists. split; [reflexivity|]. split; [exact Nf|].
    rewrite put_after_split by exact Nu. now apply insert_seg.
  - destruct F as (u & x & v & ->). pose proof (nodup_mid _ _ _ (l_nd _ _ _ C)) as (Nu & Nv & D').
    destruct (erase_seg _ _ _ _ _ _ C) as [E C'].
    unfold if_erase_after. rewrite next_ok by apply Fr. cbn [bind]. rewrite E. rewrite next_ok by apply Fr. cbn [bind].
    rewrite set_next_ok by apply Fr. cbn [bind]. do 2 eexists. split; [reflexivity|]. split; [exact Nf|].
    now rewrite drop_after_split.
  - destruct F as [(u & x & v & ->) N]. pose proof (nodup_mid _ _ _ (l_nd _ _ _ C)) as (Nu & Nv & D').
    destruct (erase_seg _ _ _ _ _ _ C) as [E C'].
    unfold if_replace_after, if_erase_after. rewrite next_ok by apply Fr. cbn [bind]. rewrite E. rewrite next_ok by apply Fr.
    cbn [bind]. rewrite set_next_ok by apply Fr. cbn [bind].
    unfold if_insert_after. rewrite next_ok by apply Fr. cbn [bind]. rewrite set_next_ok by apply Fr. cbn [bind].
    rewrite set_next_ok by apply Fr. cbn [bind]. do 2 eexists. split; [reflexivity|]. split; [exact Nf|].
    rewrite drop_after_split by exact Nu. rewrite put_after_split by exact Nu.
    refine (insert_seg _ _ _ _ _ _ C' _ _); [|apply Fr].
    intros K. apply N. apply in_app_iff in K. apply in_or_app. cbn in *. tauto.
  - do 2 eexists. split; [reflexivity|]. split; [exact Nf|]. split; [reflexivity|constructor|cbn; tauto].
Qed.

Lemma if_run_ok ops m front l : nobody_freed m -> lst m front l -> fits ops l ->
  exists m' front', if_run (m, front) ops = Ok (m', front') /\ nobody_freed m' /\ lst m' front' (seqs ops l).
Proof.
  revert m front l. induction ops as [|op ops IH]; intros m front l Nf C F.
  - exists m, front. auto.
  - destruct F as [F1 F2]. destruct (if_step_ok _ _ _ _ Nf C F1) as (m1 & f1 & E & Nf1 & C1).
    cbn [if_run]. rewrite E. cbn [bind]. apply (IH _ _ _ Nf1 C1 F2).
Qed.

Lemma lst_nil m : lst m None [].
Proof. split; [reflexivity|constructor|cbn; tauto]. Qed.


Lemma set_next_inv m a x m' : set_next m (Some a) x = Ok m' ->
  m' = Mem (at_ (nxt m) a x) (prv m) (freed m).
Proof. unfold set_next. cbn. destruct (is_freed m a); cbn; [discriminate|]. congruence. Qed.

Lemma if_step_frame s op s' b : if_step s op = Ok s' -> ~ In b (names op) -> nxt (fst s') b = nxt (fst s) b.
Proof.
  destruct s as [m h]. intros E N.
  assert (forall m x a m', set_next m (Some a) x = Ok m' -> a <> b -> nxt m' b = nxt m b) as Fr.
  { intros m0 x a m' H Ne. apply set_next_inv in H. subst. cbn. apply at_neq. congruence. }
  destruct op as [a| |i a|i|i a|]; cbn in E, N.
  - destruct (set_next m (Some a) h) as [m1| |] eqn:E1; try discriminate. injection E as <-. cbn. eapply Fr; eauto.
  - destruct (next m h); try discriminate. now injection E as <-.
  - unfold if_insert_after in E. destruct (next m (Some i)) as [n| |]; try discriminate. cbn [bind] in E.
    destruct (set_next m (Some i) (Some a)) as [m1| |] eqn:E1; try discriminate. cbn [bind] in E.
    destruct (set_next m1 (Some a) n) as [m2| |] eqn:E2; try discriminate. injection E as <-. cbn.
    rewrite (Fr _ _ _ _ E2) by tauto. apply (Fr _ _ _ _ E1). tauto.
  - unfold if_erase_after in E. destruct (next m (Some i)) as [n| |]; try discriminate. cbn [bind] in E.
    destruct (next m n) as [n'| |]; try discriminate. cbn [bind] in E.
    destruct (set_next m (Some i) n') as [m1| |] eqn:E1; try discriminate. injection E as <-. cbn. apply (Fr _ _ _ _ E1). tauto.
  - unfold if_replace_after, if_erase_after in E. destruct (next m (Some i)) as [n| |]; try discriminate. cbn [bind] in E.
    destruct (next m n) as [n'| |]; try discriminate. cbn [bind] in E.
    destruct (set_next m (Some i) n') as [m0| |] eqn:E0; try discriminate. cbn [bind] in E.
    unfold if_insert_after in E. destruct (next m0 (Some i)) as [n2| |]; try discriminate. cbn [bind] in E.
    destruct (set_next m0 (Some i) (Some a)) as [m1| |] eqn:E1; try discriminate. cbn [bind] in E.
    destruct (set_next m1 (Some a) n2) as [m2| |] eqn:E2; try discriminate. injection E as <-. cbn.
    rewrite (Fr _ _ _ _ E2) by tauto. rewrite (Fr _ _ _ _ E1) by tauto. apply (Fr _ _ _ _ E0). tauto.
  - now injection E as <-.
Qed.

Lemma if_run_frame ops s s' b : if_run s ops = Ok s' -> ~ In b (flat_map names ops) -> nxt (fst s') b = nxt (fst s) b.
Proof.
  revert s. induction ops as [|op ops IH]; intros s E N; [now injection E as <-|]. cbn in E, N.
  rewrite in_app_iff in N. destruct (if_step s op) as [s1| |] eqn:E1; try discriminate. cbn [bind] in E.
  rewrite (IH _ E) by tauto. eapply if_step_frame; eauto.
Qed.

Lemma empty_iff m front l : lst m front l -> (empty front = true <-> l = []).
Proof.
  intros [C _ _]. apply lseg_hd in C. subst. destruct l; cbn; split; intros; congruence.
Qed.

Lemma C39_main m ops : nobody_freed m -> fits ops [] ->
  exists m' front, if_run (m, None) ops = Ok (m', front) /\
    (forall fuel, length (seqs ops []) <= fuel -> walk fuel m' front = Ok (seqs ops [])) /\
    (empty front = true <-> seqs ops [] = []) /\
    (forall a t, seqs ops [] = a :: t -> front_of m' front = Ok a) /\
    (forall b, ~ In b (flat_map names ops) -> nxt m' b = nxt m b).
Proof.
  intros Nf F. destruct (if_run_ok _ _ _ _ Nf (lst_nil m) F) as (m' & front & E & Nf' & C).
  exists m', front. split; [exact E|]. repeat split.
  - intros fuel L. apply walk_ok; [apply C|apply (l_ok _ _ _ C)|exact L].
  - apply (empty_iff _ _ _ C).
  - apply (empty_iff _ _ _ C).
  - intros a t Et. pose proof (lseg_hd _ _ _ (l_seg _ _ _ C)) as ->. rewrite Et. apply deref_ok. now apply nobody.
  - intros b K. apply (if_run_frame _ _ _ b E K).
Qed.

(* ---- forward_list *)
Lemma alloc_freed_self own m a : (own = false -> is_freed m a = false) -> is_freed (allocate own m a) a = false.
Proof.
  intros H. destruct own; cbn; [|auto]. unfold is_freed. cbn. destruct (existsb _ _) eqn:E; [|reflexivity].
  apply existsb_exists in E. destruct E as (b & K & E). apply filter_In in K. apply Nat.eqb_eq in E. subst.
  rewrite Nat.eqb_refl in K. destruct K; discriminate.
Qed.
Lemma alloc_freed own m a b : is_freed m b = false -> is_freed (allocate own m a) b = false.
Proof.
  intros H. destruct own; cbn; [|auto]. unfold is_freed in *. cbn. destruct (existsb _ (filter _ _)) eqn:E; [|reflexivity].
  apply existsb_exists in E. destruct E as (c & K & E). apply filter_In in K. apply Nat.eqb_eq in E. subst.
  rewrite <- H. symmetry. apply existsb_exists. exists c. split; [tauto|apply Nat.eqb_refl].
Qed.
Lemma alloc_nxt own m a b : b <> a -> nxt (allocate own m a) b = nxt m b.
Proof. intros N. destruct own; [|reflexivity]. cbn. now apply at_neq. Qed.
Lemma alloc_lst own m front l a : lst m front l -> ~ In a l -> lst (allocate own m a) front l.
Proof.
  intros [C D F] N. split; [|exact D|].
  - eapply lseg_ext; [|exact C]. intros b K. symmetry. apply alloc_nxt. intros ->. auto.
  - intros b K. apply alloc_freed, F, K.
Qed.

Lemma clean_freed own m a : clean own m -> own = false -> is_freed m a = false.
Proof. intros C E. apply nobody, (C E). Qed.
Lemma clean_alloc own m a : clean own m -> clean own (allocate own m a).
Proof. intros C E. subst. now apply C. Qed.

Lemma fl_step_ok own m front l op : clean own m -> lst m front l -> fits1 op l -> forward_list_op op ->
  exists m' front', fl_step own (m, front) op = Ok (m', front') /\ clean own m' /\ lst m' front' (seq1 op l).
Proof.
  intros Cl C F Ok_. destruct op as [a| |i a|i|i a|]; try contradiction; cbn in F |- *.
  - unfold fl_push_front, set_front.
    assert (is_freed (allocate own m a) a = false) as Fa by (apply alloc_freed_self, clean_freed, Cl).
    rewrite set_next_ok by exact Fa. cbn [bind]. do 2 eexists. split; [reflexivity|]. split.
    + intros E. apply (clean_alloc own m a Cl E).
    + apply push_seg; [now apply alloc_lst|exact F|exact Fa].
  - destruct l as [|a l]; [congruence|]. pose proof (l_seg _ _ _ C) as [-> _].
    unfold fl_pop_front. rewrite next_ok by (apply (l_ok _ _ _ C); now left). cbn [bind].
    do 2 eexists. split; [reflexivity|]. pose proof (l_nd _ _ _ C) as D. inversion D as [|? ? Na D']; subst.
    apply pop_seg in C. split.
    + intros E. subst. cbn. now apply Cl.
    + destruct C as [C _ F']. destruct own; cbn; [|now split]. split; auto. intros b K. unfold is_freed. cbn.
      destruct (Nat.eqb_spec b a) as [->|]; [contradiction|]. now apply F'.
  - destruct F as [I N]. unfold fl_insert_after. rewrite (in_lst_next _ _ _ _ C I). cbn [bind].
    assert (is_freed (allocate own m a) a = false) as Fa by (apply alloc_freed_self, clean_freed, Cl).
    assert (a <> i) as Ne by (intros ->; auto).
    pose proof (alloc_lst own _ _ _ a C N) as C'.
    rewrite set_next_ok by (apply (l_ok _ _ _ C'), I). cbn [bind]. rewrite set_next_ok by exact Fa. cbn [bind].
    do 2 eexists. split; [reflexivity|]. split.
    + intros E. apply (clean_alloc own m a Cl E).
    + apply in_split in I. destruct I as (u & v & ->). pose proof (nodup_mid _ _ _ (l_nd _ _ _ C)) as (Nu & _).
      rewrite put_after_split by exact Nu. cbn [nxt prv freed].
      rewrite <- (alloc_nxt own m a i) by congruence. now apply insert_seg.
  - destruct F as (u & x & v & ->). pose proof (nodup_mid _ _ _ (l_nd _ _ _ C)) as (Nu & Nv & D').
    destruct (erase_seg _ _ _ _ _ _ C) as [E C'].
    assert (is_freed m i = false) as Fi by (apply (l_ok _ _ _ C); apply in_or_app; cbn; auto).
    assert (is_freed m x = false) as Fx by (apply (l_ok _ _ _ C); apply in_or_app; cbn; auto).
    unfold fl_erase_after. rewrite next_ok by exact Fi. cbn [bind]. rewrite E. rewrite next_ok by exact Fx. cbn [bind].
    rewrite set_next_ok by exact Fi. cbn [bind]. do 2 eexists. split; [reflexivity|]. split; [exact Cl|].
    now rewrite drop_after_split.
Qed.

Lemma fl_run_ok own ops m front l : clean own m -> lst m front l -> fits ops l -> Forall forward_list_op ops ->
  exists m' front', fl_run own (m, front) ops = Ok (m', front') /\ clean own m' /\ lst m' front' (seqs ops l).
Proof.
  revert m front l. induction ops as [|op ops IH]; intros m front l Cl C F K.
  - exists m, front. auto.
  - destruct F as [F1 F2]. inversion K as [|? ? K1 K2]; subst.
    destruct (fl_step_ok own _ _ _ _ Cl C F1 K1) as (m1 & f1 & E & Cl1 & C1).
    cbn [fl_run]. rewrite E. cbn [bind]. apply (IH _ _ _ Cl1 C1 F2 K2).
Qed.

Lemma fl_main own m ops : clean own m -> fits ops [] -> Forall forward_list_op ops ->
  exists m' front, fl_run own (m, None) ops = Ok (m', front) /\
    (forall fuel, length (seqs ops []) <= fuel -> walk fuel m' front = Ok (seqs ops [])) /\
    (empty front = true <-> seqs ops [] = []) /\
    (forall a t, seqs ops [] = a :: t -> front_of m' front = Ok a).
Proof.
  intros Cl F K. destruct (fl_run_ok own _ _ _ _ Cl (lst_nil m) F K) as (m' & front & E & Cl' & C).
  exists m', front. split; [exact E|]. split; [|split].
  - intros fuel L. apply walk_ok; [apply C|apply (l_ok _ _ _ C)|exact L].
  - apply (empty_iff _ _ _ C).
  - intros a t Et. pose proof (lseg_hd _ _ _ (l_seg _ _ _ C)) as ->. rewrite Et. apply deref_ok.
    apply (l_ok _ _ _ C). rewrite Et. now left.
Qed.

(* ---- remove_if *)
(* [rem p l]: what the loop leaves of l, when the node before l is to be kept *)
Lemma remove_loop_spec p fuel : forall l m front pre prev_ cur,
  lseg (nxt m) front (pre ++ [prev_]) cur -> lseg (nxt m) cur l None -> NoDup (pre ++ prev_ :: l) ->
  (forall a, In a (pre ++ prev_ :: l) -> is_freed m a = false) -> length l <= fuel ->
  exists m', remove_loop fuel p false m front cur (Some prev_) = Ok (m', front) /\
    lseg (nxt m') front (pre ++ prev_ :: without_every_other p l) None /\ freed m' = freed m.
Proof.
  induction fuel as [fuel IHf] using lt_wf_ind. intros l m front pre pv cur C1 C2 D F L.
  destruct l as [|x l].
  - cbn in C2. subst. exists m. rewrite app_nil_r || idtac. split; [destruct fuel; reflexivity|]. split; [|reflexivity].
    cbn. exact C1.
  - destruct C2 as [-> C2]. destruct fuel as [|fuel]; [cbn in L; lia|]. cbn [remove_loop].
    assert (is_freed m x = false) as Fx by (apply F; apply in_or_app; cbn; auto).
    assert (is_freed m pv = false) as Fp by (apply F; apply in_or_app; cbn; auto).
    rewrite next_ok by exact Fx. cbn [bind without_every_other]. destruct (p x) eqn:Px.
    + cbn [peq]. rewrite set_next_ok by exact Fp. cbn [bind].
      set (m1 := Mem (at_ (nxt m) pv (nxt m x)) (prv m) (freed m)).
      pose proof (nodup_mid _ _ _ D) as (Npre & Nxl & D').
      assert (lseg (nxt m1) front (pre ++ [pv]) (nxt m x)) as C1'.
      { apply lseg_app in C1. destruct C1 as (r & C1 & C1b). cbn in C1b. destruct C1b as [-> C1b].
        apply lseg_app. exists (Some pv). split; [now apply lseg_at|]. cbn. split; [reflexivity|]. apply at_eq. }
      assert (lseg (nxt m1) (nxt m x) l None) as C2' by (apply lseg_at; [intros K; apply Nxl; now right|exact C2]).
      destruct l as [|y l].
      * cbn in C2'. exists m1. rewrite C2. split; [now destruct fuel|]. split; [|reflexivity].
        cbn in C2. rewrite C2 in C1'. exact C1'.
      * destruct C2' as [E C2']. rewrite E in C1' |- *. destruct fuel as [|fuel]; [cbn in L; lia|]. cbn [remove_loop].
        assert (is_freed m y = false) as Fy by (apply F; apply in_or_app; cbn; auto).
        rewrite next_ok by exact Fy. cbn [bind].
        (* the removed node x is the loop's previous: splicing y out of it changes nothing *)
        assert (nxt m1 x = Some y) as Ex.
        { unfold m1. cbn. rewrite at_neq; [exact E|]. intros ->. apply Nxl. now left. }
        assert (forall m2, (forall a, In a (pre ++ pv :: y :: l) -> nxt m2 a = nxt m1 a) -> freed m2 = freed m ->
          exists m', remove_loop fuel p false m2 front (nxt m1 y) (Some y) = Ok (m', front) /\
            lseg (nxt m') front (pre ++ pv :: y :: without_every_other p l) None /\ freed m' = freed m) as G.
        { intros m2 Same Fr2.
          destruct (IHf fuel ltac:(lia) l m2 front (pre ++ [pv]) y (nxt m1 y)) as (m' & E' & C' & Fr').
          - apply (lseg_ext (nxt m1)).
            + intros a K. symmetry. apply Same. rewrite <- app_assoc in K. cbn in K. apply in_app_iff in K. apply in_or_app.
              cbn in *. tauto.
            + apply lseg_app. exists (Some y). split; [exact C1'|]. cbn. auto.
          - apply (lseg_ext (nxt m1)); [|exact C2']. intros a K. symmetry. apply Same. apply in_or_app. cbn. auto.
          - rewrite <- app_assoc. cbn. assert (NoDup ((pre ++ [pv]) ++ x :: y :: l)) as K by (now rewrite <- app_assoc).
            apply nodup_mid in K. destruct K as (_ & _ & K). now rewrite <- app_assoc in K.
          - intros a K. unfold is_freed. rewrite Fr2. apply F. rewrite <- app_assoc in K. apply in_app_iff in K.
            apply in_or_app. cbn in *. tauto.
          - cbn in L. lia.
          - exists m'. rewrite Fr', Fr2. rewrite <- app_assoc in C'. auto. }
        destruct (p y) eqn:Py.
        -- cbn [peq]. rewrite set_next_ok by exact Fx. cbn [bind]. apply G; [|reflexivity].
           intros a K. cbn. apply at_neq. intros ->. apply in_app_iff in K. cbn in K.
           destruct K as [K|[K|[K|K]]].
           ++ assert (NoDup ((pre ++ [pv]) ++ x :: y :: l)) as J by (now rewrite <- app_assoc).
              apply nodup_mid in J. destruct J as (J & _). apply J. apply in_or_app. now left.
           ++ subst. apply Nxl. now left.
           ++ subst. assert (NoDup ((pre ++ [pv]) ++ x :: x :: l)) as J by (now rewrite <- app_assoc).
              apply nodup_mid in J. destruct J as (_ & J & _). apply J. now left.
           ++ assert (NoDup ((pre ++ [pv]) ++ x :: y :: l)) as J by (now rewrite <- app_assoc).
              apply nodup_mid in J. destruct J as (_ & J & _). apply J. now right.
        -- apply G; [auto|reflexivity].
    + destruct (IHf fuel ltac:(lia) l m front (pre ++ [pv]) x (nxt m x)) as (m' & E' & C' & Fr').
      * apply lseg_app. exists (Some x). split; [exact C1|]. cbn. auto.
      * exact C2.
      * now rewrite <- app_assoc.
      * intros a K. apply F. now rewrite <- app_assoc in K.
      * cbn in L. lia.
      * exists m'. rewrite <- app_assoc in C'. auto.
Qed.

Lemma woe_in p l a : In a (without_every_other p l) -> In a l.
Proof.
  assert (forall n l, length l <= n -> In a (without_every_other p l) -> In a l) as H; [|intros K; exact (H _ l (le_n _) K)].
  clear l. induction n as [|n IH]; intros l L K.
  - destruct l; [exact K|cbn in L; lia].
  - destruct l as [|x l]; [exact K|]. cbn in K. destruct (p x).
    + destruct l as [|y l]; [destruct K|]. destruct K as [->|K]; [cbn; auto|]. right. right. apply IH; [cbn in L; lia|exact K].
    + destruct K as [->|K]; [now left|]. right. apply IH; [cbn in L; lia|exact K].
Qed.

Lemma remove_all_ok p m front l fuel : lst m front l -> length l <= fuel ->
  exists m' front', remove_if fuel p false m front = Ok (m', front') /\
    forall f, length l <= f -> walk f m' front' = Ok (without_every_other p l).
Proof.
  intros C L. unfold remove_if.
  assert (exists m' front', remove_loop fuel p false m front front None = Ok (m', front') /\
    lseg (nxt m') front' (without_every_other p l) None /\ freed m' = freed m) as (m' & front' & E & C' & Fr).
  { destruct C as [C D F]. destruct l as [|x l].
    - cbn in C. subst. exists m, None. split; [now destruct fuel|]. split; reflexivity.
    - destruct C as [-> C]. destruct fuel as [|fuel]; [cbn in L; lia|]. cbn [remove_loop].
      rewrite next_ok by (apply F; now left). cbn [bind without_every_other]. destruct (p x) eqn:Px.
      + cbn [peq bind]. destruct l as [|y l].
        * cbn in C. rewrite C. exists m, None. split; [now destruct fuel|]. split; reflexivity.
        * destruct C as [E C]. rewrite E. destruct fuel as [|fuel]; [cbn in L; lia|]. cbn [remove_loop].
          rewrite next_ok by (apply F; cbn; auto). cbn [bind].
          inversion D as [|? ? Nx D1]; subst. inversion D1 as [|? ? Ny D2]; subst.
          assert (forall m2, (forall a, In a (y :: l) -> nxt m2 a = nxt m a) -> freed m2 = freed m ->
            exists m' front', remove_loop fuel p false m2 (Some y) (nxt m y) (Some y) = Ok (m', front') /\
            lseg (nxt m') front' (y :: without_every_other p l) None /\ freed m' = freed m) as G.
          { intros m2 Same Fr2. destruct (remove_loop_spec p fuel l m2 (Some y) [] y (nxt m y)) as (m' & E' & C' & Fr').
            - cbn. split; [reflexivity|]. apply Same. now left.
            - apply (lseg_ext (nxt m)); [|exact C]. intros a K. symmetry. apply Same. now right.
            - exact D1.
            - intros a K. unfold is_freed. rewrite Fr2. apply F. now right.
            - cbn in L. lia.
            - exists m', (Some y). rewrite Fr', Fr2. auto. }
          destruct (p y) eqn:Py; [|apply G; auto].
          cbn [peq]. rewrite set_next_ok by (apply F; now left). cbn [bind]. apply G; [|reflexivity].
          intros a K. cbn. apply at_neq. intros ->. auto.
      + destruct (remove_loop_spec p fuel l m (Some x) [] x (nxt m x)) as (m' & E' & C' & Fr').
        * cbn. auto.
        * exact C.
        * exact D.
        * exact F.
        * cbn in L. lia.
        * exists m', (Some x). auto. }
  exists m', front'. split; [exact E|]. intros f Lf. apply walk_ok; [exact C'| |].
  - intros a K. unfold is_freed. rewrite Fr. apply (l_ok _ _ _ C), (woe_in p), K.
  - assert (forall n l, length l <= n -> length (without_every_other p l) <= length l) as H.
    { clear. induction n as [|n IH]; intros l L; (destruct l as [|x l]; [cbn; lia|]); [cbn in L; lia|]. cbn in L |- *.
      destruct (p x).
      - destruct l as [|y l]; cbn in *; [lia|]. specialize (IH l ltac:(lia)). lia.
      - cbn. specialize (IH l ltac:(lia)). lia. }
    specialize (H _ l (le_n _)). lia.
Qed.

Lemma woe_no_twins p l : ~ twins p l -> without_every_other p l = filter (fun x => negb (p x)) l.
Proof.
  assert (forall n l, length l <= n -> ~ twins p l -> without_every_other p l = filter (fun x => negb (p x)) l) as H;
    [|exact (H _ l (le_n _))].
  clear l. induction n as [|n IH]; intros l L T.
  - destruct l; [reflexivity|cbn in L; lia].
  - destruct l as [|x l]; [reflexivity|]. cbn. destruct (p x) eqn:Px; cbn.
    + destruct l as [|y l]; [reflexivity|]. cbn. destruct (p y) eqn:Py.
      * exfalso. apply T. exists [], x, y, l. auto.
      * cbn. rewrite IH; [reflexivity|cbn in L; lia|]. intros (u & a & b & v & -> & Pa & Pb). apply T.
        exists (x :: y :: u), a, b, v. auto.
    + rewrite IH; [reflexivity|cbn in L; lia|]. intros (u & a & b & v & -> & Pa & Pb). apply T. exists (x :: u), a, b, v. auto.
Qed.

Lemma woe_keeps p l : twins p l -> exists x, In x (without_every_other p l) /\ p x = true.
Proof.
  assert (forall n l, length l <= n -> twins p l -> exists x, In x (without_every_other p l) /\ p x = true) as H;
    [|exact (H _ l (le_n _))].
  clear l. induction n as [|n IH]; intros l L (u & a & b & v & -> & Pa & Pb).
  - rewrite app_length in L. cbn in L. lia.
  - destruct u as [|x u].
    + cbn. rewrite Pa. exists b. cbn. auto.
    + cbn in L |- *. destruct (p x) eqn:Px.
      * destruct u as [|y u].
        -- cbn. exists a. cbn. auto.
        -- cbn [app]. destruct (IH (u ++ a :: b :: v)) as (z & K & Pz); [cbn in L; lia|exists u, a, b, v; auto|].
           exists z. split; [right; exact K|exact Pz].
      * destruct (IH (u ++ a :: b :: v)) as (z & K & Pz); [lia|exists u, a, b, v; auto|].
        exists z. split; [right; exact K|exact Pz].
Qed.

(* the first match only *)
Lemma remove_first_loop p fuel : forall l m front pre prev_ cur,
  lseg (nxt m) front (pre ++ [prev_]) cur -> lseg (nxt m) cur l None -> NoDup (pre ++ prev_ :: l) ->
  (forall a, In a (pre ++ prev_ :: l) -> is_freed m a = false) -> length l <= fuel ->
  exists m', remove_loop fuel p true m front cur (Some prev_) = Ok (m', front) /\
    lseg (nxt m') front (pre ++ prev_ :: without_first p l) None /\ freed m' = freed m.
Proof.
  induction fuel as [|fuel IHf]; intros l m front pre pv cur C1 C2 D F L.
  - destruct l; [|cbn in L; lia]. cbn in C2. subst. exists m. auto.
  - destruct l as [|x l]; [cbn in C2; subst; exists m; auto|]. destruct C2 as [-> C2]. cbn [remove_loop].
    assert (is_freed m x = false) as Fx by (apply F; apply in_or_app; cbn; auto).
    assert (is_freed m pv = false) as Fp by (apply F; apply in_or_app; cbn; auto).
    rewrite next_ok by exact Fx. cbn [bind without_first]. destruct (p x) eqn:Px.
    + cbn [peq]. rewrite set_next_ok by exact Fp. cbn [bind]. pose proof (nodup_mid _ _ _ D) as (Npre & Nxl & D').
      eexists. split; [reflexivity|]. split; [|reflexivity]. cbn.
      apply lseg_app in C1. destruct C1 as (r & C1 & C1b). cbn in C1b. destruct C1b as [-> C1b].
      apply lseg_app. exists (Some pv). split; [now apply lseg_at|]. cbn. split; [reflexivity|]. rewrite at_eq.
      apply lseg_at; [intros K; apply Nxl; now right|exact C2].
    + destruct (IHf l m front (pre ++ [pv]) x (nxt m x)) as (m' & E' & C' & Fr').
      * apply lseg_app. exists (Some x). split; [exact C1|]. cbn. auto.
      * exact C2.
      * now rewrite <- app_assoc.
      * intros a K. apply F. now rewrite <- app_assoc in K.
      * cbn in L. lia.
      * exists m'. rewrite <- app_assoc in C'. auto.
Qed.

Lemma wf_in p l a : In a (without_first p l) -> In a l.
Proof. induction l as [|x l IH]; cbn; [auto|]. destruct (p x); cbn; tauto. Qed.
Lemma wf_len p l : length (without_first p l) <= length l.
Proof. induction l as [|x l IH]; cbn; [auto|]. destruct (p x); cbn; lia. Qed.

Lemma remove_first_ok p m front l fuel : lst m front l -> length l <= fuel ->
  exists m' front', remove_if fuel p true m front = Ok (m', front') /\
    forall f, length l <= f -> walk f m' front' = Ok (without_first p l).
Proof.
  intros C L. unfold remove_if.
  assert (exists m' front', remove_loop fuel p true m front front None = Ok (m', front') /\
    lseg (nxt m') front' (without_first p l) None /\ freed m' = freed m) as (m' & front' & E & C' & Fr).
  { destruct C as [C D F]. destruct l as [|x l].
    - cbn in C. subst. exists m, None. split; [now destruct fuel|]. split; reflexivity.
    - destruct C as [-> C]. destruct fuel as [|fuel]; [cbn in L; lia|]. cbn [remove_loop].
      rewrite next_ok by (apply F; now left). cbn [bind without_first]. destruct (p x) eqn:Px.
      + cbn [peq bind]. eauto.
      + destruct (remove_first_loop p fuel l m (Some x) [] x (nxt m x)) as (m' & E' & C' & Fr').
        * cbn. auto.
        * exact C.
        * exact D.
        * exact F.
        * cbn in L. lia.
        * exists m', (Some x). auto. }
  exists m', front'. split; [exact E|]. intros f Lf. apply walk_ok; [exact C'| |].
  - intros a K. unfold is_freed. rewrite Fr. apply (l_ok _ _ _ C), (wf_in p), K.
  - pose proof (wf_len p l). lia.
Qed.
