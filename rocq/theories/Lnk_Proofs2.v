From Verif Require Import Base BaseLemmas Lnk_Spec Lnk_Model Lnk_Proofs.

(* ---- forward_list: what is given back *)
Lemma pop_releases own m ops : clean own m -> fits ops [] -> Forall forward_list_op ops -> seqs ops [] <> [] ->
  exists m1 f1 m2 f2 a, fl_run own (m, None) ops = Ok (m1, f1) /\ fl_step own (m1, f1) PopFront = Ok (m2, f2) /\
    hd_error (seqs ops []) = Some a /\ freed m2 = if own then a :: freed m1 else freed m1.
Proof.
  intros Cl F K Ne. destruct (fl_run_ok own _ _ _ _ Cl (lst_nil m) F K) as (m1 & f1 & E & Cl1 & C).
  destruct (seqs ops []) as [|a l]; [congruence|]. pose proof (l_seg _ _ _ C) as [-> _].
  exists m1, (Some a). cbn [fl_step]. unfold fl_pop_front. rewrite next_ok by (apply (l_ok _ _ _ C); now left). cbn [bind].
  do 3 eexists. split; [exact E|]. split; [reflexivity|]. split; [reflexivity|]. now destruct own.
Qed.

Lemma erase_leaks own m ops u i x v : clean own m -> fits ops [] -> Forall forward_list_op ops ->
  seqs ops [] = u ++ i :: x :: v ->
  exists m1 f1 m2 f2, fl_run own (m, None) ops = Ok (m1, f1) /\ fl_step own (m1, f1) (EraseAfter i) = Ok (m2, f2) /\
    (forall fuel, length (u ++ i :: v) <= fuel -> walk fuel m2 f2 = Ok (u ++ i :: v)) /\ freed m2 = freed m1.
Proof.
  intros Cl F K E0. destruct (fl_run_ok own _ _ _ _ Cl (lst_nil m) F K) as (m1 & f1 & E & Cl1 & C).
  rewrite E0 in C. pose proof (nodup_mid _ _ _ (l_nd _ _ _ C)) as (Nu & _).
  destruct (fl_step_ok own m1 f1 _ (EraseAfter i) Cl1 C) as (m2 & f2 & E2 & _ & C2).
  - exists u, x, v. reflexivity.
  - exact I.
  - exists m1, f1, m2, f2. split; [exact E|]. split; [exact E2|]. cbn [seq1] in C2. rewrite drop_after_split in C2 by exact Nu.
    split.
    + intros fuel L. apply walk_ok; [apply C2|apply (l_ok _ _ _ C2)|exact L].
    + cbn [fl_step] in E2. unfold fl_erase_after in E2. destruct (next m1 (Some i)) as [n| |]; try discriminate. cbn [bind] in E2.
      destruct (next m1 n) as [n'| |]; try discriminate. cbn [bind] in E2.
      destruct (set_next m1 (Some i) n') as [m3| |] eqn:E3; try discriminate. injection E2 as <- <-.
      apply set_next_inv in E3. now subst.
Qed.

Lemma next_inv m c n : next m (Some c) = Ok n -> n = nxt m c.
Proof. unfold next. cbn. destruct (is_freed m c); cbn; [discriminate|]. congruence. Qed.

Lemma remove_loop_freed p b fuel m front cur pv m' f' :
  remove_loop fuel p b m front cur pv = Ok (m', f') -> freed m' = freed m.
Proof.
  revert m front cur pv. induction fuel as [|fuel IH]; intros m front cur pv E; destruct cur as [c|];
    try discriminate; try (cbn in E; now injection E as -> _).
  cbn [remove_loop] in E. destruct (next m (Some c)) as [n| |]; try discriminate. cbn [bind] in E.
  destruct (p c); [|now apply IH in E]. destruct (peq pv None) eqn:Ep.
  - cbn [bind] in E. destruct b; [now injection E as -> _|now apply IH in E].
  - destruct pv as [q|]; [|discriminate]. destruct (set_next m (Some q) n) as [m1| |] eqn:E1; try discriminate.
    cbn [bind] in E. apply set_next_inv in E1. subst m1. destruct b; [now injection E as <- _|]. now apply IH in E.
Qed.

(* ---- forward_list_with_back *)
Record binv (own : bool) (s : wback) (l used : list nat) : Prop := {
  b_lst : lst (w_mem s) (w_front s) l;
  b_back : l <> [] -> w_back s = Some (last l 0);
  b_none : used = [] -> w_back s = None;
  b_in : incl l used;
  b_clean : clean own (w_mem s);
  b_null : own = false -> forall a, ~ In a used -> nxt (w_mem s) a = None }.

Lemma last_snoc (l : list nat) a d : last (l ++ [a]) d = a.
Proof. induction l as [|x l IH]; [reflexivity|]. cbn. destruct (l ++ [a]) eqn:E; [now destruct l|exact IH]. Qed.
Lemma last_cons (x : nat) l d : l <> [] -> last (x :: l) d = last l d.
Proof. destruct l; [congruence|reflexivity]. Qed.
Lemma snoc_split (l : list nat) : l <> [] -> exists u, l = u ++ [last l 0].
Proof. intros N. exists (removelast l). now apply app_removelast_last. Qed.

Definition bused (op : bop) (used : list nat) : list nat :=
  match op with BPushFront a | BPushBack a => a :: used | BPopFront => used end.

Lemma wb_step_ok own s l used op : binv own s l used ->
  match op with
  | BPushFront a | BPushBack a => ~ In a l /\ (own = false -> ~ In a used) /\ (l = [] -> used = [])
  | BPopFront => l <> []
  end ->
  exists s', wb_step own s op = Ok s' /\ binv own s' (bseq1 op l) (bused op used).
Proof.
  intros [C B Bn In_ Cl Nl] H. destruct op as [a|a|]; cbn [wb_step bseq1 bused].
  - destruct H as (N & U & Em).
    assert (is_freed (allocate own (w_mem s) a) a = false) as Fa by (apply alloc_freed_self, clean_freed, Cl).
    unfold wb_set_front. cbn [w_mem w_front w_back]. rewrite set_next_ok by exact Fa. cbn [bind].
    eexists. split; [reflexivity|]. split; cbn [w_mem w_front w_back].
    + apply push_seg; [now apply alloc_lst|exact N|exact Fa].
    + intros _. destruct l as [|x l].
      * rewrite (Bn (Em eq_refl)). reflexivity.
      * rewrite B by discriminate. reflexivity.
    + discriminate.
    + intros b [<-|K]; [now left|]. right. now apply In_.
    + intros E. apply (clean_alloc own _ a Cl E).
    + intros E b K. cbn. rewrite at_neq by (intros ->; apply K; now left). subst. cbn. apply Nl; [reflexivity|].
      intros J. apply K. now right.
  - destruct H as (N & U & Em).
    assert (is_freed (allocate own (w_mem s) a) a = false) as Fa by (apply alloc_freed_self, clean_freed, Cl).
    assert (nxt (allocate own (w_mem s) a) a = None) as Na.
    { destruct own; cbn; [apply at_eq|]. apply Nl; auto. }
    pose proof (alloc_lst own _ _ _ a C N) as C'. unfold set_back. cbn [w_mem w_front w_back].
    destruct l as [|x l].
    + rewrite (Bn (Em eq_refl)). cbn. eexists. split; [reflexivity|]. split; cbn.
      * split; cbn; [auto|repeat constructor; auto|]. intros b [<-|[]]. exact Fa.
      * reflexivity.
      * discriminate.
      * intros b [<-|[]]. now left.
      * now apply clean_alloc.
      * intros E b K. subst. cbn. apply Nl; [reflexivity|]. intros J. apply K. now right.
    + rewrite B by discriminate. cbn [peq negb].
      destruct (snoc_split (x :: l)) as [u Eu]; [discriminate|]. set (z := last (x :: l) 0) in *. clearbody z.
      rewrite set_next_ok by (apply (l_ok _ _ _ C'); rewrite Eu; apply in_or_app; cbn; auto). cbn [bind].
      eexists. split; [reflexivity|]. rewrite Eu in *. split; cbn [w_mem w_front w_back].
      * destruct C' as [S1 D1 F1]. apply lseg_app in S1. destruct S1 as (r & S1 & S2). cbn in S2. destruct S2 as [-> S2].
        pose proof (nodup_mid _ _ _ D1) as (Nz & _). rewrite <- app_assoc. cbn [app]. split; cbn [nxt].
        -- apply lseg_app. exists (Some z). split; [now apply lseg_at|]. cbn. split; [reflexivity|]. rewrite at_eq.
           split; [reflexivity|]. rewrite at_neq; [exact Na|]. intros ->. apply N. apply in_or_app. cbn. auto.
        -- assert (NoDup ((u ++ [z]) ++ [a])) as K; [|now rewrite <- app_assoc in K].
           apply nodup_ins; rewrite app_nil_r; assumption.
        -- intros b K. cbn. apply in_app_iff in K. cbn in K. destruct K as [K|[<-|[<-|[]]]]; [| |exact Fa]; apply F1;
             apply in_or_app; cbn; auto.
      * intros _. now rewrite last_snoc.
      * discriminate.
      * intros b K. apply in_app_iff in K. destruct K as [K|[<-|[]]]; [right; now apply In_|now left].
      * intros E. apply (clean_alloc own _ a Cl E).
      * intros E b K. cbn. assert (~ In b used) as Kb by (intros J; apply K; now right).
        assert (b <> z) by (intros ->; apply Kb, In_; apply in_or_app; cbn; auto).
        rewrite at_neq by assumption. subst. cbn. now apply Nl.
  - destruct l as [|a l]; [congruence|]. pose proof (l_seg _ _ _ C) as [E0 _]. rewrite E0 in C.
    unfold fl_pop_front. rewrite E0, next_ok by (apply (l_ok _ _ _ C); now left). cbn [bind].
    eexists. split; [reflexivity|]. pose proof (l_nd _ _ _ C) as D. inversion D as [|? ? Na D']; subst.
    apply pop_seg in C. split; cbn [w_mem w_front w_back tl].
    + destruct C as [C _ F']. destruct own; cbn; [|now split]. split; auto. intros b K. unfold is_freed. cbn.
      destruct (Nat.eqb_spec b a) as [->|]; [contradiction|]. now apply F'.
    + intros N. rewrite B by discriminate. now rewrite last_cons.
    + intros ->. now apply Bn.
    + intros b K. apply In_. now right.
    + intros E. subst. now apply Cl.
    + intros E b K. subst. cbn. now apply Nl.
Qed.

Lemma wb_run_ok own ops s l used : binv own s l used -> bfits own ops l used ->
  exists s' used', wb_run own s ops = Ok s' /\ binv own s' (bseqs ops l) used' /\
    (forall a, In a used' <-> In a used \/ In a (bnodes ops)).
Proof.
  revert s l used. induction ops as [|op ops IH]; intros s l used I F.
  - exists s, used. cbn. tauto.
  - destruct F as [F1 F2]. destruct (wb_step_ok own _ _ _ _ I F1) as (s1 & E & I1). cbn [wb_run]. rewrite E. cbn [bind].
    destruct (IH _ _ _ I1 F2) as (s' & used' & E' & I' & U). exists s', used'. split; [exact E'|]. split; [exact I'|].
    intros a. rewrite U. unfold bnodes. cbn [flat_map]. rewrite in_app_iff. destruct op; cbn; tauto.
Qed.

Lemma binv_init own m : new_nodes m -> binv own (WB m None None) [] [].
Proof.
  intros [Fr N]. split; cbn.
  - apply lst_nil.
  - congruence.
  - reflexivity.
  - intros a [].
  - intros _. exact Fr.
  - intros _ a _. apply N.
Qed.

Lemma C40_main own m ops : new_nodes m -> bfits own ops [] [] ->
  exists s, wb_run own (WB m None None) ops = Ok s /\
    (forall fuel, length (bseqs ops []) <= fuel -> walk fuel (w_mem s) (w_front s) = Ok (bseqs ops [])) /\
    (forall a t, bseqs ops [] = a :: t -> front_of (w_mem s) (w_front s) = Ok a) /\
    (forall t a, bseqs ops [] = t ++ [a] -> back_of s = Ok a).
Proof.
  intros N F. destruct (wb_run_ok own _ _ _ _ (binv_init own m N) F) as (s & used & E & I & _).
  exists s. split; [exact E|]. destruct I as [C B _ _ _]. split; [|split].
  - intros fuel L. apply walk_ok; [apply C|apply (l_ok _ _ _ C)|exact L].
  - intros a t Et. pose proof (lseg_hd _ _ _ (l_seg _ _ _ C)) as ->. rewrite Et. apply deref_ok, (l_ok _ _ _ C). rewrite Et. now left.
  - intros t a Et. unfold back_of. rewrite B by (rewrite Et; now destruct t). rewrite Et, last_snoc. apply deref_ok, (l_ok _ _ _ C).
    rewrite Et. apply in_or_app. cbn. auto.
Qed.

(* the pointers to the back never go away *)
Lemma wb_back_stays own op s s' : wb_step own s op = Ok s' -> w_back s <> None -> w_back s' <> None.
Proof.
  destruct op as [a|a|]; cbn; intros E N.
  - unfold wb_set_front in E. cbn in E. destruct (set_next _ _ _); try discriminate. cbn in E. injection E as <-. cbn.
    destruct (w_back s); [discriminate|congruence].
  - unfold set_back in E. cbn in E. destruct (w_back s) as [b|]; [|congruence]. cbn in E.
    destruct (set_next _ _ _); try discriminate. cbn in E. now injection E as <-.
  - unfold fl_pop_front in E. destruct (next _ _); try discriminate. cbn in E. now injection E as <-.
Qed.

Lemma wb_run_app own ops1 ops2 s : wb_run own s (ops1 ++ ops2) = bind (wb_run own s ops1) (fun s' => wb_run own s' ops2).
Proof. revert s. induction ops1 as [|o t IH]; intros s; [reflexivity|]. cbn. destruct (wb_step own s o); cbn; auto. Qed.

Lemma wb_back_some own ops s l used : binv own s l used -> bfits own ops l used -> ops <> [] \/ w_back s <> None ->
  forall s', wb_run own s ops = Ok s' -> w_back s' <> None.
Proof.
  revert s l used. induction ops as [|op ops IH]; intros s l used I F H s' E.
  - cbn in E. injection E as <-. destruct H; congruence.
  - destruct F as [F1 F2]. destruct (wb_step_ok own _ _ _ _ I F1) as (s1 & E1 & I1). cbn in E. rewrite E1 in E. cbn in E.
    apply (IH _ _ _ I1 F2); [|exact E]. right.
    destruct op as [a|a|]; cbn [bseq1] in I1.
    + rewrite (b_back _ _ _ _ I1) by discriminate. discriminate.
    + rewrite (b_back _ _ _ _ I1) by (now destruct l). discriminate.
    + apply (wb_back_stays _ _ _ _ E1). rewrite (b_back _ _ _ _ I) by exact F1. discriminate.
Qed.

(* A list emptied by pop_front: push_back loses the element. *)
Lemma emptied m ops b : new_nodes m -> bfits false ops [] [] -> ops <> [] -> bseqs ops [] = [] -> 
  exists s, wb_run false (WB m None None) (ops ++ [BPushBack b]) = Ok s /\ empty (w_front s) = true /\
    forall fuel, walk fuel (w_mem s) (w_front s) = Ok [].
Proof.
  intros N F Ne E0. pose proof (binv_init false m N) as I0.
  destruct (wb_run_ok false _ _ _ _ I0 F) as (s & used & E & I & _).
  pose proof (wb_back_some _ _ _ _ _ I0 F (or_introl Ne) _ E) as B. rewrite wb_run_app, E. cbn [bind wb_run wb_step allocate].
  unfold set_back. cbn [w_back w_mem w_front]. destruct (w_back s) as [z|]; [|congruence]. cbn [peq negb].
  rewrite set_next_ok by (apply nobody, (b_clean _ _ _ _ I), eq_refl). cbn [bind].
  eexists. split; [reflexivity|]. cbn. rewrite E0 in I. pose proof (l_seg _ _ _ (b_lst _ _ _ _ I)) as Fr. cbn in Fr. rewrite Fr.
  split; [reflexivity|]. now intros [|fuel].
Qed.

(* the same with nodes of the list's own: the back node was given back *)
Definition buseds (ops : list bop) (used : list nat) : list nat := fold_left (fun u op => bused op u) ops used.
Lemma bfits_app own o1 o2 l used : bfits own (o1 ++ o2) l used ->
  bfits own o1 l used /\ bfits own o2 (bseqs o1 l) (buseds o1 used).
Proof.
  revert l used. induction o1 as [|op o1 IH]; intros l used F; [cbn; auto|]. cbn [app bfits] in F. destruct F as [F1 F2].
  apply IH in F2. cbn [bfits]. tauto.
Qed.
Lemma wb_run_ok' own ops s l used : binv own s l used -> bfits own ops l used ->
  exists s', wb_run own s ops = Ok s' /\ binv own s' (bseqs ops l) (buseds ops used).
Proof.
  revert s l used. induction ops as [|op ops IH]; intros s l used I F; [cbn; eauto|].
  destruct F as [F1 F2]. destruct (wb_step_ok own _ _ _ _ I F1) as (s1 & E & I1). cbn [wb_run]. rewrite E. cbn [bind].
  apply (IH _ _ _ I1 F2).
Qed.

Lemma emptied_own m ops b : new_nodes m -> bfits true ops [] [] -> ops <> [] -> bseqs ops [] = [] -> ~ In b (bnodes ops) ->
  wb_run true (WB m None None) (ops ++ [BPushBack b]) = UB.
Proof.
  intros N F Ne E0 Nb. destruct (exists_last Ne) as (ops' & op & ->).
  apply bfits_app in F. destruct F as [F1 F2]. unfold bseqs in E0. rewrite fold_left_app in E0. cbn in E0.
  fold (bseqs ops' []) in E0.
  destruct op as [a|a|]; cbn in E0; [discriminate|now destruct (bseqs ops' [])|].
  destruct (wb_run_ok' true _ _ _ _ (binv_init true m N) F1) as (s & E & I).
  destruct F2 as [F2 _]. destruct (bseqs ops' []) as [|a [|? ?]]; cbn in E0; try congruence.
  rewrite <- app_assoc, wb_run_app, E. cbn [bind app wb_run wb_step].
  destruct I as [C B _ _ _]. pose proof (l_seg _ _ _ C) as [E1 _]. specialize (B ltac:(discriminate)). cbn in B.
  rewrite E1. unfold fl_pop_front. rewrite next_ok by (apply (l_ok _ _ _ C); now left). cbn [bind].
  unfold set_back. rewrite B. cbn [deallocate w_mem w_front w_back peq negb].
  assert (a <> b) as Nab.
  { intros ->. apply Nb.
    destruct (wb_run_ok true _ _ _ _ (binv_init true m N) F1) as (s' & used & E' & I' & U).
    rewrite E in E'. injection E' as <-. 
    assert (In b used) as K.
    { apply (b_in _ _ _ _ I'). pose proof (lseg_hd _ _ _ (l_seg _ _ _ (b_lst _ _ _ _ I'))) as H.
      rewrite E1 in H. destruct (bseqs ops' []); [discriminate|]. injection H as ->. now left. }
    apply U in K. destruct K as [[]|K]. unfold bnodes. rewrite flat_map_app. apply in_or_app. now left. }
  unfold set_next, deref, is_freed. cbn. destruct (Nat.eqb_spec a b); [contradiction|]. cbn. now rewrite Nat.eqb_refl.
Qed.

(* A node of the user's pushed back a second time: the traversal never ends. *)
Lemma relinked m a b : new_nodes m -> a <> b ->
  exists s, wb_run false (WB m None None) [BPushBack a; BPushBack b; BPopFront; BPushBack a] = Ok s /\
    forall fuel, walk fuel (w_mem s) (w_front s) = Diverge.
Proof.
  intros [Fr N] Ne. pose proof (fun x => nobody m x Fr) as F. cbn.
  unfold set_back. cbn. unfold set_next, fl_pop_front, next. cbn. rewrite !F. cbn. unfold is_freed. cbn. rewrite Fr. cbn.
  eexists. split; [reflexivity|]. cbn. rewrite at_eq.
  set (f := at_ _ b _). assert (f a = Some b) as Ea by (unfold f; rewrite at_neq by exact Ne; apply at_eq).
  assert (f b = Some a) as Eb by (unfold f; apply at_eq).
  assert (forall fuel, walk fuel (Mem f (prv m) (freed m)) (Some b) = Diverge /\ walk fuel (Mem f (prv m) (freed m)) (Some a) = Diverge) as G.
  { induction fuel as [|fuel [IH1 IH2]]; [split; reflexivity|]. cbn. unfold next. cbn. unfold is_freed. cbn. rewrite Fr. cbn.
    rewrite Ea, Eb. rewrite Fr in *. now rewrite IH1, IH2. }
  intros fuel. rewrite Fr in G. apply G.
Qed.

(* ---- the doubly linked list *)
Record dinv (s : wback) (l : list nat) : Prop := {
  d_fwd : lseg (nxt (w_mem s)) (w_front s) l None;
  d_bwd : lseg (prv (w_mem s)) (w_back s) (rev l) None;
  d_nd : NoDup l;
  d_ok : forall a, In a l -> is_freed (w_mem s) a = false }.

Lemma alloc_prv m a b : b <> a -> prv (allocate true m a) b = prv m b.
Proof. intros N. cbn. now apply at_neq. Qed.
Lemma alloc_dinv m f b l a : dinv (WB m f b) l -> ~ In a l -> dinv (WB (allocate true m a) f b) l.
Proof.
  intros [Fw Bw D F] N. cbn [w_mem w_front w_back] in *. split; cbn [w_mem w_front w_back]; auto.
  - eapply lseg_ext; [|exact Fw]. intros c K. symmetry. apply alloc_nxt. intros ->. auto.
  - eapply lseg_ext; [|exact Bw]. intros c K. symmetry. apply alloc_prv. intros ->. apply N. now apply in_rev.
  - intros c K. now apply alloc_freed, F.
Qed.

Lemma d_push_front_ok m f b l a : dinv (WB m f b) l -> ~ In a l -> is_freed m a = false -> prv m a = None -> nxt m a = None ->
  exists s', d_push_front (WB m f b) a = Ok s' /\ dinv s' (a :: l).
Proof.
  intros [Fw Bw D F] N Fa Pa Na. cbn [w_mem w_front w_back] in *. unfold d_push_front, set_front. cbn [w_mem w_front w_back].
  destruct l as [|x l].
  - cbn in Fw, Bw. subst. cbn [peq negb bind]. rewrite set_next_ok by exact Fa. cbn [bind]. eexists. split; [reflexivity|].
    split; cbn.
    + split; [reflexivity|]. apply at_eq.
    + auto.
    + repeat constructor. auto.
    + intros c [<-|[]]. exact Fa.
  - destruct Fw as [-> Fw]. cbn [rev] in Bw. apply lseg_app in Bw. destruct Bw as (r & Bw & [-> Bx]). cbn in Bx.
    cbn [peq negb]. rewrite set_prev_ok by (apply F; now left). cbn [bind]. rewrite set_next_ok by exact Fa. cbn [bind].
    inversion D as [|? ? Nx D']; subst. assert (a <> x) as Ne by (intros ->; apply N; now left).
    assert (peq b None = false) as Eb.
    { destruct (rev l) as [|y t]; cbn in Bw; [now rewrite Bw|]. destruct Bw as [-> _]. reflexivity. }
    rewrite Eb. eexists. split; [reflexivity|]. split; cbn [w_mem w_front w_back nxt prv freed].
    + cbn. split; [reflexivity|]. rewrite at_eq. split; [reflexivity|]. rewrite at_neq by congruence.
      apply lseg_at; [intros K; apply N; now right|exact Fw].
    + cbn [rev]. rewrite <- app_assoc. apply lseg_app. exists (Some x). split.
      * apply lseg_at; [|exact Bw]. intros K. apply Nx. now apply in_rev.
      * cbn. split; [reflexivity|]. rewrite at_eq. split; [reflexivity|]. now rewrite at_neq.
    + now constructor.
    + intros c [<-|K]; [exact Fa|now apply F].
Qed.

Lemma d_push_back_ok m f b l a : dinv (WB m f b) l -> ~ In a l -> is_freed m a = false -> prv m a = None -> nxt m a = None ->
  exists s', d_push_back (WB m f b) a = Ok s' /\ dinv s' (l ++ [a]).
Proof.
  intros [Fw Bw D F] N Fa Pa Na. cbn [w_mem w_front w_back] in *. unfold d_push_back. cbn [w_mem w_front w_back].
  destruct l as [|x0 l0].
  - cbn in Fw, Bw. subst. cbn [peq negb bind]. rewrite set_prev_ok by exact Fa. cbn [bind]. eexists. split; [reflexivity|].
    split; cbn.
    + auto.
    + split; [reflexivity|]. apply at_eq.
    + repeat constructor. auto.
    + intros c [<-|[]]. exact Fa.
  - destruct (snoc_split (x0 :: l0)) as [u Eu]; [discriminate|]. set (z := last (x0 :: l0) 0) in *. clearbody z.
    assert (peq f None = false) as Ef by (destruct Fw as [-> _]; reflexivity). rewrite Ef.
    rewrite Eu in *. rewrite rev_app_distr in Bw. cbn in Bw. destruct Bw as [-> Bw].
    apply lseg_app in Fw. destruct Fw as (r & Fw & [-> Fz]). cbn in Fz.
    pose proof (nodup_mid _ _ _ D) as (Nz & _). assert (z <> a) as Ne by (intros ->; apply N; apply in_or_app; cbn; auto).
    cbn [peq negb]. rewrite set_next_ok by (apply F; apply in_or_app; cbn; auto). cbn [bind].
    rewrite set_prev_ok by exact Fa. cbn [bind]. eexists. split; [reflexivity|].
    split; cbn [w_mem w_front w_back nxt prv freed].
    + rewrite <- app_assoc. apply lseg_app. exists (Some z). split; [now apply lseg_at|]. cbn. split; [reflexivity|].
      rewrite at_eq. split; [reflexivity|]. now rewrite at_neq by congruence.
    + rewrite !rev_app_distr. cbn. split; [reflexivity|]. rewrite at_eq. split; [reflexivity|].
      rewrite at_neq by exact Ne. apply lseg_at; [|exact Bw]. intros K. apply N. apply in_or_app. left. now apply in_rev.
    + apply nodup_ins; rewrite app_nil_r; assumption.
    + intros c K. apply in_app_iff in K. destruct K as [K|[<-|[]]]; [now apply F|exact Fa].
Qed.

Lemma fresh_facts m a : is_freed (allocate true m a) a = false /\ prv (allocate true m a) a = None /\ nxt (allocate true m a) a = None.
Proof. split; [now apply alloc_freed_self|]. cbn. split; apply at_eq. Qed.

Lemma d_insert_ok s l i a : dinv s l -> In i l -> ~ In a l ->
  exists s', d_insert s (Some i) a = Ok s' /\ dinv s' (put_before i a l).
Proof.
  intros I K N. destruct s as [m f b]. pose proof (alloc_dinv _ _ _ _ _ I N) as I'.
  destruct (fresh_facts m a) as (Fa & Pa & Na). unfold d_insert. cbn [w_mem w_front w_back].
  apply in_split in K. destruct K as (u & v & ->). pose proof (nodup_mid _ _ _ (d_nd _ _ I)) as (Nu & Nv & D').
  rewrite put_before_split by exact Nu. destruct u as [|y0 u0].
  - pose proof (d_fwd _ _ I) as [E _]. cbn in E. rewrite E. cbn [peq]. rewrite Nat.eqb_refl.
    rewrite E in I'. apply (d_push_front_ok _ _ _ _ _ I' N Fa Pa Na).
  - destruct (snoc_split (y0 :: u0)) as [u Eu]; [discriminate|]. set (z := last (y0 :: u0) 0) in *. clearbody z.
    assert (peq (Some i) f = false) as Ef.
    { pose proof (d_fwd _ _ I) as [E _]. cbn in E. rewrite E. cbn. apply Nat.eqb_neq. intros ->. apply Nu. now left. }
    rewrite Ef. rewrite Eu in *. clear Ef Eu y0 u0. set (m0 := allocate true m a) in *. clearbody m0.
    destruct I' as [Fw Bw D F]. cbn [w_mem w_front w_back] in *.
    rewrite rev_app_distr in Bw. cbn [rev] in Bw. rewrite rev_app_distr in Bw. rewrite <- app_assoc in Bw. cbn [app rev] in Bw.
    apply lseg_app in Bw. destruct Bw as (r & Bv & Bw). cbn in Bw. destruct Bw as (-> & Bz & Bu).
    rewrite <- app_assoc in Fw. apply lseg_app in Fw. destruct Fw as (r & Fu & Fw). cbn in Fw. destruct Fw as (-> & Fz & Fv).
    assert (In i ((u ++ [z]) ++ i :: v)) as Ii by (apply in_or_app; cbn; auto).
    assert (In z ((u ++ [z]) ++ i :: v)) as Iz by (rewrite <- app_assoc; apply in_or_app; cbn; auto).
    assert (a <> i) as Nai by (intros ->; auto). assert (a <> z) as Naz by (intros ->; auto).
    assert (z <> i) as Nzi by (intros ->; apply Nu; apply in_or_app; cbn; auto).
    assert (~ In a u) as Nau by (intros J; apply N; rewrite <- app_assoc; apply in_or_app; auto).
    assert (~ In a v) as Nav by (intros J; apply N; apply in_or_app; cbn; auto).
    assert (~ In i u) as Niu by (intros J; apply Nu; apply in_or_app; auto).
    assert (~ In z u /\ ~ In z v) as [Nzu Nzv].
    { assert (NoDup (u ++ z :: i :: v)) as K by (rewrite <- app_assoc in D; exact D). apply nodup_mid in K.
      destruct K as (K1 & K2 & _). split; [exact K1|]. intros J. apply K2. now right. }
    rewrite prev_ok by (apply F, Ii). cbn [bind]. rewrite Bz. rewrite set_next_ok by exact Fa. cbn [bind].
    rewrite set_next_ok by (apply (F z Iz)). cbn [bind]. rewrite set_prev_ok by exact Fa. cbn [bind].
    rewrite set_prev_ok by (apply (F i Ii)). cbn [bind]. eexists. split; [reflexivity|].
    split; cbn [w_mem w_front w_back nxt prv freed].
    + rewrite <- app_assoc. apply lseg_app. exists (Some z). split; [now apply lseg_at, lseg_at|]. cbn. split; [reflexivity|].
      rewrite at_eq. split; [reflexivity|]. rewrite at_neq by exact Naz. rewrite at_eq. split; [reflexivity|].
      rewrite at_neq by congruence. rewrite at_neq by congruence. now apply lseg_at, lseg_at.
    + rewrite rev_app_distr. cbn [rev]. rewrite rev_app_distr. rewrite <- !app_assoc. cbn [app rev].
      apply lseg_app. exists (Some i). split.
      * apply lseg_at; [intros J; apply Nv; now apply in_rev|]. apply lseg_at; [intros J; apply Nav; now apply in_rev|]. exact Bv.
      * cbn. split; [reflexivity|]. rewrite at_eq. split; [reflexivity|]. rewrite at_neq by exact Nai. rewrite at_eq.
        split; [reflexivity|]. rewrite at_neq by exact Nzi. rewrite at_neq by congruence.
        apply lseg_at; [intros J; apply Niu; now apply in_rev|]. apply lseg_at; [intros J; apply Nau; now apply in_rev|]. exact Bu.
    + apply nodup_ins; assumption.
    + intros c K. apply in_app_iff in K. cbn in K. unfold is_freed. cbn. destruct K as [K|[<-|[<-|K]]].
      * apply F. apply in_or_app. auto.
      * exact Fa.
      * now apply F.
      * apply F. apply in_or_app. cbn. auto.
Qed.

Lemma d_step_ok s l op : dinv s l -> dfits1 op l -> (match op with DInsert None _ => l = [] | _ => True end) ->
  exists s', d_step s op = Ok s' /\ dinv s' (dseq1 op l).
Proof.
  intros I F E. destruct op as [a|a|[i|] a]; cbn in F; cbn [d_step dseq1].
  - destruct s as [m f b]. destruct (fresh_facts m a) as (Fa & Pa & Na).
    apply d_push_front_ok; auto. now apply alloc_dinv.
  - destruct s as [m f b]. destruct (fresh_facts m a) as (Fa & Pa & Na).
    apply d_push_back_ok; auto. now apply alloc_dinv.
  - now apply d_insert_ok.
  - subst. unfold d_insert. pose proof (d_fwd _ _ I) as E. cbn in E. rewrite E. cbn [peq]. rewrite <- E.
    destruct s as [m f b]. destruct (fresh_facts m a) as (Fa & Pa & Na).
    apply d_push_front_ok; auto. now apply alloc_dinv.
Qed.

Lemma d_run_ok ops s l : dinv s l -> dfits ops l -> no_end ops l -> exists s', d_run s ops = Ok s' /\ dinv s' (dseqs ops l).
Proof.
  revert s l. induction ops as [|op ops IH]; intros s l I F E; [cbn; eauto|].
  destruct F as [F1 F2]. destruct E as [E1 E2]. destruct (d_step_ok _ _ _ I F1 E1) as (s1 & E & I1). cbn [d_run]. rewrite E.
  cbn [bind]. apply (IH _ _ I1 F2 E2).
Qed.

Lemma dinv_init m : dinv (WB m None None) [].
Proof. split; cbn; auto; try constructor; tauto. Qed.

Lemma walk_back_ok m p l fuel : lseg (prv m) p l None -> (forall a, In a l -> is_freed m a = false) ->
  length l <= fuel -> walk_back fuel m p = Ok l.
Proof.
  revert p fuel. induction l as [|a l IH]; intros p fuel C F L.
  - cbn in C. subst. now destruct fuel.
  - destruct C as [-> C]. destruct fuel as [|fuel]; [cbn in L; lia|]. cbn [walk_back].
    rewrite prev_ok by (apply F; now left). cbn [bind]. rewrite IH; [reflexivity|exact C| |cbn in L; lia].
    intros b K. apply F. now right.
Qed.

Lemma C42_main m ops : dfits ops [] -> no_end ops [] ->
  exists s, d_run (WB m None None) ops = Ok s /\
    (forall fuel, length (dseqs ops []) <= fuel ->
       walk fuel (w_mem s) (w_front s) = Ok (dseqs ops []) /\
       walk_back fuel (w_mem s) (w_back s) = Ok (rev (dseqs ops []))) /\
    (forall a t, dseqs ops [] = a :: t -> front_of (w_mem s) (w_front s) = Ok a) /\
    (forall t a, dseqs ops [] = t ++ [a] -> back_of s = Ok a).
Proof.
  intros F E. destruct (d_run_ok _ _ _ (dinv_init m) F E) as (s & Er & I). exists s. split; [exact Er|].
  destruct I as [Fw Bw D Fr]. split; [|split].
  - intros fuel L. split; [now apply walk_ok|]. apply walk_back_ok; [exact Bw| |now rewrite rev_length].
    intros a K. apply Fr. now apply in_rev.
  - intros a t Et. pose proof (lseg_hd _ _ _ Fw) as ->. rewrite Et. apply deref_ok, Fr. rewrite Et. now left.
  - intros t a Et. unfold back_of. pose proof (lseg_hd _ _ _ Bw) as ->. rewrite Et, rev_app_distr. cbn [rev app hd_error].
    apply deref_ok, Fr. rewrite Et. apply in_or_app. cbn. auto.
Qed.

Lemma d_run_app o1 o2 s : d_run s (o1 ++ o2) = bind (d_run s o1) (fun s' => d_run s' o2).
Proof. revert s. induction o1 as [|o t IH]; intros s; [reflexivity|]. cbn. destruct (d_step s o); cbn; auto. Qed.

(* insertion at the end() of a non-empty list *)
Lemma insert_end m ops a : dfits ops [] -> no_end ops [] -> dseqs ops [] <> [] ->
  d_run (WB m None None) (ops ++ [DInsert None a]) = UB.
Proof.
  intros F E Ne. destruct (d_run_ok _ _ _ (dinv_init m) F E) as (s & Er & I). rewrite d_run_app, Er. cbn [bind d_run d_step].
  unfold d_insert. destruct (dseqs ops []) as [|x l]; [congruence|]. pose proof (d_fwd _ _ I) as [-> _]. reflexivity.
Qed.

(* ---- iterator arithmetic *)
Lemma nth_next m l i a : forall p, lseg (nxt m) p l None -> nth_error l i = Some a -> nxt m a = nth_error l (S i).
Proof.
  revert i. induction l as [|x l IH]; intros i p C E; [now destruct i|]. destruct C as [-> C]. destruct i as [|i].
  - cbn in E. injection E as ->. apply lseg_hd in C. rewrite C. now destruct l.
  - cbn in E. cbn [nth_error]. eapply IH; eauto.
Qed.
Lemma nth_prev m l i a : forall p, lseg (prv m) p (rev l) None -> nth_error l (S i) = Some a -> prv m a = nth_error l i.
Proof.
  revert i. induction l as [|x l IH]; intros i p C E; [now destruct i|]. cbn in C. apply lseg_app in C. destruct C as (r & C & [-> Cx]).
  cbn [nth_error] in E. destruct i as [|i].
  - destruct l as [|y l]; [discriminate|]. cbn in E. injection E as ->. cbn in C. apply lseg_app in C.
    destruct C as (r & C & [-> Cy]). cbn in Cy. exact Cy.
  - cbn [nth_error].
    (* the rest of the list, ending at x *)
    assert (forall l i q r, lseg (prv m) q (rev l) r -> nth_error l (S i) = Some a -> prv m a = nth_error l i) as G.
    { clear. induction l as [|x l IH]; intros i q r C E; [now destruct i|]. cbn in C. apply lseg_app in C.
      destruct C as (r' & C & [-> Cx]). cbn [nth_error] in E. destruct i as [|i].
      - destruct l as [|y l]; [discriminate|]. cbn in E. injection E as ->. cbn in C. apply lseg_app in C.
        destruct C as (r' & C & [-> Cy]). cbn in Cy. exact Cy.
      - cbn [nth_error]. eapply IH; eauto. }
    eapply G; eauto.
Qed.

Lemma plus_ok s l i k : dinv s l -> i + k <= length l ->
  plus (w_mem s) (nth_error l i) k = Ok (nth_error l (i + k)).
Proof.
  intros I. revert i. unfold plus. induction k as [|k IH]; intros i L; cbn; [now rewrite Nat.add_0_r|].
  destruct (nth_error l i) as [a|] eqn:E; [|apply nth_error_None in E; lia].
  rewrite next_ok by (eapply (d_ok _ _ I), nth_error_In, E). cbn [bind]. rewrite (nth_next _ _ _ _ _ (d_fwd _ _ I) E).
  rewrite IH by lia. f_equal. f_equal. lia.
Qed.
Lemma minus_assign_ok s l i k : dinv s l -> i + k < length l ->
  minus_assign (w_mem s) (nth_error l (i + k)) k = Ok (nth_error l i).
Proof.
  intros I. induction k as [|k IH]; intros L; cbn; [now rewrite Nat.add_0_r|].
  rewrite Nat.add_succ_r. destruct (nth_error l (S (i + k))) as [a|] eqn:E; [|apply nth_error_None in E; lia].
  rewrite prev_ok by (eapply (d_ok _ _ I), nth_error_In, E). cbn [bind]. rewrite (nth_prev _ _ _ _ _ (d_bwd _ _ I) E).
  apply IH. lia.
Qed.
Lemma distance_ok s l i j fuel c : dinv s l -> i <= j -> j <= length l -> j - i <= fuel ->
  distance fuel (w_mem s) (nth_error l j) (nth_error l i) c = Ok (j - i + c).
Proof.
  intros I. revert i c. induction fuel as [|fuel IH]; intros i c L1 L2 Lf.
  - assert (i = j) as -> by lia. cbn. rewrite peq_refl. cbn. f_equal. lia.
  - destruct (Nat.eq_dec i j) as [->|Ne]; [cbn; rewrite peq_refl; cbn; f_equal; lia|].
    destruct (nth_error l i) as [a|] eqn:E; [|apply nth_error_None in E; lia].
    assert (peq (Some a) (nth_error l j) = false) as Ep.
    { destruct (peq _ _) eqn:Ep; [|reflexivity]. apply peq_spec in Ep. rewrite <- E in Ep.
      exfalso. apply Ne. apply (proj1 (NoDup_nth_error l) (d_nd _ _ I)); [lia|exact Ep]. }
    cbn [distance]. rewrite Ep. cbn [negb]. rewrite next_ok by (eapply (d_ok _ _ I), nth_error_In, E). cbn [bind].
    rewrite (nth_next _ _ _ _ _ (d_fwd _ _ I) E). rewrite IH by lia. f_equal. lia.
Qed.

Lemma arith_main m ops : dfits ops [] -> no_end ops [] ->
  exists s, d_run (WB m None None) ops = Ok s /\ let l := dseqs ops [] in w_front s = nth_error l 0 /\
    forall i k, i + k <= length l ->
      plus (w_mem s) (nth_error l i) k = Ok (nth_error l (i + k)) /\
      (i + k < length l -> minus_assign (w_mem s) (nth_error l (i + k)) k = Ok (nth_error l i)) /\
      (forall fuel, k <= fuel -> distance fuel (w_mem s) (nth_error l (i + k)) (nth_error l i) 0 = Ok k).
Proof.
  intros F E. destruct (d_run_ok _ _ _ (dinv_init m) F E) as (s & Er & I). exists s. split; [exact Er|]. cbv zeta. split.
  - pose proof (lseg_hd _ _ _ (d_fwd _ _ I)) as ->. now destruct (dseqs ops []).
  - intros i k L. split; [now apply plus_ok|]. split; [intros; now apply minus_assign_ok|].
    intros fuel Lf. rewrite (distance_ok _ _ _ _ _ _ I) by lia. f_equal. lia.
Qed.
Lemma minus_diverges fuel m it k : minus fuel m it k = Diverge.
Proof. induction fuel; cbn; auto. Qed.

(* ---- remove_if on any list that the operations build *)
Lemma remove_all_history own m ops p : clean own m -> fits ops [] -> Forall forward_list_op ops ->
  exists m1 f1 m2 f2, fl_run own (m, None) ops = Ok (m1, f1) /\
    (forall fuel, length (seqs ops []) <= fuel -> remove_if fuel p false m1 f1 = Ok (m2, f2)) /\
    (forall fuel, length (seqs ops []) <= fuel -> walk fuel m2 f2 = Ok (without_every_other p (seqs ops []))) /\
    freed m2 = freed m1.
Proof.
  intros Cl F K. destruct (fl_run_ok own _ _ _ _ Cl (lst_nil m) F K) as (m1 & f1 & E & Cl1 & C).
  destruct (remove_all_ok p _ _ _ _ C (le_n _)) as (m2 & f2 & E2 & W). exists m1, f1, m2, f2.
  split; [exact E|]. split; [|split; [exact W|]].
  - intros fuel L. rewrite <- E2. unfold remove_if in *. clear -L C E2.
    (* more fuel changes nothing *)
    assert (forall a b m f c q r, a <= b -> remove_loop a p false m f c q = Ok r -> remove_loop b p false m f c q = Ok r) as Mono.
    { clear. induction a as [|a IH]; intros b m f c q r L E; destruct c as [c|]; try (destruct b; exact E); [discriminate|].
      destruct b as [|b]; [lia|]. cbn [remove_loop] in *. destruct (next m (Some c)); try discriminate. cbn [bind] in *.
      destruct (p c); [|apply IH; [lia|exact E]].
      destruct (if peq q None then Ok (m, a0) else bind (set_next m q a0) (fun m1 => Ok (m1, f))) as [[m1 f1]| |]; try discriminate.
      cbn [bind] in *. apply IH; [lia|exact E]. }
    rewrite E2. eapply Mono; eauto.
  - eapply remove_loop_freed, E2.
Qed.

Lemma remove_first_history own m ops p : clean own m -> fits ops [] -> Forall forward_list_op ops ->
  exists m1 f1 m2 f2, fl_run own (m, None) ops = Ok (m1, f1) /\
    remove_if (length (seqs ops [])) p true m1 f1 = Ok (m2, f2) /\
    (forall fuel, length (seqs ops []) <= fuel -> walk fuel m2 f2 = Ok (without_first p (seqs ops []))).
Proof.
  intros Cl F K. destruct (fl_run_ok own _ _ _ _ Cl (lst_nil m) F K) as (m1 & f1 & E & Cl1 & C).
  destruct (remove_first_ok p _ _ _ _ C (le_n _)) as (m2 & f2 & E2 & W). exists m1, f1, m2, f2. auto.
Qed.

Lemma remove_no_twins own m ops p : clean own m -> fits ops [] -> Forall forward_list_op ops -> ~ twins p (seqs ops []) ->
  exists m1 f1 m2 f2, fl_run own (m, None) ops = Ok (m1, f1) /\
    (forall fuel, length (seqs ops []) <= fuel -> remove_if fuel p false m1 f1 = Ok (m2, f2)) /\
    (forall fuel, length (seqs ops []) <= fuel -> walk fuel m2 f2 = Ok (filter (fun x => negb (p x)) (seqs ops []))).
Proof.
  intros Cl F K T. destruct (remove_all_history own m ops p Cl F K) as (m1 & f1 & m2 & f2 & E & R & W & _).
  exists m1, f1, m2, f2. rewrite <- (woe_no_twins _ _ T). auto.
Qed.

Lemma remove_twins own m ops p : clean own m -> fits ops [] -> Forall forward_list_op ops -> twins p (seqs ops []) ->
  exists m1 f1 m2 f2 l x, fl_run own (m, None) ops = Ok (m1, f1) /\
    (forall fuel, length (seqs ops []) <= fuel -> remove_if fuel p false m1 f1 = Ok (m2, f2)) /\
    (forall fuel, length (seqs ops []) <= fuel -> walk fuel m2 f2 = Ok l) /\ In x l /\ p x = true.
Proof.
  intros Cl F K T. destruct (remove_all_history own m ops p Cl F K) as (m1 & f1 & m2 & f2 & E & R & W & _).
  destruct (woe_keeps _ _ T) as (x & Ix & Px). exists m1, f1, m2, f2, (without_every_other p (seqs ops [])), x. auto 8.
Qed.
