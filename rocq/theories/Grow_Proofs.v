From Coq Require Import Lia.
From Verif Require Import Base Grow_Spec Grow_Model.
Local Open Scope res_scope.
Arguments refit : simpl never.

Section Lists.
Context {A : Type}.
Notation cells := (list (option A)).

Lemma upd_at {X} (l : list X) i a : i < length l -> nth_error (upd l i a) i = Some a.
Proof. revert i. induction l as [|x l IH]; intros [|i] H; simpl in *; try lia; auto. apply IH. lia. Qed.
Lemma upd_other {X} (l : list X) i j a : i <> j -> nth_error (upd l i a) j = nth_error l j.
Proof. revert i j. induction l as [|x l IH]; intros [|i] [|j] H; simpl; auto; try lia. Qed.
Lemma upd_length {X} (l : list X) i a : length (upd l i a) = length l.
Proof. revert i. induction l as [|x l IH]; intros [|i]; simpl; auto. Qed.

(* what the memory holds agrees with an element that has a value *)
Definition covers (c d : option A) : Prop := d = None \/ c = d.
Definition covers_all : cells -> cells -> Prop := Forall2 covers.
Lemma cov_refl l : covers_all l l.
Proof. induction l; constructor; auto. right; auto. Qed.
Lemma cov_len k l : covers_all k l -> length k = length l.
Proof. induction 1; simpl; auto. Qed.
Lemma cov_app k k' l l' : covers_all k l -> covers_all k' l' -> covers_all (k ++ k') (l ++ l').
Proof. apply Forall2_app. Qed.
Lemma cov_first n k l : covers_all k l -> covers_all (firstn n k) (firstn n l).
Proof. intros H. revert n. induction H; intros [|n]; simpl; constructor; auto. apply IHForall2. Qed.
Lemma cov_skip n k l : covers_all k l -> covers_all (skipn n k) (skipn n l).
Proof. intros H. revert n. induction H; intros [|n]; simpl; try constructor; auto; apply IHForall2. Qed.
Lemma cov_none k n : length k = n -> covers_all k (repeat None n).
Proof. intros <-. induction k; simpl; constructor; auto. left; auto. Qed.
Lemma cov_nth k l i a : covers_all k l -> nth_error l i = Some (Some a) -> nth_error k i = Some (Some a).
Proof.
  intros H. revert i. induction H as [|c d k l Hc H IH]; intros [|i]; simpl; intros E; try discriminate.
  - injection E as ->. destruct Hc as [Q|Q]; [discriminate|]. subst. reflexivity.
  - apply IH, E.
Qed.
Lemma cov_values k l vs : covers_all k l -> values l = Some vs -> k = map Some vs.
Proof.
  intros H. revert vs. induction H as [|c d k l Hc H IH]; intros vs; simpl; intros E.
  - injection E as <-. reflexivity.
  - destruct d as [a|]; [|discriminate]. destruct (values l) eqn:V; [|discriminate]. injection E as <-.
    destruct Hc as [Q|Q]; [discriminate|]. subst. simpl. f_equal. auto.
Qed.
Lemma all_values_ok vs : all_values (map Some vs) = Ok (vs : list A).
Proof. induction vs as [|a vs IH]; simpl; auto. rewrite IH. reflexivity. Qed.
Lemma values_map l vs : values l = Some vs -> l = map (@Some A) vs.
Proof. intros H. apply (cov_values l l vs (cov_refl l) H). Qed.
Lemma same_length eqA (l r : list A) : length l <> length r -> same eqA l r = false.
Proof.
  revert r. induction l as [|a l IH]; intros [|b r] H; simpl in *; auto; try lia.
  rewrite IH by lia. apply Bool.andb_false_r.
Qed.
Lemma equal_cells_ok eqA (l r : list A) : length l = length r ->
  equal_cells eqA (map Some l) (map Some r) = Ok (same eqA l r).
Proof.
  revert r. induction l as [|a l IH]; intros [|b r] H; simpl in *; auto; try lia.
  destruct (eqA a b); simpl; auto.
Qed.
Lemma first_app (l r : cells) : firstn (length l) (l ++ r) = l.
Proof. rewrite firstn_app, Nat.sub_diag, firstn_all, firstn_O, app_nil_r. reflexivity. Qed.
Lemma skip_app (l r : cells) : skipn (length l) (l ++ r) = r.
Proof. rewrite skipn_app, Nat.sub_diag, skipn_all. reflexivity. Qed.
Lemma skip_skip (l : cells) i j : skipn i (skipn j l) = skipn (j + i) l.
Proof. revert l. induction j as [|j IH]; intros [|x l]; simpl; auto. apply skipn_nil. Qed.
Lemma nth_one (k : cells) i c : nth_error k i = Some c -> firstn 1 (skipn i k) = [c].
Proof. revert i. induction k as [|x k IH]; intros [|i] E; simpl in *; try discriminate. - congruence. - apply IH, E. Qed.
Lemma nth_some_lt {X} (k : list X) i c : nth_error k i = Some c -> i < length k.
Proof. intros E. apply nth_error_Some. congruence. Qed.
End Lists.

Section Grow.
Context {A : Type} (eqA : A -> A -> bool) (grants : nat -> nat -> bool) (moves : nat -> bool) (pad : nat).
Notation cells := (list (option A)).
Notation world := (@world A).
Context (G : forall k n, 0 < n -> grants k n = true).

(* memory that belongs to others is what it was *)
Definition frame (v : vec) (w : world) (v' : vec) (w' : world) : Prop :=
  forall id m, (hnd v' <> Some id /\ nth_error (hp w') id = Some (Some m)) <-> (hnd v <> Some id /\ nth_error (hp w) id = Some (Some m)).
Lemma frame_refl v w : frame v w v w.
Proof. intros id m. tauto. Qed.
Lemma frame_trans v w v1 w1 v2 w2 : frame v w v1 w1 -> frame v1 w1 v2 w2 -> frame v w v2 w2.
Proof. intros H1 H2 id m. rewrite (H2 id m), (H1 id m). tauto. Qed.
Lemma frame_size v w v' w' n : frame v w v' w' -> frame v w (set_size v' n) w'.
Proof. intros H. exact H. Qed.
Lemma frame_size_l v w v' w' n : frame v w v' w' -> frame (set_size v n) w v' w'.
Proof. intros H. exact H. Qed.

(* v holds k, followed by spare *)
Definition holds (w : world) (v : vec) (k spare : cells) : Prop :=
  match hnd v with
  | None => cap v = 0 /\ sz v = 0 /\ k = [] /\ spare = []
  | Some id => nth_error (hp w) id = Some (Some (k ++ spare)) /\ length (k ++ spare) = cap v /\ sz v = length k
  end.
Lemma holds_size w v k r : holds w v k r -> size v = length k.
Proof.
  unfold holds, size, is_allocated. destruct (hnd v).
  - intros (_ & _ & E). exact E.
  - intros (_ & _ & -> & _). reflexivity.
Qed.
Lemma holds_cap w v k r : holds w v k r -> cap v = length (k ++ r).
Proof. unfold holds. destruct (hnd v); intros H; [|destruct H as (-> & _ & -> & ->); reflexivity]. symmetry. apply H. Qed.
Lemma holds_empty w v k r : holds w v k r -> empty v = Nat.eqb (length k) 0.
Proof.
  unfold holds, empty. destruct (hnd v); intros H.
  - destruct H as (_ & _ & ->). reflexivity.
  - destruct H as (_ & -> & -> & _). reflexivity.
Qed.
(* the size can be set to anything the block has room for *)
Lemma holds_resize w v k r n : holds w v k r -> n <= cap v ->
  holds w (set_size v n) (firstn n (k ++ r)) (skipn n (k ++ r)).
Proof.
  unfold holds, set_size. simpl. destruct (hnd v).
  - intros (E & L & S) Hn. rewrite firstn_skipn. repeat split; auto. rewrite firstn_length_le; auto. lia.
  - intros (C & S & -> & ->) Hn. assert (n = 0) by lia. subst n. repeat split; auto.
Qed.

Lemma refit_grow n (m : cells) : length m <= n -> refit n m = m ++ repeat None (n - length m).
Proof. intros H. unfold refit. apply firstn_all2. rewrite app_length, repeat_length. lia. Qed.
Lemma refit_any n (k r : cells) : length k <= n -> exists r', refit n (k ++ r) = k ++ r' /\ length (k ++ r') = n.
Proof.
  intros H. exists (firstn (n - length k) (r ++ repeat None (n - length (k ++ r)))).
  assert (E : refit n (k ++ r) = k ++ firstn (n - length k) (r ++ repeat None (n - length (k ++ r)))).
  { unfold refit. rewrite <- app_assoc, firstn_app, (firstn_all2 k) by lia. reflexivity. }
  split; auto. rewrite <- E. unfold refit. rewrite firstn_length, !app_length, repeat_length. lia.
Qed.
Lemma refit_length n (m : cells) : length (refit n m) = n.
Proof. unfold refit. rewrite firstn_length, app_length, repeat_length. lia. Qed.

Lemma nth_last {X} (l : list X) x : nth_error (l ++ [x]) (length l) = Some x.
Proof. rewrite nth_error_app2, Nat.sub_diag by lia. reflexivity. Qed.
Lemma nth_app_iff {X} (l : list X) x j y : j <> length l -> nth_error (l ++ [x]) j = Some y <-> nth_error l j = Some y.
Proof.
  intros H. destruct (Nat.lt_ge_cases j (length l)).
  - rewrite nth_error_app1 by lia. tauto.
  - rewrite nth_error_app2 by lia. assert (nth_error l j = None) as -> by (apply nth_error_None; lia).
    destruct (j - length l) as [|[|q]] eqn:Q; simpl; try lia; split; discriminate.
Qed.

Lemma reserve_ok v w k r n : holds w v k r -> length k <= n ->
  exists b v' w' r', reserve grants moves v w n = Ok (b, v', w') /\ holds w' v' k r' /\ cap v' = n /\ sz v' = sz v /\
    frame v w v' w' /\ (0 < n -> b = true).
Proof.
  intros H Hn. unfold reserve. destruct v as [h c s]. simpl. destruct h as [id|].
  - destruct H as (E & L & S). simpl in *. unfold hrealloc, block. rewrite E. simpl.
    assert (Hid := nth_some_lt _ _ _ E).
    destruct (refit_any n k r Hn) as (r' & R & RL).
    destruct (grants (calls w) n) eqn:Gr.
    + destruct (moves (calls w)) eqn:Mv.
      * simpl. do 4 eexists. split; [reflexivity|]. unfold holds. simpl. split; [|split; [reflexivity|split; [reflexivity|split]]].
        -- rewrite <- (upd_length (hp w) id None), nth_last, R. repeat split; auto.
        -- intros j m. simpl. rewrite <- (upd_length (hp w) id None). split.
           ++ intros (Q & F). assert (J : j <> length (upd (hp w) id None)) by congruence.
              apply nth_app_iff in F; auto. destruct (Nat.eq_dec id j) as [->|Ne].
              ** rewrite upd_at in F by auto. discriminate.
              ** rewrite upd_other in F by auto. split; auto. congruence.
           ++ intros (Q & F). assert (Ne : id <> j) by congruence.
              assert (J := nth_some_lt _ _ _ F). rewrite upd_length. split; [intros Q2; injection Q2 as Q2; lia|].
              apply nth_app_iff; [rewrite upd_length; lia|]. rewrite upd_other; auto.
        -- auto.
      * simpl. do 4 eexists. split; [reflexivity|]. unfold holds. simpl. split; [|split; [reflexivity|split; [reflexivity|split]]].
        -- rewrite upd_at by auto. rewrite R. repeat split; auto.
        -- intros j m. simpl. split; intros (Q & F); split; auto.
           ++ rewrite upd_other in F by congruence. auto.
           ++ rewrite upd_other by congruence. auto.
        -- auto.
    + assert (n = 0) as -> by (destruct n; auto; rewrite G in Gr by lia; discriminate).
      assert (k = []) as -> by (destruct k; auto; simpl in Hn; lia). simpl.
      exists false, (Vec None 0 s), (W (upd (hp w) id None) (Datatypes.S (calls w))), []. split; [reflexivity|].
      split; [repeat split; auto|]. split; [reflexivity|]. split; [reflexivity|]. split; [|lia].
      intros j m. simpl. destruct (Nat.eq_dec id j) as [->|Ne].
      * rewrite upd_at by auto. split; intros (Q & F); congruence.
      * rewrite upd_other by auto. split; intros (Q & F); split; auto; congruence.
  - destruct H as (C & S & -> & ->). simpl in *. unfold halloc. destruct (grants (calls w) n) eqn:Gr; simpl.
    + exists true, (Vec (Some (length (hp w))) n s), (W (hp w ++ [Some (repeat None n)]) (Datatypes.S (calls w))), (repeat None n).
      split; [reflexivity|]. unfold holds. simpl. split; [rewrite nth_last, repeat_length; repeat split; auto|].
      split; [reflexivity|]. split; [reflexivity|]. split; [|auto].
      intros j m. simpl. split; intros (Q & F); split; try discriminate.
      * apply nth_app_iff in F; auto.
      * intros E. injection E as <-. apply nth_some_lt in F. lia.
      * apply nth_app_iff; auto. intros ->. apply nth_some_lt in F. lia.
    + assert (n = 0) as -> by (destruct n; auto; rewrite G in Gr by lia; discriminate).
      exists false, (Vec None 0 s), (W (hp w) (Datatypes.S (calls w))), []. split; [reflexivity|].
      split; [repeat split; auto|]. split; [reflexivity|]. split; [reflexivity|]. split; [|lia].
      intros j m. simpl. tauto.
Qed.

Lemma ensure_cap_ok v w k r n p : holds w v k r -> length k <= n ->
  exists v' w' r', ensure_total_capacity grants moves v w n p = Ok (true, v', w') /\ holds w' v' k r' /\ n <= cap v' /\
    frame v w v' w'.
Proof.
  intros H Hn. unfold ensure_total_capacity. destruct (Nat.ltb_spec (cap v) n) as [L|L].
  - destruct (reserve_ok v w k r (n + p) H ltac:(lia)) as (b & v' & w' & r' & E & H' & C & _ & F & B).
    rewrite E, B by lia. do 3 eexists. split; [reflexivity|]. split; [eauto|]. split; [lia|auto].
  - do 3 eexists. split; [reflexivity|]. split; [eauto|]. split; [lia|apply frame_refl].
Qed.
(* growing to n: the elements stay, the new ones are anything *)
Lemma ensure_size_ok v w k r n p : holds w v k r -> length k <= n ->
  exists v' w' ext r', ensure_total_size grants moves v w n p = Ok (true, v', w') /\ holds w' v' (k ++ ext) r' /\
    length ext = n - length k /\ frame v w v' w'.
Proof.
  intros H Hn. unfold ensure_total_size.
  destruct (ensure_cap_ok v w k r n p H Hn) as (v' & w' & r' & E & H' & C & F). rewrite E. simpl.
  pose proof (holds_resize w' v' k r' n H' C) as HR. pose proof (holds_cap _ _ _ _ H') as HC. rewrite app_length in HC.
  exists (set_size v' n), w', (firstn (n - length k) r'), (skipn (n - length k) r'). split; [reflexivity|].
  rewrite firstn_app, skipn_app, (firstn_all2 k), (skipn_all2 k) in HR by lia. split; [exact HR|].
  split; [rewrite firstn_length; lia|]. exact F.
Qed.
Lemma shrink_size_ok v w k r n p : holds w v k r -> n <= length k ->
  exists r', ensure_total_size grants moves v w n p = Ok (true, set_size v n, w) /\ holds w (set_size v n) (firstn n k) r'.
Proof.
  intros H Hn. pose proof (holds_cap _ _ _ _ H) as HC. rewrite app_length in HC.
  unfold ensure_total_size, ensure_total_capacity.
  destruct (Nat.ltb_spec (cap v) n); [lia|]. simpl. eexists. split; [reflexivity|].
  pose proof (holds_resize w v k r n H ltac:(lia)) as HR.
  rewrite firstn_app in HR. replace (n - length k) with 0 in HR by lia. rewrite firstn_O, app_nil_r in HR. exact HR.
Qed.
Lemma grow_ok v w k r n : holds w v k r ->
  exists v' w' ext r', grow grants moves pad v w n = Ok (length k, v', w') /\ holds w' v' (k ++ ext) r' /\
    length ext = n /\ frame v w v' w' /\ size v' = length k + n.
Proof.
  intros H. unfold grow. rewrite (holds_size _ _ _ _ H).
  destruct (ensure_size_ok v w k r (length k + n) pad H ltac:(lia)) as (v' & w' & ext & r' & E & H' & L & F).
  unfold ensure_total_size in E. destruct (ensure_total_capacity _ _ _ _ _ _) as [[[b v1] w1]| |] eqn:Q; try discriminate.
  simpl in *. destruct b; [|discriminate]. injection E as <- <-.
  do 4 eexists. split; [reflexivity|]. split; [exact H'|]. split; [lia|]. split; [exact F|].
  rewrite (holds_size _ _ _ _ H'), app_length. lia.
Qed.

Lemma get_ok w v k r pos n : holds w v k r -> pos + n <= length k ->
  get_n v w pos n = Ok (firstn n (skipn pos k)).
Proof.
  intros H L. unfold get_n. destruct (Nat.eqb_spec n 0) as [->|N]; [reflexivity|].
  unfold holds in H. destruct (hnd v).
  - destruct H as (E & C & S). unfold block. rewrite E. simpl.
    destruct (Nat.leb_spec (pos + n) (length (k ++ r))) as [?|B]; [|rewrite app_length in B; lia].
    f_equal. rewrite skipn_app. replace (pos - length k) with 0 by lia. simpl.
    rewrite firstn_app, skipn_length. replace (n - (length k - pos)) with 0 by lia. rewrite firstn_O, app_nil_r. reflexivity.
  - destruct H as (_ & _ & -> & _). simpl in L. lia.
Qed.
Lemma put_ok w v k r pos (xs : cells) : holds w v k r -> pos + length xs <= length k ->
  exists w', put_n v w pos xs = Ok w' /\ holds w' v (firstn pos k ++ xs ++ skipn (pos + length xs) k) r /\ frame v w v w'.
Proof.
  intros H L. unfold put_n. destruct (Nat.eqb_spec (length xs) 0) as [Z|N].
  - destruct xs; [|discriminate]. exists w. split; [reflexivity|]. simpl. rewrite Nat.add_0_r, firstn_skipn.
    split; [exact H|apply frame_refl].
  - unfold holds in H. destruct (hnd v) as [id|] eqn:Hh.
    + destruct H as (E & C & S). unfold block. rewrite E. simpl.
      destruct (Nat.leb_spec (pos + length xs) (length (k ++ r))) as [?|B]; [|rewrite app_length in B; lia].
      assert (Hid := nth_some_lt _ _ _ E).
      eexists. split; [reflexivity|]. unfold holds. rewrite Hh. simpl. rewrite upd_at by auto.
      assert (Q : firstn pos (k ++ r) ++ xs ++ skipn (pos + length xs) (k ++ r) = (firstn pos k ++ xs ++ skipn (pos + length xs) k) ++ r).
      { rewrite firstn_app, skipn_app. replace (pos - length k) with 0 by lia. replace (pos + length xs - length k) with 0 by lia.
        simpl. rewrite app_nil_r, <- !app_assoc. reflexivity. }
      rewrite Q. assert (QL : length (firstn pos k ++ xs ++ skipn (pos + length xs) k) = length k).
      { rewrite !app_length, firstn_length, skipn_length. lia. }
      split; [split; [reflexivity|split; [|lia]]|].
      * rewrite app_length, QL. rewrite <- C, app_length. reflexivity.
      * intros j m. simpl. rewrite Hh. split; intros (Q1 & F); split; auto.
        -- rewrite upd_other in F by congruence. auto.
        -- rewrite upd_other by congruence. auto.
    + destruct H as (_ & _ & -> & _). simpl in L. lia.
Qed.
Lemma put_end w v k r (xs : cells) (ext : cells) : holds w v (k ++ ext) r -> length ext = length xs ->
  exists w', put_n v w (length k) xs = Ok w' /\ holds w' v (k ++ xs) r /\ frame v w v w'.
Proof.
  intros H L. destruct (put_ok w v (k ++ ext) r (length k) xs H) as (w' & E & H' & F); [rewrite app_length; lia|].
  exists w'. split; [exact E|]. split; [|exact F].
  rewrite first_app, (skipn_all2 (k ++ ext)), app_nil_r in H' by (rewrite app_length; lia). exact H'.
Qed.

(* memory others use stays readable across any such change *)
Lemma holds_other v w v' w' u k r : frame v w v' w' -> holds w u k r -> (forall id, hnd u = Some id -> hnd v <> Some id) ->
  holds w' u k r.
Proof.
  intros F H D. unfold holds in *. destruct (hnd u) as [id|] eqn:E; auto.
  destruct H as (H1 & H2). split; auto. apply (F id _). auto.
Qed.

Definition outcome (w : world) (v : vec) (m : result (vec * world)) (k' : cells) : Prop :=
  exists v' w' r', m = Ok (v', w') /\ holds w' v' k' r' /\ frame v w v' w'.

Lemma append_ok w v k r xs : holds w v k r -> outcome w v (append grants moves pad v w xs) (k ++ map Some xs).
Proof.
  intros H. unfold append, outcome. destruct (grow_ok v w k r (length xs) H) as (v' & w' & ext & r' & E & H' & L & F & _).
  rewrite E. simpl. destruct (put_end w' v' k r' (map Some xs) ext H') as (w2 & P & H2 & F2); [rewrite map_length; auto|].
  rewrite P. simpl. do 3 eexists. split; [reflexivity|]. split; [exact H2|]. eapply frame_trans; eauto.
Qed.
Lemma emplace_ok w v k r a : holds w v k r -> outcome w v (emplace_back grants moves pad v w a) (k ++ [Some a]).
Proof.
  intros H. unfold emplace_back, outcome. destruct (grow_ok v w k r 1 H) as (v' & w' & ext & r' & E & H' & L & F & _).
  rewrite E. cbn [bind]. destruct (put_end w' v' k r' [Some a] ext H' L) as (w2 & P & H2 & F2).
  rewrite P. cbn [bind]. do 3 eexists. split; [reflexivity|]. split; [exact H2|]. eapply frame_trans; eauto.
Qed.
Lemma pop_ok w v k r : holds w v k r -> 0 < length k -> outcome w v (pop_back v w) (firstn (length k - 1) k).
Proof.
  intros H L. unfold pop_back, outcome. rewrite (holds_size _ _ _ _ H), (get_ok w v k r) by (auto; lia). cbn [bind].
  pose proof (holds_cap _ _ _ _ H) as HC. rewrite app_length in HC.
  pose proof (holds_resize w v k r (length k - 1) H ltac:(lia)) as HR.
  rewrite firstn_app in HR. replace (length k - 1 - length k) with 0 in HR by lia. rewrite firstn_O, app_nil_r in HR.
  do 3 eexists. split; [reflexivity|]. split; [exact HR|apply frame_size, frame_refl].
Qed.
(* shifting the tail by n and filling the gap *)
Lemma shift_ok w v (k ext : cells) r i (xs : cells) : holds w v (k ++ ext) r -> length ext = length xs -> i <= length k ->
  exists w2 w3, get_n v w i (length k - i) = Ok (skipn i k) /\ put_n v w (i + length xs) (skipn i k) = Ok w2 /\
    put_n v w2 i xs = Ok w3 /\ holds w3 v (firstn i k ++ xs ++ skipn i k) r /\ frame v w v w3.
Proof.
  intros H L I. rewrite (get_ok w v (k ++ ext) r) by (auto; rewrite app_length; lia).
  assert (G0 : firstn (length k - i) (skipn i (k ++ ext)) = skipn i k).
  { rewrite skipn_app. replace (i - length k) with 0 by lia. simpl.
    rewrite <- (skipn_length i k). rewrite firstn_app, Nat.sub_diag, firstn_O, app_nil_r. apply firstn_all. }
  rewrite G0.
  destruct (put_ok w v (k ++ ext) r (i + length xs) (skipn i k) H) as (w2 & P & H2 & F2);
    [rewrite app_length, skipn_length; lia|].
  rewrite (skipn_all2 (k ++ ext)) in H2 by (rewrite app_length, skipn_length; lia). rewrite app_nil_r in H2.
  set (p := firstn (i + length xs) (k ++ ext)) in *.
  assert (PL : length p = i + length xs) by (unfold p; rewrite firstn_length, app_length; lia).
  destruct (put_ok w2 v (p ++ skipn i k) r i xs H2) as (w3 & P3 & H3 & F3); [rewrite app_length; lia|].
  exists w2, w3. split; [reflexivity|]. split; [exact P|]. split; [exact P3|]. split; [|eapply frame_trans; eauto].
  assert (Q1 : firstn i (p ++ skipn i k) = firstn i k).
  { rewrite firstn_app. replace (i - length p) with 0 by lia. rewrite firstn_O, app_nil_r. unfold p.
    rewrite firstn_firstn, firstn_app. replace (Nat.min i (i + length xs)) with i by lia.
    replace (i - length k) with 0 by lia. rewrite firstn_O, app_nil_r. reflexivity. }
  assert (Q2 : skipn (i + length xs) (p ++ skipn i k) = skipn i k) by (rewrite <- PL; apply skip_app).
  rewrite Q1, Q2 in H3. exact H3.
Qed.
Lemma insert_ok w v k r i xs : holds w v k r -> i <= length k ->
  outcome w v (insert_range grants moves v w i xs) (firstn i k ++ map Some xs ++ skipn i k).
Proof.
  intros H I. unfold insert_range, outcome. rewrite (holds_size _ _ _ _ H).
  destruct (ensure_size_ok v w k r (length k + length xs) 0 H ltac:(lia)) as (v' & w' & ext & r' & E & H' & L & F).
  rewrite E. cbn [bind].
  destruct (shift_ok w' v' k ext r' i (map Some xs) H') as (w2 & w3 & E1 & E2 & E3 & H3 & F3);
    [rewrite map_length; lia|auto|]. rewrite map_length in E2. rewrite E1. cbn [bind]. rewrite E2. cbn [bind]. rewrite E3. cbn [bind].
  do 3 eexists. split; [reflexivity|]. split; [exact H3|]. eapply frame_trans; eauto.
Qed.
Lemma insert_move_ok w v k r i a : holds w v k r -> i <= length k ->
  outcome w v (insert_move grants moves pad v w i a) (firstn i k ++ Some a :: skipn i k).
Proof.
  intros H I. unfold insert_move, outcome. rewrite (holds_size _ _ _ _ H).
  destruct (grow_ok v w k r 1 H) as (v' & w' & ext & r' & E & H' & L & F & _).
  rewrite E. cbn [bind]. rewrite Nat.add_sub.
  destruct (shift_ok w' v' k ext r' i [Some a] H') as (w2 & w3 & E1 & E2 & E3 & H3 & F3); [exact L|auto|].
  cbn [length] in E2. rewrite E1. cbn [bind]. rewrite E2. cbn [bind]. rewrite E3. cbn [bind].
  do 3 eexists. split; [reflexivity|]. split; [exact H3|]. eapply frame_trans; eauto.
Qed.
Lemma erase_ok w v k r i : holds w v k r -> i < length k ->
  outcome w v (erase v w i) (firstn i k ++ skipn (S i) k).
Proof.
  intros H I. unfold erase, outcome. rewrite (holds_size _ _ _ _ H).
  change (get_n (set_size v (length k - 1)) w (i + 1) (length k - (i + 1))) with (get_n v w (i + 1) (length k - (i + 1))).
  rewrite (get_ok w v k r) by (auto; lia). cbn [bind].
  rewrite Nat.add_1_r. rewrite (firstn_all2 (skipn (S i) k)) by (rewrite skipn_length; lia).
  destruct (put_ok w v k r i (skipn (S i) k) H) as (w2 & P & H2 & F2); [rewrite skipn_length; lia|].
  change (put_n (set_size v (length k - 1)) w i (skipn (S i) k)) with (put_n v w i (skipn (S i) k)).
  rewrite P. cbn [bind]. do 3 eexists. split; [reflexivity|]. split; [|apply frame_size; exact F2].
  pose proof (holds_cap _ _ _ _ H2) as HC.
  set (t := skipn (i + length (skipn (S i) k)) k) in *.
  assert (TL : length t = 1) by (unfold t; rewrite !skipn_length; lia).
  assert (KL : length (firstn i k ++ skipn (S i) k) = length k - 1) by (rewrite app_length, firstn_length, skipn_length; lia).
  rewrite app_assoc in H2. rewrite app_assoc in HC.
  pose proof (holds_resize w2 v _ r (length k - 1) H2) as HR.
  rewrite <- app_assoc, <- KL in HR. rewrite first_app in HR. rewrite KL in HR. apply HR.
  rewrite HC, !app_length in *. lia.
Qed.
Lemma resize_up w v k r n : holds w v k r -> length k <= n ->
  exists ext, length ext = n - length k /\ outcome w v (resize grants moves v w n) (k ++ ext).
Proof.
  intros H L. unfold resize, outcome. destruct (ensure_size_ok v w k r n 0 H L) as (v' & w' & ext & r' & E & H' & EL & F).
  rewrite E. cbn [bind]. exists ext. split; auto. exists v', w', r'. auto.
Qed.
Lemma resize_down w v k r n : holds w v k r -> n <= length k -> outcome w v (resize grants moves v w n) (firstn n k).
Proof.
  intros H L. unfold resize, outcome. destruct (shrink_size_ok v w k r n 0 H L) as (r' & E & H').
  rewrite E. cbn [bind]. do 3 eexists. split; [reflexivity|]. split; [exact H'|apply frame_size, frame_refl].
Qed.
Lemma shrink_ok w v k r : holds w v k r -> outcome w v (shrink_to_fit grants moves v w) k.
Proof.
  intros H. unfold shrink_to_fit, outcome. rewrite (holds_size _ _ _ _ H).
  destruct (reserve_ok v w k r (length k) H ltac:(lia)) as (b & v' & w' & r' & E & H' & _ & _ & F & _).
  rewrite E. cbn [bind]. eauto 6.
Qed.
Lemma append_vec_ok w v k r y ky ry : holds w v k r -> holds w y ky ry -> (forall id, hnd y = Some id -> hnd v <> Some id) ->
  outcome w v (append_vec grants moves pad false v y w) (k ++ ky).
Proof.
  intros H Hy D. unfold append_vec, outcome. rewrite (holds_size _ _ _ _ Hy).
  destruct (grow_ok v w k r (length ky) H) as (v' & w' & ext & r' & E & H' & L & F & _). rewrite E. cbn [bind].
  pose proof (holds_other _ _ _ _ _ _ _ F Hy D) as Hy'. unfold copy_to. rewrite (holds_size _ _ _ _ Hy'), Nat.ltb_irrefl.
  rewrite (get_ok w' y ky ry) by (auto; lia). simpl skipn. rewrite firstn_all. cbn [bind].
  destruct (put_end w' v' k r' ky ext H' L) as (w2 & P & H2 & F2). rewrite P. cbn [bind].
  do 3 eexists. split; [reflexivity|]. split; [exact H2|]. eapply frame_trans; eauto.
Qed.
Lemma append_self_ok w v k r : holds w v k r -> outcome w v (append_vec grants moves pad true v v w) (k ++ k).
Proof.
  intros H. unfold append_vec, outcome. rewrite (holds_size _ _ _ _ H).
  destruct (grow_ok v w k r (length k) H) as (v' & w' & ext & r' & E & H' & L & F & SZ). rewrite E. cbn [bind].
  unfold copy_to. rewrite SZ. destruct (Nat.ltb_spec (length k + length k) (length k)); [lia|].
  rewrite (get_ok w' v' (k ++ ext) r') by (auto; rewrite app_length; lia). simpl skipn. rewrite first_app. cbn [bind].
  destruct (put_end w' v' k r' k ext H' L) as (w2 & P & H2 & F2). rewrite P. cbn [bind].
  do 3 eexists. split; [reflexivity|]. split; [exact H2|]. eapply frame_trans; eauto.
Qed.
Lemma assign_vec_ok w v k r y ky ry : holds w v k r -> holds w y ky ry -> (forall id, hnd y = Some id -> hnd v <> Some id) ->
  outcome w v (assign_vec grants moves false v y w) ky.
Proof.
  intros H Hy D. unfold assign_vec, outcome. rewrite (holds_size _ _ _ _ Hy).
  assert (X : exists v' w' k' r', ensure_total_size grants moves v w (length ky) 0 = Ok (true, v', w') /\ holds w' v' k' r' /\
    length k' = length ky /\ frame v w v' w').
  { destruct (Nat.le_gt_cases (length k) (length ky)) as [C|C].
    - destruct (ensure_size_ok v w k r (length ky) 0 H C) as (v' & w' & ext & r' & E & H' & L & F).
      exists v', w', (k ++ ext), r'. rewrite app_length, L. repeat (split; auto). lia.
    - destruct (shrink_size_ok v w k r (length ky) 0 H ltac:(lia)) as (r' & E & H').
      do 4 eexists. split; [exact E|]. split; [exact H'|]. split; [rewrite firstn_length; lia|apply frame_size, frame_refl]. }
  destruct X as (v' & w' & k' & r' & E & H' & L & F). rewrite E. cbn [bind].
  pose proof (holds_other _ _ _ _ _ _ _ F Hy D) as Hy'. unfold copy_to. rewrite (holds_size _ _ _ _ Hy'), Nat.ltb_irrefl.
  rewrite (get_ok w' y ky ry) by (auto; lia). simpl skipn. rewrite firstn_all. cbn [bind].
  destruct (put_end w' v' [] r' ky k' H' L) as (w2 & P & H2 & F2). cbn [length] in P. rewrite P. cbn [bind].
  do 3 eexists. split; [reflexivity|]. split; [exact H2|]. eapply frame_trans; eauto.
Qed.

(* the containers hold what the lists hold, in blocks of their own, and there is no other live block *)
Definition rel (s : @gst A) (i : gideal A) : Prop :=
  (forall x, exists k r, holds (wd s) (vs s x) k r /\ covers_all k (i x)) /\
  (forall x y id, hnd (vs s x) = Some id -> hnd (vs s y) = Some id -> x = y) /\
  (forall id, live s id -> exists x, hnd (vs s x) = Some id).
Lemma rel_start : rel gstart all_empty.
Proof.
  split; [|split].
  - intros x. exists [], []. split; [repeat split|constructor].
  - intros x y id H. discriminate.
  - intros id (m & H). destruct id; discriminate.
Qed.
Lemma rel_distinct s i x y : rel s i -> x <> y -> forall id, hnd (vs s y) = Some id -> hnd (vs s x) <> Some id.
Proof. intros (_ & D & _) N id E Q. apply N, (D x y id); auto. Qed.
Lemma gset_same (i : gideal A) x l : gset i x l x = l.
Proof. unfold gset. rewrite Nat.eqb_refl. reflexivity. Qed.
Lemma rel_change s i x v' w' k' r' l : rel s i -> holds w' v' k' r' -> frame (vs s x) (wd s) v' w' -> covers_all k' l ->
  rel (set_vec s x v' w') (gset i x l).
Proof.
  intros (H & D & Lv) H' F C. split; [|split].
  - intros y. simpl. unfold gset. destruct (Nat.eqb_spec y x) as [->|N]; [eauto|].
    destruct (H y) as (k & r & Hy & Cy). exists k, r. split; auto. eapply holds_other; eauto.
  - assert (O : forall y id, y <> x -> hnd (vs s y) = Some id -> hnd v' <> Some id).
    { intros y id N E. destruct (H y) as (k & r & Hy & _). unfold holds in Hy. rewrite E in Hy.
      destruct Hy as (B & _). apply (F id (k ++ r)). split; auto. intros Q. apply N, (D y x id); auto. }
    intros y z id. simpl. destruct (Nat.eqb_spec y x) as [->|Ny], (Nat.eqb_spec z x) as [->|Nz]; intros E1 E2; auto.
    + destruct (O z id Nz E2 E1).
    + destruct (O y id Ny E1 E2).
    + eapply D; eauto.
  - intros id (m & E). simpl in E.
    destruct (hnd v') as [j|] eqn:J; [destruct (Nat.eq_dec j id) as [->|Nj]|].
    + exists x. simpl. rewrite Nat.eqb_refl. exact J.
    + destruct (proj1 (F id m)) as (N & B); [split; auto; congruence|].
      destruct (Lv id) as (y & Y); [exists m; auto|]. exists y. simpl. destruct (Nat.eqb_spec y x) as [->|Ny]; congruence.
    + destruct (proj1 (F id m)) as (N & B); [split; auto; congruence|].
      destruct (Lv id) as (y & Y); [exists m; auto|]. exists y. simpl. destruct (Nat.eqb_spec y x) as [->|Ny]; congruence.
Qed.
Lemma rel_out s i x m k' l : rel s i -> outcome (wd s) (vs s x) m k' -> covers_all k' l ->
  exists s', upd_vec s x m = Ok ([], s') /\ rel s' (gset i x l).
Proof.
  intros R (v' & w' & r' & E & H & F) C. unfold upd_vec. rewrite E. cbn [bind]. eexists. split; [reflexivity|].
  eapply rel_change; eauto.
Qed.
Lemma rel_ext s i j : rel s i -> (forall x, i x = j x) -> rel s j.
Proof. intros (H & D & L) E. split; [|split]; auto. intros x. rewrite <- E. auto. Qed.

Lemma step_ok s i o b i' : rel s i -> gideal_step eqA i o = Some (b, i') ->
  exists s', gstep eqA grants moves pad s o = Ok (b, s') /\ rel s' i'.
Proof.
  intros R E. assert (R0 := R). destruct R0 as (H & D & Lv).
  destruct o; cbn [gideal_step] in E;
    try (destruct (H x) as (k & r & Hx & Cx); pose proof (cov_len _ _ Cx) as CL).
  - injection E as <- <-. cbn [gstep]. eapply rel_out; [exact R|apply (append_ok _ _ _ _ xs Hx)|]. apply cov_app; auto. apply cov_refl.
  - injection E as <- <-. cbn [gstep]. eapply rel_out; [exact R|apply (append_ok _ _ _ _ [a] Hx)|]. apply cov_app; auto. apply cov_refl.
  - injection E as <- <-. cbn [gstep]. eapply rel_out; [exact R|apply (emplace_ok _ _ _ _ a Hx)|]. apply cov_app; auto. apply cov_refl.
  - destruct (Nat.ltb_spec 0 (length (i x))); [|discriminate]. injection E as <- <-. cbn [gstep].
    eapply rel_out; [exact R|apply (pop_ok _ _ _ _ Hx); lia|]. rewrite CL. apply cov_first; auto.
  - destruct (Nat.leb_spec i0 (length (i x))); [|discriminate]. injection E as <- <-. cbn [gstep].
    eapply rel_out; [exact R|apply (insert_ok _ _ _ _ i0 xs Hx); lia|].
    apply cov_app; [apply cov_first; auto|]. apply cov_app; [apply cov_refl|apply cov_skip; auto].
  - destruct (Nat.leb_spec i0 (length (i x))); [|discriminate]. injection E as <- <-. cbn [gstep].
    eapply rel_out; [exact R|apply (insert_move_ok _ _ _ _ i0 a Hx); lia|].
    apply cov_app; [apply cov_first; auto|]. constructor; [right; auto|apply cov_skip; auto].
  - destruct (Nat.ltb_spec i0 (length (i x))); [|discriminate]. injection E as <- <-. cbn [gstep].
    eapply rel_out; [exact R|apply (erase_ok _ _ _ _ i0 Hx); lia|].
    apply cov_app; [apply cov_first; auto|apply (cov_skip (S i0)); auto].
  - injection E as <- <-. cbn [gstep]. eapply rel_out; [exact R|apply (resize_down _ _ _ _ 0 Hx); lia|]. constructor.
  - injection E as <- <-. cbn [gstep]. destruct (Nat.le_gt_cases (length k) n) as [C|C].
    + destruct (resize_up _ _ _ _ n Hx C) as (ext & EL & O). eapply rel_out; [exact R|exact O|].
      rewrite firstn_all2 by (rewrite app_length, repeat_length; lia). apply cov_app; auto. apply cov_none. lia.
    + eapply rel_out; [exact R|apply (resize_down _ _ _ _ n Hx); lia|].
      rewrite firstn_app. replace (n - length (i x)) with 0 by lia. simpl. rewrite app_nil_r. apply cov_first; auto.
  - destruct (Nat.leb_spec (length (i x)) n); [|discriminate]. injection E as <- <-. cbn [gstep].
    destruct (reserve_ok _ _ _ _ n Hx ltac:(lia)) as (b & v' & w' & r' & Q & H' & _ & _ & F & _).
    rewrite Q. cbn [bind]. eexists. split; [reflexivity|].
    eapply rel_ext; [eapply rel_change; [exact R|exact H'|exact F|exact Cx]|].
    intros y. unfold gset. destruct (Nat.eqb_spec y x); subst; auto.
  - injection E as <- <-. cbn [gstep]. destruct (rel_out s i x _ _ (i x) R (shrink_ok _ _ _ _ Hx) Cx) as (s' & Q & R').
    exists s'. split; auto. eapply rel_ext; [exact R'|]. intros y. unfold gset. destruct (Nat.eqb_spec y x); subst; auto.
  - injection E as <- <-. cbn [gstep]. destruct (Nat.eqb_spec x y) as [<-|N].
    + eapply rel_out; [exact R|apply (append_self_ok _ _ _ _ Hx)|]. apply cov_app; auto.
    + destruct (H y) as (ky & ry & Hy & Cy).
      eapply rel_out; [exact R|apply (append_vec_ok _ _ _ _ _ _ _ Hx Hy); eapply rel_distinct; eauto|]. apply cov_app; auto.
  - destruct (Nat.eqb_spec x y) as [<-|N]; [discriminate|]. injection E as <- <-. cbn [gstep].
    destruct (Nat.eqb_spec x y) as [Q|_]; [contradiction|].
    destruct (H y) as (ky & ry & Hy & Cy).
    eapply rel_out; [exact R|apply (assign_vec_ok _ _ _ _ _ _ _ Hx Hy); eapply rel_distinct; eauto|]. auto.
  - destruct (Nat.ltb_spec i0 (length (i x))); [|discriminate]. injection E as <- <-. simpl gstep.
    destruct (put_ok _ _ _ _ i0 [Some a] Hx) as (w' & P & H' & F); [simpl; lia|]. rewrite P. cbn [bind].
    eexists. split; [reflexivity|]. eapply rel_change; [exact R|exact H'|exact F|]. cbn [length app]. rewrite Nat.add_1_r.
    apply cov_app; [apply cov_first; auto|]. constructor; [right; auto|apply (cov_skip (S i0)); auto].
  - injection E as <- <-. cbn [gstep]. rewrite (holds_size _ _ _ _ Hx), CL. eauto.
  - injection E as <- <-. cbn [gstep]. rewrite (holds_empty _ _ _ _ Hx), CL. eauto.
  - destruct (nth_error (i x) i0) as [[a|]|] eqn:Q; try discriminate. injection E as <- <-. cbn [gstep].
    pose proof (cov_nth _ _ _ _ Cx Q) as Qk. pose proof (nth_some_lt _ _ _ Qk) as Ql.
    rewrite (get_ok _ _ _ _ i0 1 Hx ltac:(lia)). cbn [bind]. rewrite (nth_one _ _ _ Qk). simpl. eauto.
  - destruct (values (i x)) as [l|] eqn:V; [|discriminate]. injection E as <- <-. cbn [gstep].
    rewrite (holds_size _ _ _ _ Hx), (get_ok _ _ _ _ 0 (length k) Hx ltac:(lia)). cbn [bind skipn].
    rewrite firstn_all, (cov_values _ _ _ Cx V), all_values_ok. cbn [bind]. eauto.
  - destruct (values (i x)) as [l|] eqn:V; [|discriminate].
    destruct (values (i y)) as [l2|] eqn:V2; [|discriminate]. injection E as <- <-. cbn [gstep]. unfold equal.
    destruct (H y) as (ky & ry & Hy & Cy).
    rewrite (holds_size _ _ _ _ Hx), (holds_size _ _ _ _ Hy).
    pose proof (cov_values _ _ _ Cx V) as ->. pose proof (cov_values _ _ _ Cy V2) as ->. rewrite !map_length.
    destruct (Nat.eqb_spec (length l) (length l2)) as [L|L]; cbn [negb].
    + rewrite (get_ok _ _ _ _ 0 (length l) Hx) by (rewrite map_length; lia).
      rewrite (get_ok _ _ _ _ 0 (length l) Hy) by (rewrite map_length; lia). cbn [bind skipn].
      rewrite !firstn_all2 by (rewrite map_length; lia). rewrite equal_cells_ok by auto. cbn [bind]. eauto.
    + cbn [bind]. rewrite same_length by auto. eauto.
  - injection E as <- <-. cbn [gstep]. rewrite (holds_size _ _ _ _ Hx), (holds_cap _ _ _ _ Hx), app_length.
    destruct (Nat.leb_spec (length k) (length k + length r)); [eauto|lia].
Qed.
Lemma run_ok os : forall s i b i', rel s i -> gideal_run eqA i os = Some (b, i') ->
  exists s', grun eqA grants moves pad s os = Ok (b, s') /\ rel s' i'.
Proof.
  induction os as [|o os IH]; intros s i b i' R E; simpl in *.
  - injection E as <- <-. eauto.
  - destruct (gideal_step eqA i o) as [[b1 i1]|] eqn:E1; [|discriminate].
    destruct (gideal_run eqA i1 os) as [[b2 i2]|] eqn:E2; [|discriminate]. injection E as <- <-.
    destruct (step_ok _ _ _ _ _ R E1) as (s1 & Q1 & R1). rewrite Q1. cbn [bind].
    destruct (IH _ _ _ _ R1 E2) as (s2 & Q2 & R2). rewrite Q2. cbn [bind]. eauto.
Qed.
Lemma run_rel os b b' i s : gideal_run eqA all_empty os = Some (b, i) -> grun eqA grants moves pad gstart os = Ok (b', s) ->
  b' = b /\ rel s i.
Proof.
  intros E Q. destruct (run_ok os _ _ _ _ rel_start E) as (s' & Q' & R). rewrite Q in Q'. injection Q' as -> ->. auto.
Qed.
End Grow.
