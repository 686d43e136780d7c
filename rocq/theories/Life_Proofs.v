From Verif Require Import Base Life_Spec Life_Model.
Local Open Scope res_scope.

Section Lists.
Context {A : Type}.
Lemma upd_app (a b : list A) x y : upd (a ++ x :: b) (length a) y = a ++ y :: b.
Proof. induction a as [|z a IH]; cbn; [reflexivity|now rewrite IH]. Qed.
Lemma rd_app (a b : list A) x : rd (a ++ x :: b) (length a) = Ok x.
Proof. unfold rd. rewrite nth_error_app2 by lia. now rewrite Nat.sub_diag. Qed.
Lemma upd_at (a b : list A) x y i : i = length a -> upd (a ++ x :: b) i y = a ++ y :: b.
Proof. intros ->. apply upd_app. Qed.
Lemma rd_at (a b : list A) x i : i = length a -> rd (a ++ x :: b) i = Ok x.
Proof. intros ->. apply rd_app. Qed.
Lemma split_at (l : list A) i : i < length l -> exists a x b, l = a ++ x :: b /\ length a = i.
Proof.
  intros H. destruct (skipn i l) as [|x b] eqn:E.
  - pose proof (skipn_length i l). rewrite E in H0. cbn in H0. lia.
  - exists (firstn i l), x, b. rewrite <- E, firstn_skipn. split; [reflexivity|].
    rewrite firstn_length. lia.
Qed.
Lemma firstn_at (a b : list A) : firstn (length a) (a ++ b) = a.
Proof. rewrite firstn_app, Nat.sub_diag, firstn_all. cbn. apply app_nil_r. Qed.
Lemma skipn_at (a b : list A) : skipn (length a) (a ++ b) = b.
Proof. rewrite skipn_app, Nat.sub_diag, skipn_all. reflexivity. Qed.
End Lists.

Section Life.
Context {V : Type} (ma ca : bool) (mvd : V -> V) (heap nodebug : bool) (moves : nat -> bool) (pad : nat).
Notation run := (run ma mvd heap nodebug moves pad).
Notation do_req := (do_req ma mvd heap nodebug moves pad).

(* the storage of a vector with room for N that owns the elements l *)
Definition inv (N : nat) (l : list V) (v : vec V) : Prop :=
  cells v = map Live l ++ repeat Raw (N - length l) /\ length l <= N /\ used v = length l /\ has v = true.

Lemma grow_fits (v : vec V) n : has v = true -> used v + n <= length (cells v) ->
  grow heap nodebug moves pad v n = vret (used v, set_size v (used v + n)).
Proof.
  intros H Hn. unfold grow, size, ensure_total_capacity, capacity. rewrite H.
  replace (length (cells v) <? used v + n) with false; [reflexivity|].
  symmetry. apply Nat.ltb_ge. lia.
Qed.

Lemma inv_cells_length N l v : inv N l v -> length (cells v) = N.
Proof.
  intros (E & Hl & _). rewrite E, app_length, map_length, repeat_length. lia.
Qed.

Lemma inv_room N l v : inv N l v -> length l < N ->
  cells v = map Live l ++ Raw :: repeat Raw (N - S (length l)).
Proof.
  intros (E & Hl & _) H. rewrite E.
  replace (N - length l) with (S (N - S (length l))) by lia. reflexivity.
Qed.

Lemma push_inv N l v x : inv N l v -> length l < N ->
  exists v', push_back_move heap nodebug moves pad v x = vret v' /\ inv N (l ++ [x]) v' /\
             log v' = log v ++ [Made x] /\ moved v' = moved v.
Proof.
  intros I H. pose proof (inv_cells_length _ _ _ I) as HL. pose proof (inv_room _ _ _ I H) as E.
  destruct I as (_ & _ & Hu & Hh).
  unfold push_back_move. rewrite grow_fits by (auto; lia). cbn [vbind bind vret].
  unfold construct. cbn [cells set_size]. rewrite Hu, E, rd_at by (now rewrite map_length).
  cbn [bind]. eexists. split; [reflexivity|]. unfold with_cells, inv. cbn [cells used has log moved set_size].
  rewrite upd_at by (now rewrite map_length). repeat split; auto.
  - rewrite map_app, <- app_assoc, app_length. cbn. do 3 f_equal. lia.
  - rewrite app_length. cbn. lia.
  - rewrite app_length. cbn. lia.
Qed.

Lemma destroy_last N l x v : inv N (l ++ [x]) v ->
  exists v', pop_back v = vret v' /\ inv N l v' /\ log v' = log v ++ [Died x] /\ moved v' = moved v.
Proof.
  intros (E & Hl & Hu & Hh). rewrite app_length in *. cbn in *.
  unfold pop_back. rewrite Hu. rewrite Nat.add_1_r.
  unfold destroy. rewrite E, map_app, <- app_assoc. cbn [map app].
  rewrite rd_at by (now rewrite map_length). cbn [bind vbind vret].
  eexists. split; [reflexivity|]. unfold inv, with_cells. cbn [cells used has log moved set_size].
  rewrite upd_at by (now rewrite map_length). repeat split; auto; try lia.
  cbn [length]; f_equal; replace (N - length l) with (S (N - (length l + 1))) by lia; reflexivity.
Qed.

Lemma assign_inv N a y b v x : inv N (a ++ y :: b) v ->
  exists v', assign v (length a) x = vret v' /\ inv N (a ++ x :: b) v' /\ log v' = log v /\ moved v' = moved v.
Proof.
  intros (E & Hl & Hu & Hh). unfold assign. rewrite E, map_app, <- app_assoc. cbn [map app].
  rewrite rd_at by (now rewrite map_length). cbn [bind].
  eexists. split; [reflexivity|]. unfold inv, with_cells. cbn [cells used has log moved].
  rewrite upd_at by (now rewrite map_length). rewrite !app_length in *. cbn [length] in *.
  rewrite app_nil_r. repeat split; auto; try lia.
  now rewrite map_app, <- app_assoc.
Qed.

Lemma load_at (v : vec V) a x b i : cells v = a ++ Live x :: b -> i = length a -> load v i = Ok x.
Proof. intros E ->. unfold load. now rewrite E, rd_app. Qed.
Lemma construct_at (v : vec V) a s b i x : cells v = a ++ s :: b -> i = length a ->
  construct v i x = vret (with_cells v (a ++ Live x :: b) [Made x]).
Proof. intros E ->. unfold construct. now rewrite E, rd_app, upd_app. Qed.
Lemma leave_at (v : vec V) a x b i : cells v = a ++ Live x :: b -> i = length a ->
  leave mvd v i = vret (with_cells v (a ++ Live (mvd x) :: b) []).
Proof. intros E ->. unfold leave. rewrite (load_at v a x b) by auto. cbn. now rewrite E, upd_app. Qed.

(* move_assist by one slot when the class is not move assignable *)
Lemma shift_construct a b d rest v :
  cells v = map Live a ++ map Live b ++ d :: rest ->
  exists v', move_assist false mvd v (length a + length b) (length a + length b + 1) (length b) = vret v' /\
    cells v' = map Live a ++ match b with [] => d | x :: _ => Live (mvd x) end :: map Live b ++ rest /\
    used v' = used v /\ has v' = has v /\ moved v' = moved v /\ log v' = log v ++ map Made (rev b).
Proof.
  revert d rest v. induction b as [|x b IH] using rev_ind; intros d rest v E.
  - exists v. cbn. rewrite app_nil_r. repeat split; auto.
  - rewrite app_length. cbn [length]. rewrite Nat.add_1_r. cbn [move_assist].
    replace (length a + S (length b) - 1) with (length a + length b) by lia.
    replace (length a + S (length b) + 1 - 1) with (length a + length b + 1) by lia.
    rewrite map_app in E. rewrite <- app_assoc in E. cbn [map app] in E.
    assert (E1 : cells v = (map Live a ++ map Live b) ++ Live x :: d :: rest)
      by now rewrite <- app_assoc.
    assert (E2 : cells v = (map Live a ++ map Live b ++ [Live x]) ++ d :: rest)
      by (rewrite E1, <- !app_assoc; reflexivity).
    rewrite (load_at v _ _ _ _ E1) by (rewrite app_length, !map_length; lia). cbn [bind].
    rewrite (construct_at v _ _ _ _ x E2) by (rewrite !app_length, !map_length; cbn; lia).
    cbn [bind vbind vret].
    rewrite (leave_at _ (map Live a ++ map Live b) x (Live x :: rest))
      by (cbn [cells with_cells]; rewrite ?app_length, ?map_length, <- ?app_assoc; reflexivity).
    cbn [bind vbind vret]. unfold with_cells. cbn [cells used has moved log].
    destruct (IH (Live (mvd x)) (Live x :: rest)
      (Vec ((map Live a ++ map Live b) ++ Live (mvd x) :: Live x :: rest) (used v) (has v) (moved v)
         ((log v ++ [Made x]) ++ []))) as (v' & R & C & U & Hh & M & L).
    { cbn [cells]. now rewrite <- app_assoc. }
    rewrite R. exists v'. split; [reflexivity|]. cbn [used has moved log] in *.
    rewrite C, rev_app_distr. cbn [rev map app]. repeat split; auto.
    + f_equal. destruct b as [|y b]; cbn; [reflexivity|]. rewrite map_app, <- app_assoc. reflexivity.
    + rewrite L, app_nil_r, <- app_assoc. reflexivity.
Qed.

Lemma insert_inv N a b v x : ma = false \/ b = [] -> inv N (a ++ b) v -> length (a ++ b) < N ->
  exists v', insert_move ma mvd heap nodebug moves pad v (length a) x = vret v' /\ inv N (a ++ x :: b) v' /\
    log v' = log v ++ map Made (rev b) ++ [Made x] /\ moved v' = moved v.
Proof.
  intros Hma I H. pose proof (inv_cells_length _ _ _ I) as HL. pose proof (inv_room _ _ _ I H) as E.
  destruct I as (_ & _ & Hu & Hh). rewrite app_length in *.
  unfold insert_move. rewrite grow_fits by (auto; lia). cbn [vbind bind vret].
  unfold size. rewrite Hh, Hu.
  replace (length a + length b + 1 - 1) with (length a + length b) by lia.
  replace (length a <=? length a + length b) with true by (symmetry; apply Nat.leb_le; lia).
  replace (length a + length b - length a) with (length b) by lia.
  rewrite map_app, <- app_assoc in E.
  set (v1 := set_size v (length a + length b + 1)).
  assert (S1 : exists v', move_assist ma mvd v1 (length a + length b) (length a + length b + 1) (length b) = vret v' /\
    cells v' = map Live a ++ match b with [] => Raw | x :: _ => Live (mvd x) end
      :: map Live b ++ repeat Raw (N - S (length a + length b)) /\
    used v' = used v1 /\ has v' = has v1 /\ moved v' = moved v1 /\ log v' = log v1 ++ map Made (rev b)).
  { destruct Hma as [Hma| ->].
    - rewrite Hma. apply shift_construct. exact E.
    - exists v1. cbn [length rev map app]. rewrite app_nil_r. cbn in E |- *. repeat split; auto. }
  destruct S1 as (v2 & R & C & U & H2 & M & L). rewrite R. cbn [vbind bind vret].
  unfold construct. rewrite C, rd_at by (now rewrite map_length). cbn [bind].
  eexists. split; [reflexivity|]. unfold inv, with_cells. cbn [cells used has moved log].
  rewrite upd_at by (now rewrite map_length). subst v1. cbn [used has moved log set_size] in *.
  rewrite U, H2, M, L, !app_length. cbn [length]. repeat split; auto; try lia.
  - rewrite map_app. cbn [map]. rewrite <- app_assoc. cbn [app]. do 5 f_equal. lia.
  - now rewrite <- app_assoc.
Qed.

(* the calls one request makes, insertions in the middle included *)
Definition calls_made (l : list V) (r : req V) : list (call V) :=
  match r with
  | RInsert i v => map Made (rev (skipn i l)) ++ [Made v]
  | _ => calls_of l r
  end.

Lemma req_inv N l l' r v : ma = false \/ at_end l r = true -> inv N l v -> after_req N l r = Some l' ->
  exists v', do_req v r = vret v' /\ inv N l' v' /\ log v' = log v ++ calls_made l r /\ moved v' = moved v.
Proof.
  intros Hma I. destruct r as [x|x| |i x|i x]; cbn [after_req do_req].
  - destruct (Nat.ltb_spec (length l) N) as [H|H]; [|discriminate]. intros [= <-].
    apply push_inv; assumption.
  - destruct (Nat.ltb_spec (length l) N) as [H|H]; [|discriminate]. intros [= <-].
    apply (push_inv N l v x); assumption.
  - destruct l as [|y l]; [discriminate|]. intros HR.
    assert (Hl' : l' = removelast (y :: l)) by congruence. clear HR. subst l'.
    destruct (exists_last (l := y :: l)) as (l0 & z & E); [discriminate|]. rewrite E in *.
    rewrite removelast_last. destruct (destroy_last _ _ _ _ I) as (v' & R & I' & L & M).
    exists v'. cbn [calls_made calls_of]. rewrite rev_app_distr. cbn. auto.
  - destruct (Nat.ltb_spec (length l) N) as [H|H]; [|discriminate].
    destruct (Nat.leb_spec i (length l)) as [Hi|Hi]; [|discriminate]. intros [= <-].
    cbn [calls_made]. set (a := firstn i l). set (b := skipn i l).
    assert (E : l = a ++ b) by (symmetry; apply firstn_skipn).
    assert (La : i = length a) by (subst a; rewrite firstn_length; lia).
    destruct (insert_inv N a b v x) as (v' & R & I' & L & M).
    + destruct Hma as [Hma|Hma]; [left; exact Hma|right].
      cbn in Hma. apply Nat.eqb_eq in Hma. subst b. apply skipn_all2. lia.
    + rewrite <- E. exact I.
    + rewrite <- E. exact H.
    + rewrite <- La in R. exists v'. auto.
  - destruct (Nat.ltb_spec i (length l)) as [H|H]; [|discriminate]. intros HR.
    assert (Hl' : l' = firstn i l ++ x :: skipn (S i) l) by congruence. clear HR. subst l'.
    destruct (split_at l i H) as (a & y & b & -> & <-).
    rewrite firstn_at. replace (skipn (S (length a)) (a ++ y :: b)) with b.
    2:{ replace (a ++ y :: b) with ((a ++ [y]) ++ b) by (rewrite <- app_assoc; reflexivity).
        replace (S (length a)) with (length (a ++ [y])) by (rewrite app_length; cbn; lia).
        now rewrite skipn_at. }
    cbn [calls_made calls_of]. rewrite app_nil_r. apply (assign_inv N a y b v x I).
Qed.

Lemma calls_made_end l r : at_end l r = true -> calls_made l r = calls_of l r.
Proof.
  destruct r; cbn; try reflexivity. intros H. apply Nat.eqb_eq in H. subst i. now rewrite skipn_all.
Qed.

Fixpoint history_made (N : nat) (l : list V) (rs : list (req V)) : list (call V) :=
  match rs with
  | [] => []
  | r :: t => calls_made l r ++ match after_req N l r with Some l' => history_made N l' t | None => [] end
  end.

Lemma run_inv N rs : forall l l' v, ma = false \/ adds_at_end N l rs = true -> inv N l v ->
  history N l rs = Some l' ->
  exists v', run v rs = vret v' /\ inv N l' v' /\ log v' = log v ++ history_made N l rs /\ moved v' = moved v.
Proof.
  induction rs as [|r rs IH]; intros l l' v Hma I H; cbn in *.
  - injection H as <-. exists v. rewrite app_nil_r. auto.
  - destruct (after_req N l r) as [l1|] eqn:E; [|discriminate].
    rewrite andb_true_iff in Hma.
    destruct (req_inv N l l1 r v) as (v1 & R & I1 & L1 & M1); try tauto.
    rewrite R. cbn [vbind bind vret].
    destruct (IH l1 l' v1) as (v' & R' & I' & L' & M'); try tauto.
    exists v'. rewrite R', L', L1, M', M1, app_assoc. auto.
Qed.

Lemma history_made_end N rs : forall l, adds_at_end N l rs = true -> history_made N l rs = history_calls N l rs.
Proof.
  induction rs as [|r rs IH]; intros l H; cbn in *; [reflexivity|].
  rewrite andb_true_iff in H. destruct H as [H1 H2]. rewrite calls_made_end by exact H1.
  destruct (after_req N l r); [|reflexivity]. now rewrite IH.
Qed.

Lemma look_n_ok (a b : list V) rest v : cells v = map Live (a ++ b) ++ rest ->
  look_n v (length a) (length b) = Ok b.
Proof.
  revert a. induction b as [|x b IH]; intros a E; [reflexivity|].
  cbn [length look_n]. unfold at_, load. rewrite E, map_app, <- app_assoc. cbn [map app].
  rewrite rd_at by (now rewrite map_length). cbn [bind].
  specialize (IH (a ++ [x])). rewrite app_length in IH. cbn [length] in IH.
  rewrite Nat.add_1_r in IH. rewrite IH; [reflexivity|].
  rewrite E. now rewrite <- app_assoc.
Qed.
Lemma look_ok N l v : inv N l v -> look v = Ok l.
Proof.
  intros (E & _ & Hu & Hh). unfold look, size. rewrite Hh, Hu. apply (look_n_ok [] l _ v E).
Qed.

Lemma own_inv N : inv N [] (@own V N).
Proof. unfold inv, own. cbn. rewrite Nat.sub_0_r. repeat split; auto; lia. Qed.

(* counting calls *)
Lemma made_app (a b : list (call V)) : made (a ++ b) = made a + made b.
Proof. unfold made. now rewrite filter_app, app_length. Qed.
Lemma died_app (a b : list (call V)) : died (a ++ b) = died a + died b.
Proof. unfold died. now rewrite filter_app, app_length. Qed.
Lemma made_map (l : list V) : made (map Made l) = length l.
Proof. unfold made. induction l; cbn; auto. Qed.
Lemma died_map (l : list V) : died (map Made l) = 0.
Proof. unfold died. induction l; cbn; auto. Qed.

Lemma req_balance N (l l' : list V) r : after_req N l r = Some l' ->
  made (calls_of l r) + length l = died (calls_of l r) + length l'.
Proof.
  destruct r as [x|x| |i x|i x]; cbn [after_req calls_of].
  - destruct (_ <? _); [|discriminate]. intros [= <-]. rewrite app_length. cbn. lia.
  - destruct (_ <? _); [|discriminate]. intros [= <-]. rewrite app_length. cbn. lia.
  - destruct l as [|y l]; [discriminate|]. intros HR.
    assert (Hl' : l' = removelast (y :: l)) by congruence. clear HR. subst l'.
    destruct (exists_last (l := y :: l)) as (l0 & z & E); [discriminate|]. rewrite E.
    rewrite removelast_last, rev_app_distr, app_length. cbn. lia.
  - destruct (_ && _) eqn:E; [|discriminate]. intros [= <-]. apply andb_true_iff in E. destruct E as [_ E].
    apply Nat.leb_le in E. rewrite app_length. cbn [length]. rewrite firstn_length, skipn_length. cbn. lia.
  - destruct (Nat.ltb_spec i (length l)); [|discriminate]. intros HR.
    assert (Hl' : l' = firstn i l ++ x :: skipn (S i) l) by congruence. clear HR. subst l'.
    rewrite app_length. cbn [length]. rewrite firstn_length, skipn_length. cbn. lia.
Qed.
Lemma history_balance N rs : forall l l' : list V, history N l rs = Some l' ->
  made (history_calls N l rs) + length l = died (history_calls N l rs) + length l'.
Proof.
  induction rs as [|r rs IH]; intros l l' H; cbn [history history_calls] in *.
  - injection H as <-. reflexivity.
  - destruct (after_req N l r) as [l1|] eqn:E; [|discriminate].
    rewrite made_app, died_app. pose proof (req_balance _ _ _ _ E). pose proof (IH _ _ H). lia.
Qed.

(* the caller's array *)
Definition cinv (N : nat) (l : list V) (v : vec V) : Prop :=
  exists tail, cells v = map Live (l ++ tail) /\ length (l ++ tail) = N /\
    used v = length l /\ has v = true /\ log v = [].

Lemma copy_in_ok (src : list V) : forall a old tail v,
  cells v = map Live (a ++ old ++ tail) -> length old = length src ->
  exists v', copy_in v (length a) src = vret v' /\ cells v' = map Live (a ++ src ++ tail) /\
    used v' = used v /\ has v' = has v /\ log v' = log v.
Proof.
  induction src as [|x src IH]; intros a old tail v E H.
  - destruct old; [|discriminate]. exists v. cbn in *. auto.
  - destruct old as [|y old]; [discriminate|]. cbn [copy_in]. unfold assign.
    rewrite E, map_app. cbn [map app]. rewrite rd_at by (now rewrite map_length). cbn [bind vbind vret].
    rewrite upd_at by (now rewrite map_length).
    destruct (IH (a ++ [x]) old tail
      (with_cells v (map Live a ++ Live x :: map Live (old ++ tail)) [])) as (v' & R & C & U & Hh & L).
    + cbn [cells with_cells]. rewrite <- !app_assoc, !map_app. reflexivity.
    + cbn in H. lia.
    + rewrite app_length in R. cbn [length] in R. rewrite Nat.add_1_r in R. rewrite R.
      exists v'. rewrite C, U, Hh, L, <- app_assoc. cbn [used has log with_cells]. rewrite app_nil_r. auto.
Qed.

Lemma grow_cinv N l v n : cinv N l v -> length l + n <= N ->
  grow heap nodebug moves pad v n = vret (length l, set_size v (length l + n)).
Proof.
  intros (tail & E & HN & Hu & Hh & _) H. rewrite <- Hu. apply grow_fits; [exact Hh|].
  rewrite E, map_length. lia.
Qed.

Lemma append_cinv N l v src : cinv N l v -> length l + length src <= N ->
  exists v', append heap nodebug moves pad v src = vret v' /\ cinv N (l ++ src) v'.
Proof.
  intros I H. unfold append. rewrite (grow_cinv N l v _ I H). cbn [vbind bind vret].
  destruct I as (tail & E & HN & Hu & Hh & HL). rewrite app_length in HN.
  destruct (copy_in_ok src l (firstn (length src) tail) (skipn (length src) tail)
    (set_size v (length l + length src))) as (v' & R & C & U & Hh' & L').
  - cbn [cells set_size]. now rewrite firstn_skipn.
  - rewrite firstn_length. lia.
  - rewrite R. exists v'. split; [reflexivity|]. exists (skipn (length src) tail).
    cbn in U, Hh', L'. rewrite C, U, Hh', L', <- app_assoc, !app_length, skipn_length.
    repeat split; auto; lia.
Qed.

(* copy_backward over a block of objects, all alive *)
Lemma copy_assist_ok : forall k pos n (a b c d : list V) v,
  length a = pos -> length b = k ->
  cells v = map Live (a ++ b ++ c ++ d) -> length c = n ->
  exists v' c', copy_assist true v (pos + k) (pos + k + n) k = vret v' /\
    cells v' = map Live (a ++ c' ++ b ++ d) /\ length c' = n /\
    used v' = used v /\ has v' = has v /\ log v' = log v.
Proof.
  induction k as [|k IH]; intros pos n a b c d v Ha Hb E Hc.
  - destruct b; [|discriminate]. exists v, c. cbn in *. auto 8.
  - destruct (exists_last (l := b)) as (b0 & x & ->); [now destruct b|].
    rewrite app_length in Hb. cbn in Hb.
    cbn [copy_assist]. unfold load.
    replace (pos + S k - 1) with (pos + k) by lia.
    replace (pos + S k + n - 1) with (pos + k + n) by lia.
    replace (a ++ (b0 ++ [x]) ++ c ++ d) with ((a ++ b0) ++ x :: c ++ d) in E
      by (rewrite <- !app_assoc; reflexivity).
    rewrite E, map_app. cbn [map]. rewrite rd_at by (rewrite map_length, app_length; lia). cbn [bind].
    unfold assign. rewrite E.
    (* the destination: element n of x :: c *)
    destruct (exists_last (l := x :: c)) as (c1 & y & Ec); [discriminate|].
    assert (Lc1 : length c1 = n).
    { assert (length (x :: c) = length (c1 ++ [y])) by now rewrite Ec.
      rewrite app_length in H. cbn in H. lia. }
    replace ((a ++ b0) ++ x :: c ++ d) with ((a ++ b0 ++ c1) ++ y :: d).
    2:{ change (x :: c ++ d) with ((x :: c) ++ d). rewrite Ec, <- !app_assoc. reflexivity. }
    rewrite map_app. cbn [map]. rewrite rd_at by (rewrite map_length, !app_length; lia).
    cbn [bind vbind vret]. rewrite upd_at by (rewrite map_length, !app_length; lia).
    destruct (IH pos n a b0 c1 (x :: d)
      (with_cells v (map Live (a ++ b0 ++ c1) ++ Live x :: map Live d) [])) as (v' & c' & R & C & Lc & U & Hh & L); auto.
    + lia.
    + cbn [cells with_cells]. rewrite !map_app, <- !app_assoc. reflexivity.
    + rewrite R. exists v', c'. rewrite C, U, Hh, L. cbn [used has log with_cells]. rewrite app_nil_r, <- !app_assoc.
      auto 8.
Qed.

Lemma insert_cinv N a b v src : ca = true -> cinv N (a ++ b) v -> length (a ++ b) + length src <= N ->
  exists v', insert_range ca heap nodebug moves v (length a) src = vret v' /\ cinv N (a ++ src ++ b) v'.
Proof.
  intros Hca (tail & E & HN & Hu & Hh & HL) H. rewrite !app_length in *.
  unfold insert_range, ensure_total_size, ensure_total_capacity, size, capacity. rewrite Hh, Hu, E, map_length.
  rewrite !app_length.
  replace (length a + length b + length tail <? length a + length b + length src) with false
    by (symmetry; apply Nat.ltb_ge; lia).
  cbn [vbind bind vret].
  replace (length a <=? length a + length b) with true by (symmetry; apply Nat.leb_le; lia).
  replace (length a + length b - length a) with (length b) by lia.
  destruct (copy_assist_ok (length b) (length a) (length src) a b (firstn (length src) tail)
    (skipn (length src) tail) (set_size v (length a + length b + length src)))
    as (v1 & c' & R & C & Lc & U & H1 & L1); auto.
  { cbn [cells set_size]. rewrite E, firstn_skipn, <- app_assoc. reflexivity. }
  { rewrite firstn_length. lia. }
  rewrite Hca, R. cbn [vbind bind vret].
  destruct (copy_in_ok src a c' (b ++ skipn (length src) tail) v1) as (v2 & R2 & C2 & U2 & H2 & L2); auto.
  rewrite R2. exists v2. split; [reflexivity|]. exists (skipn (length src) tail).
  rewrite C2, U2, H2, L2, U, H1, L1. cbn [used has log set_size].
  rewrite <- !app_assoc, !app_length, skipn_length. repeat split; auto; lia.
Qed.

Lemma set_cinv N l l' i x v : cinv N l v -> i < length l -> l' = firstn i l ++ x :: skipn (S i) l ->
  exists v', set_at v i x = vret v' /\ cinv N l' v'.
Proof.
  intros (tail & E & HN & Hu & Hh & HL) H ->.
  destruct (split_at l i H) as (a & y & b & -> & <-).
  rewrite firstn_at. replace (skipn (S (length a)) (a ++ y :: b)) with b.
  2:{ replace (a ++ y :: b) with ((a ++ [y]) ++ b) by (rewrite <- app_assoc; reflexivity).
      replace (S (length a)) with (length (a ++ [y])) by (rewrite app_length; cbn; lia).
      now rewrite skipn_at. }
  unfold set_at, assign. rewrite E, <- app_assoc, map_app. cbn [app map].
  rewrite rd_at by (now rewrite map_length). cbn [bind].
  eexists. split; [reflexivity|]. rewrite upd_at by (now rewrite map_length).
  exists tail. unfold with_cells. cbn [cells used has log]. rewrite !app_length in *. cbn [length] in *.
  rewrite HL. repeat split; auto; try lia.
  rewrite <- app_assoc, (map_app Live a). reflexivity.
Qed.

Lemma shrink_cinv N l v n : cinv N l v -> n <= length l ->
  exists v', resize heap nodebug moves v n = vret v' /\ cinv N (firstn n l) v'.
Proof.
  intros (tail & E & HN & Hu & Hh & HL) H. rewrite app_length in HN.
  unfold resize, ensure_total_size, ensure_total_capacity, capacity. rewrite E, map_length, app_length.
  replace (length l + length tail <? n) with false by (symmetry; apply Nat.ltb_ge; lia).
  cbn [vbind bind vret]. eexists. split; [reflexivity|]. exists (skipn n l ++ tail).
  cbn [cells used has log set_size]. rewrite app_assoc, firstn_skipn, app_length, firstn_length.
  repeat split; auto; lia.
Qed.

Lemma crun_cinv N rs : ca = true -> forall l l' v, cinv N l v -> chistory N l rs = Some l' ->
  exists v', crun ca heap nodebug moves pad v rs = vret v' /\ cinv N l' v'.
Proof.
  intros Hca. induction rs as [|r rs IH]; intros l l' v I H; cbn in *.
  - injection H as <-. exists v. auto.
  - destruct (after_creq N l r) as [l1|] eqn:E; [|discriminate].
    assert (Step : exists v1, do_creq ca heap nodebug moves pad v r = vret v1 /\ cinv N l1 v1).
    { destruct r as [xs|i xs|i x|n]; cbn [after_creq do_creq] in *.
      - destruct (Nat.leb_spec (length l + length xs) N); [|discriminate]. injection E as <-.
        now apply append_cinv.
      - destruct (Nat.leb_spec (length l + length xs) N); [|discriminate].
        destruct (Nat.leb_spec i (length l)); [|discriminate]. injection E as <-.
        pose proof (insert_cinv N (firstn i l) (skipn i l) v xs Hca) as P.
        rewrite firstn_skipn, firstn_length in P. replace (Nat.min i (length l)) with i in P by lia. auto.
      - destruct (Nat.ltb_spec i (length l)); [|discriminate].
        apply (set_cinv N l); auto. congruence.
      - destruct (Nat.leb_spec n (length l)); [|discriminate]. injection E as <-. now apply shrink_cinv. }
    destruct Step as (v1 & R & I1). rewrite R. cbn [vbind bind vret]. eauto.
Qed.

Lemma cinv_look N l v : cinv N l v -> look v = Ok l.
Proof.
  intros (tail & E & _ & Hu & Hh & _). unfold look, size. rewrite Hh, Hu.
  apply (look_n_ok [] l (map Live tail)). cbn. now rewrite E, map_app.
Qed.

(* destroying k objects, all alive *)
Lemma array_gone_ok (xs : list V) : forall rest v, cells v = map Live xs ++ rest ->
  exists v', array_gone v (length xs) = vret v' /\ log v' = log v ++ map Died (rev xs).
Proof.
  induction xs as [|x xs IH] using rev_ind; intros rest v E.
  - exists v. cbn. rewrite app_nil_r. auto.
  - rewrite app_length. cbn [length]. rewrite Nat.add_1_r. cbn [array_gone]. unfold destroy.
    rewrite map_app, <- app_assoc in E. cbn [map app] in E.
    rewrite E, rd_at by (now rewrite map_length). cbn [bind vbind vret].
    rewrite upd_at by (now rewrite map_length).
    destruct (IH (Raw :: rest) (with_cells v (map Live xs ++ Raw :: rest) [Died x])) as (v' & R & L); [reflexivity|].
    rewrite R. exists v'. split; [reflexivity|]. rewrite L, rev_app_distr. cbn [log with_cells rev app map].
    now rewrite <- app_assoc.
Qed.

Lemma over_cinv (xs : list V) : cinv (length xs) [] (over xs).
Proof. exists xs. cbn. auto. Qed.

(* the destructors of the caller's array meet a slot without an object *)
Lemma array_gone_dead a s (b : list V) rest v : cells v = a ++ s :: map Live b ++ rest -> (forall x, s <> Live x) ->
  array_gone v (length a + 1 + length b) = UB.
Proof.
  revert rest v. induction b as [|x b IH] using rev_ind; intros rest v E Hs.
  - cbn [length map app] in *. rewrite Nat.add_0_r, Nat.add_1_r. cbn [array_gone]. unfold destroy.
    rewrite E, rd_app. cbn [bind]. destruct s; try reflexivity. now elim (Hs v0).
  - rewrite app_length. cbn [length].
    replace (length a + 1 + (length b + 1)) with (S (length a + 1 + length b)) by lia.
    cbn [array_gone]. unfold destroy.
    rewrite map_app in E. cbn [map] in E.
    replace (a ++ s :: (map Live b ++ [Live x]) ++ rest) with ((a ++ s :: map Live b) ++ Live x :: rest) in E
      by (rewrite <- !app_assoc; reflexivity).
    rewrite E, rd_at by (rewrite app_length; cbn [length]; rewrite map_length; lia). cbn [bind vbind vret].
    rewrite upd_at by (rewrite app_length; cbn [length]; rewrite map_length; lia).
    apply (IH (Raw :: rest)); [|exact Hs]. cbn [cells with_cells]. now rewrite <- app_assoc.
Qed.

End Life.
