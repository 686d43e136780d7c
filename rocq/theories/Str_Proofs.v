From Verif Require Import Base BaseLemmas SliceLemmas Algo_Model Algo_Spec Algo_Proofs Dyn_Spec Dyn_Model Dyn_View Dyn_Proofs Str_Spec Str_Model Str_View.
Local Open Scope res_scope.

Lemma rd_mid {A} (p : list A) x r i : i = length p -> rd (p ++ x :: r) i = Ok x.
Proof. intros ->. apply rd_ok. rewrite nth_error_app2 by lia. now rewrite Nat.sub_diag. Qed.

Lemma app_snoc {A} (p : list A) x r : p ++ x :: r = (p ++ [x]) ++ r.
Proof. now rewrite <- app_assoc. Qed.

(* ---------- comparison ---------- *)
Fixpoint lexcmp (a b : list Z) : Z :=
  match a, b with
  | x :: a', y :: b' => if Z.ltb x y then (-1)%Z else if Z.ltb y x then 1%Z else lexcmp a' b'
  | _, _ => 0%Z
  end.

Lemma ct_compare_ok : forall (xs ys p q r t : list Z) i j, length xs = length ys -> i = length p -> j = length q ->
  ct_compare (length xs) (p ++ xs ++ r) i (q ++ ys ++ t) j = Ok (lexcmp xs ys).
Proof.
  induction xs as [|x xs IH]; intros [|y ys] p q r t i j L Hi Hj; try discriminate; auto.
  cbn [length ct_compare app lexcmp]. rewrite !rd_mid by auto. cbn [bind].
  destruct (Z.ltb x y); auto. destruct (Z.ltb y x); auto.
  rewrite (app_snoc p), (app_snoc q). apply IH; [cbn in L; lia| |]; rewrite app_length; cbn; lia.
Qed.

Lemma lexcmp_spec : forall a b, length a = length b ->
  (lexcmp a b = 0 <-> a = b)%Z /\ (lexcmp a b < 0 <-> lex_lt a b)%Z /\ (0 < lexcmp a b <-> lex_lt b a)%Z.
Proof.
  induction a as [|x a IH]; intros [|y b] L; try discriminate.
  - cbn. repeat split; intros; auto; try lia; try tauto.
  - cbn [lexcmp lex_lt]. destruct (IH b) as (E & S1 & S2); [cbn in L; lia|].
    destruct (Z.ltb_spec x y); [|destruct (Z.ltb_spec y x)].
    + split; [split; [lia|intros [= ? ?]; lia]|]. split; [split; [auto|lia]|].
      split; [lia|]. intros [?|[? ?]]; lia.
    + split; [split; [lia|intros [= ? ?]; lia]|]. split; [split; [lia|intros [?|[? ?]]; lia]|].
      split; [auto|lia].
    + assert (x = y) by lia. subst y. split; [|split].
      * rewrite E. split; [congruence|intros [= ?]; auto].
      * rewrite S1. split; [auto|intros [?|[? ?]]; [lia|auto]].
      * rewrite S2. split; [auto|intros [?|[? ?]]; [lia|auto]].
Qed.

Lemma compare_n_ok sm a l b l2 t : text a l -> b = l2 ++ t -> length l2 < sm ->
  exists r, compare_n sm a b (length l2) = Ok r /\
    (r = 0 <-> l = l2)%Z /\ (r < 0 <-> shortlex_lt l l2)%Z /\ (0 < r <-> shortlex_lt l2 l)%Z.
Proof.
  intros (rest & Em & El) Eb L. unfold compare_n, shortlex_lt. rewrite Nat.mod_small by auto. rewrite El.
  destruct (Nat.ltb_spec (length l) (length l2)); [|destruct (Nat.ltb_spec (length l2) (length l))].
  - eexists; split; [reflexivity|]. split; [split; [lia|intros ->; lia]|]. split; [split; [auto|lia]|].
    split; [lia|]. intros [?|[? ?]]; lia.
  - eexists; split; [reflexivity|]. split; [split; [lia|intros ->; lia]|].
    split; [split; [lia|intros [?|[? ?]]; lia]|]. split; auto. lia.
  - assert (length l = length l2) as LE by lia.
    rewrite Em, Eb, <- LE. rewrite (ct_compare_ok l l2 [] [] rest t) by auto.
    eexists; split; [reflexivity|]. destruct (lexcmp_spec l l2 LE) as (E & S1 & S2).
    rewrite E, S1, S2. split; [tauto|]. split; (split; [auto|intros [?|[_ ?]]; [lia|auto]]).
Qed.

Lemma compare_ok sm a l b l2 : text a l -> text b l2 -> length l2 < sm ->
  exists r, compare sm a b = Ok r /\
    (r = 0 <-> l = l2)%Z /\ (r < 0 <-> shortlex_lt l l2)%Z /\ (0 < r <-> shortlex_lt l2 l)%Z.
Proof.
  intros Ha (t & Eb & El) L. unfold compare. rewrite El. eapply compare_n_ok; eauto.
Qed.

Lemma strlenz_ok m s : c_string m s -> strlenz m = Ok (length s).
Proof.
  intros [N (rest & ->)]. induction s as [|x s IH]; cbn [app strlenz length]; auto.
  destruct (Z.eqb_spec x 0) as [->|]; [exfalso; apply N; now left|].
  rewrite IH; [reflexivity|]. intros K. apply N. now right.
Qed.

Lemma compare_c_ok sm a l m s : text a l -> c_string m s -> length s < sm ->
  exists r, compare_c sm a m = Ok r /\
    (r = 0 <-> l = s)%Z /\ (r < 0 <-> shortlex_lt l s)%Z /\ (0 < r <-> shortlex_lt s l)%Z.
Proof.
  intros Ha Hc L. unfold compare_c. rewrite (strlenz_ok m s Hc). cbn [bind].
  destruct Hc as [_ (rest & E)]. eapply compare_n_ok; eauto.
Qed.

Lemma eq_op_ok sm a l b l2 : text a l -> text b l2 -> length l2 < sm ->
  exists r, eq_op sm a b = Ok r /\ (r = true <-> l = l2).
Proof.
  intros Ha Hb L. destruct (compare_ok sm a l b l2 Ha Hb L) as (r & E & E0 & _).
  unfold eq_op. rewrite E. cbn [bind]. eexists; split; [reflexivity|]. now rewrite Z.eqb_eq.
Qed.
Lemma eq_c_ok sm a l m s : text a l -> c_string m s -> length s < sm ->
  exists r, eq_c sm a m = Ok r /\ (r = true <-> l = s).
Proof.
  intros Ha Hb L. destruct (compare_c_ok sm a l m s Ha Hb L) as (r & E & E0 & _).
  unfold eq_c. rewrite E. cbn [bind]. eexists; split; [reflexivity|]. now rewrite Z.eqb_eq.
Qed.

Lemma array_eq_ok sm a l b l2 : text a l -> text b l2 -> length l2 < sm ->
  exists r, array_eq sm a b = Ok r /\ (r = true <-> l = l2).
Proof.
  intros (t1 & E1 & L1) (t2 & E2 & L2) L. unfold array_eq. rewrite L2, Nat.mod_small, L1 by auto.
  destruct (Nat.eqb_spec (length l) (length l2)) as [LE|NE].
  - destruct (equal_spec Z.eqb Z.eqb_eq (mem a) 0 (length l) (mem b) 0) as (r & E & G);
      try (rewrite ?E1, ?E2, ?app_length; lia).
    exists r. split; auto. rewrite G. split.
    + intros H. apply list_ext. intros i. destruct (Nat.lt_ge_cases i (length l)) as [Hi|Hi].
      * destruct (H i) as (x & X1 & X2); [lia|]. rewrite E1, nth_error_app1 in X1 by (cbn; lia).
        rewrite E2, nth_error_app1 in X2 by (cbn; lia). cbn in X1, X2. congruence.
      * rewrite (proj2 (nth_error_None l i)), (proj2 (nth_error_None l2 i)) by lia. auto.
    + intros <- j Hj. destruct (nth_error l j) as [x|] eqn:Ex.
      * exists x. rewrite E1, E2. cbn [Nat.add]. rewrite !nth_error_app1 by lia. auto.
      * apply nth_error_None in Ex. lia.
  - exists false. split; auto. split; [discriminate|]. intros ->. lia.
Qed.

Lemma compare_long sm a l b l2 : 0 < sm -> text a l -> text b l2 -> sm <= length l2 ->
  compare sm a b = compare sm a (SRef (mem b) (length l2 mod sm)) /\
  text (SRef (mem b) (length l2 mod sm)) (firstn (length l2 mod sm) l2) /\ length l2 mod sm < sm.
Proof.
  intros H0 Ha (t & E & L) H. assert (length l2 mod sm < sm) as B by (apply Nat.mod_upper_bound; lia).
  split; [|split; auto].
  - unfold compare, compare_n. cbn [mem len]. rewrite L, (Nat.mod_small (length l2 mod sm)) by auto. reflexivity.
  - exists (skipn (length l2 mod sm) l2 ++ t). cbn [mem len]. rewrite app_assoc, firstn_skipn. split; auto.
    rewrite firstn_length. lia.
Qed.

Lemma eq_long sm a l b l2 : 0 < sm -> text a l -> text b l2 -> sm <= length l2 ->
  exists r, eq_op sm a b = Ok r /\ (r = true <-> l = firstn (length l2 mod sm) l2).
Proof.
  intros H0 Ha Hb H. destruct (compare_long sm a l b l2 H0 Ha Hb H) as (E & T & B).
  unfold eq_op. rewrite E.
  destruct (compare_ok sm a l _ _ Ha T) as (r & Er & E0 & _).
  { rewrite firstn_length. lia. }
  rewrite Er. cbn [bind]. eexists; split; [reflexivity|]. now rewrite Z.eqb_eq.
Qed.

Lemma compare_length sm a l b l2 : text a l -> text b l2 -> length l < length l2 -> length l2 < sm ->
  compare sm a b = Ok (-1)%Z /\ compare sm b a = Ok 1%Z.
Proof.
  intros (t1 & E1 & L1) (t2 & E2 & L2) H B. unfold compare, compare_n. rewrite L1, L2, !Nat.mod_small by lia.
  split.
  - destruct (Nat.ltb_spec (length l) (length l2)); [auto|lia].
  - destruct (Nat.ltb_spec (length l2) (length l)); [lia|]. destruct (Nat.ltb_spec (length l) (length l2)); [auto|lia].
Qed.

(* shortlex is a strict total order *)
Lemma lex_trans : forall a b c, lex_lt a b -> lex_lt b c -> lex_lt a c.
Proof.
  induction a as [|x a IH]; intros [|y b] [|z c]; cbn; try tauto.
  intros [H|[-> H]] [K|[-> K]]; try (left; lia). right. split; auto. eapply IH; eauto.
Qed.
Lemma lex_irr : forall a, ~ lex_lt a a.
Proof. induction a as [|x a IH]; cbn; [tauto|]. intros [?|[_ ?]]; [lia|tauto]. Qed.
Lemma lex_tri : forall a b, length a = length b -> lex_lt a b \/ a = b \/ lex_lt b a.
Proof.
  induction a as [|x a IH]; intros [|y b] L; try discriminate; [right; left; auto|].
  cbn. destruct (Z.lt_trichotomy x y) as [?|[->|?]]; auto.
  destruct (IH b) as [?|[->|?]]; auto.
Qed.
Lemma shortlex_order :
  (forall a, ~ shortlex_lt a a) /\
  (forall a b c, shortlex_lt a b -> shortlex_lt b c -> shortlex_lt a c) /\
  (forall a b, shortlex_lt a b \/ a = b \/ shortlex_lt b a).
Proof.
  unfold shortlex_lt. split; [|split].
  - intros a [?|[_ ?]]; [lia|]. now apply (lex_irr a).
  - intros a b c [?|[? H]] [?|[? K]]; try (left; lia). right. split; [lia|]. eapply lex_trans; eauto.
  - intros a b. destruct (Nat.lt_trichotomy (length a) (length b)) as [?|[H|?]]; auto.
    destruct (lex_tri a b H) as [?|[?|?]]; auto.
Qed.

(* ---------- find(ch) ---------- *)
Lemma find_ch_loop_ok sm ch : forall n m pos, pos + n <= length m ->
  (exists r, find_ch_loop sm n m ch pos = Ok r /\ pos <= r < pos + n /\ nth_error m r = Some ch /\
      forall i, pos <= i < r -> nth_error m i <> Some ch) \/
  (find_ch_loop sm n m ch pos = Ok (npos sm) /\ forall i, pos <= i < pos + n -> nth_error m i <> Some ch).
Proof.
  induction n as [|n IH]; intros m pos H; cbn [find_ch_loop].
  - right. split; auto. intros i Hi. lia.
  - destruct (rd_lt m pos) as (x & Hx & ->); [lia|]. cbn [bind].
    destruct (Z.eqb_spec x ch) as [->|NE].
    + left. exists pos. split; auto. split; [lia|]. split; auto. intros i Hi. lia.
    + destruct (IH m (S pos)) as [(r & E & Hr & Hx2 & N)|(E & N)]; [lia| |].
      * left. exists r. split; auto. split; [lia|]. split; auto. intros i Hi.
        destruct (Nat.eq_dec i pos) as [->|]; [congruence|]. apply N. lia.
      * right. split; auto. intros i Hi. destruct (Nat.eq_dec i pos) as [->|]; [congruence|]. apply N. lia.
Qed.

Lemma find_ch_ok sm a l ch pos : text a l ->
  (forall r, least_from (fun i => nth_error l i = Some ch) pos r -> find_ch sm a ch pos = Ok r) /\
  ((forall r, pos <= r -> nth_error l r <> Some ch) -> find_ch sm a ch pos = Ok (npos sm)).
Proof.
  intros (t & E & L). unfold find_ch. rewrite E, L.
  assert (forall i, i < length l -> nth_error (l ++ t) i = nth_error l i) as HA
    by (intros; now apply nth_error_app1).
  destruct (Nat.le_gt_cases (length l) pos) as [Hp|Hp].
  { replace (length l - pos) with 0 by lia. cbn [find_ch_loop]. split; auto.
    intros r (Hr & Hx & _). assert (r < length l) by (apply nth_error_Some; congruence). lia. }
  destruct (find_ch_loop_ok sm ch (length l - pos) (l ++ t) pos) as [(r & Er & Hr & Hx & N)|(Er & N)];
    [rewrite app_length; lia| |]; rewrite Er.
  - rewrite HA in Hx by lia. split.
    + intros r2 (H1 & H2 & H3). f_equal. destruct (Nat.lt_trichotomy r r2) as [H|[->|H]]; auto; exfalso.
      * now apply (H3 r); [lia|].
      * assert (r2 < length l) by (apply nth_error_Some; congruence).
        apply (N r2); [lia|]. now rewrite HA by lia.
    + intros H. exfalso. apply (H r); auto. lia.
  - split; auto. intros r (H1 & H2 & H3). exfalso.
    assert (r < length l) by (apply nth_error_Some; congruence).
    apply (N r); [lia|]. now rewrite HA by lia.
Qed.

(* ---------- memcmp ---------- *)
Lemma same_eq : forall a b, same a b = true <-> a = b.
Proof.
  induction a as [|x a IH]; intros [|y b]; cbn; split; intros H; try discriminate; auto.
  - apply andb_prop in H. destruct H as [H1 H2]. apply Z.eqb_eq in H1. apply IH in H2. congruence.
  - injection H as -> ->. rewrite Z.eqb_refl. cbn. now apply IH.
Qed.
Lemma occurs_iff l s p : occurs l s p <-> p + length s <= length l /\ firstn (length s) (skipn p l) = s.
Proof.
  split.
  - intros (a & b & -> & <-). split; [rewrite !app_length; lia|].
    rewrite skipn_app_exact by auto. now apply firstn_app_exact.
  - intros [H E]. exists (firstn p l), (skipn (length s) (skipn p l)). split.
    + rewrite <- E at 1. now rewrite firstn_skipn, firstn_skipn.
    + rewrite firstn_length. lia.
Qed.
Lemma memcmp_ok s m i : i + length s <= length m ->
  exists b, memcmp_eq s m i (length s) = Ok b /\ (b = true <-> occurs m s i).
Proof.
  intros H. unfold memcmp_eq. rewrite Nat.leb_refl. destruct (Nat.leb_spec (i + length s) (length m)); [|lia].
  cbn [andb]. eexists; split; [reflexivity|]. rewrite same_eq, firstn_all, occurs_iff.
  split; [intros E; split; [lia|now rewrite <- E]|intros [_ E]; now rewrite E].
Qed.
Lemma memcmp_over s m i : length m < i + length s -> memcmp_eq s m i (length s) = UB.
Proof.
  intros H. unfold memcmp_eq. rewrite Nat.leb_refl. destruct (Nat.leb_spec (i + length s) (length m)); [lia|]. reflexivity.
Qed.

(* an occurrence in a prefix is one in the whole *)
Lemma occurs_app l t s p : p + length s <= length l -> (occurs (l ++ t) s p <-> occurs l s p).
Proof.
  intros H. rewrite !occurs_iff, app_length.
  rewrite skipn_app. rewrite firstn_app.
  replace (length s - length (skipn p l)) with 0 by (rewrite skipn_length; lia). rewrite firstn_O, app_nil_r.
  split; intros [_ E]; split; auto; lia.
Qed.

(* ---------- find(s) ---------- *)
Lemma find_scan sm s m e d : forall k fuel i, k < fuel ->
  (forall j, i <= j < i + k -> j <> e /\ j + length s <= length m /\ ~ occurs m s j) ->
  find_loop sm fuel s m (length s) i e d = find_loop sm (fuel - k) s m (length s) (i + k) e d.
Proof.
  induction k as [|k IH]; intros fuel i Hk H.
  - now rewrite Nat.add_0_r, Nat.sub_0_r.
  - destruct fuel as [|fuel]; [lia|]. cbn [find_loop].
    destruct (H i) as (H1 & H2 & H3); [lia|]. destruct (Nat.eqb_spec i e); [contradiction|].
    destruct (memcmp_ok s m i H2) as (b & -> & Hb). cbn [bind].
    destruct b; [exfalso; apply H3; now apply Hb|].
    rewrite IH; [|lia|intros j Hj; apply H; lia]. f_equal. lia.
Qed.

Lemma find_found sm a m n s pos r : a = SRef m n ->
  least_from (occurs m s) pos r -> r < n -> find sm a s pos (length s) = Ok (r - pos).
Proof.
  intros -> (H1 & H2 & H3) Hn. unfold find. cbn [mem len].
  pose proof H2 as HO. apply occurs_iff in HO. destruct HO as [HO _].
  rewrite (find_scan sm s m n pos (r - pos)); [|lia|intros j Hj; split; [lia|]; split; [lia|]; apply H3; lia].
  replace (pos + (r - pos)) with r by lia.
  destruct (S (S (length m)) - (r - pos)) as [|f] eqn:Ef; [lia|]. cbn [find_loop].
  destruct (Nat.eqb_spec r n); [lia|].
  destruct (memcmp_ok s m r HO) as (b & -> & Hb). cbn [bind].
  rewrite (proj2 Hb H2). reflexivity.
Qed.

Lemma find_ok_found sm a l s pos r : text a l -> least_from (occurs l s) pos r -> r < length l ->
  find sm a s pos (length s) = Ok (r - pos).
Proof.
  intros (t & E & L) (H1 & H2 & H3) Hr. destruct a as [m n]. cbn [mem len] in *.
  eapply find_found; [reflexivity| |lia]. subst m.
  pose proof H2 as HO. apply occurs_iff in HO. destruct HO as [HO _].
  split; auto. split; [now apply occurs_app|]. intros i Hi K. apply (H3 i Hi). apply (occurs_app l t s i) in K; auto; lia.
Qed.

Lemma find_npos sm m n s pos : pos <= n -> n <= length m -> (n + length s <= S (length m)) ->
  (forall j, pos <= j < n -> ~ occurs m s j) -> find sm (SRef m n) s pos (length s) = Ok (npos sm).
Proof.
  intros H1 H2 H3 H4. unfold find. cbn [mem len].
  rewrite (find_scan sm s m n pos (n - pos)); [|lia|intros j Hj; split; [lia|]; split; [lia|]; apply H4; lia].
  replace (pos + (n - pos)) with n by lia.
  destruct (S (S (length m)) - (n - pos)) as [|f] eqn:Ef; [lia|]. cbn [find_loop]. now rewrite Nat.eqb_refl.
Qed.

(* an occurrence in memory starting inside a null terminated text lies inside it *)
Lemma occurs_nul l rest s p : ~ In 0%Z s -> p < length l -> occurs (l ++ 0%Z :: rest) s p -> occurs l s p.
Proof.
  intros N Hp H. destruct (Nat.le_gt_cases (p + length s) (length l)) as [Hle|Hgt].
  - now apply (occurs_app l (0%Z :: rest) s p) in H.
  - exfalso. apply N. apply occurs_iff in H. destruct H as [HL E].
    apply (nth_error_In s (length l - p)). rewrite <- E. rewrite nth_error_firstn.
    destruct (Nat.ltb_spec (length l - p) (length s)); [|lia].
    rewrite nth_error_skipn. rewrite nth_error_app2 by lia. replace (p + (length l - p) - length l) with 0 by lia. reflexivity.
Qed.

Lemma find_ok_absent sm a l rest s pos : nul_text a l rest -> pos <= length l -> ~ In 0%Z s ->
  length s <= S (S (length rest)) -> (forall p, pos <= p < length l -> ~ occurs l s p) ->
  find sm a s pos (length s) = Ok (npos sm).
Proof.
  intros (E & L & N) Hp NS HS H. destruct a as [m n]. cbn [mem len] in *. subst m n.
  apply find_npos; auto; try (rewrite app_length; cbn; lia).
  intros j Hj K. apply (H j Hj). eapply occurs_nul; eauto. lia.
Qed.

Lemma find_ok_one sm a l x pos : text a l -> pos <= length l -> (forall p, pos <= p -> nth_error l p <> Some x) ->
  find sm a [x] pos 1 = Ok (npos sm).
Proof.
  intros (t & E & L) Hp H. destruct a as [m n]. cbn [mem len] in *. subst m n.
  apply (find_npos sm (l ++ t) (length l) [x]); auto; try (rewrite app_length; cbn; lia).
  intros j Hj K. apply (H j); [lia|]. apply occurs_iff in K. destruct K as [K1 K2]. cbn [length] in *.
  assert (nth_error (firstn 1 (skipn j (l ++ t))) 0 = Some x) as K3 by (rewrite K2; reflexivity).
  rewrite nth_error_firstn in K3. change (0 <? 1)%nat with true in K3. cbv iota in K3. rewrite nth_error_skipn in K3.
  rewrite Nat.add_0_r, nth_error_app1 in K3 by lia. auto.
Qed.

Lemma find_overread sm a l s pos : exact_text a l -> 2 <= length s -> pos < length l ->
  (forall p, pos <= p -> ~ occurs l s p) -> find sm a s pos (length s) = UB.
Proof.
  intros (E & L) HS Hp H. destruct a as [m n]. cbn [mem len] in *. subst m n. unfold find. cbn [mem len].
  set (k := S (length l) - length s - pos).
  rewrite (find_scan sm s l (length l) pos k); [|unfold k; lia|intros j Hj; unfold k in Hj; split; [lia|]; split; [lia|]; apply H; lia].
  destruct (S (S (length l)) - k) as [|f] eqn:Ef; [unfold k in *; lia|]. cbn [find_loop].
  destruct (Nat.eqb_spec (pos + k) (length l)); [unfold k in *; lia|].
  rewrite memcmp_over; [reflexivity|]. unfold k. lia.
Qed.

Lemma find_stale sm a l rest s p : mem a = l ++ rest -> len a = length l -> p < length l -> length l < p + length s ->
  least_from (occurs (l ++ rest) s) 0 p -> find sm a s 0 (length s) = Ok p /\ ~ occurs l s p.
Proof.
  intros E L Hp HS H. split.
  - rewrite (find_found sm a (mem a) (len a) s 0 p); [f_equal; lia|now destruct a|now rewrite E|lia].
  - intros K. apply occurs_iff in K. lia.
Qed.

Lemma find_empty_end sm a l s : text a l -> find sm a s (length l) 0 = Ok (npos sm).
Proof. intros (t & E & L). unfold find. cbn [find_loop]. rewrite L, Nat.eqb_refl. reflexivity. Qed.

(* ---------- rfind ---------- *)
Lemma rfind_loop_ok sm s m : forall pos, pos + length s <= length m ->
  (exists r, rfind_loop sm s m (length s) pos = Ok r /\ greatest_upto (occurs m s) pos r) \/
  (rfind_loop sm s m (length s) pos = Ok (npos sm) /\ forall i, i <= pos -> ~ occurs m s i).
Proof.
  induction pos as [|p IH]; intros H; cbn [rfind_loop]; destruct (memcmp_ok s m _ H) as (b & -> & Hb); cbn [bind].
  - destruct b.
    + left. exists 0. split; auto. split; auto. split; [now apply Hb|]. intros; lia.
    + right. split; auto. intros i Hi K. replace i with 0 in K by lia. apply Hb in K. discriminate.
  - destruct b.
    + left. exists (S p). split; auto. split; auto. split; [now apply Hb|]. intros; lia.
    + destruct IH as [(r & E & (G1 & G2 & G3))|(E & G)]; [lia| |].
      * left. exists r. split; auto. split; [lia|]. split; auto. intros i Hi K.
        destruct (Nat.eq_dec i (S p)) as [->|]; [apply Hb in K; discriminate|]. apply (G3 i); auto. lia.
      * right. split; auto. intros i Hi K.
        destruct (Nat.eq_dec i (S p)) as [->|]; [apply Hb in K; discriminate|]. apply (G i); auto. lia.
Qed.

Lemma rfind_ok sm a l s pos : text a l -> l <> [] -> s <> [] ->
  (forall r, greatest_upto (occurs l s) pos r -> rfind sm a s pos (length s) = Ok r) /\
  ((forall i, i <= pos -> ~ occurs l s i) -> rfind sm a s pos (length s) = Ok (npos sm)).
Proof.
  intros (t & E & L) Hl Hs. unfold rfind. rewrite L, E.
  assert (1 <= length l) as L1 by (destruct l; [contradiction|cbn; lia]).
  assert (1 <= length s) as S1 by (destruct s; [contradiction|cbn; lia]).
  destruct (Nat.eqb_spec (length l) 0); [lia|].
  set (p := if Nat.leb (length l) pos then length l - 1 else pos).
  assert (p < length l /\ p <= pos /\ (p = pos \/ p = length l - 1)) as (P1 & P2 & P3).
  { unfold p. destruct (Nat.leb_spec (length l) pos); lia. }
  (* the place the scan starts *)
  assert (forall q, q <= p -> q + length s <= length l -> (forall i, q < i <= pos -> ~ occurs l s i) ->
     (forall r, greatest_upto (occurs l s) pos r -> rfind_loop sm s (l ++ t) (length s) q = Ok r) /\
     ((forall i, i <= pos -> ~ occurs l s i) -> rfind_loop sm s (l ++ t) (length s) q = Ok (npos sm))) as HQ.
  { intros q Q1 Q2 Q3.
    destruct (rfind_loop_ok sm s (l ++ t) q) as [(r & Er & (G1 & G2 & G3))|(Er & G)];
      [rewrite app_length; lia| |]; rewrite Er.
    - assert (occurs l s r) as G2' by (apply (occurs_app l t); auto; lia). split.
      + intros r2 (K1 & K2 & K3). f_equal. destruct (Nat.lt_trichotomy r r2) as [H|[->|H]]; auto; exfalso.
        * destruct (Nat.le_gt_cases r2 q).
          -- apply (G3 r2); [lia|]. apply (occurs_app l t); auto; lia.
          -- apply (Q3 r2); auto.
        * apply (K3 r); auto. lia.
      + intros H. exfalso. apply (H r); auto. lia.
    - split; auto. intros r2 (K1 & K2 & K3). exfalso. destruct (Nat.le_gt_cases r2 q).
      + apply (G r2); auto. apply (occurs_app l t); auto; lia.
      + apply (Q3 r2); auto. }
  destruct (Nat.ltb_spec (length l - p) (length s)) as [Hr|Hr].
  - destruct (Nat.ltb_spec p (length s - (length l - p))) as [Hn|Hn].
    + split; auto. intros r (K1 & K2 & K3). apply occurs_iff in K2. lia.
    + apply HQ; try lia. intros i Hi K. apply occurs_iff in K. lia.
  - apply HQ; try lia. intros i Hi K. apply occurs_iff in K. lia.
Qed.

Lemma rfind_empty_needle sm a l pos s : text a l -> l <> [] -> rfind sm a s pos 0 = Ok (Nat.min pos (length l - 1)).
Proof.
  intros (t & E & L) Hl. unfold rfind. rewrite L, E.
  assert (1 <= length l) as L1 by (destruct l; [contradiction|cbn; lia]).
  destruct (Nat.eqb_spec (length l) 0); [lia|].
  set (p := if Nat.leb (length l) pos then length l - 1 else pos).
  assert (p = Nat.min pos (length l - 1)) as <-. { unfold p. destruct (Nat.leb_spec (length l) pos); lia. }
  assert (p < length l) as Hp. { unfold p. destruct (Nat.leb_spec (length l) pos); lia. }
  assert (Nat.ltb (length l - p) 0 = false) as -> by (apply Nat.ltb_ge; lia).
  assert (memcmp_eq s (l ++ t) p 0 = Ok true) as HM.
  { unfold memcmp_eq. cbn [firstn same]. destruct (Nat.leb_spec (p + 0) (length (l ++ t))); [reflexivity|rewrite app_length in *; lia]. }
  destruct p; cbn [rfind_loop]; rewrite HM; reflexivity.
Qed.

(* ---------- find_first_of, find_last_of ---------- *)
Lemma find_first_of_ok sm a l s pos : text a l -> pos <= length l ->
  (forall r, least_from (char_in l s) pos r -> find_first_of sm a s pos (length s) = Ok r) /\
  ((forall i, pos <= i -> ~ char_in l s i) -> find_first_of sm a s pos (length s) = Ok (npos sm)).
Proof.
  intros (t & E & L) Hp. unfold find_first_of. rewrite L, E, firstn_all.
  destruct (find_first_of_spec Z.eqb (l ++ t) pos (length l) s Hp) as (r & -> & (G1 & G2 & G3)); [rewrite app_length; lia|].
  cbn [bind].
  assert (forall i x, i < length l -> nth_error (l ++ t) i = Some x -> (exists y, In y s /\ Z.eqb x y = true) -> char_in l s i) as HC.
  { intros i x Hi Hx (y & Hy & Exy). apply Z.eqb_eq in Exy. subst y. rewrite nth_error_app1 in Hx by auto. exists x. auto. }
  destruct (Nat.eqb_spec r (length l)) as [->|NE].
  - split; auto. intros r (K1 & (x & Hx & Hin) & _). exfalso.
    assert (r < length l) as Hr by (apply nth_error_Some; congruence).
    apply (G2 r x); [lia|now rewrite nth_error_app1|]. exists x. split; auto. apply Z.eqb_refl.
  - assert (char_in l s r) as HR. { destruct (G3 ltac:(lia)) as (x & Hx & Hy). eapply HC; eauto. lia. }
    split.
    + intros r2 (K1 & (x & Hx & Hin) & K3). f_equal.
      assert (r2 < length l) as Hr by (apply nth_error_Some; congruence).
      destruct (Nat.lt_trichotomy r r2) as [H|[->|H]]; auto; exfalso.
      * apply (K3 r); auto. lia.
      * apply (G2 r2 x); [lia|now rewrite nth_error_app1|]. exists x. split; auto. apply Z.eqb_refl.
    + intros H. exfalso. apply (H r); auto. lia.
Qed.

Lemma find_last_loop_ok sm m s : forall pos, pos < length m ->
  (exists r, find_last_loop sm m s pos = Ok r /\ greatest_upto (char_in m s) pos r) \/
  (find_last_loop sm m s pos = Ok (npos sm) /\ forall i, i <= pos -> ~ char_in m s i).
Proof.
  assert (forall i x, nth_error m i = Some x -> (inner_of Z.eqb x s = true <-> char_in m s i)) as HI.
  { intros i x Hx. rewrite inner_of_spec. split.
    - intros (y & Hy & E). apply Z.eqb_eq in E. subst y. exists x. auto.
    - intros (y & Hy & Hin). assert (y = x) by congruence. subst y. exists x. split; auto. apply Z.eqb_refl. }
  induction pos as [|p IH]; intros H; cbn [find_last_loop]; destruct (rd_lt m _ H) as (x & Hx & ->); cbn [bind];
    pose proof (HI _ _ Hx) as HH; destruct (inner_of Z.eqb x s).
  - left. exists 0. split; auto. split; auto. split; [now apply HH|]. intros; lia.
  - right. split; auto. intros i Hi K. replace i with 0 in K by lia. apply HH in K. discriminate.
  - left. exists (S p). split; auto. split; auto. split; [now apply HH|]. intros; lia.
  - destruct IH as [(r & E & (G1 & G2 & G3))|(E & G)]; [lia| |].
    + left. exists r. split; auto. split; [lia|]. split; auto. intros i Hi K.
      destruct (Nat.eq_dec i (S p)) as [->|]; [apply HH in K; discriminate|]. apply (G3 i); auto. lia.
    + right. split; auto. intros i Hi K.
      destruct (Nat.eq_dec i (S p)) as [->|]; [apply HH in K; discriminate|]. apply (G i); auto. lia.
Qed.

Lemma char_in_app l t s i : i < length l -> (char_in (l ++ t) s i <-> char_in l s i).
Proof. intros H. unfold char_in. now rewrite nth_error_app1. Qed.

Lemma find_last_of_pos sm a l s pos : text a l -> pos < length l ->
  (forall r, greatest_upto (char_in l s) pos r -> find_last_loop sm (mem a) s pos = Ok r) /\
  ((forall i, i <= pos -> ~ char_in l s i) -> find_last_loop sm (mem a) s pos = Ok (npos sm)).
Proof.
  intros (t & E & L) Hp. rewrite E.
  destruct (find_last_loop_ok sm (l ++ t) s pos) as [(r & -> & (G1 & G2 & G3))|(-> & G)]; [rewrite app_length; lia| |].
  - apply (char_in_app l t s r) in G2; [|lia]. split.
    + intros r2 (K1 & K2 & K3). f_equal. destruct (Nat.lt_trichotomy r r2) as [H|[->|H]]; auto; exfalso.
      * apply (G3 r2); [lia|]. apply char_in_app; auto; lia.
      * apply (K3 r); auto; lia.
    + intros H. exfalso. apply (H r); auto.
  - split; auto. intros r (K1 & K2 & K3). exfalso. apply (G r); auto. apply char_in_app; auto. lia.
Qed.

Lemma find_last_of_ok sm a l s pos : text a l -> length l < sm -> pos < length l \/ (pos = npos sm /\ l <> []) ->
  (forall r, greatest_upto (char_in l s) pos r -> find_last_of sm a s pos (length s) = Ok r) /\
  ((forall i, i <= pos -> ~ char_in l s i) -> find_last_of sm a s pos (length s) = Ok (npos sm)).
Proof.
  intros T B HP. pose proof T as (t & E & L). unfold find_last_of. rewrite L, firstn_all.
  destruct HP as [HP|[-> Hl]].
  - destruct (Nat.eqb_spec pos (npos sm)); [unfold npos in *; lia|]. now apply find_last_of_pos.
  - rewrite Nat.eqb_refl. assert (1 <= length l) as L1 by (destruct l; [contradiction|cbn; lia]).
    destruct (Nat.eqb_spec (length l) 0); [lia|].
    destruct (find_last_of_pos sm a l s (length l - 1) T ltac:(lia)) as [G1 G2].
    assert (forall i, char_in l s i -> i <= length l - 1) as HB.
    { intros i (x & Hx & _). assert (i < length l) by (apply nth_error_Some; congruence). lia. }
    split.
    + intros r (K1 & K2 & K3). apply G1. split; auto. split; auto. intros i Hi. apply K3. unfold npos. lia.
    + intros H. apply G2. intros i Hi. apply H. unfold npos. lia.
Qed.

Lemma find_last_of_past sm a l x s pos : text a l -> length l <= pos -> pos <> npos sm ->
  nth_error (mem a) pos = Some x -> In x s -> find_last_of sm a s pos (length s) = Ok pos.
Proof.
  intros T Hp NP Hx Hin. unfold find_last_of. destruct (Nat.eqb_spec pos (npos sm)); [contradiction|].
  rewrite firstn_all. assert (rd (mem a) pos = Ok x) as R by now apply rd_ok.
  assert (inner_of Z.eqb x s = true) as I. { apply inner_of_spec. exists x. split; auto. apply Z.eqb_refl. }
  destruct pos; cbn [find_last_loop]; rewrite R; cbn [bind]; now rewrite I.
Qed.

Lemma find_last_of_empty sm a s count : text a [] -> length (mem a) < sm -> find_last_of sm a s (npos sm) count = UB.
Proof.
  intros (t & E & L) B. unfold find_last_of. rewrite Nat.eqb_refl, L. cbn [length Nat.eqb].
  assert (rd (mem a) (npos sm) = UB) as R.
  { unfold rd. rewrite (proj2 (nth_error_None (mem a) (npos sm))); auto. unfold npos. lia. }
  destruct (npos sm) eqn:EN; cbn [find_last_loop]; rewrite R; reflexivity.
Qed.

(* ---------- starts_with, ends_with ---------- *)
Lemma starts_n_ok : forall (l p a b r t : list Z) i j, i = length a -> j = length b ->
  exists res, starts_with_n (length l) (length p) (a ++ l ++ r) i (b ++ p ++ t) j = Ok res /\
    (res = true <-> prefix_of p l /\ length p < length l).
Proof.
  induction l as [|x l IH]; intros p a b r t i j Hi Hj; cbn [length starts_with_n].
  - exists false. split; auto. split; [discriminate|]. intros [_ ?]. lia.
  - destruct p as [|y p]; cbn [length].
    + exists true. split; auto. split; auto. intros _. split; [exists (x :: l); auto|lia].
    + cbn [app]. rewrite !rd_mid by auto. cbn [bind]. destruct (Z.eqb_spec x y) as [->|NE].
      * rewrite (app_snoc a), (app_snoc b).
        destruct (IH p (a ++ [y]) (b ++ [y]) r t (S i) (S j)) as (res & E & H);
          try (rewrite app_length; cbn; lia).
        exists res. split; auto. rewrite H. split.
        -- intros [(q & ->) ?]. split; [exists q; auto|lia].
        -- intros [(q & [= ->]) ?]. split; [exists q; auto|lia].
      * exists false. split; auto. split; [discriminate|]. intros [(q & [= ? ?]) _]. contradiction.
Qed.

Lemma starts_with_ok a l b p : text a l -> text b p ->
  exists res, starts_with a b = Ok res /\ (res = true <-> prefix_of p l /\ length p < length l).
Proof.
  intros (r & E1 & L1) (t & E2 & L2). unfold starts_with. rewrite E1, E2, L1, L2.
  apply (starts_n_ok l p [] [] r t 0 0); auto.
Qed.
Lemma starts_with_self a b l : text a l -> text b l -> starts_with a b = Ok false.
Proof.
  intros Ha Hb. destruct (starts_with_ok a l b l Ha Hb) as (r & -> & H). destruct r; auto.
  destruct (proj1 H eq_refl). lia.
Qed.

Lemma starts_c_ok : forall (s l a b r t : list Z) f i j, ~ In 0%Z s -> length s < f -> i = length a -> j = length b ->
  exists res, starts_with_c_loop f (length l) (a ++ l ++ r) i (b ++ s ++ 0%Z :: t) j = Ok res /\
    (res = true <-> prefix_of s l).
Proof.
  induction s as [|y s IH]; intros l a b r t f i j N Hf Hi Hj; destruct f as [|f]; try (cbn in Hf; lia);
    cbn [starts_with_c_loop app]; rewrite rd_mid by auto; cbn [bind].
  - exists true. split; auto. split; auto. intros _. now exists l.
  - destruct (Z.eqb_spec y 0) as [->|]; [exfalso; apply N; now left|].
    destruct l as [|x l]; cbn [length].
    + exists false. split; auto. split; [discriminate|]. intros (q & ?). discriminate.
    + cbn [app]. rewrite rd_mid by auto. cbn [bind]. destruct (Z.eqb_spec x y) as [->|NE].
      * rewrite (app_snoc a), (app_snoc b).
        destruct (IH l (a ++ [y]) (b ++ [y]) r t f (S i) (S j)) as (res & E & H);
          try (rewrite app_length; cbn; lia); [intros K; apply N; now right|cbn in Hf; lia|].
        exists res. split; auto. rewrite H. split.
        -- intros (q & ->). exists q; auto.
        -- intros (q & [= ->]). exists q; auto.
      * exists false. split; auto. split; [discriminate|]. intros (q & [= ? ?]). contradiction.
Qed.
Lemma starts_with_c_ok a l m s : text a l -> c_string m s ->
  exists res, starts_with_c a m = Ok res /\ (res = true <-> prefix_of s l).
Proof.
  intros (r & E & L) (N & t & ->). unfold starts_with_c. rewrite E, L.
  apply (starts_c_ok s l [] [] r t); auto. rewrite app_length. cbn. lia.
Qed.
Lemma starts_cc_ok : forall (s l a b r t : list Z) f i j, ~ In 0%Z s -> ~ In 0%Z l -> length s < f -> i = length a -> j = length b ->
  exists res, starts_with_cc f (a ++ l ++ 0%Z :: r) i (b ++ s ++ 0%Z :: t) j = Ok res /\
    (res = true <-> prefix_of s l).
Proof.
  induction s as [|y s IH]; intros l a b r t f i j N NL Hf Hi Hj; destruct f as [|f]; try (cbn in Hf; lia);
    cbn [starts_with_cc app]; rewrite rd_mid by auto; cbn [bind].
  - exists true. split; auto. split; auto. intros _. now exists l.
  - destruct (Z.eqb_spec y 0) as [->|Y0]; [exfalso; apply N; now left|].
    destruct l as [|x l]; cbn [app]; rewrite rd_mid by auto; cbn [bind].
    + destruct (Z.eqb_spec 0 y); [congruence|].
      exists false. split; auto. split; [discriminate|]. intros (q & ?). discriminate.
    + destruct (Z.eqb_spec x y) as [->|NE].
      * rewrite (app_snoc a), (app_snoc b).
        destruct (IH l (a ++ [y]) (b ++ [y]) r t f (S i) (S j)) as (res & E & H);
          try (rewrite app_length; cbn; lia); [intros K; apply N; now right|intros K; apply NL; now right|cbn in Hf; lia|].
        exists res. split; auto. rewrite H. split.
        -- intros (q & ->). exists q; auto.
        -- intros (q & [= ->]). exists q; auto.
      * exists false. split; auto. split; [discriminate|]. intros (q & [= ? ?]). contradiction.
Qed.
Lemma starts_with_cc_ok m l m2 s : c_string m l -> c_string m2 s ->
  exists res, starts_with_cc (S (length m2)) m 0 m2 0 = Ok res /\ (res = true <-> prefix_of s l).
Proof.
  intros (N & t & ->) (N2 & t2 & ->). apply (starts_cc_ok s l [] [] t t2); auto. rewrite app_length. cbn. lia.
Qed.

Lemma ends_loop_ok : forall (p q a b r t : list Z) i j, length q = length p -> i = length a -> j = length b ->
  exists res, ends_loop (length p) (a ++ q ++ r) i (b ++ p ++ t) j = Ok res /\ (res = true <-> q = p).
Proof.
  induction p as [|y p IH]; intros [|x q] a b r t i j L Hi Hj; try discriminate; cbn [length ends_loop app].
  - exists true. split; auto. tauto.
  - rewrite !rd_mid by auto. cbn [bind]. destruct (Z.eqb_spec x y) as [->|NE].
    + rewrite (app_snoc a), (app_snoc b).
      destruct (IH q (a ++ [y]) (b ++ [y]) r t (S i) (S j)) as (res & E & H);
        try (rewrite app_length; cbn; lia); [cbn in L; lia|].
      exists res. split; auto. rewrite H. split; [congruence|intros [= ?]; auto].
    + exists false. split; auto. split; [discriminate|]. intros [= ? ?]. contradiction.
Qed.
Lemma ends_n_ok l p r t : 
  exists res, ends_with_n (l ++ r) (p ++ t) (length l) (length p) = Ok res /\ (res = true <-> suffix_of p l).
Proof.
  unfold ends_with_n. destruct (Nat.ltb_spec (length l) (length p)) as [H|H].
  - exists false. split; auto. split; [discriminate|]. intros (q & ->). rewrite app_length in H. lia.
  - set (a := firstn (length l - length p) l). set (q := skipn (length l - length p) l).
    assert (l = a ++ q) as El by (unfold a, q; now rewrite firstn_skipn).
    assert (length a = length l - length p) as La by (unfold a; rewrite firstn_length; lia).
    assert (length q = length p) as Lq by (unfold q; rewrite skipn_length; lia).
    destruct (ends_loop_ok p q a [] r t (length l - length p) 0 Lq) as (res & E & HH); auto.
    exists res. rewrite <- E. cbn [app]. rewrite app_assoc, <- El. split; auto. rewrite HH. split.
    + intros K. rewrite K in El. now exists a.
    + intros (u & Eu). unfold q. rewrite Eu, app_length.
      replace (length u + length p - length p) with (length u) by lia. now apply skipn_app_exact.
Qed.

Lemma ends_with_ok a l b p : text a l -> text b p ->
  exists res, ends_with a b = Ok res /\ (res = true <-> suffix_of p l).
Proof. intros (r & E1 & L1) (t & E2 & L2). unfold ends_with. rewrite E1, E2, L1, L2. apply ends_n_ok. Qed.
Lemma ends_with_c_ok a l m s : text a l -> c_string m s ->
  exists res, ends_with_c a m = Ok res /\ (res = true <-> suffix_of s l).
Proof.
  intros (r & E1 & L1) Hc. unfold ends_with_c. rewrite (strlenz_ok m s Hc). cbn [bind].
  destruct Hc as (_ & t & ->). rewrite E1, L1. apply ends_n_ok.
Qed.
Lemma starts_with_ch_ok a l ch : text a l -> l <> [] ->
  exists res, starts_with_ch a ch = Ok res /\ (res = true <-> prefix_of [ch] l).
Proof.
  intros (r & E & L) Hl. unfold starts_with_ch. destruct l as [|x l]; [contradiction|].
  rewrite E. cbn. eexists; split; [reflexivity|]. rewrite Z.eqb_eq. split.
  - intros ->. now exists l.
  - intros (t & [= -> _]). auto.
Qed.
Lemma ends_with_ch_ok sm a l ch : text a l -> l <> [] ->
  exists res, ends_with_ch sm a ch = Ok res /\ (res = true <-> suffix_of [ch] l).
Proof.
  intros (r & E & L) Hl. unfold ends_with_ch. destruct (@exists_last _ l Hl) as (l' & x & ->).
  rewrite app_length in L. cbn [length] in L. destruct (Nat.eqb_spec (len a) 0); [lia|].
  rewrite E, <- app_assoc. cbn [app]. rewrite rd_mid by lia. cbn [bind].
  eexists; split; [reflexivity|]. rewrite Z.eqb_eq. split.
  - intros ->. now exists l'.
  - intros (t & Et). now apply app_inj_tail in Et.
Qed.
Lemma starts_with_ch_empty a ch rest : text a [] -> mem a = ch :: rest -> starts_with_ch a ch = Ok true.
Proof. intros _ E. unfold starts_with_ch. rewrite E. cbn. now rewrite Z.eqb_refl. Qed.
Lemma ends_with_ch_empty sm a ch : text a [] -> length (mem a) < sm -> ends_with_ch sm a ch = UB.
Proof.
  intros (t & E & L) B. unfold ends_with_ch. rewrite L. cbn [length Nat.eqb].
  unfold rd. rewrite (proj2 (nth_error_None (mem a) (npos sm))); auto. unfold npos. lia.
Qed.

(* ---------- views ---------- *)
Lemma subs_small sm a b : b <= a -> a < sm -> subs sm a b = a - b.
Proof.
  intros H L. unfold subs. rewrite (Nat.mod_small b) by lia.
  replace (a + (sm - b)) with (a - b + 1 * sm) by lia. rewrite Nat.mod_add by lia. apply Nat.mod_small. lia.
Qed.
Lemma view_prefix sm v l n : view_text v l -> n <= length l -> length l < sm ->
  view_text (remove_prefix sm v n) (skipn n l).
Proof.
  intros (L & a & b & E & O) Hn B. unfold remove_prefix, view_text. cbn [base off vlen].
  rewrite L, subs_small, skipn_length by auto. split; auto.
  exists (a ++ firstn n l), b. rewrite <- app_assoc, (app_assoc (firstn n l)), firstn_skipn. split; auto.
  rewrite app_length, firstn_length. lia.
Qed.
Lemma view_suffix sm v l n : view_text v l -> n <= length l -> length l < sm ->
  view_text (remove_suffix sm v n) (firstn (length l - n) l).
Proof.
  intros (L & a & b & E & O) Hn B. unfold remove_suffix, view_text. cbn [base off vlen].
  rewrite L, subs_small, firstn_length by auto. split; [lia|].
  exists a, (skipn (length l - n) l ++ b). rewrite (app_assoc (firstn (length l - n) l)), firstn_skipn. auto.
Qed.
Lemma view_sub sm v l pos count : view_text v l -> pos <= length l -> length l < sm ->
  count = npos sm \/ pos + count <= length l ->
  view_text (substr sm v pos count) (firstn count (skipn pos l)).
Proof.
  intros T Hp B HC. pose proof (view_prefix sm v l pos T Hp B) as (L & a & b & E & O).
  unfold substr. destruct (Nat.eqb_spec count (npos sm)) as [->|NE].
  - rewrite firstn_all2 by (rewrite skipn_length; unfold npos; lia). split; [auto|]. now exists a, b.
  - destruct HC as [?|HC]; [contradiction|]. unfold view_text. cbn [base off vlen].
    rewrite firstn_length, skipn_length. split; [lia|].
    exists a, (skipn count (skipn pos l) ++ b). rewrite (app_assoc (firstn count (skipn pos l))), firstn_skipn. auto.
Qed.
Lemma view_sub_over sm v l pos count : view_text v l -> pos <= length l -> length l < pos + count -> count <> npos sm ->
  vlen (substr sm v pos count) = count /\ length (firstn count (skipn pos l)) < count.
Proof.
  intros T Hp H NE. unfold substr. destruct (Nat.eqb_spec count (npos sm)); [contradiction|].
  cbn [vlen]. split; auto. rewrite firstn_length, skipn_length. lia.
Qed.
Lemma view_ref_text v l : view_text v l -> text (view_ref v) l.
Proof.
  intros (L & a & b & E & O). exists b. unfold view_ref. cbn [mem len]. rewrite E, O. split; auto.
  now apply skipn_app_exact.
Qed.

(* ---------- strings made by histories ---------- *)
Lemma str_after_text sm na nd nul N os l v : str_after sm na nd nul N os l v ->
  exists a, sref_of (str_cfg sm na nd nul) v = Ok a /\ text a l /\ length (mem a) = N /\ len a < sm /\
    (nul = true -> exists rest, nul_text a l rest).
Proof.
  intros H. pose proof H as (HN & _). destruct (str_after_holds _ _ _ _ _ _ _ _ H) as [HH HL].
  pose proof (holds_looks _ v l HH) as LL. destruct LL as [Hs _ _ _ _ _].
  unfold sref_of. rewrite Hs. cbn [bind]. eexists; split; [reflexivity|].
  destruct HH as [(rest & E & _) Hz _ Hb].
  assert (length l <= length (buf v)) by (rewrite E, !app_length; lia).
  split; [|split; [exact HL|split; [cbn; lia|]]].
  - exists (term (str_cfg sm na nd nul) ++ rest). cbn [mem len]. split; auto.
  - intros ->. exists rest. split; [exact E|]. split; auto. cbn in Hz. intros K. rewrite Forall_forall in Hz.
    specialize (Hz _ K). cbn in Hz. discriminate.
Qed.

Lemma compare_order sm a la b lb c lc : text a la -> text b lb -> text c lc ->
  length la < sm -> length lb < sm -> length lc < sm ->
  exists ab ba bc ac, compare sm a b = Ok ab /\ compare sm b a = Ok ba /\ compare sm b c = Ok bc /\ compare sm a c = Ok ac /\
    (ab < 0 <-> 0 < ba)%Z /\ (ab = 0 <-> ba = 0)%Z /\ (ab < 0 -> bc < 0 -> ac < 0)%Z /\ (ab = 0 -> ac = bc)%Z.
Proof.
  intros Ta Tb Tc La Lb Lc. destruct shortlex_order as (I & T & _).
  destruct (compare_ok sm a la b lb Ta Tb Lb) as (ab & E1 & Z1 & N1 & P1).
  destruct (compare_ok sm b lb a la Tb Ta La) as (ba & E2 & Z2 & N2 & P2).
  destruct (compare_ok sm b lb c lc Tb Tc Lc) as (bc & E3 & Z3 & N3 & P3).
  destruct (compare_ok sm a la c lc Ta Tc Lc) as (ac & E4 & Z4 & N4 & P4).
  exists ab, ba, bc, ac. split; auto. split; auto. split; auto. split; auto.
  split; [now rewrite N1, P2|]. split; [rewrite Z1, Z2; split; congruence|].
  split; [rewrite N1, N3, N4; apply T|].
  intros K. apply Z1 in K. subst lb. clear -E3 E4 Ta Tb Tc Lc.
  destruct Ta as (t1 & M1 & L1), Tb as (t2 & M2 & L2), Tc as (t3 & M3 & L3).
  unfold compare, compare_n in *. rewrite L1, L2, L3, Nat.mod_small in * by auto.
  destruct (Nat.ltb_spec (length la) (length lc)); [congruence|].
  destruct (Nat.ltb_spec (length lc) (length la)); [congruence|].
  assert (length la = length lc) as LE by lia. rewrite M1, M2, M3, <- LE in *.
  rewrite (ct_compare_ok la lc [] [] t1 t3) in E4 by auto. rewrite (ct_compare_ok la lc [] [] t2 t3) in E3 by auto. congruence.
Qed.

Lemma eq_c_long sm a l m s : 0 < sm -> text a l -> c_string m s -> sm <= length s ->
  exists r, eq_c sm a m = Ok r /\ (r = true <-> l = firstn (length s mod sm) s).
Proof.
  intros H0 Ha Hc H. unfold eq_c, compare_c. rewrite (strlenz_ok m s Hc). cbn [bind].
  destruct Hc as (_ & t & E). apply (eq_long sm a l (SRef m (length s)) s H0 Ha); auto. now exists (0%Z :: t).
Qed.
