From Coq Require Import List ZArith Bool Lia.
From Verif Require Import Base BaseLemmas SliceLemmas MachInt Ios_Model Ios_Proofs Streambuf_Model Stream_Spec Stream_Proofs
  Ostream_Model Ostream_Spec Ostream_Proofs Pgm_Spec Pgm_Model Pgm_View.
Import ListNotations.
Local Open Scope Z_scope.
Local Open Scope res_scope.

(* ---- reading ---- *)

Lemma lies_rd m a bs i x : lies_at m a bs -> nth_error bs i = Some x -> rd m (a + i) = Ok x.
Proof.
  intros (pre & post & -> & <-) H. apply rd_ok. rewrite nth_error_app2 by lia.
  replace (length pre + i - length pre)%nat with i by lia. rewrite nth_error_app1; auto.
  apply nth_error_Some. congruence.
Qed.
Lemma lies_app_l m a x y : lies_at m a (x ++ y) -> lies_at m a x.
Proof. intros (pre & post & -> & <-). exists pre, (y ++ post). now rewrite <- app_assoc. Qed.
Lemma lies_app_r m a x y : lies_at m a (x ++ y) -> lies_at m (a + length x) y.
Proof. intros (pre & post & -> & <-). exists (pre ++ x), post. rewrite <- !app_assoc, app_length. auto. Qed.

Lemma memcpy_lies m a bs : lies_at m a bs -> memcpy_P m a (length bs) = Ok bs.
Proof.
  revert a. induction bs as [|b bs IH]; intros a H; [reflexivity|]. cbn [length memcpy_P].
  rewrite <- (Nat.add_0_r a) at 1. rewrite (lies_rd m a (b :: bs) 0 b H eq_refl). cbn [bind].
  rewrite IH; [reflexivity|]. replace (S a) with (a + length [b])%nat by (cbn; lia). now apply lies_app_r.
Qed.

Lemma bytes_of_length n v : length (bytes_of n v) = n.
Proof. revert v. induction n; intros; cbn [bytes_of length]; auto. Qed.

Lemma pow256 n : 2 ^ (8 * Z.of_nat (S n)) = 256 * 2 ^ (8 * Z.of_nat n).
Proof. replace (8 * Z.of_nat (S n)) with (8 + 8 * Z.of_nat n) by lia. rewrite Z.pow_add_r by lia. reflexivity. Qed.

Lemma le_value_bytes n v : le_value (bytes_of n v) = v mod 2 ^ (8 * Z.of_nat n).
Proof.
  revert v. induction n as [|n IH]; intros v; cbn [bytes_of le_value].
  - cbn. now rewrite Z.mod_1_r.
  - rewrite IH, pow256. pose proof (Z.pow_pos_nonneg 2 (8 * Z.of_nat n)).
    rewrite Z.rem_mul_r by lia. lia.
Qed.

Lemma to_value_bytes sg n v : (0 < n)%nat -> in_range sg n v -> to_value sg (bytes_of n v) = v.
Proof.
  intros Hn R. unfold to_value. rewrite le_value_bytes, bytes_of_length.
  assert (P : 2 ^ (8 * Z.of_nat n) = 2 * 2 ^ (8 * Z.of_nat n - 1)).
  { replace (8 * Z.of_nat n) with (1 + (8 * Z.of_nat n - 1)) at 1 by lia. rewrite Z.pow_add_r by lia. reflexivity. }
  pose proof (Z.pow_pos_nonneg 2 (8 * Z.of_nat n - 1)). unfold in_range in R.
  destruct sg; cbn [andb]; rewrite P in *.
  - destruct (Z.ltb_spec v 0).
    + replace (v mod (2 * 2 ^ (8 * Z.of_nat n - 1))) with (v + 2 * 2 ^ (8 * Z.of_nat n - 1)).
      * destruct (Z.leb_spec (2 ^ (8 * Z.of_nat n - 1)) (v + 2 * 2 ^ (8 * Z.of_nat n - 1))); lia.
      * apply (Z.mod_unique v _ (-1)); lia.
    + rewrite Z.mod_small by lia. destruct (Z.leb_spec (2 ^ (8 * Z.of_nat n - 1)) v); lia.
  - rewrite Z.mod_small by lia. reflexivity.
Qed.

Lemma pgm_read_elem sg sz m a vs ws i v : (0 < sz)%nat -> Forall (in_range sg sz) vs -> nth_error vs i = Some v ->
  lies_at m a (flat_map (bytes_of sz) vs ++ ws) -> pgm_read sg sz m (a + i * sz) = Ok v.
Proof.
  intros Hs F E L. revert a i L E. induction vs as [|x vs IH]; intros a i L E; [destruct i; discriminate|].
  inversion F; subst. cbn [flat_map] in L. rewrite <- app_assoc in L.
  destruct i as [|i].
  - injection E as ->. rewrite Nat.add_0_r. unfold pgm_read. apply lies_app_l in L.
    rewrite <- (bytes_of_length sz v) at 1. rewrite (memcpy_lies m a _ L). cbn [bind]. now rewrite to_value_bytes.
  - apply lies_app_r in L. rewrite bytes_of_length in L.
    replace (a + S i * sz)%nat with (a + sz + i * sz)%nat by lia. eauto.
Qed.

(* ---- an object whose elements are vs ---- *)

Definition describes (m : list Z) (s : pgm) (vs : list Z) : Prop :=
  lies_at m (addr s) (flat_map (bytes_of (esz s)) vs) /\ Forall (in_range (esigned s) (esz s)) vs /\
  (0 < esz s)%nat /\ size m s = Ok (length vs) /\ (forall pos, (pos <= length vs)%nat -> data s pos = (addr s + pos * esz s)%nat).

Lemma data_small s pos : (pos < 256 * 256)%nat -> (forall n, ext s = Some n -> (pos <= n)%nat) ->
  data s pos = (addr s + pos * esz s)%nat.
Proof.
  intros H E. unfold data. destruct (ext s) as [n|] eqn:X.
  - specialize (E n eq_refl). destruct (Nat.leb_spec n 255); rewrite Nat.mod_small by lia; reflexivity.
  - rewrite Nat.mod_small by lia. reflexivity.
Qed.

Lemma array_describes m s vs : array_in m s vs -> describes m s vs.
Proof.
  intros (E & L & S0 & F & H). split; [exact H|]. split; [exact F|]. split; [exact S0|]. unfold size. rewrite E.
  split; [reflexivity|]. intros pos Hp. apply data_small; [lia|]. intros n En. rewrite E in En. injection En as <-. lia.
Qed.

Lemma as_char_range b : is_byte b -> in_range true 1 (as_char b).
Proof. unfold is_byte, in_range, as_char. cbn. intros. destruct (Z.ltb_spec b 128); lia. Qed.
Lemma as_char_bytes t : Forall is_byte t -> flat_map (bytes_of 1) (map as_char t) = t.
Proof.
  induction 1 as [|b t Hb _ IH]; [reflexivity|]. cbn [map flat_map]. rewrite IH. cbn [bytes_of app]. f_equal.
  unfold is_byte, as_char in *. destruct (Z.ltb_spec b 128); [now rewrite Z.mod_small by lia|].
  symmetry. apply (Z.mod_unique _ _ (-1)); lia.
Qed.

Lemma strnlen_lies m a t n r : lies_at m a (t ++ r) -> ~ In 0 t -> (n <= length t)%nat -> strnlen_P m a n = Ok n.
Proof.
  revert a n. induction t as [|b t IH]; intros a n L NI Hn.
  - cbn in Hn. replace n with 0%nat by lia. reflexivity.
  - destruct n as [|n]; [reflexivity|]. cbn [strnlen_P].
    rewrite <- (Nat.add_0_r a) at 1. rewrite (lies_rd m a _ 0 b L eq_refl). cbn [bind].
    destruct (Z.eqb_spec b 0); [subst; elim NI; now left|].
    rewrite IH; [reflexivity| |intros C; apply NI; now right|cbn in Hn; lia].
    replace (S a) with (a + length [b])%nat by (cbn; lia). now apply lies_app_r.
Qed.
Lemma strnlen_end m a t n : lies_at m a (t ++ [0]) -> ~ In 0 t -> (length t <= n)%nat -> strnlen_P m a n = Ok (length t).
Proof.
  revert a n. induction t as [|b t IH]; intros a n L NI Hn.
  - destruct n as [|n]; [reflexivity|]. cbn [strnlen_P length].
    rewrite <- (Nat.add_0_r a) at 1. rewrite (lies_rd m a _ 0 0 L eq_refl). reflexivity.
  - destruct n as [|n]; [cbn in Hn; lia|]. cbn [strnlen_P length].
    rewrite <- (Nat.add_0_r a) at 1. rewrite (lies_rd m a _ 0 b L eq_refl). cbn [bind].
    destruct (Z.eqb_spec b 0); [subst; elim NI; now left|].
    rewrite IH; [reflexivity| |intros C; apply NI; now right|cbn in Hn; lia].
    replace (S a) with (a + length [b])%nat by (cbn; lia). now apply lies_app_r.
Qed.

Lemma text_lies m s t : text_in m s t -> lies_at m (addr s) t.
Proof. intros (_ & _ & _ & H). destruct (ext s); [tauto|]. destruct H as (H & _). now apply lies_app_l in H. Qed.

Lemma text_describes m s t : text_in m s t -> describes m s (map as_char t).
Proof.
  intros H. pose proof (text_lies m s t H) as L. destruct H as (B & S1 & Z1 & H).
  unfold describes. rewrite S1, Z1, as_char_bytes, map_length by exact B. split; [exact L|].
  split; [apply Forall_map; eapply Forall_impl; [|exact B]; intros; now apply as_char_range|].
  split; [lia|]. unfold size. destruct (ext s) as [n|] eqn:E.
  - destruct H as (_ & -> & Hl). split; [reflexivity|]. intros pos Hp. rewrite <- Z1. apply data_small; [lia|].
    intros n En. rewrite E in En. injection En as <-. exact Hp.
  - destruct H as (L0 & NI & Hl). split; [now apply strnlen_end|]. intros pos Hp. rewrite <- Z1.
    apply data_small; [|intros n En; congruence]. assert (256 < 256 * 256)%nat by (apply Nat.ltb_lt; vm_compute; reflexivity). lia.
Qed.

Lemma at_ok m s vs i v : describes m s vs -> nth_error vs i = Some v -> at_ m s i = Ok v.
Proof.
  intros (L & F & S0 & _ & D) E. unfold at_.
  assert (i < length vs)%nat by (apply nth_error_Some; congruence).
  rewrite D by lia. apply (pgm_read_elem _ _ _ _ vs [] i v); auto. now rewrite app_nil_r.
Qed.

Lemma back_ok m s vs v : describes m s (vs ++ [v]) -> back m s = Ok v.
Proof.
  intros H. pose proof H as (_ & _ & _ & Sz & _). unfold back. rewrite Sz. cbn [bind]. rewrite app_length. cbn [length].
  rewrite Nat.add_comm. cbn [Nat.add]. apply (at_ok m s (vs ++ [v])); auto.
  rewrite nth_error_app2 by lia. now rewrite Nat.sub_diag.
Qed.

Fixpoint foldM {S} (f : S -> Z -> result S) (l : list Z) (s : S) : result S :=
  match l with [] => Ok s | v :: r => s' <- f s v ;; foldM f r s' end.

Lemma loop_ok {S} sg sz m (f : S -> Z -> result S) vs : (0 < sz)%nat -> Forall (in_range sg sz) vs ->
  forall a fuel s, lies_at m a (flat_map (bytes_of sz) vs) -> (length vs < fuel)%nat ->
  loop sg sz m f fuel a (a + length vs * sz) s = foldM f vs s.
Proof.
  intros Hs F. induction F as [|v vs Hv F IH]; intros a fuel s L Hf.
  - cbn [length] in *. destruct fuel; [lia|]. cbn [loop]. rewrite Nat.add_0_r, Nat.eqb_refl. reflexivity.
  - destruct fuel as [|fuel]; [lia|]. cbn [loop length foldM].
    destruct (Nat.eqb_spec a (a + Datatypes.S (length vs) * sz)); [nia|].
    assert (P : pgm_read sg sz m (a + 0 * sz) = Ok v).
    { apply (pgm_read_elem sg sz m a (v :: vs) [] 0 v); auto. rewrite app_nil_r. exact L. }
    rewrite Nat.mul_0_l, Nat.add_0_r in P. rewrite P. cbn [bind].
    destruct (f s v) as [s'| |]; [|reflexivity|reflexivity]. cbn [bind].
    cbn [flat_map] in L. apply lies_app_r in L. rewrite bytes_of_length in L.
    rewrite <- (IH (a + sz)%nat fuel s' L) by (cbn [length] in Hf; lia). f_equal. lia.
Qed.

Lemma over_ok {S} m s vs (f : S -> Z -> result S) init : describes m s vs -> over m s f init = foldM f vs init.
Proof.
  intros (L & F & S0 & Sz & D). unfold over. rewrite Sz. cbn [bind]. rewrite !D by lia. rewrite Nat.mul_0_l, Nat.add_0_r.
  apply loop_ok; auto.
Qed.

Lemma foldM_collect vs l : foldM (fun l v => Ok (l ++ [v])) vs l = Ok (l ++ vs).
Proof.
  revert l. induction vs as [|v vs IH]; intros l; cbn [foldM bind]; [now rewrite app_nil_r|].
  rewrite IH, <- app_assoc. reflexivity.
Qed.
Lemma elements_ok m s vs : describes m s vs -> elements m s = Ok vs.
Proof. intros H. unfold elements. rewrite (over_ok m s vs) by exact H. apply foldM_collect. Qed.

(* ---- copying ---- *)

Lemma copy_ok m s vs dest count next pos : describes m s vs -> (pos <= length vs)%nat ->
  lies_at m (addr s) (flat_map (bytes_of (esz s)) vs ++ next) ->
  let e := Nat.min count (length vs) in
  ((pos + e) * esz s <= length (flat_map (bytes_of (esz s)) vs ++ next))%nat ->
  let bs := firstn (e * esz s) (skipn (pos * esz s) (flat_map (bytes_of (esz s)) vs ++ next)) in
  copy m s dest count pos = (d <- store dest bs ;; Ok (d, e)).
Proof.
  intros (_ & _ & S0 & Sz & D) Hp L e He bs. unfold copy. rewrite Sz. cbn [bind]. fold e. rewrite D by exact Hp.
  set (all := flat_map (bytes_of (esz s)) vs ++ next) in *.
  assert (Lb : length bs = (e * esz s)%nat).
  { unfold bs. rewrite firstn_length, skipn_length. nia. }
  replace (memcpy_P m (addr s + pos * esz s) (e * esz s)) with (Ok bs); [reflexivity|].
  rewrite <- Lb. symmetry. apply memcpy_lies.
  assert (A : all = firstn (pos * esz s) all ++ bs ++ skipn (e * esz s) (skipn (pos * esz s) all)).
  { unfold bs. now rewrite (firstn_skipn (e * esz s)), firstn_skipn. }
  rewrite A in L. apply lies_app_r in L. rewrite firstn_length in L. apply lies_app_l in L.
  replace (Nat.min (pos * esz s) (length all)) with (pos * esz s)%nat in L by nia. exact L.
Qed.

Lemma flat_length sz vs : length (flat_map (bytes_of sz) vs) = (length vs * sz)%nat.
Proof. induction vs; cbn [flat_map length]; [reflexivity|]. rewrite app_length, bytes_of_length, IHvs. lia. Qed.
Lemma flat_firstn sz n vs : firstn (n * sz) (flat_map (bytes_of sz) vs) = flat_map (bytes_of sz) (firstn n vs).
Proof.
  revert n. induction vs as [|v vs IH]; intros n; [cbn; now rewrite !firstn_nil|].
  destruct n as [|n]; [reflexivity|]. cbn [flat_map firstn].
  rewrite firstn_app, bytes_of_length. replace (S n * sz - sz)%nat with (n * sz)%nat by lia. rewrite IH. f_equal.
  apply firstn_all2. rewrite bytes_of_length. lia.
Qed.

Lemma copy_front m s vs dest count : describes m s vs ->
  (Nat.min count (length vs) * esz s <= length dest)%nat ->
  copy m s dest count 0
  = Ok (flat_map (bytes_of (esz s)) (firstn count vs) ++ skipn (Nat.min count (length vs) * esz s) dest, Nat.min count (length vs)).
Proof.
  intros H Hd. pose proof H as (L & _).
  rewrite (copy_ok m s vs dest count [] 0) by (auto; rewrite ?app_nil_r, ?flat_length; auto; try lia; nia).
  cbn zeta. rewrite app_nil_r, Nat.mul_0_l. cbn [skipn].
  rewrite flat_firstn. unfold store. rewrite flat_length, firstn_length.
  replace (Nat.min (Nat.min count (length vs)) (length vs)) with (Nat.min count (length vs)) by lia.
  destruct (Nat.leb_spec (Nat.min count (length vs) * esz s) (length dest)); [|lia]. cbn [bind].
  f_equal. f_equal. f_equal. f_equal.
  destruct (Nat.le_ge_cases count (length vs)) as [C|C].
  - now rewrite Nat.min_l by lia.
  - rewrite Nat.min_r by lia. now rewrite firstn_all, firstn_all2 by lia.
Qed.

Lemma flat_chars t n : Forall is_byte t -> flat_map (bytes_of 1) (firstn n (map as_char t)) = firstn n t.
Proof.
  intros B. rewrite firstn_map. apply as_char_bytes. apply Forall_forall. intros x Hx.
  rewrite Forall_forall in B. apply B. rewrite <- (firstn_skipn n t). apply in_or_app. now left.
Qed.

Lemma copy_text m s t dest count : text_in m s t -> (Nat.min count (length t) <= length dest)%nat ->
  copy m s dest count 0 = Ok (firstn count t ++ skipn (Nat.min count (length t)) dest, Nat.min count (length t)).
Proof.
  intros H Hd. pose proof H as (B & _ & Z1 & _).
  rewrite (copy_front m s (map as_char t)) by (rewrite ?map_length, ?Z1; auto using text_describes; lia).
  rewrite Z1, flat_chars, map_length by exact B. rewrite !Nat.mul_1_r. reflexivity.
Qed.

Lemma append_text m s t buf cur : text_in m s t -> (cur + length t <= length buf)%nat ->
  append m s buf cur = Ok (firstn cur buf ++ t ++ skipn (cur + length t) buf, (cur + length t)%nat).
Proof.
  intros H Hl. pose proof (text_describes m s t H) as (_ & _ & _ & Sz & _). unfold append. rewrite Sz, map_length. cbn [bind].
  destruct (Nat.ltb_spec (length buf) (cur + length t)); [lia|].
  rewrite (copy_text m s t) by (auto; rewrite skipn_length; lia). cbn [bind fst].
  rewrite firstn_all, Nat.min_id. do 4 f_equal.
  assert (E : forall (l : list Z) a b, skipn a (skipn b l) = skipn (b + a) l).
  { induction l as [|y l IHl]; intros a b; [now rewrite !skipn_nil|]. destruct b; [reflexivity|]. cbn [skipn Nat.add]. apply IHl. }
  apply E.
Qed.

(* beyond the end: count at least the length, and the copy starts inside *)
Lemma copy_beyond m s t next dest count pos : text_in m s t -> lies_at m (addr s) (t ++ next) ->
  (0 < pos <= length t)%nat -> (pos <= length next)%nat -> (length t <= count)%nat ->
  copy m s dest count pos =
    (d <- store dest (skipn pos t ++ firstn pos next) ;; Ok (d, length t)).
Proof.
  intros H L Hp Hn Hc. pose proof H as (B & _ & Z1 & _). pose proof (text_describes m s t H) as D.
  rewrite (copy_ok m s (map as_char t) dest count next pos); auto; rewrite ?map_length; try lia;
    rewrite ?Z1, ?as_char_bytes by exact B; auto.
  - cbn zeta. rewrite !Nat.mul_1_r, Nat.min_r by lia. rewrite skipn_app.
    replace (pos - length t)%nat with 0%nat by lia. cbn [skipn]. rewrite firstn_app, skipn_length.
    replace (length t - (length t - pos))%nat with pos by lia.
    rewrite firstn_all2 by (rewrite skipn_length; lia). reflexivity.
  - rewrite app_length. lia.
Qed.

(* ---- comparison ---- *)

Lemma strncmp_ok t : forall m a u r, lies_at m a t -> ~ In 0 t -> length u = length t ->
  strncmp_P (u ++ r) m a (length u) = Ok (- first_difference t u).
Proof.
  induction t as [|x t IH]; intros m a u r L NI Hl; destruct u as [|y u]; try discriminate; [reflexivity|].
  cbn [length strncmp_P app first_difference]. cbn [rd nth_error bind].
  rewrite <- (Nat.add_0_r a) at 1. rewrite (lies_rd m a _ 0 x L eq_refl). cbn [bind].
  destruct (Z.eqb_spec y x) as [->|N]; cbn [negb].
  - rewrite Z.eqb_refl. destruct (Z.eqb_spec x 0); [subst; elim NI; now left|]. cbn [tl].
    apply IH; [|intros C; apply NI; now right|now injection Hl].
    replace (S a) with (a + length [x])%nat by (cbn; lia). now apply lies_app_r.
  - destruct (Z.eqb_spec x y); [congruence|]. f_equal. lia.
Qed.

Lemma compare_ok m s t u r : text_in m s t -> ~ In 0 t -> compare m s (u ++ r) (length u) = Ok (order t u).
Proof.
  intros H NI. pose proof (text_describes m s t H) as (_ & _ & _ & Sz & D). unfold compare, order. rewrite Sz, map_length. cbn [bind].
  destruct (Nat.ltb_spec (length t) (length u)); [reflexivity|].
  destruct (Nat.ltb_spec (length u) (length t)); [reflexivity|].
  rewrite D by lia. rewrite Nat.mul_0_l, Nat.add_0_r.
  rewrite (strncmp_ok t) by (auto using text_lies; lia). cbn [bind]. f_equal. lia.
Qed.

Lemma strlen_ok u r : ~ In 0 u -> strlen (u ++ 0 :: r) = Ok (length u).
Proof.
  induction u as [|c u IH]; intros NI; [reflexivity|]. cbn [app strlen length].
  destruct (Z.eqb_spec c 0); [subst; elim NI; now left|]. rewrite IH by (intros C; apply NI; now right). reflexivity.
Qed.

Lemma first_difference_zero t : forall u, length t = length u -> first_difference t u = 0 <-> t = u.
Proof.
  induction t as [|x t IH]; intros [|y u] L; try discriminate; cbn [first_difference]; [tauto|].
  destruct (Z.eqb_spec x y) as [->|N].
  - rewrite IH by now injection L. split; [congruence|]. now injection 1.
  - split; [lia|]. injection 1. congruence.
Qed.
Lemma order_zero t u : order t u = 0 <-> t = u.
Proof.
  unfold order. destruct (Nat.ltb_spec (length t) (length u)); [split; [lia|]; intros ->; lia|].
  destruct (Nat.ltb_spec (length u) (length t)); [split; [lia|]; intros ->; lia|].
  apply first_difference_zero. lia.
Qed.
Lemma first_difference_at pre x y r1 r2 : x <> y -> first_difference (pre ++ x :: r1) (pre ++ y :: r2) = x - y.
Proof.
  intros N. induction pre as [|c pre IH]; cbn [app first_difference].
  - destruct (Z.eqb_spec x y); [contradiction|reflexivity].
  - now rewrite Z.eqb_refl.
Qed.

Lemma compare_c_ok m s t u r : text_in m s t -> ~ In 0 t -> ~ In 0 u ->
  compare_c m s (u ++ 0 :: r) = Ok (order t u) /\
  exists b, equal_c m s (u ++ 0 :: r) = Ok b /\ (b = true <-> t = u).
Proof.
  intros H NI NU.
  assert (E : compare_c m s (u ++ 0 :: r) = Ok (order t u)).
  { unfold compare_c. rewrite strlen_ok by exact NU. cbn [bind]. now apply compare_ok. }
  split; [exact E|]. unfold equal_c. rewrite E. cbn [bind]. eexists. split; [reflexivity|].
  rewrite Z.eqb_eq. apply order_zero.
Qed.

(* a NUL inside hides what follows *)
Lemma strncmp_nul pre : forall m a r1 r2 r, lies_at m a (pre ++ 0 :: r1) -> ~ In 0 pre -> length r1 = length r2 ->
  strncmp_P ((pre ++ 0 :: r2) ++ r) m a (length (pre ++ 0 :: r2)) = Ok 0.
Proof.
  induction pre as [|x pre IH]; intros m a r1 r2 r L NI Hl; cbn [app length strncmp_P]; cbn [rd nth_error bind];
    rewrite <- (Nat.add_0_r a) at 1; rewrite (lies_rd m a _ 0 _ L eq_refl); cbn [bind]; rewrite Z.eqb_refl; cbn [negb]; [reflexivity|].
  destruct (Z.eqb_spec x 0); [subst; elim NI; now left|]. cbn [tl].
  apply (IH m (S a) r1 r2 r); [|intros C; apply NI; now right|exact Hl].
  replace (S a) with (a + length [x])%nat by (cbn; lia). now apply (lies_app_r m a [x] (pre ++ 0 :: r1)).
Qed.
Lemma compare_nul m s pre r1 r2 r : text_in m s (pre ++ 0 :: r1) -> ~ In 0 pre -> length r1 = length r2 ->
  compare m s ((pre ++ 0 :: r2) ++ r) (length (pre ++ 0 :: r2)) = Ok 0.
Proof.
  intros H NI Hl. pose proof (text_describes _ _ _ H) as (_ & _ & _ & Sz & D). unfold compare. rewrite Sz, map_length. cbn [bind].
  assert (E : length (pre ++ 0 :: r1) = length (pre ++ 0 :: r2)) by (rewrite !app_length; cbn [length]; lia).
  rewrite E, Nat.ltb_irrefl. rewrite D by (rewrite map_length; lia). rewrite Nat.mul_0_l, Nat.add_0_r.
  rewrite (strncmp_nul pre m (addr s) r1 r2 r); auto. now apply text_lies.
Qed.

(* ---- output ---- *)

Lemma set_width_0_idem i : width i = 0 -> fst (set_width i 0) = i.
Proof. destruct i as [f st w c]. unfold width, set_width. cbn. intros ->. reflexivity. Qed.
Lemma width_set_0 i : width (fst (set_width i 0)) = 0.
Proof. reflexivity. Qed.

Lemma fold_chars tr cs : Forall is_char cs -> Forall (fun c => to_int tr c <> eof) cs ->
  forall i b, width i = 0 -> 0 <= fill true i <= 127 -> room b (length cs) ->
  foldM (fun o v => insert_char tr o v) cs (Ostr i b) = Ok (Ostr i (after b cs)).
Proof.
  intros C N. induction cs as [|c cs IH]; intros i b W F R; cbn [foldM].
  - now rewrite after_nil.
  - inversion C; inversion N; subst. rewrite insert_char_ok; auto; [|lia|rewrite W; cbn [Z.to_nat Nat.max]; rm_le].
    rewrite W. cbn [Z.to_nat padded length Nat.sub repeat app bind]. rewrite set_width_0_idem by exact W.
    rewrite IH; auto; [|apply after_room; cbn [length]; exact R].
    rewrite after_app by (cbn [length]; exact R). reflexivity.
Qed.

Lemma insert_pgm_ok tr m i b s c t : text_in m s (c :: t) ->
  Forall (fun c => to_int tr c <> eof) (map as_char (c :: t)) ->
  0 <= width i < 16 -> 0 <= fill true i <= 127 ->
  room b (Nat.max (Z.to_nat (width i)) 1 + length t) ->
  insert_pgm tr m (Ostr i b) s =
    Ok (Ostr (fst (set_width i 0)) (after b (repeat (fill true i) (Z.to_nat (width i) - 1) ++ map as_char (c :: t)))).
Proof.
  intros H N W F R. unfold insert_pgm. rewrite (over_ok m s (map as_char (c :: t))) by now apply text_describes.
  destruct H as (B & _). inversion B as [|? ? Bc Bt]; inversion N as [|? ? Nc Nt]; subst. cbn [map foldM].
  assert (IC : forall x, is_byte x -> is_char (as_char x)).
  { intros x Hx. pose proof (as_char_range x Hx) as A. unfold in_range in A. cbn in A. unfold is_char. lia. }
  rewrite insert_char_ok; auto; [|eapply room_le; [|exact R]; lia]. cbn [bind padded length].
  rewrite fold_chars; auto.
  - rewrite after_app.
    + rewrite <- app_assoc. reflexivity.
    + rewrite app_length, repeat_length, map_length. cbn [length]. eapply room_le; [|exact R]. lia.
  - apply Forall_map. eapply Forall_impl; [|exact Bt]. exact IC.
  - rewrite map_length. apply after_room. rewrite app_length, repeat_length. cbn [length]. eapply room_le; [|exact R]. lia.
Qed.

Lemma insert_pgm_nil tr m o s : text_in m s [] -> insert_pgm tr m o s = Ok o.
Proof. intros H. unfold insert_pgm. rewrite (over_ok m s []) by (apply (text_describes m s []); exact H). reflexivity. Qed.

(* ---- long strings ---- *)

Lemma size_long m s t : lies_at m (addr s) (t ++ [0]) -> ~ In 0 t -> (256 < length t)%nat -> ext s = None -> size m s = Ok 256%nat.
Proof. intros L NI Hl E. unfold size. rewrite E. apply (strnlen_lies m (addr s) t 256 [0]); auto; lia. Qed.

Lemma long_describes m s t : lies_at m (addr s) (t ++ [0]) -> Forall is_byte t -> ~ In 0 t -> (256 < length t)%nat ->
  ext s = None -> esigned s = true -> esz s = 1%nat -> describes m s (map as_char (firstn 256 t)).
Proof.
  intros L B NI Hl E S1 Z1.
  assert (B' : Forall is_byte (firstn 256 t)).
  { rewrite <- (firstn_skipn 256 t), Forall_app in B. tauto. }
  unfold describes. rewrite S1, Z1, as_char_bytes, map_length by exact B'. split.
  { apply lies_app_l in L. rewrite <- (firstn_skipn 256 t) in L. now apply lies_app_l in L. }
  split; [apply Forall_map; eapply Forall_impl; [|exact B']; intros; now apply as_char_range|]. split; [lia|].
  rewrite firstn_length, Nat.min_l by lia. split; [eapply size_long; eauto|].
  intros pos Hp. rewrite <- Z1. apply data_small; [|intros n En; congruence].
  assert (256 < 256 * 256)%nat by (apply Nat.ltb_lt; vm_compute; reflexivity). lia.
Qed.

Lemma long_not_equal m s t r : lies_at m (addr s) (t ++ [0]) -> ~ In 0 t -> (256 < length t)%nat -> ext s = None ->
  equal_c m s (t ++ 0 :: r) = Ok false.
Proof.
  intros L NI Hl E. unfold equal_c, compare_c. rewrite strlen_ok by exact NI. cbn [bind]. unfold compare.
  rewrite (size_long m s t) by auto. cbn [bind]. destruct (Nat.ltb_spec 256 (length t)); [reflexivity|lia].
Qed.

(* ---- test_container ---- *)

Lemma t_at_ok m t vs ws w idx : (0 < tsz t)%nat -> Forall (in_range (tsigned t) (tsz t)) (vs ++ ws) ->
  lies_at m (taddr t) (flat_map (bytes_of (tsz t)) (vs ++ ws)) -> nth_error (vs ++ ws) (idx * tsz t) = Some w ->
  t_at m t idx = Ok w.
Proof.
  intros S0 F L E. unfold t_at. apply (pgm_read_elem _ _ _ _ (vs ++ ws) [] _ w); auto. now rewrite app_nil_r.
Qed.
Lemma t_elements_ok m t vs : (0 < tsz t)%nat -> Forall (in_range (tsigned t) (tsz t)) vs -> tn t = length vs ->
  lies_at m (taddr t) (flat_map (bytes_of (tsz t)) vs) -> t_elements m t = Ok vs.
Proof.
  intros S0 F E L. unfold t_elements. rewrite E.
  rewrite loop_ok by auto. apply foldM_collect.
Qed.
