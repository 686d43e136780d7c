From Verif Require Import Base BaseLemmas SliceLemmas Span_Spec Span_Model.
Local Open Scope Z_scope.

Lemma rd_in {A} (m : list A) i : (i < length m)%nat -> exists x, nth_error m i = Some x /\ rd m i = Ok x.
Proof.
  intros H. unfold rd. destruct (nth_error m i) eqn:E; eauto.
  apply nth_error_None in E. lia.
Qed.

Lemma firstn_skipn_cons {A} (m : list A) o n x :
  nth_error m o = Some x -> firstn (S n) (skipn o m) = x :: firstn n (skipn (S o) m).
Proof.
  revert o; induction m as [|h t IH]; intros [|o] H; simpl in H; try discriminate.
  - now injection H as ->.
  - simpl. exact (IH o H).
Qed.

Lemma read_all_ok {A} n : forall (m : list A) o sz i,
  0 <= o -> 0 <= i -> o + i + Z.of_nat n <= Z.of_nat (length m) ->
  read_all n m (Sp (Some o) sz) i = Ok (piece m (o + i) (Z.of_nat n)).
Proof.
  induction n as [|n IH]; intros m o sz i Ho Hi Hl.
  - reflexivity.
  - cbn [read_all]. unfold sp_get, pget. cbn [s_data].
    destruct (Z.leb_spec 0 (o + i)); [|lia].
    destruct (rd_in m (Z.to_nat (o + i))) as (x & E & ->); [lia|].
    cbn [bind]. rewrite IH by lia. cbn [bind]. f_equal.
    unfold piece. rewrite !Nat2Z.id.
    rewrite (firstn_skipn_cons m _ n x E).
    replace (Z.to_nat (o + (i + 1))) with (S (Z.to_nat (o + i))) by lia. reflexivity.
Qed.

Lemma view_ok {A} (m : list A) o n :
  inside m o n -> sp_view m (Sp (Some o) n) = Ok (piece m o n).
Proof.
  intros (H1 & H2 & H3). unfold sp_view. cbn [s_size].
  rewrite read_all_ok by lia. rewrite Z2Nat.id by lia. now rewrite Z.add_0_r.
Qed.

Lemma read_all_ub {A} n : forall (m : list A) o sz i,
  0 <= o -> 0 <= i -> o + i <= Z.of_nat (length m) -> Z.of_nat (length m) < o + i + Z.of_nat n ->
  read_all n m (Sp (Some o) sz) i = UB.
Proof.
  induction n as [|n IH]; intros m o sz i Ho Hi Hb Hl; [lia|].
  cbn [read_all]. unfold sp_get, pget. cbn [s_data].
  destruct (Z.leb_spec 0 (o + i)); [|lia].
  destruct (Nat.lt_ge_cases (Z.to_nat (o + i)) (length m)) as [E|E].
  - destruct (rd_in m _ E) as (x & _ & ->). cbn [bind].
    rewrite IH by lia. reflexivity.
  - unfold rd. rewrite (proj2 (nth_error_None _ _) E). reflexivity.
Qed.

Lemma view_ub {A} (m : list A) o n :
  0 <= o <= Z.of_nat (length m) -> Z.of_nat (length m) < o + n -> sp_view m (Sp (Some o) n) = UB.
Proof. intros H1 H2. unfold sp_view. cbn [s_size]. apply read_all_ub; lia. Qed.

Lemma view_null {A} (m : list A) n :
  sp_view m (Sp None n) = if n <=? 0 then Ok [] else UB.
Proof.
  unfold sp_view. cbn [s_size]. destruct (Z.leb_spec n 0).
  - replace (Z.to_nat n) with 0%nat by lia. reflexivity.
  - destruct (Z.to_nat n) eqn:E; [lia|]. reflexivity.
Qed.

Lemma piece_length {A} (m : list A) o n : inside m o n -> Z.of_nat (length (piece m o n)) = n.
Proof. intros (H1 & H2 & H3). unfold piece. rewrite firstn_length, skipn_length. lia. Qed.

Lemma piece_all {A} (m : list A) : piece m 0 (Z.of_nat (length m)) = m.
Proof. unfold piece. rewrite Nat2Z.id. cbn [Z.to_nat skipn]. apply firstn_all. Qed.

Lemma nth_piece {A} (m : list A) o n i :
  inside m o n -> 0 <= i < n -> nth_error (piece m o n) (Z.to_nat i) = nth_error m (Z.to_nat (o + i)).
Proof.
  intros (H1 & H2 & H3) Hi. unfold piece. rewrite nth_error_firstn, nth_error_skipn.
  destruct (Nat.ltb_spec (Z.to_nat i) (Z.to_nat n)); [|lia]. f_equal. lia.
Qed.

Lemma get_ok {A} (m : list A) o n i :
  inside m o n -> 0 <= i < n ->
  exists x, sp_get m (Sp (Some o) n) i = Ok x /\ elem (piece m o n) i = Some x.
Proof.
  intros H Hi. pose proof H as (H1 & H2 & H3). unfold sp_get, pget, elem. cbn [s_data].
  destruct (Z.leb_spec 0 (o + i)); [|lia]. destruct (Z.ltb_spec i 0); [lia|].
  rewrite (nth_piece m o n i H Hi).
  destruct (rd_in m (Z.to_nat (o + i))) as (x & E & ->); [lia|]. eauto.
Qed.

Lemma nth_error_upd {A} (l : list A) i x j :
  nth_error (upd l i x) j = if Nat.eqb i j then option_map (fun _ => x) (nth_error l i) else nth_error l j.
Proof.
  revert i j; induction l as [|h t IH]; intros [|i] [|j]; simpl; auto.
  now destruct (Nat.eqb i j).
Qed.

Lemma upd_len {A} (l : list A) i x : length (upd l i x) = length l.
Proof. revert i; induction l; intros [|i]; simpl; auto. Qed.

Lemma put_ok {A} (m : list A) o n i x :
  inside m o n -> 0 <= i < n ->
  sp_put m (Sp (Some o) n) i x = Ok (put m (o + i) x).
Proof.
  intros (H1 & H2 & H3) Hi. unfold sp_put, pput, put, wr. cbn [s_data].
  destruct (Z.leb_spec 0 (o + i)); [|lia].
  destruct (Nat.ltb_spec (Z.to_nat (o + i)) (length m)); [reflexivity|lia].
Qed.

(* what another span sees of a write at position k *)
Lemma piece_put {A} (m : list A) k x o n :
  inside m o n -> 0 <= k ->
  piece (put m k x) o n = if (o <=? k) && (k <? o + n) then put (piece m o n) (k - o) x else piece m o n.
Proof.
  intros (H1 & H2 & H3) Hk. apply list_ext. intros j.
  assert (E : nth_error (piece (put m k x) o n) j =
              if Nat.ltb j (Z.to_nat n) then nth_error (put m k x) (Z.to_nat o + j) else None).
  { unfold piece. now rewrite nth_error_firstn, nth_error_skipn. }
  rewrite E. unfold put. rewrite nth_error_upd.
  assert (E2 : nth_error (piece m o n) j =
              if Nat.ltb j (Z.to_nat n) then nth_error m (Z.to_nat o + j) else None).
  { unfold piece. now rewrite nth_error_firstn, nth_error_skipn. }
  destruct (Z.leb_spec o k); destruct (Z.ltb_spec k (o + n)); cbn [andb].
  - rewrite nth_error_upd.
    assert (E3 : nth_error (piece m o n) (Z.to_nat (k - o)) = nth_error m (Z.to_nat k)).
    { unfold piece. rewrite nth_error_firstn, nth_error_skipn.
      destruct (Nat.ltb_spec (Z.to_nat (k - o)) (Z.to_nat n)); [f_equal; lia|lia]. }
    rewrite E3, E2.
    destruct (Nat.eqb_spec (Z.to_nat k) (Z.to_nat o + j)); destruct (Nat.eqb_spec (Z.to_nat (k - o)) j);
      destruct (Nat.ltb_spec j (Z.to_nat n)); try lia; auto.
  - rewrite E2. destruct (Nat.ltb_spec j (Z.to_nat n)); auto.
    destruct (Nat.eqb_spec (Z.to_nat k) (Z.to_nat o + j)); [lia|auto].
  - rewrite E2. destruct (Nat.ltb_spec j (Z.to_nat n)); auto.
    destruct (Nat.eqb_spec (Z.to_nat k) (Z.to_nat o + j)); [lia|auto].
  - lia.
Qed.

Lemma inside_put {A} (m : list A) k x o n : inside (put m k x) o n <-> inside m o n.
Proof. unfold inside, put. now rewrite upd_len. Qed.

(* iteration *)
Lemma iterate_ok {A} k : forall fuel (m : list A) o,
  (k < fuel)%nat -> 0 <= o -> o + Z.of_nat k <= Z.of_nat (length m) ->
  iterate fuel m (Some o) (Some (o + Z.of_nat k)) = Ok (piece m o (Z.of_nat k)).
Proof.
  induction k as [|k IH]; intros [|f] m o Hf Ho Hl; try lia; cbn [iterate].
  - destruct (Z.eqb_spec o (o + Z.of_nat 0)); [reflexivity|lia].
  - destruct (Z.eqb_spec o (o + Z.of_nat (S k))); [lia|].
    unfold pget. rewrite Z.add_0_r. destruct (Z.leb_spec 0 o); [|lia].
    destruct (rd_in m (Z.to_nat o)) as (x & E & ->); [lia|]. cbn [bind].
    unfold padd. destruct (Z.leb_spec 0 (o + 1)); [|lia].
    destruct (Z.leb_spec (o + 1) (Z.of_nat (length m))); [|lia]. cbn [andb bind].
    replace (o + Z.of_nat (S k)) with ((o + 1) + Z.of_nat k) by lia.
    rewrite IH by lia. cbn [bind]. f_equal. unfold piece. rewrite !Nat2Z.id.
    rewrite (firstn_skipn_cons m _ k x E). now replace (Z.to_nat (o + 1)) with (S (Z.to_nat o)) by lia.
Qed.

Lemma sp_iterate_ok {A} fuel (m : list A) o n :
  inside m o n -> (Z.to_nat n < fuel)%nat ->
  sp_iterate fuel m (Sp (Some o) n) = Ok (piece m o n).
Proof.
  intros (H1 & H2 & H3) Hf. unfold sp_iterate, sp_end, padd. cbn [s_data s_size sp_begin].
  destruct (Z.leb_spec 0 (o + n)); [|lia].
  destruct (Z.leb_spec (o + n) (Z.of_nat (length m))); [|lia]. cbn [andb bind].
  pose proof (iterate_ok (Z.to_nat n) fuel m o Hf H1) as E. rewrite Z2Nat.id in E by lia.
  unfold sp_begin. cbn [s_data]. apply E. lia.
Qed.

Lemma end_ub {A} (m : list A) o n :
  0 <= o -> Z.of_nat (length m) < o + n -> sp_end m (Sp (Some o) n) = UB.
Proof.
  intros. unfold sp_end, padd. cbn [s_data s_size].
  destruct (Z.leb_spec (o + n) (Z.of_nat (length m))); [lia|]. now rewrite andb_false_r.
Qed.

(* sub-ranges *)
Lemma piece_first {A} (m : list A) o n c :
  inside m o n -> 0 <= c <= n -> piece m o c = firstn (Z.to_nat c) (piece m o n).
Proof.
  intros (H1 & H2 & H3) Hc. unfold piece. rewrite firstn_firstn. f_equal. lia.
Qed.
Lemma piece_piece {A} (m : list A) o n i c :
  inside m o n -> 0 <= i -> 0 <= c -> i + c <= n -> piece m (o + i) c = piece (piece m o n) i c.
Proof.
  intros (H1 & H2 & H3) Hi Hc Hic. unfold piece.
  apply list_ext. intros j. rewrite !nth_error_firstn, !nth_error_skipn, nth_error_firstn, nth_error_skipn.
  destruct (Nat.ltb_spec j (Z.to_nat c)); auto.
  destruct (Nat.ltb_spec (Z.to_nat i + j) (Z.to_nat n)); [f_equal; lia|lia].
Qed.

Lemma subspan_ok {A} M (m : list A) o n i c :
  inside m o n -> 0 <= i -> 0 <= c -> i + c <= n -> c <> M - 1 ->
  sp_subspan M m (Sp (Some o) n) i c = Ok (Sp (Some (o + i)) c) /\ inside m (o + i) c.
Proof.
  intros (H1 & H2 & H3) Hi Hc Hic HM. unfold sp_subspan, padd. cbn [s_data s_size].
  destruct (Z.eqb_spec c (M - 1)); [lia|].
  destruct (Z.leb_spec 0 (o + i)); [|lia].
  destruct (Z.leb_spec (o + i) (Z.of_nat (length m))); [|lia]. cbn [andb bind].
  split; [reflexivity|]. unfold inside. lia.
Qed.

Lemma subspan_default {A} M (m : list A) o n i :
  inside m o n -> 0 <= i -> o + i <= Z.of_nat (length m) ->
  sp_subspan_default M m (Sp (Some o) n) i = Ok (Sp (Some (o + i)) n).
Proof.
  intros (H1 & H2 & H3) Hi Hb. unfold sp_subspan_default, sp_subspan, padd. cbn [s_data s_size].
  rewrite Z.eqb_refl.
  destruct (Z.leb_spec 0 (o + i)); [|lia].
  destruct (Z.leb_spec (o + i) (Z.of_nat (length m))); [|lia]. reflexivity.
Qed.

(* bytes *)
Section Bytes.
  Context {A B : Type} (enc : A -> list B) (k : nat).
  Hypothesis enc_len : forall a, length (enc a) = k.

  Lemma mem_len (l : list A) : length (flat_map enc l) = (length l * k)%nat.
  Proof. induction l; simpl; auto. rewrite app_length, enc_len, IHl. lia. Qed.

  Lemma firstn_bytes n (l : list A) : firstn (n * k) (flat_map enc l) = flat_map enc (firstn n l).
  Proof.
    revert n; induction l as [|a t IH]; intros [|n]; auto.
    - simpl. apply firstn_nil.
    - cbn [flat_map firstn]. rewrite firstn_app, enc_len.
      rewrite firstn_all2 by (rewrite enc_len; lia).
      replace (S n * k - k)%nat with (n * k)%nat by lia. now rewrite IH.
  Qed.
  Lemma skipn_bytes n (l : list A) : skipn (n * k) (flat_map enc l) = flat_map enc (skipn n l).
  Proof.
    revert n; induction l as [|a t IH]; intros [|n]; auto.
    - simpl. apply skipn_nil.
    - cbn [flat_map skipn]. rewrite skipn_app, enc_len.
      rewrite skipn_all2 by (rewrite enc_len; lia).
      replace (S n * k - k)%nat with (n * k)%nat by lia. now rewrite IH.
  Qed.

  Lemma piece_bytes (m : list A) o n :
    inside m o n ->
    piece (memory_bytes enc m) (o * Z.of_nat k) (n * Z.of_nat k) = flat_map enc (piece m o n).
  Proof.
    intros (H1 & H2 & H3). unfold piece, memory_bytes.
    rewrite !Z2Nat.inj_mul, Nat2Z.id by lia.
    now rewrite skipn_bytes, firstn_bytes.
  Qed.

  Lemma inside_bytes (m : list A) o n :
    inside m o n -> inside (memory_bytes enc m) (o * Z.of_nat k) (n * Z.of_nat k).
  Proof.
    intros (H1 & H2 & H3). unfold inside, memory_bytes. rewrite mem_len. nia.
  Qed.
End Bytes.
