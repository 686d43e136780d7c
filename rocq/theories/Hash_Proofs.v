From Coq Require Import List ZArith Lia Bool.
From Verif Require Import MachInt Hash_Spec Hash_Model.
Local Open Scope Z_scope.

(* ---- FNV *)
Lemma add64_u64 a b : add64 (u64 a) (u64 b) = u64 (a + b).
Proof. unfold add64, u64. rewrite Z.add_mod_idemp_l, Z.add_mod_idemp_r by lia. reflexivity. Qed.
Lemma shl64_eq h k : 0 <= k -> shl64 h k = u64 (h * 2 ^ k).
Proof. intros K. unfold shl64. now rewrite Z.shiftl_mul_pow2. Qed.
Lemma step64 h : add64 h (shift_sum h) = (h * 1099511628211) mod 2 ^ 64.
Proof.
  unfold shift_sum. rewrite !shl64_eq by lia. rewrite !add64_u64. unfold add64, u64.
  change (2 ^ 64) with 18446744073709551616. rewrite Z.add_mod_idemp_r by lia. f_equal. lia.
Qed.

Lemma h32_1 s : forall h, hash32_1 s h = fnv1_from fnv32 h (map octet s).
Proof. induction s as [|c s IH]; intros h; [reflexivity|]. cbn [hash32_1 map fnv1_from]. cbv zeta. rewrite IH. reflexivity. Qed.
Lemma h32_1a s : forall h, hash32_1a s h = fnv1a_from fnv32 h (map octet s).
Proof. induction s as [|c s IH]; intros h; [reflexivity|]. cbn [hash32_1a map fnv1a_from]. cbv zeta. rewrite IH. reflexivity. Qed.
Lemma h64_1 s : forall h, hash64_1 s h = fnv1_from fnv64 h (map octet s).
Proof.
  induction s as [|c s IH]; intros h; [reflexivity|]. cbn [hash64_1 map fnv1_from]. cbv zeta. rewrite IH, step64. reflexivity.
Qed.
Lemma h64_1a s : forall h, hash64_1a s h = fnv1a_from fnv64 h (map octet s).
Proof.
  induction s as [|c s IH]; intros h; [reflexivity|]. cbn [hash64_1a map fnv1a_from]. cbv zeta. rewrite IH, step64. reflexivity.
Qed.

Lemma fnv1_app p s1 s2 : forall h, fnv1_from p h (s1 ++ s2) = fnv1_from p (fnv1_from p h s1) s2.
Proof. induction s1 as [|b s1 IH]; intros h; cbn; [reflexivity|apply IH]. Qed.
Lemma fnv1a_app p s1 s2 : forall h, fnv1a_from p h (s1 ++ s2) = fnv1a_from p (fnv1a_from p h s1) s2.
Proof. induction s1 as [|b s1 IH]; intros h; cbn; [reflexivity|apply IH]. Qed.

(* the prime is invertible *)
Definition inverse (p : fnv_params) (q : Z) : Prop := 8 <= width p /\ (prime p * q) mod 2 ^ width p = 1.
Lemma inv32 : inverse fnv32 899433627.
Proof. split; vm_compute; [discriminate|reflexivity]. Qed.
Lemma inv64 : inverse fnv64 14886173955864302971.
Proof. split; vm_compute; [discriminate|reflexivity]. Qed.

Section Fnv.
Variables (p : fnv_params) (q : Z).
Hypothesis Q : inverse p q.

Lemma m_pos : 0 < 2 ^ width p.
Proof. apply Z.pow_pos_nonneg; [lia|]. destruct Q. lia. Qed.

Lemma mul_inv h : hash_value p h -> ((h * prime p) mod 2 ^ width p * q) mod 2 ^ width p = h.
Proof.
  intros H. pose proof m_pos. rewrite Z.mul_mod_idemp_l by lia. rewrite <- Z.mul_assoc, Z.mul_mod by lia.
  destruct Q as [_ E]. rewrite E, Z.mul_1_r, Z.mod_mod by lia. now apply Z.mod_small.
Qed.
Lemma mul_inv' h : hash_value p h -> ((h * q) mod 2 ^ width p * prime p) mod 2 ^ width p = h.
Proof.
  intros H. pose proof m_pos. rewrite Z.mul_mod_idemp_l by lia. rewrite <- Z.mul_assoc, Z.mul_mod by lia.
  destruct Q as [_ E]. rewrite (Z.mul_comm q), E, Z.mul_1_r, Z.mod_mod by lia. now apply Z.mod_small.
Qed.
Lemma mul_value h k : hash_value p ((h * k) mod 2 ^ width p).
Proof. apply Z.mod_pos_bound, m_pos. Qed.

Lemma xor_value h b : hash_value p h -> is_octet b -> hash_value p (Z.lxor h b).
Proof.
  unfold hash_value, is_octet. intros H B. pose proof m_pos. destruct Q as [W _].
  assert (N : 0 <= Z.lxor h b) by (apply Z.lxor_nonneg; lia). split; [exact N|].
  destruct (Z.eq_dec (Z.lxor h b) 0) as [->|Z0]; [lia|]. apply Z.log2_lt_pow2; [lia|].
  eapply Z.le_lt_trans; [apply Z.log2_lxor; lia|]. apply Z.max_lub_lt.
  - destruct (Z.eq_dec h 0) as [->|]; [cbn; lia|]. apply Z.log2_lt_pow2; lia.
  - destruct (Z.eq_dec b 0) as [->|]; [cbn; lia|]. apply Z.log2_lt_pow2; [lia|].
    apply Z.lt_le_trans with (2 ^ 8); [change (2 ^ 8) with 256; lia|apply Z.pow_le_mono_r; lia].
Qed.
Lemma xor_xor h b : Z.lxor (Z.lxor h b) b = h.
Proof. now rewrite Z.lxor_assoc, Z.lxor_nilpotent, Z.lxor_0_r. Qed.
Lemma xor_inj_l h1 h2 b : Z.lxor h1 b = Z.lxor h2 b -> h1 = h2.
Proof. intros E. rewrite <- (xor_xor h1 b), E. apply xor_xor. Qed.
Lemma xor_inj_r h b1 b2 : Z.lxor h b1 = Z.lxor h b2 -> b1 = b2.
Proof. intros E. rewrite (Z.lxor_comm h b1), (Z.lxor_comm h b2) in E. now apply xor_inj_l in E. Qed.
Lemma mul_inj h1 h2 : hash_value p h1 -> hash_value p h2 ->
  (h1 * prime p) mod 2 ^ width p = (h2 * prime p) mod 2 ^ width p -> h1 = h2.
Proof. intros H1 H2 E. rewrite <- (mul_inv h1 H1), E. now apply mul_inv. Qed.

Lemma fnv1_value s : Forall is_octet s -> forall h, hash_value p h -> hash_value p (fnv1_from p h s).
Proof.
  induction 1 as [|b s B _ IH]; intros h H; cbn; [exact H|]. apply IH, xor_value; [apply mul_value|exact B].
Qed.
Lemma fnv1a_value s : Forall is_octet s -> forall h, hash_value p h -> hash_value p (fnv1a_from p h s).
Proof. induction 1 as [|b s B _ IH]; intros h H; cbn; [exact H|]. apply IH, mul_value. Qed.

Lemma fnv1_inj s : Forall is_octet s -> forall h1 h2, hash_value p h1 -> hash_value p h2 ->
  fnv1_from p h1 s = fnv1_from p h2 s -> h1 = h2.
Proof.
  induction 1 as [|b s B _ IH]; intros h1 h2 H1 H2 E; [exact E|]. cbn in E. apply IH in E.
  - apply xor_inj_l in E. now apply mul_inj.
  - apply xor_value; [apply mul_value|exact B].
  - apply xor_value; [apply mul_value|exact B].
Qed.
Lemma fnv1a_inj s : Forall is_octet s -> forall h1 h2, hash_value p h1 -> hash_value p h2 ->
  fnv1a_from p h1 s = fnv1a_from p h2 s -> h1 = h2.
Proof.
  induction 1 as [|b s B _ IH]; intros h1 h2 H1 H2 E; [exact E|]. cbn in E. apply IH in E; [|apply mul_value|apply mul_value].
  apply mul_inj in E; [|now apply xor_value|now apply xor_value]. now apply xor_inj_l in E.
Qed.
Lemma fnv1_onto s : Forall is_octet s -> forall h', hash_value p h' -> exists h, hash_value p h /\ fnv1_from p h s = h'.
Proof.
  induction 1 as [|b s B _ IH]; intros h' H'; [exists h'; auto|]. destruct (IH h' H') as (g & G & E).
  exists ((Z.lxor g b * q) mod 2 ^ width p). split; [apply mul_value|]. cbn.
  rewrite mul_inv' by now apply xor_value. now rewrite xor_xor.
Qed.
Lemma fnv1a_onto s : Forall is_octet s -> forall h', hash_value p h' -> exists h, hash_value p h /\ fnv1a_from p h s = h'.
Proof.
  induction 1 as [|b s B _ IH]; intros h' H'; [exists h'; auto|]. destruct (IH h' H') as (g & G & E).
  exists (Z.lxor ((g * q) mod 2 ^ width p) b). split; [apply xor_value; [apply mul_value|exact B]|]. cbn.
  rewrite xor_xor. now rewrite mul_inv'.
Qed.

Lemma fnv1_differ s1 a b s2 h : Forall is_octet s1 -> Forall is_octet s2 -> is_octet a -> is_octet b -> hash_value p h ->
  a <> b -> fnv1_from p h (s1 ++ a :: s2) <> fnv1_from p h (s1 ++ b :: s2).
Proof.
  intros S1 S2 A B H N E. rewrite !fnv1_app in E. cbn in E. apply fnv1_inj in E; [|exact S2| |].
  - now apply xor_inj_r in E.
  - apply xor_value; [apply mul_value|exact A].
  - apply xor_value; [apply mul_value|exact B].
Qed.
Lemma fnv1a_differ s1 a b s2 h : Forall is_octet s1 -> Forall is_octet s2 -> is_octet a -> is_octet b -> hash_value p h ->
  a <> b -> fnv1a_from p h (s1 ++ a :: s2) <> fnv1a_from p h (s1 ++ b :: s2).
Proof.
  intros S1 S2 A B H N E. rewrite !fnv1a_app in E. cbn in E. apply fnv1a_inj in E; [|exact S2|apply mul_value|apply mul_value].
  apply mul_inj in E; [now apply xor_inj_r in E| |]; apply xor_value; auto; now apply fnv1a_value.
Qed.
End Fnv.

Lemma octet_is c : is_octet (octet c).
Proof. apply Z.mod_pos_bound. lia. Qed.
Lemma octets_are s : Forall is_octet (map octet s).
Proof. induction s; constructor; [apply octet_is|assumption]. Qed.

Lemma runs_fnv1 f p q : inverse p q -> (forall s h, f s h = fnv1_from p h (map octet s)) -> runs f p.
Proof.
  intros Q E. unfold runs. repeat split; intros.
  - now rewrite !E, map_app, fnv1_app.
  - rewrite E. apply (fnv1_value p q Q); [apply octets_are|assumption].
  - rewrite E. apply (fnv1_value p q Q); [apply octets_are|assumption].
  - rewrite !E in H1. now apply (fnv1_inj p q Q) with (map octet s); [apply octets_are| | |].
  - destruct (fnv1_onto p q Q (map octet s) (octets_are s) h' H) as (h & H1 & H2). exists h. now rewrite E.
  - rewrite !E, !map_app. cbn [map]. apply (fnv1_differ p q Q); auto using octets_are, octet_is.
Qed.
Lemma runs_fnv1a f p q : inverse p q -> (forall s h, f s h = fnv1a_from p h (map octet s)) -> runs f p.
Proof.
  intros Q E. unfold runs. repeat split; intros.
  - now rewrite !E, map_app, fnv1a_app.
  - rewrite E. apply (fnv1a_value p q Q); [apply octets_are|assumption].
  - rewrite E. apply (fnv1a_value p q Q); [apply octets_are|assumption].
  - rewrite !E in H1. now apply (fnv1a_inj p q Q) with (map octet s); [apply octets_are| | |].
  - destruct (fnv1a_onto p q Q (map octet s) (octets_are s) h' H) as (h & H1 & H2). exists h. now rewrite E.
  - rewrite !E, !map_app. cbn [map]. apply (fnv1a_differ p q Q); auto using octets_are, octet_is.
Qed.

(* ---- bytes *)
Lemma lor_add a b k : 0 <= k -> 0 <= a < 2 ^ k -> Z.lor (Z.shiftl b k) a = b * 2 ^ k + a.
Proof.
  intros K A. assert (L : Z.land (Z.shiftl b k) a = 0).
  { apply Z.bits_inj'. intros i I. rewrite Z.land_spec, Z.bits_0. destruct (Z.lt_ge_cases i k).
    - now rewrite Z.shiftl_spec_low.
    - replace (Z.testbit a i) with false; [apply andb_false_r|]. symmetry.
      destruct (Z.eq_dec a 0) as [->|]; [apply Z.bits_0|]. apply Z.bits_above_log2; [lia|].
      apply Z.lt_le_trans with k; [|lia]. apply Z.log2_lt_pow2; lia. }
  rewrite <- Z.lxor_lor by exact L. rewrite <- Z.add_nocarry_lxor by exact L. now rewrite Z.shiftl_mul_pow2.
Qed.
Lemma byte_at_eq n i : 0 <= i -> byte_at n i = (n / 2 ^ i) mod 256.
Proof.
  intros I. unfold byte_at. change 255 with (Z.ones 8). rewrite Z.land_ones by lia.
  now rewrite Z.shiftr_div_pow2.
Qed.
Lemma mod256 x : 0 <= x mod 256 < 256.
Proof. apply Z.mod_pos_bound. lia. Qed.

Lemma bswap16_eq n : bswap16 n = (n mod 256) * 256 + (n / 256) mod 256.
Proof.
  unfold bswap16. rewrite !byte_at_eq by lia. change (2 ^ 0) with 1. rewrite Z.div_1_r.
  pose proof (mod256 (n / 2 ^ 8)). rewrite lor_add; [reflexivity|lia|]. change (2 ^ 8) with 256 in *. lia.
Qed.
Lemma bswap32_eq n : bswap32 n =
  (n mod 256) * 16777216 + ((n / 256) mod 256 * 65536 + ((n / 65536) mod 256 * 256 + (n / 16777216) mod 256)).
Proof.
  unfold bswap32. rewrite !byte_at_eq by lia. change (2 ^ 0) with 1. rewrite Z.div_1_r.
  change (2 ^ 8) with 256. change (2 ^ 16) with 65536. change (2 ^ 24) with 16777216.
  pose proof (mod256 (n / 256)). pose proof (mod256 (n / 65536)). pose proof (mod256 (n / 16777216)).
  rewrite (lor_add ((n / 16777216) mod 256)); [|lia|change (2 ^ 8) with 256; lia].
  change (2 ^ 8) with 256.
  rewrite (lor_add ((n / 65536) mod 256 * 256 + (n / 16777216) mod 256)); [|lia|change (2 ^ 16) with 65536; lia].
  change (2 ^ 16) with 65536.
  rewrite lor_add; [reflexivity|lia|change (2 ^ 24) with 16777216; lia].
Qed.

Fixpoint from_bytes (l : list Z) : Z := match l with [] => 0 | b :: t => b + 256 * from_bytes t end.
Definition m256 (n : nat) : Z := 256 ^ Z.of_nat n.
Lemma m256_S n : m256 (S n) = 256 * m256 n.
Proof. unfold m256. rewrite Nat2Z.inj_succ, Z.pow_succ_r by lia. reflexivity. Qed.
Lemma m256_pos n : 0 < m256 n.
Proof. apply Z.pow_pos_nonneg; lia. Qed.

Lemma bytes_length n : forall v, length (bytes n v) = n.
Proof. induction n as [|n IH]; intros v; cbn; [reflexivity|now rewrite IH]. Qed.
Lemma bytes_octets n : forall v, Forall is_octet (bytes n v).
Proof. induction n as [|n IH]; intros v; cbn; constructor; [apply mod256|apply IH]. Qed.
Lemma bytes_from l : Forall is_octet l -> bytes (length l) (from_bytes l) = l.
Proof.
  induction 1 as [|b l B _ IH]; [reflexivity|]. cbn [length bytes from_bytes]. unfold is_octet in B.
  replace ((b + 256 * from_bytes l) mod 256) with b.
  2:{ rewrite Z.mul_comm, Z.mod_add by lia. symmetry. apply Z.mod_small. lia. }
  replace ((b + 256 * from_bytes l) / 256) with (from_bytes l); [now rewrite IH|].
  rewrite Z.mul_comm, Z.div_add by lia. rewrite Z.div_small by lia. lia.
Qed.
Lemma from_bytes_mod n : forall v, from_bytes (bytes n v) = v mod m256 n.
Proof.
  induction n as [|n IH]; intros v.
  - cbn. now rewrite Z.mod_1_r.
  - cbn [bytes from_bytes]. rewrite IH, m256_S. pose proof (m256_pos n). rewrite Z.rem_mul_r by lia. reflexivity.
Qed.
Lemma bytes_cong n v w : v mod m256 n = w mod m256 n -> bytes n v = bytes n w.
Proof.
  intros E. rewrite <- !from_bytes_mod in E.
  rewrite <- (bytes_from (bytes n v)) by apply bytes_octets. rewrite <- (bytes_from (bytes n w)) by apply bytes_octets.
  now rewrite !bytes_length, E.
Qed.
Lemma bytes_inj n v w : bytes n v = bytes n w -> v mod m256 n = w mod m256 n.
Proof. intros E. now rewrite <- !from_bytes_mod, E. Qed.
Lemma bytes_mod n v : bytes n (v mod m256 n) = bytes n v.
Proof. apply bytes_cong. apply Z.mod_mod. pose proof (m256_pos n). lia. Qed.
Lemma bytes_rev_from n v : bytes n (from_bytes (rev (bytes n v))) = rev (bytes n v).
Proof.
  rewrite <- (bytes_length n v) at 1. rewrite <- rev_length. apply bytes_from. apply Forall_rev, bytes_octets.
Qed.

Lemma bswap16_from n : bswap16 n = from_bytes (rev (bytes 2 n)).
Proof. rewrite bswap16_eq. cbn [bytes rev app from_bytes]. lia. Qed.
Lemma bswap32_from n : bswap32 n = from_bytes (rev (bytes 4 n)).
Proof.
  rewrite bswap32_eq. cbn [bytes rev app from_bytes]. rewrite !Z.div_div by lia.
  change (256 * 256) with 65536. change (256 * 65536) with 16777216. change (65536 * 256) with 16777216. lia.
Qed.
Lemma bytes_app k j : forall v, bytes (k + j) v = bytes k v ++ bytes j (v / m256 k).
Proof.
  induction k as [|k IH]; intros v.
  - cbn. now rewrite Z.div_1_r.
  - cbn [Nat.add bytes app]. rewrite IH, m256_S. now rewrite Z.div_div by (pose proof (m256_pos k); lia).
Qed.
Lemma from_app l1 : forall l2, from_bytes (l1 ++ l2) = from_bytes l1 + m256 (length l1) * from_bytes l2.
Proof.
  induction l1 as [|b l1 IH]; intros l2.
  - cbn [app from_bytes length]. change (m256 0) with 1. lia.
  - cbn [app from_bytes length]. rewrite IH, m256_S. lia.
Qed.
Lemma from_bound l : Forall is_octet l -> 0 <= from_bytes l < m256 (length l).
Proof.
  induction 1 as [|b l B _ IH]; [cbn; lia|]. cbn [from_bytes length]. rewrite m256_S. unfold is_octet in B. lia.
Qed.
Lemma bswap64_from n : bswap64 n = from_bytes (rev (bytes 8 n)).
Proof.
  unfold bswap64. rewrite !bswap32_from. change 4294967295 with (Z.ones 32). rewrite Z.land_ones by lia.
  change (2 ^ 32) with (m256 4). rewrite bytes_mod. rewrite Z.shiftr_div_pow2 by lia.
  change (2 ^ 32) with (m256 4).
  change (bytes 8 n) with (bytes (4 + 4) n). rewrite bytes_app, rev_app_distr, from_app, rev_length, bytes_length.
  rewrite lor_add; [|lia|].
  - change (2 ^ 32) with (m256 4). lia.
  - pose proof (from_bound (rev (bytes 4 (n / m256 4)))) as B. rewrite rev_length, bytes_length in B.
    change (2 ^ 32) with (m256 4). apply B. apply Forall_rev, bytes_octets.
Qed.

(* conversions keep the low bytes *)
Lemma wrap_mod t x : 1 <= bits t -> wrap t x mod 2 ^ bits t = x mod 2 ^ bits t.
Proof.
  intros B. assert (P : 0 < 2 ^ bits t) by (apply Z.pow_pos_nonneg; lia). unfold wrap. destruct (sgn t).
  - unfold wraps. rewrite Zminus_mod_idemp_l. f_equal. lia.
  - unfold wrapu. apply Z.mod_mod. lia.
Qed.
Lemma wrap_range t x : 1 <= bits t -> in_range t (wrap t x).
Proof.
  intros B. assert (P : 0 < 2 ^ (bits t - 1)) by (apply Z.pow_pos_nonneg; lia). pose proof (pow_half (bits t) B) as E.
  unfold in_range, wrap, imin, imax, wraps, wrapu. destruct (sgn t).
  - pose proof (Z.mod_pos_bound (x + 2 ^ (bits t - 1)) (2 ^ bits t)). lia.
  - pose proof (Z.mod_pos_bound x (2 ^ bits t)). lia.
Qed.
Lemma range_cong t x y : 1 <= bits t -> in_range t x -> in_range t y -> x mod 2 ^ bits t = y mod 2 ^ bits t -> x = y.
Proof.
  intros B X Y E. rewrite <- (wrap_id t x), <- (wrap_id t y) by assumption. unfold wrap. destruct (sgn t).
  - unfold wraps. f_equal. rewrite <- Z.add_mod_idemp_l, E, Z.add_mod_idemp_l; [reflexivity| |];
    apply Z.pow_nonzero; lia.
  - exact E.
Qed.

(* the types byteswap is written for: n bytes *)
Lemma swap_gen t n v (f : Z -> Z) : 1 <= bits t -> 2 ^ bits t = m256 n ->
  (forall x, f x = wrap t (from_bytes (rev (bytes n x)))) ->
  in_range t v -> bytes n (f v) = rev (bytes n v) /\ in_range t (f v) /\ f (f v) = v.
Proof.
  intros B E F R.
  assert (H : forall x, bytes n (f x) = rev (bytes n x)).
  { intros x. rewrite F. rewrite (bytes_cong n _ (from_bytes (rev (bytes n x)))); [apply bytes_rev_from|].
    rewrite <- E. now apply wrap_mod. }
  split; [apply H|]. split; [rewrite F; now apply wrap_range|].
  apply (range_cong t); [exact B|rewrite F; now apply wrap_range|exact R|]. rewrite E. apply bytes_inj.
  now rewrite !H, rev_involutive.
Qed.

Lemma byteswap_ok t v w : (bits t = 16 \/ bits t = 32 \/ (bits t = 64 /\ sgn t = false)) -> w = Z.to_nat (bits t / 8) ->
  in_range t v -> exists r, byteswap t v = Some r /\ bytes w r = rev (bytes w v) /\ in_range t r /\ byteswap t r = Some v.
Proof.
  intros T W R. unfold byteswap. destruct T as [T|[T|[T U]]]; rewrite T in *; subst w.
  - assert (D : t = t16 (sgn t)) by (destruct t; cbn in *; now subst). set (s := sgn t) in *. clearbody s. subst t. cbn [Z.eqb Pos.eqb].
    destruct (swap_gen (t16 s) 2 v (byteswap16 s)) as (H1 & H2 & H3); [cbn; lia|reflexivity| |exact R|].
    + intros x. unfold byteswap16. f_equal. rewrite bswap16_from. unfold wrapu. change (2 ^ 16) with (m256 2). now rewrite bytes_mod.
    + exists (byteswap16 s v). rewrite H3. auto.
  - assert (D : t = t32 (sgn t)) by (destruct t; cbn in *; now subst). set (s := sgn t) in *. clearbody s. subst t. cbn [Z.eqb Pos.eqb].
    destruct (swap_gen (t32 s) 4 v (byteswap32 s)) as (H1 & H2 & H3); [cbn; lia|reflexivity| |exact R|].
    + intros x. unfold byteswap32. f_equal. rewrite bswap32_from. unfold wrapu. change (2 ^ 32) with (m256 4). now rewrite bytes_mod.
    + exists (byteswap32 s v). rewrite H3. auto.
  - assert (D : t = Ity 64 false) by (destruct t; cbn in *; now subst). subst t. cbn [Z.eqb Pos.eqb sgn].
    destruct (swap_gen (Ity 64 false) 8 v byteswap64) as (H1 & H2 & H3); [cbn; lia|reflexivity| |exact R|].
    + intros x. unfold byteswap64. rewrite bswap64_from. unfold wrap, wrapu. cbn [sgn bits]. change (2 ^ 64) with (m256 8). rewrite bytes_mod.
      symmetry. apply Z.mod_small. pose proof (from_bound (rev (bytes 8 x))) as K. rewrite rev_length, bytes_length in K.
      apply K. apply Forall_rev, bytes_octets.
    + exists (byteswap64 v). rewrite H3. auto.
Qed.

(* an 8 bit value comes back as zero, or as its sign *)
Lemma byteswap8 t v : bits t = 8 -> in_range t v ->
  byteswap t v = Some (if Z.ltb v 0 then -1 else 0).
Proof.
  intros T R. unfold byteswap. rewrite T. cbn [Z.eqb Pos.eqb]. f_equal.
  assert (D : t = Ity 8 (sgn t)) by (destruct t; cbn in *; now subst). set (s := sgn t) in *. clearbody s. subst t.
  assert (B : byteswap32 true v mod 256 = (if Z.ltb v 0 then -1 else 0) mod 256).
  { unfold byteswap32. rewrite bswap32_from. unfold wrapu. change (2 ^ 32) with (m256 4). rewrite bytes_mod.
    set (x := from_bytes (rev (bytes 4 v))).
    assert (E : wrap (t32 true) x mod m256 4 = x mod m256 4).
    { change (m256 4) with (2 ^ bits (t32 true)). apply wrap_mod. cbn. lia. }
    apply bytes_cong in E. unfold x in E at 2. rewrite bytes_rev_from in E.
    generalize dependent (wrap (t32 true) x). clear x. intros y E.
    cbn [bytes rev app] in E. injection E as E _ _ _. rewrite E. rewrite !Z.div_div by lia.
    unfold in_range, imin, imax in R. cbn [bits sgn] in R. change (2 ^ (8 - 1)) with 128 in R. change (2 ^ 8) with 256 in R.
    destruct (Z.ltb_spec v 0).
    - assert (Q : v / (256 * (256 * 256)) = -1).
      { symmetry. apply Z.div_unique with (v + 16777216); [left|]; destruct s; lia. }
      rewrite ?Z.mul_assoc in *. rewrite Q. reflexivity.
    - rewrite Z.div_small; [reflexivity|]. destruct s; lia. }
  unfold in_range, imin, imax in R. cbn [bits sgn] in R. change (2 ^ (8 - 1)) with 128 in R. change (2 ^ 8) with 256 in R.
  apply (range_cong (Ity 8 s)); [cbn; lia|apply wrap_range; cbn; lia| |].
  - unfold in_range, imin, imax. cbn [bits sgn]. change (2 ^ (8 - 1)) with 128. change (2 ^ 8) with 256.
    destruct (Z.ltb_spec v 0); destruct s; lia.
  - rewrite wrap_mod by (cbn; lia). cbn [bits]. change (2 ^ 8) with 256. exact B.
Qed.

(* ---- hash of integers *)
Lemma integral_inj t sz v w : 1 <= bits t <= sz -> in_range t v -> in_range t w ->
  integral_hash sz v = integral_hash sz w -> v = w.
Proof.
  intros B V W E. unfold integral_hash, wrapu in E.
  assert (P : 0 < 2 ^ bits t) by (apply Z.pow_pos_nonneg; lia).
  apply (range_cong t); [lia|exact V|exact W|].
  assert (D : 2 ^ sz = 2 ^ bits t * 2 ^ (sz - bits t)) by (rewrite <- Z.pow_add_r by lia; f_equal; lia).
  assert (P2 : 0 < 2 ^ (sz - bits t)) by (apply Z.pow_pos_nonneg; lia).
  assert (M : forall x, x mod 2 ^ bits t = (x mod 2 ^ sz) mod 2 ^ bits t).
  { intros x. rewrite D, Z.rem_mul_r by lia. rewrite (Z.mul_comm (2 ^ bits t)), Z.mod_add by lia. now rewrite Z.mod_mod by lia. }
  now rewrite (M v), (M w), E.
Qed.
Lemma integral_collide sz v : 0 <= sz -> integral_hash sz (v + 2 ^ sz) = integral_hash sz v.
Proof.
  intros S0. unfold integral_hash, wrapu. assert (P : 0 < 2 ^ sz) by (apply Z.pow_pos_nonneg; lia).
  replace (v + 2 ^ sz) with (v + 1 * 2 ^ sz) by lia. apply Z.mod_add. lia.
Qed.
