(* Proofs about the storage of Aln_Model. *)
From Coq Require Import Lia PeanoNat.
From Verif Require Import Base Aln_Spec Aln_Model.

Lemma round_up_div : forall n a, Nat.divide a (round_up n a).
Proof. intros n a. exists ((n + a - 1) / a). reflexivity. Qed.

Lemma round_up_ge : forall n a, 0 < a -> n <= round_up n a.
Proof.
  intros n a Ha. unfold round_up.
  pose proof (Nat.div_mod (n + a - 1) a ltac:(lia)) as E.
  pose proof (Nat.mod_upper_bound (n + a - 1) a ltac:(lia)) as U.
  rewrite (Nat.mul_comm a) in E. lia.
Qed.

Lemma round_up_same : forall n a, 0 < a -> Nat.divide a n -> round_up n a = n.
Proof.
  intros n a Ha [q ->]. unfold round_up.
  replace (q * a + a - 1) with (a - 1 + q * a) by lia.
  rewrite Nat.div_add by lia. rewrite Nat.div_small by lia. lia.
Qed.

Lemma round_up_0 : forall a, 0 < a -> round_up 0 a = 0.
Proof. intros a Ha. apply round_up_same; [exact Ha|apply Nat.divide_0_r]. Qed.

Lemma round_up_1 : forall n, round_up n 1 = n.
Proof. intros n. apply round_up_same; [lia|apply Nat.divide_1_l]. Qed.

Definition pow2 (a : nat) : Prop := exists k, a = 2 ^ k.

Lemma pow2_pos : forall a, pow2 a -> 0 < a.
Proof. intros a [k ->]. pose proof (Nat.pow_nonzero 2 k). lia. Qed.

Lemma pow2_1 : pow2 1.
Proof. now exists 0. Qed.

Lemma pow2_le_div : forall a b, pow2 a -> pow2 b -> a <= b -> Nat.divide a b.
Proof.
  intros a b [j ->] [k ->] L.
  assert (j <= k) as Ljk by (apply (proj2 (Nat.pow_le_mono_r_iff 2 j k ltac:(lia))); exact L).
  exists (2 ^ (k - j)). rewrite <- Nat.pow_add_r. f_equal. lia.
Qed.

Lemma pow2_max : forall a b, pow2 a -> pow2 b -> pow2 (Nat.max a b).
Proof. intros a b Ha Hb. destruct (Nat.max_dec a b) as [-> | ->]; assumption. Qed.

Definition good (t : ty) : Prop := pow2 (align_of t).

Lemma is_type_good : forall t, is_type t -> good t.
Proof. intros t [H _]. exact H. Qed.

Lemma strictest_pow2 : forall ms, Forall good ms -> pow2 (strictest ms).
Proof.
  induction ms as [|m r IH]; intros H; cbn; [apply pow2_1|].
  inversion H; subst. apply pow2_max; auto.
Qed.

Lemma strictest_ge : forall ms m, In m ms -> align_of m <= strictest ms.
Proof.
  induction ms as [|x r IH]; intros m Hm; cbn; [destruct Hm|].
  destruct Hm as [-> | Hm]; [apply Nat.le_max_l|].
  etransitivity; [apply IH, Hm|apply Nat.le_max_r].
Qed.

Lemma strictest_div : forall ms m, Forall good ms -> In m ms -> Nat.divide (align_of m) (strictest ms).
Proof.
  intros ms m H Hm. apply pow2_le_div; [|apply strictest_pow2, H|apply strictest_ge, Hm].
  rewrite Forall_forall in H. exact (H m Hm).
Qed.

Lemma widest_ge : forall ms m, In m ms -> size_of m <= widest ms.
Proof.
  induction ms as [|x r IH]; intros m Hm; cbn; [destruct Hm|].
  destruct Hm as [-> | Hm]; [apply Nat.le_max_l|].
  etransitivity; [apply IH, Hm|apply Nat.le_max_r].
Qed.

Lemma union_good : forall ms, Forall good ms -> good (union_of ms).
Proof. intros ms H. exact (strictest_pow2 ms H). Qed.
Lemma struct_good : forall ms, Forall good ms -> good (struct_of ms).
Proof. intros ms H. exact (strictest_pow2 ms H). Qed.

Lemma union_size : forall ms m, Forall good ms -> In m ms -> size_of m <= size_of (union_of ms).
Proof.
  intros ms m H Hm. cbn. etransitivity; [apply widest_ge, Hm|].
  apply round_up_ge, pow2_pos, strictest_pow2, H.
Qed.

Lemma largest_ge : forall us t v, In v (t :: us) -> size_of v <= size_of (largest t us).
Proof.
  induction us as [|u r IH]; intros t v Hv; cbn.
  - destruct Hv as [-> | []]. lia.
  - destruct Hv as [-> | [-> | Hv]].
    + destruct (Nat.leb_spec (size_of u) (size_of v)) as [L | L].
      * apply IH. now left.
      * etransitivity; [apply Nat.lt_le_incl, L|]. apply IH. now left.
    + destruct (Nat.leb_spec (size_of v) (size_of t)) as [L | L].
      * etransitivity; [exact L|]. apply IH. now left.
      * apply IH. now left.
    + apply IH. now right.
Qed.

Lemma forall_good : forall ts, Forall is_type ts -> Forall good ts.
Proof. intros ts H. eapply Forall_impl; [|exact H]. exact is_type_good. Qed.

Lemma bytes_good : forall n, good (bytes n).
Proof. intros n. exact pow2_1. Qed.

Lemma variant_union_good : forall tr t us, Forall is_type (t :: us) -> good (variant_union tr t us).
Proof.
  intros tr t us H. destruct tr; cbn [variant_union]; apply union_good.
  - apply Forall_app. split; [apply forall_good, H|]. constructor; [exact pow2_1|constructor].
  - constructor; [apply bytes_good|constructor].
Qed.

Lemma variant_union_size : forall tr t us v, Forall is_type (t :: us) -> In v (t :: us) ->
  size_of v <= size_of (variant_union tr t us).
Proof.
  intros tr t us v H Hv. destruct tr; cbn [variant_union].
  - apply union_size.
    + apply Forall_app. split; [apply forall_good, H|]. constructor; [exact pow2_1|constructor].
    + apply in_or_app. now left.
  - etransitivity; [apply (largest_ge us t v Hv)|].
    apply (union_size [bytes (size_of (largest t us))] (bytes (size_of (largest t us)))).
    + constructor; [apply bytes_good|constructor].
    + now left.
Qed.

Lemma storage_members_good : forall tr t us, Forall is_type (t :: us) ->
  Forall good [union_of [variant_union tr t us; monostate]].
Proof.
  intros tr t us H. constructor; [|constructor]. apply union_good.
  constructor; [apply variant_union_good, H|]. constructor; [exact pow2_1|constructor].
Qed.

Lemma struct1_size : forall m, good m -> size_of m <= size_of (struct_of [m]).
Proof.
  intros m H. cbn. rewrite (round_up_0 (align_of m)) by (apply pow2_pos, H). cbn.
  apply round_up_ge. pose proof (pow2_pos _ H). lia.
Qed.

Lemma storage_good : forall tr t us, Forall is_type (t :: us) -> good (variant_storage tr t us).
Proof. intros. apply struct_good, storage_members_good. assumption. Qed.

Lemma storage_size : forall tr t us v, Forall is_type (t :: us) -> In v (t :: us) ->
  size_of v <= size_of (variant_storage tr t us).
Proof.
  intros tr t us v H Hv. unfold variant_storage.
  pose proof (storage_members_good tr t us H) as G. inversion G; subst.
  etransitivity; [|apply struct1_size; assumption].
  etransitivity; [apply (variant_union_size tr t us v H Hv)|].
  apply union_size; [|now left].
  constructor; [apply variant_union_good, H|]. constructor; [exact pow2_1|constructor].
Qed.

(* two members: the first at 0, the second behind it, both inside *)
Lemma struct2_first : forall x y, good x -> member_at 0 [x; y] 0 = 0.
Proof. intros x y H. cbn. apply round_up_0, pow2_pos, H. Qed.
Lemma struct2_second : forall x y, good x -> good y ->
  size_of x <= member_at 0 [x; y] 1 /\ Nat.divide (align_of y) (member_at 0 [x; y] 1) /\
  member_at 0 [x; y] 1 + size_of y <= size_of (struct_of [x; y]).
Proof.
  intros x y Hx Hy. cbn. rewrite (round_up_0 (align_of x)) by (apply pow2_pos, Hx). cbn.
  split; [apply round_up_ge, pow2_pos, Hy|]. split; [apply round_up_div|].
  apply round_up_ge. pose proof (pow2_pos _ Hx). lia.
Qed.

Lemma storage_fits : forall tr t us f v b, Forall is_type (t :: us) -> good f -> In v (t :: us) ->
  within v (b + member_at 0 [variant_storage tr t us; f] 0) (struct_of [variant_storage tr t us; f]) b /\
  apart v (b + member_at 0 [variant_storage tr t us; f] 0) f (b + member_at 0 [variant_storage tr t us; f] 1) /\
  within f (b + member_at 0 [variant_storage tr t us; f] 1) (struct_of [variant_storage tr t us; f]) b.
Proof.
  intros tr t us f v b H Hf Hv.
  pose proof (storage_good tr t us H) as G.
  pose proof (storage_size tr t us v H Hv) as S1.
  destruct (struct2_second _ _ G Hf) as (A & _ & C).
  rewrite (struct2_first _ f G). unfold within, apart. repeat split; try lia. 
Qed.

Lemma scalar_good : forall w, is_type (scalar w) -> good (scalar w).
Proof. intros w H. exact (is_type_good _ H). Qed.

Lemma scalar1_good : good (scalar 1).
Proof. exact pow2_1. Qed.

Lemma monostate_type : is_type monostate.
Proof. split; [now exists 0|]. split; [cbn; lia|apply Nat.divide_refl]. Qed.

(* --- arrays --- *)
Lemma cell_size : forall t, size_of (cell_type t) = size_of t.
Proof.
  intros t. unfold cell_type, struct_of. cbn [size_of members_end strictest fold_right bytes align_of].
  change (Nat.max 1 1) with 1. rewrite (round_up_0 1) by lia. apply round_up_1.
Qed.

Lemma cell_align : forall t, align_of (cell_type t) = 1.
Proof. reflexivity. Qed.

Lemma element_same : forall t b i, element_at t b i = element_of_data t b i.
Proof. intros. unfold element_at, element_of_data. now rewrite cell_size. Qed.

Lemma rows_apart : forall s i j b, i <> j -> b + i * s + s <= b + j * s \/ b + j * s + s <= b + i * s.
Proof.
  intros s i j b H. destruct (Nat.lt_ge_cases i j) as [L | L]; [left|right]; nia.
Qed.

Lemma rows_within : forall s i n, i < n -> i * s + s <= n * s.
Proof. intros. nia. Qed.

Lemma fixed_width_pow2 : forall n, pow2 (fixed_size_width n).
Proof.
  intros n. unfold fixed_size_width. destruct (n <? 2 ^ 8); [now exists 0|].
  destruct (N.of_nat n <? 2 ^ 16)%N; [now exists 1|now exists 2].
Qed.

Lemma vector_buffer_good : forall g t n, is_type t ->
  good (if g : bool then array_of n t else uninitialized_array t n).
Proof. intros [] t n H; [exact (is_type_good _ H)|exact pow2_1]. Qed.

Lemma vector_buffer_size : forall (g : bool) t n,
  size_of (if g then array_of n t else uninitialized_array t n) = n * size_of t.
Proof. intros [] t n; [reflexivity|]. unfold uninitialized_array, array_of. cbn [size_of]. now rewrite cell_size. Qed.

Lemma vector_parts : forall g t n b, is_type t ->
  (forall i, vector_element g t n b i = b + i * size_of t) /\
  b + n * size_of t <= vector_length g t n b /\
  vector_length g t n b + fixed_size_width n <= b + size_of (vector_object g t n).
Proof.
  intros g t n b H. pose proof (vector_buffer_good g t n H) as G.
  destruct (struct2_second _ (scalar (fixed_size_width n)) G (fixed_width_pow2 n)) as (A & _ & C).
  rewrite vector_buffer_size in A. change (size_of (scalar (fixed_size_width n))) with (fixed_size_width n) in C.
  split; [|split].
  - intros i. unfold vector_element, vector_members, element_of_data.
    rewrite (struct2_first _ _ G). now rewrite Nat.add_0_r.
  - unfold vector_length, vector_members. lia.
  - unfold vector_length, vector_object, vector_members. lia.
Qed.

Lemma vector_room : forall g t n b i, is_type t -> i < n ->
  within t (vector_element g t n b i) (vector_object g t n) b /\
  apart t (vector_element g t n b i) (scalar (fixed_size_width n)) (vector_length g t n b) /\
  (forall j, j <> i -> apart t (vector_element g t n b i) t (vector_element g t n b j)).
Proof.
  intros g t n b i H Hi. destruct (vector_parts g t n b H) as (E & A & C).
  pose proof (rows_within (size_of t) i n Hi) as R. rewrite E. unfold within, apart.
  split; [lia|]. split; [left; lia|].
  intros j Hj. rewrite E. apply rows_apart. congruence.
Qed.

(* --- the map --- *)
Lemma align_value_max : forall k m, align_value k m = Nat.max (align_of k) (align_of m).
Proof. intros. unfold align_value. destruct (Nat.ltb_spec (align_of k) (align_of m)); lia. Qed.

Definition meta_inner (m : ty) : ty := union_of [bytes (size_of m); scalar 2; scalar 2].

Lemma meta_inner_good : forall m, good (meta_inner m).
Proof.
  intros m. apply union_good. repeat constructor; try exact pow2_1; now exists 1.
Qed.

Lemma meta_pow2 : forall k m, is_type k -> is_type m -> good (meta k m).
Proof.
  intros k m Hk Hm. unfold good, meta, alignas. cbn [align_of]. apply pow2_max.
  - rewrite align_value_max. apply pow2_max; apply is_type_good; assumption.
  - apply meta_inner_good.
Qed.

Lemma meta_size : forall k m, is_type k -> is_type m -> size_of m <= size_of (meta k m).
Proof.
  intros k m Hk Hm. unfold meta, alignas. cbn [size_of].
  etransitivity; [|apply round_up_ge; exact (pow2_pos _ (meta_pow2 k m Hk Hm))].
  apply (union_size [bytes (size_of m); scalar 2; scalar 2] (bytes (size_of m))).
  - repeat constructor; try exact pow2_1; now exists 1.
  - now left.
Qed.

Lemma meta_align : forall k m, is_type k -> is_type m -> Nat.divide (align_of m) (align_of (meta k m)).
Proof.
  intros k m Hk Hm. apply pow2_le_div; [exact (is_type_good _ Hm)|exact (meta_pow2 k m Hk Hm)|].
  unfold meta, alignas. cbn [align_of]. rewrite align_value_max. lia.
Qed.

Lemma map_parts : forall k m n b i, is_type k -> is_type m ->
  map_key k m n b i = b + i * size_of (control_type k m) /\
  map_mapped k m n b i = b + i * size_of (control_type k m) + member_at 0 [k; meta k m] 1 /\
  size_of (map_object k m n) = n * size_of (control_type k m).
Proof.
  intros k m n b i Hk Hm.
  assert (M0 : forall x, member_at 0 [uninitialized_array x n] 0 = 0) by (intros x; reflexivity).
  unfold map_key, map_mapped. rewrite !M0, !element_same. unfold element_of_data.
  rewrite (struct2_first k (meta k m) (is_type_good _ Hk)). repeat split; try lia.
  unfold map_object, struct_of. cbn [size_of]. cbn [members_end strictest fold_right].
  unfold uninitialized_array, array_of. cbn [align_of size_of]. rewrite cell_align.
  rewrite round_up_0 by lia. change (Nat.max 1 1) with 1. rewrite round_up_1, cell_size. reflexivity.
Qed.

Lemma map_room : forall k m n b i, is_type k -> is_type m -> i < n ->
  within k (map_key k m n b i) (map_object k m n) b /\
  within m (map_mapped k m n b i) (map_object k m n) b /\
  apart k (map_key k m n b i) m (map_mapped k m n b i) /\
  (forall j, j <> i ->
     apart k (map_key k m n b i) k (map_key k m n b j) /\
     apart k (map_key k m n b i) m (map_mapped k m n b j) /\
     apart m (map_mapped k m n b i) m (map_mapped k m n b j)).
Proof.
  intros k m n b i Hk Hm Hi.
  destruct (map_parts k m n b i Hk Hm) as (E1 & E2 & E3).
  destruct (struct2_second k (meta k m) (is_type_good _ Hk) (meta_pow2 k m Hk Hm)) as (A & _ & C).
  pose proof (meta_size k m Hk Hm) as SM.
  pose proof (fun j => map_parts k m n b j Hk Hm) as J.
  pose proof (rows_within (size_of (control_type k m)) i n Hi) as R.
  fold (control_type k m) in C. remember (size_of (control_type k m)) as s eqn:Es. clear Es.
  remember (member_at 0 [k; meta k m] 1) as o eqn:Eo. clear Eo.
  unfold within, apart. rewrite E1, E2, E3. split; [lia|]. split; [lia|]. split; [left; lia|].
  intros j Hj. destruct (J j) as (J1 & J2 & _). rewrite J1, J2.
  pose proof (rows_apart s i j b (not_eq_sym Hj)) as RA. lia.
Qed.

(* --- the pool --- *)
Lemma link_good : forall p, is_type (scalar p) -> good (pool_link p).
Proof. intros p H. apply union_good. constructor; [apply is_type_good, H|]. constructor; [exact pow2_1|constructor]. Qed.

Lemma link_align : forall p, is_type (scalar p) -> align_of (pool_link p) = p.
Proof.
  intros p H. pose proof (pow2_pos _ (is_type_good _ H)) as P. change (0 < p) in P.
  change (Nat.max p (Nat.max 1 1) = p). lia.
Qed.

Lemma pcell_align : forall p s, is_type (scalar p) -> align_of (pool_cell p s) = p.
Proof.
  intros p s H. unfold pool_cell, union_of. cbn [align_of strictest fold_right]. rewrite link_align by exact H.
  pose proof (pow2_pos _ (is_type_good _ H)) as P. change (0 < p) in P. change (align_of (bytes s)) with 1. lia.
Qed.

Lemma pcell_good : forall p s, is_type (scalar p) -> good (pool_cell p s).
Proof. intros p s H. unfold good. rewrite pcell_align by exact H. exact (is_type_good _ H). Qed.

Lemma pcell_size : forall p s, is_type (scalar p) -> s <= size_of (pool_cell p s).
Proof.
  intros p s H. apply (union_size [pool_link p; bytes s] (bytes s)).
  - constructor; [apply link_good, H|]. constructor; [exact pow2_1|constructor].
  - right. now left.
Qed.

Lemma pcell_size_div : forall p s, is_type (scalar p) -> Nat.divide p (size_of (pool_cell p s)).
Proof.
  intros p s H. pose proof (pcell_align p s H) as E. unfold pool_cell, union_of in *.
  cbn [align_of size_of] in *. rewrite E. apply round_up_div.
Qed.

Lemma pool_parts : forall p s n b i, is_type (scalar p) ->
  pool_head p s n b = b /\ pool_block p s n b i = b + p + i * size_of (pool_cell p s) /\
  size_of (pool_object p s n) = p + n * size_of (pool_cell p s).
Proof.
  intros p s n b i H. pose proof (is_type_good _ H) as G. pose proof (pow2_pos _ G) as P. cbn in P.
  assert (AG : good (array_of n (pool_cell p s))) by exact (pcell_good p s H).
  assert (M1 : member_at 0 (pool_members p s n) 1 = p).
  { unfold pool_members. cbn [member_at]. change (align_of (array_of n (pool_cell p s))) with (align_of (pool_cell p s)).
    rewrite pcell_align by exact H. change (align_of (scalar p)) with p. change (size_of (scalar p)) with p.
    rewrite round_up_0 by exact P. cbn. apply round_up_same; [exact P|apply Nat.divide_refl]. }
  split; [|split].
  - unfold pool_head, pool_members. rewrite (struct2_first _ _ G). lia.
  - unfold pool_block. rewrite M1. reflexivity.
  - unfold pool_object, struct_of, pool_members. cbn [size_of members_end strictest fold_right].
    change (align_of (array_of n (pool_cell p s))) with (align_of (pool_cell p s)).
    rewrite pcell_align by exact H. change (align_of (scalar p)) with p. change (size_of (scalar p)) with p.
    rewrite round_up_0 by exact P. cbn [plus].
    rewrite (round_up_same p p P (Nat.divide_refl p)).
    change (size_of (array_of n (pool_cell p s))) with (n * size_of (pool_cell p s)).
    replace (Nat.max p (Nat.max p 1)) with p by lia.
    apply round_up_same; [exact P|]. apply Nat.divide_add_r; [apply Nat.divide_refl|].
    apply Nat.divide_mul_r, pcell_size_div, H.
Qed.

Lemma pool_room : forall p s n b i, is_type (scalar p) -> i < n ->
  within (bytes s) (pool_block p s n b i) (pool_object p s n) b /\
  apart (bytes s) (pool_block p s n b i) (scalar p) (pool_head p s n b) /\
  (forall j, j <> i -> apart (bytes s) (pool_block p s n b i) (bytes s) (pool_block p s n b j)).
Proof.
  intros p s n b i H Hi. destruct (pool_parts p s n b i H) as (E1 & E2 & E3).
  pose proof (pcell_size p s H) as CS. pose proof (rows_within (size_of (pool_cell p s)) i n Hi) as R.
  unfold within, apart. rewrite E1, E2, E3. cbn [size_of bytes scalar].
  split; [lia|]. split; [right; lia|].
  intros j Hj. destruct (pool_parts p s n b j H) as (_ & J & _). rewrite J.
  pose proof (rows_apart (size_of (pool_cell p s)) i j (b + p) (not_eq_sym Hj)). lia.
Qed.

Lemma aligned_room : forall t b, is_type t ->
  within t b (aligned_storage (size_of t) (align_of t)) b.
Proof.
  intros t b H. pose proof (struct1_size (Ty (size_of t) (align_of t)) (is_type_good _ H)) as S1.
  unfold within, aligned_storage. cbn [size_of] in S1. lia.
Qed.

(* --- alignment --- *)
Lemma storage_align_trivial : forall t us v, Forall is_type (t :: us) -> In v (t :: us) ->
  Nat.divide (align_of v) (align_of (variant_storage true t us)).
Proof.
  intros t us v H Hv.
  pose proof (storage_members_good true t us H) as G.
  assert (G0 : Forall good ((t :: us) ++ [Ty 0 1])).
  { apply Forall_app. split; [apply forall_good, H|]. constructor; [exact pow2_1|constructor]. }
  assert (G1 : Forall good [variant_union true t us; monostate]).
  { constructor; [apply variant_union_good, H|]. constructor; [exact pow2_1|constructor]. }
  assert (D0 : Nat.divide (align_of v) (align_of (variant_union true t us))).
  { exact (strictest_div _ v G0 (in_or_app _ _ _ (or_introl Hv))). }
  assert (D1 : Nat.divide (align_of (variant_union true t us)) (align_of (union_of [variant_union true t us; monostate]))).
  { exact (strictest_div _ _ G1 (or_introl eq_refl)). }
  assert (D2 : Nat.divide (align_of (union_of [variant_union true t us; monostate])) (align_of (variant_storage true t us))).
  { exact (strictest_div _ _ G (or_introl eq_refl)). }
  exact (Nat.divide_trans _ _ _ D0 (Nat.divide_trans _ _ _ D1 D2)).
Qed.

Lemma flagged_trivial : forall t us f v b, Forall is_type (t :: us) -> good f -> In v (t :: us) ->
  aligned (struct_of [variant_storage true t us; f]) b ->
  aligned v (b + member_at 0 [variant_storage true t us; f] 0).
Proof.
  intros t us f v b H Hf Hv Hb. pose proof (storage_good true t us H) as G.
  rewrite (struct2_first _ f G), Nat.add_0_r. unfold aligned in *.
  eapply Nat.divide_trans; [apply (storage_align_trivial t us v H Hv)|].
  eapply Nat.divide_trans; [|exact Hb].
  apply (strictest_div [variant_storage true t us; f]); [|now left].
  constructor; [exact G|]. constructor; [exact Hf|constructor].
Qed.

Lemma variant_by_index : forall w tr t us v b, is_type (scalar w) -> Forall is_type (t :: us) -> In v (t :: us) ->
  align_of v <= w -> aligned (variant_object w tr t us) b -> aligned v (variant_value w tr t us b).
Proof.
  intros w tr t us v b Hw H Hv L Hb. pose proof (storage_good tr t us H) as G.
  unfold variant_value, variant_members. rewrite (struct2_first _ (scalar w) G), Nat.add_0_r.
  unfold aligned in *. eapply Nat.divide_trans; [|exact Hb].
  eapply Nat.divide_trans with w.
  - apply pow2_le_div; [|exact (is_type_good _ Hw)|exact L].
    rewrite Forall_forall in H. apply is_type_good, H, Hv.
  - apply (strictest_div [variant_storage tr t us; scalar w] (scalar w)); [|right; now left].
    constructor; [exact G|]. constructor; [exact (is_type_good _ Hw)|constructor].
Qed.

Lemma vector_by_address : forall g t n b i, is_type t -> aligned t b -> aligned t (vector_element g t n b i).
Proof.
  intros g t n b i H Hb. destruct (vector_parts g t n b H) as (E & _ & _). rewrite E.
  unfold aligned in *. apply Nat.divide_add_r; [exact Hb|].
  apply Nat.divide_mul_r. apply H.
Qed.

Lemma vector_integral : forall t n b i, is_type t -> aligned (vector_object true t n) b ->
  aligned t (vector_element true t n b i).
Proof.
  intros t n b i H Hb. apply vector_by_address; [exact H|]. unfold aligned in *.
  eapply Nat.divide_trans; [|exact Hb].
  apply (strictest_div [array_of n t; scalar (fixed_size_width n)] (array_of n t)); [|now left].
  constructor; [exact (is_type_good _ H)|]. constructor; [apply fixed_width_pow2|constructor].
Qed.

Lemma vector_align : forall t n, align_of (vector_object false t n) = fixed_size_width n.
Proof.
  intros t n. unfold vector_object, struct_of, vector_members. cbn [align_of strictest fold_right].
  unfold uninitialized_array, array_of. cbn [align_of]. rewrite cell_align. cbn [scalar align_of].
  pose proof (pow2_pos _ (fixed_width_pow2 n)). lia.
Qed.

Lemma vector_small : forall t n b i, is_type t -> align_of t <= fixed_size_width n ->
  aligned (vector_object false t n) b -> aligned t (vector_element false t n b i).
Proof.
  intros t n b i H L Hb. apply vector_by_address; [exact H|]. unfold aligned in *.
  rewrite vector_align in Hb. eapply Nat.divide_trans; [|exact Hb].
  apply pow2_le_div; [exact (is_type_good _ H)|apply fixed_width_pow2|exact L].
Qed.

Lemma control_divides : forall k m, is_type k -> is_type m ->
  Nat.divide (align_of k) (align_of (control_type k m)) /\
  Nat.divide (align_of m) (align_of (control_type k m)) /\
  Nat.divide (align_of (control_type k m)) (size_of (control_type k m)).
Proof.
  intros k m Hk Hm.
  assert (G : Forall good [k; meta k m]).
  { constructor; [exact (is_type_good _ Hk)|]. constructor; [apply meta_pow2; assumption|constructor]. }
  split; [|split].
  - apply (strictest_div [k; meta k m]); [exact G|now left].
  - eapply Nat.divide_trans; [apply (meta_align k m Hk Hm)|].
    apply (strictest_div [k; meta k m]); [exact G|right; now left].
  - apply round_up_div.
Qed.

Lemma map_by_address : forall k m n b i, is_type k -> is_type m ->
  aligned (control_type k m) b ->
  aligned k (map_key k m n b i) /\ aligned m (map_mapped k m n b i).
Proof.
  intros k m n b i Hk Hm Hb.
  destruct (map_parts k m n b i Hk Hm) as (E1 & E2 & _). rewrite E1, E2.
  destruct (control_divides k m Hk Hm) as (D1 & D2 & D3).
  destruct (struct2_second k (meta k m) (is_type_good _ Hk) (meta_pow2 k m Hk Hm)) as (_ & B & _).
  assert (R : Nat.divide (align_of (control_type k m)) (b + i * size_of (control_type k m))).
  { apply Nat.divide_add_r; [exact Hb|]. apply Nat.divide_mul_r, D3. }
  unfold aligned. split.
  - eapply Nat.divide_trans; [exact D1|exact R].
  - apply Nat.divide_add_r; [eapply Nat.divide_trans; [exact D2|exact R]|].
    eapply Nat.divide_trans; [apply (meta_align k m Hk Hm)|exact B].
Qed.

Lemma pool_align : forall p s n, is_type (scalar p) -> align_of (pool_object p s n) = p.
Proof.
  intros p s n H. unfold pool_object, struct_of, pool_members. cbn [align_of strictest fold_right].
  change (align_of (array_of n (pool_cell p s))) with (align_of (pool_cell p s)).
  rewrite pcell_align by exact H. change (align_of (scalar p)) with p.
  pose proof (pow2_pos _ (is_type_good _ H)) as P. change (0 < p) in P. lia.
Qed.

Lemma pool_aligned : forall p t n b i, is_type (scalar p) -> is_type t -> align_of t <= p ->
  aligned (pool_object p (size_of t) n) b -> aligned t (pool_block p (size_of t) n b i).
Proof.
  intros p t n b i Hp Ht L Hb. destruct (pool_parts p (size_of t) n b i Hp) as (_ & E & _). rewrite E.
  unfold aligned in *. rewrite pool_align in Hb by exact Hp.
  eapply Nat.divide_trans with p.
  - apply pow2_le_div; [exact (is_type_good _ Ht)|exact (is_type_good _ Hp)|exact L].
  - apply Nat.divide_add_r; [apply Nat.divide_add_r; [exact Hb|apply Nat.divide_refl]|].
    apply Nat.divide_mul_r, pcell_size_div, Hp.
Qed.

Lemma aligned_storage_aligned : forall t b, is_type t ->
  aligned (aligned_storage (size_of t) (align_of t)) b -> aligned t b.
Proof.
  intros t b H Hb. unfold aligned in *. eapply Nat.divide_trans; [|exact Hb].
  apply (strictest_div [Ty (size_of t) (align_of t)] (Ty (size_of t) (align_of t))); [|now left].
  constructor; [exact (is_type_good _ H)|constructor].
Qed.

(* --- misalignment --- *)
(* of two places apart by less than an alignment, one is not a multiple of it *)
Lemma one_is_off : forall A c, 0 < c -> c < A -> forall o, ~ Nat.divide A o \/ ~ Nat.divide A (c + o).
Proof.
  intros A c Hc L o. destruct (Nat.eq_dec (o mod A) 0) as [Z | NZ].
  - right. intros D. apply Nat.mod_divide in Z; [|lia].
    assert (D' : Nat.divide A c).
    { apply (Nat.divide_add_cancel_r A o c Z). now rewrite Nat.add_comm. }
    apply Nat.divide_pos_le in D'; lia.
  - left. intros D. apply NZ. apply Nat.mod_divide; [lia|exact D].
Qed.

Lemma somewhere_off : forall A c o, 0 < c -> c < A -> exists b, Nat.divide c b /\ ~ Nat.divide A (b + o).
Proof.
  intros A c o Hc L. destruct (one_is_off A c Hc L o) as [N1 | N1].
  - exists 0. split; [apply Nat.divide_0_r|exact N1].
  - exists c. split; [apply Nat.divide_refl|exact N1].
Qed.

Lemma storage_align_bytes : forall t us, align_of (variant_storage false t us) = 1.
Proof. reflexivity. Qed.

Lemma flagged_align : forall t us w, 0 < w -> align_of (struct_of [variant_storage false t us; scalar w]) = w.
Proof.
  intros t us w H. unfold struct_of. cbn [align_of strictest fold_right].
  rewrite storage_align_bytes. cbn [scalar align_of]. lia.
Qed.

Lemma flagged_off : forall t us w A, 0 < w -> w < A ->
  exists b, aligned (struct_of [variant_storage false t us; scalar w]) b /\
            ~ Nat.divide A (b + member_at 0 [variant_storage false t us; scalar w] 0).
Proof.
  intros t us w A H L.
  destruct (somewhere_off A w (member_at 0 [variant_storage false t us; scalar w] 0) H L) as (b & D & N1).
  exists b. split; [|exact N1]. unfold aligned. rewrite flagged_align by exact H. exact D.
Qed.

Lemma vector_off : forall t n i, fixed_size_width n < align_of t ->
  exists b, aligned (vector_object false t n) b /\ ~ aligned t (vector_element false t n b i).
Proof.
  intros t n i L.
  destruct (somewhere_off (align_of t) (fixed_size_width n)
              (member_at 0 (vector_members false t n) 0 + i * size_of t)
              (pow2_pos _ (fixed_width_pow2 n)) L) as (b & D & N1).
  exists b. split; [unfold aligned; rewrite vector_align; exact D|].
  unfold aligned, vector_element, element_of_data. now rewrite <- Nat.add_assoc.
Qed.

Lemma map_align : forall k m n, align_of (map_object k m n) = 1.
Proof. reflexivity. Qed.

Lemma map_off : forall k m n i,
  (1 < align_of k -> exists b, aligned (map_object k m n) b /\ ~ aligned k (map_key k m n b i)) /\
  (1 < align_of m -> exists b, aligned (map_object k m n) b /\ ~ aligned m (map_mapped k m n b i)).
Proof.
  intros k m n i. unfold aligned, map_key, map_mapped, element_at.
  change (align_of (map_object k m n)) with 1.
  split; intros L.
  - destruct (somewhere_off (align_of k) 1 (member_at 0 [uninitialized_array (control_type k m) n] 0 +
      (i * size_of (cell_type (control_type k m)) + member_at 0 [k; meta k m] 0)) ltac:(lia) L) as (b & _ & N1).
    exists b. split; [apply Nat.divide_1_l|]. now rewrite <- !Nat.add_assoc.
  - destruct (somewhere_off (align_of m) 1 (member_at 0 [uninitialized_array (control_type k m) n] 0 +
      (i * size_of (cell_type (control_type k m)) + member_at 0 [k; meta k m] 1)) ltac:(lia) L) as (b & _ & N1).
    exists b. split; [apply Nat.divide_1_l|]. now rewrite <- !Nat.add_assoc.
Qed.

Lemma bip_align : forall l i, is_type (scalar l) -> is_type (scalar i) -> l <= align_of (bipbuf_t l i).
Proof. intros l i Hl Hi. apply (strictest_ge [scalar l; scalar i; scalar i; scalar i; scalar i] (scalar l)). now left. Qed.

Lemma bip_off : forall l i n, is_type (scalar l) -> is_type (scalar i) -> 1 < l ->
  exists b, aligned (bipbuf_object l i n) b /\ ~ aligned (bipbuf_t l i) (bipbuf_header l i n b).
Proof.
  intros l i n Hl Hi L.
  destruct (somewhere_off (align_of (bipbuf_t l i)) 1
    (member_at 0 [bytes (size_of (bipbuf_t l i) + n)] 0) ltac:(lia)) as (b & _ & N1).
  { pose proof (bip_align l i Hl Hi). lia. }
  exists b. split; [apply Nat.divide_1_l|exact N1].
Qed.

Lemma bip_room : forall l i n b, is_type (scalar l) -> is_type (scalar i) ->
  bipbuf_header l i n b = b /\
  bipbuf_header l i n b + size_of (bipbuf_t l i) + n = b + size_of (bipbuf_object l i n).
Proof.
  intros l i n b Hl Hi. unfold bipbuf_header, bipbuf_object, struct_of, member_at.
  cbn [size_of members_end strictest fold_right bytes align_of]. rewrite (round_up_0 1) by lia.
  change (Nat.max 1 1) with 1. rewrite round_up_1. lia.
Qed.

Lemma pool_off : forall p t n i, is_type (scalar p) -> is_type t -> p < align_of t ->
  exists b, aligned (pool_object p (size_of t) n) b /\ ~ aligned t (pool_block p (size_of t) n b i).
Proof.
  intros p t n i Hp Ht L.
  destruct (somewhere_off (align_of t) p
    (member_at 0 (pool_members p (size_of t) n) 1 + i * size_of (pool_cell p (size_of t)))
    (pow2_pos _ (is_type_good _ Hp)) L) as (b & D & N1).
  exists b. split; [unfold aligned; rewrite pool_align by exact Hp; exact D|].
  unfold aligned, pool_block. now rewrite <- Nat.add_assoc.
Qed.

Lemma plain_size : forall len a, size_of (aligned_storage_plain len a) = a /\ align_of (aligned_storage_plain len a) = 1.
Proof.
  intros. split; [|reflexivity].
  unfold aligned_storage_plain, struct_of. cbn [size_of members_end strictest fold_right bytes align_of].
  change (Nat.max 1 1) with 1. rewrite (round_up_0 1) by lia. apply round_up_1.
Qed.

Lemma width_holds : forall n, (N.of_nat n < 2 ^ 32)%N -> (N.of_nat n < 2 ^ (8 * N.of_nat (fixed_size_width n)))%N.
Proof.
  intros n H. unfold fixed_size_width. destruct (Nat.ltb_spec n (2 ^ 8)) as [L | L].
  - change (2 ^ 8) with 256 in L. change (2 ^ (8 * N.of_nat 1))%N with 256%N. lia.
  - destruct (N.ltb_spec (N.of_nat n) (2 ^ 16)) as [K | K]; [exact K|exact H].
Qed.

(* --- layer1::shared_ptr --- *)
Lemma scalar2_good : good (scalar 2).
Proof. now exists 1. Qed.

Lemma control_base_members : forall p, is_type (scalar p) -> Forall good [scalar p; scalar p; scalar 2; scalar 1].
Proof.
  intros p H. repeat apply Forall_cons; try exact (is_type_good _ H); [exact scalar2_good|exact scalar1_good|constructor].
Qed.

Lemma control_members : forall p d, is_type (scalar p) -> is_type d -> Forall good [control_base p; d].
Proof.
  intros p d H Hd. constructor; [exact (struct_good _ (control_base_members p H))|].
  constructor; [exact (is_type_good _ Hd)|constructor].
Qed.

Lemma control_good : forall p d, is_type (scalar p) -> is_type d -> Forall good [control_block p d].
Proof. intros p d H Hd. constructor; [exact (struct_good _ (control_members p d H Hd))|constructor]. Qed.

Lemma shared_good : forall p d t, is_type (scalar p) -> is_type d -> Forall good (shared_members p d t).
Proof.
  intros p d t H Hd. constructor; [exact (struct_good _ (control_good p d H Hd))|].
  constructor; [exact pow2_1|constructor].
Qed.

Lemma shared_room : forall p d t b, is_type (scalar p) -> is_type d -> is_type t ->
  within t (shared_value p d t b) (shared_object p d t) b /\
  within (control_block p d) (shared_control p d t b) (shared_object p d t) b /\
  apart t (shared_value p d t b) (control_block p d) (shared_control p d t b).
Proof.
  intros p d t b H Hd Ht. pose proof (shared_good p d t H Hd) as G.
  pose proof (Forall_inv G) as G1. pose proof (Forall_inv (Forall_inv_tail G)) as G2.
  pose proof (struct2_first _ (struct_of [bytes (size_of t)]) G1) as F.
  pose proof (struct2_second _ _ G1 G2) as (S1 & _ & S3).
  pose proof (struct1_size (control_block p d) (Forall_inv (control_good p d H Hd))) as C.
  pose proof (cell_size t) as E. unfold cell_type in E.
  unfold within, apart, shared_value, shared_control, shared_object, shared_members. rewrite F, E in *.
  split; [lia|]. split; [lia|]. right. lia.
Qed.

Lemma shared_at : forall p d t, is_type (scalar p) -> is_type d ->
  member_at 0 (shared_members p d t) 1 = size_of (struct_of [control_block p d]).
Proof.
  intros p d t H Hd. unfold shared_members. cbn [member_at].
  change (align_of (struct_of [bytes (size_of t)])) with 1. rewrite round_up_1, round_up_0; [reflexivity|].
  exact (pow2_pos _ (struct_good _ (control_good p d H Hd))).
Qed.

Lemma shared_align : forall p d t, is_type (scalar p) -> is_type d ->
  align_of (shared_object p d t) = align_of (struct_of [control_block p d]).
Proof.
  intros p d t H Hd. pose proof (pow2_pos _ (struct_good _ (control_good p d H Hd))) as P. unfold good in P.
  unfold shared_object, shared_members. set (X := struct_of [control_block p d]) in *.
  unfold struct_of. cbn [align_of strictest fold_right bytes]. lia.
Qed.

Lemma struct_align_div : forall ms m, Forall good ms -> In m ms -> Nat.divide (align_of m) (align_of (struct_of ms)).
Proof. exact strictest_div. Qed.

Lemma pointer_in_control : forall p d, is_type (scalar p) -> is_type d ->
  Nat.divide p (align_of (struct_of [control_block p d])).
Proof.
  intros p d H Hd.
  pose proof (struct_align_div _ (scalar p) (control_base_members p H) ltac:(now left)) as D0.
  pose proof (struct_align_div _ (control_base p) (control_members p d H Hd) ltac:(now left)) as D1.
  pose proof (struct_align_div _ (control_block p d) (control_good p d H Hd) ltac:(now left)) as D2.
  exact (Nat.divide_trans _ _ _ D0 (Nat.divide_trans _ _ _ D1 D2)).
Qed.

Lemma struct_size_div : forall ms, Nat.divide (align_of (struct_of ms)) (size_of (struct_of ms)).
Proof. intros ms. exact (round_up_div _ _). Qed.

Lemma shared_aligned : forall p d t b, is_type (scalar p) -> is_type d -> is_type t -> align_of t <= p ->
  aligned (shared_object p d t) b -> aligned t (shared_value p d t b).
Proof.
  intros p d t b H Hd Ht L A. unfold aligned, shared_value in *. rewrite shared_at by assumption.
  rewrite shared_align in A by assumption.
  assert (D : Nat.divide (align_of t) (align_of (struct_of [control_block p d]))).
  { apply Nat.divide_trans with p; [|exact (pointer_in_control p d H Hd)].
    apply pow2_le_div; [exact (is_type_good _ Ht)|exact (is_type_good _ H)|exact L]. }
  apply Nat.divide_add_r; [exact (Nat.divide_trans _ _ _ D A)|].
  exact (Nat.divide_trans _ _ _ D (struct_size_div _)).
Qed.

Lemma shared_off : forall p d t, is_type (scalar p) -> is_type d -> is_type t ->
  align_of (control_block p d) < align_of t ->
  exists b, aligned (shared_object p d t) b /\ ~ aligned t (shared_value p d t b).
Proof.
  intros p d t H Hd Ht L.
  assert (E : align_of (shared_object p d t) = align_of (control_block p d)).
  { rewrite shared_align by assumption. unfold struct_of at 1. cbn [align_of strictest fold_right].
    pose proof (pow2_pos _ (struct_good _ (control_members p d H Hd))) as P. unfold control_block, good in *. lia. }
  destruct (somewhere_off (align_of t) (align_of (control_block p d)) (member_at 0 (shared_members p d t) 1)
    (pow2_pos _ (struct_good _ (control_members p d H Hd))) L) as (b & D & N1).
  exists b. split; [unfold aligned; rewrite E; exact D|exact N1].
Qed.
