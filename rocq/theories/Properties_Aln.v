(* Properties of the storage in which the library constructs objects. *)
From Coq Require Import Lia PeanoNat.
From Verif Require Import Base Aln_Spec Aln_Model Aln_Proofs.

(* C473: the storage has room for every value it may hold, and no two values, nor a value and the
   class's own bookkeeping, share a byte.  b is the address of the object. *)
Theorem C473_variant : forall w trivial t us v b,
  is_type (scalar w) -> Forall is_type (t :: us) -> In v (t :: us) ->
  within v (variant_value w trivial t us b) (variant_object w trivial t us) b /\
  apart v (variant_value w trivial t us b) (scalar w) (variant_index w trivial t us b) /\
  within (scalar w) (variant_index w trivial t us b) (variant_object w trivial t us) b.
Proof. intros w tr t us v b Hw H Hv. exact (storage_fits tr t us (scalar w) v b H (is_type_good _ Hw) Hv). Qed.
Print Assumptions C473_variant.

Theorem C473_optional : forall trivial t b, is_type t ->
  within t (optional_value trivial t b) (optional_object trivial t) b /\
  apart t (optional_value trivial t b) (scalar 1) (optional_flag trivial t b) /\
  within (scalar 1) (optional_flag trivial t b) (optional_object trivial t) b.
Proof.
  intros tr t b H. apply (storage_fits tr t [monostate] (scalar 1) t b).
  - constructor; [exact H|]. constructor; [exact monostate_type|constructor].
  - exact scalar1_good.
  - now left.
Qed.
Print Assumptions C473_optional.

Theorem C473_expected : forall trivial t e v b, is_type t -> is_type e -> v = t \/ v = e ->
  within v (expected_value trivial t e b) (expected_object trivial t e) b /\
  apart v (expected_value trivial t e b) (scalar 1) (expected_flag trivial t e b) /\
  within (scalar 1) (expected_flag trivial t e b) (expected_object trivial t e) b.
Proof.
  intros tr t e v b Ht He Hv. apply (storage_fits tr t [e] (scalar 1) v b).
  - constructor; [exact Ht|]. constructor; [exact He|constructor].
  - exact scalar1_good.
  - destruct Hv as [-> | ->]; [now left|right; now left].
Qed.
Print Assumptions C473_expected.

Theorem C473_vector : forall integral t n b i, is_type t -> i < n ->
  within t (vector_element integral t n b i) (vector_object integral t n) b /\
  apart t (vector_element integral t n b i) (scalar (fixed_size_width n)) (vector_length integral t n b) /\
  (forall j, j <> i -> apart t (vector_element integral t n b i) t (vector_element integral t n b j)).
Proof. exact vector_room. Qed.
Print Assumptions C473_vector.

(* its length field can hold every length up to n *)
Theorem C473_length : forall n, (N.of_nat n < 2 ^ 32)%N ->
  (N.of_nat n < 2 ^ (8 * N.of_nat (fixed_size_width n)))%N.
Proof. exact width_holds. Qed.
Print Assumptions C473_length.

(* operator[] and pointer arithmetic on data() name the same element *)
Theorem C473_two_ways : forall t b i, element_at t b i = element_of_data t b i.
Proof. exact element_same. Qed.
Print Assumptions C473_two_ways.

Theorem C473_map : forall k m n b i, is_type k -> is_type m -> i < n ->
  within k (map_key k m n b i) (map_object k m n) b /\
  within m (map_mapped k m n b i) (map_object k m n) b /\
  apart k (map_key k m n b i) m (map_mapped k m n b i) /\
  (forall j, j <> i ->
     apart k (map_key k m n b i) k (map_key k m n b j) /\
     apart k (map_key k m n b i) m (map_mapped k m n b j) /\
     apart m (map_mapped k m n b i) m (map_mapped k m n b j)).
Proof. exact map_room. Qed.
Print Assumptions C473_map.

(* the buffer has its header and n bytes of data, no more and no less *)
Theorem C473_bipbuf : forall l i n b, is_type (scalar l) -> is_type (scalar i) ->
  bipbuf_header l i n b = b /\
  bipbuf_header l i n b + size_of (bipbuf_t l i) + n = b + size_of (bipbuf_object l i n).
Proof. exact bip_room. Qed.
Print Assumptions C473_bipbuf.

Theorem C473_pool : forall p s n b i, is_type (scalar p) -> i < n ->
  within (bytes s) (pool_block p s n b i) (pool_object p s n) b /\
  apart (bytes s) (pool_block p s n b i) (scalar p) (pool_head p s n b) /\
  (forall j, j <> i -> apart (bytes s) (pool_block p s n b i) (bytes s) (pool_block p s n b j)).
Proof. exact pool_room. Qed.
Print Assumptions C473_pool.

Theorem C473_aligned_storage : forall t b, is_type t ->
  within t b (aligned_storage (size_of t) (align_of t)) b.
Proof. exact aligned_room. Qed.
Print Assumptions C473_aligned_storage.

(* d is the type of the deleter *)
Theorem C473_shared_ptr : forall p d t b, is_type (scalar p) -> is_type d -> is_type t ->
  within t (shared_value p d t b) (shared_object p d t) b /\
  within (control_block p d) (shared_control p d t b) (shared_object p d t) b /\
  apart t (shared_value p d t b) (control_block p d) (shared_control p d t b).
Proof. exact shared_room. Qed.
Print Assumptions C473_shared_ptr.

(* C474: values are aligned, in a class whose own alignment provides for it *)
Theorem C474_trivial : forall w t us v b, is_type (scalar w) -> Forall is_type (t :: us) -> In v (t :: us) ->
  aligned (variant_object w true t us) b -> aligned v (variant_value w true t us b).
Proof. intros w t us v b Hw H Hv Hb. exact (flagged_trivial t us (scalar w) v b H (is_type_good _ Hw) Hv Hb). Qed.
Print Assumptions C474_trivial.

Theorem C474_optional : forall t b, is_type t ->
  aligned (optional_object true t) b -> aligned t (optional_value true t b).
Proof.
  intros t b H Hb. apply (flagged_trivial t [monostate] (scalar 1) t b); [|exact scalar1_good|now left|exact Hb].
  constructor; [exact H|]. constructor; [exact monostate_type|constructor].
Qed.
Print Assumptions C474_optional.

Theorem C474_expected : forall t e v b, is_type t -> is_type e -> v = t \/ v = e ->
  aligned (expected_object true t e) b -> aligned v (expected_value true t e b).
Proof.
  intros t e v b Ht He Hv Hb. apply (flagged_trivial t [e] (scalar 1) v b); [|exact scalar1_good| |exact Hb].
  - constructor; [exact Ht|]. constructor; [exact He|constructor].
  - destruct Hv as [-> | ->]; [now left|right; now left].
Qed.
Print Assumptions C474_expected.

(* any alternatives, no more strictly aligned than the std::size_t kept beside them *)
Theorem C474_variant : forall w trivial t us v b, is_type (scalar w) -> Forall is_type (t :: us) -> In v (t :: us) ->
  align_of v <= w ->
  aligned (variant_object w trivial t us) b -> aligned v (variant_value w trivial t us b).
Proof. intros w tr t us v b Hw H Hv L Hb. exact (variant_by_index w tr t us v b Hw H Hv L Hb). Qed.
Print Assumptions C474_variant.

Theorem C474_vector_of_integers : forall t n b i, is_type t ->
  aligned (vector_object true t n) b -> aligned t (vector_element true t n b i).
Proof. exact vector_integral. Qed.
Print Assumptions C474_vector_of_integers.

Theorem C474_vector : forall t n b i, is_type t -> align_of t <= fixed_size_width n ->
  aligned (vector_object false t n) b -> aligned t (vector_element false t n b i).
Proof. exact vector_small. Qed.
Print Assumptions C474_vector.

Theorem C474_pool : forall p t n b i, is_type (scalar p) -> is_type t -> align_of t <= p ->
  aligned (pool_object p (size_of t) n) b -> aligned t (pool_block p (size_of t) n b i).
Proof. exact pool_aligned. Qed.
Print Assumptions C474_pool.

Theorem C474_aligned_storage : forall t b, is_type t ->
  aligned (aligned_storage (size_of t) (align_of t)) b -> aligned t b.
Proof. exact aligned_storage_aligned. Qed.
Print Assumptions C474_aligned_storage.

Theorem C474_shared_ptr : forall p d t b, is_type (scalar p) -> is_type d -> is_type t -> align_of t <= p ->
  aligned (shared_object p d t) b -> aligned t (shared_value p d t b).
Proof. exact shared_aligned. Qed.
Print Assumptions C474_shared_ptr.

(* C475: an object its owner put at a suitable address keeps its values aligned *)
Theorem C475_vector : forall integral t n b i, is_type t -> aligned t b -> aligned t (vector_element integral t n b i).
Proof. exact vector_by_address. Qed.
Print Assumptions C475_vector.

Theorem C475_map : forall k m n b i, is_type k -> is_type m -> aligned (control_type k m) b ->
  aligned k (map_key k m n b i) /\ aligned m (map_mapped k m n b i).
Proof. exact map_by_address. Qed.
Print Assumptions C475_map.

(* the value of a variant, optional or expected, and the header of a bipbuf, begin where the
   object does *)
Theorem C475_at_the_start : forall w trivial t us e l i n b,
  is_type (scalar w) -> Forall is_type (t :: us) -> is_type e -> is_type (scalar l) -> is_type (scalar i) ->
  variant_value w trivial t us b = b /\ optional_value trivial t b = b /\
  expected_value trivial t e b = b /\ bipbuf_header l i n b = b.
Proof.
  intros w tr t us e l i n b Hw H He Hl Hi. inversion H as [|? ? Ht Hus]; subst.
  assert (F1 : Forall is_type [t; monostate]) by (constructor; [exact Ht|constructor; [exact monostate_type|constructor]]).
  assert (F2 : Forall is_type [t; e]) by (constructor; [exact Ht|constructor; [exact He|constructor]]).
  unfold variant_value, variant_members, optional_value, expected_value, flagged_members.
  rewrite (struct2_first _ _ (storage_good tr t us H)), (struct2_first _ _ (storage_good tr t [monostate] F1)),
    (struct2_first _ _ (storage_good tr t [e] F2)).
  split; [lia|]. split; [lia|]. split; [lia|]. apply (proj1 (bip_room l i n b Hl Hi)).
Qed.
Print Assumptions C475_at_the_start.

(* C476: a value more strictly aligned than the class's own members is not aligned at some
   address the compiler may give the object *)
Theorem C476_optional_refuted : forall t, 1 < align_of t ->
  exists b, aligned (optional_object false t) b /\ ~ aligned t (optional_value false t b).
Proof. intros t L. exact (flagged_off t [monostate] 1 (align_of t) ltac:(lia) L). Qed.
Print Assumptions C476_optional_refuted.

Theorem C476_expected_refuted : forall t e v, v = t \/ v = e -> 1 < align_of v ->
  exists b, aligned (expected_object false t e) b /\ ~ aligned v (expected_value false t e b).
Proof. intros t e v _ L. exact (flagged_off t [e] 1 (align_of v) ltac:(lia) L). Qed.
Print Assumptions C476_expected_refuted.

Theorem C476_variant_refuted : forall w t us v, is_type (scalar w) -> In v (t :: us) -> w < align_of v ->
  exists b, aligned (variant_object w false t us) b /\ ~ aligned v (variant_value w false t us b).
Proof. intros w t us v (_ & P & _) _ L. exact (flagged_off t us w (align_of v) P L). Qed.
Print Assumptions C476_variant_refuted.

(* C477: every element of a fixed vector of objects, every entry of a fixed map, the header of a
   fixed bipbuf, every block of a pool *)
Theorem C477_vector_refuted : forall t n i, fixed_size_width n < align_of t ->
  exists b, aligned (vector_object false t n) b /\ ~ aligned t (vector_element false t n b i).
Proof. exact vector_off. Qed.
Print Assumptions C477_vector_refuted.

Theorem C477_map_refuted : forall k m n i,
  (1 < align_of k -> exists b, aligned (map_object k m n) b /\ ~ aligned k (map_key k m n b i)) /\
  (1 < align_of m -> exists b, aligned (map_object k m n) b /\ ~ aligned m (map_mapped k m n b i)).
Proof. exact map_off. Qed.
Print Assumptions C477_map_refuted.

Theorem C477_bipbuf_refuted : forall l i n, is_type (scalar l) -> is_type (scalar i) -> 1 < l ->
  exists b, aligned (bipbuf_object l i n) b /\ ~ aligned (bipbuf_t l i) (bipbuf_header l i n b).
Proof. exact bip_off. Qed.
Print Assumptions C477_bipbuf_refuted.

Theorem C477_pool_refuted : forall p t n i, is_type (scalar p) -> is_type t -> p < align_of t ->
  exists b, aligned (pool_object p (size_of t) n) b /\ ~ aligned t (pool_block p (size_of t) n b i).
Proof. exact pool_off. Qed.
Print Assumptions C477_pool_refuted.

Theorem C477_shared_ptr_refuted : forall p d t, is_type (scalar p) -> is_type d -> is_type t ->
  align_of (control_block p d) < align_of t ->
  exists b, aligned (shared_object p d t) b /\ ~ aligned t (shared_value p d t b).
Proof. exact shared_off. Qed.
Print Assumptions C477_shared_ptr_refuted.

(* C478: without alignas, aligned_storage<Len, Align> has Align bytes and any address *)
Theorem C478_size_refuted : forall t b, is_type t -> align_of t < size_of t ->
  ~ within t b (aligned_storage_plain (size_of t) (align_of t)) b.
Proof.
  intros t b _ L [_ W]. rewrite (proj1 (plain_size (size_of t) (align_of t))) in W. lia.
Qed.
Print Assumptions C478_size_refuted.

Theorem C478_alignment_refuted : forall t, 1 < align_of t ->
  exists b, aligned (aligned_storage_plain (size_of t) (align_of t)) b /\ ~ aligned t b.
Proof.
  intros t L. destruct (somewhere_off (align_of t) 1 0 ltac:(lia) L) as (b & _ & N1).
  exists b. rewrite Nat.add_0_r in N1. split; [apply Nat.divide_1_l|exact N1].
Qed.
Print Assumptions C478_alignment_refuted.

(* a string-like class of 32 bytes, aligned to 8; a double; std::size_t and pointers of 8 bytes *)
Example C473_case :
  is_type (Ty 32 8) /\ is_type (scalar 8) /\ is_type (scalar 4) /\ ~ is_type (Ty 6 4) /\
  variant_object 8 false (scalar 4) [Ty 32 8] = Ty 40 8 /\ variant_index 8 false (scalar 4) [Ty 32 8] 80 = 112 /\
  optional_object false (Ty 32 8) = Ty 33 1 /\ optional_object true (scalar 8) = Ty 16 8 /\
  vector_object false (Ty 32 8) 4 = Ty 129 1 /\ vector_object true (scalar 4) 4 = Ty 20 4 /\
  control_type (scalar 1) (scalar 8) = Ty 16 8 /\ map_mapped (scalar 1) (scalar 8) 3 0 2 = 40 /\
  pool_object 8 3 5 = Ty 48 8 /\ pool_block 8 3 5 0 2 = 24 /\ bipbuf_object 8 4 16 = Ty 40 1 /\
  aligned_storage 12 8 = Ty 16 8 /\
  shared_object 4 (scalar 4) (scalar 8) = Ty 24 4 /\ shared_value 4 (scalar 4) (scalar 8) 0 = 16.
Proof.
  assert (D : forall q a n, n = q * a -> Nat.divide a n) by (intros q a n E; exists q; exact E).
  split; [split; [now exists 3|split; [cbn; lia|now apply (D 4)]]|].
  split; [split; [now exists 3|split; [cbn; lia|now apply (D 1)]]|].
  split; [split; [now exists 2|split; [cbn; lia|now apply (D 1)]]|].
  split; [intros (_ & _ & [q E]); cbn in E; lia|].
  repeat split; vm_compute; reflexivity.
Qed.
Example C474_case : aligned (optional_object true (scalar 8)) 24 /\ aligned (scalar 8) (optional_value true (scalar 8) 24) /\
  aligned (variant_object 8 false (scalar 4) [Ty 32 8]) 80.
Proof. repeat split; [exists 3; vm_compute; reflexivity|exists 3; vm_compute; reflexivity|exists 10; vm_compute; reflexivity]. Qed.
Example C475_case : aligned (control_type (scalar 1) (scalar 8)) 32 /\ aligned (scalar 8) (map_mapped (scalar 1) (scalar 8) 3 32 2).
Proof. split; [exists 4; vm_compute; reflexivity|exists 9; vm_compute; reflexivity]. Qed.
Example C476_case : aligned (optional_object false (Ty 32 8)) 33 /\ ~ aligned (Ty 32 8) (optional_value false (Ty 32 8) 33).
Proof. split; [exists 33; vm_compute; reflexivity|]. intros [q E]. cbn in E. lia. Qed.
Example C477_case : fixed_size_width 4 < align_of (Ty 32 8) /\ aligned (bipbuf_object 8 4 16) 41 /\
  ~ aligned (bipbuf_t 8 4) (bipbuf_header 8 4 16 41).
Proof.
  split; [vm_compute; lia|]. split; [exists 41; vm_compute; reflexivity|].
  intros [q E]. change (align_of (bipbuf_t 8 4)) with 8 in E. change (bipbuf_header 8 4 16 41) with 41 in E. lia.
Qed.
Example C478_case : is_type (Ty 32 8) /\ align_of (Ty 32 8) < size_of (Ty 32 8).
Proof. split; [split; [now exists 3|split; [cbn; lia|now exists 4]]|cbn; lia]. Qed.
