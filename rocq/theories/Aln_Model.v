(* Model of the storage in which the library constructs objects: where, inside an object of the
   class, the bytes for a value begin, and how large and how strictly aligned the class is.
   /repo/src/estd/internal/variant/storage.h:39-100,264-269, internal/variadic.h:53-70,
   internal/optional.h:77-107,191-192, internal/expected.h:95-114, expected.h:60-64,
   internal/variant.h:59,158, internal/array.h:26-73, allocators/fixed.h:93,361-369,
   internal/impl/dynamic_array.h:101-118,246-250, internal/deduce_fixed_size.h:17-38,
   internal/container/unordered/traits.h:64-104, internal/container/unordered/base.h:33-61,
   internal/bip/buffer.h:73-96, internal/memory/v1/pool.h, internal/raw/type_traits.h:199-216,
   memory.h:50-110,341-380, internal/value_evaporator.h:211-225,257-283.
   The layout rules are those of the usual ABIs: members in order of declaration, base classes
   first, each at the next multiple of its alignment; a class is as strictly aligned as its most
   strictly aligned member.  Empty bases take no room; the reuse of a base's tail padding is not
   modelled. *)
From Verif Require Import Base Aln_Spec.

(* --- the rules of layout (not code of the library) --- *)
Definition round_up (n a : nat) : nat := (n + a - 1) / a * a.

Definition strictest (ms : list ty) : nat := fold_right (fun m => Nat.max (align_of m)) 1 ms.
Definition widest (ms : list ty) : nat := fold_right (fun m => Nat.max (size_of m)) 0 ms.

(* where member k begins, when the members before [off] are placed *)
Fixpoint member_at (off : nat) (ms : list ty) (k : nat) : nat :=
  match ms with
  | [] => off
  | m :: r => match k with
              | O => round_up off (align_of m)
              | S k' => member_at (round_up off (align_of m) + size_of m) r k'
              end
  end.
Fixpoint members_end (off : nat) (ms : list ty) : nat :=
  match ms with
  | [] => off
  | m :: r => members_end (round_up off (align_of m) + size_of m) r
  end.

Definition struct_of (ms : list ty) : ty := Ty (round_up (members_end 0 ms) (strictest ms)) (strictest ms).
Definition union_of (ms : list ty) : ty := Ty (round_up (widest ms) (strictest ms)) (strictest ms).
Definition array_of (n : nat) (t : ty) : ty := Ty (n * size_of t) (align_of t).
Definition bytes (n : nat) : ty := Ty n 1.
Definition alignas (a : nat) (t : ty) : ty := Ty (round_up (size_of t) (Nat.max a (align_of t))) (Nat.max a (align_of t)).
Definition scalar (w : nat) : ty := Ty w w.   (* an integer or a pointer of w bytes *)

(* --- internal/raw/type_traits.h:199-216 --- *)
(* lines 199-206: alignas(Align) byte data[Len] *)
Definition aligned_storage (len align : nat) : ty := struct_of [Ty len align].
(* lines 207-216: without alignas the member is byte data[Align] *)
Definition aligned_storage_plain (len align : nat) : ty := struct_of [bytes align].

(* --- internal/variadic.h:55-70: largest_type<T, ...>; of two equally large, the first --- *)
Fixpoint largest (t : ty) (us : list ty) : ty :=
  match us with
  | [] => t
  | u :: r => largest (if size_of u <=? size_of t then t else u) r
  end.

(* --- internal/variant/storage.h --- *)
(* lines 39-43 (not all trivial) and 55-90 (all trivial; declared for one to four types, here for
   any number; [byte raw[0]] is Ty 0 1).  All members of a union begin at its address. *)
Definition variant_union (trivial : bool) (t : ty) (us : list ty) : ty :=
  if trivial then union_of ((t :: us) ++ [Ty 0 1])
  else union_of [bytes (size_of (largest t us))].
Definition monostate : ty := Ty 1 1.
(* lines 264-269: storage and dummy share an unnamed union *)
Definition variant_storage (trivial : bool) (t : ty) (us : list ty) : ty :=
  struct_of [union_of [variant_union trivial t us; monostate]].

(* internal/variant.h:59, 158: the storage is the base class, index_ a std::size_t of w bytes *)
Definition variant_members (w : nat) (trivial : bool) (t : ty) (us : list ty) : list ty :=
  [variant_storage trivial t us; scalar w].
Definition variant_object (w : nat) (trivial : bool) (t : ty) (us : list ty) : ty :=
  struct_of (variant_members w trivial t us).
(* storage.h:297-307: get<index>() is storage.raw, for every index *)
Definition variant_value (w : nat) (trivial : bool) (t : ty) (us : list ty) (b : nat) : nat :=
  b + member_at 0 (variant_members w trivial t us) 0.
Definition variant_index (w : nat) (trivial : bool) (t : ty) (us : list ty) (b : nat) : nat :=
  b + member_at 0 (variant_members w trivial t us) 1.

(* internal/optional.h:107, 191-192: optional_value_provider, then optional_has_value (a bool);
   internal/expected.h:114, expected.h:60-64: the storage of both, then has_value_.  optional<T>
   holds a T or a monostate, expected<T, E> a T or an E. *)
Definition flagged_members (trivial : bool) (t u : ty) : list ty := [variant_storage trivial t [u]; scalar 1].
Definition optional_object (trivial : bool) (t : ty) : ty := struct_of (flagged_members trivial t monostate).
Definition optional_value (trivial : bool) (t : ty) (b : nat) : nat :=
  b + member_at 0 (flagged_members trivial t monostate) 0.
Definition optional_flag (trivial : bool) (t : ty) (b : nat) : nat :=
  b + member_at 0 (flagged_members trivial t monostate) 1.
Definition expected_object (trivial : bool) (t e : ty) : ty := struct_of (flagged_members trivial t e).
Definition expected_value (trivial : bool) (t e : ty) (b : nat) : nat :=
  b + member_at 0 (flagged_members trivial t e) 0.
Definition expected_flag (trivial : bool) (t e : ty) (b : nat) : nat :=
  b + member_at 0 (flagged_members trivial t e) 1.

(* --- internal/array.h:26-73: uninitialized_array --- *)
(* lines 34-46: the container of one element is byte data[sizeof(T)] *)
Definition cell_type (t : ty) : ty := struct_of [bytes (size_of t)].
Definition uninitialized_array (t : ty) (n : nat) : ty := array_of n (cell_type t).
(* lines 63-66: get_at(pos) is data_[pos].data *)
Definition element_at (t : ty) (b i : nat) : nat := b + i * size_of (cell_type t).
(* lines 48-51: data() + pos, with T* arithmetic *)
Definition element_of_data (t : ty) (b i : nat) : nat := b + i * size_of t.

(* --- layer1::vector<T, N> --- *)
(* internal/deduce_fixed_size.h:20-38 *)
Definition fixed_size_width (n : nat) : nat :=
  if n <? 2 ^ 8 then 1 else if (N.of_nat n <? 2 ^ 16)%N then 2 else 4.
(* allocators/fixed.h:361-369: T[len] for integers, else uninitialized_array;
   impl/dynamic_array.h:246-250: the allocator with its buffer, then the size (115).  The boolean
   handle of this allocator takes no room (impl/handle_desc.h). *)
Definition vector_members (integral : bool) (t : ty) (n : nat) : list ty :=
  [if integral then array_of n t else uninitialized_array t n; scalar (fixed_size_width n)].
Definition vector_object (integral : bool) (t : ty) (n : nat) : ty := struct_of (vector_members integral t n).
Definition vector_element (integral : bool) (t : ty) (n b i : nat) : nat :=
  element_of_data t (b + member_at 0 (vector_members integral t n) 0) i.
Definition vector_length (integral : bool) (t : ty) (n b : nat) : nat :=
  b + member_at 0 (vector_members integral t n) 1.

(* --- layer1::unordered_map<Key, T, N> --- *)
(* internal/container/unordered/traits.h:70-81 *)
Definition align_value (k m : ty) : nat :=
  if align_of k <? align_of m then align_of m else align_of k.
(* traits.h:83-96: storage, the two bit fields in a uint16_t, raw *)
Definition meta (k m : ty) : ty := alignas (align_value k m) (union_of [bytes (size_of m); scalar 2; scalar 2]).
(* traits.h:104: pair<key_type, meta> *)
Definition control_type (k m : ty) : ty := struct_of [k; meta k m].
(* container/unordered/fwd.h:66-68, base.h:33-61: the hash is an empty base class *)
Definition map_object (k m : ty) (n : nat) : ty := struct_of [uninitialized_array (control_type k m) n].
Definition map_key (k m : ty) (n b i : nat) : nat :=
  element_at (control_type k m) (b + member_at 0 [uninitialized_array (control_type k m) n] 0) i
  + member_at 0 [k; meta k m] 0.
Definition map_mapped (k m : ty) (n b i : nat) : nat :=
  element_at (control_type k m) (b + member_at 0 [uninitialized_array (control_type k m) n] 0) i
  + member_at 0 [k; meta k m] 1.

(* --- layer1::bipbuf<N>: internal/bip/buffer.h:73-96, ext/willemt/bipbuffer/bipbuffer.h:4-18 --- *)
(* l and i: the sizes of long and int *)
Definition bipbuf_t (l i : nat) : ty := struct_of [scalar l; scalar i; scalar i; scalar i; scalar i].
Definition bipbuf_object (l i n : nat) : ty := struct_of [bytes (size_of (bipbuf_t l i) + n)].
Definition bipbuf_header (l i n b : nat) : nat := b + member_at 0 [bytes (size_of (bipbuf_t l i) + n)] 0.

(* --- the fixed pool: internal/memory/v1/pool.h, with pointers of p bytes --- *)
(* lines 15-28 and 90-99: the union of the link and the bytes *)
Definition pool_link (p : nat) : ty := union_of [scalar p; bytes 1].
Definition pool_cell (p block_size : nat) : ty := union_of [pool_link p; bytes block_size].
(* lines 30 and 133: head_free_, then storage_ *)
Definition pool_members (p block_size blocks : nat) : list ty := [scalar p; array_of blocks (pool_cell p block_size)].
Definition pool_object (p block_size blocks : nat) : ty := struct_of (pool_members p block_size blocks).
Definition pool_head (p block_size blocks b : nat) : nat := b + member_at 0 (pool_members p block_size blocks) 0.
Definition pool_block (p block_size blocks b i : nat) : nat :=
  b + member_at 0 (pool_members p block_size blocks) 1 + i * size_of (pool_cell p block_size).

(* --- layer1::shared_ptr<T, Deleter>: memory.h, with pointers of p bytes --- *)
(* memory.h:50-83: the pointer to the virtual functions (deleter_base), shared, shared_count, is_active
   (without FEATURE_ESTD_WEAK_PTR) *)
Definition control_base (p : nat) : ty := struct_of [scalar p; scalar p; scalar 2; scalar 1].
(* memory.h:92-110: then the deleter d (the block without one, memory.h:147-161, is not modelled) *)
Definition control_block (p : nat) (d : ty) : ty := struct_of [control_base p; d].
(* memory.h:343-351: instance_provider with the block (value_evaporator.h:216), then _provided, whose
   member is byte buf[sizeof(T)] (value_evaporator.h:257-265) *)
Definition shared_members (p : nat) (d t : ty) : list ty :=
  [struct_of [control_block p d]; struct_of [bytes (size_of t)]].
Definition shared_object (p : nat) (d t : ty) : ty := struct_of (shared_members p d t).
Definition shared_control (p : nat) (d t : ty) (b : nat) : nat := b + member_at 0 (shared_members p d t) 0.
(* memory.h:351, value_evaporator.h:269: provided() is the address of buf *)
Definition shared_value (p : nat) (d t : ty) (b : nat) : nat := b + member_at 0 (shared_members p d t) 1.
