(* C27-C29, C72-C74: vector and string of fixed capacity. *)
From Verif Require Import Base Dyn_Spec Dyn_Model Dyn_View Dyn_Bounds.

(* C27.  [b] is whatever the storage contains before; vrun checks that the list never
   exceeds the capacity and that erase is asked of one-byte elements or of the last. *)
Theorem C27_vector_history smod narrow nodebug w N b os l :
  N < smod -> length b = N -> Forall (fun x => length x = w) b -> vrun N (vec_ok w) [] os l ->
  exists v0 v, init (vec_cfg smod narrow nodebug w) b = Ok v0 /\
    run (vec_cfg smod narrow nodebug w) v0 os = Ok (Go v) /\
    looks_like (vec_cfg smod narrow nodebug w) v l /\ length (buf v) = N.
Proof. exact (vec_history smod narrow nodebug w N b os l). Qed.
Print Assumptions C27_vector_history.

(* a null terminated string of N cells holds N - 1 characters *)
Theorem C27_string_history smod narrow nodebug nul N b os l :
  N < smod -> length b = N -> (nul = true -> 1 <= N) -> vrun (room nul N) (str_ok nul) [] os l ->
  exists v0 v, init (str_cfg smod narrow nodebug nul) b = Ok v0 /\
    run (str_cfg smod narrow nodebug nul) v0 os = Ok (Go v) /\
    looks_like (str_cfg smod narrow nodebug nul) v l /\ length (buf v) = N.
Proof. exact (str_history smod narrow nodebug nul N b os l). Qed.
Print Assumptions C27_string_history.

(* push_back of a temporary and emplace_back do what push_back does *)
Theorem C27_emplace_back smod narrow nodebug w N os l v x :
  vec_after smod narrow nodebug w N os l v -> length l < N ->
  exists v', push_back (vec_cfg smod narrow nodebug w) v x = Ok (Go v') /\
    push_back_move (vec_cfg smod narrow nodebug w) v x = Ok (Go v') /\
    emplace_back (vec_cfg smod narrow nodebug w) v x = Ok (Go (x, v')) /\
    looks_like (vec_cfg smod narrow nodebug w) v' (l ++ [x]).
Proof. exact (vec_emplace smod narrow nodebug w N os l v x). Qed.
Print Assumptions C27_emplace_back.

(* erase moves as many bytes as it should move elements *)
Theorem C181_erase_bytes_refuted smod narrow nodebug w N os l v i :
  vec_after smod narrow nodebug w N os l v -> 1 <= w -> i < length l ->
  exists v' l', erase (vec_cfg smod narrow nodebug w) v i = Ok (Go (i, v')) /\
    iterate (vec_cfg smod narrow nodebug w) v' = Ok l' /\
    concat l' = firstn ((length l - 1) * w)
      (let n := length l - (i + 1) in let b := concat l in
       firstn (i * w) b ++ firstn n (skipn ((i + 1) * w) b) ++ skipn (i * w + n) b).
Proof. exact (vec_erase_bytes smod narrow nodebug w N os l v i). Qed.
Print Assumptions C181_erase_bytes_refuted.

(* so erasing the first of two elements that differ after their first byte is wrong *)
Theorem C181_erase_refuted smod narrow nodebug w N os x a y b v :
  vec_after smod narrow nodebug w N os [x :: a; y :: b] v -> a <> b ->
  exists v' l', erase (vec_cfg smod narrow nodebug w) v 0 = Ok (Go (0, v')) /\
    iterate (vec_cfg smod narrow nodebug w) v' = Ok l' /\ l' <> [y :: b].
Proof. exact (vec_erase_two smod narrow nodebug w N os x a y b v). Qed.
Print Assumptions C181_erase_refuted.

(* resize to a larger size shows what the storage happened to contain *)
Theorem C181_resize_grow_refuted smod narrow nodebug w b v0 n :
  length b < smod -> n <= length b -> init (vec_cfg smod narrow nodebug w) b = Ok v0 ->
  exists v, resize (vec_cfg smod narrow nodebug w) v0 n = Ok (Go (true, v)) /\
    iterate (vec_cfg smod narrow nodebug w) v = Ok (firstn n b).
Proof. exact (vec_resize_grow smod narrow nodebug w b v0 n). Qed.
Print Assumptions C181_resize_grow_refuted.

(* and leaves a null terminated string as it was *)
Theorem C181_string_resize_grow_refuted smod narrow nodebug N os l v n :
  str_after smod narrow nodebug true N os l v -> length l < n -> n < N ->
  exists v', resize (str_cfg smod narrow nodebug true) v n = Ok (Go (true, v')) /\
    looks_like (str_cfg smod narrow nodebug true) v' l.
Proof. exact (str_resize_grow smod narrow nodebug N os l v n). Qed.
Print Assumptions C181_string_resize_grow_refuted.

Definition ex_ops : list (vop (list Z)) :=
  [Push [1; 2]%Z; Append [[3; 4]; [5; 6]]%Z; Insert 1 [7; 8]%Z; Erase 3; Pop; Resize 1; InsertRange 0 [[9; 9]]%Z].
Example C27_case : exists v, vec_after 256 true false 2 4 ex_ops [[9; 9]; [1; 2]]%Z v.
Proof.
  eexists. split; [repeat constructor|].
  exists [[0; 0]; [0; 0]; [0; 0]; [0; 0]]%Z. eexists. split; [reflexivity|].
  split; [repeat constructor|]. split; [reflexivity|]. split; [|vm_compute; reflexivity].
  unfold ex_ops. repeat (eapply vrun_cons; [reflexivity|cbn; lia|split; [repeat constructor|cbn; auto]|]).
  apply vrun_nil.
Qed.
Definition ex_sops : list (vop Z) :=
  [Assign [104; 101; 108; 108; 111]; Erase 1; Insert 1 97; Clear; Append [97; 98; 99]]%Z.
Lemma str_ex nul : exists v, str_after 256 true false nul 8 ex_sops [97; 98; 99]%Z v.
Proof.
  destruct nul.
  - eexists. split; [apply Nat.ltb_lt; reflexivity|]. exists (repeat 1%Z 8). eexists. split; [reflexivity|].
    split; [reflexivity|]. split; [|vm_compute; reflexivity].
    unfold ex_sops. repeat (eapply vrun_cons; [reflexivity|cbn; lia|intros _; cbn; intuition discriminate|]).
    apply vrun_nil.
  - eexists. split; [apply Nat.ltb_lt; reflexivity|]. exists (repeat 1%Z 8). eexists. split; [reflexivity|].
    split; [reflexivity|]. split; [|vm_compute; reflexivity].
    unfold ex_sops. repeat (eapply vrun_cons; [reflexivity|cbn; lia|intros; discriminate|]).
    apply vrun_nil.
Qed.
Example C27_string_case : exists v, str_after 256 true false true 8 ex_sops [97; 98; 99]%Z v.
Proof. exact (str_ex true). Qed.

(* C28.  Within capacity every call stays inside the storage (C27: it succeeds, and any
   access outside is UB).  A call for more than the capacity stops in an assert... *)
Theorem C28_vector_overflow_stops smod narrow w N os l v o l1 :
  vec_after smod narrow false w N os l v -> vstep l o = Some l1 -> N < length l1 -> length l1 < smod ->
  step (vec_cfg smod narrow false w) v o = Ok Assert.
Proof. exact (vec_over smod narrow false w N os l v o l1). Qed.
Print Assumptions C28_vector_overflow_stops.

Theorem C28_string_overflow_stops smod narrow nul N os l v o l1 :
  str_after smod narrow false nul N os l v -> vstep l o = Some l1 -> N < length l1 -> length l1 < smod ->
  step (str_cfg smod narrow false nul) v o = Ok Assert.
Proof. exact (str_over smod narrow false nul N os l v o l1). Qed.
Print Assumptions C28_string_overflow_stops.

(* ... unless compiled with NDEBUG: then it writes outside *)
Theorem C182_ndebug_refuted smod narrow w N os l v o l1 :
  vec_after smod narrow true w N os l v -> vstep l o = Some l1 -> N < length l1 -> length l1 < smod ->
  step (vec_cfg smod narrow true w) v o = UB.
Proof. exact (vec_over smod narrow true w N os l v o l1). Qed.
Print Assumptions C182_ndebug_refuted.
Theorem C182_string_ndebug_refuted smod narrow nul N os l v o l1 :
  str_after smod narrow true nul N os l v -> vstep l o = Some l1 -> N < length l1 -> length l1 < smod ->
  step (str_cfg smod narrow true nul) v o = UB.
Proof. exact (str_over smod narrow true nul N os l v o l1). Qed.
Print Assumptions C182_string_ndebug_refuted.

(* a null terminated string filled to its capacity() puts the terminator outside,
   with or without asserts *)
Theorem C182_full_string_refuted smod narrow nodebug N os l v o l1 :
  str_after smod narrow nodebug true N os l v -> vstep l o = Some l1 -> length l1 = N ->
  step (str_cfg smod narrow nodebug true) v o = UB.
Proof. exact (str_exact smod narrow nodebug N os l v o l1). Qed.
Print Assumptions C182_full_string_refuted.

(* when the sum of the lengths wraps in size_type the check passes, with or without asserts *)
Theorem C182_vector_wrap_refuted smod narrow nodebug w N os l v xs :
  vec_after smod narrow nodebug w N os l v -> length xs < smod ->
  smod <= length l + length xs -> length l + length xs - smod <= N ->
  step (vec_cfg smod narrow nodebug w) v (Append xs) = UB.
Proof. exact (vec_wrap smod narrow nodebug w N os l v xs). Qed.
Print Assumptions C182_vector_wrap_refuted.
Theorem C182_string_wrap_refuted smod narrow nodebug nul N os l v xs :
  str_after smod narrow nodebug nul N os l v -> length xs < smod ->
  smod <= length l + length xs -> length l + length xs - smod <= room nul N ->
  step (str_cfg smod narrow nodebug nul) v (Append xs) = UB.
Proof. exact (str_wrap smod narrow nodebug nul N os l v xs). Qed.
Print Assumptions C182_string_wrap_refuted.

(* an 8 character buffer with uint8_t sizes holding 3 characters: appending 6 is too long,
   appending 5 fills it exactly, appending 254 wraps to 1 *)
Example C28_case : exists v, str_after 256 true false true 8 ex_sops [97; 98; 99]%Z v /\
  step (str_cfg 256 true false true) v (Append (repeat 65%Z 6)) = Ok Assert /\
  step (str_cfg 256 true false true) v (Append (repeat 65%Z 5)) = UB /\
  step (str_cfg 256 true false true) v (Append (repeat 65%Z 254)) = UB.
Proof.
  destruct (str_ex true) as (v & H). exists v. split; [exact H|]. split; [|split].
  - eapply C28_string_overflow_stops; [exact H|reflexivity|cbn; lia|apply Nat.ltb_lt; reflexivity].
  - eapply C182_full_string_refuted; [exact H|reflexivity|reflexivity].
  - eapply C182_string_wrap_refuted; [exact H| | |]; [apply Nat.ltb_lt|apply Nat.leb_le|apply Nat.leb_le]; reflexivity.
Qed.

(* C29.  append(s, n) *)
Theorem C29_append smod narrow nodebug nul N os l v s n :
  str_after smod narrow nodebug nul N os l v -> n <= length s -> fits nul N (l ++ firstn n s) ->
  exists v', append (str_cfg smod narrow nodebug nul) v s n = Ok (Go v') /\
    looks_like (str_cfg smod narrow nodebug nul) v' (l ++ firstn n s).
Proof. exact (str_append smod narrow nodebug nul N os l v s n). Qed.
Print Assumptions C29_append.
(* append and assignment of another string, of any kind and size type *)
Theorem C29_append_string smod narrow nodebug nul N os l v smod2 narrow2 nodebug2 nul2 N2 os2 l2 v2 :
  str_after smod narrow nodebug nul N os l v -> str_after smod2 narrow2 nodebug2 nul2 N2 os2 l2 v2 ->
  fits nul N (l ++ l2) ->
  exists v', append_arr (str_cfg smod narrow nodebug nul) (str_cfg smod2 narrow2 nodebug2 nul2) v v2 = Ok (Go v') /\
    looks_like (str_cfg smod narrow nodebug nul) v' (l ++ l2).
Proof. exact (str_append_arr smod narrow nodebug nul N os l v smod2 narrow2 nodebug2 nul2 N2 os2 l2 v2). Qed.
Print Assumptions C29_append_string.
Theorem C29_assign_string smod narrow nodebug nul N os l v smod2 narrow2 nodebug2 nul2 N2 os2 l2 v2 :
  str_after smod narrow nodebug nul N os l v -> str_after smod2 narrow2 nodebug2 nul2 N2 os2 l2 v2 ->
  fits nul N l2 ->
  exists v', assign_arr (str_cfg smod narrow nodebug nul) (str_cfg smod2 narrow2 nodebug2 nul2) v v2 = Ok (Go v') /\
    looks_like (str_cfg smod narrow nodebug nul) v' l2.
Proof. exact (str_assign_arr smod narrow nodebug nul N os l v smod2 narrow2 nodebug2 nul2 N2 os2 l2 v2). Qed.
Print Assumptions C29_assign_string.
(* s += s *)
Theorem C29_append_self smod narrow nodebug nul N os l v :
  str_after smod narrow nodebug nul N os l v -> fits nul N (l ++ l) ->
  exists v', append_self (str_cfg smod narrow nodebug nul) v = Ok (Go v') /\
    looks_like (str_cfg smod narrow nodebug nul) v' (l ++ l).
Proof. exact (str_append_self smod narrow nodebug nul N os l v). Qed.
Print Assumptions C29_append_self.
(* append(n, ch) *)
Theorem C29_append_fill smod narrow nodebug nul N os l v n x :
  str_after smod narrow nodebug nul N os l v -> fits nul N (l ++ repeat x n) ->
  exists v', append_fill (str_cfg smod narrow nodebug nul) v n x = Ok (Go v') /\
    looks_like (str_cfg smod narrow nodebug nul) v' (l ++ repeat x n).
Proof. exact (str_append_fill smod narrow nodebug nul N os l v n x). Qed.
Print Assumptions C29_append_fill.
(* a C string too long for size_type: only its length modulo the range is appended *)
Theorem C183_long_append_refuted smod narrow nodebug nul N os l v s :
  str_after smod narrow nodebug nul N os l v -> smod <= length s ->
  fits nul N (l ++ firstn (length s mod smod) s) ->
  exists v', step (str_cfg smod narrow nodebug nul) v (Append s) = Ok (Go v') /\
    looks_like (str_cfg smod narrow nodebug nul) v' (l ++ firstn (length s mod smod) s).
Proof. exact (str_long_append smod narrow nodebug nul N os l v s). Qed.
Print Assumptions C183_long_append_refuted.

(* copy(dest, count, pos): what is written to dest and the returned length *)
Theorem C29_copy smod narrow nodebug nul N os l v count pos :
  str_after smod narrow nodebug nul N os l v -> pos <= length l ->
  narrow = true \/ pos + count < smod ->
  copy_to (str_cfg smod narrow nodebug nul) v count pos
  = Ok (firstn count (skipn pos l), Nat.min count (length l - pos)).
Proof. exact (str_copy smod narrow nodebug nul N os l v count pos). Qed.
Print Assumptions C29_copy.
(* with a size_type as wide as int or wider, copy(dest, npos, pos) reads outside unless pos = 0 *)
Theorem C183_copy_npos_refuted smod nodebug nul N os l v pos :
  str_after smod false nodebug nul N os l v -> 1 <= pos <= length l ->
  copy_to (str_cfg smod false nodebug nul) v (smod - 1) pos = UB.
Proof. exact (str_copy_npos smod nodebug nul N os l v pos). Qed.
Print Assumptions C183_copy_npos_refuted.
(* a position beyond the end reads outside (std: out_of_range) *)
Theorem C183_copy_past_refuted smod narrow nodebug nul N os l v count pos :
  str_after smod narrow nodebug nul N os l v -> length l < pos -> pos < smod ->
  narrow = true \/ pos + count < smod -> copy_to (str_cfg smod narrow nodebug nul) v count pos = UB.
Proof. exact (str_copy_past smod narrow nodebug nul N os l v count pos). Qed.
Print Assumptions C183_copy_past_refuted.
Example C29_case : exists v, str_after 256 true false true 8 ex_sops [97; 98; 99]%Z v /\
  fits true 8 ([97; 98; 99] ++ [100])%Z /\ fits true 8 ([97; 98; 99] ++ [97; 98; 99])%Z /\
  copy_to (str_cfg 256 true false true) v 255 1 = Ok ([98; 99]%Z, 2).
Proof.
  destruct (str_ex true) as (v & H). exists v. split; [exact H|].
  split; [split; [cbn; lia|cbn; intuition discriminate]|].
  split; [split; [cbn; lia|cbn; intuition discriminate]|].
  rewrite (C29_copy _ _ _ _ _ _ _ _ 255 1 H); [reflexivity|cbn; lia|now left].
Qed.

(* C72.  erase(index, count) removes [index, index + count) clamped to the end *)
Theorem C72_string_erase smod narrow nodebug nul N os l v i k :
  str_after smod narrow nodebug nul N os l v -> i <= length l ->
  exists v', string_erase (str_cfg smod narrow nodebug nul) v i k = Ok (Go v') /\
    looks_like (str_cfg smod narrow nodebug nul) v' (firstn i l ++ skipn (i + k) l).
Proof. exact (str_erase smod narrow nodebug nul N os l v i k). Qed.
Print Assumptions C72_string_erase.
Example C72_case : exists v, str_after 256 true false true 8 ex_sops [97; 98; 99]%Z v /\ 1 <= length [97; 98; 99]%Z.
Proof. destruct (str_ex true) as (v & H). exists v. split; [exact H|cbn; lia]. Qed.

(* C73.  s.insert(pos, s) inside the string: the first pos characters, over and over,
   take the place of the inserted copy *)
Theorem C73_insert_self_refuted smod narrow nodebug nul N os l v pos :
  str_after smod narrow nodebug nul N os l v -> 0 < pos < length l ->
  length l + length l <= room nul N ->
  exists v' l', insert_self (str_cfg smod narrow nodebug nul) v pos = Ok (Go v') /\
    looks_like (str_cfg smod narrow nodebug nul) v' l' /\ length l' = length l + length l /\
    (forall i, i < pos -> nth_error l' i = nth_error l i) /\
    (forall i, i < length l -> nth_error l' (pos + i) = nth_error l (i mod pos)) /\
    (forall i, pos <= i < length l -> nth_error l' (length l + i) = nth_error l i).
Proof. exact (str_insert_self smod narrow nodebug nul N os l v pos). Qed.
Print Assumptions C73_insert_self_refuted.
Example C73_case : exists v, str_after 256 true false true 8 ex_sops [97; 98; 99]%Z v /\ 0 < 1 < 3 /\ 3 + 3 <= room true 8.
Proof. destruct (str_ex true) as (v & H). exists v. split; [exact H|cbn; lia]. Qed.

(* C74.  size() of a null terminated string is the number of characters only modulo the
   range of size_type, which is 256 for the "unbounded" layer2 string (N = 0) *)
Theorem C74_size_refuted smod narrow nodebug l rest n : ~ In 0%Z l -> 0 < smod <= length l ->
  size (str_cfg smod narrow nodebug true) (Arr (l ++ 0%Z :: rest) n) = Ok (length l mod smod) /\
  length l mod smod < length l.
Proof.
  intros H L. split; [exact (str_size_wraps smod narrow nodebug l rest n H)|].
  pose proof (Nat.mod_upper_bound (length l) smod). lia.
Qed.
Print Assumptions C74_size_refuted.
Example C74_case : ~ In 0%Z (repeat 97%Z 300) /\ length (repeat 97%Z 300) mod 256 = 44.
Proof. split; [|reflexivity]. intros H. apply repeat_spec in H. discriminate. Qed.

(* C453.  reserve and shrink_to_fit over fixed storage: a build with assertions stops in every
   call, whatever is asked for; one without reports success, also of more than the storage holds *)
Theorem C453_debug_refuted smod narrow nul N os l v n :
  str_after smod narrow false nul N os l v ->
  reserve (str_cfg smod narrow false nul) v n = Ok Assert /\ shrink_to_fit (str_cfg smod narrow false nul) v = Ok Assert.
Proof.
  intros H. split; [reflexivity|]. destruct (str_erase _ _ _ _ _ _ _ _ 0 0 H (Nat.le_0_l _)) as (v' & E & _).
  unfold shrink_to_fit, lift, vbind. unfold string_erase, lift, vbind in E.
  destruct (size (str_cfg smod narrow false nul) v); cbn in E |- *; try discriminate. reflexivity.
Qed.
Print Assumptions C453_debug_refuted.
Theorem C453_ndebug_refuted smod narrow nul N os l v n :
  str_after smod narrow true nul N os l v ->
  reserve (str_cfg smod narrow true nul) v n = Ok (Go true) /\ length (buf v) = N.
Proof. intros H. split; [reflexivity|]. exact (proj2 (Dyn_Proofs.str_after_holds _ _ _ _ _ _ _ _ H)). Qed.
Print Assumptions C453_ndebug_refuted.
Example C453_case : exists v, str_after 256 true false true 8 ex_sops [97; 98; 99]%Z v.
Proof. destruct (str_ex true) as (v & H). now exists v. Qed.
