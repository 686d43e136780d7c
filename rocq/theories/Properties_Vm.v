(* C261-C267: exp/memory/memory_pool2.h, virtual_memory *)
From Coq Require Import List Arith Lia.
From Verif Require Import Base Vm_Spec Vm_Model Vm_Proofs.
Import ListNotations.

(* C261: every legal history of allocations, frees, loads, stores and maintenance runs as the ideal
   allocator does: what is stored in a region is what is loaded from it. *)
Theorem C261_history : forall (B : Type) (hdr N K : nat) (h : list (vop B)),
  0 < hdr -> hdr <= N -> all_legal hdr (ideal_start N K) h ->
  exists v0 v1, vm_init hdr N K = Ok v0 /\ run hdr N v0 h = Ok (v1, snd (runs hdr (ideal_start N K) h)).
Proof.
  intros B hdr N K h H0 H1 L. destruct (start_sim (B := B) hdr N H0 K H1) as (v0 & E & S0).
  destruct (run_sim hdr N H0 h v0 _ (start_tile hdr N H0 K H1) S0 L) as (v1 & R & _). eauto.
Qed.
Print Assumptions C261_history.

(* C262: after every such history the regions of the handles in use lie within the storage, no byte is
   in two of them, and what they leave is what total_free says. *)
Theorem C262_regions : forall (B : Type) (hdr N K : nat) (h : list (vop B)) v0 v1 l,
  0 < hdr -> hdr <= N -> all_legal hdr (ideal_start N K) h -> vm_init hdr N K = Ok v0 -> run hdr N v0 h = Ok (v1, l) ->
  (forall o c, In (o, c) (used v1) -> hdr <= c /\ o + c <= N) /\
  (forall b, cover b (used v1) <= 1) /\
  (exists free nodes, total_free hdr N v1 = Ok (free, nodes) /\ free + list_sum (map snd (used v1)) = N).
Proof.
  intros B hdr N K h v0 v1 l H0 H1 L Ei R. destruct (start_sim (B := B) hdr N H0 K H1) as (v & E & S0). rewrite Ei in E. injection E as <-.
  destruct (run_sim hdr N H0 h v0 _ (start_tile hdr N H0 K H1) S0 L) as (v2 & R2 & S2). rewrite R in R2. injection R2 as <- _.
  pose proof (run_tile hdr N H0 h _ (start_tile hdr N H0 K H1) L) as T. rewrite (used_taken _ _ _ S2). repeat split.
  - apply (t_big _ _ _ T (o, c)). rewrite in_app_iff. auto.
  - apply (tile_in hdr N H0 _ (o, c) T). rewrite in_app_iff. auto.
  - intros b. pose proof (t_cov _ _ _ T b) as C. rewrite cover_app in C. destruct (b <? N); lia.
  - exists (list_sum (map snd (chunks (fst (runs hdr (ideal_start N K) h))))), (length (chunks (fst (runs hdr (ideal_start N K) h)))).
    split; [|apply (tile_sum hdr N H0); exact T].
    unfold total_free. pose proof (tile_length hdr N H0 _ T) as TL. rewrite (total_sim hdr H0 v1 (chunks (fst (runs hdr (ideal_start N K) h)))); [reflexivity|lia|exact (s_list _ _ _ S2)].
Qed.
Print Assumptions C262_regions.
(* The handle returned was free, and its region has the size asked for (at least a header); the other
   handles are as before. *)
Theorem C262_allocate : forall (B : Type) (hdr N K n : nat) (h : list (vop B)) v0 v1 l v2 k,
  0 < hdr -> hdr <= N -> all_legal hdr (ideal_start N K) (h ++ [Alloc n]) -> vm_init hdr N K = Ok v0 -> run hdr N v0 h = Ok (v1, l) ->
  do_op hdr N v1 (Alloc n) = Ok (v2, Handle (Some k)) ->
  nth_error (handles v1) k = Some None /\ (exists o, nth_error (handles v2) k = Some (Some (o, Nat.max n hdr))) /\
  (forall j, j <> k -> nth_error (handles v2) j = nth_error (handles v1) j).
Proof.
  intros B hdr N K n h v0 v1 l v2 k H0 H1 L Ei R D. destruct (start_sim (B := B) hdr N H0 K H1) as (v & E & S0). rewrite Ei in E. injection E as <-.
  assert (LL : forall (h : list (vop B)) s k, all_legal hdr s (h ++ k) -> all_legal hdr s h /\ all_legal hdr (fst (runs hdr s h)) k).
  { clear. induction h as [|o h IH]; intros s k; cbn; [tauto|]. intros (Lo & Lr). destruct (IH _ _ Lr) as (La & Lb). split; [tauto|].
    destruct (act hdr s o) as [s1 a]. cbn in *. destruct (runs hdr s1 h). exact Lb. }
  apply LL in L. destruct L as (L & La & _).
  destruct (run_sim hdr N H0 h v0 _ (start_tile hdr N H0 K H1) S0 L) as (w & R2 & S2). rewrite R in R2. injection R2 as <- _.
  pose proof (run_tile hdr N H0 h _ (start_tile hdr N H0 K H1) L) as T. set (s := fst (runs hdr (ideal_start N K) h)) in *. clearbody s.
  destruct (step_sim hdr N H0 v1 s (Alloc n) T S2 La) as (w & D2 & S3). rewrite D in D2. cbn [act] in *.
  destruct (take (at_least hdr n) (chunks s)) as [[p r]|]; [|discriminate]. destruct (free_index (regions s)) as [i|] eqn:Ef; [|discriminate].
  cbn [fst snd] in *. injection D2 as <- <-. apply free_index_spec in Ef.
  rewrite (s_handles _ _ _ S2), (s_handles _ _ _ S3). cbn [regions]. rewrite map_set_nth. split; [rewrite nth_error_map, Ef; reflexivity|].
  assert (k < length (regions s)) as Hlt by (apply nth_error_Some; congruence). rewrite <- (map_length (option_map (fun r => (base r, size r)))) in Hlt. apply Nat.ltb_lt in Hlt.
  split.
  - exists p. rewrite set_nth_nth, Nat.eqb_refl, Hlt. reflexivity.
  - intros j Hj. rewrite set_nth_nth. apply Nat.eqb_neq in Hj. rewrite Hj. reflexivity.
Qed.
Print Assumptions C262_allocate.

Ltac legal_step := vm_compute; lazymatch goal with
  | |- exists r, Some ?x = Some r /\ _ => exists x; repeat split; cbn; try discriminate; lia
  | |- _ => try (intros; discriminate); try (split; [lia || exact I || discriminate|intros; discriminate])
  end.
Ltac legal_history := repeat (cbn [all_legal]; split; [legal_step|]); exact I.
(* Three regions, the middle one freed, its neighbour freed, merged by maint, taken again. *)
Definition vm_story : list (vop nat) :=
  [Alloc 16; Alloc 20; Alloc 5; Store 0 3 7; Store 1 19 8; Free 1; Total; Load 0 3; Free 2; Maint; Total; Alloc 20; Store 1 0 9; Load 1 0; Load 0 3; Total].
Example C261_case : all_legal 16 (ideal_start 128 3) vm_story /\
  snd (runs 16 (ideal_start 128 3) vm_story) =
  [Handle (Some 0); Handle (Some 1); Handle (Some 2); Done; Done; Done; Counts 96 2; Byte 7; Done; Done; Counts 112 2; Handle (Some 1); Done; Byte 9; Byte 7; Counts 92 2].
Proof.
  split; [|vm_compute; reflexivity].
  unfold vm_story. legal_history.
Qed.
Example C262_case : exists v0 v1 l, vm_init 16 128 3 = Ok v0 /\ run 16 128 v0 vm_story = Ok (v1, l) /\ used v1 = [(112, 16); (92, 20)] /\ total_free 16 128 v1 = Ok (92, 2).
Proof. eexists. eexists. eexists. split; [reflexivity|]. split; [vm_compute; reflexivity|]. vm_compute. auto. Qed.

(* C263: an allocation that a chunk just satisfies succeeds.  Refuted: if it is the first of the list the
   program writes through a pointer it never set.  Allocating the whole storage at once is such a case. *)
Theorem C263_exact_fit_refuted : forall (B : Type) (hdr N K n : nat) (h : list (vop B)) v0 o r,
  0 < hdr -> hdr <= N -> all_legal hdr (ideal_start N K) h -> vm_init hdr N K = Ok v0 ->
  chunks (fst (runs hdr (ideal_start N K) h)) = (o, Nat.max n hdr) :: r ->
  run hdr N v0 (h ++ [Alloc n]) = UB.
Proof.
  intros B hdr N K n h v0 o r H0 H1 L Ei Ec. destruct (start_sim (B := B) hdr N H0 K H1) as (v & E & S0). rewrite Ei in E. injection E as <-.
  destruct (run_sim hdr N H0 h v0 _ (start_tile hdr N H0 K H1) S0 L) as (v1 & R & S1). rewrite (run_app _ _ _ _ _ _ _ R), run_one. cbn [do_op].
  pose proof (s_list _ _ _ S1) as Sl. rewrite Ec in Sl. rewrite (alloc_exact hdr N H0 v1 o n r Sl). reflexivity.
Qed.
Print Assumptions C263_exact_fit_refuted.
Corollary C263_whole_storage_refuted : forall (B : Type) (hdr N K : nat) (v0 : vm (B := B)),
  0 < hdr -> hdr <= N -> vm_init hdr N K = Ok v0 -> run hdr N v0 [Alloc N] = UB.
Proof.
  intros B hdr N K v0 H0 H1 Ei. apply (C263_exact_fit_refuted B hdr N K N [] v0 0 [] H0 H1 I Ei). cbn. rewrite Nat.max_l by exact H1. reflexivity.
Qed.
Print Assumptions C263_whole_storage_refuted.
Example C263_case : exists v0 : vm (B := nat), vm_init 16 64 2 = Ok v0 /\ run 16 64 v0 [Alloc 40; Free 0; Alloc 40] = UB.
Proof. eexists. split; [reflexivity|]. vm_compute. reflexivity. Qed.

(* C264: an allocation may leave a chunk of any size.  Refuted: one smaller than a header keeps its header
   in the user's bytes, and writing them breaks the list. *)
Theorem C264_small_rest_refuted : forall (B : Type) (hdr N K n r : nat) (x : B) v0,
  0 < r -> r < hdr -> hdr <= n -> n + r = N -> vm_init hdr N (S K) = Ok v0 -> run hdr N v0 [Alloc n; Store 0 0 x; Total] = UB.
Proof. intros B hdr N K n r x v0 H0 H1 H2 H3 Ei. apply (small_rest hdr N ltac:(lia) v0 n r K x); lia || assumption. Qed.
Print Assumptions C264_small_rest_refuted.
Example C264_case : exists v0 v1, vm_init 16 64 2 = Ok v0 /\ run 16 64 v0 [Alloc 60; Store 0 0 5; Load 0 0] = Ok (v1, [Handle (Some 0); Done; Byte 5]) /\ run 16 64 v0 [Alloc 60; Store 0 0 5; Total] = UB.
Proof. eexists. eexists. split; [reflexivity|]. split; vm_compute; reflexivity. Qed.

(* C265: allocate says so when every handle is in use.  Refuted: it writes through the null handle. *)
Theorem C265_no_handle_refuted : forall (B : Type) (hdr N K n : nat) (h : list (vop B)) v0,
  0 < hdr -> hdr <= N -> all_legal hdr (ideal_start N K) h -> vm_init hdr N K = Ok v0 ->
  free_index (regions (fst (runs hdr (ideal_start N K) h))) = None ->
  take (Nat.max n hdr) (chunks (fst (runs hdr (ideal_start N K) h))) <> None ->
  run hdr N v0 (h ++ [Alloc n]) = UB.
Proof.
  intros B hdr N K n h v0 H0 H1 L Ei Ef Et. destruct (start_sim (B := B) hdr N H0 K H1) as (v & E & S0). rewrite Ei in E. injection E as <-.
  destruct (run_sim hdr N H0 h v0 _ (start_tile hdr N H0 K H1) S0 L) as (v1 & R & S1). rewrite (run_app _ _ _ _ _ _ _ R), run_one. cbn [do_op].
  pose proof (run_tile hdr N H0 h _ (start_tile hdr N H0 K H1) L) as T. pose proof (tile_length hdr N H0 _ T) as TL. unfold allocate.
  replace (if n <? hdr then hdr else n) with (Nat.max n hdr) by (destruct (Nat.ltb_spec n hdr); lia).
  rewrite (alloc_no_handle hdr N H0 _ (chunks (fst (runs hdr (ideal_start N K) h)))); [reflexivity|lia|exact (s_list _ _ _ S1)| |exact Et].
  unfold get_free_handle. rewrite (s_handles _ _ _ S1), scan_map, Ef. reflexivity.
Qed.
Print Assumptions C265_no_handle_refuted.
Example C265_case : all_legal (B := nat) 16 (ideal_start 128 1) [Alloc 16] /\ free_index (regions (fst (runs (B := nat) 16 (ideal_start 128 1) [Alloc 16]))) = None /\
  exists v0 : vm (B := nat), vm_init 16 128 1 = Ok v0 /\ run 16 128 v0 [Alloc 16; Alloc 16] = UB.
Proof.
  split; [|split; [vm_compute; reflexivity|eexists; split; [reflexivity|vm_compute; reflexivity]]].
  legal_history.
Qed.

(* C266: maint can be called over and over.  Refuted: with two chunks of which the first call made one or
   which it put in order, the second call follows a null pointer. *)
Theorem C266_maint_twice_refuted : forall (B : Type) (hdr N K : nat) (h : list (vop B)) v0,
  0 < hdr -> hdr <= N -> all_legal hdr (ideal_start N K) (h ++ [Maint]) -> vm_init hdr N K = Ok v0 ->
  at_phase (fst (runs hdr (ideal_start N K) h)) = Idle ->
  length (chunks (fst (runs hdr (ideal_start N K) h))) = 2 ->
  snd (settle (chunks (fst (runs hdr (ideal_start N K) h)))) = true ->
  run hdr N v0 (h ++ [Maint; Maint]) = UB.
Proof.
  intros B hdr N K h v0 H0 H1 L Ei P1 P2 P3. destruct (start_sim (B := B) hdr N H0 K H1) as (v & E & S0). rewrite Ei in E. injection E as <-.
  assert (LL : forall (h : list (vop B)) s k, all_legal hdr s (h ++ k) -> all_legal hdr s h /\ all_legal hdr (fst (runs hdr s h)) k).
  { clear. induction h as [|o h IH]; intros s k; cbn; [tauto|]. intros (Lo & Lr). destruct (IH _ _ Lr) as (La & Lb). split; [tauto|].
    destruct (act hdr s o) as [s1 a]. cbn in *. destruct (runs hdr s1 h). exact Lb. }
  apply LL in L. destruct L as (L & La & _).
  destruct (run_sim hdr N H0 h v0 _ (start_tile hdr N H0 K H1) S0 L) as (v1 & R & S1). rewrite (run_app _ _ _ _ _ _ _ R).
  pose proof (run_tile hdr N H0 h _ (start_tile hdr N H0 K H1) L) as T. rewrite (maint_twice hdr N H0 v1 _ T S1 La P1); [reflexivity| |exact P2].
  cbn [act]. rewrite P1. destruct (settle _) as [q b]. cbn in P3 |- *. rewrite P3. reflexivity.
Qed.
Print Assumptions C266_maint_twice_refuted.
Example C266_case : all_legal (B := nat) 16 (ideal_start 64 2) [Alloc 16; Free 0; Maint] /\
  exists v0 : vm (B := nat), vm_init 16 64 2 = Ok v0 /\ run 16 64 v0 [Alloc 16; Free 0; Maint; Maint] = UB.
Proof.
  split; [|eexists; split; [reflexivity|vm_compute; reflexivity]].
  legal_history.
Qed.

(* C267: maintenance loses no memory.  Refuted: after a merge the next call re-links the header that was
   merged away, and the chunk it moved is no longer in the list. *)
Theorem C267_maint_loses_refuted : exists v0 v1 l, vm_init 16 80 4 = Ok v0 /\
  run 16 80 v0 ([Alloc 16; Alloc 16; Alloc 16; Alloc 16; Free 3; Free 0; Free 1; Total; Maint; Maint; Total] : list (vop nat)) = Ok (v1, l) /\
  nth_error l 7 = Some (Counts 64 4) /\ nth_error l 10 = Some (Counts 48 2) /\ used v1 = [(32, 16)].
Proof. eexists. eexists. eexists. split; [reflexivity|]. split; [vm_compute; reflexivity|]. vm_compute. auto. Qed.
Print Assumptions C267_maint_loses_refuted.
