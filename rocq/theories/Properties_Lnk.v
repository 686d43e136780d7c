(* The linked lists (C39-C42, C81-C83).  [mem]: the nodes' pointers; [nobody_freed], [clean own]:
   no node has been given back to an allocator (for nodes of the user's); [new_nodes]: all nodes
   are as their constructors leave them.  [walk]: a traversal from begin() to end(). *)
From Verif Require Import Base Lnk_Spec Lnk_Model Lnk_Proofs Lnk_Proofs2.

(* ---- C39: list::intrusive_forward, on nodes with arbitrary pointers in them *)
Theorem C39_intrusive_sequence : forall m ops, nobody_freed m -> fits ops [] ->
  exists m' front, if_run (m, None) ops = Ok (m', front) /\
    (forall fuel, length (seqs ops []) <= fuel -> walk fuel m' front = Ok (seqs ops [])) /\
    (empty front = true <-> seqs ops [] = []) /\
    (forall a t, seqs ops [] = a :: t -> front_of m' front = Ok a) /\
    (forall b, ~ In b (flat_map names ops) -> nxt m' b = nxt m b).
Proof. exact C39_main. Qed.
Print Assumptions C39_intrusive_sequence.
Definition C39_ops := [PushFront 5; PushFront 7; InsertAfter 5 2; InsertAfter 7 9; EraseAfter 9; ReplaceAfter 9 4; PopFront; PushFront 7].
Example C39_case : fits C39_ops [] /\ seqs C39_ops [] = [7; 9; 4] /\ nobody_freed (Mem (fun a => Some (S a)) (fun _ => None) []).
Proof.
  unfold C39_ops. cbn. repeat split; auto; try lia; try congruence.
  - now exists [7], 5, [2].
  - now exists [7], 2, [].
Qed.

(* ---- C40: the forward list with a back pointer.  Excluded: pushing on a list emptied by
   pop_front, and pushing a user's node a second time; both refuted below. *)
Theorem C40_with_back : forall own m ops, new_nodes m -> bfits own ops [] [] ->
  exists s, wb_run own (WB m None None) ops = Ok s /\
    (forall fuel, length (bseqs ops []) <= fuel -> walk fuel (w_mem s) (w_front s) = Ok (bseqs ops [])) /\
    (forall a t, bseqs ops [] = a :: t -> front_of (w_mem s) (w_front s) = Ok a) /\
    (forall t a, bseqs ops [] = t ++ [a] -> back_of s = Ok a).
Proof. exact C40_main. Qed.
Print Assumptions C40_with_back.

(* After any history that empties the list, a pushed element is lost ... *)
Theorem C188_emptied_refuted : forall m ops b, new_nodes m -> bfits false ops [] [] -> ops <> [] -> bseqs ops [] = [] ->
  exists s, wb_run false (WB m None None) (ops ++ [BPushBack b]) = Ok s /\ empty (w_front s) = true /\
    forall fuel, walk fuel (w_mem s) (w_front s) = Ok [].
Proof. exact emptied. Qed.
Print Assumptions C188_emptied_refuted.
(* ... and when the list owns its nodes the back node, already given back, is written. *)
Theorem C188_emptied_own_refuted : forall m ops b, new_nodes m -> bfits true ops [] [] -> ops <> [] -> bseqs ops [] = [] ->
  ~ In b (bnodes ops) -> wb_run true (WB m None None) (ops ++ [BPushBack b]) = UB.
Proof. exact emptied_own. Qed.
Print Assumptions C188_emptied_own_refuted.
(* A node that was in the list before keeps its old link: pushed back again, it closes a cycle. *)
Theorem C188_relinked_refuted : forall m a b, new_nodes m -> a <> b ->
  exists s, wb_run false (WB m None None) [BPushBack a; BPushBack b; BPopFront; BPushBack a] = Ok s /\
    forall fuel, walk fuel (w_mem s) (w_front s) = Diverge.
Proof. exact relinked. Qed.
Print Assumptions C188_relinked_refuted.
Example C40_case :
  let ops := [BPushBack 3; BPushFront 1; BPushBack 4; BPopFront; BPushBack 6] in
  bfits false ops [] [] /\ bfits true ops [] [] /\ bseqs ops [] = [3; 4; 6] /\
  bfits true [BPushBack 3; BPopFront] [] [] /\ bseqs [BPushBack 3; BPopFront] [] = [] /\
  new_nodes (Mem (fun _ => None) (fun _ => None) []).
Proof. cbn. repeat split; auto; try lia; try congruence. Qed.

(* ---- C41: remove_if.  Excluded: lists with two matches side by side. *)
Theorem C41_remove_if : forall own m ops p, clean own m -> fits ops [] -> Forall forward_list_op ops ->
  ~ twins p (seqs ops []) ->
  exists m1 f1 m2 f2, fl_run own (m, None) ops = Ok (m1, f1) /\
    (forall fuel, length (seqs ops []) <= fuel -> remove_if fuel p false m1 f1 = Ok (m2, f2)) /\
    (forall fuel, length (seqs ops []) <= fuel -> walk fuel m2 f2 = Ok (filter (fun x => negb (p x)) (seqs ops []))).
Proof. exact remove_no_twins. Qed.
Print Assumptions C41_remove_if.
(* Whenever two matches are side by side, a match stays in the list. *)
Theorem C189_twins_refuted : forall own m ops p, clean own m -> fits ops [] -> Forall forward_list_op ops ->
  twins p (seqs ops []) ->
  exists m1 f1 m2 f2 l x, fl_run own (m, None) ops = Ok (m1, f1) /\
    (forall fuel, length (seqs ops []) <= fuel -> remove_if fuel p false m1 f1 = Ok (m2, f2)) /\
    (forall fuel, length (seqs ops []) <= fuel -> walk fuel m2 f2 = Ok l) /\ In x l /\ p x = true.
Proof. exact remove_twins. Qed.
Print Assumptions C189_twins_refuted.
(* What remove_if leaves, for every list. *)
Theorem C41_remove_if_leaves : forall own m ops p, clean own m -> fits ops [] -> Forall forward_list_op ops ->
  exists m1 f1 m2 f2, fl_run own (m, None) ops = Ok (m1, f1) /\
    (forall fuel, length (seqs ops []) <= fuel -> remove_if fuel p false m1 f1 = Ok (m2, f2)) /\
    (forall fuel, length (seqs ops []) <= fuel -> walk fuel m2 f2 = Ok (without_every_other p (seqs ops []))) /\
    freed m2 = freed m1.
Proof. exact remove_all_history. Qed.
Print Assumptions C41_remove_if_leaves.
(* first_only *)
Theorem C41_remove_first : forall own m ops p, clean own m -> fits ops [] -> Forall forward_list_op ops ->
  exists m1 f1 m2 f2, fl_run own (m, None) ops = Ok (m1, f1) /\
    remove_if (length (seqs ops [])) p true m1 f1 = Ok (m2, f2) /\
    (forall fuel, length (seqs ops []) <= fuel -> walk fuel m2 f2 = Ok (without_first p (seqs ops []))).
Proof. exact remove_first_history. Qed.
Print Assumptions C41_remove_first.
Definition C41_ops := [PushFront 1; PushFront 4; PushFront 3; PushFront 6; PushFront 8; PushFront 9].
Example C41_case : fits C41_ops [] /\ Forall forward_list_op C41_ops /\
  twins Nat.even (seqs C41_ops []) /\ without_every_other Nat.even (seqs C41_ops []) = [9; 6; 3; 1] /\
  ~ twins (Nat.eqb 3) (seqs C41_ops []).
Proof.
  unfold C41_ops. split; [cbn; repeat split; lia|]. split; [repeat constructor|].
  split; [now exists [9], 8, 6, [3; 4; 1]|]. split; [reflexivity|].
  intros (u & x & y & v & E & Hx & Hy). apply Nat.eqb_eq in Hx, Hy. subst. cbn in E.
  repeat (destruct u as [|? u]; [discriminate|try discriminate; injection E as _ E]).
Qed.

(* ---- C42: the doubly linked list.  Excluded: insert at the end() of a non-empty list. *)
Theorem C42_both_directions : forall m ops, dfits ops [] -> no_end ops [] ->
  exists s, d_run (WB m None None) ops = Ok s /\
    (forall fuel, length (dseqs ops []) <= fuel ->
       walk fuel (w_mem s) (w_front s) = Ok (dseqs ops []) /\
       walk_back fuel (w_mem s) (w_back s) = Ok (rev (dseqs ops []))) /\
    (forall a t, dseqs ops [] = a :: t -> front_of (w_mem s) (w_front s) = Ok a) /\
    (forall t a, dseqs ops [] = t ++ [a] -> back_of s = Ok a).
Proof. exact C42_main. Qed.
Print Assumptions C42_both_directions.
Theorem C190_insert_end_refuted : forall m ops a, dfits ops [] -> no_end ops [] -> dseqs ops [] <> [] ->
  d_run (WB m None None) (ops ++ [DInsert None a]) = UB.
Proof. exact insert_end. Qed.
Print Assumptions C190_insert_end_refuted.
Definition C42_ops := [DInsert None 5; DPushFront 3; DInsert (Some 5) 4; DPushBack 6; DInsert (Some 3) 1].
Example C42_case : dfits C42_ops [] /\ no_end C42_ops [] /\ dseqs C42_ops [] = [1; 3; 4; 5; 6].
Proof. unfold C42_ops. cbn. repeat split; auto; lia. Qed.

(* ---- C81: iterator arithmetic; positions are nth_error l i, end() being nth_error l (length l) *)
Theorem C81_iterator_arithmetic : forall m ops, dfits ops [] -> no_end ops [] ->
  exists s, d_run (WB m None None) ops = Ok s /\ let l := dseqs ops [] in w_front s = nth_error l 0 /\
    forall i k, i + k <= length l ->
      plus (w_mem s) (nth_error l i) k = Ok (nth_error l (i + k)) /\
      (i + k < length l -> minus_assign (w_mem s) (nth_error l (i + k)) k = Ok (nth_error l i)) /\
      (forall fuel, k <= fuel -> distance fuel (w_mem s) (nth_error l (i + k)) (nth_error l i) 0 = Ok k).
Proof. exact arith_main. Qed.
Print Assumptions C81_iterator_arithmetic.
(* it - n calls itself for ever *)
Theorem C215_minus_refuted : forall fuel m it k, minus fuel m it k = Diverge.
Proof. exact minus_diverges. Qed.
Print Assumptions C215_minus_refuted.
Example C81_case : dfits C42_ops [] /\ no_end C42_ops [] /\ 1 + 3 < length (dseqs C42_ops []).
Proof. unfold C42_ops. cbn. repeat split; auto; lia. Qed.

(* ---- C82: forward_list, with nodes of its own or of the user's *)
Theorem C82_forward_list_sequence : forall own m ops, clean own m -> fits ops [] -> Forall forward_list_op ops ->
  exists m' front, fl_run own (m, None) ops = Ok (m', front) /\
    (forall fuel, length (seqs ops []) <= fuel -> walk fuel m' front = Ok (seqs ops [])) /\
    (empty front = true <-> seqs ops [] = []) /\
    (forall a t, seqs ops [] = a :: t -> front_of m' front = Ok a).
Proof. exact fl_main. Qed.
Print Assumptions C82_forward_list_sequence.
Definition C82_ops := [PushFront 5; PushFront 7; InsertAfter 5 2; InsertAfter 7 9; EraseAfter 9; PopFront; PushFront 7].
Example C82_case : fits C82_ops [] /\ Forall forward_list_op C82_ops /\ seqs C82_ops [] = [7; 9; 2] /\
  clean true (Mem (fun a => Some (S a)) (fun _ => None) [8]).
Proof.
  unfold C82_ops. split; [|split; [repeat constructor|split; [reflexivity|discriminate]]].
  cbn. repeat split; auto; try lia; try congruence. now exists [7], 5, [2].
Qed.

(* ---- C83: nodes given back.  pop_front gives back the node it takes out. *)
Theorem C83_pop_releases : forall own m ops, clean own m -> fits ops [] -> Forall forward_list_op ops -> seqs ops [] <> [] ->
  exists m1 f1 m2 f2 a, fl_run own (m, None) ops = Ok (m1, f1) /\ fl_step own (m1, f1) PopFront = Ok (m2, f2) /\
    hd_error (seqs ops []) = Some a /\ freed m2 = if own then a :: freed m1 else freed m1.
Proof. exact pop_releases. Qed.
Print Assumptions C83_pop_releases.
(* erase_after takes its node out of the list and gives nothing back (nor does remove_if:
   C41_remove_if_leaves). *)
Theorem C216_erase_leaks_refuted : forall own m ops u i x v, clean own m -> fits ops [] -> Forall forward_list_op ops ->
  seqs ops [] = u ++ i :: x :: v ->
  exists m1 f1 m2 f2, fl_run own (m, None) ops = Ok (m1, f1) /\ fl_step own (m1, f1) (EraseAfter i) = Ok (m2, f2) /\
    (forall fuel, length (u ++ i :: v) <= fuel -> walk fuel m2 f2 = Ok (u ++ i :: v)) /\ freed m2 = freed m1.
Proof. exact erase_leaks. Qed.
Print Assumptions C216_erase_leaks_refuted.
Example C83_case : fits C82_ops [] /\ Forall forward_list_op C82_ops /\ seqs C82_ops [] = [7] ++ 9 :: 2 :: [].
Proof. split; [apply C82_case|]. split; [apply C82_case|reflexivity]. Qed.
