(* layer1::deque and queue (C19-C22).  [triv]: the elements are of trivial type, so that
   assigning to a destroyed element is defined.  [do_ops]: a history of calls. *)
From Verif Require Import Base Deque_Spec Deque_Model Deque_Proofs.

(* ---- C19: every history within the capacity behaves like the sequence: trivial elements, or
   elements pushed by move or emplace only.  Excluded: push_back(const&) and push_front of
   elements with destructors, see the refutation. *)
Theorem C19_deque_sequence : forall A triv N (d : A) ops, 0 < N -> (triv = true \/ Forall constructs ops) ->
  history_ok N ops [] ->
  exists q, do_ops triv ops (dq_init N d) = Ok q /\
  let l := seq_run ops [] in
  dq_empty q = (match l with [] => true | _ => false end) /\ dq_size q = length l /\
  (forall x l', l = x :: l' -> dq_front triv q = Ok x) /\
  (forall x l', l = l' ++ [x] -> dq_back triv q = Ok x).
Proof. exact (fun A => @C19_main A). Qed.
Print Assumptions C19_deque_sequence.

(* For every capacity: N times push and pop, then push_back(const&) assigns to a destroyed
   object. *)
Theorem C174_reuse_refuted : forall A N (d v w : A), 0 < N ->
  history_ok N (concat (repeat [PushBackMove v; PopFront] N) ++ [PushBack w]) [] /\
  do_ops false (concat (repeat [PushBackMove v; PopFront] N) ++ [PushBack w]) (dq_init N d) = UB.
Proof. exact (fun A => @C19_reuse A). Qed.
Print Assumptions C174_reuse_refuted.

(* the queue: the n-th pop takes the n-th value pushed *)
Theorem C19_fifo : forall A triv N (d : A) ops, 0 < N -> (triv = true \/ Forall qconstructs ops) -> within N ops ->
  exists q, q_run triv ops (dq_init N d) = Ok (firstn (pops ops) (pushed ops), q) /\
    dq_size q = length (pushed ops) - pops ops /\
    (forall x, nth_error (pushed ops) (pops ops) = Some x -> dq_front triv q = Ok x).
Proof. exact (fun A => @C19_fifo_lemma A). Qed.
Print Assumptions C19_fifo.
Example C19_fifo_case :
  let ops := [QPush 1; QPushMove 2; QPop; QEmplace 3; QPop; QPush 4] in
  within 2 ops /\ firstn (pops ops) (pushed ops) = [1; 2].
Proof.
  cbv zeta. split; [|reflexivity]. intros a o b E.
  repeat (destruct a as [|? a]; [injection E as <- <-; cbn; lia|injection E as <- E]). now destruct a.
Qed.

Example C19_case :
  let ops := [PushBack 1; PushBack 2; PushFront 0; PopBack; PushBack 5; PushBack 6; PopFront; PushBack 7] in
  history_ok 4 ops [] /\ seq_run ops [] = [1; 5; 6; 7] /\ history_ok 3 [EmplaceBack 1; PopFront] [] /\
  Forall constructs [EmplaceBack 1; PopFront].
Proof. cbn. repeat split; repeat constructor; discriminate. Qed.

(* ---- C20: begin()..end() enumerates the elements in order, and backwards, unless the deque
   is full. *)
Theorem C20_iteration : forall A triv N (d : A) ops, 0 < N -> (triv = true \/ Forall constructs ops) ->
  history_ok N ops [] -> length (seq_run ops []) < N ->
  exists q, do_ops triv ops (dq_init N d) = Ok q /\ iterate triv q = Ok (seq_run ops []) /\
    iterate_back triv q = Ok (rev (seq_run ops [])).
Proof. exact (fun A => @C20_iter A). Qed.
Print Assumptions C20_iteration.

(* A full deque enumerates nothing. *)
Theorem C175_full_refuted : forall A triv N (d : A) ops, 0 < N -> (triv = true \/ Forall constructs ops) ->
  history_ok N ops [] -> length (seq_run ops []) = N ->
  exists q, do_ops triv ops (dq_init N d) = Ok q /\ dq_size q = N /\ iterate triv q = Ok [].
Proof. exact (fun A => @C20_full A). Qed.
Print Assumptions C175_full_refuted.

Example C20_case :
  exists q, do_ops true [PushBack 1; PushBack 2; PopFront; PushBack 3; PushBack 4; PopFront] (dq_init 3 0) = Ok q /\
    iterate true q = Ok [3; 4] /\ iterate_back true q = Ok [4; 3] /\
    mback q < mfront q.
Proof. eexists. split; [vm_compute; reflexivity|]. split; [vm_compute; reflexivity|]. split; [vm_compute; reflexivity|cbn; auto]. Qed.

(* ---- C21: no refusal.  Pushing onto a full deque reports success, and the deque then has one
   element. *)
Theorem C21_push_full_refuted : forall A N (d v : A) ops, 1 < N -> history_ok N ops [] ->
  length (seq_run ops []) = N ->
  exists q q', do_ops true ops (dq_init N d) = Ok q /\ push_back true q v = Ok (true, q') /\ dq_size q' = 1.
Proof. exact (fun A => @C21_push A). Qed.
Print Assumptions C21_push_full_refuted.

(* Popping from an empty deque reports success, and after the next push the deque claims to be
   full. *)
Theorem C21_pop_empty_refuted : forall A N (d v : A) ops, 1 < N -> history_ok N ops [] -> seq_run ops [] = [] ->
  exists q q1 q2, do_ops true ops (dq_init N d) = Ok q /\ pop_front true q = Ok (true, q1) /\
    push_back true q1 v = Ok (true, q2) /\ dq_size q2 = N.
Proof. exact (fun A => @C21_pop A). Qed.
Print Assumptions C21_pop_empty_refuted.

Example C21_case : history_ok 2 [PushBack 1; PushBack 2] [] /\ length (seq_run [PushBack 1; PushBack 2] []) = 2 /\
  history_ok 2 [PushBack 1; PopBack] [] /\ seq_run [PushBack 1; PopBack] [] = [].
Proof. cbn. repeat split; auto; discriminate. Qed.

(* ---- C22: push_front makes v the front; size grows by one and the back stays. *)
Theorem C22_push_front : forall A N (d v : A) ops, 0 < N -> history_ok N ops [] -> length (seq_run ops []) < N ->
  exists q q', do_ops true ops (dq_init N d) = Ok q /\ push_front true q v = Ok (true, q') /\
    dq_front true q' = Ok v /\ dq_size q' = S (dq_size q) /\
    forall x l', seq_run ops [] = l' ++ [x] -> dq_back true q' = Ok x.
Proof. exact (fun A => @C22_main A). Qed.
Print Assumptions C22_push_front.
(* The rest is as before: iterating shows v and then the earlier elements (a full deque cannot be
   iterated, C175), and taking v out again leaves the earlier deque. *)
Theorem C22_rest_unchanged : forall A N (d v : A) ops, 0 < N -> history_ok N ops [] -> length (seq_run ops []) < N ->
  exists q q' q2, do_ops true ops (dq_init N d) = Ok q /\ push_front true q v = Ok (true, q') /\
    (S (length (seq_run ops [])) < N -> iterate true q' = Ok (v :: seq_run ops [])) /\
    pop_front true q' = Ok (true, q2) /\ iterate true q2 = Ok (seq_run ops []) /\ dq_size q2 = dq_size q.
Proof. exact (fun A => @C22_rest A). Qed.
Print Assumptions C22_rest_unchanged.

(* emplace_front(v) on a deque x :: l': the size grows by one, but behind the new front comes
   v :: l'; the element x is gone. *)
Theorem C176_emplace_front_refuted : forall A N (d v x : A) l' ops, 0 < N -> history_ok N ops [] ->
  seq_run ops [] = x :: l' -> length l' + 1 < N ->
  exists q q' q2, do_ops true ops (dq_init N d) = Ok q /\ emplace_front q v = Ok q' /\
    dq_size q' = 2 + length l' /\ pop_front true q' = Ok (true, q2) /\ iterate true q2 = Ok (v :: l').
Proof. exact (fun A => @C22_emplace A). Qed.
Print Assumptions C176_emplace_front_refuted.

Example C22_case :
  exists q, do_ops true [PushBack 1; PushFront 2; PushFront 3] (dq_init 4 0) = Ok q /\ iterate true q = Ok [3; 2; 1] /\
  exists q', emplace_front q 9 = Ok q' /\ dq_front true q' = Ok 0 /\ dq_size q' = 4.
Proof. eexists. split; [reflexivity|]. split; [reflexivity|]. eexists. repeat split. Qed.
