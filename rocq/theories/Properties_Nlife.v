From Verif Require Import Base Lnk_Spec Lnk_Model Lnk_Proofs Lnk_Proofs2 Nlife_Spec Nlife_Model Nlife_Proofs Properties_Lnk.
Local Open Scope res_scope.

(* ---- C422: lists with nodes of their own hold the values put in, one object per value *)
Theorem C422_forward_list_values : forall V m (h : list (lop * V)),
  fits (links h) [] -> Forall forward_list_op (links h) ->
  exists s, f_run (n_init (m, None)) h = Ok s /\ made s = puts adds h /\
    forall fuel, length (seqs (links h) []) <= fuel ->
      exists vs, f_values fuel s = Ok vs /\
        map Some vs = map (fun a => value_of adds h a None) (seqs (links h) []).
Proof.
  intros V m h F K. destruct (forward_main m h F K) as (s & R & _ & _ & M & W). eauto.
Qed.
Print Assumptions C422_forward_list_values.
Theorem C422_list_values : forall V m (h : list (dop * V)),
  dfits (links h) [] -> no_end (links h) [] ->
  exists s, l_run (n_init (WB m None None)) h = Ok s /\ made s = puts dadds h /\
    forall fuel, length (dseqs (links h) []) <= fuel ->
      exists vs, l_values fuel s = Ok vs /\
        map Some vs = map (fun a => value_of dadds h a None) (dseqs (links h) []).
Proof.
  intros V m h F K. destruct (list_main m h F K) as (s & R & _ & _ & M & W). eauto.
Qed.
Print Assumptions C422_list_values.
(* node 7 is popped, and used again for another value *)
Definition C422_h := combine C82_ops [50; 70; 20; 90; 0; 0; 71].
Definition C422_dh := combine C42_ops [50; 30; 40; 60; 10].
Definition C422_m := Mem (fun a => Some (S a)) (fun _ => None) [8].
Example C422_case :
  (fits (links C422_h) [] /\ Forall forward_list_op (links C422_h) /\
   (s <- f_run (n_init (C422_m, None)) C422_h ;; vs <- f_values 3 s ;; Ok (vs, made s)) = Ok ([71; 90; 20], 5)) /\
  (dfits (links C422_dh) [] /\ no_end (links C422_dh) [] /\
   (s <- l_run (n_init (WB C422_m None None)) C422_dh ;; vs <- l_values 9 s ;; Ok (vs, made s)) =
     Ok ([10; 30; 40; 50; 60], 5)).
Proof.
  split; [split; [apply C82_case|split; [apply C82_case|]]|split; [apply C42_case|split; [apply C42_case|]]];
    vm_compute; reflexivity.
Qed.

(* ---- C423: the elements' destructors.  None ever runs. *)
Theorem C423_forward_list_refuted : forall V m (h : list (lop * V)),
  fits (links h) [] -> Forall forward_list_op (links h) ->
  exists s, f_run (n_init (m, None)) h = Ok s /\ died (n_end s) = [] /\ made (n_end s) = puts adds h.
Proof.
  intros V m h F K. destruct (forward_main m h F K) as (s & R & _ & D & M & _). eauto.
Qed.
Print Assumptions C423_forward_list_refuted.
Theorem C423_list_refuted : forall V m (h : list (dop * V)),
  dfits (links h) [] -> no_end (links h) [] ->
  exists s, l_run (n_init (WB m None None)) h = Ok s /\ died (n_end s) = [] /\ made (n_end s) = puts dadds h.
Proof.
  intros V m h F K. destruct (list_main m h F K) as (s & R & _ & D & M & _). eauto.
Qed.
Print Assumptions C423_list_refuted.
(* nor are the nodes still in the list given back at its end *)
Theorem C423_nodes_refuted : forall V m (h : list (lop * V)),
  fits (links h) [] -> Forall forward_list_op (links h) ->
  exists s, f_run (n_init (m, None)) h = Ok s /\
    forall a, In a (seqs (links h) []) -> is_freed (fst (lk (n_end s))) a = false.
Proof.
  intros V m h F K. destruct (forward_main m h F K) as (s & R & C & _). exists s. split; [exact R|].
  apply (l_ok _ _ _ C).
Qed.
Print Assumptions C423_nodes_refuted.
Example C423_case : puts adds C422_h = 5 /\ puts dadds C422_dh = 5 /\ seqs (links C422_h) [] <> [].
Proof. repeat split; discriminate. Qed.

(* ---- C424: a copy of a forward_list.  Whatever is in it, pop_front on one leaves the other with
   a node that has been given back: its pop_front and its traversal are undefined. *)
Theorem C424_copy_refuted : forall V m (h : list (lop * V)),
  fits (links h) [] -> Forall forward_list_op (links h) -> seqs (links h) [] <> [] ->
  exists s, f_run (n_init (m, None)) h = Ok s /\
    let copy := snd (lk s) in
    exists s1 f1, pop_on s (snd (lk s)) = Ok (s1, f1) /\ pop_on s1 copy = UB /\
      forall fuel, walk (S fuel) (fst (lk s1)) copy = UB.
Proof.
  intros V m h F K N. destruct (forward_main m h F K) as (s & R & C & _). exists s. split; [exact R|].
  apply (copy_pop s _ C N).
Qed.
Print Assumptions C424_copy_refuted.
Example C424_case : fits (links C422_h) [] /\ Forall forward_list_op (links C422_h) /\ seqs (links C422_h) [] <> [].
Proof. split; [apply C82_case|]. split; [apply C82_case|discriminate]. Qed.
