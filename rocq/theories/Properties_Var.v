(* C90-C94: variant. *)
From Verif Require Import Base Vst_Model Var_Model Var_Spec Vst_Proofs Var_Proofs.
Local Open Scope prog_scope.

(* ---------- C90: histories ---------- *)

(* Any legal program over variant variables, starting from nothing, runs to its end without
   exception, abort or undefined behaviour; afterwards every variable holds what the program
   says, index_ tells the truth, and every object made is destroyed or still held. *)
Theorem C90_history {V} (alts : list alt) (mvd : nat -> V -> V) n ops :
  distinct alts ->
  all_legal alts mvd (repeat None n) ops ->
  exists w, run_vops alts mvd ops (World (repeat None n) []) = Val tt w /\
    shows alts w (effects alts mvd (repeat None n) ops).
Proof. intros Hd L. apply run_history; auto. apply shows_start. Qed.

(* Once all variables are gone, each alternative has been destroyed as often as it was made. *)
Theorem C90_no_leak {V} (alts : list alt) (mvd : nat -> V -> V) n ops :
  distinct alts ->
  all_legal alts mvd (repeat None n) ops ->
  (forall k, lookup (effects alts mvd (repeat None n) ops) k = None) ->
  exists w, run_vops alts mvd ops (World (repeat None n) []) = Val tt w /\
    forall i, made (w_log w) i = dead (w_log w) i.
Proof.
  intros Hd L Hn. destruct (C90_history alts mvd n ops Hd L) as (w & R & S1).
  exists w. split; [exact R|]. intros i. destruct S1 as (_ & _ & _ & B). rewrite B, holding_none by exact Hn. lia.
Qed.

(* One operation at a time, from any honest state. *)
Theorem C90_step {V} (alts : list alt) (mvd : nat -> V -> V) s w p :
  distinct alts -> shows alts w s -> legal alts s p ->
  exists w', run_vop alts mvd p w = Val tt w' /\ shows alts w' (effect alts mvd s p).
Proof. intros. now apply run_step. Qed.

(* Construction by type makes that alternative. *)
Theorem C90_construct_by_type {V} (alts : list alt) s k i a (v : V) w :
  distinct alts -> shows alts w s -> nth_error s k = Some None -> nth_error alts i = Some a ->
  exists w', var_in_place_type alts k (a_type a) (ret v) w = Val tt w' /\ shows alts w' (upd s k (Some (Some (i, v)))).
Proof.
  intros D S K A. unfold var_in_place_type. rewrite (select_distinct alts i a D A).
  apply run_new; auto. apply nth_error_Some. congruence.
Qed.

(* Copying a variant whose alternative is not copy constructible is accepted (before C++20)
   and yields a variable that claims to hold it but does not. *)
Theorem C221_copy_uncopyable_refuted {V} (alts : list alt) s k src i (v : V) w :
  shows alts w s -> nth_error s k = Some None -> lookup s src = Some (Some (i, v)) ->
  trait alts a_copyable i = false -> trait alts a_trivial i = false ->
  exists w', var_copy alts k src w = Val tt w' /\ broken alts w' k i.
Proof. intros. eapply copy_uncopyable; eassumption. Qed.

Definition two : list alt := [Alt 10 true true true true; Alt 11 false true true true].
Definition ops1 : list (vop Z) :=
  [VNew 0 0 5; VCopy 1 0; VEmplace 1 1 7; VCopyAssign 0 1; VAssign 0 0 9; VMove 2 1;
   VMoveAssign 1 0; VDestroy 0; VDestroy 1; VDestroy 2]%Z.
Example C90_case :
  distinct two /\ all_legal two (fun _ v => v) (repeat None 3) ops1 /\
  run_vops two (fun _ v => v) ops1 (World (repeat None 3) []) =
    Val tt (World [None; None; None]
      [Made 0 5; Made 0 5; Dead 0 5; Made 1 7; Dead 0 5; Made 1 7; Dead 1 7; Made 0 9; Made 1 7; Dead 1 7;
       Made 0 9; Dead 0 9; Dead 0 9; Dead 1 7]%Z).
Proof.
  split; [|split].
  - repeat constructor; cbn; intuition discriminate.
  - cbn. unfold alt_exists, can_copy. cbn. repeat split; try discriminate; try lia;
      intros i v [= <- <-]; reflexivity.
  - vm_compute. reflexivity.
Qed.

(* ---------- C91: access ---------- *)

Theorem C91_access {V} (alts : list alt) s k x (w : world V (option nat)) :
  shows alts w s -> lookup s k = Some x ->
  var_index k w = Val (option_map fst x) w /\
  var_valueless k w = Val (match x with None => true | Some _ => false end) w /\
  (forall i, var_get_if k i w =
     Val (match x with Some (j, v) => if Nat.eqb j i then Some v else None | None => None end) w) /\
  (forall i, var_get k i w =
     match x with Some (j, v) => if Nat.eqb j i then Val v w else Thrown w | None => Thrown w end).
Proof. apply access. Qed.

Theorem C91_access_by_type {V} (alts : list alt) s k x (w : world V (option nat)) i a :
  shows alts w s -> lookup s k = Some x -> distinct alts -> nth_error alts i = Some a ->
  var_holds alts k (a_type a) w = Val (match x with Some (j, _) => Nat.eqb j i | None => false end) w /\
  var_get_type alts k (a_type a) w =
    match x with Some (j, v) => if Nat.eqb j i then Val v w else Thrown w | None => Thrown w end.
Proof. apply access_type. Qed.

Definition w5 : world Z (option nat) := World [Some (Obj (Live 1 5%Z) (Some 1)); Some (Obj Raw None); None] [Made 1 5%Z].
Definition s5 : vars Z := [Some (Some (1, 5%Z)); Some None; None].
Lemma shows5 : shows two w5 s5.
Proof.
  split; [reflexivity|]. split; [repeat constructor|]. split.
  - intros [|[|[|k]]] i v H; try discriminate.
    + cbn in H. injection H as <- <-. cbn. lia.
    + unfold lookup in H. cbn in H. destruct k; discriminate.
  - intros i. cbn. destruct i as [|[|i]]; reflexivity.
Qed.
Example C91_case :
  shows two w5 s5 /\ lookup s5 0 = Some (Some (1, 5%Z)) /\
  var_get 0 1 w5 = Val 5%Z w5 /\ var_get 0 0 w5 = Thrown w5 /\ var_get_type two 0 11 w5 = Val 5%Z w5.
Proof. split; [exact shows5|]. repeat split. Qed.

(* ---------- C92: exceptions and self-assignment ---------- *)

(* A constructor that throws during emplace leaves the variable valueless. *)
Theorem C92_emplace_throws {V} (alts : list alt) s k i a args (w : world V (option nat)) :
  shows alts w s -> lookup s k <> None -> nth_error alts i = Some a -> throws args ->
  exists w', var_emplace alts k i args w = Thrown w' /\ shows alts w' (upd s k (Some None)).
Proof. apply emplace_throws. Qed.

(* A constructor that throws while the variant is being constructed leaves nothing behind. *)
Theorem C92_construct_throws {V} (alts : list alt) s k i args (w : world V (option nat)) :
  shows alts w s -> nth_error s k = Some None -> throws args -> var_in_place k i args w = Thrown w.
Proof. apply new_throws. Qed.

(* An exception during assignment of a value: harmless if the variant is valueless ... *)
Theorem C92_assign_throws_valueless {V} (alts : list alt) s k i u (w : world V (option nat)) :
  shows alts w s -> lookup s k = Some None ->
  least (fun i => c_constructible (u i) = true) (length alts) i ->
  c_convertible (u i) = true -> throws (c_value (u i)) ->
  var_assign_value alts k u w = Thrown w.
Proof. apply assign_throws_empty. Qed.
(* ... or holds the assigned alternative and that is assignable ... *)
Theorem C92_assign_throws_same {V} (alts : list alt) s k v0 i u (w : world V (option nat)) :
  shows alts w s -> lookup s k = Some (Some (i, v0)) ->
  least (fun i => c_constructible (u i) = true) (length alts) i ->
  c_assignable (u i) = true -> throws (c_value (u i)) ->
  var_assign_value alts k u w = Thrown w.
Proof. apply assign_throws_same. Qed.
(* ... otherwise the old object is gone and index_ still claims it: any further use of it,
   and the destructor, is undefined behaviour. *)
Theorem C222_assign_throws_other_refuted {V} (alts : list alt) s k j v0 i u (w : world V (option nat)) :
  shows alts w s -> lookup s k = Some (Some (j, v0)) -> trait alts a_trivial j = false ->
  least (fun i => c_constructible (u i) = true) (length alts) i -> i <> j ->
  c_convertible (u i) = true -> throws (c_value (u i)) ->
  exists w', var_assign_value alts k u w = Thrown w' /\ broken alts w' k j.
Proof. apply assign_throws_other. Qed.
Theorem C222_assign_throws_replace_refuted {V} (alts : list alt) s k v0 i u (w : world V (option nat)) :
  shows alts w s -> lookup s k = Some (Some (i, v0)) -> trait alts a_trivial i = false ->
  least (fun i => c_constructible (u i) = true) (length alts) i ->
  c_assignable (u i) = false -> c_convertible (u i) = true -> throws (c_value (u i)) ->
  exists w', var_assign_value alts k u w = Thrown w' /\ broken alts w' k i.
Proof. apply assign_throws_same_replace. Qed.

(* x = x. *)
Theorem C92_self_assign {V} (alts : list alt) s k i v (w : world V (option nat)) :
  shows alts w s -> lookup s k = Some (Some (i, v)) ->
  trait alts a_copy_assignable i = true -> var_copy_assign alts k k w = Val tt w.
Proof. intros H E. now apply (self_copy_assign alts s k i v w H E). Qed.
Theorem C92_self_assign_valueless {V} (alts : list alt) (mvd : nat -> V -> V) s k (w : world V (option nat)) :
  shows alts w s -> lookup s k = Some None ->
  var_copy_assign alts k k w = Val tt w /\ var_move_assign alts mvd k k w = Val tt w.
Proof. apply self_assign_valueless. Qed.
Theorem C222_self_assign_refuted {V} (alts : list alt) (mvd : nat -> V -> V) s k i v (w : world V (option nat)) :
  shows alts w s -> lookup s k = Some (Some (i, v)) ->
  (trait alts a_copy_assignable i = false -> var_copy_assign alts k k w = Undef) /\
  (trait alts a_move_assignable i = false -> var_move_assign alts mvd k k w = Undef).
Proof.
  intros H E. split; [now apply (self_copy_assign alts s k i v w H E)|].
  now apply (self_move_assign alts mvd s k i v w H E).
Qed.

Definition hostile : nat -> source Z (option nat) :=
  fun i => Src (Nat.eqb i 0) true true (fun w => Thrown w).
Example C92_case :
  shows two w5 s5 /\ lookup s5 0 = Some (Some (1, 5%Z)) /\ trait two a_trivial 1 = false /\
  least (fun i => c_constructible (hostile i) = true) (length two) 0 /\
  throws (c_value (hostile 0)) /\
  (exists w', var_assign_value two 0 hostile w5 = Thrown w' /\ var_destroy two 0 w' = Undef) /\
  (exists w', var_emplace two 0 0 (c_value (hostile 0)) w5 = Thrown w' /\ var_index 0 w' = Val None w') /\
  var_copy_assign two 0 0 w5 = Val tt w5.
Proof.
  split; [exact shows5|]. split; [reflexivity|]. split; [reflexivity|].
  split; [split; [cbn; lia|split; [reflexivity|intros; lia]]|]. split; [intros w; reflexivity|].
  split; [eexists; split; [reflexivity|reflexivity]|]. split; [eexists; split; reflexivity|]. reflexivity.
Qed.

(* ---------- C93: which alternative ---------- *)

(* The converting constructor and x = u choose the first alternative constructible from u. *)
Theorem C93_converting_constructor {V} (alts : list alt) s k i v u (w : world V (option nat)) :
  shows alts w s -> nth_error s k = Some None ->
  least (fun i => c_constructible (u i) = true) (length alts) i -> makes (c_value (u i)) v ->
  exists w', var_converting alts k u w = Val tt w' /\ shows alts w' (upd s k (Some (Some (i, v)))).
Proof. apply converting_run. Qed.
Theorem C93_converting_assignment {V} (alts : list alt) s k i v u (w : world V (option nat)) :
  shows alts w s -> lookup s k <> None ->
  least (fun i => c_constructible (u i) = true) (length alts) i ->
  c_convertible (u i) = true -> makes (c_value (u i)) v ->
  exists w', var_assign_value alts k u w = Val tt w' /\ shows alts w' (upd s k (Some (Some (i, v)))).
Proof. apply assign_run_any. Qed.

(* It is not the alternative of u's own type when an earlier one is constructible from u. *)
Theorem C223_best_match_refuted {V} (alts : list alt) s k i j v u (w : world V (option nat)) :
  shows alts w s -> nth_error s k = Some None -> i < j ->
  least (fun i => c_constructible (u i) = true) (length alts) i ->
  c_constructible (u j) = true ->      (* the exact match *)
  makes (c_value (u i)) v ->
  exists w', var_converting alts k u w = Val tt w' /\ var_index k w' = Val (Some i) w' /\ Some i <> Some j.
Proof.
  intros H Hk Hij Hl Hj Hv. destruct (converting_run alts s k i v u w H Hk Hl Hv) as (w' & R & S1).
  exists w'. split; [exact R|]. split; [|intros [= E]; lia].
  destruct (C91_access alts _ k (Some (i, v)) w' S1) as (A & _).
  - rewrite lookup_upd, Nat.eqb_refl. apply nth_lt in Hk. now destruct (Nat.ltb_spec k (length s)); [|lia].
  - exact A.
Qed.

(* Constructible but not convertible (explicit constructor): assignment aborts the program. *)
Theorem C223_explicit_refuted {V} (alts : list alt) s k j v0 i u (w : world V (option nat)) :
  shows alts w s -> lookup s k = Some (Some (j, v0)) ->
  least (fun i => c_constructible (u i) = true) (length alts) i -> i <> j ->
  c_convertible (u i) = false -> var_assign_value alts k u w = Abort.
Proof. apply assign_aborts. Qed.

(* emplace<i> holds alternative i, when its type appears nowhere before. *)
Theorem C93_emplace {V} (alts : list alt) s k i a (v : V) w :
  shows alts w s -> lookup s k <> None -> nth_error alts i = Some a ->
  (forall m b, m < i -> nth_error alts m = Some b -> a_type b <> a_type a) ->
  exists w', var_emplace alts k i (ret v) w = Val tt w' /\ shows alts w' (upd s k (Some (Some (i, v)))).
Proof.
  intros H Hk Ha Hm. eapply run_emplace_first; eauto. apply first_of_type_least.
  exists i. split; [reflexivity|]. split; [exists a; auto|exact Hm].
Qed.
(* If the same type appears earlier, at j, then emplace<i> holds alternative j instead. *)
Theorem C223_emplace_duplicate_refuted {V} (alts : list alt) s k i j a b (v : V) w :
  shows alts w s -> lookup s k <> None -> nth_error alts i = Some a ->
  least (fun m => exists c, nth_error alts m = Some c /\ a_type c = a_type a) (length alts) j ->
  nth_error alts j = Some b -> j <> i ->
  exists w', var_emplace alts k i (ret v) w = Val tt w' /\ shows alts w' (upd s k (Some (Some (j, v)))) /\
    var_get k i w' = Thrown w'.
Proof.
  intros H Hk Ha (Hj & (c & Hc & Tc) & Hm) Hb Hne.
  destruct (run_emplace_first alts s k i j a v w H Hk Ha) as (w' & R & S1).
  - apply first_of_type_least. exists j. split; [reflexivity|]. split; [exists c; auto|].
    intros m d Hmj Hd Td. apply (Hm m Hmj). exists d; auto.
  - exists w'. split; [exact R|]. split; [exact S1|].
    destruct (C91_access alts _ k (Some (j, v)) w' S1) as (_ & _ & _ & G).
    + rewrite lookup_upd, Nat.eqb_refl. assert (k < length s).
      { unfold lookup in Hk. destruct (nth_error s k) eqn:E; [eapply nth_lt; exact E|contradiction]. }
      now destruct (Nat.ltb_spec k (length s)); [|lia].
    + rewrite G. now destruct (Nat.eqb_spec j i).
Qed.

Definition dup : list alt := [Alt 10 true true true true; Alt 11 false true true true; Alt 10 true true true true].
Definition soft : nat -> source Z (option nat) := fun i => Src true (Nat.eqb i 0) true (ret 3%Z).
Definition stiff : nat -> source Z (option nat) := fun i => Src (Nat.eqb i 0) false true (ret 3%Z).
Example C93_case :
  shows two w5 s5 /\ nth_error s5 2 = Some None /\
  least (fun i => c_constructible (soft i) = true) (length two) 0 /\ c_constructible (soft 1) = true /\
  (exists w', var_converting two 2 soft w5 = Val tt w' /\ var_index 2 w' = Val (Some 0) w') /\
  (exists w', var_emplace dup 0 2 (ret 4%Z) w5 = Val tt w' /\ var_index 0 w' = Val (Some 0) w') /\
  var_assign_value two 0 stiff w5 = Abort.
Proof.
  split; [exact shows5|]. split; [reflexivity|].
  split; [split; [cbn; lia|split; [reflexivity|intros; lia]]|]. split; [reflexivity|].
  split; [eexists; split; reflexivity|]. split; [eexists; split; reflexivity|]. reflexivity.
Qed.

(* ---------- C94: visiting ---------- *)

(* visit_index runs the functor exactly once, on the held alternative, and reports it. *)
Theorem C94_visit_index {V} (alts : list alt) s k x (w : world V (option nat)) f :
  shows alts w s -> lookup s k = Some x ->
  var_visit_index alts k f w =
    match x with
    | Some (i, _) => match f i w with
                     | Val b w' => Val (if b : bool then Some i else None) w'
                     | Thrown w' => Thrown w' | Abort => Abort | Undef => Undef
                     end
    | None => Val None w
    end.
Proof. apply visit_index_held. Qed.

(* visit starts with the first alternative, whatever is held: a functor that reads what it is
   given is undefined behaviour unless that alternative is the held one. *)
Theorem C224_visit_refuted {V} (alts : list alt) s k x (w : world V (option nat)) :
  shows alts w s -> lookup s k = Some x -> alts <> [] ->
  var_visit alts k (fun i => v <- read_alt k i ;; ret true) w =
  match x with Some (0, _) => Val (Some 0) w | _ => Undef end.
Proof. apply visit_reads. Qed.
Theorem C224_visit_first_refuted {V} (alts : list alt) s k x (w w' : world V (option nat)) f :
  shows alts w s -> lookup s k = Some x -> alts <> [] ->
  f 0 w = Val true w' -> var_visit alts k f w = Val (Some 0) w'.
Proof. intros H E Hn. now apply (visit_first alts s k x w f w' H E Hn). Qed.

Example C94_case :
  shows two w5 s5 /\ lookup s5 0 = Some (Some (1, 5%Z)) /\ two <> [] /\
  var_visit_index two 0 (fun i => v <- read_alt 0 i ;; ret (Z.eqb v 5)) w5 = Val (Some 1) w5 /\
  var_visit two 0 (fun i => v <- read_alt 0 i ;; ret true) w5 = Undef.
Proof. split; [exact shows5|]. repeat split. discriminate. Qed.

Print Assumptions C90_history.
Print Assumptions C90_no_leak.
Print Assumptions C90_step.
Print Assumptions C90_construct_by_type.
Print Assumptions C221_copy_uncopyable_refuted.
Print Assumptions C91_access.
Print Assumptions C91_access_by_type.
Print Assumptions C92_emplace_throws.
Print Assumptions C92_construct_throws.
Print Assumptions C92_assign_throws_valueless.
Print Assumptions C92_assign_throws_same.
Print Assumptions C222_assign_throws_other_refuted.
Print Assumptions C222_assign_throws_replace_refuted.
Print Assumptions C92_self_assign.
Print Assumptions C92_self_assign_valueless.
Print Assumptions C222_self_assign_refuted.
Print Assumptions C93_converting_constructor.
Print Assumptions C93_converting_assignment.
Print Assumptions C223_best_match_refuted.
Print Assumptions C223_explicit_refuted.
Print Assumptions C93_emplace.
Print Assumptions C223_emplace_duplicate_refuted.
Print Assumptions C94_visit_index.
Print Assumptions C224_visit_refuted.
Print Assumptions C224_visit_first_refuted.
