(* C58, C95-C98: optional. *)
From Verif Require Import Base MachInt Vst_Model Opt_Model Opt_Spec Vst_Proofs Opt_Proofs.
Local Open Scope prog_scope.

(* ---------- C58: histories ---------- *)

(* Any legal program over optionals runs to its end without exception, abort or undefined
   behaviour; afterwards every variable is empty or holds what the program says, has_value()
   tells which, and every value made is destroyed or still held. *)
Theorem C58_history {V} (a : alt) (mvd : V -> V) n ops :
  oall_legal a mvd (repeat None n) ops ->
  exists w, run_oops a mvd ops (World (repeat None n) []) = Val tt w /\
    oshows w (oeffects mvd (repeat None n) ops).
Proof. intros L. apply run_ohistory; auto. apply oshows_start. Qed.

Theorem C58_no_leak {V} (a : alt) (mvd : V -> V) n ops :
  oall_legal a mvd (repeat None n) ops ->
  (forall k, olookup (oeffects mvd (repeat None n) ops) k = None) ->
  exists w, run_oops a mvd ops (World (repeat None n) []) = Val tt w /\ omade (w_log w) = odead (w_log w).
Proof.
  intros L Hn. destruct (C58_history a mvd n ops L) as (w & R & (_ & _ & B)).
  exists w. split; [exact R|]. rewrite B, oholding_none by exact Hn. lia.
Qed.

Theorem C58_step {V} (a : alt) (mvd : V -> V) s w p :
  oshows w s -> olegal a s p ->
  exists w', run_oop a mvd p w = Val tt w' /\ oshows w' (oeffect mvd s p).
Proof. apply run_ostep. Qed.

Definition heavy : alt := Alt 7 false true false true.   (* not trivial, not copy assignable *)
Definition ops1 : list (oop Z) :=
  [ODefault 0; ONew 1 5; OCopyAssign 0 1; OAssign 0 6; OMove 2 1; OCopyAssign 0 2; OReset 1; OEmplace 1 8;
   OMoveAssign 2 1; OCopy 3 2; ODestroy 0; ODestroy 1; ODestroy 2; ODestroy 3]%Z.
Example C58_case :
  oall_legal heavy Z.opp (repeat None 4) ops1 /\
  run_oops heavy Z.opp ops1 (World (repeat None 4) []) =
    Val tt (World [None; None; None; None]
      [Made 0 5; Made 0 5; Made 0 5; Dead 0 6; Made 0 5; Dead 0 (-5); Made 0 8; Made 0 8;
       Dead 0 5; Dead 0 (-8); Dead 0 8; Dead 0 8]%Z).
Proof.
  split.
  - cbn. repeat split; try discriminate; try lia.
  - vm_compute. reflexivity.
Qed.

(* ---------- C95: access ---------- *)

Theorem C95_access {V} s k x (w : world V bool) :
  oshows w s -> olookup s k = Some x ->
  opt_has_value k w = Val (match x with Some _ => true | None => false end) w /\
  opt_value k w = match x with Some v => Val v w | None => Thrown w end /\
  (forall d, opt_value_or k d w = Val (match x with Some v => v | None => d end) w).
Proof. intros H E. destruct (oaccess s k x w H E) as (A & B & _ & D). auto. Qed.
Theorem C95_deref {V} s k v (w : world V bool) :
  oshows w s -> olookup s k = Some (Some v) -> opt_deref k w = Val v w.
Proof. intros H E. now apply (oaccess s k (Some v) w H E). Qed.
Theorem C95_hash {V H} (h : V -> H) s k v (w : world V bool) :
  oshows w s -> olookup s k = Some (Some v) -> opt_hash h k w = Val (h v) w.
Proof. intros Hs E. exact (ohash s k (Some v) w h Hs E). Qed.
(* An empty optional cannot be hashed: the missing value is read. *)
Theorem C225_hash_empty_refuted {V H} (h : V -> H) s k (w : world V bool) :
  oshows w s -> olookup s k = Some None -> opt_hash h k w = Undef.
Proof. intros Hs E. exact (ohash s k None w h Hs E). Qed.

Definition w5 : world Z bool := World [Some (Obj (Live 0 5%Z) true); Some (Obj Raw false); None] [Made 0 5%Z].
Definition s5 : opts Z := [Some (Some 5%Z); Some None; None].
Lemma shows5 : oshows w5 s5.
Proof. split; [reflexivity|]. split; [repeat constructor|reflexivity]. Qed.
Example C95_case :
  oshows w5 s5 /\ olookup s5 0 = Some (Some 5%Z) /\ olookup s5 1 = Some None /\
  opt_value 0 w5 = Val 5%Z w5 /\ opt_value 1 w5 = Thrown w5 /\ opt_value_or 1 3%Z w5 = Val 3%Z w5 /\
  opt_hash (fun v => v) 1 w5 = Undef.
Proof. split; [exact shows5|]. repeat split. Qed.

(* ---------- C96: comparison ---------- *)

(* cmp is T's ordering against U; the operators of T are derived from it. *)
Theorem C96_equal {V U} (cmp : V -> U -> comparison) s k x (w : world V bool) u :
  oshows w s -> olookup s k = Some x ->
  opt_eq (fun v u => is_eq (cmp v u)) k u w = Val (is_eq (ocmp cmp x u)) w /\
  opt_ne (fun v u => negb (is_eq (cmp v u))) k u w = Val (negb (is_eq (ocmp cmp x u))) w.
Proof.
  intros H E. split.
  - rewrite (proj1 (ocompare s k x w _ u H E)). now destruct x.
  - rewrite (proj1 (proj2 (ocompare s k x w _ u H E))). now destruct x.
Qed.
Theorem C96_greater {V U} (cmp : V -> U -> comparison) s k x (w : world V bool) u :
  oshows w s -> olookup s k = Some x ->
  opt_rel (fun v u => is_gt (cmp v u)) k u w = Val (is_gt (ocmp cmp x u)) w /\
  opt_rel (fun v u => negb (is_lt (cmp v u))) k u w = Val (negb (is_lt (ocmp cmp x u))) w.
Proof.
  intros H E. split; rewrite (proj2 (proj2 (ocompare s k x w _ u H E))); now destruct x.
Qed.
Theorem C96_less {V U} (cmp : V -> U -> comparison) s k v (w : world V bool) u :
  oshows w s -> olookup s k = Some (Some v) ->
  opt_rel (fun v u => is_lt (cmp v u)) k u w = Val (is_lt (ocmp cmp (Some v) u)) w /\
  opt_rel (fun v u => negb (is_gt (cmp v u))) k u w = Val (negb (is_gt (ocmp cmp (Some v) u))) w.
Proof. intros H E. split; exact (proj2 (proj2 (ocompare s k (Some v) w _ u H E))). Qed.
(* An empty optional is less than every value, but < and <= say it is not. *)
Theorem C226_less_empty_refuted {V U} (cmp : V -> U -> comparison) s k (w : world V bool) u :
  oshows w s -> olookup s k = Some None ->
  opt_rel (fun v u => is_lt (cmp v u)) k u w = Val false w /\ is_lt (ocmp cmp None u) = true /\
  opt_rel (fun v u => negb (is_gt (cmp v u))) k u w = Val false w /\ negb (is_gt (ocmp cmp None u)) = true.
Proof.
  intros H E. split; [exact (proj2 (proj2 (ocompare s k None w _ u H E)))|]. split; [reflexivity|].
  split; [exact (proj2 (proj2 (ocompare s k None w _ u H E)))|]. reflexivity.
Qed.
Theorem C96_equal_optionals {V} (eqb : V -> V -> bool) s k k2 x y (w : world V bool) :
  (forall v v2, eqb v v2 = true <-> v = v2) ->
  oshows w s -> olookup s k = Some x -> olookup s k2 = Some y ->
  exists b, opt_eq_opt eqb k k2 w = Val b w /\ (b = true <-> x = y).
Proof.
  intros He H E E2. rewrite (ocompare_opt s k k2 x y w eqb H E E2). eexists. split; [reflexivity|].
  destruct x as [v|], y as [v2|]; try (split; congruence). rewrite He. split; congruence.
Qed.

Example C96_case :
  oshows w5 s5 /\ olookup s5 0 = Some (Some 5%Z) /\ olookup s5 1 = Some None /\
  opt_rel (fun v u => is_lt (Z.compare v u)) 0 6%Z w5 = Val true w5 /\
  opt_rel (fun v u => is_lt (Z.compare v u)) 1 6%Z w5 = Val false w5 /\
  opt_eq_opt Z.eqb 0 1 w5 = Val false w5.
Proof. split; [exact shows5|]. repeat split. Qed.

(* ---------- C97: exceptions and self-assignment ---------- *)

Theorem C97_construct_throws {V} s k args (w : world V bool) :
  oshows w s -> nth_error s k = Some None -> othrows args -> opt_in_place k args w = Thrown w.
Proof. apply onew_throws. Qed.
(* emplace into an empty optional, and assignment to an empty optional or through T's own
   assignment, leave the optional as it was. *)
Theorem C97_emplace_throws {V} (a : alt) s k args (w : world V bool) :
  oshows w s -> olookup s k = Some None -> othrows args -> opt_emplace a k args w = Thrown w.
Proof. intros H E Ht. now apply (oemplace_throws a s k None args w H E Ht). Qed.
Theorem C97_assign_throws {V} (a : alt) s k x c (w : world V bool) :
  oshows w s -> olookup s k = Some x -> c_convertible c = true -> othrows (c_value c) ->
  x = None \/ c_assignable c = true -> opt_assign_value a k c w = Thrown w.
Proof. intros H E Hc Ht. now apply (oassign_throws a s k x c w H E Hc Ht). Qed.
(* A throwing emplace over an existing value leaves has_value() true with no value alive. *)
Theorem C227_emplace_throws_refuted {V} (a : alt) s k v args (w : world V bool) :
  oshows w s -> olookup s k = Some (Some v) -> othrows args -> a_trivial a = false ->
  exists w', opt_emplace a k args w = Thrown w' /\ obroken a w' k.
Proof. intros H E Ht Hr. apply (oemplace_throws a s k (Some v) args w H E Ht); [discriminate|exact Hr]. Qed.
(* So does a throwing assignment of a T that cannot be assigned. *)
Theorem C227_assign_throws_refuted {V} (a : alt) s k v c (w : world V bool) :
  oshows w s -> olookup s k = Some (Some v) -> c_convertible c = true -> othrows (c_value c) ->
  c_assignable c = false -> a_trivial a = false ->
  exists w', opt_assign_value a k c w = Thrown w' /\ obroken a w' k.
Proof.
  intros H E Hc Ht Ha Hr. apply (oassign_throws a s k (Some v) c w H E Hc Ht); [discriminate|exact Ha|exact Hr].
Qed.
Theorem C97_self_assign {V} (a : alt) s k x (w : world V bool) :
  oshows w s -> olookup s k = Some x -> x = None \/ a_copy_assignable a = true ->
  opt_copy_assign a k k w = Val tt w.
Proof. intros H E. now apply (oself a s k x w H E). Qed.
Theorem C227_self_assign_refuted {V} (a : alt) s k v (w : world V bool) :
  oshows w s -> olookup s k = Some (Some v) -> a_copy_assignable a = false -> a_copyable a = true ->
  opt_copy_assign a k k w = Undef.
Proof. intros H E. apply (oself a s k (Some v) w H E). discriminate. Qed.

Example C97_case :
  oshows w5 s5 /\ olookup s5 0 = Some (Some 5%Z) /\ a_trivial heavy = false /\ a_copy_assignable heavy = false /\
  (exists w', opt_emplace heavy 0 (fun w => Thrown w) w5 = Thrown w' /\ opt_destroy heavy 0 w' = Undef) /\
  opt_emplace heavy 1 (fun w => Thrown w) w5 = Thrown w5 /\ opt_copy_assign heavy 0 0 w5 = Undef.
Proof.
  split; [exact shows5|]. split; [reflexivity|]. split; [reflexivity|]. split; [reflexivity|].
  split; [eexists; split; reflexivity|]. split; reflexivity.
Qed.

(* ---------- C98: layer1::optional ---------- *)

(* The null flavor is an optional of the other values: Some v is held as v, None as null. *)
Theorem C98_null {T} (eqb : T -> T -> bool) (null : T) :
  (forall x y, eqb x y = true <-> x = y) ->
  nul_value eqb null (nul_default null) = None /\
  (forall v, v <> null -> nul_value eqb null (nul_of v) = Some v) /\
  (forall v u, u <> null -> nul_value eqb null (nul_assign v u) = Some u) /\
  (forall v, nul_value eqb null (nul_reset null v) = None) /\
  (forall v, nul_value eqb null (nul_copy v) = nul_value eqb null v) /\
  (forall v w, nul_value eqb null (nul_assign_opt eqb null v w) = nul_value eqb null w) /\
  (forall y, y <> Some null -> nul_value eqb null (nul_from null y) = y) /\
  (forall v d, nul_value_or eqb null v d = match nul_value eqb null v with Some x => x | None => d end) /\
  (forall v, nul_has_value eqb null v = match nul_value eqb null v with Some _ => true | None => false end).
Proof.
  intros He.
  assert (E0 : eqb null null = true) by (now apply He).
  assert (E1 : forall v, v <> null -> eqb v null = false).
  { intros v Hv. destruct (eqb v null) eqn:E; [|reflexivity]. apply He in E. contradiction. }
  unfold nul_value, nul_value_or, nul_has_value, nul_default, nul_of, nul_assign, nul_reset, nul_copy, nul_assign_opt, nul_from.
  repeat split; intros; rewrite ?E0; auto.
  - now rewrite E1.
  - now rewrite E1.
  - unfold nul_has_value. destruct (eqb w null) eqn:E; cbn; unfold nul_reset, nul_assign; rewrite ?E, ?E0; reflexivity.
  - destruct y as [v|]; [|now rewrite E0]. rewrite E1; [reflexivity|congruence].
  - now destruct (eqb v null).
  - now destruct (eqb v null).
Qed.
(* The null value itself cannot be held: storing it empties the optional. *)
Theorem C228_null_lost_refuted {T} (eqb : T -> T -> bool) (null : T) v :
  (forall x y, eqb x y = true <-> x = y) ->
  nul_value eqb null (nul_of null) = None /\ nul_value eqb null (nul_assign v null) = None /\
  nul_value eqb null (nul_from null (Some null)) = None.
Proof.
  intros He. assert (E0 : eqb null null = true) by (now apply He).
  unfold nul_value, nul_has_value, nul_of, nul_assign, nul_from. now rewrite E0.
Qed.

(* The bitwise flavor is an optional of the values that fit the field. *)
Theorem C98_bits (n : Z) :
  (0 <= n)%Z ->
  bit_value bit_default = None /\ bit_has_value bit_default = false /\
  (forall d, bit_value_or bit_default d = Some d) /\
  (forall v, (0 <= v < 2 ^ n)%Z -> bit_value (bit_of n v) = Some v /\ bit_has_value (bit_of n v) = true) /\
  (forall b v, (0 <= v < 2 ^ n)%Z -> bit_value (bit_assign n b v) = Some v) /\
  (forall b, bit_value (bit_reset b) = None /\ bit_has_value (bit_reset b) = false) /\
  (forall b, bit_copy b = b) /\
  (forall b d, b_value b <> None -> bit_value_or b d = Some (match bit_value b with Some v => v | None => d end)).
Proof.
  intros Hn. unfold bit_value, bit_default, bit_of, bit_assign, bit_reset, bit_copy, bit_has_value, bit_value_or, bit_store, wrapu.
  cbn [b_value b_has]. repeat split; intros; try reflexivity.
  - now rewrite Z.mod_small.
  - now rewrite Z.mod_small.
  - now destruct b.
  - destruct (b_has b); [|reflexivity]. now destruct (b_value b).
Qed.
(* Larger values lose their high bits. *)
Theorem C228_bits_truncate_refuted (n v : Z) b :
  (0 <= n)%Z -> (2 ^ n <= v)%Z ->
  exists x, bit_value (bit_assign n b v) = Some x /\ x <> v /\ x = (v mod 2 ^ n)%Z.
Proof.
  intros Hn Hv. exists (v mod 2 ^ n)%Z. split; [reflexivity|]. split; [|reflexivity].
  assert (0 < 2 ^ n)%Z by (apply Z.pow_pos_nonneg; lia).
  pose proof (Z.mod_pos_bound v (2 ^ n)). lia.
Qed.

Example C98_case :
  nul_value Z.eqb 0%Z (nul_of 0%Z) = None /\ nul_value Z.eqb 0%Z (nul_assign 3%Z 7%Z) = Some 7%Z /\
  bit_value (bit_of 3%Z 5%Z) = Some 5%Z /\ bit_value (bit_assign 3%Z bit_default 9%Z) = Some 1%Z.
Proof. repeat split. Qed.

Print Assumptions C58_history.
Print Assumptions C58_no_leak.
Print Assumptions C58_step.
Print Assumptions C95_access.
Print Assumptions C95_deref.
Print Assumptions C95_hash.
Print Assumptions C225_hash_empty_refuted.
Print Assumptions C96_equal.
Print Assumptions C96_greater.
Print Assumptions C96_less.
Print Assumptions C226_less_empty_refuted.
Print Assumptions C96_equal_optionals.
Print Assumptions C97_construct_throws.
Print Assumptions C97_emplace_throws.
Print Assumptions C97_assign_throws.
Print Assumptions C227_emplace_throws_refuted.
Print Assumptions C227_assign_throws_refuted.
Print Assumptions C97_self_assign.
Print Assumptions C227_self_assign_refuted.
Print Assumptions C98_null.
Print Assumptions C228_null_lost_refuted.
Print Assumptions C98_bits.
Print Assumptions C228_bits_truncate_refuted.
