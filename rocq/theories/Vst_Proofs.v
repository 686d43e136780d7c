(* Running the storage primitives on known worlds. *)
From Verif Require Import Base Vst_Model.
Local Open Scope prog_scope.

Section L.
Context {V T : Type}.
Notation W := (world V T).
Notation objs := (list (option (obj V T))).

Lemma nth_upd_same {A} (l : list A) k x : k < length l -> nth_error (upd l k x) k = Some x.
Proof. revert k; induction l; intros [|k] H; simpl in *; try lia; auto. apply IHl. lia. Qed.
Lemma nth_upd_other {A} (l : list A) k j x : j <> k -> nth_error (upd l k x) j = nth_error l j.
Proof. revert k j; induction l; intros [|k] [|j] H; simpl; auto; try congruence. Qed.
Lemma upd_upd {A} (l : list A) k x y : upd (upd l k x) k y = upd l k y.
Proof. revert k; induction l; intros [|k]; simpl; auto. now rewrite IHl. Qed.
Lemma upd_comm {A} (l : list A) j k x y : j <> k -> upd (upd l j x) k y = upd (upd l k y) j x.
Proof. revert j k; induction l; intros [|j] [|k] H; simpl; auto; try congruence. f_equal. auto. Qed.
Lemma upd_id {A} (l : list A) k x : nth_error l k = Some x -> upd l k x = l.
Proof. revert k; induction l; intros [|k] H; simpl in *; try discriminate; [congruence|]. now rewrite IHl. Qed.
Lemma upd_length {A} (l : list A) k x : length (upd l k x) = length l.
Proof. revert k; induction l; intros [|k]; simpl; auto. Qed.
Lemma nth_lt {A} (l : list A) k x : nth_error l k = Some x -> k < length l.
Proof. intros H. apply nth_error_Some. congruence. Qed.
Lemma map_upd {A B} (f : A -> B) l k x : map f (upd l k x) = upd (map f l) k (f x).
Proof. revert k; induction l; intros [|k]; simpl; auto. now rewrite IHl. Qed.
Lemma Forall_upd {A} (P : A -> Prop) l k x : Forall P l -> P x -> Forall P (upd l k x).
Proof.
  intros H Hx. revert k; induction H; intros [|k]; simpl; auto.
Qed.

Lemma get_obj_run (l : objs) lg k o :
  nth_error l k = Some (Some o) -> get_obj k (World l lg) = Val o (World l lg).
Proof. intros H. unfold get_obj. cbn. now rewrite H. Qed.

Lemma set_slot_run (l : objs) lg k s t s' :
  nth_error l k = Some (Some (Obj s t)) ->
  set_slot k s' (World l lg) = Val tt (World (upd l k (Some (Obj s' t))) lg).
Proof. intros H. unfold set_slot, bindp. now rewrite (get_obj_run l lg k _ H). Qed.

Lemma set_tag_run (l : objs) lg k s t t' :
  nth_error l k = Some (Some (Obj s t)) ->
  set_tag k t' (World l lg) = Val tt (World (upd l k (Some (Obj s t'))) lg).
Proof. intros H. unfold set_tag, bindp. now rewrite (get_obj_run l lg k _ H). Qed.

Lemma tag_of_run (l : objs) lg k s t :
  nth_error l k = Some (Some (Obj s t)) -> tag_of k (World l lg) = Val t (World l lg).
Proof. intros H. unfold tag_of, bindp. now rewrite (get_obj_run l lg k _ H). Qed.

Lemma read_run (l : objs) lg k i v t :
  nth_error l k = Some (Some (Obj (Live i v) t)) -> read_alt k i (World l lg) = Val v (World l lg).
Proof.
  intros H. unfold read_alt, bindp. rewrite (get_obj_run l lg k _ H). cbn. now rewrite Nat.eqb_refl.
Qed.
Lemma read_raw (l : objs) lg k i t :
  nth_error l k = Some (Some (Obj Raw t)) -> read_alt k i (World l lg) = Undef.
Proof. intros H. unfold read_alt, bindp. now rewrite (get_obj_run l lg k _ H). Qed.

Lemma move_run mvd (l : objs) lg k i v t :
  nth_error l k = Some (Some (Obj (Live i v) t)) ->
  move_alt mvd k i (World l lg) = Val v (World (upd l k (Some (Obj (Live i (mvd v)) t))) lg).
Proof.
  intros H. unfold move_alt, bindp. rewrite (read_run l lg k i v t H).
  now rewrite (set_slot_run l lg k _ t _ H).
Qed.

(* args ran to Val v in world (l', lg') *)
Lemma construct_run k i args w v (l' : objs) lg' s t :
  args w = Val v (World l' lg') -> nth_error l' k = Some (Some (Obj s t)) ->
  construct k i args w = Val tt (World (upd l' k (Some (Obj (Live i v) t))) (lg' ++ [Made i v])).
Proof.
  intros Ha H. unfold construct, bindp. rewrite Ha.
  now rewrite (set_slot_run l' lg' k s t _ H).
Qed.

Lemma destroy_live alts (l : objs) lg k i v t :
  nth_error l k = Some (Some (Obj (Live i v) t)) ->
  destroy_at alts k i (World l lg) = Val tt (World (upd l k (Some (Obj Raw t))) (lg ++ [Dead i v])).
Proof.
  intros H. unfold destroy_at, bindp. rewrite (get_obj_run l lg k _ H). cbn [o_slot].
  rewrite Nat.eqb_refl. now rewrite (set_slot_run l lg k _ t _ H).
Qed.
Lemma destroy_raw alts (l : objs) lg k i t :
  nth_error l k = Some (Some (Obj Raw t)) ->
  destroy_at alts k i (World l lg) = if trait alts a_trivial i then Val tt (World l lg) else Undef.
Proof.
  intros H. unfold destroy_at, bindp. rewrite (get_obj_run l lg k _ H). cbn [o_slot].
  now destruct (trait alts a_trivial i).
Qed.

Lemma destroy_index_live alts (l : objs) lg k i v t :
  i < length alts -> nth_error l k = Some (Some (Obj (Live i v) t)) ->
  destroy_index alts k (Some i) (World l lg)
    = Val tt (World (upd l k (Some (Obj Raw t))) (lg ++ [Dead i v])).
Proof.
  intros Hi H. unfold destroy_index. destruct (Nat.ltb_spec i (length alts)); [|lia].
  now apply destroy_live.
Qed.

Lemma assign_run alts k i args w v (l' : objs) lg' v0 t :
  args w = Val v (World l' lg') -> nth_error l' k = Some (Some (Obj (Live i v0) t)) ->
  assign_at alts k i args w = Val tt (World (upd l' k (Some (Obj (Live i v) t))) lg').
Proof.
  intros Ha H. unfold assign_at, bindp. rewrite Ha, (get_obj_run l' lg' k _ H). cbn [o_slot].
  rewrite Nat.eqb_refl. now rewrite (set_slot_run l' lg' k _ t _ H).
Qed.
Lemma assign_raw_run alts k i args w v (l' : objs) lg' t :
  trait alts a_trivial i = true ->
  args w = Val v (World l' lg') -> nth_error l' k = Some (Some (Obj Raw t)) ->
  assign_at alts k i args w = Val tt (World (upd l' k (Some (Obj (Live i v) t))) (lg' ++ [Made i v])).
Proof.
  intros Ht Ha H. unfold assign_at, bindp. rewrite Ha, (get_obj_run l' lg' k _ H). cbn [o_slot].
  rewrite Ht. now rewrite (set_slot_run l' lg' k _ t _ H).
Qed.

(* into an empty storage, direct initialisation is a construction *)
Lemma direct_init_run alts k i c w v (l' : objs) lg' t :
  c_convertible c = true ->
  c_value c w = Val v (World l' lg') -> nth_error l' k = Some (Some (Obj Raw t)) ->
  direct_init_helper alts k i c w = Val tt (World (upd l' k (Some (Obj (Live i v) t))) (lg' ++ [Made i v])).
Proof.
  intros Hc Ha H. unfold direct_init_helper, assignment_emplace_helper. rewrite Hc.
  destruct (trait alts a_trivial i) eqn:Ht.
  - now apply assign_raw_run.
  - now apply construct_run with (s := Raw).
Qed.

Lemma constructor_run k t0 body (l : objs) lg :
  nth_error l k = Some None ->
  constructor k t0 body (World l lg) =
    match body (World (upd l k (Some (Obj Raw t0))) lg) with
    | Thrown w' => Thrown (World (upd (w_objs w') k None) (w_log w'))
    | r => r
    end.
Proof. intros H. unfold constructor. cbn [w_objs w_log]. now rewrite H. Qed.

(* the visitor *)
Lemma visit_from_skip n i j (f : nat -> prog W bool) w :
  i + n <= j -> (forall x, i <= x < i + n -> x <> j -> f x w = Val false w) ->
  visit_from n i f w = Val None w.
Proof.
  revert i; induction n as [|n IH]; intros i Hj H; [reflexivity|].
  cbn [visit_from]. unfold bindp. rewrite H by lia. apply IH; [lia|]. intros x Hx. apply H. lia.
Qed.

Lemma visit_from_none n i (f : nat -> prog W bool) w :
  (forall x, i <= x < i + n -> f x w = Val false w) -> visit_from n i f w = Val None w.
Proof.
  revert i; induction n as [|n IH]; intros i H; [reflexivity|].
  cbn [visit_from]. unfold bindp. rewrite H by lia. apply IH. intros x Hx. apply H. lia.
Qed.

Lemma visit_from_at n i j (f : nat -> prog W bool) w :
  i <= j < i + n -> (forall x, i <= x < j -> f x w = Val false w) ->
  visit_from n i f w =
    match f j w with
    | Val true w' => Val (Some j) w'
    | Val false w' => visit_from (i + n - j - 1) (S j) f w'
    | Thrown w' => Thrown w'
    | Abort => Abort
    | Undef => Undef
    end.
Proof.
  revert i; induction n as [|n IH]; intros i Hj H; [lia|].
  cbn [visit_from]. unfold bindp. destruct (Nat.eq_dec i j) as [->|Hne].
  - destruct (f j w) as [[] w'|w'| |]; auto.
    replace (j + S n - j - 1) with n by lia. reflexivity.
  - rewrite H by lia. rewrite (IH (S i)); [|lia|intros x Hx; apply H; lia].
    destruct (f j w) as [[] w'|w'| |]; auto.
    now replace (S i + n - j - 1) with (i + S n - j - 1) by lia.
Qed.

Lemma visit_hit alts j (f : nat -> prog W bool) w w' :
  j < length alts -> (forall x, x < j -> f x w = Val false w) -> f j w = Val true w' ->
  visit alts f w = Val (Some j) w'.
Proof.
  intros Hj H E. unfold visit. rewrite (visit_from_at _ 0 j); [|lia|intros; apply H; lia].
  now rewrite E.
Qed.
Lemma visit_thrown alts j (f : nat -> prog W bool) w w' :
  j < length alts -> (forall x, x < j -> f x w = Val false w) -> f j w = Thrown w' ->
  visit alts f w = Thrown w'.
Proof.
  intros Hj H E. unfold visit. rewrite (visit_from_at _ 0 j); [|lia|intros; apply H; lia].
  now rewrite E.
Qed.
Lemma visit_undef alts j (f : nat -> prog W bool) w :
  j < length alts -> (forall x, x < j -> f x w = Val false w) -> f j w = Undef ->
  visit alts f w = Undef.
Proof.
  intros Hj H E. unfold visit. rewrite (visit_from_at _ 0 j); [|lia|intros; apply H; lia].
  now rewrite E.
Qed.
Lemma visit_miss alts (f : nat -> prog W bool) w :
  (forall x, x < length alts -> f x w = Val false w) -> visit alts f w = Val None w.
Proof. intros H. unfold visit. apply visit_from_none. intros x Hx. apply H. lia. Qed.

(* visit_index runs the functor on the held alternative only *)
Lemma visit_index_hit alts j (f : nat -> prog W bool) w w' :
  j < length alts -> f j w = Val true w' -> visit_index alts (Some j) f w = Val (Some j) w'.
Proof.
  intros Hj E. unfold visit_index. apply visit_hit; auto.
  - intros x Hx. destruct (Nat.eqb_spec x j); [lia|reflexivity].
  - now rewrite Nat.eqb_refl.
Qed.
Lemma visit_index_no alts j (f : nat -> prog W bool) w w' :
  j < length alts -> f j w = Val false w' -> visit_index alts (Some j) f w = Val None w'.
Proof.
  intros Hj E. unfold visit_index, visit.
  rewrite (visit_from_at _ 0 j); [|lia|].
  - rewrite Nat.eqb_refl, E. apply visit_from_none. intros x Hx.
    destruct (Nat.eqb_spec x j); [lia|reflexivity].
  - intros x Hx. destruct (Nat.eqb_spec x j); [lia|reflexivity].
Qed.
Lemma visit_index_thrown alts j (f : nat -> prog W bool) w w' :
  j < length alts -> f j w = Thrown w' -> visit_index alts (Some j) f w = Thrown w'.
Proof.
  intros Hj E. unfold visit_index. apply visit_thrown with (j := j); auto.
  - intros x Hx. destruct (Nat.eqb_spec x j); [lia|reflexivity].
  - now rewrite Nat.eqb_refl.
Qed.
Lemma visit_index_undef alts j (f : nat -> prog W bool) w :
  j < length alts -> f j w = Undef -> visit_index alts (Some j) f w = Undef.
Proof.
  intros Hj E. unfold visit_index. apply visit_undef with (j := j); auto.
  - intros x Hx. destruct (Nat.eqb_spec x j); [lia|reflexivity].
  - now rewrite Nat.eqb_refl.
Qed.
Lemma visit_index_none alts (f : nat -> prog W bool) w :
  visit_index alts None f w = Val None w.
Proof. apply visit_miss. reflexivity. Qed.

(* copying the storage *)
Lemma copy_storage_run alts k src i v (l : objs) lg s t ts :
  i < length alts -> trait alts a_copyable i = true -> k <> src ->
  nth_error l src = Some (Some (Obj (Live i v) ts)) -> nth_error l k = Some (Some (Obj s t)) ->
  copy_storage alts k src (Some i) (World l lg)
    = Val tt (World (upd l k (Some (Obj (Live i v) t))) (lg ++ [Made i v])).
Proof.
  intros Hi Hc Hne Hs Hk. unfold copy_storage, bindp at 1.
  rewrite (visit_hit alts i _ _ (World (upd l k (Some (Obj (Live i v) t))) (lg ++ [Made i v])));
    [reflexivity|exact Hi| |].
  - intros x Hx. destruct (trait alts a_copyable x); [|reflexivity].
    destruct (Nat.eqb_spec i x); [lia|reflexivity].
  - rewrite Hc, Nat.eqb_refl. unfold bindp.
    rewrite (construct_run k i _ _ v l lg s t (read_run l lg src i v ts Hs) Hk). reflexivity.
Qed.
Lemma copy_storage_none alts k src (w : W) :
  copy_storage alts k src None w = Val tt w.
Proof.
  unfold copy_storage, bindp at 1. rewrite visit_miss; [reflexivity|].
  intros x Hx. now destruct (trait alts a_copyable x).
Qed.
Lemma copy_storage_skip alts k src i (w : W) :
  trait alts a_copyable i = false -> copy_storage alts k src (Some i) w = Val tt w.
Proof.
  intros H. unfold copy_storage, bindp at 1. rewrite visit_miss; [reflexivity|].
  intros x Hx. destruct (trait alts a_copyable x) eqn:E; [|reflexivity].
  destruct (Nat.eqb_spec i x); [congruence|reflexivity].
Qed.
End L.
