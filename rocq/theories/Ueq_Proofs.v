(* Proofs about operator== of the unordered containers. *)
From Coq Require Import List Bool Arith NArith Lia.
From Verif Require Import Base BaseLemmas Unordered_Model Ueq_Model.
Import ListNotations.

Section Eq.
Context {K C : Type} (keqb : K -> K -> bool) (null : K) (ckey : C -> K) (Hk : forall a b, keqb a b = true <-> a = b).
Notation emp := (is_empty keqb null ckey).
Notation skip := (skip_empty keqb null ckey).
(* the elements from slot i on *)
Definition from (s : list C) (i : nat) : list C := filter (fun c => negb (emp c)) (skipn i s).

Lemma skip_ok s : forall fuel i, i <= length s -> length s - i < fuel ->
  match from s i with
  | [] => skip fuel s i = UB
  | c :: l => exists q, skip fuel s i = Ok q /\ i <= q < length s /\ nth_error s q = Some c /\ from s (q + 1) = l
  end.
Proof.
  induction fuel as [|f IH]; intros i L F; [lia|]. cbn [skip_empty]. unfold rd.
  destruct (nth_error s i) as [c|] eqn:E.
  - assert (Hi : i < length s) by (apply nth_error_Some; congruence).
    assert (SK : skipn i s = c :: skipn (i + 1) s).
    { rewrite Nat.add_1_r. clear - E. revert i E. induction s as [|x s IHs]; intros [|i] E; try discriminate E; cbn in *; [now injection E as ->|now apply IHs]. }
    specialize (IH (i + 1) ltac:(lia) ltac:(lia)). unfold from at 1. rewrite SK. cbn [filter bind].
    assert (N : Nat.eqb i (length s) = false) by (apply Nat.eqb_neq; lia). rewrite N, andb_true_r. destruct (emp c) eqn:Ec; cbn [negb].
    + fold (from s (i + 1)). destruct (from s (i + 1)); [exact IH|]. destruct IH as (q & A & B & D). exists q. split; [exact A|]. split; [lia|exact D].
    + exists i. repeat split; auto with arith.
  - apply nth_error_None in E. unfold from. rewrite skipn_all2 by exact E. reflexivity.
Qed.

Lemma loop_ok s t : forall fuel l r a b la lb, nth_error s l = Some a -> nth_error t r = Some b ->
  from s (l + 1) = la -> from t (r + 1) = lb -> length s - l < fuel -> length la = length lb ->
  (map ckey (a :: la) <> map ckey (b :: lb) -> eq_loop keqb null ckey fuel s t l r = Ok false) /\
  (map ckey (a :: la) = map ckey (b :: lb) -> eq_loop keqb null ckey fuel s t l r = UB).
Proof.
  induction fuel as [|f IH]; intros l r a b la lb Hl Hr Fl Fr F E; [lia|]. cbn [eq_loop].
  assert (Ll : l < length s) by (apply nth_error_Some; congruence). assert (Lr : r < length t) by (apply nth_error_Some; congruence).
  assert (N : Nat.eqb l (length s) = false) by (apply Nat.eqb_neq; lia). rewrite N. unfold rd. rewrite Hl, Hr. cbn [bind].
  destruct (keqb (ckey a) (ckey b)) eqn:Ek; cbn [negb].
  2: { split; [reflexivity|]. intros G. exfalso. cbn in G. injection G as G _. apply Hk in G. congruence. }
  apply Hk in Ek.
  pose proof (skip_ok s (S (length s)) (l + 1) ltac:(lia) ltac:(lia)) as Sl. pose proof (skip_ok t (S (length t)) (r + 1) ltac:(lia) ltac:(lia)) as Sr.
  rewrite Fl in Sl. rewrite Fr in Sr. destruct la as [|a' la].
  - destruct lb; [|discriminate E]. rewrite Sl. cbn [bind]. split; [|reflexivity]. intros G. exfalso. apply G. cbn. now rewrite Ek.
  - destruct lb as [|b' lb]; [discriminate E|]. destruct Sl as (q & -> & Q1 & Q2 & Q3). destruct Sr as (q' & -> & R1 & R2 & R3). cbn [bind].
    destruct (IH q q' a' b' la lb Q2 R2 Q3 R3 ltac:(lia) ltac:(cbn in E; lia)) as [I1 I2]. split; intros G.
    + apply I1. intros X. apply G. change (ckey a :: map ckey (a' :: la) = ckey b :: map ckey (b' :: lb)). now rewrite Ek, X.
    + apply I2. change (ckey a :: map ckey (a' :: la) = ckey b :: map ckey (b' :: lb)) in G. apply (f_equal (@tl K)) in G. exact G.
Qed.

Definition keys (s : list C) : list K := map ckey (filter (fun c => negb (emp c)) s).
Lemma eq_exact s t : (keys s <> keys t -> table_eq keqb null ckey s t = Ok false) /\ (keys s = keys t -> table_eq keqb null ckey s t = UB).
Proof.
  unfold table_eq, tsize, keys. pose proof (skip_ok s (S (length s)) 0 ltac:(lia) ltac:(lia)) as Sl. pose proof (skip_ok t (S (length t)) 0 ltac:(lia) ltac:(lia)) as Sr.
  unfold from in Sl, Sr. cbn [skipn] in Sl, Sr. fold (from s) in Sl. fold (from t) in Sr.
  set (x := filter (fun c => negb (emp c)) s) in *. set (y := filter (fun c => negb (emp c)) t) in *.
  destruct (Nat.eqb_spec (length x) (length y)) as [E|E]; cbn [negb].
  2: { split; [reflexivity|]. intros G. exfalso. apply E. rewrite <- (map_length ckey x), <- (map_length ckey y). now rewrite G. }
  destruct x as [|a x].
  - destruct y; [|discriminate E]. rewrite Sl. cbn [bind]. split; [intros G; now contradiction G|reflexivity].
  - destruct y as [|b y]; [discriminate E|]. destruct Sl as (q & -> & Q1 & Q2 & Q3). destruct Sr as (q' & -> & R1 & R2 & R3). cbn [bind].
    apply (loop_ok s t (S (length s)) q q' a b x y Q2 R2 Q3 R3); [lia|]. now injection E.
Qed.
End Eq.
