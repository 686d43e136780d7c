From Coq Require Import List Arith Bool Lia.
From Verif Require Import Base Vm_Spec Vm_Model.
Import ListNotations.
Local Open Scope res_scope.

(* ---- lists *)
Lemma set_nth_length {T} (l : list T) i x : length (set_nth l i x) = length l.
Proof. revert i. induction l as [|a l IH]; intros [|i]; cbn; auto. Qed.
Lemma set_nth_nth {T} (l : list T) i x k : nth_error (set_nth l i x) k = if (k =? i) && (i <? length l) then Some x else nth_error l k.
Proof.
  revert i k. induction l as [|a l IH]; intros [|i] [|k]; try reflexivity.
  - destruct k; cbn; rewrite andb_false_r; reflexivity.
  - apply IH.
Qed.
Lemma map_set_nth {T U} (f : T -> U) l i x : map f (set_nth l i x) = set_nth (map f l) i (f x).
Proof. revert i. induction l as [|a l IH]; intros [|i]; cbn; try reflexivity. f_equal. apply IH. Qed.
Lemma free_index_spec {T} (l : list (option T)) h : free_index l = Some h -> nth_error l h = Some None.
Proof.
  revert h. induction l as [|[a|] l IH]; cbn; intros h; [discriminate| |].
  - destruct (free_index l) as [k|]; [|discriminate]. intros [= <-]. apply IH. reflexivity.
  - intros [= <-]. reflexivity.
Qed.
Lemma scan_map {T} (f : T -> nat * nat) l i : scan_handles (map (option_map f) l) i = option_map (fun k => i + k) (free_index l).
Proof.
  revert i. induction l as [|[a|] l IH]; intros i; cbn; [reflexivity| |rewrite Nat.add_0_r; reflexivity].
  rewrite IH. destruct (free_index l); cbn; [f_equal; lia|reflexivity].
Qed.

(* ---- covering *)
Definition one (b : nat) (r : nat * nat) : nat := if holds b r then 1 else 0.
Lemma cover_cons b r l : cover b (r :: l) = one b r + cover b l.
Proof. reflexivity. Qed.
Lemma cover_app b l k : cover b (l ++ k) = cover b l + cover b k.
Proof. unfold cover. rewrite map_app, list_sum_app. reflexivity. Qed.
Lemma holds_true b r : holds b r = true <-> fst r <= b < fst r + snd r.
Proof. unfold holds. rewrite andb_true_iff, Nat.leb_le, Nat.ltb_lt. tauto. Qed.
Lemma one_split b o c n : n <= c -> one b (o, c) = one b (o, c - n) + one b (o + (c - n), n).
Proof.
  intros H. unfold one, holds. cbn [fst snd].
  destruct (Nat.leb_spec o b), (Nat.ltb_spec b (o + c)), (Nat.ltb_spec b (o + (c - n))), (Nat.leb_spec (o + (c - n)) b), (Nat.ltb_spec b (o + (c - n) + n)); cbn; lia.
Qed.
Lemma one_join b o c d : one b (o, c + d) = one b (o, c) + one b (o + c, d).
Proof.
  pose proof (one_split b o (c + d) d ltac:(lia)) as H. replace (c + d - d) with c in H by lia. exact H.
Qed.
Lemma cover_in b r l : In r l -> one b r <= cover b l.
Proof.
  induction l as [|a l IH]; [intros []|]. rewrite cover_cons. intros [->|H]; [lia|]. specialize (IH H). lia.
Qed.
Definition apart (r1 r2 : nat * nat) : Prop := fst r1 + snd r1 <= fst r2 \/ fst r2 + snd r2 <= fst r1.
Lemma apart_sym r1 r2 : apart r1 r2 -> apart r2 r1.
Proof. unfold apart. lia. Qed.
Lemma cover_apart l : (forall b, cover b l <= 1) -> (forall r, In r l -> 0 < snd r) -> ForallOrdPairs apart l.
Proof.
  induction l as [|a l IH]; intros Hc Hp; constructor.
  - apply Forall_forall. intros r Hr.
    destruct (le_lt_dec (fst a + snd a) (fst r)) as [|L1]; [left; assumption|].
    destruct (le_lt_dec (fst r + snd r) (fst a)) as [|L2]; [right; assumption|]. exfalso.
    pose proof (Hp a (or_introl eq_refl)) as Pa. pose proof (Hp r (or_intror Hr)) as Pr.
    set (b := Nat.max (fst a) (fst r)). specialize (Hc b). rewrite cover_cons in Hc.
    pose proof (cover_in b r l Hr) as Ci.
    assert (one b a = 1). { unfold one. replace (holds b a) with true; [reflexivity|]. symmetry. apply holds_true. unfold b. lia. }
    assert (one b r = 1). { unfold one. replace (holds b r) with true; [reflexivity|]. symmetry. apply holds_true. unfold b. lia. }
    lia.
  - apply IH; [|intros r Hr; apply Hp; right; exact Hr]. intros b. specialize (Hc b). rewrite cover_cons in Hc. lia.
Qed.
(* the sizes add up *)
Lemma sum_one n o c : o + c <= n -> list_sum (map (fun b => one b (o, c)) (seq 0 n)) = c.
Proof.
  revert c. induction n as [|n IH]; intros c H; [cbn; lia|].
  rewrite seq_S, map_app, list_sum_app. cbn [map list_sum fold_right]. rewrite Nat.add_0_l, Nat.add_0_r.
  destruct (Nat.eq_dec (o + c) (S n)) as [E|E].
  - destruct c as [|c].
    + assert (Z : forall b, one b (o, 0) = 0). { intros b. unfold one. destruct (holds b (o, 0)) eqn:Eh; [|reflexivity]. apply holds_true in Eh. cbn in Eh. lia. }
      rewrite Z, (map_ext (fun b => one b (o, 0)) (fun _ => 0)) by (intros; apply Z).
      clear. induction (seq 0 n); cbn; auto.
    + assert (L : one n (o, S c) = 1). { unfold one. replace (holds n (o, S c)) with true; [reflexivity|]. symmetry. apply holds_true. cbn. lia. }
      rewrite L, Nat.add_1_r. f_equal. transitivity (list_sum (map (fun b => one b (o, c)) (seq 0 n))); [|apply IH; lia]. f_equal. apply map_ext_in. intros b Hb. apply in_seq in Hb.
      unfold one, holds. cbn [fst snd]. destruct (Nat.leb_spec o b), (Nat.ltb_spec b (o + S c)), (Nat.ltb_spec b (o + c)); cbn; lia.
  - assert (L : one n (o, c) = 0). { unfold one. destruct (holds n (o, c)) eqn:Eh; [|reflexivity]. apply holds_true in Eh. cbn in Eh. lia. }
    rewrite L, Nat.add_0_r. apply IH. lia.
Qed.
Lemma sum_plus (f g : nat -> nat) l : list_sum (map (fun b => f b + g b) l) = list_sum (map f l) + list_sum (map g l).
Proof. induction l as [|b l IH]; [reflexivity|]. cbn. unfold list_sum in IH. rewrite IH. lia. Qed.
Lemma sum_cover n l : (forall r, In r l -> fst r + snd r <= n) -> list_sum (map (fun b => cover b l) (seq 0 n)) = list_sum (map snd l).
Proof.
  induction l as [|[o c] l IH]; intros H.
  - cbn. clear. induction (seq 0 n); cbn; auto.
  - rewrite (map_ext _ (fun b => one b (o, c) + cover b l)) by (intros; apply cover_cons). rewrite sum_plus, IH by (intros; apply H; right; assumption).
    rewrite (sum_one n o c) by (apply (H (o, c)); left; reflexivity). reflexivity.
Qed.

Section Vm.
Context {B : Type}.
Variable hdr N : nat.
Hypothesis Hh : 0 < hdr.
Notation vm := (@vm B).
Notation ideal := (ideal B).
Implicit Types (v : vm) (s : ideal).
Notation rd_item := (rd_item hdr).
Notation wr_item := (wr_item hdr N).

(* ---- items in memory *)
Lemma rd_wr_same v o it v1 : wr_item v o it = Ok v1 -> rd_item v1 o = Ok it.
Proof.
  unfold Vm_Model.wr_item, Vm_Model.rd_item. destruct (o + hdr <=? N); [|discriminate]. intros [= <-]. cbn [mem items].
  replace (forallb _ _) with true; [rewrite Nat.eqb_refl; reflexivity|]. symmetry. apply forallb_forall. intros b Hb. apply in_seq in Hb.
  replace ((o <=? b) && (b <? o + hdr)) with true; [apply Nat.eqb_refl|]. symmetry. rewrite andb_true_iff, Nat.leb_le, Nat.ltb_lt. lia.
Qed.
Definition clear (o p : nat) : Prop := o + hdr <= p \/ p + hdr <= o.
Lemma clear_sym o p : clear o p -> clear p o.
Proof. unfold clear. lia. Qed.
Lemma rd_mem v v1 o : (forall b, o <= b < o + hdr -> mem v1 b = mem v b) -> items v1 o = items v o -> rd_item v1 o = rd_item v o.
Proof.
  intros M I. unfold Vm_Model.rd_item. rewrite I.
  replace (forallb (fun b => match mem v1 b with Some (Head p) => p =? o | _ => false end) (seq o hdr))
    with (forallb (fun b => match mem v b with Some (Head p) => p =? o | _ => false end) (seq o hdr)); [reflexivity|].
  assert (G : forall l, (forall b, In b l -> o <= b < o + hdr) -> forallb (fun b => match mem v b with Some (Head p) => p =? o | _ => false end) l = forallb (fun b => match mem v1 b with Some (Head p) => p =? o | _ => false end) l).
  { induction l as [|b l IH]; intros H; cbn; [reflexivity|]. rewrite M by (apply H; left; reflexivity). f_equal. apply IH. intros; apply H; right; assumption. }
  apply G. intros b Hb. apply in_seq in Hb. lia.
Qed.
Lemma rd_wr_other v o it v1 p : wr_item v o it = Ok v1 -> clear o p -> rd_item v1 p = rd_item v p.
Proof.
  unfold Vm_Model.wr_item. destruct (o + hdr <=? N); [|discriminate]. intros [= <-] C. apply rd_mem; cbn [mem items].
  - intros b Hb. replace ((o <=? b) && (b <? o + hdr)) with false; [reflexivity|]. symmetry. apply andb_false_iff. rewrite Nat.leb_gt, Nat.ltb_ge. unfold clear in C. lia.
  - replace (p =? o) with false; [reflexivity|]. symmetry. apply Nat.eqb_neq. unfold clear in C. lia.
Qed.
Lemma wr_ok v o it : o + hdr <= N -> exists v1, wr_item v o it = Ok v1.
Proof. intros H. unfold Vm_Model.wr_item. apply Nat.leb_le in H. rewrite H. eauto. Qed.
Record Same v v1 : Prop := { sm_handles : handles v1 = handles v; sm_head : free_head v1 = free_head v; sm_mode : mode v1 = mode v;
  sm_ev : evaluating v1 = evaluating v; sm_evp : evaluating_prev v1 = evaluating_prev v; sm_pr : processed v1 = processed v }.
Lemma wr_same v o it v1 : wr_item v o it = Ok v1 -> Same v v1.
Proof. unfold Vm_Model.wr_item. destruct (o + hdr <=? N); [|discriminate]. intros [= <-]. constructor; reflexivity. Qed.
Lemma wr_mem v o it v1 b : wr_item v o it = Ok v1 -> ~ (o <= b < o + hdr) -> mem v1 b = mem v b.
Proof.
  unfold Vm_Model.wr_item. destruct (o + hdr <=? N); [|discriminate]. intros [= <-] H. cbn [mem].
  replace ((o <=? b) && (b <? o + hdr)) with false; [reflexivity|]. symmetry. apply andb_false_iff. rewrite Nat.leb_gt, Nat.ltb_ge. lia.
Qed.
(* the memory is all an item depends on *)
Definition same_mem v v1 : Prop := mem v1 = mem v /\ items v1 = items v.
Lemma rd_same_mem v v1 o : same_mem v v1 -> rd_item v1 o = rd_item v o.
Proof. intros (M & I). unfold Vm_Model.rd_item. rewrite M, I. reflexivity. Qed.

Fixpoint linked v (h : option nat) (l : list (nat * nat)) : Prop :=
  match l with
  | [] => h = None
  | (o, c) :: r => h = Some o /\ exists nx, rd_item v o = Ok {| next := nx; chunk := c |} /\ linked v nx r
  end.
Lemma linked_frame v v1 h l : (forall r, In r l -> rd_item v1 (fst r) = rd_item v (fst r)) -> linked v h l -> linked v1 h l.
Proof.
  revert h. induction l as [|[o c] l IH]; intros h H; cbn; [auto|]. intros (-> & nx & R & L). split; [reflexivity|].
  exists nx. split; [rewrite <- R; apply (H (o, c)); left; reflexivity|]. apply IH; [|exact L]. intros r Hr. apply H. right. exact Hr.
Qed.

(* ---- the ideal's invariant *)
Record Tile s : Prop := {
  t_cov : forall b, cover b (chunks s ++ taken s) = if b <? N then 1 else 0;
  t_big : forall r, In r (chunks s ++ taken s) -> hdr <= snd r
}.
Lemma tile_apart s : Tile s -> ForallOrdPairs apart (chunks s ++ taken s).
Proof.
  intros T. apply cover_apart.
  - intros b. rewrite (t_cov _ T). destruct (b <? N); lia.
  - intros r Hr. pose proof (t_big _ T r Hr). lia.
Qed.
Lemma tile_in s r : Tile s -> In r (chunks s ++ taken s) -> fst r + snd r <= N.
Proof.
  intros T Hr. pose proof (t_big _ T r Hr) as Hb. destruct (le_lt_dec (fst r + snd r) N) as [|L]; [assumption|]. exfalso.
  set (b := fst r + snd r - 1). pose proof (t_cov _ T b) as Hc. pose proof (cover_in b r _ Hr) as Hi.
  assert (one b r = 1). { unfold one. replace (holds b r) with true; [reflexivity|]. symmetry. apply holds_true. unfold b. lia. }
  destruct (Nat.ltb_spec b N); unfold b in *; lia.
Qed.
Lemma tile_sum s : Tile s -> list_sum (map snd (chunks s)) + list_sum (map snd (taken s)) = N.
Proof.
  intros T. rewrite <- list_sum_app, <- map_app, <- (sum_cover N) by (intros r; apply tile_in; exact T).
  rewrite (map_ext_in (fun b => cover b (chunks s ++ taken s)) (fun _ => 1)).
  - clear. induction N as [|n IH]; [reflexivity|]. rewrite seq_S, map_app, list_sum_app, IH. cbn. lia.
  - intros b Hb. apply in_seq in Hb. rewrite (t_cov _ T). destruct (Nat.ltb_spec b N); lia.
Qed.
Lemma length_sum (l : list (nat * nat)) : (forall r, In r l -> 0 < snd r) -> length l <= list_sum (map snd l).
Proof.
  induction l as [|a l IH]; intros H; cbn; [lia|]. fold (list_sum (map snd l)).
  pose proof (H a (or_introl eq_refl)). specialize (IH (fun r Hr => H r (or_intror Hr))). lia.
Qed.
Lemma tile_length s : Tile s -> length (chunks s) <= N.
Proof.
  intros T. pose proof (tile_sum s T) as E. pose proof (length_sum (chunks s)) as L.
  assert (forall r, In r (chunks s) -> 0 < snd r). { intros r Hr. pose proof (t_big _ T r). rewrite in_app_iff in H. specialize (H (or_introl Hr)). lia. }
  specialize (L H). lia.
Qed.
Lemma take_cover n l p l' b : take n l = Some (p, l') -> cover b l = cover b l' + one b (p, n).
Proof.
  revert p l'. induction l as [|[o c] r IH]; intros p l'; [discriminate|]. cbn [take].
  destruct (Nat.eqb_spec c n) as [->|E].
  - intros [= <- <-]. rewrite cover_cons. lia.
  - destruct (Nat.ltb_spec n c) as [L|L].
    + intros [= <- <-]. rewrite !cover_cons, (one_split b o c n) by lia. lia.
    + destruct (take n r) as [[q r']|]; [|discriminate]. intros [= <- <-]. rewrite !cover_cons, (IH q r') by reflexivity. lia.
Qed.
Lemma take_big n l p l' first : good_fit hdr first n l -> take n l = Some (p, l') -> (forall r, In r l -> hdr <= snd r) -> forall r, In r l' -> hdr <= snd r.
Proof.
  revert p l' first. induction l as [|[o c] r IH]; intros p l' first; [discriminate|]. cbn [take good_fit].
  destruct (Nat.eqb_spec c n) as [->|E].
  - intros _ [= <- <-] H q Hq. apply H. right. exact Hq.
  - destruct (Nat.ltb_spec n c) as [L|L].
    + intros G [= <- <-] H q [<-|Hq]; [exact G|]. apply H. right. exact Hq.
    + destruct (take n r) as [[q r']|] eqn:Et; [|discriminate]. intros G [= <- <-] H x [<-|Hx]; [apply H; left; reflexivity|].
      eapply IH; eauto. intros y Hy. apply H. right. exact Hy.
Qed.
Definition span (x : option (region B)) : list (nat * nat) := match x with Some r => [(base r, size r)] | None => [] end.
Lemma taken_set (rs : list (option (region B))) h x y b : nth_error rs h = Some x ->
  cover b (flat_map span (set_nth rs h y)) + cover b (span x) = cover b (flat_map span rs) + cover b (span y).
Proof.
  revert h. induction rs as [|a rs IH]; intros [|h]; cbn [set_nth flat_map nth_error]; try discriminate.
  - intros [= ->]. rewrite !cover_app. lia.
  - intros H. rewrite !cover_app. specialize (IH h H). lia.
Qed.
Lemma taken_in (rs : list (option (region B))) h y r : In r (flat_map span (set_nth rs h y)) -> In r (span y) \/ In r (flat_map span rs).
Proof.
  revert h. induction rs as [|a rs IH]; intros [|h]; cbn; auto.
  - rewrite !in_app_iff. intros [H|H]; auto.
  - rewrite !in_app_iff. intros [H|H]; auto. destruct (IH h H); auto.
Qed.
Lemma live_nth s h r : live s h = Some r <-> nth_error (regions s) h = Some (Some r).
Proof. unfold live. destruct (nth_error (regions s) h) as [[x|]|]; split; congruence. Qed.
Lemma settle_cover l b : cover b (fst (settle l)) = cover b l.
Proof.
  destruct l as [|[o1 c1] [|[o2 c2] r]]; try reflexivity. cbn [settle].
  destruct (Nat.ltb_spec o2 o1).
  - cbn [fst]. destruct (Nat.eqb_spec (o2 + c2) o1) as [<-|]; rewrite !cover_cons; [rewrite one_join|]; lia.
  - destruct (Nat.eqb_spec (o1 + c1) o2) as [<-|]; cbn [fst]; [|reflexivity]. rewrite !cover_cons, one_join. lia.
Qed.
Lemma settle_big l : (forall r, In r l -> hdr <= snd r) -> forall r, In r (fst (settle l)) -> hdr <= snd r.
Proof.
  destruct l as [|[o1 c1] [|[o2 c2] r]]; try (intros H; exact H). intros H.
  pose proof (H _ (or_introl eq_refl)) as H1. pose proof (H _ (or_intror (or_introl eq_refl))) as H2. cbn in H1, H2.
  assert (H3 : forall x, In x r -> hdr <= snd x) by (intros; apply H; right; right; assumption). cbn [settle].
  destruct (o2 <? o1); [|destruct (o1 + c1 =? o2)]; cbn [fst]; try destruct (o2 + c2 =? o1); cbn;
    intros x Hx; repeat (destruct Hx as [<-|Hx]; [cbn; lia|]); auto.
Qed.
Lemma taken_span s : taken s = flat_map span (regions s).
Proof. reflexivity. Qed.
Lemma cover_one b r : cover b [r] = one b r.
Proof. unfold cover, one. cbn. lia. Qed.
Lemma cover_nil b : cover b [] = 0.
Proof. reflexivity. Qed.
Lemma act_tile s o : Tile s -> legal hdr s o -> Tile (fst (act hdr s o)).
Proof.
  intros T L. destruct o; cbn [act legal] in *.
  - destruct L as (G & F). destruct (take (at_least hdr n) (chunks s)) as [[p l]|] eqn:E; [|exact T].
    destruct (free_index (regions s)) as [h|] eqn:Ef; [|exact T]. cbn [fst]. apply free_index_spec in Ef.
    constructor; rewrite taken_span; cbn [chunks regions].
    + intros b. rewrite cover_app. pose proof (take_cover _ _ _ _ b E) as C1.
      pose proof (taken_set (regions s) h None (Some {| base := p; size := at_least hdr n; kept := fun _ => None |}) b Ef) as C2.
      pose proof (t_cov _ T b) as C3. rewrite cover_app, taken_span in C3. unfold span in C2 at 2 4. cbn [base size] in C2. rewrite cover_one, cover_nil in C2. lia.
    + intros r. rewrite in_app_iff. intros [Hr|Hr].
      * eapply take_big; eauto. intros q Hq. apply (t_big _ T). rewrite in_app_iff. auto.
      * apply (taken_in (regions s) h) in Hr. destruct Hr as [[<-|[]]|Hr]; [cbn; unfold at_least; lia|].
        apply (t_big _ T). rewrite in_app_iff, taken_span. auto.
  - destruct (live s h) as [r|] eqn:E; [|destruct (L eq_refl)]. apply live_nth in E. cbn [fst].
    constructor; rewrite taken_span; cbn [chunks regions].
    + intros b. cbn [app]. rewrite cover_cons, cover_app.
      pose proof (taken_set (regions s) h (Some r) None b E) as C2. pose proof (t_cov _ T b) as C3. rewrite cover_app, taken_span in C3.
      unfold span in C2 at 2 4. rewrite cover_one, cover_nil in C2. lia.
    + intros q [<-|Hq]; [|rewrite in_app_iff in Hq; destruct Hq as [Hq|Hq]].
      * apply (t_big _ T). rewrite in_app_iff. right. rewrite taken_span. apply in_flat_map. exists (Some r). split; [eapply nth_error_In; eauto|left; reflexivity].
      * apply (t_big _ T). rewrite in_app_iff. auto.
      * apply (taken_in (regions s) h) in Hq. destruct Hq as [[]|Hq]. apply (t_big _ T). rewrite in_app_iff, taken_span. auto.
  - exact T.
  - destruct L as (r & E & Hi). rewrite E. apply live_nth in E. cbn [fst].
    constructor; rewrite taken_span; cbn [chunks regions].
    + intros b. rewrite cover_app.
      pose proof (taken_set (regions s) h (Some r) (Some (put_kept r i x)) b E) as C2. pose proof (t_cov _ T b) as C3. rewrite cover_app, taken_span in C3.
      unfold span in C2 at 2 4. cbn [put_kept base size] in C2. lia.
    + intros q. rewrite in_app_iff. intros [Hq|Hq]; [apply (t_big _ T); rewrite in_app_iff; auto|].
      apply (taken_in (regions s) h) in Hq. apply (t_big _ T). rewrite in_app_iff, taken_span. right. destruct Hq as [[<-|[]]|Hq]; [|exact Hq].
      apply in_flat_map. exists (Some r). split; [eapply nth_error_In; eauto|left; reflexivity].
  - exact T.
  - destruct (at_phase s); [|exact T|destruct T as [Tc Tb]; constructor; assumption]. pose proof (settle_cover (chunks s)) as C. pose proof (settle_big (chunks s)) as G.
    destruct (settle (chunks s)) as [l b']. cbn [fst] in *. constructor; rewrite taken_span; cbn [chunks regions].
    + intros b. rewrite cover_app, C, <- cover_app. apply (t_cov _ T).
    + intros r. rewrite in_app_iff. intros [Hr|Hr]; [|apply (t_big _ T); rewrite in_app_iff; auto].
      apply G; [|exact Hr]. intros q Hq. apply (t_big _ T). rewrite in_app_iff. auto.
Qed.
Lemma start_tile K : hdr <= N -> Tile (ideal_start N K).
Proof.
  intros H. assert (E : taken (ideal_start N K : ideal) = []). { unfold taken, ideal_start. cbn. induction K; cbn; auto. }
  constructor; rewrite E; cbn [ideal_start chunks app].
  - intros b. rewrite cover_one. unfold one, holds. cbn [fst snd Nat.leb andb]. rewrite Nat.add_0_l. reflexivity.
  - intros r [<-|[]]. exact H.
Qed.

(* ---- the program follows the ideal *)
Record Sim v s : Prop := {
  s_list : linked v (free_head v) (chunks s);
  s_handles : handles v = map (option_map (fun r => (base r, size r))) (regions s);
  s_kept : forall h r i x, live s h = Some r -> i < size r -> kept r i = Some x -> mem v (base r + i) = Some (User x);
  s_mode : mode v = match at_phase s with Idle => Uninitialized | Compacting => Compact | Moving => Move end
}.
Lemma total_sim v l : forall fuel h c k, length l < fuel -> linked v h l -> total_loop hdr fuel v h c k = Ok (c + list_sum (map snd l), k + length l).
Proof.
  induction l as [|[o c0] l IH]; intros [|fuel] h c k Hf L; cbn in Hf; try lia.
  - cbn in L. subst h. cbn. rewrite !Nat.add_0_r. reflexivity.
  - destruct L as (-> & nx & R & L). cbn [total_loop]. rewrite R. cbn [bind next chunk]. rewrite IH by (assumption || lia).
    cbn. fold (list_sum (map snd l)). f_equal. f_equal; lia.
Qed.
Lemma alloc_sim n l : forall fuel v h prev first,
  length l < fuel -> linked v h l -> good_fit hdr first n l -> ForallOrdPairs apart l -> (forall r, In r l -> hdr <= snd r /\ fst r + snd r <= N) ->
  match prev with
  | None => first = true
  | Some q => first = false /\ (exists cq, rd_item v q = Ok {| next := h; chunk := cq |}) /\ q + hdr <= N /\ forall r, In r l -> clear q (fst r)
  end ->
  match take n l with
  | None => alloc_loop hdr N fuel v h prev n = Ok (v, None)
  | Some (p, l') => forall hi, get_free_handle v = Some hi ->
      exists v1 h', alloc_loop hdr N fuel v h prev n = Ok (v1, Some hi) /\ linked v1 h' l' /\ (prev = None -> h' = h) /\
        (forall q cq, prev = Some q -> rd_item v q = Ok {| next := h; chunk := cq |} -> rd_item v1 q = Ok {| next := h'; chunk := cq |}) /\
        (forall q, match prev with Some x => clear x q | None => True end -> (forall r, In r l -> clear (fst r) q) -> rd_item v1 q = rd_item v q) /\
        (forall b, match prev with Some x => ~ (x <= b < x + hdr) | None => True end -> (forall r, In r l -> ~ (fst r <= b < fst r + hdr)) -> mem v1 b = mem v b) /\
        handles v1 = set_nth (handles v) hi (Some (p, n)) /\ free_head v1 = free_head v /\ mode v1 = mode v
  end.
Proof.
  induction l as [|[o c] l IH]; intros [|fuel] v h prev first Hf L G A Hb P; cbn in Hf; try lia.
  - cbn in L. subst h. reflexivity.
  - destruct L as (-> & nx & R & L). cbn [take alloc_loop good_fit] in *. rewrite R. cbn [bind next chunk].
    inversion A as [|? ? A1 A2]; subst.
    pose proof (Hb _ (or_introl eq_refl)) as Ho. cbn in Ho.
    assert (Co : forall r, In r l -> clear o (fst r)).
    { intros r Hr. rewrite Forall_forall in A1. pose proof (A1 r Hr) as Ha. pose proof (Hb r (or_intror Hr)). unfold apart, clear in *. cbn in Ha. lia. }
    destruct (Nat.eqb_spec c n) as [->|E].
    + subst first. destruct prev as [q|]; [|discriminate]. destruct P as (_ & (cq & Rq) & Hq & Cq). intros hi Hi.
      rewrite Rq. cbn [bind next chunk].
      destruct (wr_ok v q {| next := nx; chunk := cq |} Hq) as (v1 & W). rewrite W. cbn [bind].
      pose proof (wr_same _ _ _ _ W) as Sm. unfold get_free_handle. rewrite (sm_handles _ _ Sm). fold (get_free_handle v). rewrite Hi.
      exists (put_handle v1 hi (Some (o, n))), nx. split; [reflexivity|]. repeat split.
      * apply (linked_frame v); [|exact L]. intros r Hr. change (rd_item v1 (fst r) = rd_item v (fst r)). eapply rd_wr_other; eauto. apply Cq. right. exact Hr.
      * discriminate.
      * intros q0 cq0 [= <-] Rq0. rewrite Rq in Rq0. injection Rq0 as <-. change (rd_item v1 q = Ok {| next := nx; chunk := cq |}). eapply rd_wr_same; eauto.
      * intros q0 C _. change (rd_item v1 q0 = rd_item v q0). eapply rd_wr_other; eauto.
      * intros b Nb _. cbn. eapply wr_mem; eauto.
      * cbn. rewrite (sm_handles _ _ Sm). reflexivity.
      * cbn. apply (sm_head _ _ Sm).
      * cbn. apply (sm_mode _ _ Sm).
    + destruct (Nat.ltb_spec n c) as [Lt|Ge].
      * intros hi Hi. rewrite Hi.
        destruct (wr_ok (put_handle v hi (Some (o + (c - n), n))) o {| next := nx; chunk := c - n |} ltac:(lia)) as (v1 & W). rewrite W. cbn [bind].
        pose proof (wr_same _ _ _ _ W) as Sm.
        exists v1, (Some o). split; [reflexivity|]. repeat split.
        -- exists nx. split; [eapply rd_wr_same; eauto|]. apply (linked_frame v); [|exact L]. intros r Hr.
           rewrite (rd_wr_other _ _ _ _ (fst r) W) by (apply Co; exact Hr). reflexivity.
        -- intros q cq -> Rq. destruct P as (_ & _ & _ & Cq). rewrite (rd_wr_other _ _ _ _ q W) by (apply clear_sym, (Cq _ (or_introl eq_refl))). exact Rq.
        -- intros q _ C. rewrite (rd_wr_other _ _ _ _ q W) by (apply (C _ (or_introl eq_refl))). reflexivity.
        -- intros b _ Nb. rewrite (wr_mem _ _ _ _ b W) by (apply (Nb _ (or_introl eq_refl))). reflexivity.
        -- rewrite (sm_handles _ _ Sm). reflexivity.
        -- rewrite (sm_head _ _ Sm). reflexivity.
        -- rewrite (sm_mode _ _ Sm). reflexivity.
      * specialize (IH fuel v nx (Some o) false ltac:(lia) L G A2 (fun r Hr => Hb r (or_intror Hr))).
        assert (P' : false = false /\ (exists cq, rd_item v o = Ok {| next := nx; chunk := cq |}) /\ o + hdr <= N /\ (forall r, In r l -> clear o (fst r))).
        { repeat split; [exists c; exact R|lia|exact Co]. }
        specialize (IH P'). destruct (take n l) as [[p l']|]; [|exact IH].
        intros hi Hi. destruct (IH hi Hi) as (v1 & h' & E1 & L1 & _ & Rp & Fr & Fm & Hh1 & Hf1 & Hm1).
        exists v1, (Some o). split; [exact E1|]. repeat split; auto.
        -- exists h'. split; [apply (Rp o c eq_refl R)|exact L1].
        -- intros q cq -> Rq. destruct P as (_ & _ & _ & Cq). rewrite (Fr q); [exact Rq|apply clear_sym, (Cq _ (or_introl eq_refl))|].
           intros r Hr. apply clear_sym, (Cq r). right. exact Hr.
        -- intros q _ C. apply Fr; [apply (C _ (or_introl eq_refl))|]. intros r Hr. apply C. right. exact Hr.
        -- intros b _ Nb. apply Fm; [apply (Nb _ (or_introl eq_refl))|]. intros r Hr. apply Nb. right. exact Hr.
Qed.
Lemma apart_app (l k : list (nat * nat)) : ForallOrdPairs apart (l ++ k) -> ForallOrdPairs apart l.
Proof.
  induction l as [|a l IH]; intros H; constructor; inversion H; subst.
  - rewrite Forall_app in *. tauto.
  - auto.
Qed.
Lemma cover_two (rs : list (option (region B))) : forall h h' r r' b, nth_error rs h = Some (Some r) -> nth_error rs h' = Some (Some r') -> h <> h' ->
  one b (base r, size r) + one b (base r', size r') <= cover b (flat_map span rs).
Proof.
  induction rs as [|a rs IH]; intros [|h] [|h'] r r' b; cbn [nth_error flat_map]; try discriminate; try congruence.
  - intros [= ->] H _. rewrite cover_app. cbn [span]. rewrite cover_one.
    assert (one b (base r', size r') <= cover b (flat_map span rs)); [|lia].
    apply cover_in, in_flat_map. exists (Some r'). split; [eapply nth_error_In; eauto|left; reflexivity].
  - intros H [= ->] _. rewrite cover_app. cbn [span]. rewrite cover_one.
    assert (one b (base r, size r) <= cover b (flat_map span rs)); [|lia].
    apply cover_in, in_flat_map. exists (Some r). split; [eapply nth_error_In; eauto|left; reflexivity].
  - intros H H' Hn. rewrite cover_app. specialize (IH h h' r r' b H H' ltac:(congruence)). lia.
Qed.
Lemma live_in s h r : live s h = Some r -> In (base r, size r) (taken s).
Proof. intros H. apply live_nth in H. rewrite taken_span. apply in_flat_map. exists (Some r). split; [eapply nth_error_In; eauto|left; reflexivity]. Qed.
Lemma one_in b r : fst r <= b < fst r + snd r -> one b r = 1.
Proof. intros H. apply holds_true in H. unfold one. rewrite H. reflexivity. Qed.
(* no byte of a region belongs to a chunk, or to another region *)
Lemma region_chunk s h r i q : Tile s -> live s h = Some r -> i < size r -> In q (chunks s) -> ~ (fst q <= base r + i < fst q + snd q).
Proof.
  intros T Hl Hi Hq H. pose proof (t_cov _ T (base r + i)) as C. rewrite cover_app in C.
  pose proof (cover_in (base r + i) _ _ Hq) as C1. pose proof (cover_in (base r + i) _ _ (live_in _ _ _ Hl)) as C2.
  rewrite one_in in C1 by exact H. rewrite one_in in C2 by (cbn; lia). destruct (_ <? N); lia.
Qed.
Lemma region_region s h h' r r' i : Tile s -> live s h = Some r -> live s h' = Some r' -> h <> h' -> i < size r -> ~ (base r' <= base r + i < base r' + size r').
Proof.
  intros T Hl Hl' Hn Hi H. pose proof (t_cov _ T (base r + i)) as C. rewrite cover_app, taken_span in C.
  apply live_nth in Hl, Hl'. pose proof (cover_two _ _ _ _ _ (base r + i) Hl Hl' Hn) as C1. rewrite !one_in in C1 by (cbn; lia).
  destruct (_ <? N); lia.
Qed.
Lemma live_set s l ph rs h x h' : nth_error rs h = Some x -> forall y, regions s = rs ->
  live {| chunks := l; regions := set_nth rs h y; at_phase := ph |} h' = if h' =? h then y else live s h'.
Proof.
  intros E y <-. unfold live. cbn [regions]. rewrite set_nth_nth.
  assert (h < length (regions s)) as Hlt by (apply nth_error_Some; congruence). apply Nat.ltb_lt in Hlt. rewrite Hlt, andb_true_r.
  destruct (h' =? h); [destruct y|]; reflexivity.
Qed.
Lemma chunk_ok s r : Tile s -> In r (chunks s) -> hdr <= snd r /\ fst r + snd r <= N.
Proof. intros T H. assert (In r (chunks s ++ taken s)) by (rewrite in_app_iff; auto). split; [eapply t_big; eauto|eapply tile_in; eauto]. Qed.

Lemma maint_sim v s : Tile s -> Sim v s -> legal hdr s Maint -> exists v1, maint hdr N v = Ok v1 /\ Sim v1 (fst (act hdr s Maint)) /\
  (at_phase s = Idle -> at_phase (fst (act hdr s Maint)) = Compacting -> length (chunks s) = 2 -> evaluating v1 = None).
Proof.
  intros T S0 (L1 & L2). cbn [act]. destruct S0 as [Sl Sh Sk Sm]. unfold maint. destruct (at_phase s) eqn:Ep.
  - rewrite Sm. specialize (L2 eq_refl). unfold maint_step. set (w := put_processed _ 0).
    pose proof (fun r Hr => chunk_ok s r T Hr) as Hb. pose proof (apart_app _ _ (tile_apart s T)) as Ha.
    assert (Hr : forall h r i q, live s h = Some r -> i < size r -> In q (chunks s) -> ~ (fst q <= base r + i < fst q + snd q))
      by (intros; eapply region_chunk; eauto).
    assert (Hlive : forall l ph h, live {| chunks := l; regions := regions s; at_phase := ph |} h = live s h) by reflexivity.
    assert (Rw : forall o, rd_item w o = rd_item v o) by (intros; apply rd_same_mem; split; reflexivity).
    assert (Ew : evaluating w = free_head v) by reflexivity. assert (Pw : evaluating_prev w = None) by reflexivity.
    assert (Mw : mem w = mem v) by reflexivity. assert (Hw : handles w = handles v) by reflexivity. assert (Fw : free_head w = free_head v) by reflexivity.
    assert (Qw : processed w = 0) by reflexivity. assert (Dw : mode w = Compact) by reflexivity. clearbody w.
    destruct (chunks s) as [|[o1 c1] rest] eqn:Ec; [destruct (L2 eq_refl)|].
    destruct Sl as (E1 & nx1 & R1 & Sl). unfold maint_compact. rewrite Ew, E1, Rw, R1. cbn [bind next].
    destruct rest as [|[o2 c2] rest].
    + cbn in Sl. subst nx1. cbn [bind]. rewrite Qw. cbn [Nat.eqb]. eexists. split; [reflexivity|]. cbn [settle fst]. split; [|first [intros ? Hx; cbn in Hx; discriminate Hx | intros Hx; discriminate Hx | intros _ _ Hx; destruct rest; [|discriminate Hx]; cbn in Sl; subst nx2; reflexivity]]. constructor; cbn [chunks regions at_phase free_head handles mem mode put_mode].
      * rewrite Fw, E1. split; [reflexivity|]. exists None. split; [|reflexivity]. rewrite <- R1, <- Rw. apply rd_same_mem. split; reflexivity.
      * rewrite Hw. exact Sh.
      * intros h r i x. rewrite Hlive, Mw. apply Sk.
      * reflexivity.
    + destruct Sl as (-> & nx2 & R2 & Sl).
      pose proof (Hb _ (or_introl eq_refl)) as H1. pose proof (Hb _ (or_intror (or_introl eq_refl))) as H2. cbn in H1, H2.
      inversion Ha as [|? ? A1 A2]; subst. inversion A2 as [|? ? A3 A4]; subst. rewrite Forall_forall in A1, A3.
      assert (C12 : clear o1 o2). { pose proof (A1 _ (or_introl eq_refl)) as A. unfold apart, clear in *. cbn in A. lia. }
      assert (C1 : forall r, In r rest -> clear o1 (fst r)). { intros r Hi. pose proof (A1 r (or_intror Hi)) as A. pose proof (Hb r (or_intror (or_intror Hi))). unfold apart, clear in *. cbn in A. lia. }
      assert (C2 : forall r, In r rest -> clear o2 (fst r)). { intros r Hi. pose proof (A3 r Hi) as A. pose proof (Hb r (or_intror (or_intror Hi))). unfold apart, clear in *. cbn in A. lia. }
      assert (N1 : forall h r i, live s h = Some r -> i < size r -> ~ (o1 <= base r + i < o1 + hdr)).
      { intros h r i Hl Hi. pose proof (Hr h r i _ Hl Hi (or_introl eq_refl)) as X. cbn in X. lia. }
      assert (N2 : forall h r i, live s h = Some r -> i < size r -> ~ (o2 <= base r + i < o2 + hdr)).
      { intros h r i Hl Hi. pose proof (Hr h r i _ Hl Hi (or_intror (or_introl eq_refl))) as X. cbn in X. lia. }
      cbn [settle]. destruct (Nat.ltb_spec o2 o1) as [Lt|Ge].
      * rewrite Rw, R2. cbn [bind next chunk].
        destruct (wr_ok (put_processed w (S (processed w))) o2 {| next := Some o1; chunk := c2 |} ltac:(lia)) as (v1 & W1). rewrite W1. cbn [bind].
        assert (X1 : rd_item v1 o1 = Ok {| next := Some o2; chunk := c1 |}).
        { rewrite (rd_wr_other _ _ _ _ o1 W1) by (apply clear_sym; exact C12). rewrite <- R1, <- Rw. apply rd_same_mem. split; reflexivity. }
        rewrite X1. cbn [bind next chunk].
        destruct (wr_ok v1 o1 {| next := nx2; chunk := c1 |} ltac:(lia)) as (v2 & W2). rewrite W2. cbn [bind]. rewrite Pw. cbn [bind].
        pose proof (wr_same _ _ _ _ W1) as S1. pose proof (wr_same _ _ _ _ W2) as S2.
        set (v3 := put_head v2 (Some o2)).
        assert (Y2 : rd_item v3 o2 = Ok {| next := Some o1; chunk := c2 |}).
        { change (rd_item v3 o2) with (rd_item v2 o2). rewrite (rd_wr_other _ _ _ _ o2 W2) by exact C12. eapply rd_wr_same; eauto. }
        assert (Y1 : rd_item v3 o1 = Ok {| next := nx2; chunk := c1 |}) by (change (rd_item v3 o1) with (rd_item v2 o1); exact (rd_wr_same _ _ _ _ W2)).
        assert (Yr : forall r, In r rest -> rd_item v3 (fst r) = rd_item v (fst r)).
        { intros r Hi. change (rd_item v3 (fst r)) with (rd_item v2 (fst r)). rewrite (rd_wr_other _ _ _ _ (fst r) W2) by (apply C1; exact Hi).
          rewrite (rd_wr_other _ _ _ _ (fst r) W1) by (apply C2; exact Hi). rewrite <- Rw. apply rd_same_mem. split; reflexivity. }
        assert (Y : forall b, ~ (o1 <= b < o1 + hdr) -> ~ (o2 <= b < o2 + hdr) -> mem v3 b = mem v b).
        { intros b B1 B2. change (mem v3 b) with (mem v2 b). rewrite (wr_mem _ _ _ _ b W2 B1), (wr_mem _ _ _ _ b W1 B2). cbn. rewrite Mw. reflexivity. }
        assert (F3 : free_head v3 = Some o2) by reflexivity.
        assert (H3 : handles v3 = handles v). { change (handles v3) with (handles v2). rewrite (sm_handles _ _ S2), (sm_handles _ _ S1). exact Hw. }
        assert (D3 : mode v3 = Compact). { change (mode v3) with (mode v2). rewrite (sm_mode _ _ S2), (sm_mode _ _ S1). exact Dw. }
        assert (Q3 : processed v3 = 1). { change (processed v3) with (processed v2). rewrite (sm_pr _ _ S2), (sm_pr _ _ S1). cbn. rewrite Qw. reflexivity. }
        clearbody v3. unfold maint_absorb. rewrite Y2. cbn [bind chunk].
        replace (o1 - o2 =? c2) with (o2 + c2 =? o1) by (destruct (Nat.eqb_spec (o2 + c2) o1), (Nat.eqb_spec (o1 - o2) c2); lia).
        destruct (Nat.eqb_spec (o2 + c2) o1) as [Et|Et].
        -- rewrite Y1. cbn [bind next chunk].
           destruct (wr_ok (put_processed v3 (S (processed v3))) o2 {| next := nx2; chunk := c2 + c1 |} ltac:(lia)) as (v4 & W4). rewrite W4. cbn [bind].
           pose proof (wr_same _ _ _ _ W4) as S4.
           assert (Z1 : rd_item v4 o1 = Ok {| next := nx2; chunk := c1 |}).
           { rewrite (rd_wr_other _ _ _ _ o1 W4) by (apply clear_sym; exact C12). rewrite <- Y1. apply rd_same_mem. split; reflexivity. }
           rewrite Z1. cbn [bind next put_eval processed]. rewrite (sm_pr _ _ S4). cbn [put_processed processed Nat.eqb].
           eexists. split; [reflexivity|]. cbn [fst]. split; [|first [intros ? Hx; cbn in Hx; discriminate Hx | intros Hx; discriminate Hx | intros _ _ Hx; destruct rest; [|discriminate Hx]; cbn in Sl; subst nx2; reflexivity]]. constructor; cbn [chunks regions at_phase free_head handles mem mode put_eval].
           ++ rewrite (sm_head _ _ S4). cbn [free_head put_processed]. rewrite F3. split; [reflexivity|]. exists nx2. split; [rewrite <- (rd_wr_same _ _ _ _ W4); apply rd_same_mem; split; reflexivity|].
              apply (linked_frame v); [|exact Sl]. intros r Hi. transitivity (rd_item v4 (fst r)); [apply rd_same_mem; split; reflexivity|].
              rewrite (rd_wr_other _ _ _ _ (fst r) W4) by (apply C2; exact Hi). rewrite <- Yr by exact Hi. apply rd_same_mem. split; reflexivity.
           ++ rewrite (sm_handles _ _ S4). cbn [handles put_processed]. rewrite H3. exact Sh.
           ++ intros h r i x. rewrite Hlive. intros Hl Hi Hk. rewrite (wr_mem _ _ _ _ _ W4) by (eapply N2; eauto). cbn [mem put_processed]. rewrite Y by eauto. eapply Sk; eauto.
           ++ rewrite (sm_mode _ _ S4). cbn [mode put_processed]. rewrite D3. reflexivity.
        -- cbn [bind]. rewrite Y1. cbn [bind next put_eval processed]. rewrite Q3. cbn [Nat.eqb]. eexists. split; [reflexivity|]. cbn [fst]. split; [|first [intros ? Hx; cbn in Hx; discriminate Hx | intros Hx; discriminate Hx | intros _ _ Hx; destruct rest; [|discriminate Hx]; cbn in Sl; subst nx2; reflexivity]]. 
           constructor; cbn [chunks regions at_phase free_head handles mem mode put_eval].
           ++ rewrite F3. split; [reflexivity|]. exists (Some o1). split; [rewrite <- Y2; apply rd_same_mem; split; reflexivity|].
              split; [reflexivity|]. exists nx2. split; [rewrite <- Y1; apply rd_same_mem; split; reflexivity|].
              apply (linked_frame v); [|exact Sl]. intros r Hi. rewrite <- Yr by exact Hi. apply rd_same_mem; split; reflexivity.
           ++ rewrite H3. exact Sh.
           ++ intros h r i x. rewrite Hlive. intros Hl Hi Hk. rewrite Y by eauto. eapply Sk; eauto.
           ++ rewrite D3. reflexivity.
      * unfold maint_absorb. rewrite Rw, R1. cbn [bind chunk].
        replace (o2 - o1 =? c1) with (o1 + c1 =? o2) by (destruct (Nat.eqb_spec (o1 + c1) o2), (Nat.eqb_spec (o2 - o1) c1); lia).
        destruct (Nat.eqb_spec (o1 + c1) o2) as [Et|Et].
        -- rewrite Rw, R2. cbn [bind next chunk].
           destruct (wr_ok (put_processed w (S (processed w))) o1 {| next := nx2; chunk := c1 + c2 |} ltac:(lia)) as (v4 & W4). rewrite W4. cbn [bind].
           pose proof (wr_same _ _ _ _ W4) as S4.
           assert (Z1 : rd_item v4 o2 = Ok {| next := nx2; chunk := c2 |}).
           { rewrite (rd_wr_other _ _ _ _ o2 W4) by exact C12. rewrite <- R2, <- Rw. apply rd_same_mem. split; reflexivity. }
           rewrite Z1. cbn [bind next put_eval processed]. rewrite (sm_pr _ _ S4). cbn [put_processed processed Nat.eqb].
           eexists. split; [reflexivity|]. cbn [fst]. split; [|first [intros ? Hx; cbn in Hx; discriminate Hx | intros Hx; discriminate Hx | intros _ _ Hx; destruct rest; [|discriminate Hx]; cbn in Sl; subst nx2; reflexivity]]. constructor; cbn [chunks regions at_phase free_head handles mem mode put_eval].
           ++ rewrite (sm_head _ _ S4). cbn [free_head put_processed]. rewrite Fw, E1. split; [reflexivity|]. exists nx2. split; [rewrite <- (rd_wr_same _ _ _ _ W4); apply rd_same_mem; split; reflexivity|].
              apply (linked_frame v); [|exact Sl]. intros r Hi. transitivity (rd_item v4 (fst r)); [apply rd_same_mem; split; reflexivity|].
              rewrite (rd_wr_other _ _ _ _ (fst r) W4) by (apply C1; exact Hi). rewrite <- Rw. apply rd_same_mem. split; reflexivity.
           ++ rewrite (sm_handles _ _ S4). cbn [handles put_processed]. rewrite Hw. exact Sh.
           ++ intros h r i x. rewrite Hlive. intros Hl Hi Hk. rewrite (wr_mem _ _ _ _ _ W4) by (eapply N1; eauto). cbn [mem put_processed]. rewrite Mw. eapply Sk; eauto.
           ++ rewrite (sm_mode _ _ S4). cbn [mode put_processed]. rewrite Dw. reflexivity.
        -- cbn [bind]. rewrite Rw, R1. cbn [bind next put_eval processed]. rewrite Qw. cbn [Nat.eqb]. eexists. split; [reflexivity|]. cbn [fst]. split; [|first [intros ? Hx; cbn in Hx; discriminate Hx | intros Hx; discriminate Hx | intros _ _ Hx; destruct rest; [|discriminate Hx]; cbn in Sl; subst nx2; reflexivity]]. 
           constructor; cbn [chunks regions at_phase free_head handles mem mode put_eval put_mode].
           ++ rewrite Fw, E1. split; [reflexivity|]. exists (Some o2). split; [rewrite <- R1, <- Rw; apply rd_same_mem; split; reflexivity|].
              split; [reflexivity|]. exists nx2. split; [rewrite <- R2, <- Rw; apply rd_same_mem; split; reflexivity|].
              apply (linked_frame v); [|exact Sl]. intros r Hi. rewrite <- Rw. apply rd_same_mem; split; reflexivity.
           ++ rewrite Hw. exact Sh.
           ++ intros h r i x. rewrite Hlive, Mw. apply Sk.
           ++ reflexivity.
  - destruct (L1 eq_refl).
  - rewrite Sm. eexists. split; [reflexivity|]. cbn [fst]. split; [|first [intros ? Hx; cbn in Hx; discriminate Hx | intros Hx; discriminate Hx | intros _ _ Hx; destruct rest; [|discriminate Hx]; cbn in Sl; subst nx2; reflexivity]]. constructor; cbn; auto.
    eapply linked_frame; [|exact Sl]. reflexivity.
Qed.

Lemma step_sim v s o : Tile s -> Sim v s -> legal hdr s o -> exists v1, do_op hdr N v o = Ok (v1, snd (act hdr s o)) /\ Sim v1 (fst (act hdr s o)).
Proof.
  intros T S0 L. destruct o.
  - destruct S0 as [Sl Sh Sk Sm]. cbn [act legal do_op] in *. destruct L as (G & F). unfold allocate.
    replace (if n <? hdr then hdr else n) with (at_least hdr n) by (unfold at_least; destruct (Nat.ltb_spec n hdr); lia).
    pose proof (alloc_sim (at_least hdr n) (chunks s) (S (S N)) v (free_head v) None true) as A.
    pose proof (tile_length s T) as TL. specialize (A ltac:(lia) Sl G (apart_app _ _ (tile_apart s T)) (fun r Hr => chunk_ok s r T Hr) eq_refl).
    destruct (take (at_least hdr n) (chunks s)) as [[p l]|] eqn:Et.
    + destruct (free_index (regions s)) as [h|] eqn:Ef; [|destruct (F ltac:(discriminate) eq_refl)].
      destruct (A h) as (v1 & h' & E & L1 & Hh' & _ & Fr & Fm & H1 & H2 & H3).
      { unfold get_free_handle. rewrite Sh, scan_map, Ef. reflexivity. }
      rewrite E. cbn [bind snd fst]. eexists. split; [reflexivity|]. constructor; cbn [chunks regions at_phase].
      * rewrite H2. rewrite (Hh' eq_refl) in L1. exact L1.
      * rewrite H1, Sh, map_set_nth. reflexivity.
      * intros k r i x. rewrite (live_set s l (at_phase s) (regions s) h None k (free_index_spec _ _ Ef) _ eq_refl).
        destruct (k =? h); [intros [= <-] _; cbn; discriminate|]. intros Hl Hi Hk. rewrite Fm; [eapply Sk; eauto|exact I|].
        intros q Hq. pose proof (region_chunk s k r i q T Hl Hi Hq). pose proof (chunk_ok s q T Hq). lia.
      * rewrite H3. exact Sm.
    + rewrite A. cbn [bind snd fst]. eexists. split; [reflexivity|]. constructor; assumption.
  - destruct S0 as [Sl Sh Sk Sm]. cbn [act legal do_op] in *. destruct (live s h) as [r|] eqn:E; [|destruct (L eq_refl)]. cbn [snd fst].
    unfold free. pose proof E as El. apply live_nth in E. rewrite Sh, nth_error_map, E. cbn [option_map].
    pose proof (live_in s h r El) as Hin. assert (Hin' : In (base r, size r) (chunks s ++ taken s)) by (rewrite in_app_iff; auto).
    pose proof (tile_in s _ T Hin') as Hn. pose proof (t_big _ T _ Hin') as Hg. cbn in Hn, Hg.
    destruct (wr_ok v (base r) {| next := free_head v; chunk := size r |} ltac:(lia)) as (v1 & W). rewrite W. cbn [bind].
    pose proof (wr_same _ _ _ _ W) as Q. eexists. split; [reflexivity|]. constructor; cbn [chunks regions at_phase free_head handles put_head put_handle mem mode].
    + split; [reflexivity|]. exists (free_head v). split; [rewrite <- (rd_wr_same _ _ _ _ W); apply rd_same_mem; split; reflexivity|]. apply (linked_frame v); [|exact Sl].
      intros q Hq. transitivity (rd_item v1 (fst q)); [apply rd_same_mem; split; reflexivity|]. apply (rd_wr_other _ _ _ _ (fst q) W).
      pose proof (chunk_ok s q T Hq) as Hc. unfold clear.
      destruct (le_lt_dec (base r + hdr) (fst q)) as [|X1]; [left; assumption|]. destruct (le_lt_dec (fst q + hdr) (base r)) as [|X2]; [right; assumption|]. exfalso.
      destruct (le_lt_dec (fst q) (base r)).
      * apply (region_chunk s h r 0 q T El ltac:(lia) Hq). lia.
      * apply (region_chunk s h r (fst q - base r) q T El ltac:(lia) Hq). lia.
    + rewrite (sm_handles _ _ Q), Sh, map_set_nth. reflexivity.
    + intros k r' i x. rewrite (live_set s _ (at_phase s) (regions s) h (Some r) k E _ eq_refl).
      destruct (Nat.eqb_spec k h) as [|Hne]; [discriminate|]. intros Hl Hi Hk. rewrite (wr_mem _ _ _ _ _ W); [eapply Sk; eauto|].
      pose proof (region_region s k h r' r i T Hl El Hne Hi). lia.
    + rewrite (sm_mode _ _ Q). exact Sm.
  - destruct S0 as [Sl Sh Sk Sm]. cbn [act do_op snd fst]. unfold total_free. pose proof (tile_length s T) as TL.
    rewrite (total_sim v (chunks s)) by (assumption || lia). cbn [bind]. rewrite !Nat.add_0_l. eexists. split; [reflexivity|]. constructor; assumption.
  - destruct S0 as [Sl Sh Sk Sm]. cbn [act legal do_op] in *. destruct L as (r & El & Hi). rewrite El. cbn [snd fst]. pose proof El as E. apply live_nth in E.
    unfold store. rewrite Sh, nth_error_map, E. cbn [option_map].
    assert (Hin' : In (base r, size r) (chunks s ++ taken s)) by (rewrite in_app_iff; right; eapply live_in; eauto).
    pose proof (tile_in s _ T Hin') as Hn. cbn in Hn.
    apply Nat.ltb_lt in Hi as Hi'. rewrite Hi'. replace (base r + i <? N) with true by (symmetry; apply Nat.ltb_lt; lia). cbn [andb bind].
    eexists. split; [reflexivity|]. constructor; cbn [chunks regions at_phase free_head handles mem mode].
    + apply (linked_frame v); [|exact Sl]. intros q Hq. apply rd_mem; [|reflexivity]. cbn [mem]. intros b Hb.
      pose proof (region_chunk s h r i q T El Hi Hq). pose proof (chunk_ok s q T Hq). destruct (Nat.eqb_spec b (base r + i)); [lia|reflexivity].
    + rewrite map_set_nth. clear -E. revert h E. induction (regions s) as [|a l IH]; intros [|h]; cbn; try discriminate.
      * intros [= ->]. reflexivity.
      * intros H. f_equal. apply IH. exact H.
    + intros k r' j y. rewrite (live_set s (chunks s) (at_phase s) (regions s) h (Some r) k E _ eq_refl).
      destruct (Nat.eqb_spec k h) as [->|Hne].
      * intros [= <-]. cbn [put_kept base size kept]. intros Hj. destruct (Nat.eqb_spec j i) as [->|Hji].
        -- intros [= <-]. rewrite Nat.eqb_refl. reflexivity.
        -- intros Hk. destruct (Nat.eqb_spec (base r + j) (base r + i)); [lia|]. eapply Sk; eauto.
      * intros Hl Hj Hk. pose proof (region_region s k h r' r j T Hl El Hne Hj). destruct (Nat.eqb_spec (base r' + j) (base r + i)); [lia|]. eapply Sk; eauto.
    + exact Sm.
  - destruct S0 as [Sl Sh Sk Sm]. cbn [act legal do_op snd fst] in *. destruct L as (r & El & Hi & Hk). rewrite El. pose proof El as E. apply live_nth in E.
    unfold load. rewrite Sh, nth_error_map, E. cbn [option_map]. apply Nat.ltb_lt in Hi as Hi'. rewrite Hi'.
    destruct (kept r i) as [x|] eqn:Ek; [|destruct (Hk eq_refl)]. rewrite (Sk h r i x El Hi Ek). cbn [bind]. eexists. split; [reflexivity|]. constructor; assumption.
  - destruct (maint_sim v s T S0 L) as (v1 & E & S1 & _). cbn [do_op]. rewrite E. cbn [bind]. exists v1. split; [|exact S1].
    cbn [act]. destruct (at_phase s); try reflexivity. destruct (settle (chunks s)); reflexivity.
Qed.
Lemma run_sim h : forall v s, Tile s -> Sim v s -> all_legal hdr s h -> exists v1, run hdr N v h = Ok (v1, snd (runs hdr s h)) /\ Sim v1 (fst (runs hdr s h)).
Proof.
  induction h as [|o h IH]; intros v s T S0 L.
  - exists v. split; [reflexivity|exact S0].
  - destruct L as (L & L'). destruct (step_sim v s o T S0 L) as (v1 & E & S1). cbn [run runs]. rewrite E. cbn [bind].
    pose proof (act_tile s o T L) as T1. destruct (act hdr s o) as [s1 a]. cbn [fst snd] in *.
    destruct (IH v1 s1 T1 S1 L') as (v2 & E2 & S2). rewrite E2. cbn [bind]. destruct (runs hdr s1 h) as [s2 l]. exists v2. split; [reflexivity|exact S2].
Qed.
Lemma run_tile h : forall s, Tile s -> all_legal hdr s h -> Tile (fst (runs hdr s h)).
Proof.
  induction h as [|o h IH]; intros s T L; [exact T|]. destruct L as (L & L'). cbn [runs]. pose proof (act_tile s o T L) as T1.
  destruct (act hdr s o) as [s1 a]. cbn [fst] in *. specialize (IH s1 T1 L'). destruct (runs hdr s1 h) as [s2 l]. exact IH.
Qed.
Lemma start_sim K : hdr <= N -> exists v, vm_init hdr N K = Ok v /\ Sim v (ideal_start N K).
Proof.
  intros H. unfold vm_init. set (v0 := {| mem := _ |}). destruct (wr_ok v0 0 {| next := None; chunk := N |} H) as (v & W). exists v. split; [exact W|].
  pose proof (wr_same _ _ _ _ W) as Q. constructor; cbn [ideal_start chunks regions at_phase].
  - rewrite (sm_head _ _ Q). split; [reflexivity|]. exists None. split; [eapply rd_wr_same; eauto|reflexivity].
  - rewrite (sm_handles _ _ Q). cbn. clear. induction K; cbn; [reflexivity|]. f_equal. assumption.
  - intros h r i x Hl. exfalso. unfold live in Hl. cbn in Hl. destruct (nth_error (repeat None K) h) as [[r'|]|] eqn:En; try discriminate.
    apply nth_error_In, repeat_spec in En. discriminate.
  - rewrite (sm_mode _ _ Q). reflexivity.
Qed.

(* ---- what goes wrong *)
Lemma run_app h : forall v k v1 l, run hdr N v h = Ok (v1, l) -> run hdr N v (h ++ k) = bind (run hdr N v1 k) (fun p => Ok (fst p, l ++ snd p)).
Proof.
  induction h as [|o h IH]; intros v k v1 l.
  - intros [= <- <-]. cbn. destruct (run hdr N v k) as [[v2 l2]| |]; reflexivity.
  - cbn [run app]. destruct (do_op hdr N v o) as [[v2 a]| |]; cbn [bind]; try discriminate.
    destruct (run hdr N v2 h) as [[v3 l3]| |] eqn:E; cbn [bind]; try discriminate. intros [= <- <-]. rewrite (IH _ _ _ _ E).
    destruct (run hdr N v3 k) as [[v4 l4]| |]; reflexivity.
Qed.
Lemma run_one v o : run hdr N v [o] = bind (do_op hdr N v o) (fun p => Ok (fst p, [snd p])).
Proof. cbn. destruct (do_op hdr N v o) as [[v1 a]| |]; reflexivity. Qed.
Lemma alloc_exact v o n r : linked v (free_head v) ((o, at_least hdr n) :: r) -> allocate hdr N v n = UB.
Proof.
  intros (E & nx & R & _). unfold allocate. rewrite E. cbn [alloc_loop]. rewrite R. cbn [bind chunk].
  replace (if n <? hdr then hdr else n) with (at_least hdr n) by (unfold at_least; destruct (Nat.ltb_spec n hdr); lia). rewrite Nat.eqb_refl. reflexivity.
Qed.
Lemma alloc_no_handle n l : forall fuel v h prev, length l < fuel -> linked v h l -> get_free_handle v = None -> take n l <> None -> alloc_loop hdr N fuel v h prev n = UB.
Proof.
  induction l as [|[o c] l IH]; intros [|fuel] v h prev Hf L G T; cbn in Hf; try lia; [destruct (T eq_refl)|].
  destruct L as (-> & nx & R & L). cbn [alloc_loop take] in *. rewrite R. cbn [bind next chunk].
  destruct (c =? n).
  - destruct prev as [q|]; [|reflexivity]. destruct (rd_item v q) as [pit| |] eqn:Eq; cbn [bind]; try reflexivity.
    + destruct (wr_item v q {| next := nx; chunk := chunk pit |}) as [v1| |] eqn:W; cbn [bind]; try reflexivity.
      * unfold get_free_handle in *. rewrite (sm_handles _ _ (wr_same _ _ _ _ W)), G. reflexivity.
      * unfold Vm_Model.wr_item in W. destruct (q + hdr <=? N); discriminate.
    + unfold Vm_Model.rd_item in Eq. destruct (forallb _ _); discriminate.
  - destruct (n <? c); [rewrite G; reflexivity|]. apply IH; [lia|exact L|exact G|]. destruct (take n l) as [[p q]|]; [discriminate|exact T].
Qed.
Lemma small_rest v n r K (x : B) : hdr <= N -> 0 < r -> r < hdr -> hdr <= n -> n + r = N -> vm_init hdr N (S K) = Ok v -> run hdr N v [Alloc n; Store 0 0 x; Total] = UB.
Proof.
  intros Hn H0 H1 H2 H3 Hi. destruct (start_sim (S K) Hn) as (v' & E & S0). rewrite Hi in E. injection E as <-. destruct S0 as [Sl Sh _ _].
  destruct Sl as (Eh & nx & R & _). cbn [ideal_start] in Sh. cbn in Sh.
  cbn [run do_op]. unfold allocate. rewrite Eh. cbn [alloc_loop]. rewrite R. cbn [bind chunk next].
  replace (if n <? hdr then hdr else n) with n by (destruct (Nat.ltb_spec n hdr); lia).
  replace (N =? n) with false by (symmetry; apply Nat.eqb_neq; lia). replace (n <? N) with true by (symmetry; apply Nat.ltb_lt; lia).
  unfold get_free_handle. rewrite Sh. cbn [scan_handles].
  destruct (wr_ok (put_handle v 0 (Some (0 + (N - n), n))) 0 {| next := nx; chunk := N - n |} ltac:(lia)) as (v1 & W). rewrite W. cbn [bind].
  pose proof (wr_same _ _ _ _ W) as Q. unfold store. rewrite (sm_handles _ _ Q). cbn [put_handle handles]. rewrite Sh. cbn [set_nth nth_error].
  replace (0 <? n) with true by (symmetry; apply Nat.ltb_lt; lia). replace (0 + (N - n) + 0 <? N) with true by (symmetry; apply Nat.ltb_lt; lia). cbn [andb bind].
  unfold total_free. cbn [free_head]. rewrite (sm_head _ _ Q). cbn [put_handle free_head]. rewrite Eh. cbn [total_loop].
  replace (rd_item _ 0) with (@UB item); [reflexivity|]. symmetry. unfold Vm_Model.rd_item. cbn [mem].
  replace (forallb _ _) with false; [reflexivity|]. symmetry. apply not_true_is_false. intros F. rewrite forallb_forall in F.
  specialize (F r). rewrite in_seq in F. specialize (F ltac:(lia)). replace (r =? 0 + (N - n) + 0) with true in F by (symmetry; apply Nat.eqb_eq; lia). discriminate.
Qed.
Lemma maint_twice v s : Tile s -> Sim v s -> legal hdr s Maint -> at_phase s = Idle -> at_phase (fst (act hdr s Maint)) = Compacting -> length (chunks s) = 2 -> run hdr N v [Maint; Maint] = UB.
Proof.
  intros T S0 L P1 P2 P3. destruct (maint_sim v s T S0 L) as (v1 & E & S1 & Ev). specialize (Ev P1 P2 P3).
  cbn [run do_op]. rewrite E. cbn [bind]. unfold maint. rewrite (s_mode _ _ S1), P2. unfold maint_step, maint_compact. cbn [put_processed evaluating]. rewrite Ev. reflexivity.
Qed.

(* ---- the storage is shared out *)
Lemma used_taken v s : Sim v s -> used v = taken s.
Proof.
  intros S0. unfold used. rewrite (s_handles _ _ S0), taken_span. induction (regions s) as [|[r|] l IH]; cbn; [reflexivity|f_equal; exact IH|exact IH].
Qed.
End Vm.
