(* String stream buffers: C127-C132. *)
From Verif Require Import Base MachInt Streambuf_Model Stream_Spec Dyn_Spec Dyn_Model Dyn_View
  Sstr_Spec Sstr_Model Sstr_Proofs Stream_Proofs Dyn_Proofs.
Local Open Scope Z_scope.
Local Open Scope res_scope.

(* A history [os] over a string of N characters of storage that holds [l] at the start: the
   text fits, its characters are chars (and not the one the traits take for end of file), its
   length is one in_avail() can answer, and the counts are ones size_type can hold. *)
Definition legal (sm : nat) (na nul : bool) (N : nat) (tr : traits) (l : list Z) (os : list sop) : Prop :=
  let all := l ++ written os in
  fits nul N all /\ plain tr all /\ (tr = EstdTraits -> Z.of_nat (length all) < 32768) /\
  counts_ok sm na (length all) os.
(* [b] is the buffer after such a history; the text is then [text] and [k] characters are read *)
Definition reached (sm : nat) (na nd nul : bool) (N : nat) (tr : traits) (text : list Z) (k : nat) (b : sbf) : Prop :=
  exists vos l v os ans, str_after sm na nd nul N vos l v /\ legal sm na nul N tr l os /\
    s_run (str_cfg sm na nd nul) tr os (s_init v) = Ok (Go (ans, b)) /\
    snd (srun tr os l 0) = (text, k).

Theorem C127_stringbuf_history sm na nd nul N tr vos l v os :
  str_after sm na nd nul N vos l v -> legal sm na nul N tr l os ->
  exists b, s_run (str_cfg sm na nd nul) tr os (s_init v) = Ok (Go (fst (srun tr os l 0), b)) /\
    s_str (str_cfg sm na nd nul) b = Ok (l ++ written os).
Proof.
  intros H (F & P & E & X). destruct (after_str _ _ _ _ _ _ _ _ H) as [HN A].
  destruct (run_str sm na nd nul tr N HN os (s_init v) l 0 A F P E X) as (b & Q & A1).
  exists b. split; [exact Q|]. rewrite <- (srun_text tr os l 0).
  destruct A1 as (H1 & _). exact (ll_iter _ _ _ (holds_looks _ _ _ H1)).
Qed.
Print Assumptions C127_stringbuf_history.

Lemma reached_at sm na nd nul N tr text k b : reached sm na nd nul N tr text k b ->
  (N < sm)%nat /\ sb_at sm na nd nul N b text k /\ plain tr text /\ (length text <= room nul N)%nat.
Proof.
  intros (vos & l & v & os & ans & H & (F & P & E & X) & R & S1).
  destruct (after_str _ _ _ _ _ _ _ _ H) as [HN A]. split; [exact HN|].
  destruct (run_str sm na nd nul tr N HN os (s_init v) l 0 A F P E X) as (b1 & Q & A1).
  rewrite Q in R. injection R as _ <-. pose proof (srun_text tr os l 0) as T. rewrite S1 in *. cbn [fst snd] in *.
  split; [exact A1|]. subst text. split; [exact P|apply F].
Qed.

(* a layer1 stringstream of 8 characters: "ab" written, one read, "cd" written, the rest read *)
Definition c8 := str_cfg 256 true false true.
Definition fresh8 : arr Z := Arr [0; 7; 7; 7; 7; 7; 7; 7] 0.
Lemma fresh8_after : str_after 256 true false true 8 [] [] fresh8.
Proof.
  split; [lia|]. exists [7; 7; 7; 7; 7; 7; 7; 7], fresh8. split; [reflexivity|].
  split; [vm_compute; reflexivity|]. split; [constructor; cbn; auto; lia|reflexivity].
Qed.
Definition os1 : list sop :=
  [SPut (PutN [97; 98]); SGet Bumpc; SPut (PutC 99); SPut (PutN [100]); SAvail; SGet (Getn 5); SGet Getc; SGet Ungetc; SStr].
Lemma os1_legal : legal 256 true true 8 StdTraits [] os1.
Proof.
  split; [|split; [|split]].
  - split; [cbn; lia|]. intros _ I. cbn in I. repeat destruct I as [I|I]; try discriminate; exact I.
  - split; [cbn; lia|]. split; [repeat constructor; cbn; lia|discriminate].
  - discriminate.
  - intros n I. cbn in I. repeat destruct I as [I|I]; try discriminate; [injection I as <-; split; [lia|now left]|contradiction].
Qed.
Example C127_case :
  (exists vos l v os, str_after 256 true false true 8 vos l v /\ legal 256 true true 8 StdTraits l os /\ (length os = 9)%nat) /\
  match s_run c8 StdTraits os1 (s_init fresh8) with
  | Ok (Go (ans, _)) => ans = [[2]; [97]; [99]; [1]; [3]; [98; 99; 100]; [-1]; [100]; [97; 98; 99; 100]]
  | _ => False
  end.
Proof.
  split; [exists [], [], fresh8, os1; split; [exact fresh8_after|split; [exact os1_legal|reflexivity]]|].
  vm_compute. reflexivity.
Qed.

(* Text that does not fit: the answer never says so. *)
Theorem C128_full_write_refuted sm na nd nul N tr text k b s :
  reached sm na nd nul N tr text k b -> (room nul N < length text + length s)%nat ->
  (length text + length s < sm)%nat ->
  s_sputn (str_cfg sm na nd nul) b s =
    (if nd then UB else if Nat.ltb N (length text + length s) then Ok Assert else UB).
Proof. intros R O W. destruct (reached_at _ _ _ _ _ _ _ _ _ R) as (HN & A & _). eapply put_over; eauto. Qed.
Print Assumptions C128_full_write_refuted.
Theorem C128_full_sputc_refuted sm na nd nul N tr text k b x :
  reached sm na nd nul N tr text k b -> length text = room nul N -> (length text + 1 < sm)%nat ->
  s_sputc (str_cfg sm na nd nul) tr b x =
    (if nd then UB else if Nat.ltb N (length text + 1) then Ok Assert else UB).
Proof. intros R O W. destruct (reached_at _ _ _ _ _ _ _ _ _ R) as (HN & A & _). eapply put1_over; eauto. Qed.
Print Assumptions C128_full_sputc_refuted.
(* A 0 written to a null terminated string is answered as written, and is not. *)
Theorem C128_nul_write_refuted sm na nd N tr text k b :
  reached sm na nd true N tr text k b -> (length text < room true N)%nat ->
  exists b1, s_sputc (str_cfg sm na nd true) tr b 0 = Ok (Go (code tr 0, b1)) /\
    s_str (str_cfg sm na nd true) b1 = Ok text.
Proof.
  intros R O. destruct (reached_at _ _ _ _ _ _ _ _ _ R) as (HN & A & _).
  destruct (put_zero sm na nd N b text k tr HN A O) as (b1 & Q & A1). exists b1.
  split; [rewrite Q; unfold vret; rewrite to_int_code by (split; lia); reflexivity|].
  destruct A1 as (H1 & _). exact (ll_iter _ _ _ (holds_looks _ _ _ H1)).
Qed.
Print Assumptions C128_nul_write_refuted.

Definition b1 : sbf := Sbf (Arr [97; 98; 99; 100; 0; 7; 7; 7] 0) 3.
Lemma b1_reached : reached 256 true false true 8 StdTraits [97; 98; 99; 100] 3 b1.
Proof.
  exists [], [], fresh8, os1. eexists. split; [exact fresh8_after|]. split; [exact os1_legal|].
  split; [vm_compute; reflexivity|reflexivity].
Qed.
Example C128_case :
  reached 256 true false true 8 StdTraits [97; 98; 99; 100] 3 b1 /\
  s_sputn c8 b1 [1; 2; 3; 4; 5] = Ok Assert /\ s_sputn c8 b1 [1; 2; 3; 4] = UB.
Proof. split; [exact b1_reached|split; vm_compute; reflexivity]. Qed.

(* clear() empties the text but not the reader's position. *)
Theorem C129_clear_before_reading sm na nd nul N tr text b :
  reached sm na nd nul N tr text 0 b ->
  exists b1, s_clear (str_cfg sm na nd nul) b = Ok (Go b1) /\
    s_str (str_cfg sm na nd nul) b1 = Ok [] /\ s_sgetc (str_cfg sm na nd nul) tr b1 = Ok eof.
Proof.
  intros R. destruct (reached_at _ _ _ _ _ _ _ _ _ R) as (HN & A & _).
  destruct (clear_str sm na nd nul N HN b text 0 A) as (b2 & E & H1 & L1 & G1 & _).
  assert (A1 : sb_at sm na nd nul N b2 [] 0) by (split; [exact H1|split; [exact L1|split; [exact G1|cbn; lia]]]).
  exists b2. split; [exact E|]. split; [exact (ll_iter _ _ _ (holds_looks _ _ _ H1))|].
  rewrite (sgetc_at_str sm na nd nul tr N HN b2 [] 0 A1); [reflexivity|].
  split; [cbn; lia|]. split; [constructor|]. intros _ [].
Qed.
Print Assumptions C129_clear_before_reading.
Theorem C239_clear_position_refuted sm na nd nul N tr text k b x :
  reached sm na nd nul N tr text k b -> (1 <= k)%nat -> nth_error text k = Some x ->
  exists b1, s_clear (str_cfg sm na nd nul) b = Ok (Go b1) /\
    s_str (str_cfg sm na nd nul) b1 = Ok [] /\
    s_sgetc (str_cfg sm na nd nul) tr b1 = Ok (code tr x) /\ code tr x <> eof.
Proof.
  intros R K E. destruct (reached_at _ _ _ _ _ _ _ _ _ R) as (HN & A & P & _).
  destruct (clear_stale sm na nd nul tr N HN b text k x A P K E) as (b2 & Q & S1 & G).
  exists b2. split; [exact Q|]. split; [exact S1|]. split; [exact G|].
  destruct (plain_nth _ _ _ _ P E) as (_ & _ & _ & Q4). exact Q4.
Qed.
Print Assumptions C239_clear_position_refuted.
Example C129_case :
  reached 256 true false true 8 StdTraits [97; 98; 99; 100] 3 b1 /\ nth_error [97; 98; 99; 100] 3 = Some 100 /\
  (exists b2, s_clear c8 b1 = Ok (Go b2) /\ s_sgetc c8 StdTraits b2 = Ok 100).
Proof. split; [exact b1_reached|]. split; [reflexivity|]. eexists. split; vm_compute; reflexivity. Qed.

(* sgetn of a count beyond size_type reads the remainder of the count only. *)
Theorem C130_sgetn_count_refuted sm na nd nul N tr text k b n :
  reached sm na nd nul N tr text k b -> na = true \/ (n mod sm + length text < sm)%nat ->
  exists b1, s_sgetn (str_cfg sm na nd nul) b (Z.of_nat n) = Ok (firstn (n mod sm) (skipn k text), b1).
Proof.
  intros R W. destruct (reached_at _ _ _ _ _ _ _ _ _ R) as (HN & A & P & _).
  destruct (sgetn_str sm na nd nul tr N HN b text k (n mod sm) A P) as (b2 & Q & _).
  { apply Nat.mod_upper_bound. lia. } { exact W. }
  exists b2. rewrite (sgetn_count sm na nd nul N HN b n). exact Q.
Qed.
Print Assumptions C130_sgetn_count_refuted.
Example C130_case :
  reached 256 true false true 8 StdTraits [97; 98; 99; 100] 3 b1 /\
  s_sgetn c8 b1 256 = Ok ([], b1) /\ exists b2, s_sgetn c8 b1 255 = Ok ([100], b2).
Proof.
  split; [exact b1_reached|]. split; [vm_compute; reflexivity|]. eexists. vm_compute. reflexivity.
Qed.

(* Seeking within the text. *)
Theorem C131_seek sm na nd nul N tr text k b p os :
  reached sm na nd nul N tr text k b -> (p <= length text)%nat ->
  legal sm na nul N tr text os ->
  exists b1 b2,
    s_seekoff (str_cfg sm na nd nul) b (Z.of_nat p) Beg true = Ok (Z.of_nat p, b1) /\
    s_seekoff (str_cfg sm na nd nul) b (Z.of_nat p - Z.of_nat (length text)) End true = Ok (Z.of_nat p, b1) /\
    s_run (str_cfg sm na nd nul) tr os b1 = Ok (Go (fst (srun tr os text p), b2)).
Proof.
  intros R Hp (F & P1 & E & X). destruct (reached_at _ _ _ _ _ _ _ _ _ R) as (HN & A & P & _).
  pose proof P as (B & _).
  destruct (seek_at sm na nd nul N HN b text k p A B Hp) as (A1 & Q1).
  destruct (run_str sm na nd nul tr N HN os _ text p A1 F P1 E X) as (b2 & Q & _).
  exists (snd (s_seekpos b (Z.of_nat p))), b2. split; [|split; [|exact Q]].
  - unfold s_seekoff. f_equal. rewrite (surjective_pairing (s_seekpos b (Z.of_nat p))). now rewrite Q1.
  - unfold s_seekoff. pose proof A as (H & _). rewrite (size_ok _ _ _ H). cbn [bind].
    replace (Z.of_nat (length text) + (Z.of_nat p - Z.of_nat (length text))) with (Z.of_nat p) by lia.
    f_equal. rewrite (surjective_pairing (s_seekpos b (Z.of_nat p))). now rewrite Q1.
Qed.
Print Assumptions C131_seek.
Example C131_case :
  reached 256 true false true 8 StdTraits [97; 98; 99; 100] 3 b1 /\
  legal 256 true true 8 StdTraits [97; 98; 99; 100] [SGet Bumpc; SPut (PutC 101); SGet (Getn 9)] /\
  (exists b2, s_seekoff c8 b1 (-3) End true = Ok (1, b2) /\ s_sgetc c8 StdTraits b2 = Ok 98).
Proof.
  split; [exact b1_reached|]. split; [|eexists; split; vm_compute; reflexivity].
  split; [|split; [|split]].
  - split; [cbn; lia|]. intros _ I. cbn in I. repeat destruct I as [I|I]; try discriminate; exact I.
  - split; [cbn; lia|]. split; [repeat constructor; cbn; lia|discriminate].
  - discriminate.
  - intros n I. cbn in I. repeat destruct I as [I|I]; try discriminate; [injection I as <-; split; [lia|now left]|contradiction].
Qed.

(* The output-only buffer: its position is the length of the text, which no seek changes, so that
   what is written next goes to the end. *)
Theorem C445_output_position sm na nd nul N tr text k b off dir :
  reached sm na nd nul N tr text k b ->
  o_seekoff (str_cfg sm na nd nul) b off dir = Ok (Z.of_nat (length text), b).
Proof.
  intros R. destruct (reached_at _ _ _ _ _ _ _ _ _ R) as (HN & (H & _) & _).
  unfold o_seekoff. now rewrite (size_ok _ _ _ H).
Qed.
Print Assumptions C445_output_position.
Theorem C446_output_seek_refuted sm na nd nul N tr text k b off dir ch os :
  reached sm na nd nul N tr text k b -> os = [SPut (PutC ch); SStr] -> legal sm na nul N tr text os ->
  exists p b1 b2, o_seekoff (str_cfg sm na nd nul) b off dir = Ok (p, b1) /\
    s_run (str_cfg sm na nd nul) tr os b1 = Ok (Go ([[code tr ch]; text ++ [ch]], b2)).
Proof.
  intros R -> (F & P1 & E & X). exists (Z.of_nat (length text)), b.
  destruct (reached_at _ _ _ _ _ _ _ _ _ R) as (HN & A & P & _).
  destruct (run_str sm na nd nul tr N HN _ b text k A F P1 E X) as (b2 & Q & _).
  exists b2. split; [now apply (C445_output_position sm na nd nul N tr text k b off dir)|]. exact Q.
Qed.
Print Assumptions C446_output_seek_refuted.
Example C445_case :
  reached 256 true false true 8 StdTraits [97; 98; 99; 100] 3 b1 /\ o_seekoff c8 b1 1 Beg = Ok (4, b1) /\
  legal 256 true true 8 StdTraits [97; 98; 99; 100] [SPut (PutC 101); SStr].
Proof.
  split; [exact b1_reached|]. split; [vm_compute; reflexivity|]. split; [|split; [|split]].
  - split; [cbn; lia|]. intros _ I. cbn in I. repeat destruct I as [I|I]; try discriminate; exact I.
  - split; [cbn; lia|]. split; [repeat constructor; cbn; lia|discriminate].
  - discriminate.
  - intros n I. cbn in I. repeat destruct I as [I|I]; try discriminate; contradiction.
Qed.

(* from the current position: the position moves, the answer is failure *)
Theorem C132_seek_cur_refuted sm na nd nul N tr text k b p os :
  reached sm na nd nul N tr text k b -> (p <= length text)%nat -> legal sm na nul N tr text os ->
  exists b1 b2,
    s_seekoff (str_cfg sm na nd nul) b (Z.of_nat p - Z.of_nat k) Cur true = Ok (-1, b1) /\
    s_run (str_cfg sm na nd nul) tr os b1 = Ok (Go (fst (srun tr os text p), b2)).
Proof.
  intros R Hp (F & P1 & E & X). destruct (reached_at _ _ _ _ _ _ _ _ _ R) as (HN & A & P & _).
  pose proof A as (H & L & G & K). pose proof P as (B & _).
  assert (A1 : sb_at sm na nd nul N (s_gbump b (Z.of_nat p - Z.of_nat k)) text p).
  { split; [exact H|]. split; [exact L|]. split; [|exact Hp]. cbn [s_gbump gpos]. rewrite G.
    rewrite Z.mod_small; lia. }
  destruct (run_str sm na nd nul tr N HN os _ text p A1 F P1 E X) as (b2 & Q & _).
  exists (s_gbump b (Z.of_nat p - Z.of_nat k)), b2. split; [reflexivity|exact Q].
Qed.
Print Assumptions C132_seek_cur_refuted.
(* beyond the text: accepted, and what the storage holds there is read *)
Theorem C132_seek_beyond_refuted sm na nd nul N tr text k b p :
  reached sm na nd nul N tr text k b -> (length text < p)%nat -> (p < sm)%nat -> Z.of_nat p < 65536 ->
  exists b1, s_seekoff (str_cfg sm na nd nul) b (Z.of_nat p) Beg true = Ok (Z.of_nat p, b1) /\
    s_sgetc (str_cfg sm na nd nul) tr b1 =
      match nth_error (buf (str b)) p with Some x => Ok (to_int tr x) | None => UB end.
Proof.
  intros R Hp Hs B. destruct (reached_at _ _ _ _ _ _ _ _ _ R) as (HN & A & P & _).
  exists (snd (s_seekpos b (Z.of_nat p))). split; [|eapply seek_past; eauto].
  unfold s_seekoff, s_seekpos. rewrite Z.mod_small by lia. reflexivity.
Qed.
Print Assumptions C132_seek_beyond_refuted.
Example C132_case :
  reached 256 true false true 8 StdTraits [97; 98; 99; 100] 3 b1 /\
  (exists b2, s_seekoff c8 b1 (-2) Cur true = Ok (-1, b2) /\ s_sgetc c8 StdTraits b2 = Ok 98) /\
  (exists b2, s_seekoff c8 b1 6 Beg true = Ok (6, b2) /\ s_sgetc c8 StdTraits b2 = Ok 7) /\
  (exists b2, s_seekoff c8 b1 9 Beg true = Ok (9, b2) /\ s_sgetc c8 StdTraits b2 = UB).
Proof. split; [exact b1_reached|]. split; [|split]; eexists; split; vm_compute; reflexivity. Qed.
