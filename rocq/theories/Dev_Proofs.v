From Verif Require Import Base Dev_Spec Dev_Model.
Local Open Scope Z_scope.

(* bytes that arrive as characters different from "none" *)
Definition plain_byte (sgn : bool) (b : Z) : Prop := is_byte b /\ (sgn = true -> b <> 255).

Lemma to_char_ok sgn b : is_byte b -> to_char_type sgn b = char_of sgn b.
Proof.
  intro H. unfold is_byte in H. unfold to_char_type, char_of. rewrite Z.mod_small by exact H.
  destruct sgn; cbn [andb]; [|reflexivity].
  destruct (Z.leb_spec 128 b), (Z.ltb_spec b 128); try reflexivity; lia.
Qed.

Lemma char_ne_eof sgn b : plain_byte sgn b -> char_of sgn b <> -1.
Proof.
  intros [H1 H2]. unfold is_byte in H1. unfold char_of. destruct sgn.
  - specialize (H2 eq_refl). destruct (Z.ltb_spec b 128); lia.
  - lia.
Qed.

Lemma map_to_char sgn l : Forall (plain_byte sgn) l -> map (to_char_type sgn) l = map (char_of sgn) l.
Proof. induction 1 as [|b l [H _] _ IH]; cbn [map]; [reflexivity|]. rewrite to_char_ok by exact H. now f_equal. Qed.

Lemma Forall_app_l {A} (P : A -> Prop) a b : Forall P a -> Forall P b -> Forall P (a ++ b).
Proof. intros. apply Forall_app. auto. Qed.
Lemma Forall_firstn' {A} (P : A -> Prop) n : forall l, Forall P l -> Forall P (firstn n l).
Proof. induction n; intros [|x l] H; cbn; constructor; inversion H; subst; auto. Qed.
Lemma Forall_skipn' {A} (P : A -> Prop) n : forall l, Forall P l -> Forall P (skipn n l).
Proof. induction n; intros [|x l] H; cbn; auto. inversion H; auto. Qed.

Lemma sgetc_ok sgn q : Forall (plain_byte sgn) q -> shows (SeeChar (front sgn q)) (MChar (sgetc sgn q)).
Proof.
  intro H. destruct q as [|b q]; cbn; [reflexivity|]. inversion H; subst. unfold sgetc. cbn [hw_peek].
  destruct (Z.eqb_spec b (-1)) as [->|]; [destruct H2 as [[X _] _]; lia|].
  rewrite to_char_ok by apply H2. split; [reflexivity|]. apply char_ne_eof. assumption.
Qed.

Lemma sbumpc_eq sgn q : sbumpc sgn q = (sgetc sgn q, tl q).
Proof. destruct q; reflexivity. Qed.

Lemma snextc_eq sgn q : Forall (plain_byte sgn) q -> snextc sgn q = (sgetc sgn (tl q), tl q).
Proof.
  intro H. unfold snextc. rewrite sbumpc_eq. assert (K := sgetc_ok sgn q H).
  destruct q as [|b q]; [reflexivity|]. destruct K as [_ K]. unfold eof. destruct (Z.eqb_spec (sgetc sgn (b :: q)) (-1)); [contradiction|reflexivity].
Qed.

Lemma Forall_tl {A} (P : A -> Prop) l : Forall P l -> Forall P (tl l).
Proof. intro H. destruct l; [constructor|]. inversion H; auto. Qed.

Definition rel (s : istr) (i : ideal_in) : Prop := d_in s = ii_queue i /\ is_eof s = ii_eof i /\ is_fail s = ii_fail i.

Lemma blocking_ok sgn polls : forall q, Forall (plain_byte sgn) q ->
  Forall (plain_byte sgn) (concat polls) ->
  blocking_sgetc sgn q polls =
  match q with
  | _ :: _ => Ok (sgetc sgn q, q)
  | [] => match find (fun bs => match bs with [] => false | _ => true end) polls with
          | Some bs => Ok (sgetc sgn bs, bs) | None => Diverge end
  end.
Proof.
  induction polls as [|bs polls IH]; intros q Hq Hp; cbn [blocking_sgetc]; unfold in_avail; destruct q as [|b q]; cbn [length Nat.eqb]; try reflexivity.
  cbn [concat] in Hp. apply Forall_app in Hp. destruct Hp as [Hb Hp]. cbn [app find].
  rewrite IH by assumption. destruct bs; reflexivity.
Qed.

Lemma find_In {A} f (l : list (list A)) bs : find f l = Some bs -> forall x, In x bs -> In x (concat l).
Proof.
  intros E x Hx. apply find_some in E. destruct E as [E _]. apply in_concat. eauto.
Qed.

Lemma istep_ok sgn s i o : rel s i -> Forall (plain_byte sgn) (d_in s) -> Forall (plain_byte sgn) (brings o) ->
  match ideal_in_step sgn i o with
  | Some (k, i') => exists k' s', istep sgn s o = Ok (k', s') /\ Forall2 shows k k' /\ rel s' i' /\ Forall (plain_byte sgn) (d_in s')
  | None => istep sgn s o = Diverge
  end.
Proof.
  intros (R1 & R2 & R3) HQ HB. destruct s as [q e f], i as [q' e' f']. cbn in R1, R2, R3. subst q' e' f'. cbn [d_in] in HQ.
  assert (SG := sgetc_ok sgn q HQ). assert (SG' := sgetc_ok sgn (tl q) (Forall_tl _ _ HQ)).
  destruct o as [bs| | | | |n bs| |polls|n bs|]; cbn [ideal_in_step istep ii_queue ii_eof ii_fail d_in is_eof is_fail brings] in *.
  - do 2 eexists. repeat split; [constructor|]. cbn. apply Forall_app_l; assumption.
  - do 2 eexists. repeat split; [constructor; [exact SG|constructor]|exact HQ].
  - rewrite sbumpc_eq. do 2 eexists. repeat split; [constructor; [exact SG|constructor]|]. apply Forall_tl, HQ.
  - rewrite (snextc_eq sgn q HQ). do 2 eexists. repeat split; [constructor; [exact SG'|constructor]|]. apply Forall_tl, HQ.
  - do 2 eexists. repeat split; [constructor; [reflexivity|constructor]|exact HQ].
  - do 2 eexists. unfold sgetn. split; [reflexivity|]. split; [|split; [split; [reflexivity|split; reflexivity]|]].
    + constructor; [|constructor]. cbn. apply map_to_char, Forall_firstn', Forall_app_l; assumption.
    + cbn. apply Forall_skipn', Forall_app_l; assumption.
  - unfold get. cbn [d_in is_eof is_fail]. rewrite sbumpc_eq. destruct q as [|b q].
    + cbn. do 2 eexists. split; [reflexivity|]. rewrite !orb_true_r. repeat constructor.
    + destruct SG as [SG1 SG2]. unfold eof. destruct (Z.eqb_spec (sgetc sgn (b :: q)) (-1)); [contradiction|].
      do 2 eexists. split; [reflexivity|]. rewrite !orb_false_r. split; [|split; [repeat split|]].
      * constructor; [split; assumption|]. constructor; [split; reflexivity|constructor].
      * cbn. inversion HQ; assumption.
  - unfold peek. cbn [is_eof is_fail d_in]. destruct (e || f)%bool eqn:EF; cbn [negb].
    + do 2 eexists. split; [reflexivity|]. split; [|split; [repeat split|exact HQ]].
      constructor; [reflexivity|]. constructor; [split; reflexivity|constructor].
    + apply orb_false_iff in EF. destruct EF as [-> ->]. rewrite (blocking_ok sgn polls q HQ HB).
      destruct q as [|b q].
      * destruct (find _ polls) as [bs|] eqn:EF; [|reflexivity].
        assert (HF : Forall (plain_byte sgn) bs).
        { apply Forall_forall. intros x Hx. rewrite Forall_forall in HB. apply HB. eapply find_In; eassumption. }
        cbn [bind]. do 2 eexists. split; [reflexivity|]. split; [|split; [repeat split|exact HF]].
        constructor; [apply sgetc_ok, HF|]. constructor; [split; reflexivity|constructor].
      * cbn [bind]. do 2 eexists. split; [reflexivity|]. split; [|split; [repeat split|exact HQ]].
        constructor; [exact SG|]. constructor; [split; reflexivity|constructor].
  - unfold read, sgetn. cbn [is_eof is_fail d_in]. rewrite map_length.
    assert (HF := Forall_app_l _ _ _ HQ HB).
    destruct (negb (Nat.eqb (length (firstn n (q ++ bs))) n)) eqn:EN.
    + do 2 eexists. split; [reflexivity|]. rewrite orb_true_r. split; [|split; [repeat split|]].
      * constructor; [cbn; apply map_to_char, Forall_firstn', HF|]. constructor; [split; reflexivity|constructor].
      * cbn. apply Forall_skipn', HF.
    + do 2 eexists. split; [reflexivity|]. rewrite orb_false_r. split; [|split; [repeat split|]].
      * constructor; [cbn; apply map_to_char, Forall_firstn', HF|]. constructor; [split; reflexivity|constructor].
      * cbn. apply Forall_skipn', HF.
  - do 2 eexists. repeat split; [constructor|exact HQ].
Qed.

Lemma irun_ok sgn ops : forall s i, rel s i -> Forall (plain_byte sgn) (d_in s) ->
  Forall (fun o => Forall (plain_byte sgn) (brings o)) ops ->
  match ideal_in_run sgn i ops with
  | Some (k, i') => exists k' s', irun sgn s ops = Ok (k', s') /\ Forall2 shows k k' /\ rel s' i'
  | None => irun sgn s ops = Diverge
  end.
Proof.
  induction ops as [|o ops IH]; intros s i R HQ HB; cbn [ideal_in_run irun].
  - do 2 eexists. split; [reflexivity|]. split; [constructor|exact R].
  - inversion HB as [|? ? HB1 HB2]; subst. assert (S1 := istep_ok sgn s i o R HQ HB1).
    destruct (ideal_in_step sgn i o) as [[k i1]|].
    + destruct S1 as (k1 & s1 & E1 & F1 & R1 & Q1). rewrite E1. cbn [bind]. specialize (IH s1 i1 R1 Q1 HB2).
      destruct (ideal_in_run sgn i1 ops) as [[k2 i2]|].
      * destruct IH as (k3 & s3 & E3 & F3 & R3). rewrite E3. cbn [bind]. do 2 eexists. split; [reflexivity|].
        split; [apply Forall2_app; assumption|exact R3].
      * rewrite IH. reflexivity.
    + rewrite S1. reflexivity.
Qed.

(* ---- output ---- *)
Definition orel (s : ostr) (i : ideal_out) : Prop := d_out s = io_sent i /\ os_eof s = io_eof i /\ os_fail s = io_fail i.

Lemma sputn_eq out cs k k2 : sputn out cs k k2 = (length (firstn k cs), out ++ firstn k cs).
Proof. unfold sputn, xsputn. destruct (Nat.ltb (length (firstn k cs)) (length cs)); reflexivity. Qed.

(* a char of the platform whose int value is not "none" on this device *)
Definition sendable (d : device) (c : Z) : Prop :=
  match d with
  | Arduino sgn => exists b, plain_byte sgn b /\ c = char_of sgn b
  | Posix => True
  end.

Lemma sputc_eq d out c t : sendable d c -> 
  exists r, sputc d out c t = (r, out ++ if t then [c] else []) /\ (r =? -1) = negb t.
Proof.
  intro H. destruct d as [sgn|]; cbn [sputc].
  - destruct H as (b & Hb & ->). destruct t.
    + eexists. split; [reflexivity|]. unfold to_int_type. cbn. apply Z.eqb_neq, char_ne_eof, Hb.
    + eexists. split; [rewrite app_nil_r; reflexivity|reflexivity].
  - destruct t.
    + eexists. split; [reflexivity|]. cbn. apply Z.eqb_neq. assert (X := Z.mod_pos_bound c 256). lia.
    + eexists. split; [rewrite app_nil_r; reflexivity|reflexivity].
Qed.

Lemma firstn_short {A} k (l : list A) : negb (Nat.eqb (length (firstn k l)) (length l)) = Nat.ltb k (length l).
Proof.
  rewrite firstn_length. destruct (Nat.ltb_spec k (length l)); destruct (Nat.eqb_spec (Nat.min k (length l)) (length l)); try reflexivity; lia.
Qed.

Lemma ostep_ok d s i o : orel s i -> Forall (sendable d) (chars_of o) ->
  exists s', ostep d s o = (fst (ideal_out_step i o), s') /\ orel s' (snd (ideal_out_step i o)).
Proof.
  intros (R1 & R2 & R3) H. destruct s as [q e f], i as [q' e' f']. cbn in R1, R2, R3. subst.
  destruct o as [cs k|c t|cs k|c t|]; cbn [ostep ideal_out_step chars_of d_out os_eof os_fail io_sent io_eof io_fail fst snd] in *.
  - rewrite sputn_eq. eexists. split; [reflexivity|]. repeat split.
  - inversion H; subst. destruct (sputc_eq d q' c t) as (r & E & N); [assumption|]. rewrite E, N, negb_involutive.
    eexists. split; [reflexivity|]. repeat split.
  - unfold write. cbn [d_out os_eof os_fail]. rewrite sputn_eq, firstn_short. cbn [os_eof os_fail].
    destruct (Nat.ltb k (length cs)); [rewrite orb_true_r|rewrite orb_false_r]; eexists; split; try reflexivity; repeat split.
  - inversion H; subst. unfold put. cbn [d_out os_eof os_fail]. destruct (sputc_eq d q' c t) as (r & E & N); [assumption|]. rewrite E, N.
    destruct t; cbn [negb]; [rewrite orb_false_r|rewrite orb_true_r]; eexists; split; try reflexivity; repeat split.
  - eexists. split; [reflexivity|]. repeat split.
Qed.

Lemma orun_ok d ops : forall s i, orel s i -> Forall (fun o => Forall (sendable d) (chars_of o)) ops ->
  exists s', orun d s ops = (fst (ideal_out_run i ops), s') /\ orel s' (snd (ideal_out_run i ops)).
Proof.
  induction ops as [|o ops IH]; intros s i R H; cbn [orun ideal_out_run].
  - exists s. split; [reflexivity|exact R].
  - inversion H; subst. destruct (ostep_ok d s i o R) as (s1 & E1 & R1); [assumption|]. rewrite E1.
    destruct (ideal_out_step i o) as [k1 i1]. cbn [fst snd] in *.
    destruct (IH s1 i1 R1) as (s2 & E2 & R2); [assumption|]. rewrite E2.
    destruct (ideal_out_run i1 ops) as [k2 i2]. cbn [fst snd] in *. exists s2. auto.
Qed.

(* ---- timed writes ---- *)

Lemma firstn_add {A} a b (l : list A) : firstn (a + b) l = firstn a l ++ firstn b (skipn a l).
Proof.
  revert l. induction a as [|a IH]; intros [|x l]; cbn; try reflexivity; [destruct b; reflexivity|]. f_equal. apply IH.
Qed.

(* rounds that leave something and time *)
Lemma timed_more mem n : forall dev1 dev2 pos out, (pos + total n dev1 < length mem)%nat ->
  Forall (fun r => snd r = false) dev1 -> forall left, Z.of_nat (total n dev1) < left ->
  write_timed mem n pos left (dev1 ++ dev2) out =
  write_timed mem n (pos + total n dev1) (left - Z.of_nat (total n dev1)) dev2 (out ++ firstn (total n dev1) (skipn pos mem)).
Proof.
  induction dev1 as [|[t up] dev1 IH]; intros dev2 pos out HP HF left HL.
  - cbn [total app]. rewrite Nat.add_0_r. cbn [firstn Z.of_nat]. rewrite app_nil_r, Z.sub_0_r. reflexivity.
  - inversion HF as [|? ? U HF']; subst. cbn in U. subst up. cbn [total app write_timed] in *.
    destruct (Nat.leb_spec (pos + Nat.min t n) (length mem)); [|lia].
    destruct (Z.ltb_spec 0 (left - Z.of_nat (Nat.min t n))); [|lia]. cbn [negb andb].
    rewrite IH; [|lia|assumption|lia]. rewrite firstn_add, <- app_assoc. f_equal; [lia|lia|].
    f_equal. f_equal. f_equal. clear. revert mem. induction pos as [|p IHp]; intros [|x l]; cbn; try reflexivity.
    + destruct (Nat.min t n); reflexivity.
    + apply IHp.
Qed.

Lemma timed_over s mem n dev1 dev2 t up : length mem = n -> (0 < total n dev1 < n)%nat ->
  Forall (fun r => snd r = false) dev1 -> (n - total n dev1 < t)%nat ->
  write_with_timeout s mem n (dev1 ++ (t, up) :: dev2) = UB.
Proof.
  intros L K F T. unfold write_with_timeout. rewrite timed_more; [|lia|assumption|lia].
  cbn [write_timed]. destruct (Nat.leb_spec (0 + total n dev1 + Nat.min t n) (length mem)); [lia|reflexivity].
Qed.

Lemma timed_up s mem n dev1 dev2 t : length mem = n -> (total n dev1 + t < n)%nat ->
  Forall (fun r => snd r = false) dev1 ->
  write_with_timeout s mem n (dev1 ++ (t, true) :: dev2) =
  Ok (OS (d_out s ++ firstn (total n dev1 + t) mem) (os_eof s) (os_fail s)).
Proof.
  intros L K F. unfold write_with_timeout. rewrite timed_more; [|lia|assumption|lia].
  cbn [write_timed]. destruct (Nat.leb_spec (0 + total n dev1 + Nat.min t n) (length mem)); [|lia].
  rewrite andb_false_r. cbn [bind Nat.add skipn]. rewrite <- app_assoc, firstn_add. replace (Nat.min t n) with t by lia. reflexivity.
Qed.

Lemma timed_all s mem n dev1 dev2 t up : length mem = n -> (total n dev1 < n)%nat -> t = (n - total n dev1)%nat ->
  Forall (fun r => snd r = false) dev1 ->
  write_with_timeout s mem n (dev1 ++ (t, up) :: dev2) = Ok (OS (d_out s ++ mem) (os_eof s) (os_fail s)).
Proof.
  intros L K T F. unfold write_with_timeout. rewrite timed_more; [|lia|assumption|lia].
  cbn [write_timed]. destruct (Nat.leb_spec (0 + total n dev1 + Nat.min t n) (length mem)); [|lia].
  destruct (Z.ltb_spec 0 (Z.of_nat n - Z.of_nat (total n dev1) - Z.of_nat (Nat.min t n))); [lia|].
  cbn [andb bind Nat.add skipn]. rewrite <- app_assoc, <- firstn_add. rewrite firstn_all2 by lia. reflexivity.
Qed.

(* ---- the byte that looks like "none" ---- *)
Lemma byte_255 q : sbumpc true (255 :: q) = (-1, q) /\ sgetc true (255 :: q) = -1 /\ snextc true (255 :: q) = (-1, q).
Proof. repeat split. Qed.

Lemma get_255 q e f : get true (IS (255 :: q) e f) = (-1, IS q true true).
Proof. reflexivity. Qed.

Lemma put_255 out e f : put (Arduino true) (OS out e f) (-1) true = OS (out ++ [-1]) true f.
Proof. reflexivity. Qed.
