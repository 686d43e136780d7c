(* Properties of estd::span (C57, C89).  A span that shows positions o .. o+n-1 of the
   array m is written Sp (Some o) n with inside m o n; its content is piece m o n. *)
From Verif Require Import Base Span_Spec Span_Model Span_Proofs.
Local Open Scope Z_scope.

(* C89: every way to make a span yields exactly the named elements. *)
Theorem C89_construct : forall (A : Type) (M : Z) (m : list A) (o n : Z),
  inside m o n ->
  sp_view m sp_default = Ok [] /\
  sp_view m (sp_array 0 (Z.of_nat (length m))) = Ok m /\
  sp_view m (sp_count (Some o) n) = Ok (piece m o n) /\
  (n < M -> exists s, sp_range M (Some o) (Some (o + n)) = Ok s /\
     s_size s = n /\ sp_view m s = Ok (piece m o n)) /\
  sp_view m (sp_copy (Sp (Some o) n)) = Ok (piece m o n) /\
  (forall this, sp_view m (sp_assign this (Sp (Some o) n)) = Ok (piece m o n)).
Proof.
  intros A M m o n H. pose proof H as (H1 & H2 & H3).
  assert (V := view_ok m o n H).
  split; [reflexivity|]. split.
  { unfold sp_array. rewrite view_ok by (unfold inside; lia). now rewrite piece_all. }
  split; [exact V|]. split.
  { intros HM. unfold sp_range, pdiff. cbn [bind]. replace (o + n - o) with n by lia.
    rewrite Z.mod_small by lia. eexists. repeat split. exact V. }
  split; [exact V|]. intros this. exact V.
Qed.
Print Assumptions C89_construct.

(* C89: a span from two null pointers, or from a null pointer and 0, is empty, and iterates over nothing. *)
Theorem C89_from_null : forall (A : Type) (M : Z) (m : list A) (fuel : nat), 0 < M ->
  exists s, sp_range M None None = Ok s /\ s = sp_count None 0 /\
    s_size s = 0 /\ sp_empty s = true /\ sp_view m s = Ok [] /\ ((0 < fuel)%nat -> sp_iterate fuel m s = Ok []).
Proof.
  intros A M m fuel H. exists (Sp None 0). unfold sp_range, pdiff. cbn [bind]. rewrite Z.mod_0_l by lia.
  repeat split. intros F. destruct fuel; [lia|reflexivity].
Qed.
Print Assumptions C89_from_null.

(* C89: operator[] below size() reads and writes exactly that element, and empty/size agree
   with the content. *)
Theorem C89_access : forall (A : Type) (m : list A) (o n : Z),
  inside m o n ->
  s_size (Sp (Some o) n) = Z.of_nat (length (piece m o n)) /\
  (sp_empty (Sp (Some o) n) = true <-> piece m o n = []) /\
  (forall i, 0 <= i < n -> exists x,
     sp_get m (Sp (Some o) n) i = Ok x /\ elem (piece m o n) i = Some x) /\
  (forall i x, 0 <= i < n -> exists m',
     sp_put m (Sp (Some o) n) i x = Ok m' /\ length m' = length m /\
     (* every span into the array, this one included, sees this write and nothing else *)
     forall o2 n2, inside m o2 n2 ->
       sp_view m' (Sp (Some o2) n2) =
         Ok (if (o2 <=? o + i) && (o + i <? o2 + n2)
             then put (piece m o2 n2) (o + i - o2) x else piece m o2 n2)).
Proof.
  intros A m o n H. pose proof H as (H1 & H2 & H3).
  split; [cbn [s_size]; now rewrite piece_length|]. split.
  { unfold sp_empty. cbn [s_size]. pose proof (piece_length m o n H) as L. split.
    - intros E. apply Z.eqb_eq in E. destruct (piece m o n); [reflexivity|]. cbn in L. lia.
    - intros E. rewrite E in L. cbn in L. now subst n. }
  split; [intros i Hi; now apply get_ok|].
  intros i x Hi. exists (put m (o + i) x). split; [now apply put_ok|]. split.
  { unfold put. apply upd_len. }
  intros o2 n2 H'. rewrite view_ok by (now apply inside_put).
  rewrite piece_put by (auto; lia). reflexivity.
Qed.
Print Assumptions C89_access.

(* C89: iterating begin() .. end() visits the content in order, once each. *)
Theorem C89_iteration : forall (A : Type) (m : list A) (o n : Z) (fuel : nat),
  inside m o n -> (Z.to_nat n < fuel)%nat ->
  sp_iterate fuel m (Sp (Some o) n) = Ok (piece m o n) /\
  sp_iterate fuel m sp_default = Ok [].
Proof.
  intros A m o n fuel H Hf. split; [now apply sp_iterate_ok|]. destruct fuel; [lia|reflexivity].
Qed.
Print Assumptions C89_iteration.

(* C57: first(c) and subspan(i, c) within the span show exactly those elements. *)
Theorem C57_subranges : forall (A : Type) (M : Z) (m : list A) (o n : Z),
  inside m o n ->
  (forall c, 0 <= c <= n ->
     sp_view m (sp_first (Sp (Some o) n) c) = Ok (firstn (Z.to_nat c) (piece m o n))) /\
  (forall i c, 0 <= i -> 0 <= c -> i + c <= n -> c < M - 1 -> exists s,
     sp_subspan M m (Sp (Some o) n) i c = Ok s /\ s_size s = c /\
     sp_view m s = Ok (piece (piece m o n) i c)).
Proof.
  intros A M m o n H. pose proof H as (H1 & H2 & H3). split.
  - intros c Hc. unfold sp_first. cbn [s_data].
    rewrite view_ok by (unfold inside; lia). now rewrite (piece_first m o n c H Hc).
  - intros i c Hi Hc Hic HM.
    destruct (subspan_ok M m o n i c H Hi Hc Hic) as (E & I); [lia|].
    eexists. split; [exact E|]. split; [reflexivity|].
    rewrite (view_ok m _ _ I). now rewrite (piece_piece m o n i c H Hi Hc Hic).
Qed.
Print Assumptions C57_subranges.

(* C57 refuted for first(c), c > size(): neither is the count checked; the span returned
   shows elements that are not part of the original, or runs off the array. *)
Theorem C202_first_unchecked_refuted : forall (A : Type) (m : list A) (o n c : Z),
  inside m o n -> n < c ->
  (o + c <= Z.of_nat (length m) ->
     sp_view m (sp_first (Sp (Some o) n) c) = Ok (piece m o n ++ piece m (o + n) (c - n))) /\
  (Z.of_nat (length m) < o + c ->
     sp_view m (sp_first (Sp (Some o) n) c) = UB /\ sp_end m (sp_first (Sp (Some o) n) c) = UB).
Proof.
  intros A m o n c (H1 & H2 & H3) Hc. unfold sp_first. cbn [s_data]. split; intros Hb.
  - rewrite view_ok by (unfold inside; lia). f_equal.
    assert (E : piece m o n = piece (piece m o c) 0 n).
    { rewrite <- (piece_piece m o c 0 n) by (unfold inside; lia). now rewrite Z.add_0_r. }
    assert (E2 : piece m (o + n) (c - n) = piece (piece m o c) n (c - n)).
    { now rewrite <- (piece_piece m o c n (c - n)) by (unfold inside; lia). }
    rewrite E, E2.
    assert (L : Z.of_nat (length (piece m o c)) = c) by (apply piece_length; unfold inside; lia).
    set (l := piece m o c) in *. unfold piece. change (Z.to_nat 0) with 0%nat. rewrite skipn_O.
    rewrite (firstn_all2 (skipn (Z.to_nat n) l)) by (rewrite skipn_length; lia).
    symmetry. apply firstn_skipn.
  - split; [apply view_ub; lia|apply end_ub; lia].
Qed.
Print Assumptions C202_first_unchecked_refuted.

(* C57 (subspan(offset) shows the rest of the span) holds for offset 0 ... *)
Theorem C57_subspan_rest : forall (A : Type) (M : Z) (m : list A) (o n : Z),
  inside m o n -> exists s,
  sp_subspan_default M m (Sp (Some o) n) 0 = Ok s /\ sp_view m s = Ok (piece m o n).
Proof.
  intros A M m o n H. pose proof H as (H1 & H2 & H3).
  rewrite (subspan_default M m o n 0 H) by lia. rewrite Z.add_0_r.
  eexists. split; [reflexivity|]. now apply view_ok.
Qed.
Print Assumptions C57_subspan_rest.

(* ... and for no other offset: the result keeps the full size, so it reaches offset
   elements past the end of the original; they are read if the array goes on, and
   end() and reading them are undefined if it does not. *)
Theorem C202_subspan_rest_refuted : forall (A : Type) (M : Z) (m : list A) (o n i : Z),
  inside m o n -> 0 < i <= n -> exists s,
  sp_subspan_default M m (Sp (Some o) n) i = Ok s /\
  s_size s = n /\ s_size s <> Z.of_nat (length (skipn (Z.to_nat i) (piece m o n))) /\
  (o + n + i <= Z.of_nat (length m) ->
     sp_view m s = Ok (skipn (Z.to_nat i) (piece m o n) ++ piece m (o + n) i)) /\
  (Z.of_nat (length m) < o + n + i -> sp_view m s = UB /\ sp_end m s = UB).
Proof.
  intros A M m o n i H Hi. pose proof H as (H1 & H2 & H3).
  pose proof (piece_length m o n H) as L.
  rewrite (subspan_default M m o n i H) by lia.
  eexists. split; [reflexivity|]. split; [reflexivity|]. split.
  { cbn [s_size]. rewrite skipn_length. lia. }
  split; intros Hb.
  - rewrite view_ok by (unfold inside; lia). f_equal.
    assert (I2 : inside m o (n + i)) by (unfold inside; lia).
    assert (E : piece m (o + i) n = piece (piece m o (n + i)) i n) by (apply piece_piece; auto; lia).
    assert (E2 : piece m (o + n) i = piece (piece m o (n + i)) n i) by (apply piece_piece; auto; lia).
    assert (E3 : piece m o n = piece (piece m o (n + i)) 0 n).
    { rewrite <- (piece_piece m o (n + i) 0 n) by (auto; lia). now rewrite Z.add_0_r. }
    rewrite E, E2, E3. pose proof (piece_length m o (n + i) I2) as L2.
    set (l := piece m o (n + i)) in *. unfold piece.
    change (Z.to_nat 0) with 0%nat. rewrite skipn_O.
    rewrite (firstn_all2 (skipn (Z.to_nat i) l)) by (rewrite skipn_length; lia).
    rewrite (firstn_all2 (skipn (Z.to_nat n) l)) by (rewrite skipn_length; lia).
    rewrite <- (firstn_skipn (Z.to_nat n) l) at 1. rewrite skipn_app.
    rewrite firstn_length. replace (Z.to_nat i - Nat.min (Z.to_nat n) (length l))%nat with 0%nat by lia.
    reflexivity.
  - split; [apply view_ub; lia|apply end_ub; lia].
Qed.
Print Assumptions C202_subspan_rest_refuted.

(* C89: as_bytes / as_writable_bytes show the object representation of the content. *)
Theorem C89_bytes : forall (A B : Type) (enc : A -> list B) (k : nat) (M : Z) (m : list A) (o n : Z),
  (forall a, length (enc a) = k) -> inside m o n -> n * Z.of_nat k < M ->
  sp_bytes_size M (Z.of_nat k) (Sp (Some o) n) = Z.of_nat (length (flat_map enc (piece m o n))) /\
  sp_view (memory_bytes enc m) (sp_as_bytes M (Z.of_nat k) (Sp (Some o) n))
    = Ok (flat_map enc (piece m o n)) /\
  sp_view (memory_bytes enc m) (sp_as_bytes_static M (Z.of_nat k) (Sp (Some o) n))
    = Ok (flat_map enc (piece m o n)).
Proof.
  intros A B enc k M m o n He H HM. pose proof H as (H1 & H2 & H3).
  pose proof (piece_length m o n H) as L.
  unfold sp_as_bytes, sp_as_bytes_static, sp_bytes_size, byte_ptr. cbn [s_size s_data option_map].
  rewrite Z.mod_small by nia. split.
  { rewrite (mem_len enc k He). nia. }
  rewrite view_ok by (now apply inside_bytes). rewrite (piece_bytes enc k He m o n H). auto.
Qed.
Print Assumptions C89_bytes.

Example C89_case :
  let m := [10; 20; 30; 40; 50] in
  inside m 1 3 /\ piece m 1 3 = [20; 30; 40] /\
  sp_view m (Sp (Some 1) 3) = Ok [20; 30; 40] /\
  sp_iterate 4 m (Sp (Some 1) 3) = Ok [20; 30; 40] /\
  sp_put m (Sp (Some 1) 3) 2 7 = Ok [10; 20; 30; 7; 50] /\
  sp_range 65536 (Some 1) (Some 4) = Ok (Sp (Some 1) 3) /\
  sp_subspan 65536 m (Sp (Some 1) 3) 1 2 = Ok (Sp (Some 2) 2) /\
  sp_view m (sp_first (Sp (Some 1) 3) 4) = Ok [20; 30; 40; 50] /\
  sp_view (memory_bytes (fun z => [z; 0]) m)
     (sp_as_bytes 65536 2 (Sp (Some 1) 3)) = Ok [20; 0; 30; 0; 40; 0].
Proof. unfold inside. cbn. repeat split; lia. Qed.

(* subspan(1) of the middle three of five elements shows the last one too; subspan(1) of the
   whole array runs off its end. *)
Example C57_case :
  let m := [10; 20; 30; 40; 50] in
  sp_subspan_default 65536 m (Sp (Some 1) 3) 1 = Ok (Sp (Some 2) 3) /\
  sp_view m (Sp (Some 2) 3) = Ok [30; 40; 50] /\
  sp_subspan_default 65536 m (Sp (Some 0) 5) 1 = Ok (Sp (Some 1) 5) /\
  sp_view m (Sp (Some 1) 5) = UB.
Proof. repeat split. Qed.
