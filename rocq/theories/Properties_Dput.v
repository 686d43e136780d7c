(* Inserting a double, which prints two decimals (C432 - C437).  [Fin u] is the double of value
   [val binary64 u]; [Ostr i b] is a stream with format state i on buffer b; [after b text] is b
   with text stored where it stood. *)
From Coq Require Import List ZArith QArith Qabs Qround Bool Lia.
From Verif Require Import Base MachInt Ios_Model Streambuf_Model Charconv_Model Charconv_Spec
  Ostream_Model Ostream_Spec Flt_Spec Flt_Model Flt_View Dput_Spec Dput_Model Dput_Proofs.
Import ListNotations.
Local Open Scope Z_scope.

(* For a double x with 100(|x| + 1) <= 2^53 that is not strictly between -1 and 0 the text is
   that of n hundredths, with the sign of x, where
   - the part before the point is the integer part of x,
   - n/100 differs from |x| by less than 1/100,
   - n/100 is |x| if x is a whole number of hundredths,
   - n is k or k - 1 if |x| is the double nearest to k/100. *)
Theorem C432_two_decimals : forall tr i b a j1 j2 x u,
  length j1 = (int_length 8 (Ity 64 true) + 1)%nat -> length j2 = (int_length 8 (Ity 64 true) + 1)%nat ->
  0 <= flags i < 256 -> 0 <= width i < 16 -> 0 <= fill true i <= 127 -> adjusted i a ->
  Flt_Spec.representable binary64 x -> (x == val binary64 u)%Q ->
  (0 <= x \/ x <= -1)%Q -> (100 * (Qabs x + 1) <= inject_Z (2 ^ 53))%Q ->
  exists n ip, 0 <= n /\ int_part (upper i) (if Qlt_le_dec x 0 then true else false) n ip /\
    n / 100 = Qfloor (Qabs x) /\
    (Qabs (inject_Z n - 100 * Qabs x) < 1)%Q /\
    (forall k, (100 * Qabs x == inject_Z k)%Q -> n = k) /\
    (forall k, 0 <= k < 2 ^ 52 -> nearest binary64 (k # 100) (Qabs x) -> n = k \/ n = k - 1) /\
    (room b (Nat.max (Z.to_nat (width i)) (length ip) + 3) ->
     insert_double tr (Ostr i b) j1 j2 (Fin u)
     = Ok (Ostr (fst (set_width (fst (setf2 i f_dec f_basefield)) 0))
                (after b (padded a (Z.to_nat (width i)) (fill true i) ip ++ decimals n)))).
Proof. exact two_decimals. Qed.
Print Assumptions C432_two_decimals.

(* The sign of a double strictly between -1 and 0 is lost: it prints as its opposite. *)
Theorem C433_sign_refuted : forall tr s j1 j2 u, (-1 < val binary64 u < 0)%Q ->
  insert_double tr s j1 j2 (Fin u) = insert_double tr s j1 j2 (Fin (- u)).
Proof.
  intros tr s j1 j2 u [H1 H2]. apply sign_lost. pose proof d_one_pos.
  unfold val, Qlt in H1, H2; cbn [Qnum Qden] in H1, H2. rewrite Z2Pos.id in H1 by assumption. lia.
Qed.
Print Assumptions C433_sign_refuted.

(* The double nearest to 0.29 prints as 0.28. *)
Theorem C434_hundredths_refuted : exists u, nearest binary64 (29 # 100) (val binary64 u) /\
  forall tr i b a j1 j2,
  length j1 = (int_length 8 (Ity 64 true) + 1)%nat -> length j2 = (int_length 8 (Ity 64 true) + 1)%nat ->
  0 <= flags i < 256 -> 0 <= width i < 16 -> 0 <= fill true i <= 127 -> adjusted i a ->
  room b (Nat.max (Z.to_nat (width i)) 1 + 3) ->
  exists i', insert_double tr (Ostr i b) j1 j2 (Fin u)
  = Ok (Ostr i' (after b (padded a (Z.to_nat (width i)) (fill true i) [48] ++ [46; 50; 56]))).
Proof. exists u29. split; [exact u29_nearest|]. intros. eexists. apply u29_prints; assumption. Qed.
Print Assumptions C434_hundredths_refuted.

(* Infinities, NaN and all doubles of 2^57 or more are undefined behaviour. *)
Theorem C435_large_refuted : forall tr s j1 j2,
  (forall u, (inject_Z (2 ^ 57) <= Qabs (val binary64 u))%Q -> insert_double tr s j1 j2 (Fin u) = UB) /\
  (forall neg, insert_double tr s j1 j2 (Inf neg) = UB) /\ insert_double tr s j1 j2 NaN = UB.
Proof.
  intros tr s j1 j2. split; [|split]; intros; apply undefined_big; intros v E; try discriminate. injection E as <-.
  unfold val, Qabs, inject_Z, Qle in H; cbn [Qnum Qden] in H. rewrite Z2Pos.id, Z.mul_1_r in H by apply d_one_pos.
  exact H.
Qed.
Print Assumptions C435_large_refuted.

(* With a field wider than the integer part the text is three characters longer than the
   field, or than the number if that is longer: not the number padded to the width. *)
Theorem C436_width_refuted : forall tr i b a j1 j2 x u,
  length j1 = (int_length 8 (Ity 64 true) + 1)%nat -> length j2 = (int_length 8 (Ity 64 true) + 1)%nat ->
  0 <= flags i < 256 -> 0 <= width i < 16 -> 0 <= fill true i <= 127 -> adjusted i a ->
  Flt_Spec.representable binary64 x -> (x == val binary64 u)%Q ->
  (0 <= x \/ x <= -1)%Q -> (100 * (Qabs x + 1) <= inject_Z (2 ^ 53))%Q ->
  exists n ip, int_part (upper i) (if Qlt_le_dec x 0 then true else false) n ip /\
    n / 100 = Qfloor (Qabs x) /\
    ((length ip < Z.to_nat (width i))%nat -> room b (Z.to_nat (width i) + 3) ->
     exists s', insert_double tr (Ostr i b) j1 j2 (Fin u) = Ok s' /\
       opos (osbuf s') = (opos b + Z.to_nat (width i) + 3)%nat /\
       osbuf s' <> after b (padded a (Z.to_nat (width i)) (fill true i) (ip ++ decimals n))).
Proof.
  intros tr i b a j1 j2 x u J1 J2 H1 H2 H3 H4 H5 H6 H7 H8.
  destruct (two_decimals tr i b a j1 j2 x u J1 J2 H1 H2 H3 H4 H5 H6 H7 H8) as (n & ip & _ & Hip & Hn & _ & _ & _ & R).
  exists n, ip. split; [exact Hip|]. split; [exact Hn|]. intros L Rm.
  eexists. split; [apply R; rewrite Nat.max_l by lia; exact Rm|]. cbn [osbuf]. split; [|now apply width_wrong].
  unfold after; cbn [opos]. rewrite app_length, Ostream_Proofs.padded_length. cbn [decimals length]. lia.
Qed.
Print Assumptions C436_width_refuted.

(* Every insertion of a double that is not undefined leaves the stream at base ten. *)
Theorem C437_base_refuted : forall tr s j1 j2 v s',
  0 <= flags (ost s) < 256 -> insert_double tr s j1 j2 v = Ok s' ->
  Z.land (flags (ost s')) f_basefield = f_dec.
Proof. exact base_left. Qed.
Print Assumptions C437_base_refuted.

(* -3.75 to a hexadecimal stream in a field of 4 prints "  -3.75". *)
Definition hex_stream : ostr := Ostr (Ios (Z.lor f_hex f_right) 0 4 0) (Osb (repeat 0 10) 0).
Definition junk : list Z := repeat 1 (int_length 8 (Ity 64 true) + 1).
Definition m375 : Z := - 15 * 2 ^ 1072.
Example C432_case :
  Flt_Spec.representable binary64 (-15 # 4) /\ ((-15 # 4) == val binary64 m375)%Q /\
  (0 <= -15 # 4 \/ -15 # 4 <= -1)%Q /\ (100 * (Qabs (-15 # 4) + 1) <= inject_Z (2 ^ 53))%Q /\
  0 <= flags (ost hex_stream) < 256 /\ 0 <= width (ost hex_stream) < 16 /\ 0 <= fill true (ost hex_stream) <= 127 /\
  adjusted (ost hex_stream) PadBefore /\
  (match insert_double EstdTraits hex_stream junk junk (Fin m375) with
   | Ok s' => (obuf (osbuf s'), flags (ost s')) | _ => ([], 0) end)
  = ([32; 32; 45; 51; 46; 55; 53; 0; 0; 0], Z.lor f_dec f_right).
Proof.
  split. { exists (-15), (-2). split; [reflexivity|]. split; [cbn; lia|reflexivity]. }
  split; [vm_compute; reflexivity|]. split; [right; vm_compute; discriminate|]. split; [vm_compute; discriminate|].
  split; [cbn; lia|]. split; [cbn; lia|]. split; [vm_compute; split; discriminate|]. split; [reflexivity|].
  vm_compute; reflexivity.
Qed.
Example C433_case : (-1 < val binary64 (- 2 ^ 1073) < 0)%Q /\
  (match insert_double EstdTraits hex_stream junk junk (Fin (- 2 ^ 1073)) with
   | Ok s' => obuf (osbuf s') | _ => [] end) = [32; 32; 32; 48; 46; 53; 48; 0; 0; 0].
Proof. split; [split|]; vm_compute; reflexivity. Qed.
Example C434_case : 0 <= flags ios_init < 256 /\ adjusted ios_init PadBefore /\ room (Osb (repeat 0 4) 0) (Nat.max 0 1 + 3).
Proof. split; [cbn; lia|]. split; [reflexivity|unfold room; cbn; lia]. Qed.
Example C435_case : (inject_Z (2 ^ 57) <= Qabs (val binary64 (- 2 ^ (57 + 1074))))%Q.
Proof. vm_compute. discriminate. Qed.
Example C436_case : (length [45; 51] < Z.to_nat (width (ost hex_stream)))%nat /\ room (osbuf hex_stream) (4 + 3).
Proof. split; vm_compute; lia. Qed.
Example C437_case : Z.land (flags (ost hex_stream)) f_basefield = f_hex /\
  (match insert_double EstdTraits hex_stream junk junk (Fin m375) with Ok s' => flags (ost s') | _ => 0 end)
  = Z.lor f_dec f_right.
Proof. split; [reflexivity|]. vm_compute. reflexivity. Qed.
