(* C30-C33, C75-C78: queries of strings and string views. *)
From Verif Require Import Base Dyn_Spec Dyn_Model Dyn_View Str_Spec Str_Model Str_View Str_Proofs.

(* Every string a history can make within its capacity has the text the history gives, so
   the theorems below apply to it; a view has its text by construction. *)
Theorem C30_string_text sm narrow nodebug nul N os l v : str_after sm narrow nodebug nul N os l v ->
  exists a, sref_of (str_cfg sm narrow nodebug nul) v = Ok a /\ text a l /\ length (mem a) = N /\ len a < sm /\
    (nul = true -> exists rest, nul_text a l rest).
Proof. exact (str_after_text sm narrow nodebug nul N os l v). Qed.
Print Assumptions C30_string_text.
Theorem C30_view_text v l : view_text v l -> text (view_ref v) l.
Proof. exact (view_ref_text v l). Qed.
Print Assumptions C30_view_text.

(* C30.  The other string's length must fit this string's size_type (see the refutations).
   compare decides: 0 exactly for equal texts, negative exactly when the first is shorter,
   or equally long and earlier in the order of dictionaries. *)
Theorem C30_compare sm a l b l2 : text a l -> text b l2 -> length l2 < sm ->
  exists r, compare sm a b = Ok r /\
    (r = 0 <-> l = l2)%Z /\ (r < 0 <-> shortlex_lt l l2)%Z /\ (0 < r <-> shortlex_lt l2 l)%Z.
Proof. exact (compare_ok sm a l b l2). Qed.
Print Assumptions C30_compare.
Theorem C30_compare_c sm a l m s : text a l -> c_string m s -> length s < sm ->
  exists r, compare_c sm a m = Ok r /\
    (r = 0 <-> l = s)%Z /\ (r < 0 <-> shortlex_lt l s)%Z /\ (0 < r <-> shortlex_lt s l)%Z.
Proof. exact (compare_c_ok sm a l m s). Qed.
Print Assumptions C30_compare_c.
(* which is a strict total order *)
Theorem C30_total_order :
  (forall a, ~ shortlex_lt a a) /\
  (forall a b c, shortlex_lt a b -> shortlex_lt b c -> shortlex_lt a c) /\
  (forall a b, shortlex_lt a b \/ a = b \/ shortlex_lt b a).
Proof. exact shortlex_order. Qed.
Print Assumptions C30_total_order.
(* and so compare is antisymmetric and transitive *)
Theorem C30_order sm a la b lb c lc : text a la -> text b lb -> text c lc ->
  length la < sm -> length lb < sm -> length lc < sm ->
  exists ab ba bc ac, compare sm a b = Ok ab /\ compare sm b a = Ok ba /\ compare sm b c = Ok bc /\ compare sm a c = Ok ac /\
    (ab < 0 <-> 0 < ba)%Z /\ (ab = 0 <-> ba = 0)%Z /\ (ab < 0 -> bc < 0 -> ac < 0)%Z /\ (ab = 0 -> ac = bc)%Z.
Proof. exact (compare_order sm a la b lb c lc). Qed.
Print Assumptions C30_order.
(* operator== between strings, with a C string, and between arrays *)
Theorem C30_equal sm a l b l2 : text a l -> text b l2 -> length l2 < sm ->
  exists r, eq_op sm a b = Ok r /\ (r = true <-> l = l2).
Proof. exact (eq_op_ok sm a l b l2). Qed.
Print Assumptions C30_equal.
Theorem C30_equal_c sm a l m s : text a l -> c_string m s -> length s < sm ->
  exists r, eq_c sm a m = Ok r /\ (r = true <-> l = s).
Proof. exact (eq_c_ok sm a l m s). Qed.
Print Assumptions C30_equal_c.
Theorem C30_equal_array sm a l b l2 : text a l -> text b l2 -> length l2 < sm ->
  exists r, array_eq sm a b = Ok r /\ (r = true <-> l = l2).
Proof. exact (array_eq_ok sm a l b l2). Qed.
Print Assumptions C30_equal_array.
(* a longer string is cut to its length modulo the range of size_type before comparing *)
Theorem C184_long_refuted sm a l b l2 : 0 < sm -> text a l -> text b l2 -> sm <= length l2 ->
  exists r, eq_op sm a b = Ok r /\ (r = true <-> l = firstn (length l2 mod sm) l2).
Proof. exact (eq_long sm a l b l2). Qed.
Print Assumptions C184_long_refuted.
Theorem C184_long_c_refuted sm a l m s : 0 < sm -> text a l -> c_string m s -> sm <= length s ->
  exists r, eq_c sm a m = Ok r /\ (r = true <-> l = firstn (length s mod sm) s).
Proof. exact (eq_c_long sm a l m s). Qed.
Print Assumptions C184_long_c_refuted.

(* "abc" in a buffer of 8, null terminated; made by a history *)
Definition abc : list Z := [97; 98; 99]%Z.
Definition abc_ref : sref := SRef (abc ++ [0; 111; 0; 7; 7]%Z) 3.
Lemma abc_nul : nul_text abc_ref abc [111; 0; 7; 7]%Z.
Proof. split; [reflexivity|]. split; [reflexivity|]. cbn. intros [H|[H|[H|[]]]]; discriminate. Qed.
Lemma abc_text : text abc_ref abc.
Proof. exists [0; 111; 0; 7; 7]%Z. auto. Qed.
Example C30_case :
  (exists v, str_after 256 true false true 8 [Assign abc] abc v) /\
  text abc_ref abc /\ c_string (abc ++ [0])%Z abc /\
  compare 256 abc_ref (SRef [97; 98; 100]%Z 3) = Ok (-1)%Z /\
  compare 256 abc_ref (SRef [120; 120]%Z 2) = Ok 1%Z /\
  eq_op 256 abc_ref (SRef abc 3) = Ok true /\
  eq_op 2 (SRef [97]%Z 1) (SRef abc 3) = Ok true.
Proof.
  split; [|split; [apply abc_text|split; [|now vm_compute]]].
  - eexists. split; [repeat constructor|]. exists [9; 9; 9; 9; 9; 9; 9; 9]%Z. eexists. split; [reflexivity|].
    split; [reflexivity|]. split; [|reflexivity].
    eapply vrun_cons; [reflexivity|cbn; lia| |apply vrun_nil]. intros _. cbn. intuition discriminate.
  - split; [apply abc_nul|]. exists []. reflexivity.
Qed.

(* C31.  A character: the least index >= pos, or npos. *)
Theorem C31_find_char sm a l ch pos : text a l ->
  (forall r, least_from (fun i => nth_error l i = Some ch) pos r -> find_ch sm a ch pos = Ok r) /\
  ((forall r, pos <= r -> nth_error l r <> Some ch) -> find_ch sm a ch pos = Ok (npos sm)).
Proof. exact (find_ch_ok sm a l ch pos). Qed.
Print Assumptions C31_find_char.
(* npos, the greatest value of the size type, is not an index of a string. *)
Theorem C31_npos sm a l : text a l -> length l < sm ->
  npos sm < sm /\ (forall n, n < sm -> n <= npos sm) /\ nth_error l (npos sm) = None.
Proof. intros T H. unfold npos. split; [lia|]. split; [intros; lia|]. apply nth_error_None. lia. Qed.
Print Assumptions C31_npos.

(* A needle that occurs before the end: with pos = 0 the least index ... *)
Theorem C31_found sm a l s r : text a l -> least_from (occurs l s) 0 r -> r < length l ->
  find sm a s 0 (length s) = Ok r.
Proof. intros T H L. rewrite (find_ok_found sm a l s 0 r T H L). now rewrite Nat.sub_0_r. Qed.
Print Assumptions C31_found.
(* ... but with another pos the distance from pos *)
Theorem C185_from_pos_refuted sm a l s pos r : text a l -> least_from (occurs l s) pos r -> r < length l -> 0 < pos ->
  find sm a s pos (length s) = Ok (r - pos) /\ r - pos <> r.
Proof.
  intros T H L P. split; [exact (find_ok_found sm a l s pos r T H L)|]. destruct H as [H _]. lia.
Qed.
Print Assumptions C185_from_pos_refuted.
(* A needle that does not occur: npos, if the string is null terminated, the needle contains
   no 0 and enough memory can be read behind the string ... *)
Theorem C31_absent sm a l rest s pos : nul_text a l rest -> pos <= length l -> ~ In 0%Z s ->
  length s <= S (S (length rest)) -> (forall p, pos <= p < length l -> ~ occurs l s p) ->
  find sm a s pos (length s) = Ok (npos sm).
Proof. exact (find_ok_absent sm a l rest s pos). Qed.
Print Assumptions C31_absent.
Theorem C31_absent_one sm a l x pos : text a l -> pos <= length l ->
  (forall p, pos <= p -> nth_error l p <> Some x) -> find sm a [x] pos 1 = Ok (npos sm).
Proof. exact (find_ok_one sm a l x pos). Qed.
Print Assumptions C31_absent_one.
(* ... otherwise find compares characters behind the end of the string: it may find a needle
   there, or read outside the storage *)
Theorem C185_stale_refuted sm a l rest s p :
  mem a = l ++ rest -> len a = length l -> p < length l -> length l < p + length s ->
  least_from (occurs (l ++ rest) s) 0 p -> find sm a s 0 (length s) = Ok p /\ ~ occurs l s p.
Proof. exact (find_stale sm a l rest s p). Qed.
Print Assumptions C185_stale_refuted.
Theorem C185_overread_refuted sm a l s pos : exact_text a l -> 2 <= length s -> pos < length l ->
  (forall p, pos <= p -> ~ occurs l s p) -> find sm a s pos (length s) = UB.
Proof. exact (find_overread sm a l s pos). Qed.
Print Assumptions C185_overread_refuted.
(* The empty needle occurs at the end but is not found there. *)
Theorem C185_empty_needle_refuted sm a l s : text a l -> find sm a s (length l) 0 = Ok (npos sm) /\ occurs l [] (length l).
Proof.
  intros T. split; [exact (find_empty_end sm a l s T)|]. exists l, []. now rewrite app_nil_r.
Qed.
Print Assumptions C185_empty_needle_refuted.

Lemma occ_bc : least_from (occurs abc [98; 99]%Z) 0 1.
Proof.
  split; [lia|]. split; [now exists [97]%Z, []|]. intros i Hi H.
  apply occurs_iff in H. destruct H as [_ H]. replace i with 0 in H by lia. discriminate.
Qed.
Example C31_case :
  least_from (occurs abc [98; 99]%Z) 0 1 /\ find 256 abc_ref [98; 99]%Z 0 2 = Ok 1 /\
  find 256 abc_ref [98; 99]%Z 1 2 = Ok 0 /\
  nul_text abc_ref abc [111; 0; 7; 7]%Z /\ (forall p, 0 <= p < length abc -> ~ occurs abc [98; 98]%Z p) /\
  find 256 abc_ref [98; 98]%Z 0 2 = Ok 255 /\
  find 256 (SRef [97; 98; 99]%Z 2) [98; 99]%Z 0 2 = Ok 1 /\
  find 256 (SRef [97; 98]%Z 2) [98; 99]%Z 0 2 = UB.
Proof.
  split; [apply occ_bc|]. split; [now vm_compute|]. split; [now vm_compute|]. split; [apply abc_nul|].
  split; [|now vm_compute].
  intros p Hp H. apply occurs_iff in H. destruct H as [_ H]. cbn [length abc] in Hp.
  destruct p as [|[|[|p]]]; try discriminate H. lia.
Qed.

(* C32. *)
Theorem C32_starts_with_c a l m s : text a l -> c_string m s ->
  exists res, starts_with_c a m = Ok res /\ (res = true <-> prefix_of s l).
Proof. exact (starts_with_c_ok a l m s). Qed.
Print Assumptions C32_starts_with_c.
Theorem C32_starts_with_two_c m l m2 s : c_string m l -> c_string m2 s ->
  exists res, starts_with_cc (S (length m2)) m 0 m2 0 = Ok res /\ (res = true <-> prefix_of s l).
Proof. exact (starts_with_cc_ok m l m2 s). Qed.
Print Assumptions C32_starts_with_two_c.
Theorem C32_ends_with a l b p : text a l -> text b p ->
  exists res, ends_with a b = Ok res /\ (res = true <-> suffix_of p l).
Proof. exact (ends_with_ok a l b p). Qed.
Print Assumptions C32_ends_with.
Theorem C32_ends_with_c a l m s : text a l -> c_string m s ->
  exists res, ends_with_c a m = Ok res /\ (res = true <-> suffix_of s l).
Proof. exact (ends_with_c_ok a l m s). Qed.
Print Assumptions C32_ends_with_c.
(* starts_with of two strings misses the case of equal length *)
Theorem C32_starts_with a l b p : text a l -> text b p ->
  exists res, starts_with a b = Ok res /\ (res = true <-> prefix_of p l /\ length p < length l).
Proof. exact (starts_with_ok a l b p). Qed.
Print Assumptions C32_starts_with.
Theorem C186_starts_with_self_refuted a b l : text a l -> text b l -> starts_with a b = Ok false /\ prefix_of l l.
Proof.
  intros Ha Hb. split; [exact (starts_with_self a b l Ha Hb)|]. exists []. now rewrite app_nil_r.
Qed.
Print Assumptions C186_starts_with_self_refuted.
(* one character *)
Theorem C32_starts_with_char a l ch : text a l -> l <> [] ->
  exists res, starts_with_ch a ch = Ok res /\ (res = true <-> prefix_of [ch] l).
Proof. exact (starts_with_ch_ok a l ch). Qed.
Print Assumptions C32_starts_with_char.
Theorem C32_ends_with_char sm a l ch : text a l -> l <> [] ->
  exists res, ends_with_ch sm a ch = Ok res /\ (res = true <-> suffix_of [ch] l).
Proof. exact (ends_with_ch_ok sm a l ch). Qed.
Print Assumptions C32_ends_with_char.
(* of the empty string: whatever the storage contains, or a read outside it *)
Theorem C186_empty_char_refuted a ch rest : text a [] -> mem a = ch :: rest -> starts_with_ch a ch = Ok true.
Proof. exact (starts_with_ch_empty a ch rest). Qed.
Print Assumptions C186_empty_char_refuted.
Theorem C186_empty_last_refuted sm a ch : text a [] -> length (mem a) < sm -> ends_with_ch sm a ch = UB.
Proof. exact (ends_with_ch_empty sm a ch). Qed.
Print Assumptions C186_empty_last_refuted.

Example C32_case :
  text abc_ref abc /\ c_string [97; 98; 0]%Z [97; 98]%Z /\
  starts_with_c abc_ref [97; 98; 0]%Z = Ok true /\ starts_with abc_ref (SRef [97; 98]%Z 2) = Ok true /\
  ends_with_c abc_ref [98; 99; 0]%Z = Ok true /\ ends_with abc_ref (SRef [97; 98]%Z 2) = Ok false /\
  text (SRef [120; 0]%Z 0) [] /\ starts_with_ch (SRef [120; 0]%Z 0) 120%Z = Ok true.
Proof.
  split; [apply abc_text|]. split; [split; [cbn; intuition discriminate|now exists []]|].
  do 4 (split; [now vm_compute|]). split; [now exists [120; 0]%Z|now vm_compute].
Qed.

(* C33.  count = npos or within the view *)
Theorem C33_substr sm v l pos count : view_text v l -> pos <= length l -> length l < sm ->
  count = npos sm \/ pos + count <= length l ->
  view_text (substr sm v pos count) (firstn count (skipn pos l)).
Proof. exact (view_sub sm v l pos count). Qed.
Print Assumptions C33_substr.
(* any other count is taken as the size, however much is left *)
Theorem C187_clamp_refuted sm v l pos count :
  view_text v l -> pos <= length l -> length l < pos + count -> count <> npos sm ->
  vlen (substr sm v pos count) = count /\ length (firstn count (skipn pos l)) < count.
Proof. exact (view_sub_over sm v l pos count). Qed.
Print Assumptions C187_clamp_refuted.
Definition ex_view : view := View [1; 97; 98; 99; 2]%Z 1 3.
Lemma ex_view_text : view_text ex_view abc.
Proof. split; [reflexivity|]. now exists [1]%Z, [2]%Z. Qed.
Example C33_case : view_text ex_view abc /\ view_text (substr 256 ex_view 1 1) [98]%Z /\
  view_text (substr 256 ex_view 1 255) [98; 99]%Z /\ vlen (substr 256 ex_view 2 9) = 9.
Proof.
  split; [apply ex_view_text|]. split; [split; [reflexivity|now exists [1; 97]%Z, [99; 2]%Z]|].
  split; [split; [vm_compute; reflexivity|now exists [1; 97]%Z, [2]%Z]|reflexivity].
Qed.

(* C75.  compare is not the order of dictionaries: a shorter string always comes first *)
Theorem C75_lexicographic sm a l b l2 : text a l -> text b l2 -> length l = length l2 -> length l2 < sm ->
  exists r, compare sm a b = Ok r /\ (r < 0 <-> lex_lt l l2)%Z /\ (0 < r <-> lex_lt l2 l)%Z.
Proof.
  intros Ha Hb L B. destruct (compare_ok sm a l b l2 Ha Hb B) as (r & E & _ & N & P).
  exists r. split; auto. rewrite N, P. unfold shortlex_lt.
  split; (split; [intros [?|[_ ?]]; [lia|auto]|auto]).
Qed.
Print Assumptions C75_lexicographic.
Theorem C211_length_first_refuted sm a x l b y l2 : (y < x)%Z -> text a (x :: l) -> text b (y :: l2) ->
  length l < length l2 -> S (length l2) < sm ->
  compare sm a b = Ok (-1)%Z /\ compare sm b a = Ok 1%Z /\ lex_lt (y :: l2) (x :: l).
Proof.
  intros H Ha Hb L B. destruct (compare_length sm a _ b _ Ha Hb) as [E1 E2]; cbn [length]; try lia.
  split; auto. split; auto. now left.
Qed.
Print Assumptions C211_length_first_refuted.
Example C75_case : text (SRef [98]%Z 1) [98]%Z /\ text (SRef [97; 97]%Z 2) [97; 97]%Z /\
  compare 256 (SRef [98]%Z 1) (SRef [97; 97]%Z 2) = Ok (-1)%Z /\ lex_lt [97; 97]%Z [98]%Z.
Proof. split; [now exists []|]. split; [now exists []|]. split; [reflexivity|]. cbn. lia. Qed.

(* C76. *)
Theorem C76_rfind sm a l s pos : text a l -> l <> [] -> s <> [] ->
  (forall r, greatest_upto (occurs l s) pos r -> rfind sm a s pos (length s) = Ok r) /\
  ((forall i, i <= pos -> ~ occurs l s i) -> rfind sm a s pos (length s) = Ok (npos sm)).
Proof. exact (rfind_ok sm a l s pos). Qed.
Print Assumptions C76_rfind.
Theorem C212_empty_needle_refuted sm a l s pos : text a l -> l <> [] -> length l <= pos ->
  rfind sm a s pos 0 = Ok (length l - 1) /\ greatest_upto (occurs l []) (Nat.min pos (length l)) (length l).
Proof.
  intros T NE H. rewrite (rfind_empty_needle sm a l pos s T NE). split; [f_equal; lia|].
  split; [lia|]. split; [exists l, []; now rewrite app_nil_r|]. intros; lia.
Qed.
Print Assumptions C212_empty_needle_refuted.
Theorem C212_empty_string_refuted sm a s pos count : text a [] -> rfind sm a s pos count = UB.
Proof. intros (t & _ & L). unfold rfind. now rewrite L. Qed.
Print Assumptions C212_empty_string_refuted.
Example C76_case : text (SRef [97; 98; 97; 98]%Z 4) [97; 98; 97; 98]%Z /\
  greatest_upto (occurs [97; 98; 97; 98] [97; 98])%Z 9 2 /\
  rfind 256 (SRef [97; 98; 97; 98]%Z 4) [97; 98]%Z 9 2 = Ok 2 /\
  rfind 256 (SRef [97; 98; 97; 98]%Z 4) [97; 98]%Z 1 2 = Ok 0 /\
  rfind 256 (SRef [97; 98; 97; 98]%Z 4) [98; 98]%Z 255 2 = Ok 255.
Proof.
  split; [now exists []|]. split; [|now vm_compute]. split; [lia|]. split; [now exists [97; 98]%Z, []|].
  intros i Hi H. apply occurs_iff in H. destruct H as [H1 H]. cbn in H1. lia.
Qed.

(* C77. *)
Theorem C77_find_first_of sm a l s pos : text a l -> pos <= length l ->
  (forall r, least_from (char_in l s) pos r -> find_first_of sm a s pos (length s) = Ok r) /\
  ((forall i, pos <= i -> ~ char_in l s i) -> find_first_of sm a s pos (length s) = Ok (npos sm)).
Proof. exact (find_first_of_ok sm a l s pos). Qed.
Print Assumptions C77_find_first_of.
Theorem C77_find_last_of sm a l s pos : text a l -> length l < sm -> pos < length l \/ (pos = npos sm /\ l <> []) ->
  (forall r, greatest_upto (char_in l s) pos r -> find_last_of sm a s pos (length s) = Ok r) /\
  ((forall i, i <= pos -> ~ char_in l s i) -> find_last_of sm a s pos (length s) = Ok (npos sm)).
Proof. exact (find_last_of_ok sm a l s pos). Qed.
Print Assumptions C77_find_last_of.
(* a position at or behind the end is not clamped: the storage there is searched *)
Theorem C213_behind_end_refuted sm a l x s pos : text a l -> length l <= pos -> pos <> npos sm ->
  nth_error (mem a) pos = Some x -> In x s -> find_last_of sm a s pos (length s) = Ok pos /\ ~ char_in l s pos.
Proof.
  intros T Hp NP Hx Hin. split; [exact (find_last_of_past sm a l x s pos T Hp NP Hx Hin)|].
  intros (y & Hy & _). assert (pos < length l) by (apply nth_error_Some; congruence). lia.
Qed.
Print Assumptions C213_behind_end_refuted.
Theorem C213_empty_string_refuted sm a s count : text a [] -> length (mem a) < sm -> find_last_of sm a s (npos sm) count = UB.
Proof. exact (find_last_of_empty sm a s count). Qed.
Print Assumptions C213_empty_string_refuted.
Example C77_case : text abc_ref abc /\
  least_from (char_in abc [99; 98]%Z) 0 1 /\ find_first_of 256 abc_ref [99; 98]%Z 0 2 = Ok 1 /\
  greatest_upto (char_in abc [97; 98]%Z) 255 1 /\ find_last_of 256 abc_ref [97; 98]%Z 255 2 = Ok 1 /\
  find_last_of 256 abc_ref [111]%Z 4 1 = Ok 4.
Proof.
  split; [apply abc_text|]. split; [|split; [reflexivity|split; [|split; reflexivity]]].
  - split; [lia|]. split; [exists 98%Z; cbn; auto|]. intros i Hi (x & Hx & Hin). replace i with 0 in Hx by lia.
    injection Hx as <-. cbn in Hin. lia.
  - split; [lia|]. split; [exists 98%Z; cbn; auto|]. intros i Hi (x & Hx & Hin).
    destruct i as [|[|[|i]]]; try lia; cbn in Hx; [injection Hx as <-; cbn in Hin; lia|].
    now rewrite (proj2 (nth_error_None _ _)) in Hx by (cbn; lia).
Qed.

(* C78. *)
Theorem C78_remove_prefix sm v l n : view_text v l -> n <= length l -> length l < sm ->
  view_text (remove_prefix sm v n) (skipn n l).
Proof. exact (view_prefix sm v l n). Qed.
Print Assumptions C78_remove_prefix.
Theorem C78_remove_suffix sm v l n : view_text v l -> n <= length l -> length l < sm ->
  view_text (remove_suffix sm v n) (firstn (length l - n) l).
Proof. exact (view_suffix sm v l n). Qed.
Print Assumptions C78_remove_suffix.
Example C78_case : view_text ex_view abc /\ view_text (remove_prefix 256 ex_view 2) [99]%Z /\
  view_text (remove_suffix 256 ex_view 2) [97]%Z.
Proof.
  split; [apply ex_view_text|]. split; (split; [vm_compute; reflexivity|]).
  - now exists [1; 97; 98]%Z, [2]%Z.
  - now exists [1]%Z, [98; 99; 2]%Z.
Qed.
