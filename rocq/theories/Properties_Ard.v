(* C480, C481: the Arduino operators on strings. *)
From Verif Require Import Base Dyn_Spec Dyn_Model Dyn_View Ard_Model Ard_Proofs.

(* [text] is the text in flash; [str_after ... l v]: the string [v] holds [l] after some history *)
Theorem C480_flash_append smod narrow nodebug nul N os l v text :
  str_after smod narrow nodebug nul N os l v -> fits nul N (l ++ text) ->
  exists v', flash_append (str_cfg smod narrow nodebug nul) v text = Ok (Go v') /\
    looks_like (str_cfg smod narrow nodebug nul) v' (l ++ text).
Proof. exact (str_flash smod narrow nodebug nul N os l v text). Qed.
Print Assumptions C480_flash_append.

(* also where the text does not fit *)
Theorem C480_flash_as_append smod narrow nodebug nul N os l v text :
  str_after smod narrow nodebug nul N os l v ->
  flash_append (str_cfg smod narrow nodebug nul) v text =
  append (str_cfg smod narrow nodebug nul) v text (length text).
Proof. exact (str_flash_same smod narrow nodebug nul N os l v text). Qed.
Print Assumptions C480_flash_as_append.

(* with asserts on, a text that does not fit, of a length size_type can express *)
Theorem C480_too_long smod narrow nul N os l v text :
  str_after smod narrow false nul N os l v ->
  N < length l + length text -> length l + length text < smod ->
  flash_append (str_cfg smod narrow false nul) v text = Ok Assert.
Proof. exact (str_flash_assert smod narrow nul N os l v text). Qed.
Print Assumptions C480_too_long.

(* Print << s gives Print::write the characters, and nothing else *)
Theorem C480_print smod narrow nodebug nul N os l v :
  str_after smod narrow nodebug nul N os l v -> print (str_cfg smod narrow nodebug nul) v = Ok l.
Proof. exact (str_print smod narrow nodebug nul N os l v). Qed.
Print Assumptions C480_print.

(* with a size_type that the new length overflows, the check of the capacity passes and the text is
   copied beyond the storage, also with asserts on *)
Theorem C481_long_text_refuted smod narrow nodebug nul N os l v text :
  str_after smod narrow nodebug nul N os l v ->
  N < length l + length text -> (length l + length text) mod smod <= room nul N ->
  flash_append (str_cfg smod narrow nodebug nul) v text = UB.
Proof. exact (str_flash_long smod narrow nodebug nul N os l v text). Qed.
Print Assumptions C481_long_text_refuted.

Example C480_case : exists v v',
  str_after 256 true false true 8 [Append [104; 105]%Z] [104; 105]%Z v /\ fits true 8 ([104; 105] ++ [33; 33])%Z /\
  flash_append (str_cfg 256 true false true) v [33; 33]%Z = Ok (Go v') /\
  print (str_cfg 256 true false true) v' = Ok [104; 105; 33; 33]%Z.
Proof.
  eexists; eexists. split; [|split; [|split]].
  - split; [lia|]. exists (repeat 7%Z 8). eexists. split; [reflexivity|]. split; [reflexivity|].
    split; [|reflexivity]. econstructor; [reflexivity|cbn; lia|intros _ K; cbn in K; lia|constructor].
  - split; [cbn; lia|intros _ K; cbn in K; lia].
  - reflexivity.
  - reflexivity.
Qed.

Example C481_case : exists v,
  str_after 256 true false true 8 [Append [104; 105]%Z] [104; 105]%Z v /\
  flash_append (str_cfg 256 true false true) v (repeat 65%Z 256) = UB /\
  flash_append (str_cfg 256 true false true) v (repeat 65%Z 10) = Ok Assert.
Proof.
  eexists. split; [|split].
  - split; [lia|]. exists (repeat 7%Z 8). eexists. split; [reflexivity|]. split; [reflexivity|].
    split; [|reflexivity]. econstructor; [reflexivity|cbn; lia|intros _ K; cbn in K; lia|constructor].
  - vm_compute. reflexivity.
  - vm_compute. reflexivity.
Qed.
