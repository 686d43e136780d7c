(* Proofs about the Arduino operators on strings. *)
From Verif Require Import Base BaseLemmas Dyn_Spec Dyn_Model Dyn_View Dyn_Proofs Dyn_Bounds Ard_Model.
Local Open Scope res_scope.

Lemma flash_same {A} (c : cfg A) v l text : holds c v l ->
  flash_append c v text = append c v text (length text).
Proof.
  intros H. pose proof (size_ok c v l H) as E. pose proof (shape_len c v l (h_shape c v l H)) as L.
  pose proof (h_bound c v l H) as B.
  unfold flash_append, append, grow, resize, ensure_total_size, ensure_total_capacity, reserve. rewrite E.
  cbn [vbind lift vret bind]. rewrite (wrap_ok c (length l)) by lia.
  destruct (Nat.ltb _ _); [destruct (nodebug c)|]; cbn [vbind lift vret bind]; auto;
    destruct (set_size c v _); cbn [vbind lift vret bind]; auto.
Qed.

Lemma str_flash_same sm na nd nul N os l v text : str_after sm na nd nul N os l v ->
  flash_append (str_cfg sm na nd nul) v text = append (str_cfg sm na nd nul) v text (length text).
Proof.
  intros H. destruct (str_after_holds _ _ _ _ _ _ _ _ H) as [HH _]. exact (flash_same _ _ _ _ HH).
Qed.

Lemma str_flash sm na nd nul N os l v text : str_after sm na nd nul N os l v -> fits nul N (l ++ text) ->
  exists v', flash_append (str_cfg sm na nd nul) v text = Ok (Go v') /\ looks_like (str_cfg sm na nd nul) v' (l ++ text).
Proof.
  intros H F. rewrite (str_flash_same _ _ _ _ _ _ _ _ _ H).
  pose proof (str_append sm na nd nul N os l v text (length text) H (Nat.le_refl _)) as K.
  rewrite firstn_all in K. auto.
Qed.

Lemma str_print sm na nd nul N os l v : str_after sm na nd nul N os l v -> print (str_cfg sm na nd nul) v = Ok l.
Proof.
  intros H. destruct (str_after_holds _ _ _ _ _ _ _ _ H) as [HH _]. exact (ll_iter _ _ _ (holds_looks _ _ _ HH)).
Qed.

Lemma copy_in_beyond {A} : forall (xs : list A) m pos, pos <= length m -> length m < pos + length xs ->
  copy_in m pos xs (length xs) = UB.
Proof.
  induction xs as [|x t IH]; intros m pos P L; cbn [length copy_in] in *; [lia|].
  destruct (Nat.eq_dec pos (length m)) as [->|D].
  - unfold wr. destruct (Nat.ltb_spec (length m) (length m)); [lia|reflexivity].
  - rewrite wr_ok by lia. cbn [bind]. apply IH; rewrite upd_length; lia.
Qed.

Lemma str_flash_long sm na nd nul N os l v text : str_after sm na nd nul N os l v ->
  N < length l + length text -> (length l + length text) mod sm <= room nul N ->
  flash_append (str_cfg sm na nd nul) v text = UB.
Proof.
  intros H G R. destruct (str_after_holds _ _ _ _ _ _ _ _ H) as [HH L].
  set (c := str_cfg sm na nd nul) in *.
  pose proof (size_ok c v l HH) as E. pose proof (shape_len c v l (h_shape c v l HH)) as SL.
  pose proof (h_bound c v l HH) as B.
  assert (tlen c <= N) as T. { lia. }
  unfold flash_append, resize. rewrite E. cbn [vbind lift vret bind]. rewrite (wrap_ok c (length l)) by lia.
  destruct (ensure_size_ok c v (wrap c (length l + length text)) B) as (v' & Ev & L' & _).
  - unfold wrap, c in *. cbn [smod str_cfg]. rewrite str_tlen in *. unfold room in R. destruct nul; lia.
  - rewrite Ev. cbn [vbind lift vret bind]. rewrite copy_in_beyond by lia. reflexivity.
Qed.

Lemma str_flash_assert sm na nul N os l v text : str_after sm na false nul N os l v ->
  N < length l + length text -> length l + length text < sm ->
  flash_append (str_cfg sm na false nul) v text = Ok Assert.
Proof.
  intros H G R. destruct (str_after_holds _ _ _ _ _ _ _ _ H) as [HH L].
  set (c := str_cfg sm na false nul) in *.
  pose proof (size_ok c v l HH) as E. pose proof (h_bound c v l HH) as B.
  unfold flash_append, resize, ensure_total_size, ensure_total_capacity. rewrite E. cbn [vbind lift vret bind].
  rewrite (wrap_ok c (length l + length text)) by auto. rewrite capacity_ok by auto.
  destruct (Nat.ltb_spec (length (buf v)) (length l + length text)); [reflexivity|lia].
Qed.
