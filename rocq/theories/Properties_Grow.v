(* C322-C329: vectors and strings over an allocator that grows *)
From Coq Require Import Lia.
From Verif Require Import Base Grow_Spec Grow_Model Grow_Proofs.
Local Open Scope res_scope.

(* C322: with an allocator that grants every request, every program over any number of containers observes what
   lists observe, wherever reallocation puts the memory and however much spare room is added *)
Theorem C322_growing_containers_are_lists : forall {A} (eqA : A -> A -> bool) grants moves pad os b i,
  (forall k n, 0 < n -> grants k n = true) ->
  gideal_run eqA all_empty os = Some (b, i) ->
  exists s, grun eqA grants moves pad gstart os = Ok (b, s).
Proof.
  intros A eqA grants moves pad os b i Gr E.
  destruct (run_ok eqA grants moves pad Gr os _ _ _ _ rel_start E) as (s & Q & _). eauto.
Qed.
Print Assumptions C322_growing_containers_are_lists.

Definition yes (_ _ : nat) : bool := true.
Definition odd_moves (k : nat) : bool := Nat.odd k.
Definition case_ops : list (gop nat) :=
  [GPush 0 1; GAppend 0 [2; 3]; GAppendVec 0 0; GShrink 0; GPush 0 4; GInsert 0 1 [7; 8]; GErase 0 0; GAll 0;
   GAssignVec 1 0; GSet 0 0 9; GPop 0; GResize 1 9; GSet 1 8 5; GAt 1 8; GReserve 1 20; GInsertMove 1 0 6; GAt 1 0; GRoom 1;
   GSize 1; GEq 0 1; GEmplace 2 1; GClear 2; GShrink 2; GEmpty 2; GAll 0].
Definition case_obs : list (gobs nat) :=
  [GoAll [7; 8; 2; 3; 1; 2; 3; 4]; GoVal 5; GoVal 6; GoBool true; GoNum 10].
Example C322_case : (exists i, gideal_run Nat.eqb all_empty (firstn 19 case_ops) = Some (case_obs, i)) /\
  (exists s, grun Nat.eqb yes odd_moves 8 gstart (firstn 19 case_ops) = Ok (case_obs, s)) /\
  (exists s, grun Nat.eqb (fun _ n => Nat.ltb 0 n) odd_moves 0 gstart
     [GEmplace 2 1; GClear 2; GShrink 2; GEmpty 2; GPush 2 3; GAll 2; GEq 2 3] = Ok ([GoBool true; GoAll [3]; GoBool false], s)).
Proof.
  split; [|split]; eexists; cbv; reflexivity.
Qed.

(* C323: meanwhile every live block is held by exactly one container, with capacity() elements, and nothing leaks *)
Theorem C323_blocks_are_owned : forall {A} (eqA : A -> A -> bool) grants moves pad os b b' i s,
  (forall k n, 0 < n -> grants k n = true) ->
  gideal_run eqA all_empty os = Some (b, i) -> grun eqA grants moves pad gstart os = Ok (b', s) ->
  (forall id, live s id <-> exists x, hnd (vs s x) = Some id) /\
  (forall x y id, hnd (vs s x) = Some id -> hnd (vs s y) = Some id -> x = y) /\
  (forall x id, hnd (vs s x) = Some id -> exists m, nth_error (hp (wd s)) id = Some (Some m) /\ length m = cap (vs s x)).
Proof.
  intros A eqA grants moves pad os b b' i s Gr E Q. destruct (run_rel eqA grants moves pad Gr _ _ _ _ _ E Q) as (_ & H & D & L).
  assert (O : forall x id, hnd (vs s x) = Some id -> exists m, nth_error (hp (wd s)) id = Some (Some m) /\ length m = cap (vs s x)).
  { intros x id X. destruct (H x) as (k & r & Hx & _). unfold holds in Hx. rewrite X in Hx. destruct Hx as (B & C & _). eauto. }
  split; [|split]; auto. intros id. split; [apply L|]. intros (x & X). destruct (O x id X) as (m & M & _). exists m. exact M.
Qed.
Print Assumptions C323_blocks_are_owned.
Example C323_case : exists b s, grun Nat.eqb yes odd_moves 8 gstart case_ops = Ok (b, s) /\
  map (fun m => match m with Some _ => true | None => false end) (hp (wd s)) =
    [false; true; false; true; false; true] /\
  map (fun x => hnd (vs s x)) [0; 1; 2; 3] = [Some 1; Some 3; Some 5; None].
Proof. eexists. eexists. split; [cbv; reflexivity|]. split; reflexivity. Qed.

(* C324 (false): a container that goes out of scope gives its memory back *)
Theorem C324_scope_end_leaks_refuted : forall {A} (eqA : A -> A -> bool) grants moves pad os b b' i s x,
  (forall k n, 0 < n -> grants k n = true) ->
  gideal_run eqA all_empty os = Some (b, i) -> grun eqA grants moves pad gstart os = Ok (b', s) ->
  i x <> [] ->
  exists id, live (gdestroy s x) id /\ forall y, hnd (vs (gdestroy s x) y) <> Some id.
Proof.
  intros A eqA grants moves pad os b b' i s x Gr E Q N. destruct (run_rel eqA grants moves pad Gr _ _ _ _ _ E Q) as (_ & H & D & L).
  destruct (H x) as (k & r & Hx & Cx). unfold holds in Hx. destruct (hnd (vs s x)) as [id|] eqn:X.
  - exists id. split; [exists (k ++ r); apply Hx|]. intros y. simpl. destruct (Nat.eqb_spec y x) as [->|Ny]; [discriminate|].
    intros Y. apply Ny, (D y x id); auto.
  - destruct Hx as (_ & _ & -> & _). inversion Cx. congruence.
Qed.
Print Assumptions C324_scope_end_leaks_refuted.
Example C324_case : exists i b s, gideal_run Nat.eqb all_empty [GPush 0 5] = Some ([], i) /\ i 0 = [Some 5] /\
  grun Nat.eqb yes odd_moves 8 gstart [GPush 0 5] = Ok (b, s) /\ live (gdestroy s 0) 0.
Proof. do 3 eexists. split; [cbv; reflexivity|]. split; [reflexivity|]. split; [cbv; reflexivity|]. eexists. cbv. reflexivity. Qed.

(* C325 (false): when the allocator refuses, the container stays as it was *)
Definition refuse (_ _ : nat) : bool := false.
Theorem C325_refused_push_undefined_refuted : forall {A} (eqA : A -> A -> bool) grants moves pad os b s x a,
  grun eqA grants moves pad gstart os = Ok (b, s) ->
  size (vs s x) = cap (vs s x) ->
  gstep eqA refuse moves pad s (GPush x a) = UB.
Proof.
  intros A eqA grants moves pad os b s x a _ F. simpl. unfold push_back, append, grow, ensure_total_capacity. rewrite F.
  cbn [length]. destruct (Nat.ltb_spec (cap (vs s x)) (cap (vs s x) + 1)); [|lia].
  unfold reserve, refuse. destruct (hnd (vs s x)) as [id|]; simpl.
  - unfold hrealloc, block. destruct (nth_error (hp (wd s)) id) as [[m|]|]; simpl; auto.
  - reflexivity.
Qed.
Print Assumptions C325_refused_push_undefined_refuted.
Theorem C325_refused_reserve_loses_everything_refuted : forall {A} (eqA : A -> A -> bool) grants moves pad os b b' i s x n,
  (forall k n, 0 < n -> grants k n = true) ->
  gideal_run eqA all_empty os = Some (b, i) -> grun eqA grants moves pad gstart os = Ok (b', s) ->
  i x <> [] -> length (i x) <= n ->
  exists s' id, gstep eqA refuse moves pad s (GReserve x n) = Ok ([], s') /\
    gstep eqA refuse moves pad s' (GSize x) = Ok ([GoNum 0], s') /\
    gstep eqA refuse moves pad s' (GEmpty x) = Ok ([GoBool false], s') /\
    (forall j, gstep eqA refuse moves pad s' (GAt x j) = UB) /\
    live s' id /\ forall y, hnd (vs s' y) <> Some id.
Proof.
  intros A eqA grants moves pad os b b' i s x n Gr E Q N Ln.
  destruct (run_rel eqA grants moves pad Gr _ _ _ _ _ E Q) as (_ & H & D & L).
  destruct (H x) as (k & r & Hx & Cx). pose proof (cov_len _ _ Cx) as CL. unfold holds in Hx.
  assert (NZ : length (i x) <> 0) by (destruct (i x); simpl; congruence).
  destruct (hnd (vs s x)) as [id|] eqn:X.
  - destruct Hx as (B & C & Z). eexists. exists id. cbn [gstep]. unfold reserve, hrealloc, block. rewrite X, B. simpl.
    split; [reflexivity|]. simpl. rewrite Nat.eqb_refl. simpl. split; [reflexivity|].
    split; [unfold empty; simpl; destruct (Nat.eqb_spec (sz (vs s x)) 0); [lia|reflexivity]|].
    split; [intros j; reflexivity|]. destruct (Nat.eqb_spec n 0); [lia|].
    split; [eexists; exact B|]. intros y. simpl. destruct (Nat.eqb_spec y x) as [->|Ny]; [discriminate|].
    intros Y. apply Ny, (D y x id); auto.
  - destruct Hx as (_ & _ & -> & _). simpl in CL. lia.
Qed.
Print Assumptions C325_refused_reserve_loses_everything_refuted.
Example C325_case : exists i b s, gideal_run Nat.eqb all_empty [GAppend 0 [5; 6]; GShrink 0] = Some ([], i) /\ length (i 0) = 2 /\
  grun Nat.eqb yes odd_moves 8 gstart [GAppend 0 [5; 6]; GShrink 0] = Ok (b, s) /\ size (vs s 0) = cap (vs s 0).
Proof. do 3 eexists. split; [cbv; reflexivity|]. split; [reflexivity|]. split; [cbv; reflexivity|]. reflexivity. Qed.

(* C326 (false): reserve(n) with n below size() changes nothing *)
Theorem C326_reserve_below_size_refuted : forall {A} (eqA : A -> A -> bool) grants moves pad os b b' i s x n j,
  (forall k n, 0 < n -> grants k n = true) ->
  gideal_run eqA all_empty os = Some (b, i) -> grun eqA grants moves pad gstart os = Ok (b', s) ->
  0 < n -> n <= j < length (i x) ->
  exists s', gstep eqA grants moves pad s (GReserve x n) = Ok ([], s') /\
    gstep eqA grants moves pad s' (GSize x) = Ok ([GoNum (length (i x))], s') /\
    gstep eqA grants moves pad s' (GAt x j) = UB.
Proof.
  intros A eqA grants moves pad os b b' i s x n j Gr E Q N Ln.
  destruct (run_rel eqA grants moves pad Gr _ _ _ _ _ E Q) as (_ & H & D & L).
  destruct (H x) as (k & r & Hx & Cx). pose proof (cov_len _ _ Cx) as CL. unfold holds in Hx.
  destruct (hnd (vs s x)) as [id|] eqn:X.
  - destruct Hx as (B & C & Z). cbn [gstep]. unfold reserve, hrealloc, block. rewrite X, B. simpl. rewrite Gr by auto.
    pose proof (nth_some_lt _ _ _ B) as Hid.
    destruct (moves (calls (wd s))).
    + simpl. eexists. split; [reflexivity|]. simpl. rewrite Nat.eqb_refl. unfold size. simpl. rewrite Z, CL.
      split; [reflexivity|]. unfold get_n. simpl. unfold block. simpl.
      rewrite <- (upd_length (hp (wd s)) id None), nth_last. simpl.
      rewrite refit_length. destruct (Nat.leb_spec (j + 1) n); [lia|reflexivity].
    + simpl. eexists. split; [reflexivity|]. simpl. rewrite Nat.eqb_refl. unfold size. simpl. rewrite Z, CL.
      split; [reflexivity|]. unfold get_n. simpl. unfold block. simpl. rewrite upd_at by auto. simpl.
      rewrite refit_length. destruct (Nat.leb_spec (j + 1) n); [lia|reflexivity].
  - destruct Hx as (_ & _ & -> & _). simpl in CL. lia.
Qed.
Print Assumptions C326_reserve_below_size_refuted.
Example C326_case : exists i b s, gideal_run Nat.eqb all_empty [GAppend 0 [5; 6; 7]] = Some ([], i) /\ 2 <= 2 < length (i 0) /\
  grun Nat.eqb yes odd_moves 8 gstart [GAppend 0 [5; 6; 7]] = Ok (b, s) /\
  gstep Nat.eqb yes odd_moves 8 s (GAt 0 2) = Ok ([GoVal 7], s).
Proof. do 3 eexists. split; [cbv; reflexivity|]. split; [simpl; lia|]. split; [cbv; reflexivity|]. reflexivity. Qed.

(* C327: v.push_back(v[j]) while there is room for it is push_back of that value *)
Theorem C327_push_own_element_with_room : forall {A} (eqA : A -> A -> bool) grants moves pad os b b' i s x j a,
  (forall k n, 0 < n -> grants k n = true) ->
  gideal_run eqA all_empty os = Some (b, i) -> grun eqA grants moves pad gstart os = Ok (b', s) ->
  nth_error (i x) j = Some (Some a) -> size (vs s x) < cap (vs s x) ->
  upd_vec s x (push_own grants moves pad (vs s x) (wd s) j) = gstep eqA grants moves pad s (GPush x a).
Proof.
  intros A eqA grants moves pad os b b' i s x j a Gr E Q Hj Room.
  destruct (run_rel eqA grants moves pad Gr _ _ _ _ _ E Q) as (_ & H & D & L).
  destruct (H x) as (k & r & Hx & Cx). pose proof (cov_nth _ _ _ _ Cx Hj) as Hk.
  cbn [gstep]. unfold upd_vec, push_own, push_back, append, grow, ensure_total_capacity. cbn [length].
  destruct (Nat.ltb_spec (cap (vs s x)) (size (vs s x) + 1)); [lia|]. cbn [bind].
  rewrite (get_ok _ _ _ _ j 1 Hx) by (apply nth_some_lt in Hk; lia). cbn [bind]. rewrite (nth_one _ _ _ Hk). reflexivity.
Qed.
Print Assumptions C327_push_own_element_with_room.
Example C327_case : exists i b s, gideal_run Nat.eqb all_empty [GAppend 0 [5; 6]] = Some ([], i) /\ nth_error (i 0) 1 = Some (Some 6) /\
  grun Nat.eqb yes odd_moves 8 gstart [GAppend 0 [5; 6]] = Ok (b, s) /\ size (vs s 0) < cap (vs s 0) /\
  exists s', upd_vec s 0 (push_own yes odd_moves 8 (vs s 0) (wd s) 1) = Ok ([], s') /\
    gstep Nat.eqb yes odd_moves 8 s' (GAll 0) = Ok ([GoAll [5; 6; 6]], s').
Proof.
  do 3 eexists. split; [cbv; reflexivity|]. split; [reflexivity|]. split; [cbv; reflexivity|]. split; [cbv; lia|].
  eexists. split; [cbv; reflexivity|]. reflexivity.
Qed.

(* C328 (false): v.push_back(v[j]) is push_back of that value when the container is full *)
Theorem C328_push_own_element_when_full_refuted : forall {A} (eqA : A -> A -> bool) grants moves pad os b b' i s x j,
  (forall k n, 0 < n -> grants k n = true) ->
  gideal_run eqA all_empty os = Some (b, i) -> grun eqA grants moves pad gstart os = Ok (b', s) ->
  j < length (i x) -> size (vs s x) = cap (vs s x) -> moves (calls (wd s)) = true ->
  upd_vec s x (push_own grants moves pad (vs s x) (wd s) j) = UB.
Proof.
  intros A eqA grants moves pad os b b' i s x j Gr E Q Hj Full Mv.
  destruct (run_rel eqA grants moves pad Gr _ _ _ _ _ E Q) as (_ & H & D & L).
  destruct (H x) as (k & r & Hx & Cx). pose proof (cov_len _ _ Cx) as CL. unfold holds in Hx.
  unfold upd_vec, push_own, grow, ensure_total_capacity. rewrite Full.
  destruct (Nat.ltb_spec (cap (vs s x)) (cap (vs s x) + 1)); [|lia].
  unfold reserve. destruct (hnd (vs s x)) as [id|] eqn:X.
  - destruct Hx as (B & C & Z). unfold hrealloc, block. rewrite B. cbn [bind]. rewrite Gr by lia. rewrite Mv. cbn [bind].
    unfold get_n. cbn [Nat.eqb]. rewrite X. unfold block. cbn [hp].
    pose proof (nth_some_lt _ _ _ B) as Hid.
    rewrite nth_error_app1 by (rewrite upd_length; auto). rewrite upd_at by auto. reflexivity.
  - destruct Hx as (_ & _ & -> & _). simpl in CL. lia.
Qed.
Print Assumptions C328_push_own_element_when_full_refuted.
Example C328_case : exists i b s, gideal_run Nat.eqb all_empty [GAppend 0 [5; 6]; GShrink 0] = Some ([], i) /\
  1 < length (i 0) /\ grun Nat.eqb yes (fun _ => true) 8 gstart [GAppend 0 [5; 6]; GShrink 0] = Ok (b, s) /\
  size (vs s 0) = cap (vs s 0).
Proof. do 3 eexists. split; [cbv; reflexivity|]. split; [simpl; lia|]. split; [cbv; reflexivity|]. reflexivity. Qed.

(* C329 (false): a copy is independent of the original *)
Theorem C329_copy_sees_writes_refuted : forall {A} (eqA : A -> A -> bool) grants moves pad os b b' i s x y j a,
  (forall k n, 0 < n -> grants k n = true) ->
  gideal_run eqA all_empty os = Some (b, i) -> grun eqA grants moves pad gstart os = Ok (b', s) ->
  x <> y -> j < length (i x) ->
  exists s', gstep eqA grants moves pad (gcopy s y x) (GSet x j a) = Ok ([], s') /\
    gstep eqA grants moves pad s' (GAt y j) = Ok ([GoVal a], s').
Proof.
  intros A eqA grants moves pad os b b' i s x y j a Gr E Q N Hj.
  destruct (run_rel eqA grants moves pad Gr _ _ _ _ _ E Q) as (_ & H & D & L).
  destruct (H x) as (k & r & Hx & Cx). pose proof (cov_len _ _ Cx) as CL.
  unfold gcopy. simpl. destruct (Nat.eqb_spec x y) as [|_]; [contradiction|].
  destruct (put_ok moves pad _ _ _ _ j [Some a] Hx) as (w' & P & H' & _); [simpl; lia|]. rewrite P. simpl.
  eexists. split; [reflexivity|]. simpl. destruct (Nat.eqb_spec y x) as [|_]; [congruence|]. rewrite Nat.eqb_refl.
  pose proof (holds_size _ _ _ _ H') as HS.
  assert (NT : nth_error (firstn j k ++ [Some a] ++ skipn (j + length [Some a]) k) j = Some (Some a)).
  { rewrite nth_error_app2; rewrite firstn_length; [|lia]. replace (j - Nat.min j (length k)) with 0 by lia. reflexivity. }
  rewrite (get_ok _ _ _ _ j 1 H') by (apply nth_some_lt in NT; lia). cbn [bind]. rewrite (nth_one _ _ _ NT). reflexivity.
Qed.
Print Assumptions C329_copy_sees_writes_refuted.
Theorem C329_copy_dangles_refuted : forall {A} (eqA : A -> A -> bool) grants moves pad os b b' i s x y j a,
  (forall k n, 0 < n -> grants k n = true) ->
  gideal_run eqA all_empty os = Some (b, i) -> grun eqA grants moves pad gstart os = Ok (b', s) ->
  x <> y -> j < length (i x) -> size (vs s x) = cap (vs s x) -> moves (calls (wd s)) = true ->
  exists s', gstep eqA grants moves pad (gcopy s y x) (GPush x a) = Ok ([], s') /\
    gstep eqA grants moves pad s' (GSize y) = Ok ([GoNum (length (i x))], s') /\
    gstep eqA grants moves pad s' (GAt y j) = UB.
Proof.
  intros A eqA grants moves pad os b b' i s x y j a Gr E Q N Hj Full Mv.
  destruct (run_rel eqA grants moves pad Gr _ _ _ _ _ E Q) as (_ & H & D & L).
  destruct (H x) as (k & r & Hx & Cx). pose proof (cov_len _ _ Cx) as CL. pose proof (holds_size _ _ _ _ Hx) as HS.
  destruct (append_ok grants moves pad Gr _ _ _ _ [a] Hx) as (v' & w' & r' & P & _ & _).
  assert (DD : exists id, hnd (vs s x) = Some id /\ nth_error (hp w') id = Some None).
  { unfold holds in Hx. destruct (hnd (vs s x)) as [id|] eqn:X; [|destruct Hx as (_ & _ & -> & _); simpl in CL; lia].
    exists id. split; auto. destruct Hx as (B & C & Z). pose proof (nth_some_lt _ _ _ B) as Hid. revert P.
    unfold append, grow, ensure_total_capacity. rewrite Full. cbn [length map].
    destruct (Nat.ltb_spec (cap (vs s x)) (cap (vs s x) + 1)); [|lia].
    unfold reserve. rewrite X. unfold hrealloc, block. rewrite B. cbn [bind]. rewrite Gr by lia. rewrite Mv. cbn [bind].
    unfold put_n, set_size. cbn [length Nat.eqb hnd]. unfold block. cbn [hp].
    rewrite <- (upd_length (hp (wd s)) id None) at 1. rewrite nth_last. cbn [bind].
    destruct (Nat.leb _ _); [|discriminate]. cbn [bind]. intros P. injection P as _ <-. cbn [hp].
    rewrite upd_other by lia. rewrite nth_error_app1 by (rewrite upd_length; auto). rewrite upd_at by auto. reflexivity. }
  destruct DD as (id & X & Fr).
  unfold gcopy. cbn [gstep]. simpl vs. simpl wd. destruct (Nat.eqb_spec x y) as [|_]; [contradiction|].
  unfold upd_vec, push_back. rewrite P. cbn [bind]. eexists. split; [reflexivity|]. simpl.
  destruct (Nat.eqb_spec y x) as [|_]; [congruence|]. rewrite Nat.eqb_refl, HS, CL. split; [reflexivity|].
  unfold get_n. simpl. rewrite X. unfold block. rewrite Fr. reflexivity.
Qed.
Print Assumptions C329_copy_dangles_refuted.
Example C329_case : exists i b s, gideal_run Nat.eqb all_empty [GAppend 0 [5; 6]; GShrink 0] = Some ([], i) /\ 1 < length (i 0) /\
  grun Nat.eqb yes (fun _ => true) 8 gstart [GAppend 0 [5; 6]; GShrink 0] = Ok (b, s) /\
  size (vs s 0) = cap (vs s 0) /\
  gstep Nat.eqb yes (fun _ => true) 8 (gcopy s 1 0) (GAt 1 1) = Ok ([GoVal 6], gcopy s 1 0).
Proof. do 3 eexists. split; [cbv; reflexivity|]. split; [simpl; lia|]. split; [cbv; reflexivity|]. split; reflexivity. Qed.

(* C330: insert with room for the element, and erase of an element that is not the last, return an iterator to the
   inserted and to the following element *)
Theorem C330_insert_iterator_with_room : forall {A} (eqA : A -> A -> bool) grants moves pad os b b' i s x j a,
  (forall k n, 0 < n -> grants k n = true) ->
  gideal_run eqA all_empty os = Some (b, i) -> grun eqA grants moves pad gstart os = Ok (b', s) ->
  j <= length (i x) -> size (vs s x) < cap (vs s x) ->
  exists v' w' it, insert_it grants moves pad (vs s x) (wd s) j a = Ok (v', w', it) /\ deref w' it = Ok a /\
    gstep eqA grants moves pad s (GInsertMove x j a) = Ok ([], set_vec s x v' w').
Proof.
  intros A eqA grants moves pad os b b' i s x j a Gr E Q Hj Room.
  destruct (run_rel eqA grants moves pad Gr _ _ _ _ _ E Q) as (_ & H & D & L).
  destruct (H x) as (k & r & Hx & Cx). pose proof (cov_len _ _ Cx) as CL.
  destruct (insert_move_ok grants moves pad Gr _ _ _ _ j a Hx) as (v' & w' & r' & P & H' & _); [lia|].
  assert (S : hnd v' = hnd (vs s x)).
  { revert P. unfold insert_move, grow, ensure_total_capacity.
    destruct (Nat.ltb_spec (cap (vs s x)) (size (vs s x) + 1)); [lia|]. cbn [bind].
    repeat match goal with |- context [get_n ?a ?b ?c ?d] => destruct (get_n a b c d); try discriminate; cbn [bind] end.
    repeat match goal with |- context [put_n ?a ?b ?c ?d] => destruct (put_n a b c d); try discriminate; cbn [bind] end.
    intros P. injection P as <- _. reflexivity. }
  exists v', w', (hnd (vs s x), j). unfold insert_it. rewrite P. cbn [bind]. split; [reflexivity|]. split.
  - unfold deref. cbn [fst snd]. rewrite <- S. unfold holds in H'. destruct (hnd v') as [id|].
    + destruct H' as (B & _). unfold block. rewrite B. cbn [bind].
      assert (NT : nth_error ((firstn j k ++ Some a :: skipn j k) ++ r') j = Some (Some a)).
      { rewrite <- app_assoc, nth_error_app2; rewrite firstn_length; [|lia]. replace (j - Nat.min j (length k)) with 0 by lia. reflexivity. }
      rewrite NT. reflexivity.
    + destruct H' as (_ & _ & F & _). symmetry in F. destruct (app_cons_not_nil _ _ _ F).
  - cbn [gstep]. unfold upd_vec. rewrite P. reflexivity.
Qed.
Print Assumptions C330_insert_iterator_with_room.
Theorem C330_erase_iterator : forall {A} (eqA : A -> A -> bool) grants moves pad os b b' i s x j a,
  (forall k n, 0 < n -> grants k n = true) ->
  gideal_run eqA all_empty os = Some (b, i) -> grun eqA grants moves pad gstart os = Ok (b', s) ->
  nth_error (i x) (S j) = Some (Some a) ->
  exists v' w' it, erase_it (vs s x) (wd s) j = Ok (v', w', it) /\ deref w' it = Ok a /\
    gstep eqA grants moves pad s (GErase x j) = Ok ([], set_vec s x v' w').
Proof.
  intros A eqA grants moves pad os b b' i s x j a Gr E Q Hj.
  destruct (run_rel eqA grants moves pad Gr _ _ _ _ _ E Q) as (_ & H & D & L).
  destruct (H x) as (k & r & Hx & Cx). pose proof (cov_nth _ _ _ _ Cx Hj) as Hk. pose proof (nth_some_lt _ _ _ Hk) as Hl.
  destruct (erase_ok moves pad _ _ _ _ j Hx) as (v' & w' & r' & P & H' & _); [lia|].
  exists v', w', (hnd v', j). unfold erase_it. rewrite P. cbn [bind]. split; [reflexivity|]. split.
  - unfold deref. cbn [fst snd]. unfold holds in H'. destruct (hnd v') as [id|].
    + destruct H' as (B & _). unfold block. rewrite B. cbn [bind].
      assert (NT : nth_error ((firstn j k ++ skipn (S j) k) ++ r') j = Some (Some a)).
      { rewrite <- app_assoc, nth_error_app2; rewrite firstn_length; [|lia]. replace (j - Nat.min j (length k)) with 0 by lia.
        rewrite nth_error_app1 by (rewrite skipn_length; lia). rewrite <- Hk. rewrite <- (firstn_skipn (S j) k) at 2.
        rewrite nth_error_app2; rewrite firstn_length; [|lia]. f_equal. lia. }
      rewrite NT. reflexivity.
    + destruct H' as (_ & _ & F & _). apply (f_equal (@length _)) in F. rewrite app_length, firstn_length, skipn_length in F. simpl in F. lia.
  - cbn [gstep]. unfold upd_vec. rewrite P. reflexivity.
Qed.
Print Assumptions C330_erase_iterator.
Example C330_case : exists i b s v w it, gideal_run Nat.eqb all_empty [GAppend 0 [5; 6; 7]] = Some ([], i) /\ length (i 0) = 3 /\
  grun Nat.eqb yes odd_moves 8 gstart [GAppend 0 [5; 6; 7]] = Ok (b, s) /\ size (vs s 0) < cap (vs s 0) /\
  insert_it yes odd_moves 8 (vs s 0) (wd s) 1 9 = Ok (v, w, it) /\ deref w it = Ok 9.
Proof.
  do 6 eexists. split; [cbv; reflexivity|]. split; [reflexivity|]. split; [cbv; reflexivity|]. split; [cbv; lia|].
  split; [cbv; reflexivity|]. reflexivity.
Qed.

(* C331 (false): insert returns an iterator to the inserted element also when the container is full *)
Theorem C331_insert_iterator_when_full_refuted : forall {A} (eqA : A -> A -> bool) grants moves pad os b b' i s x j a v' w' it,
  (forall k n, 0 < n -> grants k n = true) ->
  gideal_run eqA all_empty os = Some (b, i) -> grun eqA grants moves pad gstart os = Ok (b', s) ->
  i x <> [] -> j <= length (i x) -> size (vs s x) = cap (vs s x) -> moves (calls (wd s)) = true ->
  insert_it grants moves pad (vs s x) (wd s) j a = Ok (v', w', it) ->
  deref w' it = UB.
Proof.
  intros A eqA grants moves pad os b b' i s x j a v' w' it Gr E Q Ne Hj Full Mv.
  destruct (run_rel eqA grants moves pad Gr _ _ _ _ _ E Q) as (_ & H & D & L).
  destruct (H x) as (k & r & Hx & Cx). pose proof (cov_len _ _ Cx) as CL.
  unfold holds in Hx. destruct (hnd (vs s x)) as [id|] eqn:X;
    [|destruct Hx as (_ & _ & -> & _); inversion Cx; congruence].
  destruct Hx as (B & C & Z). pose proof (nth_some_lt _ _ _ B) as Hid.
  unfold insert_it. rewrite X. unfold insert_move, grow, ensure_total_capacity. rewrite Full.
  destruct (Nat.ltb_spec (cap (vs s x)) (cap (vs s x) + 1)); [|lia].
  unfold reserve. rewrite X. unfold hrealloc, block at 1. rewrite B. cbn [bind]. rewrite Gr by lia. rewrite Mv. cbn [bind].
  set (w1 := W _ _). set (v1 := set_size _ _).
  assert (X1 : hnd v1 = Some (length (hp (wd s)))) by reflexivity.
  assert (D1 : nth_error (hp w1) id = Some None).
  { unfold w1. cbn [hp]. rewrite nth_error_app1 by (rewrite upd_length; auto). apply upd_at; auto. }
  assert (K : forall (w2 : @world A) p xs w3, nth_error (hp w2) id = Some None -> put_n v1 w2 p xs = Ok w3 -> nth_error (hp w3) id = Some None).
  { intros w2 p xs w3 F. unfold put_n. destruct (Nat.eqb _ _); [intros P; injection P as <-; auto|]. rewrite X1.
    destruct (block w2 (length (hp (wd s)))); try discriminate. cbn [bind]. destruct (Nat.leb _ _); [|discriminate].
    intros P. injection P as <-. cbn [hp]. rewrite upd_other by lia. exact F. }
  destruct (get_n v1 w1 _ _); try discriminate. cbn [bind].
  destruct (put_n v1 w1 _ _) as [w2| |] eqn:P2; try discriminate. cbn [bind].
  destruct (put_n v1 w2 _ _) as [w3| |] eqn:P3; try discriminate. cbn [bind].
  intros P. injection P as <- <- <-. unfold deref. cbn [fst]. unfold block.
  rewrite (K _ _ _ _ (K _ _ _ _ D1 P2) P3). reflexivity.
Qed.
Print Assumptions C331_insert_iterator_when_full_refuted.
Example C331_case : exists i b s v w it, gideal_run Nat.eqb all_empty [GAppend 0 [5; 6]; GShrink 0] = Some ([], i) /\ i 0 <> [] /\
  grun Nat.eqb yes (fun _ => true) 8 gstart [GAppend 0 [5; 6]; GShrink 0] = Ok (b, s) /\ size (vs s 0) = cap (vs s 0) /\
  insert_it yes (fun _ => true) 8 (vs s 0) (wd s) 1 9 = Ok (v, w, it).
Proof.
  do 6 eexists. split; [cbv; reflexivity|]. split; [discriminate|]. split; [cbv; reflexivity|]. split; [reflexivity|].
  cbv. reflexivity.
Qed.
