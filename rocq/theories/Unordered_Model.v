(* Model of unordered_map and unordered_set: /repo/src/estd/internal/container/unordered/base.h,
   unordered/traits.h, unordered_map.h and unordered_set.h.
   The container is a list of slots, pointers into it are indices.  Reading a slot outside the
   container is undefined.  Key types: equality [keqb] (both KeyEqual and the operator== used by
   nullable_traits), the null key K{} [null], the hash function [hash] with results of [w] bits.
   Simplifications: keys and mapped values are trivial types, so destructors do nothing (class
   types are in Ulife_Model.v); the
   number of slots fits unsigned and is not zero; lookups use the key type itself. *)
From Verif Require Import Base Unordered_Spec.
Local Open Scope res_scope.

(* ================= unordered/base.h, for both containers ================= *)
Section Table.
Context {K C : Type} (keqb : K -> K -> bool) (null : K) (hash : K -> N) (w : N).
(* the traits: key of a slot, is_sparse *)
Context (ckey : C -> K) (csparse : C -> nat -> bool).

(* traits.h:23-26, 139-143, 229-232 *)
Definition is_empty (c : C) : bool := keqb (ckey c) null.
(* features.h:4, base.h:127 *)
Definition bucket_depth : nat := 4.
(* base.h:140-144, 509-513: computed in the (unsigned, w bits) type of the hash *)
Definition index_of (n : nat) (k : K) : nat :=
  N.to_nat (((N.of_nat bucket_depth * hash k) mod 2 ^ w) mod N.of_nat n)%N.
Definition index (s : list C) (k : K) : nat := index_of (length s) k.

(* base.h:107-113; also local_iterator_base::operator++ 386-395 after its ++it_ *)
Fixpoint skip_sparse (fuel : nat) (s : list C) (p n : nat) : result nat :=
  match fuel with
  | O => Diverge
  | S f =>
      c <- rd s p ;;                                          (* :110 is_sparse( *p, n) first *)
      if csparse c n && negb (Nat.eqb p (length s)) then skip_sparse f s (p + 1) n else Ok p
  end.
Definition local_begin (s : list C) (n : nat) : result nat := skip_sparse (S (length s)) s n n.  (* :547-550 *)
Definition local_next (s : list C) (n it : nat) : result nat := skip_sparse (S (length s)) s (it + 1) n.
(* base.h:366-384 local iterator != end(n) *)
Definition local_more (s : list C) (n it : nat) : result bool :=
  if Nat.eqb it (length s) then Ok false
  else c <- rd s it ;;
       if csparse c n then Ok true
       else if is_empty c then Ok false
       else Ok (Nat.eqb n (index s (ckey c))).

(* base.h:420-446  find_ll: the slot, or None for {end, npos} *)
Fixpoint find_loop (fuel : nat) (s : list C) (n : nat) (x : K) (it : nat) : result (option nat) :=
  match fuel with
  | O => Diverge
  | S f =>
      more <- local_more s n it ;;
      if more then
        c <- rd s it ;;
        if keqb x (ckey c) then Ok (Some it)
        else it' <- local_next s n it ;; find_loop f s n x it'
      else Ok None
  end.
Definition find_ll (s : list C) (x : K) : result (option nat) :=
  if keqb x null then Ok None                                 (* :423-425 *)
  else let n := index s x in
       it <- local_begin s n ;; find_loop (S (length s)) s n x it.
(* base.h:482-486 *)
Definition contains (s : list C) (x : K) : result bool :=
  r <- find_ll s x ;; Ok (match r with Some _ => true | None => false end).

(* base.h:207-242  insert_precheck: slot (None is nullptr) and whether to insert *)
Fixpoint precheck_loop (fuel : nat) (s : list C) (n : nat) (k : K) (dup : bool) (it : nat) : result (option nat * bool) :=
  match fuel with
  | O => Diverge
  | S f =>
      c <- rd s it ;;                                         (* :222 is_empty( *it) first *)
      if is_empty c then Ok (Some it, true)                   (* :241 *)
      else if Nat.eqb it (length s) || negb (Nat.eqb (index s (ckey c)) n) then Ok (None, false)   (* :226-227 *)
      else if negb dup && keqb k (ckey c) then Ok (Some it, false)      (* :228-233 *)
      else precheck_loop f s n k dup (it + 1)
  end.
Definition insert_precheck (s : list C) (k : K) (dup : bool) : result (option nat * bool) :=
  if keqb k null then Ok (None, false)                        (* :210-212 *)
  else let n := index s k in precheck_loop (S (length s)) s n k dup n.

(* base.h:488-505 *)
Definition tsize (s : list C) : nat := length (filter (fun c => negb (is_empty c)) s).
Definition tempty (s : list C) : bool := forallb is_empty s.

(* for(it = begin(n); it != end(n); ++it): the slots visited.  unordered_map.h:297-305 counts
   them; base.h:169-186 with 472-480 counts those equal to a key *)
Fixpoint local_loop (fuel : nat) (s : list C) (n it : nat) : result (list nat) :=
  match fuel with
  | O => Diverge
  | S f =>
      more <- local_more s n it ;;
      if more then it' <- local_next s n it ;; l <- local_loop f s n it' ;; Ok (it :: l) else Ok []
  end.
Definition local_iter (s : list C) (n : nat) : result (list nat) :=
  it <- local_begin s n ;; local_loop (S (length s)) s n it.
Definition bucket_size (s : list C) (n : nat) : result nat := l <- local_iter s n ;; Ok (length l).
Definition count (s : list C) (x : K) : result nat :=
  l <- local_iter s (index s x) ;;
  Ok (length (filter (fun i => match nth_error s i with Some c => keqb x (ckey c) | None => false end) l)).

(* base.h:91-105 *)
Fixpoint skip_empty (fuel : nat) (s : list C) (it : nat) : result nat :=
  match fuel with
  | O => Diverge
  | S f =>
      c <- rd s it ;;                                         (* :96 is_empty( *it) first *)
      if is_empty c && negb (Nat.eqb it (length s)) then skip_empty f s (it + 1) else Ok it
  end.
(* for(it = begin(); it != end(); ++it): base.h:277-284, 520-535 *)
Fixpoint visit (fuel : nat) (s : list C) (it : nat) : result (list nat) :=
  match fuel with
  | O => Diverge
  | S f =>
      if Nat.eqb it (length s) then Ok []
      else it' <- skip_empty (S (length s)) s (it + 1) ;; l <- visit f s it' ;; Ok (it :: l)
  end.
Definition iterate (s : list C) : result (list nat) :=
  it <- skip_empty (S (length s)) s 0 ;; visit (S (length s)) s it.

(* base.h:449-470  erase_and_gc_ll; [cnull c]: destruct, which nulls the key *)
Context (cnull : C -> C).
(* :465; [n] is the slot number of the erased element *)
Fixpoint bucket_last (fuel : nat) (s : list C) (n pos : nat) : result nat :=
  match fuel with
  | O => Diverge
  | S f =>
      c <- rd s pos ;;                                        (* index(key( *pos)) first *)
      if Nat.eqb n (index s (ckey c)) && Nat.ltb pos (length s) then bucket_last f s n (pos + 1) else Ok pos
  end.
Definition erase_and_gc (s : list C) (start : nat) : result (list C) :=
  c <- rd s start ;;
  s1 <- wr s start (cnull c) ;;                               (* :453 *)
  nx <- rd s1 (start + 1) ;;                                  (* :459 *)
  if is_empty nx then Ok s1
  else
    e <- bucket_last (S (length s1)) s1 start (start + 1) ;;  (* :463-465 *)
    let pos := e - 1 in                                       (* :467 *)
    a <- rd s1 pos ;; b <- rd s1 start ;;
    s2 <- wr s1 pos b ;; wr s2 start a.                       (* :469 traits::swap *)
End Table.

(* ================= unordered_map.h ================= *)
Section Map.
Context {K : Type} (keqb : K -> K -> bool) (null : K) (hash : K -> N) (w : N).

(* traits.h:65-104: a key, and the bytes of the mapped value as a number; in an empty slot bit 0
   of them is marked_for_gc and bits 1-6 are bucket (little endian, bit-fields from bit 0) *)
Notation cell := (K * N)%type.
Definition marked (v : N) : bool := N.testbit v 0.
Definition mbucket (v : N) : nat := N.to_nat ((v / 2) mod 64)%N.
Definition set_marked (v : N) (b : bool) : N := (2 * (v / 2) + N.b2n b)%N.
Definition set_mbucket (v : N) (n : nat) : N := (v mod 2 + 2 * (N.of_nat n mod 64) + 128 * (v / 128))%N.
(* traits.h:159-164 *)
Definition is_sparse (c : cell) (n : nat) : bool :=
  is_empty keqb null fst c && marked (snd c) && Nat.eqb (mbucket (snd c)) n.
(* traits.h:149-153 *)
Definition is_null_not_sparse (c : cell) : bool := is_empty keqb null fst c && negb (marked (snd c)).
(* base.h:75-79, unordered_map.h:87-91 *)
Definition set_null (c : cell) : cell := (null, snd c).

(* base.h:53-59: the constructor nulls the keys and leaves the rest of the storage *)
Definition map_init (storage : list cell) : list cell := map set_null storage.
(* storage of at least one slot, in the last of which the bit that becomes marked_for_gc is
   clear, as in zeroed memory *)
Definition clear_end (storage : list cell) : Prop :=
  0 < length storage /\ exists c, nth_error storage (length storage - 1) = Some c /\ marked (snd c) = false.
(* unordered_map.h:182-185 *)
Definition map_clear (s : list cell) : list cell := map set_null s.

Notation mindex := (index hash w).
Notation mfind_ll := (find_ll keqb null hash w fst is_sparse).
Notation mprecheck := (insert_precheck keqb null hash w fst).

(* unordered_map.h:250-274 insert; 196-205, 227-248 emplace and try_emplace with a value: the
   iterator's slot (None is nullptr) and whether the value was inserted *)
Definition map_insert_dup (s : list cell) (k : K) (v : N) (dup : bool) : result (option nat * bool * list cell) :=
  ' (p, ok) <- mprecheck s k dup ;;
  if ok then match p with Some i => s' <- wr s i (k, v) ;; Ok (p, true, s') | None => UB end
  else Ok (p, false, s).
Definition map_insert s k v := map_insert_dup s k v false.
Definition map_try_emplace (s : list cell) (k : K) (v : N) : result (option nat * bool * list cell) :=
  ' (p, ok) <- mprecheck s k false ;;
  if ok then match p with Some i => s' <- wr s i (k, v) ;; Ok (p, true, s') | None => UB end
  else Ok (p, false, s).
(* try_emplace(key): only the key is set, :239-240 *)
Definition map_try_emplace0 (s : list cell) (k : K) : result (option nat * bool * list cell) :=
  ' (p, ok) <- mprecheck s k false ;;
  if ok then match p with Some i => c <- rd s i ;; s' <- wr s i (k, snd c) ;; Ok (p, true, s') | None => UB end
  else Ok (p, false, s).
(* :276-294 *)
Definition map_insert_or_assign (s : list cell) (k : K) (v : N) : result (option nat * bool * list cell) :=
  f <- mfind_ll s k ;;
  match f with
  | Some i => c <- rd s i ;; s' <- wr s i (fst c, v) ;; Ok (Some i, true, s')
  | None => map_insert s k v
  end.
(* :187-194 operator[]: the slot whose mapped value the reference denotes *)
Definition map_at (s : list cell) (k : K) : result (nat * list cell) :=
  f <- mfind_ll s k ;;
  match f with
  | Some i => Ok (i, s)
  | None =>
      ' (p, _, s') <- map_try_emplace0 s k ;;
      match p with Some i => Ok (i, s') | None => UB end      (* ->second of a null pointer *)
  end.
(* m[k] = v *)
Definition map_store (s : list cell) (k : K) (v : N) : result (list cell) :=
  ' (i, s') <- map_at s k ;; c <- rd s' i ;; wr s' i (fst c, v).
(* :405-415 find, and the mapped value found *)
Definition map_find (s : list cell) (k : K) : result (option N) :=
  f <- mfind_ll s k ;;
  match f with Some i => c <- rd s i ;; Ok (Some (snd c)) | None => Ok None end.

(* the keys of the live entries *)
Definition live_keys (s : list cell) : list K := map fst (filter (fun c => negb (is_empty keqb null fst c)) s).

(* :313-324 *)
Definition gc_sparse (s : list cell) (i : nat) : result (list cell) :=
  c <- rd s i ;; wr s i (fst c, set_marked (snd c) false).
(* :150-156 prune_sparse_ll(start, pos, n) with start = begin + n; [p] is pos + 1, so that the
   slot before the first has a number *)
Fixpoint prune_sparse (s : list cell) (n p : nat) : result (list cell) :=
  match p with
  | O => UB                                                   (* reads before begin *)
  | S pos =>
      c <- rd s pos ;;
      if is_sparse c n && negb (Nat.eqb p n) then s' <- gc_sparse s pos ;; prune_sparse s' n pos else Ok s
  end.
(* :335-364 erase_ll(pos), auto_prune = true *)
Definition erase_ll (s : list cell) (control n : nat) : result (list cell) :=
  c <- rd s control ;;
  s1 <- wr s control (set_null c) ;;                          (* :340 *)
  let next := control + 1 in
  last <- (if Nat.eqb next (length s1) then Ok true
           else c' <- rd s1 next ;; Ok (is_null_not_sparse c')) ;;      (* :350 *)
  if last then
    s2 <- gc_sparse s1 control ;; prune_sparse s2 n control   (* :352-355 *)
  else
    c1 <- rd s1 control ;;
    wr s1 control (fst c1, set_mbucket (set_marked (snd c1) true) n).   (* :361-362 *)
(* :395-403 *)
Definition map_erase (s : list cell) (k : K) : result (bool * list cell) :=
  f <- mfind_ll s k ;;
  match f with
  | None => Ok (false, s)
  | Some i => s' <- erase_ll s i (mindex s k) ;; Ok (true, s')
  end.
(* :366-383 erase(iterator) at slot [i]: the iterator to the next element and the table *)
Definition map_erase_at (s : list cell) (i : nat) : result (nat * list cell) :=
  c <- rd s i ;;
  s' <- erase_ll s i (mindex s (fst c)) ;;
  nx <- skip_empty keqb null fst (S (length s')) s' (i + 1) ;; Ok (nx, s').
(* :385-393 *)
Definition map_erase_and_gc (s : list cell) (i : nat) : result (list cell) :=
  erase_and_gc keqb null hash w fst set_null s i.

(* :106-138 gc_active_ll(pos): the loop from begin + n; [n] bucket of the key *)
Fixpoint gc_loop (fuel : nat) (s : list cell) (n pos it : nat) : result (nat * list cell) :=
  match fuel with
  | O => Diverge
  | S f =>
      if negb (Nat.eqb it (length s)) && Nat.ltb it pos then
        c <- rd s it ;;
        if is_empty keqb null fst c then
          if marked (snd c) && negb (Nat.eqb (mbucket (snd c)) n) then Ok (pos, s)       (* :122-129 *)
          else a <- rd s pos ;; s1 <- wr s it a ;; s2 <- wr s1 pos c ;; Ok (it, s2)      (* :132-133 *)
        else gc_loop f s n pos (it + 1)
      else Ok (pos, s)
  end.
Definition gc_active (s : list cell) (pos : nat) : result (nat * list cell) :=
  c <- rd s pos ;; let n := mindex s (fst c) in gc_loop (S (length s)) s n pos n.
End Map.

(* ================= unordered_set.h ================= *)
Section Set_.
Context {K : Type} (keqb : K -> K -> bool) (null : K) (hash : K -> N) (w : N).
(* traits.h:229-237: the slot is the key, nothing is sparse *)
Definition skey (k : K) : K := k.
Definition ssparse (_ : K) (_ : nat) : bool := false.
Definition set_init (storage : list K) : list K := map (fun _ => null) storage.
(* unordered_set.h:43-51 *)
Definition set_insert (s : list K) (k : K) : result (option nat * bool * list K) :=
  ' (p, ok) <- insert_precheck keqb null hash w skey s k false ;;
  if ok then match p with Some i => s' <- wr s i k ;; Ok (p, true, s') | None => UB end
  else Ok (p, false, s).
Definition set_contains (s : list K) (k : K) : result bool := contains keqb null hash w skey ssparse s k.
(* unordered_set.h:53-61 *)
Definition set_erase (s : list K) (k : K) : result (bool * list K) :=
  f <- find_ll keqb null hash w skey ssparse s k ;;
  match f with
  | None => Ok (false, s)
  | Some i => s' <- erase_and_gc keqb null hash w skey (fun _ => null) s i ;; Ok (true, s')
  end.
(* the keys seen by for(it = begin(n); it != end(n); ++it) *)
Definition set_bucket (s : list K) (n : nat) : result (list K) :=
  l <- local_iter keqb null hash w skey ssparse s n ;; Ok (map (fun i => nth i s null) l).
End Set_.

(* ================= histories ================= *)
Section Histories.
Context {K : Type} (keqb : K -> K -> bool) (null : K) (hash : K -> N) (w : N).

Notation cell := (K * N)%type.
(* C23: the answers are the bool of the pair returned *)
Definition do_iop (o : iop K N) (s : list (K * N)) : result (bool * list cell) :=
  ' (_, ok, s') <- match o with
    | Insert k v => map_insert keqb null hash w s k v
    | TryEmplace k v => map_try_emplace keqb null hash w s k v
    | InsertOrAssign k v => map_insert_or_assign keqb null hash w s k v
    end ;; Ok (ok, s').
Fixpoint do_iops (ops : list (iop K N)) (s : list cell) : result (list bool * list cell) :=
  match ops with
  | [] => Ok ([], s)
  | o :: ops' => ' (r, s') <- do_iop o s ;; ' (rs, s'') <- do_iops ops' s' ;; Ok (r :: rs, s'')
  end.

(* C24, C25: MGc k is gc_active(find(k)) when k is found *)
Definition do_mop (o : mop K N) (s : list (K * N)) : result (bool * list cell) :=
  match o with
  | MInsert k v => ' (_, ok, s') <- map_insert keqb null hash w s k v ;; Ok (ok, s')
  | MTryEmplace k v => ' (_, ok, s') <- map_try_emplace keqb null hash w s k v ;; Ok (ok, s')
  | MInsertOrAssign k v => ' (_, ok, s') <- map_insert_or_assign keqb null hash w s k v ;; Ok (ok, s')
  | MStore k v => s' <- map_store keqb null hash w s k v ;; Ok (true, s')
  | MErase k => map_erase keqb null hash w s k
  | MGc k =>
      f <- find_ll keqb null hash w fst (is_sparse keqb null) s k ;;
      match f with
      | Some i => ' (_, s') <- gc_active keqb null hash w s i ;; Ok (true, s')
      | None => Ok (false, s)
      end
  | MClear => Ok (true, map_clear null s)
  end.
Fixpoint do_mops (ops : list (mop K N)) (s : list cell) : result (list bool * list cell) :=
  match ops with
  | [] => Ok ([], s)
  | o :: ops' => ' (r, s') <- do_mop o s ;; ' (rs, s'') <- do_mops ops' s' ;; Ok (r :: rs, s'')
  end.

(* C26: [k] is the last key of its bucket, or the first of a bucket that is not the null key's *)
Definition set_end_key (s : list K) (k : K) : Prop :=
  exists l, set_bucket keqb null hash w s (index hash w s k) = Ok l /\
    ((exists l', l = l' ++ [k]) \/ (exists l', l = k :: l') /\ index hash w s null <> index hash w s k).
(* the sets reachable from fresh storage of [n] slots by inserting keys of [U] and erasing such
   keys *)
Inductive set_reach (n : nat) (U : list K) : list K -> Prop :=
| reach_init storage : length storage = n -> set_reach n U (set_init null storage)
| reach_insert s k p ok s' : set_reach n U s -> In k U ->
    set_insert keqb null hash w s k = Ok (p, ok, s') -> set_reach n U s'
| reach_erase s k r s' : set_reach n U s -> set_end_key s k ->
    set_erase keqb null hash w s k = Ok (r, s') -> set_reach n U s'.
End Histories.
