(* Model of unordered_map whose mapped values, and then also keys, are objects of a class with a
   destructor: /repo/src/estd/internal/container/unordered_map.h, unordered/base.h and
   unordered/traits.h.  The slots and the search in them are those of Unordered_Model.v.  Added
   here: in which slots an object of the mapped type lives, and in which the key is an object.
   An object is made by a placement new and dies by a call of its destructor; calling a
   destructor, assigning or swapping where no object lives is undefined.  A placement new over a
   live object ends that object without its destructor: it is lost.
   Objects are numbered in the order in which they are made.
   Simplifications: constructors and destructors of the mapped type do not fail and have no
   other effects; [bytes v] are the bytes of an object of value [v], [dead v] what its destructor
   leaves of them, both arbitrary. *)
From Verif Require Import Base Unordered_Spec Unordered_Model.
Local Open Scope res_scope.

Section Ulife.
Context {K V : Type} (keqb : K -> K -> bool) (null : K) (hash : K -> N) (w : N).
Context (bytes dead : V -> N).
(* whether the key type is a class with a destructor, too *)
Context (kclass : bool).
Notation cell := (K * N)%type.

Record lmap := LMap {
  tab : list cell;                    (* traits.h:104 control_type: key and bytes *)
  objs : list (option (nat * V));     (* the object living in second.storage, traits.h:85 *)
  made : nat;                         (* mapped objects made so far *)
  died : list nat;                    (* those whose destructor has run *)
  kal : list bool;                    (* whether first is a live key object *)
  kmade : nat; kdied : nat            (* key objects made and destroyed so far *)
}.
Definition with_tab (st : lmap) (t : list cell) : lmap :=
  LMap t (objs st) (made st) (died st) (kal st) (kmade st) (kdied st).

(* new (storage) mapped_type *)
Definition obj_new (st : lmap) (i : nat) (v : V) : lmap :=
  LMap (tab st) (upd (objs st) i (Some (made st, v))) (S (made st)) (died st) (kal st) (kmade st) (kdied st).
(* base.h:63-67 with 77 *)
Definition obj_kill (st : lmap) (i : nat) : result lmap :=
  match nth_error (objs st) i, nth_error (tab st) i with
  | Some (Some (id, v)), Some c =>
      Ok (LMap (upd (tab st) i (fst c, dead v)) (upd (objs st) i None) (made st) (died st ++ [id])
               (kal st) (kmade st) (kdied st))
  | _, _ => UB
  end.
(* traits.h:111: both operands are objects *)
Definition obj_swap (st : lmap) (i j : nat) : result lmap :=
  match nth_error (objs st) i, nth_error (objs st) j with
  | Some (Some a), Some (Some b) =>
      Ok (LMap (tab st) (upd (upd (objs st) i (Some b)) j (Some a)) (made st) (died st) (kal st) (kmade st) (kdied st))
  | _, _ => UB
  end.
(* mapped() = v *)
Definition obj_assign (st : lmap) (i : nat) (v : V) : result lmap :=
  match nth_error (objs st) i, nth_error (tab st) i with
  | Some (Some (id, _)), Some c =>
      Ok (LMap (upd (tab st) i (fst c, bytes v)) (upd (objs st) i (Some (id, v))) (made st) (died st)
               (kal st) (kmade st) (kdied st))
  | _, _ => UB
  end.
Definition obj_read (st : lmap) (i : nat) : result V :=
  match nth_error (objs st) i with Some (Some (_, v)) => Ok v | _ => UB end.

(* the key part of new (slot) value_type *)
Definition key_new (st : lmap) (i : nat) : lmap :=
  if kclass then LMap (tab st) (objs st) (made st) (died st) (upd (kal st) i true) (S (kmade st)) (kdied st) else st.
(* unordered_map.h:89 destruct_ll(v->first) *)
Definition key_kill (st : lmap) (i : nat) : result lmap :=
  if kclass then
    match nth_error (kal st) i with
    | Some true => Ok (LMap (tab st) (objs st) (made st) (died st) (upd (kal st) i false) (kmade st) (S (kdied st)))
    | _ => UB
    end
  else Ok st.
(* an assignment to the key *)
Definition key_touch (st : lmap) (i : nat) : result unit :=
  if kclass then match nth_error (kal st) i with Some true => Ok tt | _ => UB end else Ok tt.
(* traits.h:28-31, 181-184: *value = T{} *)
Definition l_set_null (st : lmap) (i : nat) : result lmap :=
  _ <- key_touch st i ;;
  c <- rd (tab st) i ;; t <- wr (tab st) i (set_null null c) ;; Ok (with_tab st t).

(* base.h:52-59: the container makes its keys; no mapped object is made *)
Definition l_init (storage : list cell) : lmap :=
  LMap (map_init null storage) (repeat None (length storage)) 0 [] (repeat true (length storage))
       (if kclass then length storage else 0) 0.
(* base.h:75-79 *)
Definition base_destruct (st : lmap) (i : nat) : result lmap := st1 <- obj_kill st i ;; l_set_null st1 i.
(* unordered_map.h:87-91 *)
Definition destruct (st : lmap) (i : nat) : result lmap := st1 <- key_kill st i ;; base_destruct st1 i.

Notation mindex := (index hash w).
Notation mfind_ll := (find_ll keqb null hash w fst (is_sparse keqb null)).
Notation mprecheck := (insert_precheck keqb null hash w fst).

(* new (slot) value_type(key, value) *)
Definition put (st : lmap) (i : nat) (k : K) (v : V) : result lmap :=
  t <- wr (tab st) i (k, bytes v) ;; Ok (key_new (obj_new (with_tab st t) i v) i).
(* unordered_map.h:250-274 insert, 196-223 emplace, 227-248 try_emplace with a value *)
Definition l_insert (st : lmap) (k : K) (v : V) : result (bool * lmap) :=
  ' (p, ok) <- mprecheck (tab st) k false ;;
  if ok then match p with Some i => st' <- put st i k v ;; Ok (true, st') | None => UB end
  else Ok (false, st).
(* :239-240 try_emplace(key): ret.first->first = key, and nothing else *)
Definition l_try_emplace0 (st : lmap) (k : K) : result (option nat * lmap) :=
  ' (p, ok) <- mprecheck (tab st) k false ;;
  if ok then match p with
    | Some i => _ <- key_touch st i ;; c <- rd (tab st) i ;; t <- wr (tab st) i (k, snd c) ;; Ok (p, with_tab st t)
    | None => UB
    end
  else Ok (p, st).
(* :276-294 *)
Definition l_insert_or_assign (st : lmap) (k : K) (v : V) : result (bool * lmap) :=
  f <- mfind_ll (tab st) k ;;
  match f with
  | Some i =>
      c <- rd (tab st) i ;; t <- wr (tab st) i (fst c, bytes v) ;;
      Ok (true, obj_new (with_tab st t) i v)                    (* :285 *)
  | None => l_insert st k v
  end.
(* :187-194 *)
Definition l_at (st : lmap) (k : K) : result (nat * lmap) :=
  f <- mfind_ll (tab st) k ;;
  match f with
  | Some i => Ok (i, st)
  | None => ' (p, st') <- l_try_emplace0 st k ;; match p with Some i => Ok (i, st') | None => UB end
  end.
(* m[k] = v, and the value of m[k] *)
Definition l_store (st : lmap) (k : K) (v : V) : result lmap := ' (i, st') <- l_at st k ;; obj_assign st' i v.
Definition l_load (st : lmap) (k : K) : result V := ' (i, st') <- l_at st k ;; obj_read st' i.
(* :405-415 find, and the object found *)
Definition l_find (st : lmap) (k : K) : result (option V) :=
  f <- mfind_ll (tab st) k ;;
  match f with Some i => v <- obj_read st i ;; Ok (Some v) | None => Ok None end.

(* :335-364: the destructors, then as for trivial types *)
Definition l_erase_ll (st : lmap) (i n : nat) : result lmap :=
  st1 <- destruct st i ;; t <- erase_ll keqb null (tab st1) i n ;; Ok (with_tab st1 t).
(* :395-403 *)
Definition l_erase (st : lmap) (k : K) : result (bool * lmap) :=
  f <- mfind_ll (tab st) k ;;
  match f with
  | None => Ok (false, st)
  | Some i => st' <- l_erase_ll st i (mindex (tab st) k) ;; Ok (true, st')
  end.
(* :182-185 *)
Fixpoint clear_from (st : lmap) (i n : nat) : result lmap :=
  match n with O => Ok st | S n' => st1 <- destruct st i ;; clear_from st1 (i + 1) n' end.
Definition l_clear (st : lmap) : result lmap := clear_from st 0 (length (tab st)).
(* the end of the map's life: the class has no destructor, and those of its members leave the
   byte arrays of traits.h:85 alone.  The keys are destroyed as members *)
Definition l_end (st : lmap) : result lmap :=
  if kclass then
    if forallb (fun b => b) (kal st) then
      Ok (LMap (tab st) (objs st) (made st) (died st) (repeat false (length (kal st))) (kmade st) (kdied st + length (kal st)))
    else UB
  else Ok st.

(* :106-138, 307-310: the slots are exchanged when the element moves, traits.h:107-112 *)
Definition l_gc_active (st : lmap) (pos : nat) : result (nat * lmap) :=
  ' (it, t) <- gc_active keqb null hash w (tab st) pos ;;
  if Nat.eqb it pos then Ok (it, st)
  else st1 <- obj_swap st it pos ;; Ok (it, with_tab st1 t).
(* base.h:449-470, unordered_map.h:385-393; the key is not destroyed *)
Definition l_erase_and_gc (st : lmap) (start : nat) : result lmap :=
  st1 <- base_destruct st start ;;                              (* :453 *)
  nx <- rd (tab st1) (start + 1) ;;                             (* :459 *)
  if is_empty keqb null fst nx then Ok st1
  else
    e <- bucket_last hash w fst (S (length (tab st1))) (tab st1) start (start + 1) ;;
    let pos := e - 1 in
    st2 <- obj_swap st1 pos start ;;                            (* :469 *)
    a <- rd (tab st1) pos ;; b <- rd (tab st1) start ;;
    t2 <- wr (tab st1) pos b ;; t3 <- wr t2 start a ;; Ok (with_tab st2 t3).

(* histories, as do_mops of Unordered_Model.v *)
Definition do_lop (o : mop K V) (st : lmap) : result (bool * lmap) :=
  match o with
  | MInsert k v | MTryEmplace k v => l_insert st k v
  | MInsertOrAssign k v => l_insert_or_assign st k v
  | MStore k v => st' <- l_store st k v ;; Ok (true, st')
  | MErase k => l_erase st k
  | MGc k =>
      f <- mfind_ll (tab st) k ;;
      match f with
      | Some i => ' (_, st') <- l_gc_active st i ;; Ok (true, st')
      | None => Ok (false, st)
      end
  | MClear => st' <- l_clear st ;; Ok (true, st')
  end.
Fixpoint do_lops (ops : list (mop K V)) (st : lmap) : result (list bool * lmap) :=
  match ops with
  | [] => Ok ([], st)
  | o :: ops' => ' (r, st') <- do_lop o st ;; ' (rs, st'') <- do_lops ops' st' ;; Ok (r :: rs, st'')
  end.

(* the mapped objects that live in the map *)
Definition living (st : lmap) : list nat := flat_map (fun o => match o with Some (id, _) => [id] | None => [] end) (objs st).
End Ulife.
