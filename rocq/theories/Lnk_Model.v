(* Model of the linked lists.
   Nodes are numbered; a pointer is None (null) or Some node.  The memory keeps each node's next
   and prev pointers and which nodes have been given back to the allocator: dereferencing null
   or such a node is UB.  [own]: the list allocates its nodes (ValueNode, inlinevalue traits);
   otherwise the nodes are the user's (intrusive).  An operation that allocates takes the node
   the allocator chose as an argument.  Payloads are in Nlife_Model.v: no list function writes one
   after construction. *)
From Verif Require Import Base Lnk_Spec.
Local Open Scope res_scope.

Definition ptr := option nat.
Record mem := Mem { nxt : nat -> ptr; prv : nat -> ptr; freed : list nat }.

Definition at_ {A} (f : nat -> A) (a : nat) (x : A) : nat -> A := fun b => if Nat.eqb b a then x else f b.
Definition is_freed (m : mem) (a : nat) : bool := existsb (Nat.eqb a) (freed m).

Definition peq (p q : ptr) : bool :=
  match p, q with
  | None, None => true
  | Some a, Some b => Nat.eqb a b
  | _, _ => false
  end.

(* the node a pointer points at *)
Definition deref (m : mem) (p : ptr) : result nat :=
  match p with
  | None => UB
  | Some a => if is_freed m a then UB else Ok a
  end.
(* list_node.h:162-171, 173-182, 186-193; reverse_list.h:33-40; list/traits.h:14-36 *)
Definition next (m : mem) (p : ptr) : result ptr := a <- deref m p ;; Ok (nxt m a).
Definition prev (m : mem) (p : ptr) : result ptr := a <- deref m p ;; Ok (prv m a).
Definition set_next (m : mem) (p x : ptr) : result mem :=
  a <- deref m p ;; Ok (Mem (at_ (nxt m) a x) (prv m) (freed m)).
Definition set_prev (m : mem) (p x : ptr) : result mem :=
  a <- deref m p ;; Ok (Mem (nxt m) (at_ (prv m) a x) (freed m)).

(* traits/list_node.h:254-287 (own; the node's constructor nulls its pointers,
   list_node.h:41, 49), 331-334 (intrusive) *)
Definition allocate (own : bool) (m : mem) (a : nat) : mem :=
  if own then Mem (at_ (nxt m) a None) (at_ (prv m) a None) (filter (fun b => negb (Nat.eqb b a)) (freed m)) else m.
(* traits/list_node.h:267-270, 344 *)
Definition deallocate (own : bool) (m : mem) (p : ptr) : mem :=
  if own then match p with None => m | Some a => Mem (nxt m) (prv m) (a :: freed m) end else m.

(* for(it = begin(); it != end(); ++it): the nodes visited.
   list/iterator.h:37-41; iterators/list.h:215-245 *)
Fixpoint walk (fuel : nat) (m : mem) (p : ptr) : result (list nat) :=
  match p with
  | None => Ok []
  | Some a =>
      match fuel with
      | O => Diverge
      | S fuel' => n <- next m p ;; r <- walk fuel' m n ;; Ok (a :: r)
      end
  end.
(* the same with --it from the last node: iterators/list.h:320-329 *)
Fixpoint walk_back (fuel : nat) (m : mem) (p : ptr) : result (list nat) :=
  match p with
  | None => Ok []
  | Some a =>
      match fuel with
      | O => Diverge
      | S fuel' => n <- prev m p ;; r <- walk_back fuel' m n ;; Ok (a :: r)
      end
  end.

(* ---- internal/list/intrusive_forward.h; the list is its head_ *)
(* lines 41-53 *)
Definition if_insert_after (m : mem) (pos : ptr) (a : nat) : result mem :=
  n <- next m pos ;; m1 <- set_next m pos (Some a) ;; set_next m1 (Some a) n.
(* lines 56-65 *)
Definition if_erase_after (m : mem) (pos : ptr) : result mem :=
  r <- next m pos ;; after <- next m r ;; set_next m pos after.
(* lines 68-74 *)
Definition if_replace_after (m : mem) (pos : ptr) (a : nat) : result mem :=
  m1 <- if_erase_after m pos ;; if_insert_after m1 pos a.
(* lines 36-39, 76-85 *)
Definition if_step (s : mem * ptr) (op : lop) : result (mem * ptr) :=
  let (m, head) := s in
  match op with
  | PushFront a => m1 <- set_next m (Some a) head ;; Ok (m1, Some a)
  | PopFront => h <- next m head ;; Ok (m, h)
  | InsertAfter i a => m1 <- if_insert_after m (Some i) a ;; Ok (m1, head)
  | EraseAfter i => m1 <- if_erase_after m (Some i) ;; Ok (m1, head)
  | ReplaceAfter i a => m1 <- if_replace_after m (Some i) a ;; Ok (m1, head)
  | Clear => Ok (m, None)
  end.
Fixpoint if_run (s : mem * ptr) (ops : list lop) : result (mem * ptr) :=
  match ops with
  | [] => Ok s
  | op :: t => s' <- if_step s op ;; if_run s' t
  end.
(* list/base.h:30-33, 59-62 *)
Definition empty (front : ptr) : bool := peq front None.
Definition front_of (m : mem) (front : ptr) : result nat := deref m front.

(* ---- forward_list.h; the list is its m_front *)
Section Forward.
Variable own : bool.

(* list_node.h:284-289 *)
Definition set_front (m : mem) (front : ptr) (a : nat) : result (mem * ptr) :=
  m1 <- set_next m (Some a) front ;; Ok (m1, Some a).
(* forward_list.h:129-132 (also 136-139, 179-192) *)
Definition fl_push_front (m : mem) (front : ptr) (a : nat) : result (mem * ptr) :=
  set_front (allocate own m a) front a.
(* forward_list.h:117-127 *)
Definition fl_pop_front (m : mem) (front : ptr) : result (mem * ptr) :=
  n <- next m front ;; Ok (deallocate own m front, n).
(* forward_list.h:144-154 *)
Definition fl_insert_after (m : mem) (pos : ptr) (a : nat) : result mem :=
  old <- next m pos ;;
  let m0 := allocate own m a in
  m1 <- set_next m0 pos (Some a) ;; set_next m1 (Some a) old.
(* forward_list.h:156-165 *)
Definition fl_erase_after (m : mem) (pos : ptr) : result mem :=
  e <- next m pos ;; f <- next m e ;; set_next m pos f.
Definition fl_step (s : mem * ptr) (op : lop) : result (mem * ptr) :=
  let (m, front) := s in
  match op with
  | PushFront a => fl_push_front m front a
  | PopFront => fl_pop_front m front
  | InsertAfter i a => m1 <- fl_insert_after m (Some i) a ;; Ok (m1, front)
  | EraseAfter i => m1 <- fl_erase_after m (Some i) ;; Ok (m1, front)
  | ReplaceAfter _ _ | Clear => UB  (* forward_list has neither *)
  end.
Fixpoint fl_run (s : mem * ptr) (ops : list lop) : result (mem * ptr) :=
  match ops with
  | [] => Ok s
  | op :: t => s' <- fl_step s op ;; fl_run s' t
  end.

(* forward_list.h:200-230; remove (238-243) is remove_if with the test for equality *)
Fixpoint remove_loop (fuel : nat) (p : nat -> bool) (first_only : bool) (m : mem) (front current previous : ptr)
  : result (mem * ptr) :=
  match current with
  | None => Ok (m, front)
  | Some c =>
      match fuel with
      | O => Diverge
      | S fuel' =>
          nx <- next m current ;;
          if p c then
            ' (m1, front1) <- (if peq previous None then Ok (m, nx)
                               else m1 <- set_next m previous nx ;; Ok (m1, front)) ;;
            if first_only then Ok (m1, front1)
            else remove_loop fuel' p first_only m1 front1 nx current
          else remove_loop fuel' p first_only m front nx current
      end
  end.
Definition remove_if (fuel : nat) (p : nat -> bool) (first_only : bool) (m : mem) (front : ptr) : result (mem * ptr) :=
  remove_loop fuel p first_only m front front None.

(* ---- list_node.h: forward_list_with_back_base *)
Record wback := WB { w_mem : mem; w_front : ptr; w_back : ptr }.
(* lines 366-383 *)
Definition set_back (s : wback) (a : nat) : result wback :=
  if negb (peq (w_back s) None)
  then m <- set_next (w_mem s) (w_back s) (Some a) ;; Ok (WB m (w_front s) (Some a))
  else Ok (WB (w_mem s) (Some a) (Some a)).
(* lines 386-399 *)
Definition wb_set_front (s : wback) (a : nat) : result wback :=
  m <- set_next (w_mem s) (Some a) (w_front s) ;;
  Ok (WB m (Some a) (if peq (w_back s) None then Some a else w_back s)).
(* lines 407-416; pop_front is forward_list's *)
Definition wb_step (s : wback) (op : bop) : result wback :=
  match op with
  | BPushFront a => wb_set_front (WB (allocate own (w_mem s) a) (w_front s) (w_back s)) a
  | BPushBack a => set_back (WB (allocate own (w_mem s) a) (w_front s) (w_back s)) a
  | BPopFront => ' (m, f) <- fl_pop_front (w_mem s) (w_front s) ;; Ok (WB m f (w_back s))
  end.
Fixpoint wb_run (s : wback) (ops : list bop) : result wback :=
  match ops with
  | [] => Ok s
  | op :: t => s' <- wb_step s op ;; wb_run s' t
  end.
End Forward.
(* lines 326-333 *)
Definition back_of (s : wback) : result nat := deref (w_mem s) (w_back s).

(* ---- list.h: list_base over reverse_list.h; nodes are the list's own *)
(* list.h:42-56, reverse_list.h:26-31 *)
Definition d_push_back (s : wback) (a : nat) : result wback :=
  m1 <- (if negb (peq (w_back s) None) then set_next (w_mem s) (w_back s) (Some a) else Ok (w_mem s)) ;;
  let f := if peq (w_front s) None then Some a else w_front s in
  m2 <- set_prev m1 (Some a) (w_back s) ;; Ok (WB m2 f (Some a)).
(* list.h:58-73 *)
Definition d_push_front (s : wback) (a : nat) : result wback :=
  m1 <- (if negb (peq (w_front s) None) then set_prev (w_mem s) (w_front s) (Some a) else Ok (w_mem s)) ;;
  let b := if peq (w_back s) None then Some a else w_back s in
  ' (m2, f) <- set_front m1 (w_front s) a ;; Ok (WB m2 f b).
(* list.h:115-140 *)
Definition d_insert (s : wback) (pos : ptr) (a : nat) : result wback :=
  if peq pos (w_front s) then d_push_front (WB (allocate true (w_mem s) a) (w_front s) (w_back s)) a
  else
    let m0 := allocate true (w_mem s) a in
    after <- prev m0 pos ;;
    m1 <- set_next m0 (Some a) pos ;;
    m2 <- set_next m1 after (Some a) ;;
    m3 <- set_prev m2 (Some a) after ;;
    m4 <- set_prev m3 pos (Some a) ;;
    Ok (WB m4 (w_front s) (w_back s)).
(* list.h:78-87 *)
Definition d_step (s : wback) (op : dop) : result wback :=
  match op with
  | DPushFront a => d_push_front (WB (allocate true (w_mem s) a) (w_front s) (w_back s)) a
  | DPushBack a => d_push_back (WB (allocate true (w_mem s) a) (w_front s) (w_back s)) a
  | DInsert pos a => d_insert s pos a
  end.
Fixpoint d_run (s : wback) (ops : list dop) : result wback :=
  match ops with
  | [] => Ok s
  | op :: t => s' <- d_step s op ;; d_run s' t
  end.

(* ---- iterator arithmetic: iterators/list.h *)
(* lines 256-260 *)
Fixpoint plus_assign (m : mem) (it : ptr) (k : nat) : result ptr :=
  match k with
  | O => Ok it
  | S k' => it' <- next m it ;; plus_assign m it' k'
  end.
(* lines 263-268 *)
Definition plus (m : mem) (it : ptr) (k : nat) : result ptr := plus_assign m it k.
(* lines 339-343 *)
Fixpoint minus_assign (m : mem) (it : ptr) (k : nat) : result ptr :=
  match k with
  | O => Ok it
  | S k' => it' <- prev m it ;; minus_assign m it' k'
  end.
(* lines 346-351: operator-(int) calls itself with the same arguments *)
Fixpoint minus (fuel : nat) (m : mem) (it : ptr) (k : nat) : result ptr :=
  match fuel with
  | O => Diverge
  | S fuel' => minus fuel' m it k
  end.
(* lines 354-365 *)
Fixpoint distance (fuel : nat) (m : mem) (it from : ptr) (counter : nat) : result nat :=
  if negb (peq from it) then
    match fuel with
    | O => Diverge
    | S fuel' => from' <- next m from ;; distance fuel' m it from' (S counter)
    end
  else Ok counter.

(* ---- the memory a history starts from *)
(* no node has been given back *)
Definition nobody_freed (m : mem) : Prop := freed m = [].
(* with intrusive nodes nothing is ever given back *)
Definition clean (own : bool) (m : mem) : Prop := own = false -> freed m = [].
(* all nodes are as their constructors leave them *)
Definition new_nodes (m : mem) : Prop := freed m = [] /\ forall a, nxt m a = None /\ prv m a = None.
