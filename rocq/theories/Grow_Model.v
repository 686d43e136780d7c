(* Model of vectors and strings over an allocator that can allocate and reallocate (as _allocator of
   /repo/test/catch/mem.h:127-166: malloc, realloc): estd::vector<T, Alloc>, basic_string<char, Traits, Alloc>.
   /repo/src/estd/internal/dynamic_array.h, internal/runtime_array.h, internal/impl/dynamic_array.h
   (explicitly sized, :100-155, :256-330), allocators/handle_desc.h:36-88, internal/impl/handle_desc.h:190-275,
   internal/container/specializer.h:68-215.
   Simplifications: sizes are unbounded (memory runs out before size_t does); the address of a dereferenced
   pointer is the pointer, also of a null handle (&*p), only reading or writing there is undefined; loops that copy
   a range are one step; lock and unlock of this kind of allocator do nothing; moving a cell nobody wrote
   moves it as it is. erase moves bytes: modelled for elements of one byte (others: Dyn_Model.v, C181). *)
From Verif Require Import Base Grow_Spec.
Local Open Scope res_scope.

Section Grow.
Context {A : Type} (eqA : A -> A -> bool).
Notation cells := (list (option A)).

(* the allocator: does call number k for n elements succeed, does a reallocation move the block *)
Context (grants : nat -> nat -> bool) (moves : nat -> bool).
(* elements added when growing (dynamic_array.h:163) *)
Context (pad : nat).

(* blocks by number; None: released *)
Record world := W { hp : list (option cells); calls : nat }.
Definition block (w : world) (id : nat) : result cells :=
  match nth_error (hp w) id with Some (Some m) => Ok m | _ => UB end.
Definition halloc (w : world) (n : nat) : option nat * world :=
  if grants (calls w) n then (Some (length (hp w)), W (hp w ++ [Some (repeat None n)]) (S (calls w)))
  else (None, W (hp w) (S (calls w))).
Definition refit (n : nat) (m : cells) : cells := firstn n (m ++ repeat None (n - length m)).
(* realloc: keeps what fits, releases the old block if it moves; if it fails the old block stays,
   but realloc to nothing that gives no block has released it *)
Definition hrealloc (w : world) (id n : nat) : result (option nat * world) :=
  m <- block w id ;;
  if grants (calls w) n then
    if moves (calls w) then Ok (Some (length (hp w)), W (upd (hp w) id None ++ [Some (refit n m)]) (S (calls w)))
    else Ok (Some id, W (upd (hp w) id (Some (refit n m))) (S (calls w)))
  else Ok (None, W (if Nat.eqb n 0 then upd (hp w) id None else hp w) (S (calls w))).

(* handle (None: invalid), capacity, m_size: impl/handle_desc.h:118, allocators/handle_desc.h:51,
   impl/dynamic_array.h:113 *)
Record vec := Vec { hnd : option nat; cap : nat; sz : nat }.
(* handle_desc.h:139 invalid handle, impl/dynamic_array.h:115, 318-324 *)
Definition fresh : vec := Vec None 0 0.
Definition is_allocated (v : vec) : bool := match hnd v with Some _ => true | None => false end.
(* impl/dynamic_array.h:296-302 *)
Definition size (v : vec) : nat := if is_allocated v then sz v else 0.
Definition set_size (v : vec) (n : nat) : vec := Vec (hnd v) (cap v) n.
(* impl/dynamic_array.h:311-315, 123-126 *)
Definition empty (v : vec) : bool := Nat.eqb (sz v) 0.

(* reading and writing n cells from position pos *)
Definition get_n (v : vec) (w : world) (pos n : nat) : result cells :=
  if Nat.eqb n 0 then Ok []
  else match hnd v with
       | None => UB
       | Some id => m <- block w id ;; if Nat.leb (pos + n) (length m) then Ok (firstn n (skipn pos m)) else UB
       end.
Definition put_n (v : vec) (w : world) (pos : nat) (xs : cells) : result world :=
  if Nat.eqb (length xs) 0 then Ok w
  else match hnd v with
       | None => UB
       | Some id => m <- block w id ;;
           if Nat.leb (pos + length xs) (length m)
           then Ok (W (upd (hp w) id (Some (firstn pos m ++ xs ++ skipn (pos + length xs) m))) (calls w))
           else UB
       end.

(* dynamic_array.h:396-402, allocators/handle_desc.h:75-85, impl/handle_desc.h:255-270 *)
Definition reserve (v : vec) (w : world) (n : nat) : result (bool * vec * world) :=
  match hnd v with
  | None => let '(h, w') := halloc w n in let v' := Vec h n (sz v) in Ok (is_allocated v', v', w')
  | Some id => ' (h, w') <- hrealloc w id n ;; let v' := Vec h n (sz v) in Ok (is_allocated v', v', w')
  end.
(* :132-141 *)
Definition ensure_total_capacity (v : vec) (w : world) (n p : nat) : result (bool * vec * world) :=
  if Nat.ltb (cap v) n then reserve v w (n + p) else Ok (true, v, w).
(* :144-154, shrink = false *)
Definition ensure_total_size (v : vec) (w : world) (n p : nat) : result (bool * vec * world) :=
  ' (b, v', w') <- ensure_total_capacity v w n p ;;
  if b then Ok (true, set_size v' n, w') else Ok (false, v', w').
(* :157-179 and :422-438, without bounds check (feature/dynamic_array.h:10-12) *)
Definition grow (v : vec) (w : world) (by_ : nat) : result (nat * vec * world) :=
  let start := size v in
  ' (_, v', w') <- ensure_total_capacity v w (start + by_) pad ;;
  Ok (start, set_size v' (start + by_), w').
(* :457-483, specializer.h:92-99 *)
Definition append (v : vec) (w : world) (xs : list A) : result (vec * world) :=
  ' (start, v', w') <- grow v w (length xs) ;; w2 <- put_n v' w' start (map Some xs) ;; Ok (v', w2).
(* :605-608; :611-629 and :661-680 write the element in place *)
Definition push_back (v : vec) (w : world) (a : A) : result (vec * world) := append v w [a].
Definition emplace_back (v : vec) (w : world) (a : A) : result (vec * world) :=
  ' (start, v', w') <- grow v w 1 ;; w2 <- put_n v' w' start [Some a] ;; Ok (v', w2).
(* push_back(v[i]): the argument is a reference into the block the container had at the call *)
Definition push_own (v : vec) (w : world) (i : nat) : result (vec * world) :=
  ' (start, v', w') <- grow v w 1 ;; c <- get_n v w' i 1 ;; w2 <- put_n v' w' start c ;; Ok (v', w2).
(* :586-602, impl/handle_desc.h:240-245 *)
Definition pop_back (v : vec) (w : world) : result (vec * world) :=
  let e := size v - 1 in _ <- get_n v w e 1 ;; Ok (set_size v e, w).
(* :304-323, algorithm.h copy_backward *)
Definition insert_range (v : vec) (w : world) (i : nat) (xs : list A) : result (vec * world) :=
  let s := size v in
  ' (b, v', w') <- ensure_total_size v w (s + length xs) 0 ;;
  if b then
    cs <- get_n v' w' i (s - i) ;; w2 <- put_n v' w' (i + length xs) cs ;; w3 <- put_n v' w2 i (map Some xs) ;;
    Ok (v', w3)
  else Ok (v', w').
(* :278-301 *)
Definition insert_move (v : vec) (w : world) (i : nat) (a : A) : result (vec * world) :=
  let s := size v + 1 in
  ' (_, v', w') <- grow v w 1 ;;
  cs <- get_n v' w' i (s - 1 - i) ;; w2 <- put_n v' w' (i + 1) cs ;; w3 <- put_n v' w2 i [Some a] ;; Ok (v', w3).
(* :489-507 *)
Definition erase (v : vec) (w : world) (i : nat) : result (vec * world) :=
  let prev := size v in
  let v' := set_size v (prev - 1) in
  cs <- get_n v' w (i + 1) (prev - (i + 1)) ;; w2 <- put_n v' w i cs ;; Ok (v', w2).
(* :383-391 *)
Definition resize (v : vec) (w : world) (n : nat) : result (vec * world) :=
  ' (_, v', w') <- ensure_total_size v w n 0 ;; Ok (v', w').
(* :710-713 *)
Definition shrink_to_fit (v : vec) (w : world) : result (vec * world) :=
  ' (_, v', w') <- reserve v w (size v) ;; Ok (v', w').
(* specializer.h:178-198 *)
Definition copy_to (v : vec) (w : world) (count : nat) : result cells :=
  get_n v w 0 (if Nat.ltb (size v) count then size v - 0 else count).
(* specializer.h:124-141; y may be the container itself *)
Definition append_vec (self : bool) (v y : vec) (w : world) : result (vec * world) :=
  let len := size y in
  ' (start, v', w') <- grow v w len ;;
  cs <- copy_to (if self then v' else y) w' len ;; w2 <- put_n v' w' start cs ;; Ok (v', w2).
(* :633-639, specializer.h:103-110; memcpy of a block onto itself is undefined *)
Definition assign_vec (self : bool) (v y : vec) (w : world) : result (vec * world) :=
  let len := size y in
  ' (_, v', w') <- ensure_total_size v w len 0 ;;
  if self then (if Nat.eqb len 0 then Ok (v', w') else UB)
  else cs <- copy_to y w' len ;; w2 <- put_n v' w' 0 cs ;; Ok (v', w2).

(* reading the values *)
Fixpoint all_values (cs : cells) : result (list A) :=
  match cs with
  | [] => Ok []
  | Some a :: t => l <- all_values t ;; Ok (a :: l)
  | None :: _ => UB
  end.
(* algorithm.h:52-64 *)
Fixpoint equal_cells (l r : cells) : result bool :=
  match l, r with
  | [], _ => Ok true
  | Some a :: l', Some b :: r' => if negb (eqA a b) then Ok false else equal_cells l' r'
  | _, _ => UB
  end.
(* runtime_array.h:493-503, specializer.h:201-216 *)
Definition equal (v y : vec) (w : world) : result bool :=
  if negb (Nat.eqb (size v) (size y)) then Ok false
  else l <- get_n v w 0 (size v) ;; r <- get_n y w 0 (size v) ;; equal_cells l r.

Record gst := GSt { vs : nat -> vec; wd : world }.
Definition set_vec (s : gst) (x : nat) (v : vec) (w : world) : gst :=
  GSt (fun y => if Nat.eqb y x then v else vs s y) w.
Definition upd_vec (s : gst) (x : nat) (m : result (vec * world)) : result (list (gobs A) * gst) :=
  ' (v, w) <- m ;; Ok ([], set_vec s x v w).
Definition gstep (s : gst) (o : gop A) : result (list (gobs A) * gst) :=
  match o with
  | GAppend x xs => upd_vec s x (append (vs s x) (wd s) xs)
  | GPush x a => upd_vec s x (push_back (vs s x) (wd s) a)
  | GEmplace x a => upd_vec s x (emplace_back (vs s x) (wd s) a)
  | GPop x => upd_vec s x (pop_back (vs s x) (wd s))
  | GInsert x i xs => upd_vec s x (insert_range (vs s x) (wd s) i xs)
  | GInsertMove x i a => upd_vec s x (insert_move (vs s x) (wd s) i a)
  | GErase x i => upd_vec s x (erase (vs s x) (wd s) i)
  | GClear x => upd_vec s x (resize (vs s x) (wd s) 0)
  | GResize x n => upd_vec s x (resize (vs s x) (wd s) n)
  | GReserve x n => ' (_, v, w) <- reserve (vs s x) (wd s) n ;; Ok ([], set_vec s x v w)
  | GShrink x => upd_vec s x (shrink_to_fit (vs s x) (wd s))
  | GAppendVec x y => upd_vec s x (append_vec (Nat.eqb x y) (vs s x) (vs s y) (wd s))
  | GAssignVec x y => upd_vec s x (assign_vec (Nat.eqb x y) (vs s x) (vs s y) (wd s))
  (* runtime_array.h:326-335, traditional_accessor.h: v[i] = a *)
  | GSet x i a => w <- put_n (vs s x) (wd s) i [Some a] ;; Ok ([], set_vec s x (vs s x) w)
  | GSize x => Ok ([GoNum (size (vs s x))], s)
  | GEmpty x => Ok ([GoBool (empty (vs s x))], s)
  | GAt x i => cs <- get_n (vs s x) (wd s) i 1 ;; l <- all_values cs ;; Ok (map GoVal l, s)
  (* runtime_array.h:275-320 *)
  | GAll x => cs <- get_n (vs s x) (wd s) 0 (size (vs s x)) ;; l <- all_values cs ;; Ok ([GoAll l], s)
  | GEq x y => b <- equal (vs s x) (vs s y) (wd s) ;; Ok ([GoBool b], s)
  | GRoom x => Ok ([GoBool (Nat.leb (size (vs s x)) (cap (vs s x)))], s)
  end.
Fixpoint grun (s : gst) (os : list (gop A)) : result (list (gobs A) * gst) :=
  match os with
  | [] => Ok ([], s)
  | o :: os' => ' (b, s1) <- gstep s o ;; ' (bs, s2) <- grun s1 os' ;; Ok (b ++ bs, s2)
  end.
Definition gstart : gst := GSt (fun _ => fresh) (W [] 0).

(* runtime_array.h:104-110: the copy constructor copies the members; y becomes a copy of x *)
Definition gcopy (s : gst) (y x : nat) : gst := set_vec s y (vs s x) (wd s).
(* no class from handle_descriptor to dynamic_array or basic_string has a destructor of its own
   (impl/dynamic_array.h:552 belongs to the class of #ifndef FEATURE_ESTD_STRICT_DYNAMIC_ARRAY;
   dynamic_array.h:373-374 is a comment): x goes out of scope *)
Definition gdestroy (s : gst) (x : nat) : gst := set_vec s x fresh (wd s).

(* an iterator is a pointer into the block the container had (runtime_array.h:240-247, 270-280, traditional_accessor.h:26-46) *)
Definition iter : Type := option nat * nat.
Definition deref (w : world) (it : iter) : result A :=
  match fst it with
  | None => UB
  | Some id => m <- block w id ;; match nth_error m (snd it) with Some (Some a) => Ok a | _ => UB end
  end.
(* dynamic_array.h:692-699: insert(begin() + i, std::move(a)) returns the iterator it was given *)
Definition insert_it (v : vec) (w : world) (i : nat) (a : A) : result (vec * world * iter) :=
  let pos := (hnd v, i) in ' (v', w') <- insert_move v w i a ;; Ok (v', w', pos).
(* :646-654: erase makes a new iterator *)
Definition erase_it (v : vec) (w : world) (i : nat) : result (vec * world * iter) :=
  ' (v', w') <- erase v w i ;; Ok (v', w', (hnd v', i)).
Definition live (s : gst) (id : nat) : Prop := exists m, nth_error (hp (wd s)) id = Some (Some m).
End Grow.
