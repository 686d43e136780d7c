(* exp/memory/memory_pool.h memory_pool_1 (handles) and memory_pool2.h:31-105 memory_pool<linked_list>.
   Calls, answers and rules are those of Pool_Spec: Emplace is construct, Erase is destroy.  A block's
   contents are one value of type A.  The shared_ptr specialisation is in Psp_Model; the node lists that users
   build over the storage are not modelled; memory_pool_ll is memory_pool_1 with pointers. *)
From Coq Require Import ZArith.
From Verif Require Import Base MachInt Pool_Spec Mp_Spec.
Local Open Scope res_scope.

Section One.
Context {A : Type}.
Variable N : nat.

(* internal/deduce_fixed_size.h:19-35, memory_pool.h:123: bits of size_type *)
Definition width : Z := if (Z.of_nat N <=? 255)%Z then 8 else if (Z.of_nat N <=? 65535)%Z then 16 else 32.
(* memory_pool.h:295 *)
Definition eol : Z := (2 ^ width - 1)%Z.
(* :148-160 item: the value's bytes, the next handle (None: not set); :386 the free list's front *)
Record pool1 := Pool1 { vals : list (option A); nexts : list (option Z); front : Z }.

(* :323-332 allocate(node): the handle of block b *)
Definition handle_of (b : nat) : Z := wrapu width (Z.of_nat b).
(* :316-319 lock(h) then :193-196 next *)
Definition next1 (p : pool1) (h : Z) : result Z :=
  if (h <? Z.of_nat N)%Z then x <- rd (nexts p) (Z.to_nat h) ;; match x with Some n => Ok n | None => UB end else UB.
Definition set_next1 (p : pool1) (h n : Z) : result pool1 :=
  if (h <? Z.of_nat N)%Z then l <- wr (nexts p) (Z.to_nat h) (Some n) ;; Ok (Pool1 (vals p) l (front p)) else UB.
(* forward_list.h:129-132, internal/list_node.h:284-289 push_front *)
Definition push_front (p : pool1) (b : nat) : result pool1 :=
  p1 <- set_next1 p (handle_of b) (front p) ;; Ok (Pool1 (vals p1) (nexts p1) (handle_of b)).
(* :511-522 the loop: i from 0 to N-2 *)
Fixpoint prime (k : nat) (i : nat) (p : pool1) : result pool1 :=
  match k with
  | O => Ok p
  | S k' => l <- wr (nexts p) i (Some (wrapu width (Z.of_nat (S i)))) ;; prime k' (S i) (Pool1 (vals p) l (front p))
  end.
(* :511-522 memory_pool_1() *)
Definition init1 : result pool1 :=
  p0 <- (if 0 <? N then push_front (Pool1 (repeat None N) (repeat None N) eol) 0 else UB) ;;
  p1 <- prime (N - 1) 0 p0 ;;
  l <- wr (nexts p1) (N - 1) (Some eol) ;;
  Ok (Pool1 (vals p1) l (front p1)).

(* internal/list_node.h:293 empty *)
Definition empty1 (p : pool1) : bool := (front p =? eol)%Z.
(* :414-434 allocate, allocate_item; forward_list.h:117-127 pop_front *)
Definition allocate1 (p : pool1) : result (pool1 * answer) :=
  if empty1 p then Ok (p, None)
  else n <- next1 p (front p) ;; Ok (Pool1 (vals p) (nexts p) n, Some (Z.to_nat (front p))).
(* :437-454 deallocate; the value is the first member of its item, so adjust_from changes nothing *)
Definition deallocate1 (p : pool1) (b : nat) : result pool1 := push_front p b.
(* the client fills a block, or reads it *)
Definition put1 (p : pool1) (b : nat) (v : A) : result pool1 := l <- wr (vals p) b (Some v) ;; Ok (Pool1 l (nexts p) (front p)).
Definition get1 (p : pool1) (b : nat) : result A := x <- rd (vals p) b ;; match x with Some v => Ok v | None => UB end.
(* :464-476 construct: the null pointer is not tested *)
Definition construct1 (p : pool1) (v : A) : result (pool1 * answer) :=
  ' (p1, r) <- allocate1 p ;;
  match r with None => UB | Some b => p2 <- put1 p1 b v ;; Ok (p2, Some b) end.
(* :484-494 destroy: the destructor needs an object and ends it *)
Definition destroy1 (p : pool1) (b : nat) : result pool1 :=
  _ <- get1 p b ;; l <- wr (vals p) b None ;; deallocate1 (Pool1 l (nexts p) (front p)) b.
Definition step1 (p : pool1) (op : pop_ A) : result (pool1 * answer) :=
  match op with
  | Alloc => allocate1 p
  | Free b => p' <- deallocate1 p b ;; Ok (p', None)
  | Write b v => p' <- put1 p b v ;; Ok (p', None)
  | Emplace v => construct1 p v
  | Erase b => p' <- destroy1 p b ;; Ok (p', None)
  end.
(* :405-408 count_free; internal/iterator_standalone.h:36-52 distance, which counts in an int *)
Fixpoint distance1 (fuel : nat) (p : pool1) (h : Z) (count : Z) : result Z :=
  match fuel with
  | O => Diverge
  | S f => if (h =? eol)%Z then Ok count
           else if (count =? 2 ^ 31 - 1)%Z then UB
           else n <- next1 p h ;; distance1 f p n (count + 1)
  end.
Definition count_free1 (p : pool1) : result Z := c <- distance1 (S N) p (front p) 0 ;; Ok (wrapu width c).
End One.
Arguments pool1 : clear implicits.

(* memory_pool.h:141-160, value_evaporator.h:257-265: the value is an array of bytes, so an item is as
   aligned as its handle is.  sz: sizeof(T); wid: bytes of a handle, whose alignment divides sz. *)
Definition item_size (sz wid : Z) : Z := (sz + wid + (- (sz + wid)) mod wid)%Z.
Definition block_address (base sz wid : Z) (i : nat) : Z := (base + Z.of_nat i * item_size sz wid)%Z.

Section Two.
Context {A : Type}.
Variable N : nat.
(* memory_pool2.h:35-42 union item; the items are named by position, items.end() is N *)
Inductive cell2 := Raw2 | Link (n : nat) | Held (v : A).
Record pool2 := Pool2 { cells2 : list cell2; head2 : nat }.
(* :49-66 *)
Fixpoint init_loop (k i : nat) (cs : list cell2) : result (list cell2) :=
  match k with O => Ok cs | S k' => cs1 <- wr cs i (Link (S i)) ;; init_loop k' (S i) cs1 end.
Definition init2 : result pool2 := cs <- init_loop N 0 (repeat Raw2 N) ;; Ok (Pool2 cs 0).
(* :69-78 *)
Definition allocate2 (p : pool2) : result (pool2 * answer) :=
  if head2 p =? N then Ok (p, None)
  else c <- rd (cells2 p) (head2 p) ;; match c with Link n => Ok (Pool2 (cells2 p) n, Some (head2 p)) | _ => UB end.
(* :80-86 *)
Definition deallocate2 (p : pool2) (b : nat) : result pool2 := cs <- wr (cells2 p) b (Link (head2 p)) ;; Ok (Pool2 cs b).
(* :88-97; ++i moves to the next item of the array, not of the list *)
Fixpoint count_loop2 (fuel : nat) (i count : nat) : result nat :=
  match fuel with O => Diverge | S f => if i =? N then Ok count else count_loop2 f (S i) (S count) end.
Definition count_free2 (p : pool2) : result nat := count_loop2 (S N) (head2 p) 0.
Definition put2 (p : pool2) (b : nat) (v : A) : result pool2 := cs <- wr (cells2 p) b (Held v) ;; Ok (Pool2 cs (head2 p)).
Definition get2 (p : pool2) (b : nat) : result A := x <- rd (cells2 p) b ;; match x with Held v => Ok v | _ => UB end.
(* there is no construct and no destroy *)
Definition step2 (p : pool2) (op : pop_ A) : result (pool2 * answer) :=
  match op with
  | Alloc => allocate2 p
  | Free b => p' <- deallocate2 p b ;; Ok (p', None)
  | Write b v => p' <- put2 p b v ;; Ok (p', None)
  | Emplace _ | Erase _ => UB
  end.
End Two.
Arguments cell2 : clear implicits.
Arguments pool2 : clear implicits.
