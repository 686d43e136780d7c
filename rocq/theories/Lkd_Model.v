(* Model of the containers of characters over an allocator whose memory must be locked to be touched:
   /repo/src/estd/internal/runtime_array.h (allocated_array), internal/dynamic_array.h, internal/container/specializer.h
   (dynamic_array_helper), internal/impl/dynamic_array.h, internal/impl/handle_desc.h, internal/string.h. The repository
   has no such allocator: modelled is any allocator that may, at every call, move the memory that is not locked and,
   when it makes memory larger or smaller, that one too; an address is good as long as its memory has not moved since.
   nest: locks are counted (true), or the first unlock releases the memory (false).
   Simplified: memory is never refused; the memory of container k is called k; loops that touch memory without a call of
   the allocator in between are one access of all they may touch (the element by element versions are in Str_Model.v,
   Dyn_Model.v and Grow_Model.v); elements are one byte. *)
From Coq Require Import ZArith.
From Verif Require Import Base Lkd_Spec.
Local Open Scope res_scope.

Section Lkd.
(* does the allocator, at call number n, move memory b; what new memory contains; locks counted; padding of grow *)
Context (moves : nat -> nat -> bool) (junk : nat -> nat -> Z) (nest : bool) (pad : nat).

Record mem := Mem { cont : nat -> list Z; locks : nat -> nat; gen : nat -> nat; calls : nat }.
Definition compact (m : mem) : mem :=
  Mem (cont m) (locks m)
      (fun b => if Nat.eqb (locks m b) 0 && moves (calls m) b then S (gen m b) else gen m b) (S (calls m)).
(* an address: memory, where it was, position *)
Record ref := Ref { r_blk : nat; r_gen : nat; r_pos : nat }.
Definition at_ (p : ref) (i : nat) : ref := Ref (r_blk p) (r_gen p) (r_pos p + i).
(* impl/dynamic_array.h:79-145, handle_desc.h: null terminated; handle valid; size of the memory; length of the text *)
Record con := Con { c_nt : bool; c_alloc : bool; c_cap : nat; c_sz : nat }.
Record st := St { mm : mem; cs : nat -> con; ptrs : nat -> ref }.
Definition with_mem (s : st) (m : mem) : st := St m (cs s) (ptrs s).
Definition with_con (s : st) (k : nat) (c : con) : st := St (mm s) (set_at (cs s) k c) (ptrs s).

(* traits/allocator_traits.h lock/unlock, handle_desc.h:151-175, runtime_array.h:83-101: lock() and clock(), unlock() and
   cunlock(); an invalid handle cannot be locked *)
Definition lock (s : st) (k pos : nat) : result (ref * st) :=
  if c_alloc (cs s k)
  then let m := compact (mm s) in
       Ok (Ref k (gen m k) pos,
           with_mem s (Mem (cont m) (set_at (locks m) k (if nest then S (locks m k) else 1)) (gen m) (calls m)))
  else UB.
Definition unlock (s : st) (k : nat) : result st :=
  match locks (mm s) k with
  | O => UB
  | S n => Ok (with_mem s (compact (Mem (cont (mm s)) (set_at (locks (mm s)) k (if nest then n else 0)) (gen (mm s)) (calls (mm s)))))
  end.
(* n characters at p *)
Definition loadn (s : st) (p : ref) (n : nat) : result (list Z) :=
  let m := mm s in
  if Nat.eqb (gen m (r_blk p)) (r_gen p) && Nat.leb (r_pos p + n) (length (cont m (r_blk p)))
  then Ok (firstn n (skipn (r_pos p) (cont m (r_blk p)))) else UB.
Definition storen (s : st) (p : ref) (l : list Z) : result st :=
  let m := mm s in
  if Nat.eqb (gen m (r_blk p)) (r_gen p) && Nat.leb (r_pos p + length l) (length (cont m (r_blk p)))
  then Ok (with_mem s (Mem (set_at (cont m) (r_blk p)
                             (firstn (r_pos p) (cont m (r_blk p)) ++ l ++ skipn (r_pos p + length l) (cont m (r_blk p))))
                           (locks m) (gen m) (calls m)))
  else UB.
Definition load (s : st) (p : ref) : result Z :=
  l <- loadn s p 1 ;; match l with [a] => Ok a | _ => UB end.
(* strlen: without a terminator it runs out of the memory *)
Fixpoint strlen (l : list Z) : result nat :=
  match l with [] => UB | a :: t => if Z.eqb a 0 then Ok 0 else n <- strlen t ;; Ok (S n) end.

(* impl/dynamic_array.h:60-69, 127-130, 255-261 *)
Definition size (s : st) (k : nat) : result (nat * st) :=
  let c := cs s k in
  if negb (c_alloc c) then Ok (0, s)
  else if c_nt c
       then '(p, s) <- lock s k 0 ;; l <- loadn s p (length (cont (mm s) k)) ;; sz <- strlen l ;;
            s <- unlock s k ;; Ok (sz, s)
       else Ok (c_sz c, s).
(* impl/dynamic_array.h:84-94, 139-142, 264-268 *)
Definition set_size (s : st) (k len : nat) : result st :=
  let c := cs s k in
  if c_nt c then '(p, s) <- lock s k len ;; s <- storen s p [0%Z] ;; unlock s k
  else Ok (with_con s k (Con (c_nt c) (c_alloc c) (c_cap c) len)).
(* impl/dynamic_array.h:34-39, 112-115 *)
Definition empty (s : st) (k : nat) : result (bool * st) :=
  let c := cs s k in
  if c_nt c then '(p, s) <- lock s k 0 ;; a <- load s p ;; s <- unlock s k ;; Ok (Z.eqb a 0, s)
  else Ok (Nat.eqb (c_sz c) 0, s).

(* dynamic_array.h:392-398, handle_desc.h:63-76, impl/handle_desc.h:233-250: allocate, or reallocate, which keeps what
   fits and may move the memory *)
Definition reserve (s : st) (k n : nat) : st :=
  let c := cs s k in let m := mm s in
  let old := if c_alloc c then cont m k else [] in
  let new := firstn n old ++ map (junk (calls m)) (seq (length (firstn n old)) (n - length (firstn n old))) in
  St (Mem (set_at (cont m) k new) (locks m)
          (fun b => if (Nat.eqb b k || Nat.eqb (locks m b) 0) && moves (calls m) b then S (gen m b) else gen m b) (S (calls m)))
     (set_at (cs s) k (Con (c_nt c) true n (c_sz c))) (ptrs s).
(* dynamic_array.h:125-134 *)
Definition ensure_total_capacity (s : st) (k new_size pd : nat) : st :=
  if Nat.ltb (c_cap (cs s k)) new_size then reserve s k (new_size + pd) else s.
(* dynamic_array.h:137-147 *)
Definition ensure_total_size (s : st) (k new_size pd : nat) : result st :=
  set_size (ensure_total_capacity s k new_size pd) k new_size.
(* dynamic_array.h:150-172, 417-432: the size before *)
Definition grow (s : st) (k by_ : nat) : result (nat * st) :=
  '(starting, s) <- size s k ;;
  let s := ensure_total_capacity s k (starting + by_) pad in
  s <- set_size s k (starting + by_) ;; Ok (starting, s).

(* specializer.h:95-102 *)
Definition copy_from (s : st) (k pos : nat) (from : list Z) : result st :=
  '(raw, s) <- lock s k pos ;; s <- storen s raw from ;; unlock s k.
(* specializer.h:177-196: source: what memcpy reads, dest: what is done with it *)
Definition copy_to (s : st) (k count pos : nat) (dest : st -> list Z -> result st) : result (nat * st) :=
  '(src, s) <- lock s k pos ;;
  '(sz, s) <- size s k ;;
  '(count, s) <- (if Nat.ltb sz (pos + count) then '(sz, s) <- size s k ;; Ok (sz - pos, s) else Ok (count, s)) ;;
  l <- loadn s src count ;;
  s <- dest s l ;;
  s <- unlock s k ;; Ok (count, s).
(* dynamic_array.h:449-485, 605-608 *)
Definition append (s : st) (k : nat) (buf : list Z) : result st :=
  '(current, s) <- grow s k (length buf) ;; copy_from s k current buf.
(* dynamic_array.h:579-583, specializer.h:128-141 *)
Definition append_arr (s : st) (k j : nat) : result st :=
  '(len, s) <- size s j ;;
  '(current, s) <- grow s k len ;;
  '(raw, s) <- lock s k current ;;
  '(_, s) <- copy_to s j len 0 (fun s l => storen s raw l) ;;
  unlock s k.
(* dynamic_array.h:610-629 (push_back), 659-679 (emplace_back; construct: impl/handle_desc.h:203-208) *)
Definition push_back (s : st) (k : nat) (a : Z) : result st :=
  '(current, s) <- grow s k 1 ;;
  '(raw, s) <- lock s k current ;; s <- storen s raw [a] ;; unlock s k.
(* dynamic_array.h:274-298 *)
Definition raw_insert_move (s : st) (k pos : nat) (a : Z) : result st :=
  '(sz, s) <- size s k ;; let sz := sz + 1 in
  '(_, s) <- grow s k 1 ;;
  '(data, s) <- lock s k 0 ;;
  l <- loadn s (at_ data pos) (sz - 1 - pos) ;;
  s <- storen s (at_ data (sz - (sz - 1 - pos))) l ;;
  s <- storen s (at_ data pos) [a] ;;
  unlock s k.
(* dynamic_array.h:301-322; src: reads what is to be inserted, first to last *)
Definition raw_insert (s : st) (k pos input_sz : nat) (src : st -> result (list Z)) : result st :=
  '(sz, s) <- size s k ;;
  s <- ensure_total_size s k (sz + input_sz) 0 ;;
  '(data, s) <- lock s k 0 ;;
  l <- loadn s (at_ data pos) (sz - pos) ;;
  s <- storen s (at_ data (sz + input_sz - (sz - pos))) l ;;
  x <- src s ;;
  s <- storen s (at_ data pos) x ;;
  unlock s k.
(* string.h:254-262 *)
Definition insert (s : st) (k pos : nat) (buf : list Z) : result st :=
  raw_insert s k pos (length buf) (fun _ => Ok buf).
(* string.h:269-281 *)
Definition insert_str (s : st) (k pos j : nat) : result st :=
  '(src, s) <- lock s j 0 ;;
  '(n, s) <- size s j ;;
  s <- raw_insert s k pos n (fun s => loadn s src n) ;;
  unlock s j.
(* dynamic_array.h:488-506 *)
Definition erase_ (s : st) (k index count : nat) : result st :=
  '(raw, s) <- lock s k index ;;
  '(prev, s) <- size s k ;;
  '(prev, s) <- (if c_nt (cs s k) then Ok (prev + 1, s) else s <- set_size s k (prev - count) ;; Ok (prev, s)) ;;
  l <- loadn s (at_ raw count) (prev - (index + count)) ;;
  s <- storen s raw l ;;
  unlock s k.
(* string.h:283-303 *)
Definition erase (s : st) (k index count : nat) : result st :=
  '(sz, s) <- size s k ;; erase_ s k index (Nat.min count (sz - index)).
(* dynamic_array.h:585-603; handle_desc.h:210-215: the destructor of a character does nothing *)
Definition pop_back (s : st) (k : nat) : result st :=
  '(sz, s) <- size s k ;; let end_ := sz - 1 in
  '(p, s) <- lock s k end_ ;; _ <- load s p ;; s <- unlock s k ;;
  set_size s k end_.
(* dynamic_array.h:179-184, impl/handle_desc.h:31-38 *)
Definition assign (s : st) (k : nat) (buf : list Z) : result st :=
  s <- ensure_total_size s k (length buf) 0 ;;
  '(dest, s) <- lock s k 0 ;; s <- storen s dest buf ;; unlock s k.
(* dynamic_array.h:631-638, specializer.h:105-113 *)
Definition assign_arr (s : st) (k j : nat) : result st :=
  '(len, s) <- size s j ;;
  s <- ensure_total_size s k len 0 ;;
  '(raw, s) <- lock s k 0 ;;
  '(_, s) <- copy_to s j len 0 (fun s l => storen s raw l) ;;
  unlock s k.
(* runtime_array.h:120-129 *)
Definition init_list (s : st) (k : nat) (buf : list Z) : result st :=
  '(p, s) <- lock s k 0 ;; s <- storen s p buf ;; s <- set_size s k (length buf) ;; unlock s k.

(* least i from a, n of them, with f; the greatest from n down *)
Fixpoint scan (f : nat -> result bool) (a n : nat) : result (option nat) :=
  match n with O => Ok None | S n' => b <- f a ;; if b then Ok (Some a) else scan f (S a) n' end.
Fixpoint scan_down (f : nat -> result bool) (n : nat) : result (option nat) :=
  b <- f n ;; if b then Ok (Some n) else match n with O => Ok None | S n' => scan_down f n' end.
Definition memcmp0 (s : st) (t : list Z) (p : ref) : result bool :=
  l <- loadn s p (length t) ;; Ok (if list_eq_dec Z.eq_dec l t then true else false).
(* string.h:117-142 *)
Definition find_ch (s : st) (k : nat) (ch : Z) (pos : nat) : result (option nat * st) :=
  '(data, s) <- lock s k 0 ;;
  '(sz, s) <- size s k ;;
  r <- scan (fun i => a <- load s (at_ data i) ;; Ok (Z.eqb a ch)) pos (sz - pos) ;;
  s <- unlock s k ;; Ok (r, s).
(* runtime_array.h:397-418; beyond the end the loop does not stop *)
Definition find (s : st) (k : nat) (t : list Z) (pos : nat) : result (option nat * st) :=
  '(data, s) <- lock s k 0 ;;
  '(sz, s) <- size s k ;;
  if Nat.ltb sz pos then UB
  else r <- scan (fun i => memcmp0 s t (at_ data i)) pos (sz - pos) ;;
       s <- unlock s k ;; Ok (match r with Some i => Some (i - pos) | None => None end, s).
(* runtime_array.h:429-467; npos is None. The empty container, where size()-1 wraps, and unsigned: see Str_Model.v *)
Definition rfind (s : st) (k : nat) (t : list Z) (pos : option nat) : result (option nat * st) :=
  '(sz, s) <- size s k ;;
  if Nat.eqb sz 0 then UB
  else
    let pos := match pos with Some p => if Nat.leb sz p then sz - 1 else p | None => sz - 1 end in
    let remainder := sz - pos in
    if Nat.ltb remainder (length t) && Nat.ltb pos (length t - remainder) then Ok (None, s)
    else
      let pos := if Nat.ltb remainder (length t) then pos - (length t - remainder) else pos in
      '(data, s) <- lock s k 0 ;;
      r <- scan_down (fun i => memcmp0 s t (at_ data i)) pos ;;
      s <- unlock s k ;; Ok (r, s).
(* runtime_array.h:469-480, algorithm.h:260-271 *)
Definition find_first_of (s : st) (k : nat) (t : list Z) (pos : nat) : result (option nat * st) :=
  '(data, s) <- lock s k 0 ;;
  '(sz, s) <- size s k ;;
  if Nat.ltb sz pos then UB
  else r <- scan (fun i => a <- load s (at_ data i) ;; Ok (is_in t a)) pos (sz - pos) ;;
       s <- unlock s k ;; Ok (r, s).
(* runtime_array.h:482-496, algorithm.h:236-247 *)
Definition find_last_of (s : st) (k : nat) (t : list Z) (pos : option nat) : result (option nat * st) :=
  '(pos, s) <- (match pos with Some p => Ok (p, s) | None => '(sz, s) <- size s k ;; Ok (sz - 1, s) end) ;;
  '(data, s) <- lock s k 0 ;;
  r <- scan_down (fun i => a <- load s (at_ data i) ;; Ok (is_in t a)) pos ;;
  s <- unlock s k ;; Ok (r, s).
(* runtime_array.h:154-161 *)
Definition starts_with_ch (s : st) (k : nat) (ch : Z) : result (bool * st) :=
  '(p, s) <- lock s k 0 ;; a <- load s p ;; s <- unlock s k ;; Ok (Z.eqb a ch, s).
(* runtime_array.h:171-178 *)
Definition ends_with_ch (s : st) (k : nat) (ch : Z) : result (bool * st) :=
  '(sz, s) <- size s k ;;
  if Nat.eqb sz 0 then UB
  else '(p, s) <- lock s k (sz - 1) ;; a <- load s p ;; s <- unlock s k ;; Ok (Z.eqb a ch, s).
(* container/starts_with.h:10-23 *)
Fixpoint starts_with_n (lhs rhs : list Z) : bool :=
  match lhs, rhs with
  | [], _ => false
  | _ :: _, [] => true
  | x :: a, y :: b => if Z.eqb x y then starts_with_n a b else false
  end.
(* container/ends_with.h:13-29 *)
Definition ends_with_n (lhs rhs : list Z) : bool :=
  if Nat.ltb (length lhs) (length rhs) then false
  else if list_eq_dec Z.eq_dec (skipn (length lhs - length rhs) lhs) rhs then true else false.
(* specializer.h:143-157, 160-174 *)
Definition both (s : st) (k j : nat) (f : list Z -> list Z -> bool) : result (bool * st) :=
  '(x, s) <- lock s k 0 ;;
  '(t, s) <- lock s j 0 ;;
  '(n, s) <- size s k ;; '(n', s) <- size s j ;;
  a <- loadn s x n ;; b <- loadn s t n' ;;
  let r := f a b in
  s <- unlock s k ;; s <- unlock s j ;; Ok (r, s).
(* runtime_array.h:498-507, specializer.h:199-215 *)
Definition equals (s : st) (k j : nat) : result (bool * st) :=
  '(raw_size, s) <- size s k ;; '(s_size, s) <- size s j ;;
  if negb (Nat.eqb raw_size s_size) then Ok (false, s)
  else '(raw, s) <- lock s k 0 ;;
       '(t, s) <- lock s j 0 ;;
       a <- loadn s raw raw_size ;; b <- loadn s t raw_size ;;
       let r := if list_eq_dec Z.eq_dec a b then true else false in
       s <- unlock s k ;; s <- unlock s j ;; Ok (r, s).
(* string.h:103-113, 62-71, specializer.h:219-229 *)
Definition compare (s : st) (k j : nat) : result (Z * st) :=
  '(t, s) <- lock s j 0 ;; '(s_size, s) <- size s j ;;
  '(raw_size, s) <- size s k ;;
  '(r, s) <- (if Nat.ltb raw_size s_size then Ok ((-1)%Z, s)
              else if Nat.ltb s_size raw_size then Ok (1%Z, s)
              else '(raw, s) <- lock s k 0 ;;
                   a <- loadn s raw s_size ;; b <- loadn s t s_size ;;
                   s <- unlock s k ;; Ok (sign_of a b, s)) ;;
  s <- unlock s j ;; Ok (r, s).
(* specializer.h:177-196, runtime_array.h:366-370 *)
Definition copy (s : st) (k count pos : nat) : result (list Z * st) :=
  '(src, s) <- lock s k pos ;;
  '(sz, s) <- size s k ;;
  '(count, s) <- (if Nat.ltb sz (pos + count) then '(sz, s) <- size s k ;; Ok (sz - pos, s) else Ok (count, s)) ;;
  l <- loadn s src count ;;
  s <- unlock s k ;; Ok (l, s).

Definition quietly (r : result st) : result (list lobs * st) := s <- r ;; Ok ([], s).
Definition answer {X} (f : X -> lobs) (r : result (X * st)) : result (list lobs * st) := '(x, s) <- r ;; Ok ([f x], s).
Definition step (s : st) (o : lop) : result (list lobs * st) :=
  match o with
  | LReserve k n => Ok ([LoBool true], reserve s k n)
  | LAppend k buf => quietly (append s k buf)
  | LAppendC k j => quietly (append_arr s k j)
  | LPush k a => quietly (push_back s k a)
  | LInsert k pos buf => quietly (insert s k pos buf)
  | LInsertC k pos j => quietly (insert_str s k pos j)
  | LInsertV k pos a => quietly (raw_insert_move s k pos a)
  | LErase k pos cnt => quietly (erase s k pos cnt)
  | LPop k => quietly (pop_back s k)
  (* dynamic_array.h:376-384 *)
  | LResize k n => s <- ensure_total_size s k n 0 ;; Ok ([LoBool true], s)
  | LAssign k buf => quietly (assign s k buf)
  | LAssignC k j => quietly (assign_arr s k j)
  | LInit k buf => quietly (init_list s k buf)
  | LSize k => answer LoNat (size s k)
  | LEmpty k => answer LoBool (empty s k)
  | LFindCh k ch pos => answer LoPos (find_ch s k ch pos)
  | LFind k t pos => answer LoPos (find s k t pos)
  | LRFind k t pos => answer LoPos (rfind s k t pos)
  | LFirstOf k t pos => answer LoPos (find_first_of s k t pos)
  | LLastOf k t pos => answer LoPos (find_last_of s k t pos)
  | LStartsCh k ch => answer LoBool (starts_with_ch s k ch)
  | LEndsCh k ch => answer LoBool (ends_with_ch s k ch)
  | LStartsC k j => answer LoBool (both s k j starts_with_n)
  | LEndsC k j => answer LoBool (both s k j ends_with_n)
  | LEqC k j => answer LoBool (equals s k j)
  | LCmpC k j => answer LoInt (compare s k j)
  | LCopy k cnt pos => answer LoText (copy s k cnt pos)
  (* runtime_array.h:83-101 *)
  | LLock v k pos => '(p, s) <- lock s k pos ;; Ok ([], St (mm s) (cs s) (set_at (ptrs s) v p))
  (* string.h:76-84 *)
  | LData v k => '(p, s) <- lock s k 0 ;; Ok ([], St (mm s) (cs s) (set_at (ptrs s) v p))
  | LUnlock k => quietly (unlock s k)
  | LLoad v => a <- load s (ptrs s v) ;; Ok ([LoChar a], s)
  | LStore v a => quietly (storen s (ptrs s v) [a])
  end.
Fixpoint run (s : st) (os : list lop) : result (list lobs * st) :=
  match os with
  | [] => Ok ([], s)
  | o :: os' => '(b, s1) <- step s o ;; '(bs, s2) <- run s1 os' ;; Ok (b ++ bs, s2)
  end.
End Lkd.

(* memory that holds text l and has room for cap characters; what is behind the text: the terminator, then rest *)
Definition block (c : scon) (rest : list Z) : list Z := s_l c ++ (if s_nt c then [0%Z] else []) ++ rest.
Definition start (c : nat -> scon) (rest : nat -> list Z) (g : nat -> nat) : st :=
  St (Mem (fun k => block (c k) (rest k)) (fun _ => 0) g 0)
     (fun k => Con (s_nt (c k)) (s_alloc (c k)) (s_cap (c k)) (length (s_l (c k)))) (fun _ => Ref 0 0 0).
