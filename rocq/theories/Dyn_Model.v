(* Model of internal::dynamic_array (vector and string) over a fixed buffer:
   /repo/src/estd/internal/dynamic_array.h, internal/impl/dynamic_array.h,
   internal/runtime_array.h, internal/container/specializer.h, allocators/fixed.h and
   allocators/handle_desc.h, as instantiated by layer1/layer2/layer3 vector and string
   (a "singular" allocator: one buffer that is always allocated and never moves).
   Simplifications: elements are trivially copyable (others: Life_Model.v); int and unsigned hold every buffer
   length; pointers are indices into the buffer. *)
From Verif Require Import Base Algo_Model Dyn_Spec.
Local Open Scope res_scope.

(* A call finishes (Go) or stops the program in assert(false) (Assert). *)
Inductive stop (A : Type) : Type := Go (a : A) | Assert.
Arguments Go {A}. Arguments Assert {A}.
Definition vres (A : Type) : Type := result (stop A).
Definition vbind {A B} (m : vres A) (f : A -> vres B) : vres B :=
  r <- m ;; match r with Go a => f a | Assert => Ok Assert end.
Definition vret {A} (a : A) : vres A := Ok (Go a).
Definition lift {A} (m : result A) : vres A := a <- m ;; vret a.
Notation "x <~ m ;; k" := (vbind m (fun x => k))
  (at level 61, m at next level, right associativity) : res_scope.
Notation "' p <~ m ;; k" := (vbind m (fun p => k))
  (at level 61, p pattern, m at next level, right associativity) : res_scope.

(* memmove(dst, src, n) inside one buffer of one-byte elements *)
Definition memmove1 {A} (m : list A) (dst src n : nat) : result (list A) :=
  if Nat.leb (dst + n) (length m) && Nat.leb (src + n) (length m)
  then Ok (firstn dst m ++ firstn n (skipn src m) ++ skipn (dst + n) m) else UB.
(* an object representation: an element of sizeof w is the list of its w bytes, so a
   buffer of elements is a list of such lists and its bytes are their concatenation *)
Fixpoint chunk {A} (w k : nat) (l : list A) : list (list A) :=
  match k with
  | O => []
  | S k' => firstn w l :: chunk w k' (skipn w l)
  end.
(* memmove(&m[dst], &m[src], n) with n in bytes *)
Definition memmove_bytes {A} (w : nat) (m : list (list A)) (dst src n : nat) : result (list (list A)) :=
  b <- memmove1 (concat m) (dst * w) (src * w) n ;; Ok (chunk w (length m) b).

(* How a container keeps its size.
   impl/dynamic_array.h:100-155 explicitly sized; :14-97 null terminated *)
Inductive len_kind (A : Type) := Explicit | NulTerm (zero : A) (is0 : A -> bool).
Arguments Explicit {A}. Arguments NulTerm {A}.

(* A container type: size_type holds 0..smod-1 and is narrower than int if [narrow]
   (deduce_fixed_size_t picks 8, 16 or 32 bits); [nodebug]: compiled with NDEBUG;
   [mm]: memmove for its element type. *)
Record cfg (A : Type) := Cfg {
  smod : nat; narrow : bool; nodebug : bool; kind : len_kind A;
  mm : list A -> nat -> nat -> nat -> result (list A) }.
Arguments Cfg {A}. Arguments smod {A}. Arguments narrow {A}. Arguments nodebug {A}.
Arguments kind {A}. Arguments mm {A}.

(* the buffer, and m_size (unused by null terminated containers) *)
Record arr (A : Type) := Arr { buf : list A; msize : nat }.
Arguments Arr {A}. Arguments buf {A}. Arguments msize {A}.

Section Dyn.
Context {A : Type} (c : cfg A).

(* conversion to size_type *)
Definition wrap (n : nat) : nat := n mod smod c.
(* a + b on two size_type values: int arithmetic when narrow *)
Definition add (a b : nat) : nat := if narrow c then a + b else wrap (a + b).
(* a - b converted to size_type *)
Definition sub (a b : nat) : nat := wrap (a + (smod c - wrap b)).

(* strlen *)
Fixpoint strlen (is0 : A -> bool) (l : list A) : result nat :=
  match l with
  | [] => UB
  | x :: t => if is0 x then Ok 0 else n <- strlen is0 t ;; Ok (S n)
  end.

(* impl/dynamic_array.h:296-302, 60-69, 138-141 *)
Definition size (v : arr A) : result nat :=
  match kind c with
  | Explicit => Ok (msize v)
  | NulTerm _ is0 => n <- strlen is0 (buf v) ;; Ok (wrap n)
  end.
(* impl/dynamic_array.h:305-309, 85-95, 150-153 *)
Definition set_size (v : arr A) (n : nat) : result (arr A) :=
  match kind c with
  | Explicit => Ok (Arr (buf v) n)
  | NulTerm zero _ => m <- wr (buf v) n zero ;; Ok (Arr m (msize v))
  end.
(* impl/dynamic_array.h:311-315, 36-41, 123-126 *)
Definition empty (v : arr A) : result bool :=
  match kind c with
  | Explicit => Ok (Nat.eqb (msize v) 0)
  | NulTerm _ is0 => x <- rd (buf v) 0 ;; Ok (is0 x)
  end.
(* impl/dynamic_array.h:283-284, handle_desc.h:104-107, fixed.h:266-271, 324 *)
Definition capacity (v : arr A) : nat := wrap (length (buf v)).

(* impl/dynamic_array.h:318-324  the default constructor *)
Definition init (b : list A) : result (arr A) := set_size (Arr b 0) 0.

(* dynamic_array.h:396-402 reserve; a singular handle is always allocated
   (value_evaporator.h:30), so impl/handle_desc.h:255-259 and fixed.h:179-187 run *)
Definition reserve (v : arr A) (new_cap : nat) : vres bool :=
  if nodebug c then vret true else Ok Assert.
(* dynamic_array.h:132-141 *)
Definition ensure_total_capacity (v : arr A) (new_size : nat) : vres bool :=
  if Nat.ltb (capacity v) new_size then reserve v new_size else vret true.
(* dynamic_array.h:144-154, shrink = false *)
Definition ensure_total_size (v : arr A) (new_size : nat) : vres (bool * arr A) :=
  b <~ ensure_total_capacity v new_size ;;
  if b then v' <~ lift (set_size v new_size) ;; vret (true, v') else vret (false, v).
(* dynamic_array.h:157-179 and 422-439 grow; returns the starting size *)
Definition grow (v : arr A) (by_amount : nat) : vres (nat * arr A) :=
  s <~ lift (size v) ;;
  _ <~ ensure_total_capacity v (wrap (s + by_amount)) ;;
  v' <~ lift (set_size v (wrap (s + by_amount))) ;;
  vret (s, v').

(* copy_n of a foreign sequence [src] to buf[pos..] (algorithm.h:109-119) *)
Fixpoint copy_in (m : list A) (pos : nat) (src : list A) (n : nat) {struct n} : result (list A) :=
  match n with
  | O => Ok m
  | S n' =>
      match src with
      | [] => UB
      | x :: src' => m' <- wr m pos x ;; copy_in m' (S pos) src' n'
      end
  end.

(* dynamic_array.h:457-485 append(buf, len); specializer.h:92-99 *)
Definition append (v : arr A) (src : list A) (len : nat) : vres (arr A) :=
  ' (s, v') <~ grow v len ;;
  m <~ lift (copy_in (buf v') s src len) ;;
  vret (Arr m (msize v')).
(* dynamic_array.h:605-608 *)
Definition push_back (v : arr A) (x : A) : vres (arr A) := append v [x] 1.
(* dynamic_array.h:611-629 *)
Definition push_back_move (v : arr A) (x : A) : vres (arr A) :=
  ' (s, v') <~ grow v 1 ;;
  m <~ lift (wr (buf v') s x) ;;
  vret (Arr m (msize v')).
(* dynamic_array.h:660-680; the element is returned through back() *)
Definition back (v : arr A) : result A := s <- size v ;; rd (buf v) (sub s 1).
Definition emplace_back (v : arr A) (x : A) : vres (A * arr A) :=
  v' <~ push_back_move v x ;;
  y <~ lift (back v') ;;
  vret (y, v').
(* dynamic_array.h:586-603 *)
Definition pop_back (v : arr A) : vres (arr A) :=
  s <~ lift (size v) ;;
  let e := sub s 1 in
  _ <~ lift (rd (buf v) e) ;;
  lift (set_size v e).

(* dynamic_array.h:278-300 raw_insert(value&&), reached by insert(pos, value&&) :693-698;
   move_assist is move_backward :196-201 *)
Definition insert_move (v : arr A) (pos : nat) (x : A) : vres (arr A) :=
  s <~ lift (size v) ;;
  let sz := wrap (s + 1) in
  ' (_, v') <~ grow v 1 ;;
  ' (m, _) <~ lift (copy_backward (buf v') pos (sz - 1) sz) ;;
  m' <~ lift (wr m pos x) ;;
  vret (Arr m' (msize v')).
(* dynamic_array.h:304-322 raw_insert(first, last), reached by insert(pos, first, last)
   :702-708 and string insert (string.h:262-269, 277-288); the source is foreign *)
Definition insert_range (v : arr A) (pos : nat) (src : list A) : vres (arr A) :=
  sz <~ lift (size v) ;;
  let input_sz := wrap (length src) in
  ' (ok, v') <~ ensure_total_size v (wrap (sz + input_sz)) ;;
  if ok then
    ' (m, _) <~ lift (copy_backward (buf v') pos sz (sz + input_sz)) ;;
    m' <~ lift (copy_in m pos src (length src)) ;;
    vret (Arr m' (msize v'))
  else vret v'.
(* the same with the container itself as the source: s.insert(pos, s) *)
Definition insert_self (v : arr A) (pos : nat) : vres (arr A) :=
  sz <~ lift (size v) ;;
  ' (ok, v') <~ ensure_total_size v (wrap (sz + sz)) ;;
  if ok then
    ' (m, _) <~ lift (copy_backward (buf v') pos sz (sz + sz)) ;;
    ' (m', _) <~ lift (copy m 0 sz pos) ;;
    vret (Arr m' (msize v'))
  else vret v'.

(* dynamic_array.h:489-506 _erase(index, count); the third argument of memmove is a
   number of elements *)
Definition raw_erase (v : arr A) (index count : nat) : vres (arr A) :=
  s <~ lift (size v) ;;
  ' (prev, v') <~ match kind c with
                  | NulTerm _ _ => vret (wrap (s + 1), v)
                  | Explicit => v' <~ lift (set_size v (sub s count)) ;; vret (s, v')
                  end ;;
  let e := add index count in
  m <~ lift (if narrow c
             then if Nat.leb e prev then mm c (buf v') index (index + count) (prev - e) else UB
             else mm c (buf v') index (index + count) (sub prev e)) ;;
  vret (Arr m (msize v')).
(* dynamic_array.h:646-654 erase(pos); returns an iterator to the same index *)
Definition erase (v : arr A) (i : nat) : vres (nat * arr A) :=
  v' <~ raw_erase v i 1 ;; vret (i, v').
(* string.h:290-303 string erase(index, count) *)
Definition string_erase (v : arr A) (index count : nat) : vres (arr A) :=
  s <~ lift (size v) ;;
  raw_erase v index (Nat.min count (sub s index)).

(* dynamic_array.h:186-191 assign(buf, len); runtime_array.h:142-145 *)
Definition assign (v : arr A) (src : list A) (len : nat) : vres (arr A) :=
  ' (_, v') <~ ensure_total_size v len ;;
  m <~ lift (copy_in (buf v') 0 src len) ;;
  vret (Arr m (msize v')).
(* dynamic_array.h:383-391, 710-713 *)
Definition resize (v : arr A) (count : nat) : vres (bool * arr A) := ensure_total_size v count.
Definition clear (v : arr A) : vres (arr A) := ' (_, v') <~ resize v 0 ;; vret v'.
Definition shrink_to_fit (v : arr A) : vres bool := s <~ lift (size v) ;; reserve v s.

(* runtime_array.h:321-347; begin()..end() :282-319 visits size() elements *)
Definition at_ (v : arr A) (i : nat) : result A := rd (buf v) i.
Definition front (v : arr A) : result A := rd (buf v) 0.
Definition read_n (m : list A) (pos n : nat) : result (list A) :=
  if Nat.leb (pos + n) (length m) then Ok (firstn n (skipn pos m)) else UB.
Definition iterate (v : arr A) : result (list A) := s <- size v ;; read_n (buf v) 0 s.

(* runtime_array.h:367-371 and specializer.h:178-197 copy(dest, count, pos); dest has
   room; returns what is written to it and the returned length *)
Definition copy_to (v : arr A) (count pos : nat) : result (list A * nat) :=
  s <- size v ;;
  let count' := if Nat.ltb s (add pos count) then sub s pos else count in
  d <- read_n (buf v) pos count' ;;
  Ok (d, count').

(* dynamic_array.h:632-639 assign(const allocated_array&) / operator=, and
   dynamic_array.h:579-583, specializer.h:125-141 append(const allocated_array&);
   [c2], [v2] is the other container *)
End Dyn.

Section Foreign.
Context {A : Type} (c c2 : cfg A).
Definition assign_arr (v v2 : arr A) : vres (arr A) :=
  len <~ lift (size c2 v2) ;;
  ' (_, v') <~ ensure_total_size c v (wrap c len) ;;
  ' (d, n) <~ lift (copy_to c2 v2 (wrap c2 len) 0) ;;
  m <~ lift (copy_in (buf v') 0 d n) ;;
  vret (Arr m (msize v')).
Definition append_arr (v v2 : arr A) : vres (arr A) :=
  len <~ lift (size c2 v2) ;;
  ' (s, v') <~ grow c v (wrap c len) ;;
  ' (d, n) <~ lift (copy_to c2 v2 (wrap c2 (wrap c len)) 0) ;;
  m <~ lift (copy_in (buf v') s d n) ;;
  vret (Arr m (msize v')).
End Foreign.

(* the same with the container itself as the source: s.append(s) *)
Definition append_self {A} (c : cfg A) (v : arr A) : vres (arr A) :=
  len <~ lift (size c v) ;;
  ' (s, v') <~ grow c v len ;;
  ' (d, n) <~ lift (copy_to c v' len 0) ;;
  m <~ lift (copy_in (buf v') s d n) ;;
  vret (Arr m (msize v')).

(* string.h:363-369 append(count, ch) *)
Fixpoint append_fill {A} (c : cfg A) (v : arr A) (count : nat) (x : A) : vres (arr A) :=
  match count with
  | O => vret v
  | S n => v' <~ push_back c v x ;; append_fill c v' n x
  end.

(* one operation of a history; lengths and counts are converted to size_type *)
Definition step {A} (c : cfg A) (v : arr A) (o : vop A) : vres (arr A) :=
  match o with
  | Push x => push_back c v x
  | Append xs => append c v xs (wrap c (length xs))
  | Pop => pop_back c v
  | Insert i x => insert_move c v i x
  | InsertRange i xs => insert_range c v i xs
  | Erase i => ' (_, v') <~ erase c v i ;; vret v'
  | Assign xs => assign c v xs (wrap c (length xs))
  | Resize n => ' (_, v') <~ resize c v (wrap c n) ;; vret v'
  | Clear => clear c v
  end.
Fixpoint run {A} (c : cfg A) (v : arr A) (os : list (vop A)) : vres (arr A) :=
  match os with
  | [] => vret v
  | o :: os' => v' <~ step c v o ;; run c v' os'
  end.
