(* What a user expects of the text containers (strings and vectors of characters) when their memory belongs to an
   allocator that must be asked for an address (lock) and may move memory nobody holds locked: every operation acts on
   the text, an address obtained by lock stays good until it is given back or the container outgrows its memory. *)
From Coq Require Import ZArith.
From Verif Require Import Base.

(* k, j: names of containers; v: name of an address the user keeps *)
Inductive lop :=
| LReserve (k n : nat)
| LAppend (k : nat) (buf : list Z) | LAppendC (k j : nat) | LPush (k : nat) (a : Z)
| LInsert (k pos : nat) (buf : list Z) | LInsertC (k pos j : nat) | LInsertV (k pos : nat) (a : Z)
| LErase (k pos cnt : nat) | LPop (k : nat) | LResize (k n : nat)
| LAssign (k : nat) (buf : list Z) | LAssignC (k j : nat)
| LInit (k : nat) (buf : list Z)                        (* construction from a braced list *)
| LSize (k : nat) | LEmpty (k : nat)
| LFindCh (k : nat) (ch : Z) (pos : nat) | LFind (k : nat) (s : list Z) (pos : nat)
| LRFind (k : nat) (s : list Z) (pos : option nat)      (* None: npos *)
| LFirstOf (k : nat) (s : list Z) (pos : nat) | LLastOf (k : nat) (s : list Z) (pos : option nat)
| LStartsCh (k : nat) (ch : Z) | LEndsCh (k : nat) (ch : Z)
| LStartsC (k j : nat) | LEndsC (k j : nat) | LEqC (k j : nat) | LCmpC (k j : nat)
| LCopy (k cnt pos : nat)
| LLock (v k pos : nat) | LData (v k : nat) | LUnlock (k : nat) | LLoad (v : nat) | LStore (v : nat) (a : Z).
Inductive lobs := LoNat (n : nat) | LoBool (b : bool) | LoInt (z : Z) | LoText (l : list Z) | LoPos (p : option nat) | LoChar (a : Z).

(* a container: null terminated or with a length of its own, has it memory, how much, the text, locks held by the user *)
Record scon := SC { s_nt : bool; s_alloc : bool; s_cap : nat; s_l : list Z; s_lk : nat }.
(* the containers, and where the user's addresses point: container and position; None: no longer good *)
Record sst := SS { s_c : nat -> scon; s_p : nat -> option (nat * nat) }.

Definition set_at {X} (f : nat -> X) (t : nat) (x : X) : nat -> X := fun u => if Nat.eqb u t then x else f u.
(* no terminator inside the text of a null terminated string *)
Definition s_text (c : scon) (l : list Z) : bool := negb (s_nt c) || forallb (fun a => negb (Z.eqb a 0)) l.
Definition s_with (c : scon) (l : list Z) : scon := SC (s_nt c) (s_alloc c) (s_cap c) l (s_lk c).
Definition s_put (s : sst) (k : nat) (c : scon) (moved : bool) : sst :=
  SS (set_at (s_c s) k c)
     (fun v => match s_p s v with Some (b, i) => if moved && Nat.eqb b k then None else Some (b, i) | None => None end).
(* memory for n characters (one more for the terminator); pad: how much more is taken when it grows *)
Definition s_grow (c : scon) (n pad : nat) : option scon :=
  let cap := if Nat.leb n (s_cap c) then s_cap c else n + pad in
  if s_nt c && Nat.leb cap n then None
  else Some (SC (s_nt c) (s_alloc c || Nat.ltb (s_cap c) n) cap (s_l c) (s_lk c)).
(* the whole text replaced by l *)
Definition s_become (s : sst) (k : nat) (l : list Z) (pad : nat) : option (list lobs * sst) :=
  let c := s_c s k in
  match s_grow c (length l) pad with
  | Some c' => if s_alloc c' && s_text c l then Some ([], s_put s k (s_with c' l) (Nat.ltb (s_cap c) (length l))) else None
  | None => None
  end.
Definition when {X} (b : bool) (x : option X) : option X := if b then x else None.
Definition say (s : sst) (o : lobs) : option (list lobs * sst) := Some ([o], s).

Definition occurs_at (s l : list Z) (i : nat) : bool :=
  if list_eq_dec Z.eq_dec (firstn (length s) (skipn i l)) s then true else false.
(* least i in [a, a+n), greatest i in [0, n] *)
Fixpoint least (f : nat -> bool) (a n : nat) : option nat :=
  match n with O => None | S n' => if f a then Some a else least f (S a) n' end.
Fixpoint greatest (f : nat -> bool) (n : nat) : option nat :=
  if f n then Some n else match n with O => None | S n' => greatest f n' end.
Definition is_in (s : list Z) (a : Z) : bool := existsb (Z.eqb a) s.
Definition char_in (s l : list Z) (i : nat) : bool := match nth_error l i with Some a => is_in s a | None => false end.
Definition sign_of (a b : list Z) : Z :=
  (fix go (a b : list Z) : Z :=
     match a, b with
     | x :: a', y :: b' => if Z.ltb x y then (-1)%Z else if Z.ltb y x then 1%Z else go a' b'
     | _, _ => 0%Z
     end) a b.

Section Step.
(* do locks of one piece of memory count, or does the first unlock release it *)
Context (nest : bool) (pad : nat).
Definition s_quiet (c : scon) : bool := nest || Nat.eqb (s_lk c) 0.
(* operations that ask a null terminated string for its size while they hold its address *)
Definition s_deep (c : scon) : bool := s_quiet c && (nest || negb (s_nt c)).
Definition s_pair (k j : nat) : bool := nest || negb (Nat.eqb k j).

Definition sstep (s : sst) (o : lop) : option (list lobs * sst) :=
  match o with
  | LReserve k n =>
      let c := s_c s k in
      when (Nat.leb (length (s_l c)) n && (negb (s_nt c) || (s_alloc c && Nat.ltb (length (s_l c)) n)))
           (Some ([LoBool true], s_put s k (SC (s_nt c) true n (s_l c) (s_lk c)) true))
  | LAppend k buf => let c := s_c s k in when (s_quiet c) (s_become s k (s_l c ++ buf) pad)
  | LAppendC k j =>
      let c := s_c s k in let d := s_c s j in
      when (s_quiet c && s_deep d && s_pair k j && (s_alloc d || Nat.eqb k j)) (s_become s k (s_l c ++ s_l d) pad)
  | LPush k a => let c := s_c s k in when (s_quiet c) (s_become s k (s_l c ++ [a]) pad)
  | LInsert k pos buf =>
      let c := s_c s k in
      when (s_quiet c && Nat.leb pos (length (s_l c))) (s_become s k (firstn pos (s_l c) ++ buf ++ skipn pos (s_l c)) 0)
  | LInsertC k pos j =>
      let c := s_c s k in let d := s_c s j in
      when (s_quiet c && s_deep d && negb (Nat.eqb k j) && s_alloc d && Nat.leb pos (length (s_l c)))
           (s_become s k (firstn pos (s_l c) ++ s_l d ++ skipn pos (s_l c)) 0)
  | LInsertV k pos a =>
      let c := s_c s k in
      when (s_quiet c && Nat.leb pos (length (s_l c))) (s_become s k (firstn pos (s_l c) ++ [a] ++ skipn pos (s_l c)) pad)
  | LErase k pos cnt =>
      let c := s_c s k in
      when (s_deep c && s_alloc c && Nat.leb pos (length (s_l c)))
           (Some ([], s_put s k (s_with c (firstn pos (s_l c) ++ skipn (pos + cnt) (s_l c))) false))
  | LPop k =>
      let c := s_c s k in
      when (s_quiet c && Nat.ltb 0 (length (s_l c))) (Some ([], s_put s k (s_with c (removelast (s_l c))) false))
  | LResize k n =>
      let c := s_c s k in
      when (s_quiet c && Nat.leb n (length (s_l c)) && (s_alloc c || negb (s_nt c)))
           (Some ([LoBool true], s_put s k (s_with c (firstn n (s_l c))) false))
  | LAssign k buf => when (s_quiet (s_c s k)) (s_become s k buf 0)
  | LAssignC k j =>
      let d := s_c s j in
      when (s_quiet (s_c s k) && s_deep d && negb (Nat.eqb k j) && s_alloc d) (s_become s k (s_l d) 0)
  | LInit k buf =>
      let c := s_c s k in
      when (s_deep c && s_alloc c && Nat.eqb (length (s_l c)) 0 && s_text c buf
            && (if s_nt c then Nat.ltb (length buf) (s_cap c) else Nat.leb (length buf) (s_cap c)))
           (Some ([], s_put s k (s_with c buf) false))
  | LSize k => let c := s_c s k in when (s_quiet c) (say s (LoNat (length (s_l c))))
  | LEmpty k =>
      let c := s_c s k in
      when (s_quiet c && (s_alloc c || negb (s_nt c))) (say s (LoBool (Nat.eqb (length (s_l c)) 0)))
  | LFindCh k ch pos =>
      let c := s_c s k in
      when (s_deep c && s_alloc c) (say s (LoPos (least (char_in [ch] (s_l c)) pos (length (s_l c) - pos))))
  | LFind k t pos =>
      (* a text that occurs at or after pos; the answer counts from pos *)
      let c := s_c s k in
      when (s_deep c && s_alloc c)
           match least (occurs_at t (s_l c)) pos (length (s_l c) - pos) with
           | Some i => say s (LoPos (Some (i - pos)))
           | None => None
           end
  | LRFind k t pos =>
      let c := s_c s k in let n := length (s_l c) in
      when (s_quiet c && s_alloc c && Nat.ltb 0 (length t) && Nat.ltb 0 n)
           (say s (LoPos (if Nat.ltb n (length t) then None
                          else greatest (occurs_at t (s_l c)) (Nat.min (match pos with Some p => p | None => n end) (n - length t)))))
  | LFirstOf k t pos =>
      let c := s_c s k in
      when (s_deep c && s_alloc c && Nat.leb pos (length (s_l c)))
           (say s (LoPos (least (char_in t (s_l c)) pos (length (s_l c) - pos))))
  | LLastOf k t pos =>
      let c := s_c s k in let n := length (s_l c) in
      let p := match pos with Some p => p | None => n - 1 end in
      when (s_quiet c && s_alloc c && Nat.ltb p n) (say s (LoPos (greatest (char_in t (s_l c)) p)))
  | LStartsCh k ch =>
      let c := s_c s k in
      when (s_quiet c && s_alloc c) match s_l c with a :: _ => say s (LoBool (Z.eqb a ch)) | [] => None end
  | LEndsCh k ch =>
      let c := s_c s k in
      when (s_quiet c && s_alloc c && Nat.ltb 0 (length (s_l c))) (say s (LoBool (Z.eqb (last (s_l c) 0%Z) ch)))
  | LStartsC k j =>
      (* equal lengths are answered no: C32, C186 *)
      let c := s_c s k in let d := s_c s j in
      when (s_deep c && s_deep d && s_pair k j && s_alloc c && s_alloc d)
           (say s (LoBool (Nat.ltb (length (s_l d)) (length (s_l c)) && occurs_at (s_l d) (s_l c) 0)))
  | LEndsC k j =>
      let c := s_c s k in let d := s_c s j in
      when (s_deep c && s_deep d && s_pair k j && s_alloc c && s_alloc d)
           (say s (LoBool (Nat.leb (length (s_l d)) (length (s_l c)) && occurs_at (s_l d) (s_l c) (length (s_l c) - length (s_l d)))))
  | LEqC k j =>
      let c := s_c s k in let d := s_c s j in
      when (s_quiet c && s_quiet d && s_pair k j && s_alloc c && s_alloc d)
           (say s (LoBool (if list_eq_dec Z.eq_dec (s_l c) (s_l d) then true else false)))
  | LCmpC k j =>
      (* shorter texts come first *)
      let c := s_c s k in let d := s_c s j in
      when (s_quiet c && s_deep d && s_pair k j && s_alloc c && s_alloc d)
           (say s (LoInt (if Nat.ltb (length (s_l c)) (length (s_l d)) then (-1)%Z
                          else if Nat.ltb (length (s_l d)) (length (s_l c)) then 1%Z else sign_of (s_l c) (s_l d))))
  | LCopy k cnt pos =>
      let c := s_c s k in
      when (s_deep c && s_alloc c && Nat.leb pos (length (s_l c))) (say s (LoText (firstn cnt (skipn pos (s_l c)))))
  | LLock v k pos =>
      let c := s_c s k in
      when (s_quiet c && s_alloc c && Nat.leb pos (length (s_l c)))
           (Some ([], SS (set_at (s_c s) k (SC (s_nt c) (s_alloc c) (s_cap c) (s_l c) (S (s_lk c))))
                         (set_at (s_p s) v (Some (k, pos)))))
  | LData v k =>
      let c := s_c s k in
      when (s_quiet c && s_alloc c)
           (Some ([], SS (set_at (s_c s) k (SC (s_nt c) (s_alloc c) (s_cap c) (s_l c) (S (s_lk c))))
                         (set_at (s_p s) v (Some (k, 0)))))
  | LUnlock k =>
      let c := s_c s k in
      when (Nat.ltb 0 (s_lk c))
           (Some ([], s_put s k (SC (s_nt c) (s_alloc c) (s_cap c) (s_l c) (s_lk c - 1)) (Nat.eqb (s_lk c) 1)))
  | LLoad v =>
      match s_p s v with
      | Some (k, i) => match nth_error (s_l (s_c s k)) i with Some a => say s (LoChar a) | None => None end
      | None => None
      end
  | LStore v a =>
      match s_p s v with
      | Some (k, i) =>
          let c := s_c s k in
          when (Nat.ltb i (length (s_l c)) && s_text c [a])
               (Some ([], s_put s k (s_with c (firstn i (s_l c) ++ a :: skipn (S i) (s_l c))) false))
      | None => None
      end
  end.
Fixpoint srun (s : sst) (os : list lop) : option (list lobs * sst) :=
  match os with
  | [] => Some ([], s)
  | o :: os' => match sstep s o with
                | Some (b, s1) => match srun s1 os' with Some (bs, s2) => Some (b ++ bs, s2) | None => None end
                | None => None
                end
  end.
End Step.

(* to start with: vectors and strings without memory, and null terminated strings whose memory already has some text *)
Definition s_start (c : scon) : Prop :=
  s_lk c = 0 /\ length (s_l c) <= s_cap c /\ (s_alloc c = false -> s_cap c = 0) /\
  (s_nt c = true -> length (s_l c) < s_cap c /\ s_text c (s_l c) = true).
