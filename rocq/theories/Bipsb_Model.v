(* Model of the stream buffers that keep their characters in a bip buffer,
   /repo/src/estd/internal/impl/streambuf/bipbuf.h, under the wrapper /repo/src/estd/streambuf.h and
   internal/impl/streambuf/helpers.h.  char_type is char, of values -128..127; len > 0, so that the
   bip buffer is a layer1 one.  Allocation, traits signals and seeking are not modelled. *)
From Coq Require Import List ZArith Bool.
From Verif Require Import Base MachInt Bip_Model Streambuf_Model.
Import ListNotations.
Local Open Scope Z_scope.
Local Open Scope res_scope.

(* ---- output: bipbuf.h:24-125 ---- *)
(* The wrapped buffer is any sink: at its i-th sputn it takes at most accept i characters, and
   reads only those.  o_sunk is what it has taken, o_calls the number of its sputn calls. *)
Record ob := Ob { o_bip : bip Z; o_sunk : list Z; o_calls : nat }.
Definition o_init (m : list Z) : ob := Ob (bip_init (Z.of_nat (length m)) m) [] 0.

Section Out.
Context (accept : nat -> nat).

(* bipbuf.h:43-46 *)
Definition xout_avail (b : ob) : Z := u32 (bip_unused (o_bip b)).
(* bipbuf.h:53-62 sync; streambuf.h:189-192 pubsync *)
Definition o_sync (b : ob) : result (Z * ob) :=
  let me := o_bip b in
  let sz := u32 (bip_used me) in
  let n := Z.min sz (Z.of_nat (accept (o_calls b))) in
  d <- match bip_peek me (s32 sz) with
       | Some off => bip_read me off n
       | None => if n =? 0 then Ok [] else UB
       end ;;
  let me' := if n =? 0 then me else fst (bip_poll me (s32 n)) in
  Ok (if n =? 0 then -1 else 0, Ob me' (o_sunk b ++ d) (S (o_calls b))).
(* bipbuf.h:97-106 overflow, with 48-51, 66: stores the character whatever the sync did. *)
Definition o_overflow (b : ob) (ch : Z) : result (Z * ob) :=
  b1 <- (if xout_avail b =? 0 then r <- o_sync b ;; Ok (snd r) else Ok b) ;;
  let me := o_bip b1 in
  m <- mem_write (mem me) (bip_offer_begin me) [to_char_type ch] ;;
  Ok (ch, Ob (bip_offer_end (mkBip (bsize me) (a_start me) (a_end me) (b_end me) (b_inuse me) m) 1)
             (o_sunk b1) (o_calls b1)).
(* bipbuf.h:69-72 sputc: a char becomes an int_type by sign extension. *)
Definition o_sputc (b : ob) (ch : Z) : result (Z * ob) := o_overflow b ch.
(* bipbuf.h:108-124 xsputn *)
Definition o_xsputn (b : ob) (s : list Z) : result (Z * ob) :=
  let avail := xout_avail b in
  let count := if s32 avail <? Z.of_nat (length s) then s32 avail else Z.of_nat (length s) in
  r <- bip_offer (o_bip b) s count ;;
  Ok (count, Ob (fst r) (o_sunk b) (o_calls b)).
(* streambuf.h:126-150 sputn *)
Definition o_sputn (b : ob) (s : list Z) : result (Z * ob) :=
  r1 <- o_xsputn b s ;;
  let written := fst r1 in
  if written <? Z.of_nat (length s)
  then c <- rd s (Z.to_nat written) ;;
       r2 <- o_overflow (snd r1) c ;;
       if fst r2 =? eof then Ok (written, snd r2)
       else r3 <- o_xsputn (snd r2) (skipn (Z.to_nat written + 1) s) ;;
            Ok (written + 1 + fst r3, snd r3)
  else Ok (written, snd r1).

Inductive oop := Putc (c : Z) | Putn (s : list Z) | Flush.
Definition o_step (b : ob) (o : oop) : result (Z * ob) :=
  match o with Putc c => o_sputc b c | Putn s => o_sputn b s | Flush => o_sync b end.
Fixpoint o_run (b : ob) (l : list oop) : result (list Z * ob) :=
  match l with
  | [] => Ok ([], b)
  | o :: r => x <- o_step b o ;; y <- o_run (snd x) r ;; Ok (fst x :: fst y, snd y)
  end.
End Out.

(* ---- input: bipbuf.h:133-235 ---- *)
(* The wrapped buffer is any source: at its i-th sgetn it gives at most give i of the characters
   it has left, i_rest. *)
Record ib := Ib { i_bip : bip Z; i_rest : list Z; i_calls : nat }.
Definition i_init (m text : list Z) : ib := Ib (bip_init (Z.of_nat (length m)) m) text 0.

Section In.
Context (give : nat -> nat) (tr : traits).

(* bipbuf.h:169-172, 175-178 xin_avail, showmanyc *)
Definition i_avail (b : ib) : Z := s32 (u32 (bip_used (i_bip b))).
(* bipbuf.h:152-168 sync *)
Definition i_sync (b : ib) : result (Z * ib) :=
  let me := i_bip b in
  let unused := u32 (bip_unused me) in
  if unused =? 0 then Ok (-1, b)
  else
    let n := Nat.min (Nat.min (Z.to_nat unused) (give (i_calls b))) (length (i_rest b)) in
    m <- mem_write (mem me) (bip_offer_begin me) (firstn n (i_rest b)) ;;
    let me1 := mkBip (bsize me) (a_start me) (a_end me) (b_end me) (b_inuse me) m in
    if Nat.eqb n 0 then Ok (-1, Ib me1 (i_rest b) (S (i_calls b)))
    else Ok (0, Ib (bip_offer_end me1 (Z.of_nat n)) (skipn n (i_rest b)) (S (i_calls b))).
(* bipbuf.h:222, 226-229 *gptr(), peek with its default length 0 *)
Definition i_xsgetc (b : ib) : result Z :=
  match bip_peek (i_bip b) 0 with
  | Some off => rd (mem (i_bip b)) (Z.to_nat off)
  | None => UB
  end.
(* bipbuf.h:192-202 underflow: the char is converted to int_type without to_int_type. *)
Definition i_underflow (b : ib) : result (Z * ib) :=
  if i_avail b =? 0
  then r <- i_sync b ;;
       if fst r =? -1 then Ok (-1, snd r) else c <- i_xsgetc (snd r) ;; Ok (c, snd r)
  else c <- i_xsgetc b ;; Ok (c, b).
(* bipbuf.h:217-220 gbump *)
Definition i_gbump (b : ib) (n : Z) : ib := Ib (fst (bip_poll (i_bip b) n)) (i_rest b) (i_calls b).
(* bipbuf.h:204-215 uflow *)
Definition i_uflow (b : ib) : result (Z * ib) :=
  r <- i_underflow b ;;
  Ok (if fst r =? eof then r else (fst r, i_gbump (snd r) 1)).
(* streambuf.h:157-160, 75-79 sgetc *)
Definition i_sgetc (b : ib) : result (Z * ib) :=
  if i_avail b =? 0 then i_underflow b else c <- i_xsgetc b ;; Ok (to_int tr c, b).
(* helpers.h:32-45 sbumpc *)
Definition i_sbumpc (b : ib) : result (Z * ib) :=
  r <- i_sgetc b ;;
  if fst r =? eof then i_uflow (snd r) else Ok (fst r, i_gbump (snd r) 1).
(* streambuf.h:167-172 snextc *)
Definition i_snextc (b : ib) : result (Z * ib) :=
  r <- i_sbumpc b ;;
  if fst r =? eof then Ok (eof, snd r) else i_sgetc (snd r).
(* bipbuf.h:180-188 xsgetn, streambuf.h:118-122 sgetn.  algorithm.h:114 copy_n of a negative count
   runs out of every buffer. *)
Definition i_sgetn (b : ib) (count : Z) : result (list Z * ib) :=
  let c := if i_avail b <? count then i_avail b else count in
  if c <? 0 then UB
  else if c =? 0 then Ok ([], b)
  else match bip_peek (i_bip b) 0 with
       | Some off => d <- bip_read (i_bip b) off c ;; Ok (d, b)
       | None => UB
       end.

Inductive iop := Getc | Bumpc | Nextc | Sync | Avail.
Definition i_step (b : ib) (o : iop) : result (Z * ib) :=
  match o with
  | Getc => i_sgetc b | Bumpc => i_sbumpc b | Nextc => i_snextc b | Sync => i_sync b
  | Avail => Ok (i_avail b, b)
  end.
Fixpoint i_run (b : ib) (l : list iop) : result (list Z * ib) :=
  match l with
  | [] => Ok ([], b)
  | o :: r => x <- i_step b o ;; y <- i_run (snd x) r ;; Ok (fst x :: fst y, snd y)
  end.
End In.
