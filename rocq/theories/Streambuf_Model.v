(* Model of the span stream buffers: /repo/src/estd/internal/impl/streambuf/{span,pos,base,
   helpers,buffer}.h under the wrapper /repo/src/estd/streambuf.h, and of
   internal/istreambuf_iterator.h.  Characters are char values, -128..127.
   Two character traits are modelled: std::char_traits<char> (int_type int, to_int_type
   through unsigned char), used when <string> exists, and the library's own
   (traits/char_traits.h:19-37: int_type int16_t, to_int_type by sign extension). *)
From Coq Require Import List ZArith Bool.
From Verif Require Import Base MachInt SliceLemmas.
Import ListNotations.
Local Open Scope Z_scope.
Local Open Scope res_scope.

Inductive traits := StdTraits | EstdTraits.

(* eof() is -1 in both *)
Definition eof : Z := -1.
(* char_traits.h:35 to_int_type; the standard one goes through unsigned char *)
Definition to_int (tr : traits) (c : Z) : Z :=
  match tr with StdTraits => c mod 256 | EstdTraits => c end.
(* conversion to int_type *)
Definition int_type (tr : traits) (z : Z) : Z :=
  match tr with StdTraits => s32 z | EstdTraits => wraps 16 z end.
(* char_traits.h:34 to_char_type, char being signed *)
Definition to_char_type (z : Z) : Z := wraps 8 z.

(* ---- input: span.h:141-196 over pos.h:71-96 ---- *)

(* the span, and the position (unsigned short, pos.h:70) *)
Record isb := Isb { idata : list Z; ipos : Z }.

(* span.h:168-172 with pos.h:82 *)
Definition isb_init (data : list Z) : isb := Isb data 0.

(* span.h:179-182  in().size() - pos(), converted to streamsize (int, iosfwd.h:65) *)
Definition xin_avail (b : isb) : Z := s32 (Z.of_nat (length (idata b)) - ipos b).
(* base.h:102-109 through span.h:184; the parameter is an int_type.  streambuf.h:184-187 *)
Definition in_avail (tr : traits) (b : isb) : Z :=
  let avail := int_type tr (xin_avail b) in if 0 <? avail then avail else -1.
(* pos.h:85  gbump: the position is an unsigned short *)
Definition gbump (b : isb) (n : Z) : isb := Isb (idata b) ((ipos b + n) mod 65536).
(* span.h:195  *gptr() *)
Definition xsgetc (b : isb) : result Z := rd (idata b) (Z.to_nat (ipos b)).

(* streambuf.h:157-160 with 75-79; underflow is base.h:92 *)
Definition sgetc (tr : traits) (b : isb) : result Z :=
  if xin_avail b =? 0 then Ok eof else c <- xsgetc b ;; Ok (to_int tr c).
(* helpers.h:32-45; uflow is base.h:80 *)
Definition sbumpc (tr : traits) (b : isb) : result (Z * isb) :=
  ch <- sgetc tr b ;;
  if negb (ch =? eof) then Ok (ch, gbump b 1) else Ok (eof, b).
(* streambuf.h:167-172 *)
Definition snextc (tr : traits) (b : isb) : result (Z * isb) :=
  ' p <- sbumpc tr b ;;
  let (ch, b') := p in
  if ch =? eof then Ok (eof, b') else (ch' <- sgetc tr b' ;; Ok (ch', b')).
(* helpers.h:18-29; pbackfail is base.h:82-85.  gptr() > eback() means pos > 0 *)
Definition sungetc (tr : traits) (b : isb) : result (Z * isb) :=
  if 0 <? ipos b then
    let b' := gbump b (-1) in c <- xsgetc b' ;; Ok (to_int tr c, b')
  else Ok (eof, b).

(* reading n consecutive elements *)
Fixpoint rdn {A} (m : list A) (i n : nat) : result (list A) :=
  match n with
  | O => Ok []
  | S n' => x <- rd m i ;; xs <- rdn m (S i) n' ;; Ok (x :: xs)
  end.

(* span.h:186-193 through streambuf.h:118-122.  The destination has room for count
   characters; what is stored there is the result.  With a negative count copy_n
   (algorithm.h:114, while(count--)) runs out of every buffer: UB. *)
Definition sgetn (b : isb) (count : Z) : result (list Z * isb) :=
  let c := Z.min count (xin_avail b) in
  if c <? 0 then UB
  else xs <- rdn (idata b) (Z.to_nat (ipos b)) (Z.to_nat c) ;; Ok (xs, gbump b c).

(* ---- istreambuf_iterator.h ---- *)

(* :88-101 prefix increment *)
Definition isbi_next (tr : traits) (b : isb) : result (isb * bool) :=  (* buffer, at end? *)
  ' p <- snextc tr b ;;
  let (ch, b') := p in
  Ok (b', (ch =? eof) && (in_avail tr b' =? -1)).

(* ---- output: span.h:15-95 over pos.h:100-125 (the index is the span's size_type) ---- *)

Record osb := Osb { obuf : list Z; opos : nat }.
Definition osb_init (buf : list Z) : osb := Osb buf 0.

(* writing consecutive elements (memcpy) *)
Fixpoint wrn {A} (m : list A) (i : nat) (xs : list A) : result (list A) :=
  match xs with
  | [] => Ok m
  | x :: xs' => m' <- wr m i x ;; wrn m' (S i) xs'
  end.

(* span.h:78-84 (no bounds check) *)
Definition o_xsputn (b : osb) (s : list Z) : result (Z * osb) :=
  m <- wrn (obuf b) (opos b) s ;;
  Ok (Z.of_nat (length s), Osb m (opos b + length s)).
(* streambuf.h:126-150: xsputn has returned count, so the rest is not reached *)
Definition sputn (b : osb) (s : list Z) : result (Z * osb) := o_xsputn b s.
(* span.h:86-95; overflow is base.h:87-90 *)
Definition sputc (tr : traits) (b : osb) (ch : Z) : result (Z * osb) :=
  if Nat.leb (length (obuf b)) (opos b) then Ok (eof, b)
  else m <- wr (obuf b) (opos b) ch ;; Ok (to_int tr ch, Osb m (S (opos b))).

(* ---- buffered output: buffer.h:17-107 ---- *)

(* The wrapped buffer is any sink: it sees the texts it is given, in order, and may take
   only part of each (what it answers is ignored, buffer.h:47).  [cap]: capacity of the
   internal string (layer1::string<len, false>, buffer.h:24). *)
Record bsb := Bsb { bbuf : list Z; bsink : list (list Z) }.

(* buffer.h:27-33 *)
Definition bremaining (cap : nat) (b : bsb) : nat := cap - length (bbuf b).
(* buffer.h:41-51 *)
Definition bll_sync (b : bsb) : bsb := Bsb [] (bsink b ++ [bbuf b]).
(* buffer.h:59-64 *)
Definition bsync (b : bsb) : bsb := match bbuf b with [] => b | _ => bll_sync b end.
(* streambuf.h:189-192 pubsync; buffer.h:59-64 answers 0, whatever the wrapped buffer took *)
Definition bpubsync (b : bsb) : Z * bsb := (0, bsync b).
(* buffer.h:73: not_eof as a condition.  The library's own answers whether the int is not -1
   (traits/char_traits.h:38), the standard one 0 for eof and its argument otherwise (libstdc++) *)
Definition goes_in (tr : traits) (ch : Z) : bool :=
  match tr with
  | StdTraits => negb ((if ch =? eof then 0 else ch) =? 0)
  | EstdTraits => negb (ch =? -1)
  end.
(* buffer.h:66-81; answers '*' *)
Definition boverflow (tr : traits) (cap : nat) (b : bsb) (ch : Z) : Z * bsb :=
  let b1 := if Nat.eqb (bremaining cap b) 0 then bll_sync b else b in
  (42, if goes_in tr ch then Bsb (bbuf b1 ++ [to_char_type ch]) (bsink b1) else b1).
(* buffer.h:103-106: the character becomes an int_type by itself, not by to_int_type *)
Definition bsputc (tr : traits) (cap : nat) (b : bsb) (ch : Z) : Z * bsb := boverflow tr cap b (int_type tr ch).
(* buffer.h:83-94: answers count whatever was stored *)
Definition bxsputn (cap : nat) (b : bsb) (s : list Z) : Z * bsb :=
  (Z.of_nat (length s), Bsb (bbuf b ++ firstn (bremaining cap b) s) (bsink b)).
(* streambuf.h:126-150: written = count, so overflow is never reached *)
Definition bsputn (cap : nat) (b : bsb) (s : list Z) : Z * bsb := bxsputn cap b s.
