(* Model of streams over devices: the Arduino and POSIX stream buffers behind
   internal::streambuf, and the parts of basic_istream and basic_ostream that
   call them.
   Arduino's Stream (read, peek, available, readBytes, write) and stdio's
   fwrite and fputc are modelled from their documentation: a queue of received
   bytes, a sequence of sent ones, and a number of accepted characters chosen
   by the device.  available() and counts fit their types.
   Input through posix_streambuf is not modelled: streambuf::sgetc and, through
   it, sbumpc need an xsgetc() that posix_streambuf lacks, so they do not
   compile. *)
From Verif Require Import Base Dev_Spec.
Local Open Scope Z_scope.
Local Open Scope res_scope.

(* traits/char_traits.h:34-36: estd::char_traits<char>; char has the values
   of a signed or unsigned 8-bit number *)
Definition to_char_type (sgn : bool) (i : Z) : Z :=
  let b := i mod 256 in if andb sgn (128 <=? b) then b - 256 else b.
Definition to_int_type (c : Z) : Z := c.
Definition eof : Z := -1.

Record istr : Type := IS { d_in : list Z; is_eof : bool; is_fail : bool }.

(* Arduino's Stream::read() and peek(): the next byte or -1 *)
Definition hw_read (q : list Z) : Z * list Z := match q with [] => (-1, []) | b :: r => (b, r) end.
Definition hw_peek (q : list Z) : Z := match q with [] => -1 | b :: _ => b end.

(* port/arduino/streambuf.h:80-84 sbumpc; the conditional converts the char to
   int_type.  internal/impl/streambuf/helpers.h:56-64: streambuf::sbumpc calls it. *)
Definition sbumpc (sgn : bool) (q : list Z) : Z * list Z :=
  let '(ch, q') := hw_read q in
  ((if ch =? -1 then eof else to_char_type sgn ch), q').

(* port/arduino/streambuf.h:92-96 underflow; streambuf.h:157-160 sgetc, with
   xin_avail() the base's 0 (impl/streambuf/base.h:97) *)
Definition sgetc (sgn : bool) (q : list Z) : Z :=
  let ch := hw_peek q in if ch =? -1 then eof else to_char_type sgn ch.

(* streambuf.h:167-172 snextc *)
Definition snextc (sgn : bool) (q : list Z) : Z * list Z :=
  let '(ch, q') := sbumpc sgn q in
  ((if ch =? eof then eof else sgetc sgn q'), q').

(* streambuf.h:184-187 in_avail, port/arduino/streambuf.h:87-90 showmanyc *)
Definition in_avail (q : list Z) : nat := length q.

(* streambuf.h:118-122 sgetn, port/arduino/streambuf.h:104-107 xsgetn:
   readBytes(s, count) stores what it reads into a buffer of char *)
Definition sgetn (sgn : bool) (q : list Z) (n : nat) (bs : list Z) : list Z * list Z :=
  (map (to_char_type sgn) (firstn n (q ++ bs)), skipn n (q ++ bs)).

(* internal/istream.h:99-113 get *)
Definition get (sgn : bool) (s : istr) : Z * istr :=
  let '(c, q) := sbumpc sgn (d_in s) in
  (c, if c =? eof then IS q true true else IS q (is_eof s) (is_fail s)).

(* internal/ios_policy.h:61-82: sgetc of the blocking policy, which
   arduino_istream has (port/arduino/istream.h:9-10); a poll that finds nothing
   is followed by the arrival of the next element of [polls].  It runs as long
   as nothing arrives (Diverge). *)
Fixpoint blocking_sgetc (sgn : bool) (q : list Z) (polls : list (list Z)) : result (Z * list Z) :=
  if Nat.eqb (in_avail q) 0 then
    match polls with
    | [] => Diverge
    | bs :: r => blocking_sgetc sgn (q ++ bs) r
    end
  else Ok (sgetc sgn q, q).

(* internal/istream.h:32-42 standard_peek, 248-251 peek; good() is no bit set *)
Definition peek (sgn : bool) (s : istr) (polls : list (list Z)) : result (Z * istr) :=
  if negb (orb (is_eof s) (is_fail s)) then
    ' (c, q) <- blocking_sgetc sgn (d_in s) polls ;; Ok (c, IS q (is_eof s) (is_fail s))
  else Ok (eof, s).

(* internal/istream.h:151-165 read *)
Definition read (sgn : bool) (s : istr) (n : nat) (bs : list Z) : list Z * istr :=
  let '(cs, q) := sgetn sgn (d_in s) n bs in
  (cs, if negb (Nat.eqb (length cs) n) then IS q true (is_fail s) else IS q (is_eof s) (is_fail s)).

Definition istep (sgn : bool) (s : istr) (o : dop) : result (list mobs * istr) :=
  let st s := MState (is_eof s) (is_fail s) in
  match o with
  | DArrive bs => Ok ([], IS (d_in s ++ bs) (is_eof s) (is_fail s))
  | DSgetc => Ok ([MChar (sgetc sgn (d_in s))], s)
  | DSbumpc => let '(c, q) := sbumpc sgn (d_in s) in Ok ([MChar c], IS q (is_eof s) (is_fail s))
  | DSnextc => let '(c, q) := snextc sgn (d_in s) in Ok ([MChar c], IS q (is_eof s) (is_fail s))
  | DAvail => Ok ([MCount (in_avail (d_in s))], s)
  | DSgetn n bs => let '(cs, q) := sgetn sgn (d_in s) n bs in Ok ([MText cs], IS q (is_eof s) (is_fail s))
  | DGet => let '(c, s') := get sgn s in Ok ([MChar c; st s'], s')
  | DPeek polls => ' (c, s') <- peek sgn s polls ;; Ok ([MChar c; st s'], s')
  | DRead n bs => let '(cs, s') := read sgn s n bs in Ok ([MText cs; st s'], s')
  | DClear => Ok ([], IS (d_in s) false false)
  end.

Fixpoint irun (sgn : bool) (s : istr) (ops : list dop) : result (list mobs * istr) :=
  match ops with
  | [] => Ok ([], s)
  | o :: r => ' (k, s1) <- istep sgn s o ;; ' (k2, s2) <- irun sgn s1 r ;; Ok (k ++ k2, s2)
  end.

(* ---------------- output ---------------- *)

Inductive device : Type := Arduino (sgn : bool) | Posix.

Record ostr : Type := OS { d_out : list Z; os_eof : bool; os_fail : bool }.

(* port/arduino/streambuf.h:38-41 xsputn, port/posix/streambuf.cpp:11-15:
   the number accepted *)
Definition xsputn (out : list Z) (cs : list Z) (taken : nat) : nat * list Z :=
  (length (firstn taken cs), out ++ firstn taken cs).

(* impl/streambuf/base.h:87-90: overflow of a buffer without put area *)
Definition overflow : Z := eof.

(* streambuf.h:126-150 sputn: what xsputn leaves is offered to overflow, and
   the rest to xsputn again (the device then takes taken2) *)
Definition sputn (out : list Z) (cs : list Z) (taken taken2 : nat) : nat * list Z :=
  let '(written, out1) := xsputn out cs taken in
  if Nat.ltb written (length cs) then
    if negb (overflow =? eof) then
      let '(more, out2) := xsputn out1 (skipn (S written) cs) taken2 in ((S written + more)%nat, out2)
    else (written, out1)
  else (written, out1).

(* port/arduino/streambuf.h:43-49, port/posix/streambuf.cpp:26-29: fputc
   returns the character as an unsigned char, or EOF *)
Definition sputc (d : device) (out : list Z) (c : Z) (taken : bool) : Z * list Z :=
  match d with
  | Arduino _ => if taken then (to_int_type c, out ++ [c]) else (eof, out)
  | Posix => if taken then (c mod 256, out ++ [c]) else (-1, out)
  end.

(* internal/ostream.h:162-167 write with 80-86 *)
Definition write (s : ostr) (cs : list Z) (taken : nat) : ostr :=
  let '(written, out) := sputn (d_out s) cs taken 0 in
  OS out (os_eof s) (if negb (Nat.eqb written (length cs)) then true else os_fail s).

(* internal/ostream.h:170-179 put *)
Definition put (d : device) (s : ostr) (c : Z) (taken : bool) : ostr :=
  let '(r, out) := sputc d (d_out s) c taken in
  OS out (if r =? -1 then true else os_eof s) (os_fail s).

Definition ostep (d : device) (s : ostr) (o : wop) : list wobs * ostr :=
  let st s := WeState (os_eof s) (os_fail s) in
  match o with
  | WSputn cs k => let '(n, out) := sputn (d_out s) cs k 0 in ([WeCount n], OS out (os_eof s) (os_fail s))
  | WSputc c t => let '(r, out) := sputc d (d_out s) c t in ([WeDone (negb (r =? -1))], OS out (os_eof s) (os_fail s))
  | WWrite cs k => let s' := write s cs k in ([st s'], s')
  | WPut c t => let s' := put d s c t in ([st s'], s')
  | WClear => ([], OS (d_out s) false false)
  end.

Fixpoint orun (d : device) (s : ostr) (ops : list wop) : list wobs * ostr :=
  match ops with
  | [] => ([], s)
  | o :: r => let '(k, s1) := ostep d s o in let '(k2, s2) := orun d s1 r in (k ++ k2, s2)
  end.

(* ---------------- write with a time-out ---------------- *)

(* internal/ostream.h:31-74: write_timeout when FEATURE_ESTD_OSTREAM_TIMEOUT is
   on and the policy asks for time-outs.  [mem] is the memory the pointer runs
   over, the caller's n characters being the first; [pos] is s, [left] is
   remaining; [dev] gives for each round how many characters the device takes
   of those offered and whether the time is up afterwards.  Characters taken
   are read from memory (outside: UB); fewer than 0 remaining also ends the
   loop.  A run out of rounds is Diverge. *)
Fixpoint write_timed (mem : list Z) (n : nat) (pos : nat) (left : Z) (dev : list (nat * bool)) (out : list Z)
  : result (list Z) :=
  match dev with
  | [] => Diverge
  | (taken, up) :: dev' =>
      let written := Nat.min taken n in
      if Nat.leb (pos + written) (length mem) then
        let out := out ++ firstn written (skipn pos mem) in
        let left := left - Z.of_nat written in
        let pos := (pos + written)%nat in
        if andb (0 <? left) (negb up) then write_timed mem n pos left dev' out else Ok out
      else UB
  end.

(* internal/ostream.h:162-167 write, calling it: nothing looks at how the loop
   ended, so that the stream state stays as it was. *)
Definition write_with_timeout (s : ostr) (mem : list Z) (n : nat) (dev : list (nat * bool)) : result ostr :=
  out <- write_timed mem n 0 (Z.of_nat n) dev (d_out s) ;; Ok (OS out (os_eof s) (os_fail s)).
