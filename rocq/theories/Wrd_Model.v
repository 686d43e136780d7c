(* Model of reading a word and a character: in >> string of
   /repo/src/estd/internal/istream_runtimearray.hpp and in >> char of /repo/src/estd/istream.h,
   over the streams of Istream_Model.v and the strings of Dyn_Model.v.
   Simplifications: gcount is not modelled; the locale is the C locale (locale/ctype.h). *)
From Coq Require Import List ZArith Bool.
From Verif Require Import Base MachInt Ios_Model Streambuf_Model Istream_Model Dyn_Model.
Import ListNotations.
Local Open Scope Z_scope.
Local Open Scope res_scope.

(* streambuf.h:184-187 in_avail.  A span answers -1 when nothing is left (base.h:102-109).
   [opn]: a buffer that reads the same way but whose source may still deliver, so that it
   answers 0 instead ("unsure if more characters are available"). *)
Definition avail (opn : bool) (tr : traits) (b : isb) : Z :=
  let a := int_type tr (xin_avail b) in if 0 <? a then a else if opn then 0 else -1.

(* internal/istream.h:32-42, 248-251; [blk]: the blocking policy (ios_policy.h:61-82), else the
   other one (:32-35).  Waiting for input that does not come does not end. *)
Definition peek_of (blk opn : bool) (tr : traits) (s : istr) : result Z :=
  if good (ist s) then
    if blk then
      let a := avail opn tr (isbuf s) in
      if a =? -1 then Ok eof else if a =? 0 then Diverge else sgetc tr (isbuf s)
    else sgetc tr (isbuf s)
  else Ok eof.

(* istream.h:90-108: for(;;) peek, ignore one; [fuel] bounds the passes *)
Fixpoint ws_loop_of (blk opn : bool) (tr : traits) (fuel : nat) (s : istr) : result istr :=
  match fuel with
  | O => Diverge
  | S f =>
      ch <- peek_of blk opn tr s ;;
      if isspace (to_char_type ch) then (s' <- ignore tr 1 s ;; ws_loop_of blk opn tr f s') else Ok s
  end.
Definition ws_of (blk opn : bool) (tr : traits) (s : istr) : result istr :=
  ws_loop_of blk opn tr (S (length (idata (isbuf s)))) s.

(* ios_policy.h:43-44: for(i = sz; i > 0; --i) rdbuf->sungetc() *)
Fixpoint unget_n (tr : traits) (n : nat) (b : isb) : result isb :=
  match n with
  | O => Ok b
  | S n' => ' p <- sungetc tr b ;; unget_n tr n' (snd p)
  end.

(* istream_runtimearray.hpp:17-62; [fuel] bounds the passes *)
Fixpoint do_input (blk opn : bool) (tr : traits) (c : cfg Z) (fuel : nat) (s : istr) (v : arr Z)
  : vres (istr * arr Z) :=
  match fuel with
  | O => Diverge
  | S f =>
      ch <~ lift (peek_of blk opn tr s) ;;                                    (* :33 *)
      if ch =? eof then
        if negb blk && (avail opn tr (isbuf s) =? 0) then                      (* :39 *)
          n <~ lift (size c v) ;;                                             (* :41 *)
          b <~ lift (unget_n tr n (isbuf s)) ;;                               (* ios_policy.h:37-45 *)
          vret (Istr (setstate (ist s) nodatabit) b, v)
        else
          e <~ lift (empty c v) ;;                                            (* :45 *)
          let s1 := if e then add_state s failbit else s in
          vret (add_state s1 eofbit, v)                                       (* :49 *)
      else if isspace (to_char_type ch) then vret (s, v)                       (* :54 *)
      else
        v' <~ push_back c v (to_char_type ch) ;;                              (* :57 *)
        ' (_, s') <~ lift (get tr s) ;;                                       (* :60 *)
        do_input blk opn tr c f s' v'
  end.

(* istream_runtimearray.hpp:116-127 *)
Definition extract (blk opn : bool) (tr : traits) (c : cfg Z) (s : istr) (v : arr Z)
  : vres (istr * arr Z) :=
  s1 <~ lift (ws_of blk opn tr s) ;;
  v1 <~ clear c v ;;
  do_input blk opn tr c (S (length (idata (isbuf s1)))) s1 v1.

(* traits/char_traits.h:38 not_eof, a bool; the standard one answers an int, the character or
   (for end of file) some other value, 0 in libstdc++ and libc++'s ~eof() = 0 *)
Definition not_eof (tr : traits) (z : Z) : bool :=
  match tr with
  | StdTraits => negb ((if z =? eof then 0 else z) =? 0)
  | EstdTraits => negb (z =? -1)
  end.
(* istream.h:152-167; [x] is the variable before, the result holds it after *)
Definition extract_char (blk opn : bool) (tr : traits) (s : istr) (x : Z) : result (istr * Z) :=
  s1 <- ws_of blk opn tr s ;;
  ' (ch, s2) <- get tr s1 ;;
  Ok (s2, if not_eof tr ch then to_char_type ch else x).

(* A program's loop: while(in >> value) use(value); the answers are the values used.
   operator bool is internal/ios.h:223.  [fuel] bounds the passes *)
Fixpoint while_read (blk opn : bool) (tr : traits) (c : cfg Z) (fuel : nat) (s : istr) (v : arr Z)
  : vres (list (list Z) * istr * arr Z) :=
  match fuel with
  | O => Diverge
  | S f =>
      ' (s', v') <~ extract blk opn tr c s v ;;
      if fail (ist s') then vret ([], s', v')
      else
        w <~ lift (iterate c v') ;;
        ' (ws, s2, v2) <~ while_read blk opn tr c f s' v' ;;
        vret (w :: ws, s2, v2)
  end.
