(* Model of the unformatted input functions: /repo/src/estd/internal/istream.h and ws of
   /repo/src/estd/istream.h, on a span buffer.  gcount is left out, see Gct_Model.v. *)
From Coq Require Import List ZArith Bool.
From Verif Require Import Base MachInt Ios_Model Streambuf_Model.
Import ListNotations.
Local Open Scope Z_scope.
Local Open Scope res_scope.

Record istr := Istr { ist : ios; isbuf : isb }.

Definition add_state (s : istr) (st : Z) : istr := Istr (setstate (ist s) st) (isbuf s).

(* istream.h:99-113 *)
Definition get (tr : traits) (s : istr) : result (Z * istr) :=
  ' p <- sbumpc tr (isbuf s) ;;
  let (c, b) := p in
  let s' := Istr (ist s) b in
  if c =? eof then Ok (c, add_state s' (Z.lor failbit eofbit)) else Ok (c, s').

(* istream.h:116-125 *)
Definition unget (tr : traits) (s : istr) : result istr :=
  ' p <- sungetc tr (isbuf s) ;;
  let (c, b) := p in
  let s' := Istr (ist s) b in
  if c =? eof then Ok (add_state s' badbit) else Ok s'.

(* istream.h:32-42, 248-251 with the non-blocking policy (ios_policy.h:32-35) *)
Definition peek (tr : traits) (s : istr) : result Z :=
  if good (ist s) then sgetc tr (isbuf s) else Ok eof.
(* the same with the blocking policy (ios_policy.h:61-82): waiting for more input of a span,
   which never comes, does not end *)
Definition peek_blocking (tr : traits) (s : istr) : result Z :=
  if good (ist s) then
    let avail := in_avail tr (isbuf s) in
    if avail =? -1 then Ok eof else if avail =? 0 then Diverge else sgetc tr (isbuf s)
  else Ok eof.

(* istream.h:254-271, count >= 0 *)
Fixpoint ignore (tr : traits) (count : nat) (s : istr) : result istr :=
  match count with
  | O => Ok s
  | S n =>
      ' p <- get tr s ;;
      let (ch, s') := p in
      if ch =? eof then Ok (add_state s' eofbit) else ignore tr n s'
  end.

(* istream.h:274-295, count >= 0 *)
Fixpoint ignore_until (tr : traits) (delim : Z) (count : nat) (s : istr) : result istr :=
  match count with
  | O => Ok s
  | S n =>
      ' p <- get tr s ;;
      let (ch, s') := p in
      if ch =? eof then Ok (add_state s' eofbit)
      else if ch =? delim then Ok s' else ignore_until tr delim n s'
  end.
Definition ignore2 (tr : traits) (count : nat) (delim : Z) (s : istr) : result istr :=
  if delim =? eof then ignore tr count s else ignore_until tr delim count s.

(* istream.h:151-165 *)
Definition read (s : istr) (n : Z) : result (list Z * istr) :=
  ' p <- sgetn (isbuf s) n ;;
  let (xs, b) := p in
  let s' := Istr (ist s) b in
  Ok (xs, if Z.of_nat (length xs) =? n then s' else add_state s' eofbit).

(* istream.h:137-149 *)
Definition readsome (tr : traits) (s : istr) (count : Z) : result (list Z * istr) :=
  ' p <- sgetn (isbuf s) (Z.min count (in_avail tr (isbuf s))) ;;
  let (xs, b) := p in Ok (xs, Istr (ist s) b).

(* locale/ctype.h:52-67 *)
Definition isspace (ch : Z) : bool :=
  (ch =? 32) || (ch =? 13) || (ch =? 10) || (ch =? 12) || (ch =? 9) || (ch =? 11).

(* istream.h:90-108 of src/estd: for(;;) peek, ignore one.  [fuel] bounds the passes *)
Fixpoint ws_loop (tr : traits) (fuel : nat) (s : istr) : result istr :=
  match fuel with
  | O => Diverge
  | S f =>
      ch <- peek tr s ;;
      if isspace (to_char_type ch) then (s' <- ignore tr 1 s ;; ws_loop tr f s') else Ok s
  end.
Definition ws (tr : traits) (s : istr) : result istr :=
  ws_loop tr (S (length (idata (isbuf s)))) s.

(* traits_type::eq takes characters: its int arguments are converted to char *)
Definition eq_chars (a b : Z) : bool := to_char_type a =? to_char_type b.

(* istream.h:168-201.  [dst] is the memory from s on; [k] characters have been stored.
   count is a streamsize; [fuel] bounds the passes *)
Fixpoint getline_loop (tr : traits) (fuel : nat) (dst : list Z) (k : nat) (count delim : Z) (s : istr)
  : result (list Z * nat * istr) :=
  match fuel with
  | O => Diverge
  | S f =>
      ' p <- sbumpc tr (isbuf s) ;;                                           (* :178 *)
      let (c, b) := p in
      let s' := Istr (ist s) b in
      if eq_chars c eof then Ok (dst, k, add_state s' eofbit)                  (* :180-184 *)
      else if (count =? 0) || eq_chars c delim then
        Ok (dst, k, add_state s' failbit)                                      (* :186-190 *)
      else
        dst' <- wr dst k (to_char_type c) ;;                                   (* :192 *)
        getline_loop tr f dst' (S k) (count - 1) delim s'
  end.
Definition getline (tr : traits) (dst : list Z) (count delim : Z) (s : istr)
  : result (list Z * istr) :=
  ' r <- getline_loop tr (S (length (idata (isbuf s)))) dst 0 count delim s ;;
  let '(d, k, s') := r in
  d' <- wr d k 0 ;;                                                            (* :198 *)
  Ok (d', s').

(* istream.h:127-132 with pos.h:44-59, 87-95: beg and cur; other directions change nothing *)
Inductive seekdir := SeekBeg | SeekCur | SeekEnd.
Definition seekg (s : istr) (off : Z) (dir : seekdir) : istr :=
  let b := isbuf s in
  Istr (unsetstate (ist s) failbit)
       (match dir with
        | SeekBeg => Isb (idata b) (off mod 65536)
        | SeekCur => Isb (idata b) ((ipos b + off) mod 65536)
        | SeekEnd => b
        end).
