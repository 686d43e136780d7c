(* Model of gcount: /repo/src/estd/internal/istream.h with FEATURE_ESTD_IOS_GCOUNT, its default
   (internal/feature/ios.h:5-6), over the input functions of Istream_Model.v, which leave it
   out.  streamsize is int (iosfwd.h:65): to count beyond 2^31 - 1 is undefined. *)
From Coq Require Import List ZArith Bool.
From Verif Require Import Base MachInt Ios_Model Streambuf_Model Istream_Model Charconv_Model Numio_Model.
Import ListNotations.
Local Open Scope Z_scope.
Local Open Scope res_scope.

(* istream.h:89-94: the stream and _gcount *)
Record gistr := Gis { gstr : istr; gcount : Z }.

(* istream.h:315-337: the constructors *)
Definition g_init (s : istr) : gistr := Gis s 0.

(* ++_gcount, _gcount++ *)
Definition tick (n : Z) : result Z := if n <? 2147483647 then Ok (n + 1) else UB.

(* istream.h:99-113 *)
Definition g_get (tr : traits) (s : gistr) : result (Z * gistr) :=
  n <- tick (gcount s) ;;                                                      (* :102 *)
  ' p <- get tr (gstr s) ;;
  let (c, s') := p in Ok (c, Gis s' n).

(* istream.h:116-125 *)
Definition g_unget (tr : traits) (s : gistr) : result gistr :=
  s' <- unget tr (gstr s) ;; Ok (Gis s' 0).

(* istream.h:32-42, 248-251 *)
Definition g_peek (tr : traits) (s : gistr) : result (Z * gistr) :=
  c <- peek tr (gstr s) ;; Ok (c, Gis (gstr s) 0).

(* istream.h:137-149 *)
Definition g_readsome (tr : traits) (s : gistr) (count : Z) : result (list Z * gistr) :=
  let m := Z.min count (in_avail tr (isbuf (gstr s))) in
  ' p <- readsome tr (gstr s) count ;;
  let (xs, s') := p in Ok (xs, Gis s' m).                                      (* :146 *)

(* istream.h:151-165 *)
Definition g_read (s : gistr) (n : Z) : result (list Z * gistr) :=
  ' p <- read (gstr s) n ;;
  let (xs, s') := p in Ok (xs, Gis s' n).                                      (* :161 *)

(* istream.h:168-201; see getline_loop of Istream_Model.v *)
Fixpoint g_getline_loop (tr : traits) (fuel : nat) (dst : list Z) (k : nat) (count delim : Z) (s : gistr)
  : result (list Z * nat * gistr) :=
  match fuel with
  | O => Diverge
  | S f =>
      ' p <- sbumpc tr (isbuf (gstr s)) ;;                                    (* :178 *)
      let (c, b) := p in
      let s' := Istr (ist (gstr s)) b in
      if eq_chars c eof then Ok (dst, k, Gis (add_state s' eofbit) (gcount s)) (* :180-184 *)
      else if (count =? 0) || eq_chars c delim then
        Ok (dst, k, Gis (add_state s' failbit) (gcount s))                     (* :186-190 *)
      else
        dst' <- wr dst k (to_char_type c) ;;                                   (* :192 *)
        n <- tick (gcount s) ;;                                                (* :194 *)
        g_getline_loop tr f dst' (S k) (count - 1) delim (Gis s' n)
  end.
Definition g_getline (tr : traits) (dst : list Z) (count delim : Z) (s : gistr)
  : result (list Z * gistr) :=
  ' r <- g_getline_loop tr (S (length (idata (isbuf (gstr s))))) dst 0 count delim (Gis (gstr s) 0) ;;   (* :173 *)
  let '(d, k, s') := r in
  d' <- wr d k 0 ;;                                                            (* :198 *)
  Ok (d', s').

(* istream.h:254-271, count >= 0 *)
Fixpoint g_ignore (tr : traits) (count : nat) (s : gistr) : result gistr :=
  match count with
  | O => Ok s
  | S n =>
      ' p <- g_get tr s ;;
      let (ch, s') := p in
      if ch =? eof then Ok (Gis (add_state (gstr s') eofbit) (gcount s'))
      else (m <- tick (gcount s') ;; g_ignore tr n (Gis (gstr s') m))          (* :267 *)
  end.

(* istream.h:274-295, count >= 0 *)
Fixpoint g_ignore_until (tr : traits) (delim : Z) (count : nat) (s : gistr) : result gistr :=
  match count with
  | O => Ok s
  | S n =>
      ' p <- g_get tr s ;;
      let (ch, s') := p in
      if ch =? eof then Ok (Gis (add_state (gstr s') eofbit) (gcount s'))
      else if ch =? delim then Ok s'
      else (m <- tick (gcount s') ;; g_ignore_until tr delim n (Gis (gstr s') m))   (* :291 *)
  end.

(* istream.h:89-108 of src/estd; [fuel] bounds the passes *)
Fixpoint g_ws_loop (tr : traits) (fuel : nat) (s : gistr) : result gistr :=
  match fuel with
  | O => Diverge
  | S f =>
      ' p <- g_peek tr s ;;
      let (ch, s1) := p in
      if isspace (to_char_type ch) then (s2 <- g_ignore tr 1 s1 ;; g_ws_loop tr f s2) else Ok s1
  end.
Definition g_ws (tr : traits) (s : gistr) : result gistr :=
  g_ws_loop tr (S (length (idata (isbuf (gstr s))))) s.

(* istream.h:113-148 of src/estd, for integers: what follows ws uses the buffer only *)
Definition g_extract_int (tr : traits) (t : ity) (s : gistr) : result (option Z * gistr) :=
  g1 <- g_ws tr s ;;                                                           (* :133 *)
  let s1 := gstr g1 in
  let err := rdstate (ist s1) in
  match stream_base (Z.land (flags (ist s1)) f_basefield) with
  | None => Ok (None, Gis (add_state s1 (Z.lor err failbit)) (gcount g1))
  | Some base =>
      ' r <- sdrive (S (length (idata (isbuf s1)))) tr t base GStart err 0 (isbuf s1) ;;
      let '(b, err', v) := r in
      Ok (Some v, Gis (add_state (Istr (ist s1) b) err') (gcount g1))
  end.

(* istream.h:152-167 of src/estd *)
Definition g_extract_char (tr : traits) (s : gistr) : result (option Z * gistr) :=
  s1 <- g_ws tr s ;;
  ' p <- g_get tr s1 ;;
  let (c, s2) := p in
  Ok (if not_eof tr c then Some (to_char_type c) else None, s2).

(* a caller's loop: n times get() *)
Fixpoint g_gets (tr : traits) (n : nat) (s : gistr) : result gistr :=
  match n with
  | O => Ok s
  | S m => ' p <- g_get tr s ;; let (_, s') := p in g_gets tr m s'
  end.
