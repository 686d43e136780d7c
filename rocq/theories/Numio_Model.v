(* Model of formatted input: the iterated num_get of
   /repo/src/estd/internal/locale/iterated/num_get.h (integers and bool), its drivers in
   internal/locale/num_get.h, internal/chooser.h and operator>> of istream.h, on a span
   stream.  Floating point is in Flt_Model.v.  The overflow builtins are available
   (otherwise: Novf_Model.v). *)
From Coq Require Import List ZArith Bool.
From Verif Require Import Base MachInt Ios_Model Streambuf_Model Istream_Model Charconv_Model.
Import ListNotations.
Local Open Scope Z_scope.
Local Open Scope res_scope.

(* ---- integers, one character at a time ---- *)

(* iterated/num_get.h:41-51, the states that are used *)
Inductive gstate := GStart | GNeg | GPos | GOverflow.

(* raise_and_add.h:35-43 *)
Definition raise_and_sub (t : ity) (v base d : Z) : option Z :=
  if fits t (v * base) then
    if fits t (v * base - d) then Some (v * base - d) else None
  else None.

(* What a call of get leaves: done, state, err, v. *)
Record gres := GR { gdone : bool; gst : gstate; gerr : Z; gval : Z }.

(* iterated/num_get.h:121-158 nominal<positive>; on overflow v becomes the limit
   (FEATURE_ESTD_NUM_GET_LWG23) *)
Definition nominal (t : ity) (base : Z) (positive : bool) (st : gstate) (err v c : Z) : gres :=
  match from_char base c with                                                  (* :124 *)
  | Some n =>
      match (if positive then raise_and_add t v base n else raise_and_sub t v base n) with
      | Some v' => GR false st err v'
      | None => GR false GOverflow (Z.lor err failbit) (if positive then imax t else imin t)
      end
  | None => GR true st err v                                                   (* :157 *)
  end.

(* iterated/num_get.h:202-260 get<false>(c, err, v) *)
Definition num_get1 (t : ity) (base : Z) (st : gstate) (err v c : Z) : gres :=
  match st with
  | GStart =>
      if sgn t && (c =? 45) then GR false GNeg err v                           (* :214-218 *)
      else let r := nominal t base true GPos err v c in                        (* :220, 227 *)
           if gdone r then GR true (gst r) (Z.lor (gerr r) failbit) (gval r)   (* :230-231 *)
           else r
  | GPos => nominal t base true GPos err v c                                   (* :247 *)
  | GNeg => nominal t base false GNeg err v c                                  (* :250 *)
  | GOverflow =>
      GR (match from_char base c with Some _ => true | None => false end) GOverflow err v  (* :254 *)
  end.

(* ---- locale/num_get.h:40-75 get_signed_number over a character range (pointers).
   Answers how many characters were passed, err and v *)
Fixpoint drive (t : ity) (base : Z) (st : gstate) (err v : Z) (text : list Z) (n : nat) : nat * Z * Z :=
  match text with
  | [] => (n, Z.lor err eofbit, v)                                             (* :72-74 *)
  | c :: rest =>
      let r := num_get1 t base st err v c in                                   (* :62 *)
      if gdone r then (n, gerr r, gval r)                                      (* :68 *)
      else drive t base (gst r) (gerr r) (gval r) rest (S n)
  end.
(* :78-96, 262-265 num_get::get(in, end, basefield, err, v) *)
Definition range_base (basefield : Z) : Z :=
  if basefield =? f_oct then 8 else if basefield =? f_hex then 16 else 10.
Definition range_get (t : ity) (basefield err : Z) (text : list Z) : nat * Z * Z :=
  drive t (range_base basefield) GStart err 0 text 0.                          (* :50 v = 0 *)

(* ---- the same over istreambuf_iterators ---- *)

Fixpoint sdrive (fuel : nat) (tr : traits) (t : ity) (base : Z) (st : gstate) (err v : Z) (b : isb)
  : result (isb * Z * Z) :=
  match fuel with
  | O => Diverge
  | S f =>
      c <- sgetc tr b ;;                                                       (* :54 *)
      let r := num_get1 t base st err v (to_char_type c) in                    (* :62 *)
      if gdone r then Ok (b, gerr r, gval r)
      else
        ' p <- isbi_next tr b ;;                                               (* :52 ++i *)
        let (b', at_end) := p in
        if at_end : bool then Ok (b', Z.lor (gerr r) eofbit, gval r)           (* :72 *)
        else sdrive f tr t base (gst r) (gerr r) (gval r) b'
  end.

(* num_get.h:168-222 and istream.h:113-148 operator>>.  The value is None if it is not
   assigned (basefield 0, get_interpreted :150-156) *)
Definition stream_base (basefield : Z) : option Z :=
  if basefield =? f_oct then Some 8 else if basefield =? f_hex then Some 16
  else if basefield =? 0 then None else Some 10.
Definition extract_int (tr : traits) (t : ity) (s : istr) : result (option Z * istr) :=
  s1 <- ws tr s ;;                                                             (* :133 *)
  let err := rdstate (ist s1) in                                               (* :136 *)
  match stream_base (Z.land (flags (ist s1)) f_basefield) with
  | None => Ok (None, add_state s1 (Z.lor err failbit))
  | Some base =>
      ' r <- sdrive (S (length (idata (isbuf s1)))) tr t base GStart err 0 (isbuf s1) ;;
      let '(b, err', v) := r in
      Ok (Some v, add_state (Istr (ist s1) b) err')                            (* :145 *)
  end.

(* ---- bool ---- *)

(* numpunct.h:66-67, with the terminator the string buffers end in *)
Definition name_true : list Z := [116; 114; 117; 101; 0].
Definition name_false : list Z := [102; 97; 108; 115; 101; 0].
Definition name (j : bool) : list Z := if j then name_false else name_true.
Definition name_size (j : bool) : nat := length (name j) - 1.

(* chooser.h:12-13: index of the chosen name (false: the first, true: the second), and i
   (unsigned short; it does not get beyond 5) *)
Record chooser := Chooser { chosen : option bool; ci : nat }.

(* chooser.h:42-83 process *)
Definition process (ch : chooser) (c : Z) : result (bool * chooser) :=
  let i := ci ch in
  let next c := Ok (false, Chooser c (S i)) in                                 (* :81-82 *)
  match chosen ch with
  | None =>
      a <- rd (name false) i ;;                                                (* :51, j = 0 *)
      if a =? c then next (Some false)
      else b <- rd (name true) i ;;                                            (* j = 1 *)
           if b =? c then next (Some true) else next None
  | Some j =>
      a <- rd (name j) i ;;
      if negb (a =? c) then Ok (true, Chooser None i)                          (* :63-67 *)
      else if Nat.eqb i (name_size j - 1) then Ok (true, ch)                   (* :77-78 *)
      else next (Some j)
  end.

(* iterated/num_get.h:360-385 with num_get.h:143: while(!n.get(in, end, err, v));  [at_end]:
   the iterator has become the end iterator.  Answers the new v (None: not assigned) *)
Fixpoint bool_alpha (fuel : nat) (tr : traits) (ch : chooser) (at_end : bool) (err : Z) (b : isb)
  : result (isb * Z * option bool) :=
  match fuel with
  | O => Diverge
  | S f =>
      if at_end then Ok (b, Z.lor err eofbit, None)                            (* :383-384 *)
      else
        c <- sgetc tr b ;;                                                     (* :381  *i++ *)
        ' p <- isbi_next tr b ;;
        let (b', at_end') := p in
        ' q <- process ch (to_char_type c) ;;
        let (done, ch') := q in
        if done : bool then
          match chosen ch' with
          | Some j => Ok (b', err, Some (negb j))                              (* :367 *)
          | None => Ok (b', Z.lor err failbit, Some false)                     (* :371-372 *)
          end
        else bool_alpha f tr ch' at_end' err b'
  end.

(* iterated/num_get.h:301-334: numeric bool *)
Definition bool_digit (tr : traits) (err : Z) (b : isb) : result (isb * Z * option bool) :=
  c <- sgetc tr b ;;
  ' p <- isbi_next tr b ;;
  let b' := fst p in
  let c := to_char_type c in
  if c =? 48 then Ok (b', err, Some false)                                     (* :305-307 *)
  else if c =? 49 then Ok (b', err, Some true)                                 (* :317-319 *)
  else Ok (b', Z.lor err failbit, Some true).                                  (* :312 *)

(* num_get.h:241-250 and operator>> *)
Definition extract_bool (tr : traits) (s : istr) : result (option bool * istr) :=
  s1 <- ws tr s ;;
  let err := rdstate (ist s1) in
  ' r <- (if nonzero (Z.land (flags (ist s1)) f_boolalpha)
          then bool_alpha 16 tr (Chooser None 0) false err (isbuf s1)
          else bool_digit tr err (isbuf s1)) ;;
  let '(b, err', v) := r in
  Ok (v, add_state (Istr (ist s1) b) err').

(* ---- characters: istream.h:152-167.  not_eof of std::char_traits answers 0 for eof and its
   argument otherwise (libstdc++); the library's own compares with -1 *)
Definition not_eof (tr : traits) (c : Z) : bool :=
  match tr with
  | StdTraits => nonzero (if c =? eof then 0 else c)
  | EstdTraits => negb (c =? -1)
  end.
Definition extract_char (tr : traits) (s : istr) : result (option Z * istr) :=
  s1 <- ws tr s ;;
  ' p <- get tr s1 ;;
  let (c, s2) := p in
  Ok (if not_eof tr c then Some (to_char_type c) else None, s2).
