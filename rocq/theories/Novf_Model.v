(* Model of reading integers on tool chains without the overflow builtins
   (/repo/src/estd/internal/raise_and_add.h:44-63, FEATURE_TOOLCHAIN_OVERFLOW_BUILTIN = 0):
   from_chars (internal/charconv/from_chars.hpp) and the iterated num_get with its drivers
   (internal/locale/iterated/num_get.h, internal/locale/num_get.h, istream.h).  Apart from
   multiplying and adding, these are as in Charconv_Model.v and Numio_Model.v.  int has 32 bits. *)
From Coq Require Import List ZArith Bool.
From Verif Require Import Base MachInt Ios_Model Streambuf_Model Istream_Model Charconv_Model Numio_Model.
Import ListNotations.
Local Open Scope Z_scope.
Local Open Scope res_scope.

(* A compound assignment to an object of type t whose exact result is z.  Types narrower than
   int are promoted, and the result is converted back; otherwise the arithmetic is that of t:
   unsigned types wrap, overflow of signed types is UB. *)
Definition assign_calc (t : ity) (z : Z) : result Z :=
  if bits t <? 32 then
    if fits (Ity 32 true) z then Ok (wrap t z) else UB
  else if sgn t then
    if fits t z then Ok z else UB
  else Ok (wrap t z).

(* raise_and_add.h:47-53; the digit is passed as an unsigned char *)
Definition nraise (t : ity) (val base d : Z) : result Z :=
  val1 <- assign_calc t (val * base) ;;                                        (* :50 *)
  assign_calc t (val1 + wrapu 8 d).                                            (* :51 *)
(* raise_and_add.h:56-62 *)
Definition nlower (t : ity) (val base d : Z) : result Z :=
  val1 <- assign_calc t (val * base) ;;                                        (* :59 *)
  assign_calc t (val1 - wrapu 8 d).                                            (* :60 *)

(* from_chars.hpp:50-97; the branch for overflow (:59-70) is never taken, as raise_and_add
   answers true.  :95 local_value = -local_value *)
Fixpoint nfc_loop (t : ity) (base : Z) (negate : bool) (rest : list Z) (cur : nat) (local : Z)
  : result fc_result :=
  match rest with
  | [] =>
      v <- (if sgn t && negate then assign_calc t (- local) else Ok local) ;;  (* :94-95 *)
      Ok (FcR cur NoErr (Some v))                                              (* :97-101 *)
  | c :: rest' =>
      match from_char base c with                                              (* :53 *)
      | Some d =>
          local' <- nraise t local base d ;;                                   (* :56 *)
          nfc_loop t base negate rest' (S cur) local'
      | None =>
          if Nat.eqb cur 0 then Ok (FcR cur InvalidArgument None)              (* :72-80 *)
          else Ok (FcR cur NoErr (Some local))                                 (* :83-88 *)
      end
  end.

(* from_chars.hpp:11-103 *)
Definition nfrom_chars (t : ity) (base : Z) (text : list Z) : result fc_result :=
  if sgn t then
    c <- rd text 0 ;;                                                          (* :45 *)
    if c =? 45 then nfc_loop t base true (tl text) 1 0                         (* :47 *)
    else nfc_loop t base false text 0 0
  else nfc_loop t base false text 0 0.

(* iterated/num_get.h:121-158 nominal<positive> with :67-87: never Overflow *)
Definition nnominal (t : ity) (base : Z) (positive : bool) (st : gstate) (err v c : Z) : result gres :=
  match from_char base c with                                                  (* :124 *)
  | Some n =>
      v' <- (if positive then nraise t v base n else nlower t v base n) ;;     (* :128, 84-86 *)
      Ok (GR false st err v')
  | None => Ok (GR true st err v)                                              (* :157 *)
  end.

(* iterated/num_get.h:202-260 get<false>(c, err, v) *)
Definition nget1 (t : ity) (base : Z) (st : gstate) (err v c : Z) : result gres :=
  match st with
  | GStart =>
      if sgn t && (c =? 45) then Ok (GR false GNeg err v)                      (* :214-218 *)
      else
        r <- nnominal t base true GPos err v c ;;                              (* :220, 227 *)
        Ok (if gdone r then GR true (gst r) (Z.lor (gerr r) failbit) (gval r)  (* :230-231 *)
            else r)
  | GPos => nnominal t base true GPos err v c                                  (* :247 *)
  | GNeg => nnominal t base false GNeg err v c                                 (* :250 *)
  | GOverflow =>
      Ok (GR (match from_char base c with Some _ => true | None => false end) GOverflow err v)  (* :254 *)
  end.

(* locale/num_get.h:40-75 over a range of characters *)
Fixpoint ndrive (t : ity) (base : Z) (st : gstate) (err v : Z) (text : list Z) (n : nat) : result (nat * Z * Z) :=
  match text with
  | [] => Ok (n, Z.lor err eofbit, v)                                          (* :72-74 *)
  | c :: rest =>
      r <- nget1 t base st err v c ;;                                          (* :62 *)
      if gdone r then Ok (n, gerr r, gval r)                                   (* :68 *)
      else ndrive t base (gst r) (gerr r) (gval r) rest (S n)
  end.

(* the same over istreambuf_iterators *)
Fixpoint nsdrive (fuel : nat) (tr : traits) (t : ity) (base : Z) (st : gstate) (err v : Z) (b : isb)
  : result (isb * Z * Z) :=
  match fuel with
  | O => Diverge
  | S f =>
      c <- sgetc tr b ;;                                                       (* :54 *)
      r <- nget1 t base st err v (to_char_type c) ;;                           (* :62 *)
      if gdone r then Ok (b, gerr r, gval r)
      else
        ' p <- isbi_next tr b ;;                                               (* :52 ++i *)
        let (b', at_end) := p in
        if at_end : bool then Ok (b', Z.lor (gerr r) eofbit, gval r)           (* :72 *)
        else nsdrive f tr t base (gst r) (gerr r) (gval r) b'
  end.

(* num_get.h:168-222 and istream.h:113-148 operator>> *)
Definition nextract_int (tr : traits) (t : ity) (s : istr) : result (option Z * istr) :=
  s1 <- ws tr s ;;                                                             (* :133 *)
  let err := rdstate (ist s1) in                                               (* :136 *)
  match stream_base (Z.land (flags (ist s1)) f_basefield) with
  | None => Ok (None, add_state s1 (Z.lor err failbit))
  | Some base =>
      ' r <- nsdrive (S (length (idata (isbuf s1)))) tr t base GStart err 0 (isbuf s1) ;;
      let '(b, err', v) := r in
      Ok (Some v, add_state (Istr (ist s1) b) err')                            (* :145 *)
  end.
