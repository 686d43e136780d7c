(* Model of the string stream buffers behind ostringstream, istringstream and stringstream:
   /repo/src/estd/internal/impl/streambuf/string.h over pos.h and base.h, under the wrapper
   /repo/src/estd/streambuf.h; sstream.h only names instances.  The string is a string of fixed
   capacity as in Dyn_Model (layer1, layer2, layer3).  The position is an unsigned short
   (pos.h:71).  Character traits as in Streambuf_Model. *)
From Verif Require Import Base MachInt Streambuf_Model Stream_Spec Dyn_Model Sstr_Spec.
Local Open Scope Z_scope.
Local Open Scope res_scope.

Record sbf := Sbf { str : arr Z; gpos : Z }.

Section Sstr.
Context (c : cfg Z) (tr : traits).

Definition size_t (z : Z) : Z := z mod Z.of_nat (smod c).
Definition count_t (z : Z) : nat := Z.to_nat (size_t z).

(* pos.h:82 the position starts at 0; the string is given *)
Definition s_init (v : arr Z) : sbf := Sbf v 0.
(* pos.h:85 *)
Definition s_gbump (b : sbf) (n : Z) : sbf := Sbf (str b) ((gpos b + n) mod 65536).

(* string.h:33-40 xsputn through streambuf.h:126-150 sputn: it answers count *)
Definition s_sputn (b : sbf) (s : list Z) : vres (Z * sbf) :=
  v <~ append c (str b) s (count_t (Z.of_nat (length s))) ;;
  vret (Z.of_nat (length s), Sbf v (gpos b)).
(* string.h:42-46; += is append of one character *)
Definition s_sputc (b : sbf) (ch : Z) : vres (Z * sbf) :=
  v <~ push_back c (str b) ch ;;
  vret (to_int tr ch, Sbf v (gpos b)).
(* string.h:65-68 *)
Definition s_clear (b : sbf) : vres sbf := v <~ clear c (str b) ;; vret (Sbf v (gpos b)).
(* string.h:50, 59-62: the text written so far *)
Definition s_str (b : sbf) : result (list Z) := iterate c (str b).

(* string.h:104-107 *)
Definition s_xin_avail (b : sbf) : result Z :=
  n <- size c (str b) ;; Ok (size_t (Z.of_nat n - gpos b)).
(* string.h:109 with base.h:102-109; streambuf.h:184-187 *)
Definition s_in_avail (b : sbf) : result Z :=
  a <- s_xin_avail b ;; let avail := int_type tr a in Ok (if 0 <? avail then avail else -1).
(* string.h:112-119 *)
Definition s_xsgetc (b : sbf) : result Z := rd (buf (str b)) (count_t (gpos b)).
(* streambuf.h:157-160; underflow is base.h:92 *)
Definition s_sgetc (b : sbf) : result Z :=
  a <- s_xin_avail b ;;
  if a =? 0 then Ok eof else ch <- s_xsgetc b ;; Ok (to_int tr ch).
(* helpers.h:32-45 *)
Definition s_sbumpc (b : sbf) : result (Z * sbf) :=
  ch <- s_sgetc b ;;
  if negb (ch =? eof) then Ok (ch, s_gbump b 1) else Ok (eof, b).
(* streambuf.h:167-172 *)
Definition s_snextc (b : sbf) : result (Z * sbf) :=
  ' (ch, b1) <- s_sbumpc b ;;
  if ch =? eof then Ok (eof, b1) else (ch1 <- s_sgetc b1 ;; Ok (ch1, b1)).
(* string.h:95-102 through streambuf.h:118-122: copy takes count and pos as size_type.  The
   destination has room for count characters; what is stored there is the result. *)
Definition s_sgetn (b : sbf) (count : Z) : result (list Z * sbf) :=
  ' (d, n) <- copy_to c (str b) (count_t count) (count_t (gpos b)) ;;
  Ok (d, s_gbump b (Z.of_nat n)).
(* string.h:151-160, pbackfail is base.h:82-85 *)
Definition s_sungetc (b : sbf) : result (Z * sbf) :=
  if gpos b =? 0 then Ok (eof, b)
  else let b1 := s_gbump b (-1) in ch <- s_xsgetc b1 ;; Ok (to_int tr ch, b1).

(* string.h:129-149 with pos.h:39-43; [win]: which contains ios_base::in.  Answer -1: failure. *)
Inductive seekdir := Beg | Cur | End.
Definition s_seekpos (b : sbf) (p : Z) : Z * sbf := (p mod 65536, Sbf (str b) (p mod 65536)).
Definition s_seekoff (b : sbf) (off : Z) (dir : seekdir) (win : bool) : result (Z * sbf) :=
  match dir with
  | Beg => Ok (if win then s_seekpos b off else (-1, b))
  | Cur => Ok (-1, if win then s_gbump b off else b)
  | End => if win then n <- size c (str b) ;; Ok (s_seekpos b (Z.of_nat n + off)) else Ok (-1, b)
  end.
(* string.h:54-58, the output-only buffer: no argument is looked at *)
Definition o_seekoff (b : sbf) (off : Z) (dir : seekdir) : result (Z * sbf) :=
  n <- size c (str b) ;; Ok (Z.of_nat n, b).

(* One operation of a history (Sstr_Spec) and its answer. *)
Definition s_step (o : sop) (b : sbf) : vres (list Z * sbf) :=
  match o with
  | SPut (PutC ch) => ' (r, b1) <~ s_sputc b ch ;; vret ([r], b1)
  | SPut (PutN s) => ' (r, b1) <~ s_sputn b s ;; vret ([r], b1)
  | SGet Getc => r <~ lift (s_sgetc b) ;; vret ([r], b)
  | SGet Bumpc => ' (r, b1) <~ lift (s_sbumpc b) ;; vret ([r], b1)
  | SGet Nextc => ' (r, b1) <~ lift (s_snextc b) ;; vret ([r], b1)
  | SGet Ungetc => ' (r, b1) <~ lift (s_sungetc b) ;; vret ([r], b1)
  | SGet (Getn n) => lift (s_sgetn b (Z.of_nat n))
  | SAvail => r <~ lift (s_in_avail b) ;; vret ([r], b)
  | SStr => l <~ lift (s_str b) ;; vret (l, b)
  end.
Fixpoint s_run (os : list sop) (b : sbf) : vres (list (list Z) * sbf) :=
  match os with
  | [] => vret ([], b)
  | o :: t => ' (a, b1) <~ s_step o b ;; ' (l, b2) <~ s_run t b1 ;; vret (a :: l, b2)
  end.

End Sstr.
