(* Model of the bip buffer.
     /repo/src/estd/ext/willemt/bipbuffer/bipbuffer.c, bipbuffer.h
     /repo/src/estd/internal/bip/buffer.h  (offer_begin / offer_end, layer1::bipbuf)
   Bytes are an abstract type B.  int/unsigned are 32 bits, unsigned long 64 bits
   (on a 32-bit [long] the computed values are the same for capacities < 2^31). *)
From Verif Require Import Base MachInt.
Local Open Scope Z_scope.
Local Open Scope res_scope.

Section Bip.
Context {B : Type}.

(* bipbuffer.h:4-18.  b_inuse is only ever 0 or 1. [mem] is the flexible array
   [data], of exactly the allocated size (bipbuf_sizeof, layer1 backing_buffer_). *)
Record bip := mkBip {
  bsize : Z;
  a_start : Z; a_end : Z;
  b_end : Z;
  b_inuse : bool;
  mem : list B }.

(* bipbuffer.c:42-47  bipbuf_init on a buffer whose data holds [m] *)
Definition bip_init (size : Z) (m : list B) : bip := mkBip size 0 0 0 false m.

(* bipbuffer.c:23-30; returned as int *)
Definition bip_unused (me : bip) : Z :=
  if b_inuse me then s32 (u32 (a_start me - b_end me))
  else s32 (u64 (bsize me - a_end me)).

(* bipbuffer.c:37-40; unsigned arithmetic, returned as int *)
Definition bip_used (me : bip) : Z := s32 (u32 (u32 (a_end me - a_start me) + b_end me)).

(* bipbuffer.c:63-66 *)
Definition bip_is_empty (me : bip) : bool := a_start me =? a_end me.

(* bipbuffer.c:70-74 and bip/buffer.h:40-44 *)
Definition check_switch (me : bip) : bip :=
  if u64 (bsize me - a_end me) <? u32 (a_start me - b_end me)
  then mkBip (bsize me) (a_start me) (a_end me) (b_end me) true (mem me)
  else me.

(* memcpy(data + off, d, length d): UB if it leaves the array *)
Definition mem_write (m : list B) (off : Z) (d : list B) : result (list B) :=
  if (0 <=? off) && (off + Z.of_nat (length d) <=? Z.of_nat (length m))
  then Ok (firstn (Z.to_nat off) m ++ d ++ skipn (Z.to_nat off + length d) m)
  else UB.

(* bip/buffer.h:47-50  offer_begin: offset at which the next bytes go *)
Definition bip_offer_begin (me : bip) : Z := if b_inuse me then b_end me else a_end me.

(* bipbuffer.c:85,90 then :93; bip/buffer.h:53-65  offer_end *)
Definition bip_offer_end (me : bip) (size : Z) : bip :=
  check_switch
    (if b_inuse me
     then mkBip (bsize me) (a_start me) (a_end me) (u32 (b_end me + size)) true (mem me)
     else mkBip (bsize me) (a_start me) (u32 (a_end me + size)) (b_end me) false (mem me)).

(* bipbuffer.c:76-95  offer(data, size); data points to the bytes [d].
   A negative size reaches memcpy as a huge size_t: UB.  Reading past d: UB. *)
Definition bip_offer (me : bip) (d : list B) (size : Z) : result (bip * Z) :=
  if bip_unused me <? size then Ok (me, 0)                               (* :79-80 *)
  else if (size <? 0) || (Z.of_nat (length d) <? size) then UB
  else
    m <- mem_write (mem me) (bip_offer_begin me) (firstn (Z.to_nat size) d) ;;
    Ok (bip_offer_end (mkBip (bsize me) (a_start me) (a_end me) (b_end me) (b_inuse me) m) size,
        size).

(* bipbuffer.c:97-107; NULL is None, otherwise the offset of the returned pointer *)
Definition bip_peek (me : bip) (size : Z) : option Z :=
  if bsize me <? u32 (a_start me + u32 size) then None
  else if bip_is_empty me then None
  else Some (a_start me).

(* bipbuffer.c:109-138 *)
Definition bip_poll (me : bip) (size : Z) : bip * option Z :=
  if bip_is_empty me then (me, None)
  else if bsize me <? u32 (a_start me + u32 size) then (me, None)
  else
    let off := a_start me in
    let a_start' := u32 (a_start me + u32 size) in
    let me1 :=
      if a_start' =? a_end me                                             (* :122 *)
      then if b_inuse me
           then mkBip (bsize me) 0 (b_end me) 0 false (mem me)            (* :127-129 *)
           else mkBip (bsize me) 0 0 (b_end me) false (mem me)            (* :133 *)
      else mkBip (bsize me) a_start' (a_end me) (b_end me) (b_inuse me) (mem me) in
    (check_switch me1, Some off).

(* The client reads [n] bytes through a pointer returned by peek/poll. *)
Definition bip_read (me : bip) (off n : Z) : result (list B) :=
  if (0 <=? off) && (0 <=? n) && (off + n <=? Z.of_nat (length (mem me)))
  then Ok (firstn (Z.to_nat n) (skipn (Z.to_nat off) (mem me)))
  else UB.

(* Histories.  A client call, and what the client observes of it:
   Offer d        -> the returned count;
   Direct d       -> write d at offer_begin(), then offer_end(length d)
                     (the client must itself check length d <= unused());
   Poll n         -> NULL, or the n bytes read right after the call. *)
Inductive bip_op := Offer (d : list B) | Direct (d : list B) | Poll (n : Z).
Inductive bip_obs := Took (n : Z) | Null | Bytes (d : list B).

Definition bip_step (me : bip) (o : bip_op) : result (bip * bip_obs) :=
  match o with
  | Offer d => r <- bip_offer me d (Z.of_nat (length d)) ;; Ok (fst r, Took (snd r))
  | Direct d =>
      m <- mem_write (mem me) (bip_offer_begin me) d ;;
      Ok (bip_offer_end (mkBip (bsize me) (a_start me) (a_end me) (b_end me) (b_inuse me) m)
            (Z.of_nat (length d)), Took (Z.of_nat (length d)))
  | Poll n =>
      let '(me', p) := bip_poll me n in
      match p with
      | None => Ok (me', Null)
      | Some off => d <- bip_read me' off n ;; Ok (me', Bytes d)
      end
  end.

End Bip.
Arguments bip B : clear implicits.
Arguments bip_op B : clear implicits.
Arguments bip_obs B : clear implicits.
