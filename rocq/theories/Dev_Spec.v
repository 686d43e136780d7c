(* What a user expects of streams over a device: characters come out in the
   order they arrived, once each; what is written goes out in order.
   Bytes are numbers from 0 to 255, a character is the value of a char, which
   is signed or not depending on the platform. *)
From Verif Require Import Base.
Local Open Scope Z_scope.

Definition is_byte (b : Z) : Prop := 0 <= b < 256.

(* the char with the bits of byte b *)
Definition char_of (sgn : bool) (b : Z) : Z := if sgn then (if b <? 128 then b else b - 256) else b.

(* Operations on an input stream.  [bs] is what the device receives in the
   meantime: DArrive between two operations, in DSgetn and DRead while the
   operation waits (until its count is reached or the device's time-out), in
   DPeek at each poll. *)
Inductive dop : Type :=
| DArrive (bs : list Z)
| DSgetc | DSbumpc | DSnextc | DAvail
| DSgetn (n : nat) (bs : list Z)
| DGet | DPeek (polls : list (list Z)) | DRead (n : nat) (bs : list Z)
| DClear.

(* What is seen: a character or that there is none, a number, some
   characters; for operations of the stream also eofbit and failbit. *)
Inductive dobs : Type :=
| SeeChar (c : option Z)
| SeeCount (n : nat)
| SeeText (cs : list Z)
| SeeState (eof fail : bool).

Record ideal_in : Type := II { ii_queue : list Z; ii_eof : bool; ii_fail : bool }.

Definition front (sgn : bool) (q : list Z) : option Z :=
  match q with [] => None | b :: _ => Some (char_of sgn b) end.

Definition ideal_in_step (sgn : bool) (s : ideal_in) (o : dop) : option (list dobs * ideal_in) :=
  let q := ii_queue s in
  match o with
  | DArrive bs => Some ([], II (q ++ bs) (ii_eof s) (ii_fail s))
  | DSgetc => Some ([SeeChar (front sgn q)], s)
  | DSbumpc => Some ([SeeChar (front sgn q)], II (tl q) (ii_eof s) (ii_fail s))
  | DSnextc => Some ([SeeChar (front sgn (tl q))], II (tl q) (ii_eof s) (ii_fail s))
  | DAvail => Some ([SeeCount (length q)], s)
  | DSgetn n bs =>
      Some ([SeeText (map (char_of sgn) (firstn n (q ++ bs)))], II (skipn n (q ++ bs)) (ii_eof s) (ii_fail s))
  | DGet =>
      let none := match q with [] => true | _ => false end in
      let e := orb (ii_eof s) none in let f := orb (ii_fail s) none in
      Some ([SeeChar (front sgn q); SeeState e f], II (tl q) e f)
  | DPeek polls =>
      if orb (ii_eof s) (ii_fail s) then Some ([SeeChar None; SeeState (ii_eof s) (ii_fail s)], s)
      else match q with
           | _ :: _ => Some ([SeeChar (front sgn q); SeeState false false], s)
           | [] => match find (fun bs => match bs with [] => false | _ => true end) polls with
                   | Some bs => Some ([SeeChar (front sgn bs); SeeState false false], II bs false false)
                   | None => None          (* still waiting *)
                   end
           end
  | DRead n bs =>
      let got := firstn n (q ++ bs) in
      let e := orb (ii_eof s) (negb (Nat.eqb (length got) n)) in
      Some ([SeeText (map (char_of sgn) got); SeeState e (ii_fail s)], II (skipn n (q ++ bs)) e (ii_fail s))
  | DClear => Some ([], II q false false)
  end.

Fixpoint ideal_in_run (sgn : bool) (s : ideal_in) (ops : list dop) : option (list dobs * ideal_in) :=
  match ops with
  | [] => Some ([], s)
  | o :: r => match ideal_in_step sgn s o with
              | Some (k, s1) => match ideal_in_run sgn s1 r with Some (k2, s2) => Some (k ++ k2, s2) | None => None end
              | None => None
              end
  end.

(* the bytes an operation brings *)
Definition brings (o : dop) : list Z :=
  match o with
  | DArrive bs | DSgetn _ bs | DRead _ bs => bs
  | DPeek polls => concat polls
  | _ => []
  end.

(* Output: characters handed over, of which the device takes the first
   [taken]; a single character is taken or not. *)
Inductive wop : Type :=
| WSputn (cs : list Z) (taken : nat)
| WSputc (c : Z) (taken : bool)
| WWrite (cs : list Z) (taken : nat)
| WPut (c : Z) (taken : bool)
| WClear.

Record ideal_out : Type := IO { io_sent : list Z; io_eof : bool; io_fail : bool }.

Inductive wobs : Type := WeCount (n : nat) | WeDone (b : bool) | WeState (eof fail : bool).

Definition ideal_out_step (s : ideal_out) (o : wop) : list wobs * ideal_out :=
  match o with
  | WSputn cs k => ([WeCount (length (firstn k cs))], IO (io_sent s ++ firstn k cs) (io_eof s) (io_fail s))
  | WSputc c t => ([WeDone t], IO (io_sent s ++ if t then [c] else []) (io_eof s) (io_fail s))
  | WWrite cs k =>
      let f := orb (io_fail s) (Nat.ltb k (length cs)) in
      ([WeState (io_eof s) f], IO (io_sent s ++ firstn k cs) (io_eof s) f)
  | WPut c t =>
      let e := orb (io_eof s) (negb t) in
      ([WeState e (io_fail s)], IO (io_sent s ++ if t then [c] else []) e (io_fail s))
  | WClear => ([], IO (io_sent s) false false)
  end.

Fixpoint ideal_out_run (s : ideal_out) (ops : list wop) : list wobs * ideal_out :=
  match ops with
  | [] => ([], s)
  | o :: r => let '(k, s1) := ideal_out_step s o in let '(k2, s2) := ideal_out_run s1 r in (k ++ k2, s2)
  end.

Definition chars_of (o : wop) : list Z :=
  match o with WSputn cs _ | WWrite cs _ => cs | WSputc c _ | WPut c _ => [c] | WClear => [] end.

(* What the input operations return to the caller, characters and "none"
   sharing the type of an int: none is -1, and no character may be. *)
Inductive mobs : Type := MChar (c : Z) | MCount (n : nat) | MText (cs : list Z) | MState (e f : bool).

Definition shows (d : dobs) (m : mobs) : Prop :=
  match d, m with
  | SeeChar None, MChar c => c = -1
  | SeeChar (Some x), MChar c => c = x /\ c <> -1
  | SeeCount n, MCount k => k = n
  | SeeText cs, MText ds => ds = cs
  | SeeState e f, MState e' f' => e' = e /\ f' = f
  | _, _ => False
  end.

(* A write offered to a device in rounds: in each the device takes a number of
   the n characters offered, and the time may then be up.  The number of
   characters taken in some rounds. *)
Fixpoint total (n : nat) (rounds : list (nat * bool)) : nat :=
  match rounds with [] => 0 | (t, _) :: r => (Nat.min t n + total n r)%nat end.
