(* Specification of observers: what it means for an observer to have heard
   a sequence of notifications, written without reference to subjects.
   A notification is a type (numbered) and a value; an observer class says,
   for each notification type, whether it has an on_notify taking the
   notification alone and whether it has one that also takes a context. *)

From Coq Require Import List Arith Bool.
Import ListNotations.

Record ocls (S V C : Type) : Type := mk_ocls
  { plain : nat -> option (V -> S -> S);
    withctx : nat -> option (V -> C -> S -> S * C) }.

Arguments plain {S V C}.
Arguments withctx {S V C}.
Arguments mk_ocls {S V C}.

(* One notification reaches one observer: its state afterwards. *)
Definition hear1 {S V C} (c : ocls S V C) (s : S) (n : nat * V) : S :=
  match plain c (fst n) with Some f => f (snd n) s | None => s end.

(* A sequence of notifications reaches one observer. *)
Definition hear {S V C} (c : ocls S V C) (s : S) (ns : list (nat * V)) : S :=
  fold_left (hear1 c) ns s.

(* The same notification reaches one observer [k] times. *)
Fixpoint hear_times {S V C} (k : nat) (c : ocls S V C) (s : S) (n : nat * V) : S :=
  match k with
  | 0 => s
  | Datatypes.S k' => hear_times k' c (hear1 c s n) n
  end.

(* Whom a notification is addressed to: an object outside the subject, by
   address, or one stored inside it, by the label it was given. *)
Inductive whom : Type := Outside (a : nat) | Inside (id : nat).

(* A recipient of a subject: whom, of which class, and the notification
   types let through by each of the proxies on the way to it. *)
Record recipient (S V C : Type) : Type := mk_rcp
  { r_gates : list (list nat);
    r_whom : whom;
    r_cls : ocls S V C }.

Arguments mk_rcp {S V C}.
Arguments r_gates {S V C}.
Arguments r_whom {S V C}.
Arguments r_cls {S V C}.

(* Every proxy on the way lets type [t] through. *)
Definition passes {S V C} (t : nat) (r : recipient S V C) : Prop :=
  Forall (fun g => In t g) (r_gates r).

(* A recipient hears a notification of type [t] sent without a context. *)
Definition hears {S V C} (t : nat) (r : recipient S V C) : Prop :=
  passes t r /\ plain (r_cls r) t <> None.

(* A recipient hears a notification of type [t] sent with a context: with the
   context when no proxy is in between and it has a handler for that, and
   without it when it has a handler for the notification alone. *)
Definition given_context {S V C} (t : nat) (r : recipient S V C) : bool :=
  match r_gates r, withctx (r_cls r) t with [], Some _ => true | _, _ => false end.
Definition hears_either {S V C} (t : nat) (r : recipient S V C) : Prop :=
  hears t r \/ given_context t r = true.

(* The sub-list of those satisfying a proposition, in order. *)
Inductive sublist_of {A} (P : A -> Prop) : list A -> list A -> Prop :=
| sub_nil : sublist_of P [] []
| sub_take : forall x l m, P x -> sublist_of P l m -> sublist_of P (x :: l) (x :: m)
| sub_drop : forall x l m, ~ P x -> sublist_of P l m -> sublist_of P (x :: l) m.

(* How a user puts a subject together: a list of observers, each one a
   reference to an object outside, an object stored in the subject (with a
   label to tell it apart), or a proxy for the given notification types that
   stores a subject of its own. *)
Inductive slot (S V C : Type) : Type :=
| Ref (a : nat)
| Own (id : nat) (c : ocls S V C) (s : S)
| Proxy (types : list nat) (sub : list (slot S V C)).

Arguments Ref {S V C}.
Arguments Own {S V C}.
Arguments Proxy {S V C}.

(* The recipients of a subject from left to right, looking into proxies, each
   with the state the subject stores for it, if it stores one.  [xcls] is the
   class of each object outside. *)
Fixpoint holding {S V C} (xcls : nat -> ocls S V C) (gates : list (list nat)) (o : slot S V C)
  : list (recipient S V C * option S) :=
  match o with
  | Ref a => [(mk_rcp gates (Outside a) (xcls a), None)]
  | Own id c s => [(mk_rcp gates (Inside id) c, Some s)]
  | Proxy types sub => flat_map (holding xcls (gates ++ [types])) sub
  end.

Definition holdings {S V C} (xcls : nat -> ocls S V C) (sub : list (slot S V C))
  : list (recipient S V C * option S) :=
  flat_map (holding xcls []) sub.

Definition recipients {S V C} (xcls : nat -> ocls S V C) (sub : list (slot S V C)) : list (recipient S V C) :=
  map fst (holdings xcls sub).

(* How often an object outside is among some recipients. *)
Fixpoint times {S V C} (a : nat) (l : list (recipient S V C)) : nat :=
  match l with
  | [] => 0
  | r :: l' => (match r_whom r with Outside b => if Nat.eqb a b then 1 else 0 | Inside _ => 0 end) + times a l'
  end.

(* A notification with a context reaches one observer that is not behind a
   proxy: its state and the context afterwards, when the class has at most
   one of the two handlers for that type. *)
Definition hear_ctx {S V C} (c : ocls S V C) (n : nat * V) (x : C) (s : S) : S * C :=
  match withctx c (fst n) with
  | Some g => g (snd n) x s
  | None => (hear1 c s n, x)
  end.

(* Users' operations on a collection of subjects over the same objects. *)
Inductive sop (V : Type) : Type :=
| SNotify (i : nat) (n : nat * V)           (* subject i: notify *)
| SCopy (i : nat)                           (* a new subject, copied from i *)
| SProxy (types : list nat) (i : nat).      (* a new subject holding one proxy made from subject i *)

Arguments SNotify {V}.
Arguments SCopy {V}.
Arguments SProxy {V}.

(* The notifications sent to subject i, in order. *)
Fixpoint sent_to {V} (i : nat) (ops : list (sop V)) : list (nat * V) :=
  match ops with
  | [] => []
  | SNotify j n :: r => if Nat.eqb i j then n :: sent_to i r else sent_to i r
  | _ :: r => sent_to i r
  end.

(* A notification with a context passes along the recipients from left to
   right; the context each one leaves is the context the next one is given.
   A recipient behind a proxy is not given the context. *)
Fixpoint relay {S V C} (n : nat * V) (x : C) (w : nat -> S) (hs : list (recipient S V C * option S))
  : (nat -> S) * list (recipient S V C * option S) * C :=
  match hs with
  | [] => (w, [], x)
  | (r, st) :: hs' =>
      let direct := match r_gates r with [] => true | _ => false end in
      let before := match st, r_whom r with Some s, _ => Some s | None, Outside a => Some (w a) | None, Inside _ => None end in
      match before with
      | None => let '(w2, hs2, x2) := relay n x w hs' in (w2, (r, st) :: hs2, x2)
      | Some s =>
          let '(s1, x1) :=
            if direct then hear_ctx (r_cls r) n x s
            else if forallb (existsb (Nat.eqb (fst n))) (r_gates r) then (hear1 (r_cls r) s n, x) else (s, x) in
          let '(w1, st1) :=
            match st, r_whom r with
            | None, Outside a => ((fun b => if Nat.eqb b a then s1 else w b), None)
            | _, _ => (w, Some s1)
            end in
          let '(w2, hs2, x2) := relay n x1 w1 hs' in (w2, (r, st1) :: hs2, x2)
      end
  end.
