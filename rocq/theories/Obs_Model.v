(* Model of src/estd/exp/observer.h.  Objects outside the subjects live at
   addresses and all have states of one type S, values of one type V and
   contexts of one type C: the code lets each differ.  A call is recorded with
   its recipient, the notification and whether a context was passed.  Handlers
   that notify again or that throw are not modelled, nor is moving observers
   into a subject (lines 279-287), whose observers are written with the state
   they have once stored.  container_subject (186-209) has no way to be given
   an observer and void_subject (515-522) does nothing: not modelled. *)

From Coq Require Import List Arith Bool.
From Verif Require Import Obs_Spec.
Import ListNotations.

Section Obs.
Context {S V C : Type}.
Variable xcls : nat -> ocls S V C.

Definition world := nat -> S.
Definition setw (w : world) (a : nat) (s : S) : world := fun b => if Nat.eqb b a then s else w b.
Definition call := (whom * (nat * V) * bool)%type.
Definition mem (t : nat) (l : list nat) : bool := existsb (Nat.eqb t) l.

(* exp/observer.h:21-25 and 36-42: notify_helper(observer, n, true); the
   overload that calls on_notify(n) is the better match when it is viable,
   the fallback returns without calling anything. *)
Definition notify_helper1 (who : whom) (c : ocls S V C) (s : S) (n : nat * V) : list call * S :=
  match plain c (fst n) with
  | Some f => ([(who, n, false)], f (snd n) s)
  | None => ([], s)
  end.

(* exp/observer.h:29-33 and 45-61: notify_helper(observer, n, context, true).
   When both overloads are viable neither is more specialised and the call is
   ambiguous: None is a program that does not compile. *)
Definition notify_helper2 (who : whom) (c : ocls S V C) (s : S) (n : nat * V) (x : C) : option (list call * S * C) :=
  match plain c (fst n), withctx c (fst n) with
  | Some f, None => Some ([(who, n, false)], f (snd n) s, x)
  | None, Some g => let '(s', x') := g (snd n) x s in Some ([(who, n, true)], s', x')
  | None, None => Some ([], s, x)
  | Some _, Some _ => None
  end.

(* exp/observer.h:249-255 and 288-298: layer0::subject::notify(n), the first
   observer and then the base class with the rest; 227-228 for the empty
   subject.  Proxies: 441-487, on_notify(n) for their one or two notification
   types forwards to the stored subject, any other type hits the fallback.
   Notifications that convert implicitly to a handled type count as that
   type. *)
Fixpoint notify1_slot (n : nat * V) (w : world) (o : slot S V C) : list call * world * slot S V C :=
  match o with
  | Ref a => let '(k, s) := notify_helper1 (Outside a) (xcls a) (w a) n in (k, setw w a s, o)
  | Own id c s => let '(k, s') := notify_helper1 (Inside id) c s n in (k, w, Own id c s')
  | Proxy types sub =>
      if mem (fst n) types then
        let '(k, w', sub') :=
          (fix go (w : world) (l : list (slot S V C)) : list call * world * list (slot S V C) :=
             match l with
             | [] => ([], w, [])
             | x :: r => let '(k1, w1, x') := notify1_slot n w x in
                         let '(k2, w2, r') := go w1 r in (k1 ++ k2, w2, x' :: r')
             end) w sub in
        (k, w', Proxy types sub')
      else ([], w, o)
  end.

Fixpoint notify1 (n : nat * V) (w : world) (l : list (slot S V C)) : list call * world * list (slot S V C) :=
  match l with
  | [] => ([], w, [])
  | x :: r => let '(k1, w1, x') := notify1_slot n w x in
              let '(k2, w2, r') := notify1 n w1 r in (k1 ++ k2, w2, x' :: r')
  end.

(* exp/observer.h:258-264 and 300-306: layer0::subject::notify(n, context);
   230-231 for the empty one.  A proxy has no on_notify taking a context, so
   the helper calls its on_notify(n) (45-52). *)
Fixpoint notify2 (n : nat * V) (x : C) (w : world) (l : list (slot S V C))
  : option (list call * world * list (slot S V C) * C) :=
  match l with
  | [] => Some ([], w, [], x)
  | o :: r =>
      let first :=
        match o with
        | Ref a => match notify_helper2 (Outside a) (xcls a) (w a) n x with
                   | Some (k, s, x') => Some (k, setw w a s, o, x') | None => None end
        | Own id c s => match notify_helper2 (Inside id) c s n x with
                        | Some (k, s', x') => Some (k, w, Own id c s', x') | None => None end
        | Proxy _ _ => let '(k, w', o') := notify1_slot n w o in Some (k, w', o', x)
        end in
      match first with
      | Some (k1, w1, o', x1) =>
          match notify2 n x1 w1 r with
          | Some (k2, w2, r', x2) => Some (k1 ++ k2, w2, o' :: r', x2)
          | None => None
          end
      | None => None
      end
  end.

(* exp/observer.h:142-177: stateless_subject; classes whose on_notify is
   static, so that their state is at a fixed address, one for each class. *)
Fixpoint stateless_notify1 (n : nat * V) (w : world) (l : list nat) : list call * world :=
  match l with
  | [] => ([], w)
  | a :: r => let '(k1, s) := notify_helper1 (Outside a) (xcls a) (w a) n in
              let '(k2, w2) := stateless_notify1 n (setw w a s) r in (k1 ++ k2, w2)
  end.

(* A run of notifications without context on one subject. *)
Fixpoint notify_all (ns : list (nat * V)) (w : world) (l : list (slot S V C))
  : list call * world * list (slot S V C) :=
  match ns with
  | [] => ([], w, l)
  | n :: r => let '(k1, w1, l1) := notify1 n w l in
              let '(k2, w2, l2) := notify_all r w1 l1 in (k1 ++ k2, w2, l2)
  end.

(* Subjects as values: the implicit copy constructors copy stored observers
   and keep references (241, 277); a proxy made from a subject holds a
   copy of it (431-436). *)
Definition upd_nth {X} (i : nat) (x : X) (l : list X) : list X :=
  firstn i l ++ match skipn i l with [] => [] | _ :: r => x :: r end.
Definition sstep (st : world * list (list (slot S V C))) (op : sop V) : world * list (list (slot S V C)) :=
  let '(w, subs) := st in
  match op with
  | SNotify i n => match nth_error subs i with
                   | Some l => let '(_, w', l') := notify1 n w l in (w', upd_nth i l' subs)
                   | None => (w, subs) end
  | SCopy i => match nth_error subs i with Some l => (w, subs ++ [l]) | None => (w, subs) end
  | SProxy types i => match nth_error subs i with Some l => (w, subs ++ [[Proxy types l]]) | None => (w, subs) end
  end.
Definition srun (st : world * list (list (slot S V C))) (ops : list (sop V)) := fold_left sstep ops st.

End Obs.
