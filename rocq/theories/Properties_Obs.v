From Coq Require Import List Arith Bool Lia.
From Verif Require Import Obs_Spec Obs_Model Obs_Proofs.
Import ListNotations.

(* ---------- C338: who is notified, in which order, and what becomes of them ---------- *)

(* For every subject and every run of notifications: the calls made are, for
   each notification in turn, one to each recipient that hears its type, in
   the order the observers were declared, looking into proxies. *)
Theorem C338_calls : forall (S V C : Type) (xcls : nat -> ocls S V C) ns w l k w' l',
  notify_all xcls ns w l = (k, w', l') ->
  recipients xcls l' = recipients xcls l /\
  exists ms, Forall2 (fun n m => sublist_of (hears (fst n)) (recipients xcls l) m) ns ms /\
    k = flat_map (fun nm => map (fun r => (r_whom r, fst nm, false)) (snd nm)) (combine ns ms).
Proof. intros S V C xcls. apply calls_all. Qed.
Print Assumptions C338_calls.

(* An observer stored in the subject ends as if it had been handed exactly the
   notifications its proxies let through, in order, once each. *)
Theorem C338_stored : forall (S V C : Type) (xcls : nat -> ocls S V C) ns w l k w' l' i r s,
  notify_all xcls ns w l = (k, w', l') ->
  nth_error (holdings xcls l) i = Some (r, Some s) ->
  exists ns', sublist_of (fun n => passes (fst n) r) ns ns' /\
    nth_error (holdings xcls l') i = Some (r, Some (hear (r_cls r) s ns')).
Proof.
  intros S V C xcls ns w l k w' l' i r s E H. eexists. split; [apply gates_filter|].
  eapply stored_all; eassumption.
Qed.
Print Assumptions C338_stored.

(* An object outside hears each notification as many times as it is
   referred to, and one that is not referred to is left alone. *)
Theorem C338_outside : forall (S V C : Type) (xcls : nat -> ocls S V C) ns w l k w' l' a,
  notify_all xcls ns w l = (k, w', l') ->
  exists ks, Forall2 (fun n j => exists m, sublist_of (passes (fst n)) (recipients xcls l) m /\ j = times a m) ns ks /\
    w' a = fold_left (fun s nj => hear_times (snd nj) (xcls a) s (fst nj)) (combine ns ks) (w a).
Proof. intros S V C xcls. apply outside_all. Qed.
Print Assumptions C338_outside.

(* With a context: the context is handed from one observer to the next in
   order, and observers without a handler for it are treated as without one. *)
Theorem C338_context : forall (S V C : Type) (xcls : nat -> ocls S V C) n x w l k w' l' x',
  notify2 xcls n x w l = Some (k, w', l', x') ->
  let '(rw, rh, rx) := relay n x w (holdings xcls l) in
  (forall a, w' a = rw a) /\ holdings xcls l' = rh /\ x' = rx.
Proof.
  intros S V C xcls n x w l k w' l' x' E. destruct (context_ok xcls n l x w k w' l' x' E) as (A & B & D).
  destruct (relay n x w (holdings xcls l)) as ((rw & rh) & rx). cbn in A, B, D.
  split; [intro a; symmetry; apply A|split; congruence].
Qed.
Print Assumptions C338_context.

(* With a context: one call to each recipient that hears the type either way,
   in the order the observers were declared; the context goes along exactly to
   those that are not behind a proxy and have a handler for it. *)
Theorem C338_context_calls : forall (S V C : Type) (xcls : nat -> ocls S V C) n x w l k w' l' x',
  notify2 xcls n x w l = Some (k, w', l', x') ->
  exists m, sublist_of (hears_either (fst n)) (recipients xcls l) m /\
    k = map (fun r => (r_whom r, n, given_context (fst n) r)) m.
Proof. intros S V C xcls. apply context_calls. Qed.
Print Assumptions C338_context_calls.

(* It compiles exactly when no observer that would be given the context has
   both kinds of handler for that type. *)
Theorem C338_compiles : forall (S V C : Type) (xcls : nat -> ocls S V C) n x w l,
  notify2 xcls n x w l = None <->
  exists r, In r (recipients xcls l) /\ r_gates r = [] /\
    plain (r_cls r) (fst n) <> None /\ withctx (r_cls r) (fst n) <> None.
Proof. intros S V C xcls n x w l. apply compiles_ok. Qed.
Print Assumptions C338_compiles.

(* A subject of classes with static handlers does what a subject of
   references to those classes' states would do. *)
Theorem C338_stateless : forall (S V C : Type) (xcls : nat -> ocls S V C) n w l k w' l',
  notify1 xcls n w (map Ref l) = (k, w', l') -> stateless_notify1 xcls n w l = (k, w').
Proof.
  intros S V C xcls n w l k w' l' E. assert (A := stateless_ok xcls n l w). rewrite E in A. exact A.
Qed.
Print Assumptions C338_stateless.

(* Observers that remember, newest first, the values they were given: one
   that hears types 0 and 1, one that hears 1, one that hears 1 only with a
   context, which it increments. *)
Definition c_both : ocls (list nat) nat nat :=
  mk_ocls (fun t => if Nat.leb t 1 then Some (fun v s => v :: s) else None) (fun _ => None).
Definition c_one : ocls (list nat) nat nat :=
  mk_ocls (fun t => if Nat.eqb t 1 then Some (fun v s => v :: s) else None) (fun _ => None).
Definition c_ctx : ocls (list nat) nat nat :=
  mk_ocls (fun _ => None) (fun t => if Nat.eqb t 1 then Some (fun v x s => (v + x :: s, x + 1)) else None).
Definition x_cls (a : nat) : ocls (list nat) nat nat := match a with 0 => c_both | 1 => c_one | _ => c_ctx end.
Definition x_sub : list (slot (list nat) nat nat) :=
  [Own 7 c_one []; Ref 0; Proxy [0] [Ref 0; Own 8 c_both []; Ref 1]; Ref 1; Ref 2; Own 9 c_ctx []].

Example C338_case :
  (let '(k, w', l') := notify_all x_cls [(0, 10); (1, 11)] (fun _ => []) x_sub in
   k = [(Outside 0, (0, 10), false); (Outside 0, (0, 10), false); (Inside 8, (0, 10), false);
        (Inside 7, (1, 11), false); (Outside 0, (1, 11), false); (Outside 1, (1, 11), false)] /\
   w' 0 = [11; 10; 10] /\ w' 1 = [11] /\ w' 2 = [] /\
   l' = [Own 7 c_one [11]; Ref 0; Proxy [0] [Ref 0; Own 8 c_both [10]; Ref 1]; Ref 1; Ref 2; Own 9 c_ctx []]) /\
  match notify2 x_cls (1, 20) 5 (fun _ => []) x_sub with
  | Some (k, w', l', x') => x' = 7 /\ w' 2 = [25] /\ nth_error l' 5 = Some (Own 9 c_ctx [26]) /\ w' 1 = [20] /\
      k = [(Inside 7, (1, 20), false); (Outside 0, (1, 20), false); (Outside 1, (1, 20), false);
           (Outside 2, (1, 20), true); (Inside 9, (1, 20), true)]
  | None => False
  end.
Proof. cbv. repeat split. Qed.

(* ---------- C339: each subject keeps its own copies of stored observers ---------- *)

(* Whatever is sent to, copied from and proxied from a collection of
   subjects, an observer stored in one of them hears what was sent to that
   one and nothing else. *)
Theorem C339_own_copies : forall (S V C : Type) (xcls : nat -> ocls S V C) ops w subs i l,
  nth_error subs i = Some l ->
  exists l', nth_error (snd (srun xcls (w, subs) ops)) i = Some l' /\ recipients xcls l' = recipients xcls l /\
    forall j r s, nth_error (holdings xcls l) j = Some (r, Some s) ->
      exists ns', sublist_of (fun n => passes (fst n) r) (sent_to i ops) ns' /\
        nth_error (holdings xcls l') j = Some (r, Some (hear (r_cls r) s ns')).
Proof.
  intros S V C xcls ops w subs i l H. destruct (srun_stored xcls ops (w, subs) i l H) as (l' & A & B & D).
  exists l'. split; [exact A|]. split; [exact B|]. intros j r s Hj. eexists. split; [apply gates_filter|].
  apply D, Hj.
Qed.
Print Assumptions C339_own_copies.

(* An object no subject refers to is not touched by any of it. *)
Theorem C339_strangers : forall (S V C : Type) (xcls : nat -> ocls S V C) ops w subs a,
  (forall l r, In l subs -> In r (recipients xcls l) -> r_whom r <> Outside a) ->
  fst (srun xcls (w, subs) ops) a = w a.
Proof. intros S V C xcls ops w subs a U. apply (srun_unknown xcls ops (w, subs) a U). Qed.
Print Assumptions C339_strangers.

Example C339_case :
  let '(w', subs) := srun x_cls (fun _ => [], [[Own 7 c_both []; Ref 0]])
    [SNotify 0 (0, 1); SCopy 0; SProxy [1] 0; SNotify 1 (0, 2); SNotify 2 (1, 3); SNotify 2 (0, 4); SNotify 0 (1, 5)] in
  subs = [[Own 7 c_both [5; 1]; Ref 0]; [Own 7 c_both [2; 1]; Ref 0]; [Proxy [1] [Own 7 c_both [3; 1]; Ref 0]]] /\
  w' 0 = [5; 3; 2; 1].
Proof. cbv. split; reflexivity. Qed.

(* ---------- C340: an observer that only takes contexts misses plain notifications ---------- *)

(* Whatever the subject, if its observers handle a type only together with a
   context, a notification of that type without one calls nobody and changes
   nothing, and nothing tells the sender. *)
Theorem C340_silently_lost_refuted : forall (S V C : Type) (xcls : nat -> ocls S V C) n w l k w' l',
  notify1 xcls n w l = (k, w', l') ->
  (forall r, In r (recipients xcls l) -> plain (r_cls r) (fst n) = None /\ withctx (r_cls r) (fst n) <> None) ->
  k = [] /\ (forall a, w' a = w a) /\ holdings xcls l' = holdings xcls l.
Proof.
  intros S V C xcls n w l k w' l' E D. eapply deaf_ok; [exact E|]. intros r H. apply D, H.
Qed.
Print Assumptions C340_silently_lost_refuted.

Example C340_case : (forall r, In r (recipients x_cls [Ref 2; Own 9 c_ctx []]) ->
    plain (r_cls r) 1 = None /\ withctx (r_cls r) 1 <> None) /\
  notify1 x_cls (1, 20) (fun _ => []) [Own 9 c_ctx []] = ([], fun _ => [], [Own 9 c_ctx []]).
Proof. split; [|reflexivity]. intros r [<-|[<-|[]]]; split; try reflexivity; discriminate. Qed.

(* ---------- C341: proxies do not forward contexts ---------- *)

(* Sending with a context to a proxied subject does exactly what sending
   without one does: the context comes back untouched, no handler is given
   it, and observers that only take contexts stay silent. *)
Theorem C341_context_dropped_refuted : forall (S V C : Type) (xcls : nat -> ocls S V C) n x w types l k w' l',
  notify1 xcls n w [Proxy types l] = (k, w', l') ->
  notify2 xcls n x w [Proxy types l] = Some (k, w', l', x) /\ (forall c, In c k -> snd c = false) /\
  ((forall r, In r (recipients xcls l) -> plain (r_cls r) (fst n) = None) ->
     k = [] /\ (forall a, w' a = w a) /\ holdings xcls l' = holdings xcls [Proxy types l]).
Proof.
  intros S V C xcls n x w types l k w' l' E. split; [apply proxy_drops, E|]. split.
  - destruct (calls_ok xcls n w _ k w' l' E) as (m & _ & ->). intros c H. apply in_map_iff in H.
    destruct H as (r & <- & _). reflexivity.
  - intro D. eapply deaf_ok; [exact E|]. apply proxy_plain. exact D.
Qed.
Print Assumptions C341_context_dropped_refuted.

Example C341_case :
  notify2 x_cls (1, 20) 5 (fun _ => []) [Own 9 c_ctx []] = Some ([(Inside 9, (1, 20), true)], fun _ => [], [Own 9 c_ctx [25]], 6) /\
  notify2 x_cls (1, 20) 5 (fun _ => []) [Proxy [1] [Own 9 c_ctx []]] = Some ([], fun _ => [], [Proxy [1] [Own 9 c_ctx []]], 5).
Proof. split; reflexivity. Qed.

(* ---------- C342: what goes through a proxy does not reach the subject it was made from ---------- *)

(* Stored observers of the original subject never change on account of
   notifications sent to proxies made from it, however many. *)
Theorem C342_original_unmoved_refuted : forall (S V C : Type) (xcls : nat -> ocls S V C) ops w subs i l,
  nth_error subs i = Some l -> sent_to i ops = [] ->
  exists l', nth_error (snd (srun xcls (w, subs) ops)) i = Some l' /\ holdings xcls l' = holdings xcls l.
Proof.
  intros S V C xcls ops w subs i l H Z. destruct (srun_stored xcls ops (w, subs) i l H) as (l' & A & B & D).
  exists l'. split; [exact A|]. eapply same_holdings; [exact B|]. intros j r s Hj. rewrite (D j r s Hj), Z. reflexivity.
Qed.
Print Assumptions C342_original_unmoved_refuted.

Example C342_case :
  let ops := [SProxy [1] 0; SNotify 1 (1, 3); SNotify 1 (1, 4)] in
  sent_to 0 ops = [] /\
  snd (srun x_cls (fun _ => [], [[Own 7 c_both []]]) ops) = [[Own 7 c_both []]; [Proxy [1] [Own 7 c_both [4; 3]]]].
Proof. split; reflexivity. Qed.
