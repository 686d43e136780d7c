(* Proofs about exchange and the construction of pairs. *)
From Coq Require Import List Arith Bool Lia.
From Verif Require Import Base Xch_Spec Xch_Model.
Import ListNotations.

Section Xch.
Context {V : Type} (husk : V -> V).

Ltac look := unfold put; repeat match goal with
  | |- context[?a =? ?b] => destruct (Nat.eqb_spec a b); subst; try congruence; try lia end.

Lemma exchange_ok (m : objects V) obj new rv old : NoDup [obj; new; old] ->
  let m' := exchange husk m obj new rv old in
  value m' old = value m obj /\ value m' obj = value m new /\
  value m' new = (if rv then husk (value m new) else value m new) /\ same_but [obj; new; old] m m'.
Proof.
  intros N. inversion N as [|? ? N1 N2]; subst. inversion N2 as [|? ? N3 N4]; subst. cbn in N1, N3.
  cbn zeta. unfold exchange, pass, same_but.
  destruct rv; cbn [value move_to copy_to]; (split; [look|split; [look|split; [look|]]]);
    intros i Hi; cbn in Hi; look; exfalso; apply Hi; auto.
Qed.

Lemma pair_ok (m : objects V) p q a b ra rb : p <> q -> ~ In p [a; b] -> ~ In q [a; b] ->
  let m' := pair_of m p q a b ra rb in
  value m' p = value m a /\ value m' q = value m b /\ same_but [p; q] m m' /\
  copies m' = copies m + 2 /\ moves m' = moves m.
Proof.
  intros N Hp Hq. cbn in Hp, Hq. cbn zeta. unfold pair_of, same_but. cbn [value copy_to copies moves].
  split; [look|]. split; [look; exfalso; apply Hp; auto|]. split; [|lia].
  intros i Hi. cbn in Hi. look; exfalso; apply Hi; auto.
Qed.

Lemma make_pair_ok (m : objects V) p q a b ra rb t u : NoDup [p; q; a; b; t; u] ->
  let m' := make_pair husk m p q a b ra rb t u in
  value m' p = value m a /\ value m' q = value m b /\ copies m + 2 <= copies m' /\
  copies m' + moves m' = copies m + moves m + 4.
Proof.
  intros N. repeat match goal with H : NoDup (_ :: _) |- _ => inversion H; clear H; subst end. cbn in *.
  unfold make_pair, pair_of, pass. destruct ra, rb; cbn [value copy_to move_to copies moves];
    (split; [look; exfalso; intuition congruence|]); (split; [look; exfalso; intuition congruence|]); lia.
Qed.

Lemma put_eq (f : nat -> V) i v : put f i v i = v.
Proof. unfold put. now rewrite Nat.eqb_refl. Qed.
Lemma put_ne (f : nat -> V) i v j : j <> i -> put f i v j = f j.
Proof. intros N. unfold put. now rewrite (proj2 (Nat.eqb_neq j i) N). Qed.
Ltac apart := repeat match goal with H : ~ (_ \/ _) |- _ => apply Decidable.not_or in H; destruct H end.
Ltac nodup := repeat match goal with H : NoDup (_ :: _) |- _ => inversion H; clear H; subst end; cbn [In] in *; apart.
Ltac far := repeat first [rewrite put_eq | rewrite put_ne by congruence]; try reflexivity.
Lemma pair_from_ok (m : objects V) p q a b rv : NoDup [p; q; a; b] ->
  let m' := pair_from husk m p q a b rv in
  value m' p = value m a /\ value m' q = value m b /\
  value m' a = (if rv then husk (value m a) else value m a) /\ value m' b = (if rv then husk (value m b) else value m b) /\
  same_but [p; q; a; b] m m' /\ (rv = true -> copies m' = copies m) /\ (rv = false -> moves m' = moves m).
Proof.
  intros N. nodup. unfold pair_from, pass, same_but. destruct rv; cbn [value copy_to move_to copies moves];
    (split; [far|]); (split; [far|]); (split; [far|]); (split; [far|]);
    (split; [intros i Hi; cbn [In] in Hi; apart; far|]); split; intros; try discriminate; reflexivity.
Qed.
Lemma pair_assign_ok (m : objects V) p q a b rv : NoDup [p; q; a; b] ->
  let m' := pair_assign m p q a b rv in
  value m' p = value m a /\ value m' q = value m b /\ same_but [p; q] m m' /\ copies m' = copies m + 2 /\ moves m' = moves m.
Proof.
  intros N. nodup. unfold pair_assign, same_but. cbn [value copy_to copies moves].
  split; [far|]. split; [far|]. split; [intros i Hi; cbn [In] in Hi; apart; far|]. lia.
Qed.
Lemma pair_swap_ok (m : objects V) p q p' q' t u : NoDup [p; q; p'; q'; t; u] ->
  let m' := pair_swap m p q p' q' t u in
  value m' p = value m p' /\ value m' q = value m q' /\ value m' p' = value m p /\ value m' q' = value m q /\
  same_but [p; q; p'; q'; t; u] m m' /\ copies m' = copies m + 6 /\ moves m' = moves m.
Proof.
  intros N. nodup. unfold pair_swap, swap, same_but. cbn [value copy_to copies moves].
  split; [far|]. split; [far|]. split; [far|]. split; [far|]. split; [intros i Hi; cbn [In] in Hi; apart; far|]. lia.
Qed.
End Xch.
