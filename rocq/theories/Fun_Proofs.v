(* Proofs for Properties_Fun. *)
From Verif Require Import Base BaseLemmas Fun_Model Fun_Spec.
Local Open Scope res_scope.

Lemma fset_eq {A} (f : nat -> A) k a : fset f k a k = a.
Proof. unfold fset. now rewrite Nat.eqb_refl. Qed.
Lemma fset_neq {A} (f : nat -> A) k a i : i <> k -> fset f k a i = f i.
Proof. intros N. unfold fset. apply Nat.eqb_neq in N. now rewrite N. Qed.

Section P.
Context {St A R : Type}.
Context (step : St -> A -> St * R).
Context (nullable : bool).

(* l: the objects from a down to the one that holds the callable, in state s *)
Fixpoint chain (h : heap St) (a : nat) (l : list nat) (s : St) : Prop :=
  match l with
  | [] => False
  | x :: l' =>
      x = a /\
      ((l' = [] /\ nth_error h a = Some (Some (Leaf s))) \/
       (exists b, nth_error h a = Some (Some (Nest (Some b))) /\ b < a /\ chain h b l' s))
  end.
Definition vok (h : heap St) (m : option (option nat)) (c : option (option St)) (l : list nat) : Prop :=
  match m, c with
  | None, None => l = []
  | Some None, Some None => l = []
  | Some (Some a), Some (Some s) => chain h a l s
  | _, _ => False
  end.
Definition Inv (w : fworld St) (s : nat -> option (option St)) : Prop :=
  exists ch : nat -> list nat,
    (forall k, vok (f_heap w) (f_vars w k) (s k) (ch k)) /\
    (forall i j a, In a (ch i) -> In a (ch j) -> i = j) /\
    (forall a c, nth_error (f_heap w) a = Some (Some c) -> exists k, In a (ch k)).

Lemma chain_in h l : forall a s x, chain h a l s -> In x l ->
  x <= a /\ exists c, nth_error h x = Some (Some c).
Proof.
  induction l as [|y l IH]; intros a s x C I; [destruct C|].
  destruct C as (-> & [(-> & E)|(b & E & L & C)]).
  - destruct I as [<- |[]]. split; [lia|]. eexists; exact E.
  - destruct I as [<- |I]. { split; [lia|]. eexists; exact E. }
    destruct (IH b s x C I) as (Hx & c & Ec). split; [lia|]. eexists; exact Ec.
Qed.
Lemma some_lt {X} (h : list X) a c : nth_error h a = Some c -> a < length h.
Proof. intros E. apply nth_error_Some. congruence. Qed.
Lemma chain_lt h a l s x : chain h a l s -> In x l -> x < length h.
Proof. intros C I. destruct (chain_in h l a s x C I) as (_ & c & E). eapply some_lt; exact E. Qed.
Lemma chain_head h a l s : chain h a l s -> In a l.
Proof. destruct l; [intros []|]. intros (-> & _). now left. Qed.
Lemma chain_ext h h' l : forall a s,
  (forall x, In x l -> nth_error h' x = nth_error h x) -> chain h a l s -> chain h' a l s.
Proof.
  induction l as [|y l IH]; intros a s E C; [destruct C|].
  destruct C as (-> & C). split; [reflexivity|]. destruct C as [(-> & Q)|(b & Q & L & C)].
  - left. split; [reflexivity|]. rewrite E; [exact Q|now left].
  - right. exists b. split; [rewrite E; [exact Q|now left]|]. split; [exact L|].
    apply IH; [|exact C]. intros x I. apply E. now right.
Qed.
Lemma vok_ext h h' m c l :
  (forall x, In x l -> nth_error h' x = nth_error h x) -> vok h m c l -> vok h' m c l.
Proof.
  unfold vok. destruct m as [[a|]|], c as [[s|]|]; trivial. apply chain_ext.
Qed.
Lemma vok_in h m c l x : vok h m c l -> In x l -> exists y, nth_error h x = Some (Some y).
Proof.
  unfold vok. destruct m as [[a|]|], c as [[s|]|]; intros V I; subst; try destruct V; try destruct I.
  eapply chain_in; eassumption.
Qed.

Lemma del_chain l : forall n h a s, chain h a l s -> a < n ->
  exists h', del n h a = Ok h' /\ length h' = length h /\
    (forall x, In x l -> nth_error h' x = Some None) /\
    (forall x, ~ In x l -> nth_error h' x = nth_error h x).
Proof.
  induction l as [|y l IH]; intros n h a s C L; [destruct C|].
  destruct n as [|n]; [lia|]. destruct C as (-> & [(-> & E)|(b & E & Lb & C)]); cbn [del]; rewrite E.
  - exists (upd h a None). cbn [bind]. split; [reflexivity|]. split; [apply upd_length|].
    pose proof (some_lt _ _ _ E). split; intros x I.
    + destruct I as [<- |[]]. now apply nth_error_upd_eq.
    + apply nth_error_upd_neq. intros ->. apply I. now left.
  - destruct (IH n h b s C ltac:(lia)) as (h1 & R1 & Len & D & K).
    exists (upd h1 a None). rewrite R1. cbn [bind]. split; [reflexivity|].
    split; [now rewrite upd_length|]. pose proof (some_lt _ _ _ E) as La. split; intros x I.
    + destruct (Nat.eq_dec x a) as [-> |N]. { apply nth_error_upd_eq. lia. }
      rewrite nth_error_upd_neq by auto. apply D. destruct I as [I|I]; [congruence|exact I].
    + rewrite nth_error_upd_neq by (intros ->; apply I; now left).
      apply K. intros J. apply I. now right.
Qed.

Lemma invoke_chain x l : forall n h a s, chain h a l s -> a < n ->
  exists h', invoke step n h (Some a) x = Ok (h', snd (step s x)) /\ length h' = length h /\
    chain h' a l (fst (step s x)) /\
    (forall y, ~ In y l -> nth_error h' y = nth_error h y) /\
    (forall y c, nth_error h' y = Some (Some c) -> exists c', nth_error h y = Some (Some c')).
Proof.
  induction l as [|y l IH]; intros n h a s C L; [destruct C|].
  destruct n as [|n]; [lia|]. destruct C as (-> & [(-> & E)|(b & E & Lb & C)]); cbn [invoke]; rewrite E.
  - pose proof (some_lt _ _ _ E) as La. destruct (step s x) as [s' r]. cbn [fst snd].
    exists (upd h a (Some (Leaf s'))). split; [reflexivity|]. split; [apply upd_length|].
    split; [|split].
    + split; [reflexivity|]. left. split; [reflexivity|]. now apply nth_error_upd_eq.
    + intros z I. apply nth_error_upd_neq. intros ->. apply I. now left.
    + intros z c Q. destruct (Nat.eq_dec z a) as [-> |N]; [eexists; exact E|].
      rewrite nth_error_upd_neq in Q by auto. eexists; exact Q.
  - destruct (IH n h b s C ltac:(lia)) as (h1 & R1 & Len & C1 & K & V).
    exists h1. rewrite R1. split; [reflexivity|]. split; [exact Len|]. split; [|split].
    + split; [reflexivity|]. right. exists b. split; [|split; [exact Lb|exact C1]].
      rewrite K; [exact E|]. intros J. destruct (chain_in h l b s a C J). lia.
    + intros z I. apply K. intros J. apply I. now right.
    + exact V.
Qed.

(* one variable's part of the invariant *)
Lemma inv_get w s k : Inv w s -> match f_vars w k, s k with
  | None, None => True | Some None, Some None => True
  | Some (Some a), Some (Some v) => exists l, chain (f_heap w) a l v
  | _, _ => False end.
Proof.
  intros (ch & V & _). specialize (V k). unfold vok in V.
  destruct (f_vars w k) as [[a|]|], (s k) as [[v|]|]; trivial. eexists; exact V.
Qed.

Lemma inv_start : Inv no_functions no_vars.
Proof.
  exists (fun _ => []). split; [|split]; cbn; auto.
  - intros i j a [].
  - intros a c E. now rewrite nth_error_nil in E || (destruct a; discriminate).
Qed.

(* deleting what variable k holds, and giving k a value without objects *)
Lemma inv_drop w s k m c : Inv w s -> s k <> None -> vok [] m c [] ->
  exists w1, reset k w = Ok w1 /\ f_vars w1 = f_vars w /\
    Inv (set_fun k m w1) (fset s k c) /\ length (f_heap w1) = length (f_heap w).
Proof.
  intros (ch & V & D & K) N VM. pose proof (V k) as Vk. unfold vok in Vk. unfold reset, get_fun.
  destruct (s k) as [[v|]|] eqn:Es; [| |congruence];
    destruct (f_vars w k) as [[a|]|] eqn:Em; try contradiction; cbn [bind].
  - assert (La : a < length (f_heap w)). { eapply chain_lt; [exact Vk|]. eapply chain_head; exact Vk. }
    destruct (del_chain (ch k) (S (length (f_heap w))) (f_heap w) a v Vk ltac:(lia))
      as (h & -> & Len & Gone & Kept). cbn [bind].
    exists (FWorld h (f_vars w)). split; [reflexivity|]. split; [reflexivity|]. split; [|exact Len].
    exists (fset ch k []). cbn [f_heap f_vars set_fun]. split; [|split].
    + intros i. destruct (Nat.eq_dec i k) as [-> |Ni].
      * rewrite !fset_eq. revert VM. unfold vok. destruct m as [[?|]|], c as [[?|]|]; auto.
      * rewrite !fset_neq by auto. eapply vok_ext; [|exact (V i)]. intros x I. apply Kept.
        intros J. apply Ni. eapply D; eassumption.
    + intros i j b. destruct (Nat.eq_dec i k) as [-> |Ni]; [rewrite fset_eq; intros []|].
      destruct (Nat.eq_dec j k) as [-> |Nj]; [rewrite fset_eq; intros _ []|].
      rewrite !fset_neq by auto. apply D.
    + intros b cb E. destruct (in_dec Nat.eq_dec b (ch k)) as [I|I].
      { rewrite (Gone b I) in E. discriminate. }
      rewrite (Kept b I) in E. destruct (K b cb E) as (i & Ii). exists i.
      rewrite fset_neq; [exact Ii|]. intros ->. auto.
  - exists w. split; [reflexivity|]. split; [reflexivity|]. split; [|reflexivity].
    exists (fset ch k []). cbn [f_heap f_vars set_fun]. split; [|split].
    + intros i. destruct (Nat.eq_dec i k) as [-> |Ni].
      * rewrite !fset_eq. revert VM. unfold vok. destruct m as [[?|]|], c as [[?|]|]; auto.
      * rewrite !fset_neq by auto. apply V.
    + intros i j b. destruct (Nat.eq_dec i k) as [-> |Ni]; [rewrite fset_eq; intros []|].
      destruct (Nat.eq_dec j k) as [-> |Nj]; [rewrite fset_eq; intros _ []|].
      rewrite !fset_neq by auto. apply D.
    + intros b cb E. destruct (K b cb E) as (i & Ii). exists i.
      rewrite fset_neq; [exact Ii|]. intros ->. rewrite Vk in Ii. destruct Ii.
Qed.

Lemma fset_id_inv w s k m c : Inv (set_fun k m w) (fset s k c) -> f_vars w k = m -> s k = c -> Inv w s.
Proof.
  intros (ch & V & D & K) Em Es. exists ch. split; [|split; assumption].
  intros i. specialize (V i). cbn [set_fun f_heap f_vars] in V.
  destruct (Nat.eq_dec i k) as [-> |N]; [now rewrite !fset_eq in V; rewrite Em, Es|].
  now rewrite !fset_neq in V by auto.
Qed.

(* a new object for the empty or absent variable k *)
Lemma inv_new w s k v : Inv w s -> (s k = None \/ s k = Some None) ->
  Inv (ctor_functor k v w) (fset s k (Some (Some v))).
Proof.
  intros (ch & V & D & K) N.
  assert (Ek : ch k = []).
  { pose proof (V k) as Vk. unfold vok in Vk.
    destruct N as [N|N]; rewrite N in Vk; destruct (f_vars w k) as [[?|]|]; try contradiction; auto. }
  set (a := length (f_heap w)).
  exists (fset ch k [a]). cbn. fold a. split; [|split].
  - intros i. destruct (Nat.eq_dec i k) as [-> |Ni].
    + rewrite !fset_eq. cbn. split; [reflexivity|]. left. split; [reflexivity|].
      rewrite nth_error_app2 by (unfold a; lia). unfold a. now rewrite Nat.sub_diag.
    + rewrite !fset_neq by auto. eapply vok_ext; [|apply V]. intros x I.
      apply nth_error_app1. destruct (vok_in _ _ _ _ _ (V i) I) as (y & E). eapply some_lt; exact E.
  - assert (Fr : forall i, ~ In a (ch i)).
    { intros i I. destruct (vok_in _ _ _ _ _ (V i) I) as (y & E). apply some_lt in E. unfold a in E. lia. }
    intros i j b. destruct (Nat.eq_dec i k) as [-> |Ni], (Nat.eq_dec j k) as [-> |Nj];
      rewrite ?fset_eq, ?fset_neq by auto; auto.
    + intros [<- |[]] J. now apply Fr in J.
    + intros J [<- |[]]. now apply Fr in J.
    + apply D.
  - intros b cb E. destruct (Nat.eq_dec b a) as [-> |Nb].
    + exists k. rewrite fset_eq. now left.
    + assert (b < length (f_heap w)).
      { apply some_lt in E. rewrite app_length in E. cbn in E. unfold a in Nb. lia. }
      rewrite nth_error_app1 in E by assumption. destruct (K b cb E) as (i & I). exists i.
      rewrite fset_neq; [exact I|]. intros ->. rewrite Ek in I. destruct I.
Qed.

(* what j holds goes to k, which holds nothing *)
Lemma inv_move w s k j c : Inv w s -> k <> j -> (s k = None \/ s k = Some None) -> s j = Some c ->
  exists m, f_vars w j = Some m /\
    Inv (set_fun j (Some None) (set_fun k (Some m) w)) (fset (fset s k (Some c)) j (Some None)).
Proof.
  intros (ch & V & D & K) Nkj N Ej.
  assert (Ek : ch k = []).
  { pose proof (V k) as Vk. unfold vok in Vk.
    destruct N as [N|N]; rewrite N in Vk; destruct (f_vars w k) as [[?|]|]; try contradiction; auto. }
  pose proof (V j) as Vj. rewrite Ej in Vj. destruct (f_vars w j) as [m|] eqn:Em; [|destruct Vj].
  exists m. split; [reflexivity|].
  exists (fset (fset ch k (ch j)) j []). cbn [set_fun f_heap f_vars]. split; [|split].
  - intros i. destruct (Nat.eq_dec i j) as [-> |Nj]; [now rewrite !fset_eq|].
    rewrite !(fset_neq _ j) by auto. destruct (Nat.eq_dec i k) as [-> |Nk]; [now rewrite !fset_eq|].
    rewrite !fset_neq by auto. apply V.
  - intros p q b. destruct (Nat.eq_dec p j) as [-> |Pj]; [rewrite fset_eq; intros []|].
    destruct (Nat.eq_dec q j) as [-> |Qj]; [rewrite fset_eq; intros _ []|].
    rewrite !(fset_neq _ j) by auto.
    destruct (Nat.eq_dec p k) as [-> |Pk], (Nat.eq_dec q k) as [-> |Qk];
      rewrite ?fset_eq, ?fset_neq by auto; auto.
    + intros I J. exfalso. apply Qj. eapply D; eassumption.
    + intros I J. exfalso. apply Pj. eapply D; eassumption.
    + apply D.
  - intros b cb E. destruct (K b cb E) as (i & I). destruct (Nat.eq_dec i j) as [-> |Nj].
    + exists k. rewrite fset_neq by auto. now rewrite fset_eq.
    + exists i. rewrite fset_neq by auto. rewrite fset_neq; [exact I|].
      intros ->. rewrite Ek in I. destruct I.
Qed.

(* the same, through a new object *)
Lemma inv_lvalue w s k j v : Inv w s -> s k = None -> s j = Some (Some v) ->
  exists w1, ctor_lvalue k j w = Ok w1 /\ Inv w1 (fset (fset s k (Some (Some v))) j (Some None)).
Proof.
  intros (ch & V & D & K) Ek Ej. assert (Nkj : k <> j) by (intros ->; congruence).
  assert (Ck : ch k = []).
  { pose proof (V k) as Vk. unfold vok in Vk. rewrite Ek in Vk.
    destruct (f_vars w k) as [[?|]|]; try contradiction; auto. }
  pose proof (V j) as Vj. rewrite Ej in Vj. unfold vok in Vj.
  destruct (f_vars w j) as [[b|]|] eqn:Em; try contradiction.
  unfold ctor_lvalue, get_fun. rewrite Em. cbn [bind new_cell set_fun f_heap f_vars].
  eexists; split; [reflexivity|]. set (a := length (f_heap w)).
  assert (Lb : b < a). { eapply chain_lt; [exact Vj|]. eapply chain_head; exact Vj. }
  assert (Old : forall i x, In x (ch i) -> x < a).
  { intros i x I. destruct (vok_in _ _ _ _ _ (V i) I) as (y & E). now apply some_lt in E. }
  exists (fset (fset ch k (a :: ch j)) j []). cbn [set_fun f_heap f_vars]. split; [|split].
  - intros i. destruct (Nat.eq_dec i j) as [-> |Nj].
    { rewrite (fset_neq _ k) by auto. now rewrite !fset_eq. }
    destruct (Nat.eq_dec i k) as [-> |Nk].
    + rewrite fset_eq. rewrite !(fset_neq _ j) by auto. rewrite !fset_eq. cbn [vok chain].
      split; [reflexivity|]. right. exists b. split; [|split; [exact Lb|]].
      * rewrite nth_error_app2 by (unfold a; lia). unfold a. now rewrite Nat.sub_diag.
      * eapply chain_ext; [|exact Vj]. intros x I. apply nth_error_app1. eapply Old; exact I.
    + rewrite !fset_neq by auto. eapply vok_ext; [|apply V]. intros x I.
      apply nth_error_app1. eapply Old; exact I.
  - intros p q c. destruct (Nat.eq_dec p j) as [-> |Pj]; [rewrite fset_eq; intros []|].
    destruct (Nat.eq_dec q j) as [-> |Qj]; [rewrite fset_eq; intros _ []|].
    rewrite !(fset_neq _ j) by auto.
    destruct (Nat.eq_dec p k) as [-> |Pk], (Nat.eq_dec q k) as [-> |Qk];
      rewrite ?fset_eq, ?fset_neq by auto; auto.
    + intros [<- |I] J; exfalso; [apply Old in J; lia|]. apply Qj. eapply D; eassumption.
    + intros I [<- |J]; exfalso; [apply Old in I; lia|]. apply Pj. eapply D; eassumption.
    + apply D.
  - intros c cb E. destruct (Nat.eq_dec c a) as [-> |Nc].
    { exists k. rewrite fset_neq by auto. rewrite fset_eq. now left. }
    assert (c < length (f_heap w)).
    { apply some_lt in E. rewrite app_length in E. cbn in E. unfold a in Nc. lia. }
    rewrite nth_error_app1 in E by assumption. destruct (K c cb E) as (i & I).
    destruct (Nat.eq_dec i j) as [-> |Nj].
    + exists k. rewrite fset_neq by auto. rewrite fset_eq. now right.
    + exists i. rewrite fset_neq by auto. rewrite fset_neq; [exact I|].
      intros ->. rewrite Ck in I. destruct I.
Qed.

Lemma inv_call w s k v x : Inv w s -> s k = Some (Some v) ->
  exists w1, call step k x w = Ok (w1, snd (step v x)) /\ Inv w1 (fset s k (Some (Some (fst (step v x))))).
Proof.
  intros (ch & V & D & K) Ek. pose proof (V k) as Vk. rewrite Ek in Vk. unfold vok in Vk.
  unfold call, get_fun. destruct (f_vars w k) as [[a|]|] eqn:Em; try contradiction. cbn [bind].
  assert (La : a < length (f_heap w)). { eapply chain_lt; [exact Vk|]. eapply chain_head; exact Vk. }
  destruct (invoke_chain x (ch k) (S (length (f_heap w))) (f_heap w) a v Vk ltac:(lia))
    as (h & -> & Len & C & Kept & Al). cbn [bind].
  eexists; split; [reflexivity|]. exists ch. cbn [f_heap f_vars]. split; [|split].
  - intros i. destruct (Nat.eq_dec i k) as [-> |N].
    + now rewrite fset_eq, Em.
    + rewrite fset_neq by auto. eapply vok_ext; [|apply V]. intros y I. apply Kept.
      intros J. apply N. eapply D; eassumption.
  - exact D.
  - intros b c E. destruct (Al b c E) as (c' & E'). eapply K; exact E'.
Qed.

Lemma set_twice k m m' (w : fworld St) : forall i,
  f_vars (set_fun k m (set_fun k m' w)) i = f_vars (set_fun k m w) i.
Proof. intros i. cbn. unfold fset. now destruct (Nat.eqb i k). Qed.
Lemma inv_ext w w' s s' : Inv w s -> f_heap w' = f_heap w -> (forall i, f_vars w' i = f_vars w i) ->
  (forall i, s' i = s i) -> Inv w' s'.
Proof.
  intros (ch & V & D & K) Eh Ev Es. exists ch. rewrite Eh. split; [|split; assumption].
  intros i. rewrite Ev, Es. apply V.
Qed.

Lemma fresh_ok w s k : Inv w s -> s k = None -> fresh k w = Ok tt.
Proof.
  intros I E. pose proof (inv_get w s k I) as G. unfold fresh. rewrite E in G.
  now destruct (f_vars w k) as [[?|]|].
Qed.

Theorem step_ok p w s s1 o : Inv w s -> owner_step step p s = Some (s1, o) ->
  exists w1, run_fop step nullable p w = Ok (w1, seen nullable o) /\ Inv w1 s1.
Proof.
  intros I E. destruct p as [k v|k j|k j|k j|k j|k v|k|k x|k]; cbn in E |- *.
  - destruct (s k) as [c|] eqn:Ek; [discriminate|]. injection E as <- <-.
    rewrite (fresh_ok _ _ _ I Ek). cbn [bind]. eexists; split; [reflexivity|].
    apply inv_new; auto.
  - destruct (s k) as [c|] eqn:Ek; [discriminate|]. destruct (s j) as [c|] eqn:Ej; [|discriminate].
    injection E as <- <-. rewrite (fresh_ok _ _ _ I Ek). cbn [bind].
    destruct (inv_move w s k j c I ltac:(intros ->; congruence) (or_introl Ek) Ej) as (m & Em & I1).
    unfold ctor_move, get_fun. rewrite Em. cbn [bind]. eexists; split; [reflexivity|exact I1].
  - destruct (s k) as [c|] eqn:Ek; [discriminate|]. destruct (s j) as [[v|]|] eqn:Ej; try discriminate.
    injection E as <- <-. rewrite (fresh_ok _ _ _ I Ek). cbn [bind].
    destruct (inv_lvalue w s k j v I Ek Ej) as (w1 & -> & I1). cbn [bind].
    eexists; split; [reflexivity|exact I1].
  - discriminate.
  - destruct (Nat.eqb_spec k j) as [Q|N]; [discriminate|].
    destruct (s k) as [c0|] eqn:Ek; [|discriminate]. destruct (s j) as [c|] eqn:Ej; [|discriminate].
    injection E as <- <-. unfold assign_fun.
    destruct (inv_drop w s k (Some None) (Some None) I ltac:(congruence) eq_refl)
      as (w1 & -> & Ev & I1 & _). cbn [bind].
    destruct (inv_move _ _ k j c I1 N) as (m & Em & I2).
    + right. apply fset_eq.
    + now rewrite fset_neq by auto.
    + cbn [set_fun f_vars] in Em. rewrite fset_neq in Em by auto.
      unfold ctor_move, get_fun. rewrite Em. cbn [bind]. eexists; split; [reflexivity|].
      eapply inv_ext; [exact I2|reflexivity| |].
      * intros i. cbn. unfold fset. destruct (Nat.eqb i j); [reflexivity|]. now destruct (Nat.eqb i k).
      * intros i. unfold fset. destruct (Nat.eqb i j); [reflexivity|]. now destruct (Nat.eqb i k).
  - destruct (s k) as [c0|] eqn:Ek; [|discriminate]. injection E as <- <-. unfold assign_functor.
    destruct (inv_drop w s k (Some None) (Some None) I ltac:(congruence) eq_refl)
      as (w1 & -> & Ev & I1 & _). cbn [bind]. eexists; split; [reflexivity|].
    eapply inv_ext; [apply (inv_new _ _ k v I1); right; apply fset_eq|reflexivity| |].
    + intros i. cbn. unfold fset. now destruct (Nat.eqb i k).
    + intros i. unfold fset. now destruct (Nat.eqb i k).
  - destruct (s k) as [c0|] eqn:Ek; [|discriminate]. injection E as <- <-. unfold dtor.
    destruct (inv_drop w s k None None I ltac:(congruence) eq_refl)
      as (w1 & -> & Ev & I1 & _). cbn [bind]. eexists; split; [reflexivity|exact I1].
  - destruct (s k) as [[v|]|] eqn:Ek; try discriminate. injection E as <- <-.
    destruct (inv_call w s k v x I Ek) as (w1 & -> & I1). cbn [bind].
    eexists; split; [reflexivity|exact I1].
  - destruct (s k) as [c|] eqn:Ek; [|discriminate]. injection E as <- <-.
    pose proof (inv_get w s k I) as G. rewrite Ek in G. unfold test, get_fun.
    destruct (f_vars w k) as [m|] eqn:Em; [|destruct G]. cbn [bind].
    eexists; split; [|exact I]. cbn [seen]. destruct nullable; [|reflexivity].
    destruct m as [a|], c as [v|]; try contradiction; reflexivity.
Qed.

Theorem run_ok ps : forall w s s1 os, Inv w s -> owner_run step ps s = Some (s1, os) ->
  exists w1, run_fops step nullable ps w = Ok (w1, map (seen nullable) os) /\ Inv w1 s1.
Proof.
  induction ps as [|p t IH]; intros w s s1 os I E; cbn in E |- *.
  - injection E as <- <-. exists w. split; [reflexivity|exact I].
  - destruct (owner_step step p s) as [[s2 o]|] eqn:E1; [|discriminate].
    destruct (owner_run step t s2) as [[s3 os']|] eqn:E2; [|discriminate]. injection E as <- <-.
    destruct (step_ok p w s s2 o I E1) as (w1 & -> & I1). cbn [bind].
    destruct (IH w1 s2 s3 os' I1 E2) as (w2 & -> & I2). cbn [bind].
    exists w2. split; [reflexivity|exact I2].
Qed.

Lemma run_app ps qs w w1 os : run_fops step nullable ps w = Ok (w1, os) ->
  run_fops step nullable (ps ++ qs) w =
    ('(w2, os2) <- run_fops step nullable qs w1 ;; Ok (w2, os ++ os2)).
Proof.
  revert w os. induction ps as [|p t IH]; intros w os E; cbn in E |- *.
  - injection E as <- <-. now destruct (run_fops step nullable qs w) as [[? ?]| |].
  - destruct (run_fop step nullable p w) as [[w2 o]| |]; cbn [bind] in E |- *; try discriminate.
    destruct (run_fops step nullable t w2) as [[w3 os3]| |] eqn:E3; cbn [bind] in E; try discriminate.
    injection E as <- <-. rewrite (IH w2 os3 E3).
    destruct (run_fops step nullable qs w3) as [[? ?]| |]; reflexivity.
Qed.

Lemma live_none (h : heap St) :
  live_objects h = 0 <-> forall a c, nth_error h a <> Some (Some c).
Proof.
  unfold live_objects. induction h as [|[c|] h IH]; cbn.
  - split; [|auto]. intros _ [|a] c; discriminate.
  - split; [discriminate|]. intros H. exfalso. apply (H 0 c). reflexivity.
  - rewrite IH. split; intros H a c.
    + destruct a; [discriminate|]. apply H.
    + apply (H (S a) c).
Qed.
Lemma inv_live w s : Inv w s -> (forall k, s k = None \/ s k = Some None) -> live_objects (f_heap w) = 0.
Proof.
  intros (ch & V & D & K) E. apply live_none. intros a c Q. destruct (K a c Q) as (k & I).
  specialize (V k). unfold vok in V.
  destruct (E k) as [N|N]; rewrite N in V; destruct (f_vars w k) as [[?|]|]; try contradiction;
    rewrite V in I; destruct I.
Qed.

(* deleting the same object again *)
Lemma del_dead n (h : heap St) a : n <> 0 -> nth_error h a = Some None -> del n h a = UB.
Proof. destruct n; [congruence|]. intros _ E. cbn. now rewrite E. Qed.
Lemma copy_const_double w s k j v : Inv w s -> s k = None -> s j = Some (Some v) ->
  run_fops step nullable [FCopyConst k j; FDestroy k; FDestroy j] w = UB /\
  run_fops step nullable [FCopyConst k j; FDestroy j; FDestroy k] w = UB.
Proof.
  intros I Ek Ej. assert (N : k <> j) by (intros ->; congruence).
  pose proof (fresh_ok _ _ _ I Ek) as F. destruct I as (ch & V & D & K).
  pose proof (V j) as Vj. rewrite Ej in Vj. unfold vok in Vj.
  destruct (f_vars w j) as [[a|]|] eqn:Em; try contradiction.
  assert (Ha : In a (ch j)) by (eapply chain_head; exact Vj).
  pose proof (chain_lt _ _ _ _ _ Vj Ha) as La.
  destruct (del_chain (ch j) (S (length (f_heap w))) (f_heap w) a v Vj ltac:(lia))
    as (h & Ed & Len & Gone & Kept).
  assert (Dead : del (S (length h)) h a = UB) by (apply del_dead; [lia|now apply Gone]).
  split; cbn [run_fops run_fop]; rewrite F; cbn [bind];
    unfold ctor_const, dtor, reset, get_fun; rewrite Em; cbn [bind f_vars f_heap set_fun];
    rewrite ?fset_eq, ?(fset_neq _ k _ j) by auto; rewrite ?Em; cbn [bind]; rewrite Ed;
    cbn [bind f_vars f_heap set_fun]; rewrite ?(fset_neq _ j _ k), ?fset_eq by auto;
    rewrite ?(fset_neq _ k _ j) by auto; rewrite ?Em; cbn [bind]; rewrite Dead; reflexivity.
Qed.

Lemma seen_ret (r : R) : seen nullable (FRet r) = FRet r.
Proof. reflexivity. Qed.

(* f = f *)
Lemma self_assign w s k v : Inv w s -> s k = Some (Some v) ->
  exists w1, run_fop step nullable (FAssign k k) w = Ok (w1, FNone) /\ Inv w1 (fset s k (Some None)).
Proof.
  intros I E. cbn [run_fop]. unfold assign_fun.
  destruct (inv_drop w s k (Some None) (Some None) I ltac:(congruence) eq_refl)
    as (w1 & -> & Ev & I1 & _). cbn [bind]. unfold ctor_move, get_fun.
  pose proof (inv_get w s k I) as G. rewrite E in G. rewrite Ev.
  destruct (f_vars w k) as [[a|]|]; try contradiction. cbn [bind].
  eexists; split; [reflexivity|]. eapply inv_ext; [exact I1|reflexivity| |reflexivity].
  intros i. cbn. unfold fset. now destruct (Nat.eqb i k).
Qed.
Lemma call_empty w s k x : Inv w s -> s k = Some None -> run_fop step nullable (FCall k x) w = UB.
Proof.
  intros I E. pose proof (inv_get w s k I) as G. rewrite E in G. cbn [run_fop]. unfold call, get_fun.
  destruct (f_vars w k) as [[a|]|]; try contradiction. reflexivity.
Qed.
Lemma copy_empty w s k j x : Inv w s -> s k = None -> s j = Some None ->
  exists w1, run_fop step nullable (FCopy k j) w = Ok (w1, FNone) /\
    run_fop step nullable (FTest k) w1 = Ok (w1, FBool true) /\
    run_fop step nullable (FCall k x) w1 = UB.
Proof.
  intros I Ek Ej. assert (N : k <> j) by (intros ->; congruence).
  pose proof (inv_get w s j I) as G. rewrite Ej in G. cbn [run_fop]. rewrite (fresh_ok _ _ _ I Ek). cbn [bind].
  unfold ctor_lvalue, get_fun. destruct (f_vars w j) as [[a|]|]; try contradiction.
  cbn [bind new_cell set_fun f_heap f_vars]. eexists; split; [reflexivity|].
  unfold test, call, get_fun. cbn [set_fun f_heap f_vars]. rewrite fset_eq. cbn [bind].
  split; [now destruct nullable|].
  rewrite app_length. cbn [length]. rewrite Nat.add_comm. cbn [Nat.add invoke].
  rewrite nth_error_app2 by lia. rewrite Nat.sub_diag. cbn [nth_error].
  reflexivity.
Qed.

(* inline functions *)
Definition IInv (w : inlines) (s : nat -> option St) : Prop :=
  forall k, w k = match s k with Some v => Some (k, v) | None => None end.
Lemma istep_ok p w s s1 a : IInv w s -> own_step step p s = Some (s1, a) ->
  exists w1, run_iop step p w = Ok (w1, a) /\ IInv w1 s1.
Proof.
  intros I E. destruct p as [k v|k j|k|k x]; cbn in E |- *; try discriminate.
  - rewrite (I k). destruct (s k) eqn:Ek; [discriminate|]. injection E as <- <-.
    eexists; split; [reflexivity|]. intros i. unfold il_new, fset.
    destruct (Nat.eqb_spec i k) as [-> |]; [reflexivity|apply I].
  - unfold il_destroy. rewrite (I k). destruct (s k) eqn:Ek; [|discriminate]. injection E as <- <-.
    cbn [bind]. eexists; split; [reflexivity|]. intros i. unfold fset.
    destruct (Nat.eqb i k); [reflexivity|apply I].
  - unfold il_call. rewrite (I k). destruct (s k) as [v|] eqn:Ek; [|discriminate]. injection E as <- <-.
    rewrite (I k), Ek. destruct (step v x) as [v' r]. cbn [fst snd bind].
    eexists; split; [reflexivity|]. intros i. unfold fset.
    destruct (Nat.eqb_spec i k) as [-> |]; [reflexivity|apply I].
Qed.
Lemma irun_ok ps : forall w s s1 a, IInv w s -> own_run step ps s = Some (s1, a) ->
  exists w1, run_iops step ps w = Ok (w1, a) /\ IInv w1 s1.
Proof.
  induction ps as [|p t IH]; intros w s s1 a I E; cbn in E |- *.
  - injection E as <- <-. exists w. now split.
  - destruct (own_step step p s) as [[s2 a1]|] eqn:E1; [|discriminate].
    destruct (own_run step t s2) as [[s3 a2]|] eqn:E2; [|discriminate]. injection E as <- <-.
    destruct (istep_ok p w s s2 a1 I E1) as (w1 & -> & I1). cbn [bind].
    destruct (IH w1 s2 s3 a2 I1 E2) as (w2 & -> & I2). cbn [bind]. exists w2. now split.
Qed.
Lemma irun_app ps qs w w1 os : run_iops step ps w = Ok (w1, os) ->
  run_iops step (ps ++ qs) w = ('(w2, os2) <- run_iops step qs w1 ;; Ok (w2, os ++ os2)).
Proof.
  revert w os. induction ps as [|p t IH]; intros w os E; cbn in E |- *.
  - injection E as <- <-. now destruct (run_iops step qs w) as [[? ?]| |].
  - destruct (run_iop step p w) as [[w2 o]| |]; cbn [bind] in E |- *; try discriminate.
    destruct (run_iops step t w2) as [[w3 os3]| |] eqn:E3; cbn [bind] in E; try discriminate.
    injection E as <- <-. rewrite (IH w2 os3 E3).
    destruct (run_iops step qs w3) as [[? ?]| |]; cbn [bind]; [|reflexivity..]. now rewrite app_assoc.
Qed.
Lemma icopy w s k j v x : IInv w s -> s k = None -> s j = Some v ->
  (exists w1, run_iops step [ICopy k j; ICall k x; ICall j x] w =
     Ok (w1, [snd (step v x); snd (step (fst (step v x)) x)])) /\
  run_iops step [ICopy k j; IDestroy j; ICall k x] w = UB.
Proof.
  intros I Ek Ej. assert (N : k <> j) by (intros ->; congruence).
  split; cbn [run_iops run_iop]; unfold il_copy, il_destroy, il_call; rewrite (I k), Ek, (I j), Ej; cbn [bind];
    rewrite ?fset_eq, ?(fset_neq _ k _ j) by auto; rewrite (I j), Ej.
  - destruct (step v x) as [v' r]. cbn [bind fst snd]. rewrite ?fset_eq.
    destruct (step v' x) as [v2 r2]. cbn [bind fst snd app]. eexists; reflexivity.
  - cbn [bind]. rewrite (fset_neq _ j _ k) by auto. rewrite ?fset_eq. reflexivity.
Qed.

End P.
