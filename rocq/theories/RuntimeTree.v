(** * The tasks of a parallel execution are those of a serial one: proofs for C66. *)

From stdpp Require Import prelude gmap list.
From Coq Require Import NArith Lia.
From Verif Require Import RuntimeModel RuntimeSpec RuntimeHist RuntimeHist2 RuntimeHist3 RuntimeHist4
  RuntimeThms.
Local Open Scope N_scope.

(** Induction over call trees. *)
Lemma calltree_rec_list (P : calltree -> Prop) :
  (forall t o Ts, Forall P Ts -> P (Node t o Ts)) -> forall T, P T.
Proof.
  intros H. fix IH 1. intros [t o Ts]. apply H. induction Ts as [|T Ts IHs]; constructor; auto.
Qed.

(** ** Histories only grow *)

Section grow.
Context (af : bool).

Lemma ended_body h f : evs_ok af h -> ended h f -> exists t, body_in f h = Some t.
Proof.
  intros Hok (o & Ho). revert Hok Ho. induction h as [|e h IH]; [done|]. intros [He Hok] Ho.
  destruct e; cbn in Ho |- *; try (by apply IH); try (case_decide; [by eauto|by apply IH]).
  case_decide as E; [subst|by apply IH]. destruct He as (_ & _ & _ & t & Ht & _). eauto.
Qed.

Lemma grow_ended e h f :
  evs_ok af (e :: h) -> ended h f ->
  body_in f (e :: h) = body_in f h /\ outcome_in f (e :: h) = outcome_in f h /\
  kids_in f (e :: h) = kids_in f h.
Proof.
  intros [He Hok] Hf. destruct (ended_body h f Hok Hf) as (t & Ht). destruct Hf as (o & Ho).
  destruct e; cbn; try done.
  - rewrite decide_False; [done|]. intros ->. cbn in He. congruence.
  - destruct He as (H1 & H2 & _). rewrite !decide_False by congruence. done.
  - destruct He as (H1 & H2 & _). rewrite !decide_False by congruence. done.
  - destruct He as (H1 & _). rewrite decide_False by congruence. done.
Qed.

Lemma recorded_ended h f T : recorded h f T -> ended h f.
Proof. destruct 1. by eexists. Qed.

Lemma recorded_grow e h : evs_ok af (e :: h) -> forall T f, recorded h f T -> recorded (e :: h) f T.
Proof.
  intros Hok. induction T as [t o Ts IH] using calltree_rec_list. intros f Hr.
  pose proof (recorded_ended _ _ _ Hr) as Hf. destruct (grow_ended e h f Hok Hf) as (E1 & E2 & E3).
  inversion Hr as [f' t' o' Ts' Hb Ho Hk]; subst. constructor; [congruence|congruence|].
  rewrite E3. clear -IH Hk. induction Hk as [|c T cs Ts Hc Hk IHk]; [constructor|].
  apply Forall_cons in IH as (IH1 & IH2). constructor; auto.
Qed.

Theorem recorded_serial h f o :
  evs_ok af h -> outcome_in f h = Some o ->
  exists T, recorded h f T /\ serial af T /\ ct_outcome T = o.
Proof.
  revert f o. induction h as [|e h IH]; [done|]. intros f o Hok Ho.
  assert (Hd : ended h f \/ ~ ended h f).
  { unfold ended. destruct (outcome_in f h) as [o'|]; [left; eauto|right; by intros (? & ?)]. }
  destruct Hd as [Hf|Hf].
  { destruct (grow_ended e h f Hok Hf) as (_ & E & _). rewrite E in Ho.
    destruct (IH f o (proj2 Hok) Ho) as (T & H1 & H2 & H3). exists T. split_and!; [|done|done].
    by apply recorded_grow. }
  assert (e = EvEnd f o) as ->.
  { destruct e; cbn in Ho; try (exfalso; apply Hf; exists o; exact Ho).
    case_decide; [congruence|]. exfalso; apply Hf; exists o; exact Ho. }
  destruct Hok as [He Hok]. pose proof He as (Hn & Hk & _ & t & Hb & _ & Hr).
  assert (HT : exists Ts, Forall2 (recorded h) (map fst (kids_in f h)) Ts /\ Forall (serial af) Ts /\
    krun h (outs h) (kids_in f h) = map (fun T => (ct_task T, ct_outcome T)) Ts).
  { clear Hr Hb Ho He. induction (kids_in f h) as [|[c st] ks IHk]; [exists []; split_and!; constructor|].
    destruct IHk as (Ts & T1 & T2 & T3).
    { intros c' st' Hc. apply (Hk c' st'). by right. }
    destruct (Hk c st) as (oc & Hoc); [by left|]. destruct (IH c oc Hok Hoc) as (T & R1 & R2 & R3).
    exists (T :: Ts). split_and!; [by constructor|by constructor|].
    unfold krun in *. cbn. rewrite T3. f_equal. unfold outs. rewrite Hoc. cbn.
    inversion R1 as [f' t' o' Ts' Hb' Ho' Hk']; subst. rewrite Hb'. done. }
  destruct HT as (Ts & T1 & T2 & T3). exists (Node t o Ts). split_and!; [| |done].
  - assert (R : Forall2 (recorded (EvEnd f o :: h)) (map fst (kids_in f (EvEnd f o :: h))) Ts).
    { eapply Forall2_impl; [exact T1|]. intros c T. apply recorded_grow. done. }
    constructor; [done|by cbn; rewrite decide_True|done].
  - constructor; [|done]. by rewrite <- T3.
Qed.
End grow.

Lemma recorded_unique h : forall T f T', recorded h f T -> recorded h f T' -> T = T'.
Proof.
  induction T as [t o Ts IH] using calltree_rec_list. intros f T' H1 H2.
  inversion H1 as [? ? ? ? B1 O1 K1]; inversion H2 as [? ? ? ? B2 O2 K2]; subst.
  f_equal; [congruence|congruence|].
  match type of K2 with Forall2 _ _ ?l => revert K2; generalize l end.
  clear - IH K1. induction K1 as [|c T cs Ts Hc K1 IHk]; intros Ts' K2.
  - by inversion K2.
  - inversion K2 as [|? T' ? Ts'' Hc' K2']; subst. apply Forall_cons in IH as (IH1 & IH2).
    f_equal; [by eapply IH1|]. apply IHk; auto.
Qed.

(** ** A serial run is one of the serial semantics *)

Lemma serial_eval af : forall T, serial af T -> eval af (ct_task T) (ct_outcome T).
Proof.
  induction T as [t o Ts IH] using calltree_rec_list. intros H. inversion H as [? ? ? Hr Hs]; subst. cbn.
  eapply run_exec; [exact Hr|]. clear -IH Hs. induction Hs as [|T Ts HT Hs IHs]; cbn; [constructor|].
  apply Forall_cons in IH as (IH1 & IH2). constructor; auto.
Qed.

Lemma eval_serial af cs X t o :
  exec af cs X t o -> exists Ts, srun af cs X t o (map (fun T => (ct_task T, ct_outcome T)) Ts) /\ Forall (serial af) Ts.
Proof.
  induction 1 as [|cs e|cs X m st c k oc r X' o Hc IHc Hr Hk IHk|cs X m st c k o Haf Hk IHk|
    cs X m st c k oc r X' o Hc IHc Hr Hk IHk|cs X m st c k o Haf Hk IHk|cs X k r o Hj Hk IHk|cs X sk d k o Hk IHk|
    cs X e k o Hk IHk|cs X w k o Hk IHk].
  - exists []. split; constructor.
  - exists []. split; constructor.
  - destruct IHc as (Tc & C1 & C2). destruct IHk as (Ts & K1 & K2). exists (Node c oc Tc :: Ts).
    split; [cbn; by econstructor|]. constructor; [by constructor|done].
  - destruct IHk as (Ts & K1 & K2). exists Ts. split; [by apply ru_fork_fail|done].
  - destruct IHc as (Tc & C1 & C2). destruct IHk as (Ts & K1 & K2). exists (Node c oc Tc :: Ts).
    split; [cbn; by econstructor|]. constructor; [by constructor|done].
  - destruct IHk as (Ts & K1 & K2). exists Ts. split; [by apply ru_call_fail|done].
  - destruct IHk as (Ts & K1 & K2). exists Ts. split; [by econstructor|done].
  - destruct IHk as (Ts & K1 & K2). exists Ts. split; [by econstructor|done].
  - destruct IHk as (Ts & K1 & K2). exists Ts. split; [by econstructor|done].
  - destruct IHk as (Ts & K1 & K2). exists Ts. split; [by econstructor|done].
Qed.

(** ** Deterministic programs have one call tree *)

Lemma srun_det cs t o1 ks1 :
  srun false cs ∅ t o1 ks1 -> forall b Ts1 o2 Ts2 ks2, pure b t ->
  ks1 = map (fun T => (ct_task T, ct_outcome T)) Ts1 ->
  Forall (serial false) Ts1 -> Forall (serial false) Ts2 ->
  Forall (fun T1 => forall b T2, pure b (ct_task T1) -> serial false T2 -> ct_task T1 = ct_task T2 -> T1 = T2) Ts1 ->
  srun false cs ∅ t o2 ks2 -> ks2 = map (fun T => (ct_task T, ct_outcome T)) Ts2 ->
  o1 = o2 /\ Ts1 = Ts2.
Proof.
  intros H. remember false as af eqn:Eaf. remember ∅ as X eqn:EX. revert Eaf EX.
  induction H as [|cs e|cs X m st c k oc r X' o ks Hr Hk IHk|cs X m st c k o ks Haf|
    cs X m st c k oc r X' o ks Hr Hk IHk|cs X m st c k o ks Haf|cs X k r o ks Hj Hk IHk|cs X sk d k o ks Hk IHk|
    cs X e k o ks|cs X w k o ks]; intros Eaf EX b Ts1 o2 Ts2 ks2 Hp E1 S1 S2 D H2; subst af; try subst X.
  - destruct Ts1; [|done]. inversion H2; subst; try done. intros E2. by destruct Ts2.
  - destruct Ts1; [|done]. inversion H2; subst; try done. intros E2. by destruct Ts2.
  - inversion Hp as [| |b' st' c' k' Hpc Hpk| | |]; subst.
    inversion H2 as [| |cs2 X2 m2 st2 c2 k2 oc2 r2 X2' o2' ks2' Hr2 Hk2|? ? ? ? ? ? ? ? Haf2| | | | | |]; subst; [|done]; intros E2.
    destruct Ts1 as [|T1 Ts1]; [done|]. destruct Ts2 as [|T2 Ts2]; [done|]. cbn in E1, E2.
    injection E1 as E1a E1b E1c. injection E2 as E2a E2b E2c.
    apply Forall_cons in S1 as (S1 & S1'). apply Forall_cons in S2 as (S2 & S2').
    apply Forall_cons in D as (D & D').
    assert (T1 = T2) as -> by (apply (D st T2); [by rewrite <- E1a|done|congruence]).
    assert (oc2 = oc) as -> by congruence.
    inversion Hr; subst; try done. inversion Hr2; subst; try done.
    assert (E : ∅ ∪ exn_of st (ct_outcome T2) = ∅).
    { destruct st; [destruct (ct_outcome T2); set_solver|].
      destruct (exec_pure_nothrow _ _ _ (serial_eval _ _ S1) false Hpc eq_refl) as (v & ->). set_solver. }
    rewrite E in *. edestruct (IHk eq_refl eq_refl b Ts1 o2 Ts2) as (-> & ->); eauto.
  - intros _. done.
  - inversion Hp as [| | |b' m' st' c' k' Hpc Hpk| |]; subst.
    inversion H2 as [| | | |cs2 X2 m2 st2 c2 k2 oc2 r2 X2' o2' ks2' Hr2 Hk2|? ? ? ? ? ? ? ? Haf2| | | |]; subst; [|done]; intros E2.
    destruct Ts1 as [|T1 Ts1]; [done|]. destruct Ts2 as [|T2 Ts2]; [done|]. cbn in E1, E2.
    injection E1 as E1a E1b E1c. injection E2 as E2a E2b E2c.
    apply Forall_cons in S1 as (S1 & S1'). apply Forall_cons in S2 as (S2 & S2').
    apply Forall_cons in D as (D & D').
    assert (T1 = T2) as -> by (apply (D st T2); [by rewrite <- E1a|done|congruence]).
    assert (oc2 = oc) as -> by congruence. subst.
    assert (E : ∅ ∪ exn_of st (ct_outcome T2) = ∅).
    { destruct st; [destruct (ct_outcome T2); set_solver|].
      destruct (exec_pure_nothrow _ _ _ (serial_eval _ _ S1) false Hpc eq_refl) as (v & ->). set_solver. }
    rewrite E in *. inversion Hr; subst; [|set_solver|done]. inversion Hr2; subst; [|set_solver|done].
    edestruct (IHk eq_refl eq_refl b Ts1 o2 Ts2) as (-> & ->); eauto.
  - intros _. done.
  - inversion Hp as [| | | |b' k' Hpk|]; subst. inversion Hj; subst; [|set_solver].
    inversion H2 as [| | | | | |? ? ? ? ? ? Hj2 Hk2| | |]; subst. inversion Hj2; subst; [|set_solver].
    eapply IHk; eauto.
  - inversion Hp as [| | | | |b' sk' d' k' Hpk]; subst. inversion H2; subst. eapply IHk; eauto.
  - inversion Hp.
  - inversion Hp.
Qed.

Lemma serial_det : forall T1, serial false T1 -> forall b T2,
  pure b (ct_task T1) -> serial false T2 -> ct_task T1 = ct_task T2 -> T1 = T2.
Proof.
  induction T1 as [t o Ts IH] using calltree_rec_list. intros H1 b [t2 o2 Ts2] Hp H2 E. cbn in E, Hp. subst t2.
  inversion H1 as [? ? ? R1 S1]; inversion H2 as [? ? ? R2 S2]; subst.
  assert (D : Forall (fun T1 => forall b T2, pure b (ct_task T1) -> serial false T2 ->
    ct_task T1 = ct_task T2 -> T1 = T2) Ts).
  { clear -IH S1. induction S1 as [|T Ts HT S1 IHs]; [constructor|].
    apply Forall_cons in IH as (IH1 & IH2). constructor; [|auto]. intros b T2 Hp H2 E. by eapply IH1. }
  destruct (srun_det _ _ _ _ R1 b Ts o2 Ts2 _ Hp eq_refl S1 S2 D R2 eq_refl) as (-> & ->). done.
Qed.
