(** * Views: what each thread and each atomic object knows.

    A proof device: along a trace, [cur t] collects the actions that happen before the
    next action of thread [t].  The soundness lemma at the end relates it to the
    declarative happens-before of SyncSpec.v. *)

From stdpp Require Import prelude list relations.
From Coq Require Import NArith Lia.
From Verif Require Import RuntimeModel SyncSpec.

Global Instance thread_eq_dec : EqDecision thread.
Proof. solve_decision. Defined.
Global Instance obj_eq_dec : EqDecision obj.
Proof. solve_decision. Defined.
Global Instance loc_eq_dec : EqDecision loc.
Proof. solve_decision. Defined.

Record views := mkViews {
  cur : thread -> nat -> Prop;   (* happens before the next action of the thread *)
  acq : thread -> nat -> Prop;   (* will, after the next acquire fence *)
  rel : thread -> nat -> Prop;   (* happens before the last release fence *)
  msg : obj -> nat -> Prop;      (* what a reader that acquires learns *)
  acs : loc -> nat -> bool -> bool -> Prop; (* accesses so far *)
  cod : N -> nat -> Prop;        (* user code of a task *)
  gpa : N -> N -> bool -> Prop;  (* child, parent, is it a call *)
  now : nat
}.

Definition v0 : views :=
  mkViews (fun _ _ => False) (fun _ _ => False) (fun _ _ => False) (fun _ _ => False)
    (fun _ _ _ _ => False) (fun _ _ => False) (fun _ _ _ => False) 0.

(** What the action acquires. *)
Definition gains (g : views) (t : thread) (a : action) (m : nat) : Prop :=
  match a with
  | Load o q | Rmw o q _ => q = true /\ msg g o m
  | Fence q _ => q = true /\ acq g t m
  | _ => False
  end.

Definition cur' (g : views) (x : thread * action) (t : thread) (m : nat) : Prop :=
  cur g t m \/ (t = x.1 /\ (m = now g \/ gains g t x.2 m)).

Definition acq' (g : views) (x : thread * action) (t : thread) (m : nat) : Prop :=
  acq g t m \/ (t = x.1 /\ match x.2 with Load o _ | Rmw o _ _ => msg g o m | _ => False end).

Definition rel' (g : views) (x : thread * action) (t : thread) (m : nat) : Prop :=
  rel g t m \/ (t = x.1 /\ match x.2 with Fence _ r => r = true /\ cur' g x t m | _ => False end).

Definition msg' (g : views) (x : thread * action) (o : obj) (m : nat) : Prop :=
  match x.2 with
  | Store o' r => if decide (o' = o) then (r = true /\ cur' g x x.1 m) \/ rel g x.1 m else msg g o m
  | Rmw o' _ r =>
    if decide (o' = o) then msg g o m \/ (r = true /\ cur' g x x.1 m) \/ rel g x.1 m else msg g o m
  | Write (LAt o') => if decide (o' = o) then False else msg g o m
  | _ => msg g o m
  end.

Definition vstep (g : views) (x : thread * action) : views :=
  mkViews (cur' g x) (acq' g x) (rel' g x) (msg' g x)
    (fun l m w a => acs g l m w a \/ (m = now g /\ access x.2 = Some (l, w, a)))
    (fun f m => cod g f m \/ (m = now g /\ x.2 = Code f))
    (fun c p b => gpa g c p b \/
       match x.2 with
       | Note (EvFork q d _ _) => d = c /\ q = p /\ b = false
       | Note (EvCall q d _ _) => d = c /\ q = p /\ b = true
       | _ => False
       end)
    (S (now g)).

Fixpoint vrun (g : views) (tr : trace) : views :=
  match tr with [] => g | x :: tr' => vrun (vstep g x) tr' end.

Lemma vrun_app g tr1 tr2 : vrun g (tr1 ++ tr2) = vrun (vrun g tr1) tr2.
Proof. revert g. induction tr1; intros g; cbn; auto. Qed.

(** The action [x] does not race with any earlier one. *)
Definition safe (g : views) (x : thread * action) : Prop :=
  forall l w a m w' a', access x.2 = Some (l, w, a) -> acs g l m w' a' ->
    (w = true \/ w' = true) -> (a = false \/ a' = false) -> cur g x.1 m.

Fixpoint all_safe (g : views) (tr : trace) : Prop :=
  match tr with [] => True | x :: tr' => safe g x /\ all_safe (vstep g x) tr' end.

Lemma all_safe_app g tr1 tr2 : all_safe g (tr1 ++ tr2) <-> all_safe g tr1 /\ all_safe (vrun g tr1) tr2.
Proof. revert g. induction tr1 as [|x tr1 IH]; intros g; cbn; [tauto|]. rewrite IH. tauto. Qed.

(** ** Soundness *)

Definition hbe (tr : trace) (m n : nat) : Prop := m = n \/ hb tr m n.

Section prefix.
  Context (tr tr2 : trace).
  Lemma pre_lookup n x : tr !! n = Some x -> (tr ++ tr2) !! n = Some x.
  Proof. apply lookup_app_l_Some. Qed.
  Lemma pre_inv n x : (n < length tr)%nat -> (tr ++ tr2) !! n = Some x -> tr !! n = Some x.
  Proof. intros H. by rewrite lookup_app_l. Qed.
  Lemma lt_of n x : tr !! n = Some x -> (n < length tr)%nat.
  Proof. apply lookup_lt_Some. Qed.

  Lemma po_pre i j : po tr i j -> po (tr ++ tr2) i j.
  Proof. intros (H & t & a & b & H1 & H2). split; [done|]. exists t, a, b. split; by apply pre_lookup. Qed.
  Lemma rel_side_pre o a h : rel_side tr o a h -> rel_side (tr ++ tr2) o a h.
  Proof.
    intros (t & x & H1 & H2 & H3). exists t, x. split; [by apply pre_lookup|]. split; [done|].
    destruct H3 as [?|(? & y & ? & ?)]; [by left|right]. split; [done|]. exists y. split; [by apply pre_lookup|done].
  Qed.
  Lemma rel_seq_pre o h k : rel_seq tr o h k -> rel_seq (tr ++ tr2) o h k.
  Proof.
    intros (H1 & (t & x & H2 & H3) & H4). split; [done|]. split; [exists t, x; split; [by apply pre_lookup|done]|].
    intros j t' x' Hj Hl. apply (H4 j t'); [done|]. apply pre_inv in Hl; [done|]. apply lt_of in H2. lia.
  Qed.
  Lemma reads_from_pre o k j : reads_from tr o k j -> reads_from (tr ++ tr2) o k j.
  Proof.
    intros (H1 & (t & x & H2 & H3) & (t' & x' & H4 & H5) & H6). split; [done|].
    split; [exists t, x; split; [by apply pre_lookup|done]|].
    split; [exists t', x'; split; [by apply pre_lookup|done]|].
    intros n t'' x'' Hn Hl. apply (H6 n t''); [done|]. apply pre_inv in Hl; [done|]. apply lt_of in H4. lia.
  Qed.
  Lemma acq_side_pre j b : acq_side tr j b -> acq_side (tr ++ tr2) j b.
  Proof.
    intros (t & x & H1 & H3). exists t, x. split; [by apply pre_lookup|].
    destruct H3 as [?|(? & y & ? & ?)]; [by left|right]. split; [done|]. exists y. split; [by apply pre_lookup|done].
  Qed.
  Lemma sync_pre a b : synchronises tr a b -> synchronises (tr ++ tr2) a b.
  Proof.
    intros (o & h & k & j & H1 & H2 & H3 & H4). exists o, h, k, j.
    split; [by apply rel_side_pre|]. split; [by apply rel_seq_pre|].
    split; [by apply reads_from_pre|by apply acq_side_pre].
  Qed.
  Lemma hb_pre i j : hb tr i j -> hb (tr ++ tr2) i j.
  Proof.
    induction 1 as [i j H|i j k H _ IH].
    - apply tc_once. destruct H; [left; by apply po_pre|right; by apply sync_pre].
    - eapply tc_l; [|exact IH]. destruct H; [left; by apply po_pre|right; by apply sync_pre].
  Qed.
  Lemma hbe_pre i j : hbe tr i j -> hbe (tr ++ tr2) i j.
  Proof. intros [->|H]; [by left|right; by apply hb_pre]. Qed.
End prefix.

Lemma hbe_po tr m n k : hbe tr m n -> po tr n k -> hb tr m k.
Proof. intros [->|H] Hp; [by apply tc_once; left|]. eapply tc_r; [exact H|]. by left. Qed.
Lemma hbe_sw tr m n k : hbe tr m n -> synchronises tr n k -> hb tr m k.
Proof. intros [->|H] Hp; [by apply tc_once; right|]. eapply tc_r; [exact H|]. by right. Qed.

Record sound (tr : trace) (g : views) : Prop := {
  s_now : now g = length tr;
  s_cur : forall t m, cur g t m -> exists n a, tr !! n = Some (t, a) /\ hbe tr m n;
  s_rel : forall t m, rel g t m -> exists n a, tr !! n = Some (t, a) /\ rel_fence a /\ hbe tr m n;
  s_msg : forall o m, msg g o m -> exists a h k, rel_side tr o a h /\ rel_seq tr o h k /\ hbe tr m a /\
            forall j t x, (k < j)%nat -> tr !! j = Some (t, x) -> ~ writes o x;
  s_acq : forall t m, acq g t m -> exists o a h k j x, rel_side tr o a h /\ rel_seq tr o h k /\ hbe tr m a /\
            reads_from tr o k j /\ tr !! j = Some (t, x);
  s_acs : forall l m w a, acs g l m w a <-> exists t x, tr !! m = Some (t, x) /\ access x = Some (l, w, a);
  s_cod : forall f m, cod g f m <-> exists t, tr !! m = Some (t, Code f);
  s_gpa : forall c p b, gpa g c p b <-> exists n t st x,
            tr !! n = Some (t, Note (if b then EvCall p c st x else EvFork p c st x))
}.

Lemma sound0 : sound [] v0.
Proof.
  constructor; cbn; try done.
  - intros l m w a. split; [done|]. intros (t & x & H & _). by rewrite lookup_nil in H.
  - intros f m. split; [done|]. intros (t & H). by rewrite lookup_nil in H.
  - intros c p b. split; [done|]. intros (n & t & st & x & H); by rewrite lookup_nil in H.
Qed.

Lemma hb_len tr i j : hb tr i j -> (j < length tr)%nat.
Proof.
  induction 1 as [i j H|]; [|done]. destruct H as [(_ & t & a & b & _ & H)|(o & h & k & j' & _ & _ & _ & t & x & H & H')].
  - by eapply lookup_lt_Some.
  - destruct H' as [(-> & _)|(_ & y & H' & _)]; by eapply lookup_lt_Some.
Qed.

Lemma snoc_lookup {A} (l : list A) x n y :
  (l ++ [x]) !! n = Some y <-> l !! n = Some y \/ (n = length l /\ y = x).
Proof.
  split.
  - intros H. destruct (decide (n < length l)%nat) as [Hl|Hl].
    + left. by rewrite lookup_app_l in H.
    + right. rewrite lookup_app_r in H by lia. destruct (n - length l)%nat eqn:E; [|done].
      cbn in H. injection H as <-. split; [lia|done].
  - intros [H|(-> & ->)]; [by apply lookup_app_l_Some|]. rewrite lookup_app_r by lia.
    by rewrite Nat.sub_diag.
Qed.

Lemma sound_step tr g x : sound tr g -> sound (tr ++ [x]) (vstep g x).
Proof.
  intros S. destruct x as [t0 a0]. set (tr1 := tr ++ [(t0, a0)]).
  pose proof (s_now _ _ S) as En.
  assert (Hn : tr1 !! now g = Some (t0, a0)). { apply snoc_lookup. right. by rewrite En. }
  assert (Hpo : forall n a, tr !! n = Some (t0, a) -> po tr1 n (now g)).
  { intros n a H. split; [rewrite En; by eapply lookup_lt_Some|]. exists t0, a, a0. split; [by apply pre_lookup|done]. }
  assert (Hmsg : forall o m, msg g o m -> atomic_read o a0 -> exists a h k,
     rel_side tr1 o a h /\ rel_seq tr1 o h k /\ hbe tr1 m a /\ reads_from tr1 o k (now g)).
  { intros o m Hm Hr. destruct (s_msg _ _ S o m Hm) as (a & h & k & H1 & H2 & H3 & H4).
    exists a, h, k. split; [by apply rel_side_pre|]. split; [by apply rel_seq_pre|]. split; [by apply hbe_pre|].
    destruct H2 as (_ & (tk & xk & Hk & Hw) & _). pose proof (lookup_lt_Some _ _ _ Hk).
    split; [lia|]. split; [exists tk, xk; split; [by apply pre_lookup|done]|].
    split; [exists t0, a0; done|]. intros n t x Hlt Hl. apply snoc_lookup in Hl as [Hl|(-> & _)]; [|lia].
    apply (H4 n t); [lia|done]. }
  (* everything in the new view happens before the action, or is the action *)
  assert (Hcur : forall m, cur' g (t0, a0) t0 m -> hbe tr1 m (now g)).
  { intros m [H|(_ & [->|H])]; cbn in *.
    - destruct (s_cur _ _ S t0 m H) as (n & a & Hl & Hh). right. eapply hbe_po; [by apply hbe_pre|by eapply Hpo].
    - by left.
    - right. unfold gains in H. destruct a0 as [| | |o q| |o q r|q r|]; try done; destruct H as (-> & H).
      + destruct (Hmsg o m H eq_refl) as (a & h & k & H1 & H2 & H3 & H4).
        eapply hbe_sw; [exact H3|]. exists o, h, k, (now g). split_and!; try done.
        exists t0, (Load o true). split; [done|]. by left.
      + destruct (Hmsg o m H eq_refl) as (a & h & k & H1 & H2 & H3 & H4).
        eapply hbe_sw; [exact H3|]. exists o, h, k, (now g). split_and!; try done.
        exists t0, (Rmw o true r). split; [done|]. by left.
      + destruct (s_acq _ _ S t0 m H) as (o & a & h & k & j & x & H1 & H2 & H3 & H4 & H5).
        eapply hbe_sw; [by apply hbe_pre|]. exists o, h, k, j.
        split; [by apply rel_side_pre|]. split; [by apply rel_seq_pre|]. split; [by apply reads_from_pre|].
        exists t0, x. split; [by apply pre_lookup|]. right. split; [rewrite En; by eapply lookup_lt_Some|].
        exists (Fence true r). done. }
  constructor; cbn [now cur acq rel msg acs cod gpa vstep].
  - rewrite En. unfold tr1. rewrite app_length. cbn. lia.
  - intros t m H. destruct (decide (t = t0)) as [->|Hne].
    + exists (now g), a0. split; [done|]. by apply Hcur.
    + destruct H as [H|(-> & _)]; [|done]. destruct (s_cur _ _ S t m H) as (n & a & Hl & Hh).
      exists n, a. split; [by apply pre_lookup|by apply hbe_pre].
  - intros t m [H|(-> & H)].
    + destruct (s_rel _ _ S t m H) as (n & a & Hl & Hf & Hh).
      exists n, a. split_and!; [by apply pre_lookup|done|by apply hbe_pre].
    + cbn in H. destruct a0 as [| | | | | |q r|]; try done. destruct H as (-> & H).
      exists (now g), (Fence q true). split_and!; [done|done|by apply Hcur].
  - intros o m H. unfold msg' in H. cbn in H.
    (* if the action does not write o *)
    assert (Hkeep : msg g o m -> ~ writes o a0 -> exists a h k, rel_side tr1 o a h /\ rel_seq tr1 o h k /\ hbe tr1 m a /\
            forall j t x, (k < j)%nat -> tr1 !! j = Some (t, x) -> ~ writes o x).
    { intros Hm Hw. destruct (s_msg _ _ S o m Hm) as (a & h & k & H1 & H2 & H3 & H4). exists a, h, k.
      split_and!; [by apply rel_side_pre|by apply rel_seq_pre|by apply hbe_pre|].
      intros j t x Hj Hl. apply snoc_lookup in Hl as [Hl|(_ & [= -> ->])]; [by apply (H4 j t)|done]. }
    assert (Hlast : forall j t x, (now g < j)%nat -> tr1 !! j = Some (t, x) -> ~ writes o x).
    { intros j t x Hj Hl. apply lookup_lt_Some in Hl. unfold tr1 in Hl. rewrite app_length in Hl. cbn in Hl. lia. }
    assert (Hnew : atomic_write o a0 -> writes o a0 -> (releases a0 /\ cur' g (t0, a0) t0 m) \/ rel g t0 m ->
      exists a h k, rel_side tr1 o a h /\ rel_seq tr1 o h k /\ hbe tr1 m a /\
            forall j t x, (k < j)%nat -> tr1 !! j = Some (t, x) -> ~ writes o x).
    { intros Hw Hw' Hr.
      assert (rel_seq tr1 o (now g) (now g)).
      { split; [done|]. split; [exists t0, a0; done|]. intros j t x Hj. lia. }
      destruct Hr as [(Hr & Hc)|Hr].
      - exists (now g), (now g), (now g). split_and!; [|done|by apply Hcur|done].
        exists t0, a0. split_and!; [done|done|]. by left.
      - destruct (s_rel _ _ S t0 m Hr) as (n & a & Hl & Hf & Hh).
        exists n, (now g), (now g). split_and!; [|done|by apply hbe_pre|done].
        exists t0, a0. split_and!; [done|done|]. right. split; [rewrite En; by eapply lookup_lt_Some|].
        exists a. split; [by apply pre_lookup|done]. }
    destruct a0 as [l|l|f|o' q|o' r|o' q r|q r|e]; try (apply Hkeep; [done|by intros []]).
    + destruct l as [| | | | | | |o']; try (apply Hkeep; [done|done]).
      destruct (decide (o' = o)) as [->|Hne]; [done|]. apply Hkeep; [done|]. by intros [= ->].
    + destruct (decide (o' = o)) as [->|Hne].
      * apply Hnew; [done|done|]. destruct H as [(-> & H)|H]; [left; done|by right].
      * apply Hkeep; [done|]. cbn. congruence.
    + destruct (decide (o' = o)) as [->|Hne]; [|apply Hkeep; [done|cbn; congruence]].
      destruct H as [H|H].
      * destruct (s_msg _ _ S o m H) as (a & h & k & H1 & H2 & H3 & H4). exists a, h, (now g).
        split_and!; [by apply rel_side_pre| |by apply hbe_pre|done].
        destruct H2 as (Hk1 & (tk & xk & Hk & Hkw) & Hk2). pose proof (lookup_lt_Some _ _ _ Hk).
        split; [lia|]. split; [exists t0, (Rmw o q r); done|].
        intros j t x Hj Hl Hw. apply snoc_lookup in Hl as [Hl|(_ & [= -> ->])]; [|done].
        destruct (decide (j <= k)%nat); [eapply (Hk2 j t x); [lia|done|done]|]. exfalso. eapply (H4 j t x); [lia|done|done].
      * apply Hnew; [done|done|]. destruct H as [(-> & H)|H]; [left; done|by right].
  - intros t m [H|(-> & H)].
    + destruct (s_acq _ _ S t m H) as (o & a & h & k & j & x & H1 & H2 & H3 & H4 & H5).
      exists o, a, h, k, j, x. split_and!; [by apply rel_side_pre|by apply rel_seq_pre|by apply hbe_pre|
        by apply reads_from_pre|by apply pre_lookup].
    + cbn in H. destruct a0 as [| | |o q| |o q r| |]; try done.
      all: destruct (Hmsg o m H eq_refl) as (a & h & k & H1 & H2 & H3 & H4).
      all: eexists o, a, h, k, (now g), _; split_and!; done.
  - intros l m w a. rewrite (s_acs _ _ S). split.
    + intros [(t & x & H & H')|(-> & H)].
      * exists t, x. split; [by apply pre_lookup|done].
      * exists t0, a0. done.
    + intros (t & x & H & H'). apply snoc_lookup in H as [H|(-> & [= -> ->])]; [left; eauto|right].
      split; [done|done].
  - intros f m. rewrite (s_cod _ _ S). split.
    + intros [(t & H)|(-> & H)]; [exists t; by apply pre_lookup|]. cbn in H. subst. by exists t0.
    + intros (t & H). apply snoc_lookup in H as [H|(-> & [= -> <-])]; [left; eauto|by right].
  - intros c p b. rewrite (s_gpa _ _ S). split.
    + intros [(n & t & st & x & H)|H].
      * exists n, t, st, x. by apply pre_lookup.
      * cbn in H. destruct a0 as [| | | | | | |e]; try done. destruct e; try done; destruct H as (-> & -> & ->).
        all: eexists (now g), t0, _, _; eauto.
    + intros (n & t & st & x & H). apply snoc_lookup in H as [H|(-> & [= -> <-])]; [left; eauto|right].
      by destruct b.
Qed.

Lemma sound_run tr tr2 g : sound tr g -> sound (tr ++ tr2) (vrun g tr2).
Proof.
  revert tr g. induction tr2 as [|x tr2 IH]; intros tr g S; cbn.
  - by rewrite app_nil_r.
  - change (x :: tr2) with ([x] ++ tr2). rewrite app_assoc. apply IH. by apply sound_step.
Qed.

(** If no action races with an earlier one there are no data races. *)
Lemma safe_hb tr i j t a u b :
  all_safe v0 tr -> (i < j)%nat -> tr !! i = Some (t, a) -> tr !! j = Some (u, b) -> conflict a b -> hb tr i j.
Proof.
  intros Hs Hlt Hi Hj (l & wa & wb & ta & tb & Ha & Hb & Hw & Ht).
  destruct (elem_of_list_split_length _ _ _ Hj) as (tr1 & tr2 & -> & ->).
  apply all_safe_app in Hs as (_ & (Hs & _)). cbn in Hs.
  pose proof (sound_run [] tr1 v0 sound0) as S. cbn [app] in S.
  assert (Hc : cur (vrun v0 tr1) u i).
  { eapply (Hs l wb tb i wa ta); [done| |tauto|tauto].
    apply (s_acs _ _ S). exists t, a. split; [|done]. by rewrite lookup_app_l in Hi. }
  destruct (s_cur _ _ S _ _ Hc) as (n & x & Hl & Hh).
  eapply hbe_po; [by apply hbe_pre|].
  split; [by eapply lookup_lt_Some|]. exists u, x, b. split; [by apply pre_lookup|].
  rewrite lookup_app_r by lia. by rewrite Nat.sub_diag.
Qed.

Lemma conflict_sym a b : conflict a b -> conflict b a.
Proof. intros (l & wa & wb & ta & tb & H1 & H2 & H3 & H4). exists l, wb, wa, tb, ta. tauto. Qed.

Lemma safe_no_race tr i j : all_safe v0 tr -> ~ race tr i j.
Proof.
  intros Hs (Hne & (t & a & u & b & Hi & Hj & Hc) & H1 & H2).
  destruct (decide (i < j)%nat) as [Hl|Hl].
  - apply H1. by eapply safe_hb.
  - apply H2. eapply safe_hb; [done|lia|exact Hj|exact Hi|by apply conflict_sym].
Qed.
