(** * C23-C25: the event count. *)

From stdpp Require Import prelude list.
From Coq Require Import NArith Lia ZifyN ZifyNat.
From Verif Require Import EventModel EventSpec EventProofs.
Local Open Scope N_scope.

Lemma in_notify_pos h j a : VNotify j a ∈ h -> (0 < n_notify h)%nat.
Proof.
  induction h as [|x t IH]; intros Hl; [by apply elem_of_nil in Hl|].
  apply elem_of_cons in Hl as [<-|Hl]; simpl; [lia|]. specialize (IH Hl). destruct x; simpl; lia.
Qed.

Lemma filter_seq_cnt (f : nat -> bool) l : forall o, (forall i p, l !! i = Some p -> f (o + i)%nat = reg_pc p) ->
  length (filter (fun i => f i = true) (seq o (length l))) = cnt l.
Proof.
  unfold cnt. induction l as [|p l IH]; intros o Hl; [done|].
  pose proof (Hl 0%nat p eq_refl) as H0. rewrite Nat.add_0_r in H0.
  assert (length (filter (λ i : nat, f i = true) (seq (S o) (length l))) = length (filter (λ p0 : epc, reg_pc p0 = true) l)) as IH'.
  { apply IH. intros i q Hi. specialize (Hl (S i) q Hi). rewrite <- Hl. f_equal. lia. }
  simpl seq. rewrite !filter_cons, H0. destruct (decide (reg_pc p = true)); simpl; lia.
Qed.

Lemma n_registered_cnt n s h : einv n s h -> n_registered n h = cnt (e_pcs s).
Proof.
  intros [Hlen _ Htok _]. unfold n_registered. subst n.
  apply (filter_seq_cnt (fun i => registered i h)). intros i p Hi. by apply Htok.
Qed.

(** ** C24: the packed counter *)

(** The low 32 bits count the registered threads, the high 32 bits the
    notifications. *)
Theorem C24_counter n s h :
  N.of_nat n < 2 ^ 32 -> ereach n s h ->
  e_val s = (N.of_nat (n_notify h) mod 2 ^ 32) * 2 ^ 32 + N.of_nat (n_registered n h) /\
  N.of_nat (n_registered n h) < 2 ^ 32.
Proof.
  intros Hn Hr. pose proof (ereach_inv n s h Hn Hr) as Hi. rewrite (n_registered_cnt _ _ _ Hi).
  split; [apply Hi|]. pose proof (cnt_le (e_pcs s)). destruct Hi as [<- _ _ _]. lia.
Qed.

(** The assertions in wait and cancel_wait never fail. *)
Theorem C24_no_assertion_fails n s h l :
  N.of_nat n < 2 ^ 32 -> ereach n s h -> estep_of l s <> Undef.
Proof.
  intros Hn Hr E. pose proof (estep_ok n l s h Hn (ereach_inv n s h Hn Hr)) as H. by rewrite E in H.
Qed.

(** A waiter goes to sleep exactly if a multiple of 2^32 notifications were given
    since it prepared to wait (0, that is, or the counter has wrapped). *)
Theorem C24_sleeps_iff n s h i k aw c s' tr :
  N.of_nat n < 2 ^ 32 -> ereach n s h ->
  e_pcs s !! i = Some (EWaiting k aw) -> estep_of (EThread i c) s = Next s' tr ->
  asleep i s' <-> N.of_nat (n_notify (since_prepare i h)) mod 2 ^ 32 = 0.
Proof.
  intros Hn Hr Hi Hs. pose proof (ereach_inv n s h Hn Hr) as Hinv.
  pose proof (i_tok _ _ _ Hinv _ _ Hi) as [_ (m & Hk & Hm) _ _].
  assert (epoch (e_val s) = N.of_nat (n_notify h) mod 2 ^ 32) as Hep.
  { rewrite (i_val _ _ _ Hinv). apply epoch_pack. pose proof (cnt_le (e_pcs s)). destruct Hinv as [<- _ _ _]. lia. }
  assert (i < length (e_pcs s))%nat as Hlt by by eapply lookup_lt_Some.
  simpl in Hs. unfold thread in Hs. rewrite Hi in Hs.
  rewrite Hm, Nat2N.inj_add in Hep.
  set (cc := N.of_nat (n_notify (since_prepare i h))) in *. set (mm := N.of_nat m) in *.
  pose proof (N.div_mod' (mm + cc) (2 ^ 32)) as D1. pose proof (N.div_mod' mm (2 ^ 32)) as D2.
  pose proof (N.div_mod' cc (2 ^ 32)) as D3. pose proof (N.mod_lt cc (2 ^ 32) ltac:(done)).
  assert (epoch (e_val s) = k <-> cc mod 2 ^ 32 = 0) as Hiff.
  { rewrite Hep, Hk. split.
    - intros E. rewrite E in D1.
      pose proof (N.div_le_mono mm (mm + cc) (2 ^ 32) ltac:(done) ltac:(lia)).
      assert (cc = ((mm + cc) / 2 ^ 32 - mm / 2 ^ 32) * 2 ^ 32) as -> by lia. by apply N.mod_mul.
    - intros E. assert (cc = cc / 2 ^ 32 * 2 ^ 32) as -> by lia. by rewrite N.mod_add. }
  case_decide as E; injection Hs as <- <-; rewrite <- Hiff; split; try done; unfold asleep; simpl.
  - intros _. exists k, aw. by rewrite list_lookup_insert.
  - intros (k1 & aw1 & H1). by rewrite list_lookup_insert in H1.
Qed.

(** ** C23: no lost wake-up *)

(** A thread that sleeps although a notify_all came after its prepare_wait is about
    to be woken: some notify_all has not returned yet. *)
Theorem C23_no_lost_wakeup n s h i :
  N.of_nat n < 2 ^ 32 -> ereach n s h ->
  asleep i s -> N.of_nat (n_notify (since_prepare i h)) < 2 ^ 32 ->
  (exists j, VNotify j true ∈ since_prepare i h) ->
  exists j, notifying_all j h = true.
Proof.
  intros Hn Hr (k & aw & Hi) Hc Hex. pose proof (ereach_inv n s h Hn Hr) as Hinv.
  destruct (i_blk _ _ _ Hinv i k aw Hi Hc Hex) as [j Hj]. exists j.
  by apply (i_tok _ _ _ Hinv _ _ Hj).
Qed.

(** A sleeping thread is always counted, so a notifier does not skip the wake-up. *)
Theorem C23_sleeper_is_counted n s h i :
  N.of_nat n < 2 ^ 32 -> ereach n s h -> asleep i s ->
  registered i h = true /\ waiters (e_val s) <> 0.
Proof.
  intros Hn Hr (k & aw & Hi). pose proof (ereach_inv n s h Hn Hr) as Hinv.
  pose proof (i_tok _ _ _ Hinv _ _ Hi) as [T _ _ _]. split; [done|].
  rewrite (i_val _ _ _ Hinv), waiters_pack.
  - pose proof (cnt_insert (e_pcs s) i _ EIdle Hi) as H. simpl in H. lia.
  - pose proof (cnt_le (e_pcs s)). destruct Hinv as [<- _ _ _]. lia.
Qed.

(** ... and when notify_all has returned, nobody who slept before sleeps still. *)
Lemma run_reach n (r : run n) t : ereach n (r_state r t) (r_hist r t).
Proof.
  induction t as [|t IH]; [apply r_init|]. pose proof (r_step _ r t) as H.
  destruct (r_lab r t) as [l|].
  - destruct H as (tr & Hs & ->). by eapply ereach_step.
  - destruct H as [-> ->]. done.
Qed.

(** A step that is not thread [i]'s own leaves its program counter alone, except
    that a sleeper may be woken. *)
Lemma step_other l s s' tr i p :
  estep_of l s = Next s' tr -> e_pcs s !! i = Some p -> (forall c, l <> EThread i c) ->
  e_pcs s' !! i = Some p \/ (exists k aw, p = EBlocked k aw /\ e_pcs s' !! i = Some (EWaiting k aw)).
Proof.
  intros Hs Hi Hl. destruct l as [j c|j]; simpl in Hs.
  - assert (j <> i) as Hne by (intros ->; by destruct (Hl c)).
    unfold thread in Hs. destruct (e_pcs s !! j) as [q|] eqn:Hj; [|done].
    destruct q, c; repeat case_match; try done; injection Hs as <- <-; simpl;
      rewrite ?list_lookup_insert_ne by done; auto;
      try (rewrite list_lookup_fmap, Hi; simpl; destruct p; simpl; eauto; fail).
    destruct (decide (i = j0)) as [->|Hne'].
    + rewrite list_lookup_insert by by eapply lookup_lt_Some. rewrite Hi in *.
      match goal with H : Some _ = Some _ |- _ => injection H as -> end. eauto.
    + rewrite list_lookup_insert_ne by done. auto.
  - destruct (e_pcs s !! j) as [[]|] eqn:Hj; try done. injection Hs as <- <-. simpl.
    destruct (decide (i = j)) as [->|Hne'].
    + rewrite list_lookup_insert by by eapply lookup_lt_Some. rewrite Hi in Hj. injection Hj as ->. eauto.
    + rewrite list_lookup_insert_ne by done. auto.
Qed.

(** Persistence until the thread's own step. *)
Lemma until_own n (r : run n) i p : (forall k aw, p <> EBlocked k aw) ->
  forall d t c, e_pcs (r_state r t) !! i = Some p -> r_lab r (t + d) = Some (EThread i c) ->
  exists t' c', (t <= t' <= t + d)%nat /\ r_lab r t' = Some (EThread i c') /\ e_pcs (r_state r t') !! i = Some p.
Proof.
  intros Hp. induction d as [|d IH]; intros t c Hi Hl.
  - exists t, c. split; [lia|]. rewrite Nat.add_0_r in Hl. done.
  - assert ((exists c', r_lab r t = Some (EThread i c')) \/ e_pcs (r_state r (S t)) !! i = Some p) as [[c' Hc']|Hnext].
    { pose proof (r_step _ r t) as H. destruct (r_lab r t) as [l|].
      - destruct H as (tr & Hs & _).
        assert ((exists c', l = EThread i c') \/ (forall c', l <> EThread i c')) as [[c' ->]|Hne].
        { destruct l as [j c'|j]; [destruct (decide (j = i)) as [->|]|]; [left; eauto| |]; right; intros; congruence. }
        + left. eauto.
        + right. destruct (step_other _ _ _ _ _ _ Hs Hi Hne) as [?|(k & aw & -> & _)]; [done|]. by destruct (Hp k aw).
      - destruct H as [-> _]. auto. }
    + exists t, c'. split; [lia|done].
    + destruct (IH (S t) c Hnext) as (t' & c'' & Ht & Hl' & Hp').
      { rewrite <- Hl. f_equal. lia. }
      exists t', c''. split; [lia|done].
Qed.

(** The part of the history after the last prepare of [i] only grows while [i]
    does not prepare again. *)
Lemma since_grows n (r : run n) i t : in_wait i (r_state r t) ->
  since_prepare i (r_hist r (S t)) = since_prepare i (r_hist r t) \/
  exists tr, since_prepare i (r_hist r (S t)) = rev tr ++ since_prepare i (r_hist r t).
Proof.
  intros (k & aw & Hi). pose proof (r_step _ r t) as H. destruct (r_lab r t) as [l|]; [|destruct H as [_ ->]; auto].
  destruct H as (tr & Hs & ->). right. exists tr.
  assert (VPrepare i ∉ tr) as Hnp.
  { destruct l as [j c|j]; simpl in Hs.
    - unfold thread in Hs. destruct (decide (j = i)) as [->|Hne].
      + destruct Hi as [Hi|Hi]; rewrite Hi in Hs; [case_decide|destruct c; done]; injection Hs as _ <-; set_solver.
      + destruct (e_pcs (r_state r t) !! j) as [q|] eqn:Hj; [|done].
        destruct q, c; repeat case_match; try done; injection Hs as _ <-; set_solver.
    - repeat case_match; try done. injection Hs as _ <-. set_solver. }
  assert (VPrepare i ∉ rev tr) as Hnp' by (intros H; apply Hnp; apply elem_of_list_In; apply in_rev; by apply elem_of_list_In).
  clear -Hnp'. induction (rev tr) as [|e l IH]; [done|]. simpl.
  destruct e; simpl; try (rewrite IH by set_solver; done).
  rewrite decide_False by set_solver. by rewrite IH by set_solver.
Qed.

Lemma n_notify_app a b : n_notify (a ++ b) = (n_notify a + n_notify b)%nat.
Proof. induction a as [|x a IH]; [done|]. destruct x; simpl; lia. Qed.

(** In a fair execution, a thread whose wait was preceded or is overtaken by a
    notify_all comes back from wait. *)
Theorem C23_wait_returns n (r : run n) i t :
  N.of_nat n < 2 ^ 32 -> fair r ->
  in_wait i (r_state r t) -> (exists j, VNotify j true ∈ since_prepare i (r_hist r t)) ->
  (forall t', (t <= t')%nat -> in_wait i (r_state r t') -> N.of_nat (n_notify (since_prepare i (r_hist r t'))) < 2 ^ 32) ->
  exists t', (t <= t')%nat /\ r_hist r (S t') = VUnregister i :: r_hist r t'.
Proof.
  intros Hn Hf Hw Hex Hb.
  (* unregistering *)
  assert (forall t1 aw, (t <= t1)%nat -> e_pcs (r_state r t1) !! i = Some (EUnreg aw) ->
    exists t', (t <= t')%nat /\ r_hist r (S t') = VUnregister i :: r_hist r t') as PU.
  { intros t1 aw Ht1 Hp. destruct (Hf t1 i) as (t2 & c & Ht2 & Hl).
    { exists (EUnreg aw). done. }
    replace t2 with (t1 + (t2 - t1))%nat in Hl by lia.
    destruct (until_own n r i (EUnreg aw) ltac:(done) _ _ _ Hp Hl) as (t3 & c3 & Ht3 & Hl3 & Hp3).
    exists t3. split; [lia|]. pose proof (r_step _ r t3) as H. rewrite Hl3 in H. destruct H as (tr & Hs & ->).
    simpl in Hs. unfold thread in Hs. rewrite Hp3 in Hs. destruct (unregister _); [|done]. by injection Hs as _ <-. }
  (* comparing *)
  assert (forall d t1 k aw c, (t <= t1)%nat -> e_pcs (r_state r t1) !! i = Some (EWaiting k aw) ->
    (exists j, VNotify j true ∈ since_prepare i (r_hist r t1)) ->
    r_lab r (t1 + d)%nat = Some (EThread i c) ->
    exists t', (t <= t')%nat /\ r_hist r (S t') = VUnregister i :: r_hist r t') as PW.
  { induction d as [|d IH]; intros t1 k aw c Ht1 Hp Hx Hl.
    - rewrite Nat.add_0_r in Hl.
      pose proof (r_step _ r t1) as H. rewrite Hl in H. destruct H as (tr & Hs & Hh).
      assert (in_wait i (r_state r t1)) as Hin by (exists k, aw; auto).
      pose proof (C24_sleeps_iff n _ _ i k aw c _ _ Hn (run_reach n r t1) Hp Hs) as Hiff.
      specialize (Hb t1 Ht1 Hin). destruct Hx as [j Hj]. apply in_notify_pos in Hj.
      rewrite N.mod_small in Hiff by done.
      simpl in Hs. unfold thread in Hs. rewrite Hp in Hs.
      assert (i < length (e_pcs (r_state r t1)))%nat as Hlt by by eapply lookup_lt_Some.
      case_decide as E; injection Hs as Hs <-.
      + exfalso. assert (asleep i (r_state r (S t1))) as Ha.
        { exists k, aw. rewrite <- Hs. simpl. by rewrite list_lookup_insert. }
        apply Hiff in Ha. lia.
      + apply (PU (S t1) aw); [lia|]. rewrite <- Hs. simpl. by rewrite list_lookup_insert.
    - assert (in_wait i (r_state r t1)) as Hin by (exists k, aw; auto).
      assert ((exists c', r_lab r t1 = Some (EThread i c')) \/ e_pcs (r_state r (S t1)) !! i = Some (EWaiting k aw)) as [[c' Hc']|Hnext].
      { pose proof (r_step _ r t1) as H. destruct (r_lab r t1) as [l|].
        - destruct H as (tr & Hs & _).
          assert ((exists c', l = EThread i c') \/ (forall c', l <> EThread i c')) as [[c' ->]|Hne].
          { destruct l as [j c'|j]; [destruct (decide (j = i)) as [->|]|]; [left; eauto| |]; right; intros; congruence. }
          + left. eauto.
          + right. by destruct (step_other _ _ _ _ _ _ Hs Hp Hne) as [?|(? & ? & ? & _)].
        - destruct H as [-> _]. auto. }
      + (* own step now: as in the base case *)
        pose proof (r_step _ r t1) as H. rewrite Hc' in H. destruct H as (tr & Hs & Hh).
        pose proof (C24_sleeps_iff n _ _ i k aw c' _ _ Hn (run_reach n r t1) Hp Hs) as Hiff.
        specialize (Hb t1 Ht1 Hin). destruct Hx as [j Hj]. apply in_notify_pos in Hj.
        rewrite N.mod_small in Hiff by done.
        simpl in Hs. unfold thread in Hs. rewrite Hp in Hs.
        assert (i < length (e_pcs (r_state r t1)))%nat as Hlt by by eapply lookup_lt_Some.
        case_decide as E; injection Hs as Hs <-.
        * exfalso. assert (asleep i (r_state r (S t1))) as Ha.
          { exists k, aw. rewrite <- Hs. simpl. by rewrite list_lookup_insert. }
          apply Hiff in Ha. lia.
        * apply (PU (S t1) aw); [lia|]. rewrite <- Hs. simpl. by rewrite list_lookup_insert.
      + apply (IH (S t1) k aw c); [lia|done| |rewrite <- Hl; f_equal; lia].
        destruct Hx as [j Hj]. destruct (since_grows n r i t1 Hin) as [->|[tr ->]]; [eauto|].
        exists j. apply elem_of_app. auto. }
  assert (forall t1 k aw, (t <= t1)%nat -> e_pcs (r_state r t1) !! i = Some (EWaiting k aw) ->
    (exists j, VNotify j true ∈ since_prepare i (r_hist r t1)) ->
    exists t', (t <= t')%nat /\ r_hist r (S t') = VUnregister i :: r_hist r t') as PW'.
  { intros t1 k aw Ht1 Hp Hx. destruct (Hf t1 i) as (t2 & c & Ht2 & Hl); [by exists (EWaiting k aw)|].
    replace t2 with (t1 + (t2 - t1))%nat in Hl by lia. by eapply PW. }
  destruct Hw as (k & aw & [Hp|Hp]); [by eapply PW'|].
  (* asleep: a notifier is on its way *)
  destruct (i_blk _ _ _ (ereach_inv n _ _ Hn (run_reach n r t)) i k aw Hp) as [j Hj].
  { apply Hb; [lia|]. exists k, aw. auto. } { done. }
  assert (i <> j) as Hij by congruence.
  destruct (Hf t j) as (t2 & c & Ht2 & Hl); [by exists (EWake true)|].
  replace t2 with (t + (t2 - t))%nat in Hl by lia. revert Hl. generalize (t2 - t)%nat as d. clear t2 Ht2.
  enough (forall d t1, (t <= t1)%nat -> e_pcs (r_state r t1) !! i = Some (EBlocked k aw) -> e_pcs (r_state r t1) !! j = Some (EWake true) ->
    (exists j, VNotify j true ∈ since_prepare i (r_hist r t1)) ->
    r_lab r (t1 + d)%nat = Some (EThread j c) ->
    exists t', (t <= t')%nat /\ r_hist r (S t') = VUnregister i :: r_hist r t') as HH.
  { intros d. apply (HH d t); auto. }
  clear Hp Hj Hex.
  assert (forall t1 c', (t <= t1)%nat -> e_pcs (r_state r t1) !! i = Some (EBlocked k aw) -> e_pcs (r_state r t1) !! j = Some (EWake true) ->
    (exists j, VNotify j true ∈ since_prepare i (r_hist r t1)) ->
    r_lab r t1 = Some (EThread j c') ->
    exists t', (t <= t')%nat /\ r_hist r (S t') = VUnregister i :: r_hist r t') as Hown.
  { intros t1 c' Ht1 Hp Hj [x Hx] Hl.
    assert (in_wait i (r_state r t1)) as Hin by (exists k, aw; auto).
    apply (PW' (S t1) k aw); [lia| |].
    - pose proof (r_step _ r t1) as H. rewrite Hl in H. destruct H as (tr & Hs & _).
      simpl in Hs. unfold thread in Hs. rewrite Hj in Hs. injection Hs as Hs _. rewrite <- Hs. simpl.
      rewrite list_lookup_insert_ne by done. by rewrite list_lookup_fmap, Hp.
    - destruct (since_grows n r i t1 Hin) as [->|[tr ->]]; [eauto|]. exists x. apply elem_of_app. auto. }
  induction d as [|d IH]; intros t1 Ht1 Hp Hj Hx Hl.
  - rewrite Nat.add_0_r in Hl. by eapply Hown.
  - assert (in_wait i (r_state r t1)) as Hin by (exists k, aw; auto).
    assert (exists x, VNotify x true ∈ since_prepare i (r_hist r (S t1))) as Hx'.
    { destruct Hx as [x Hx]. destruct (since_grows n r i t1 Hin) as [->|[tr ->]]; [eauto|]. exists x. apply elem_of_app. auto. }
    assert ((exists c', r_lab r t1 = Some (EThread j c')) \/
      (e_pcs (r_state r (S t1)) !! j = Some (EWake true) /\
       (e_pcs (r_state r (S t1)) !! i = Some (EBlocked k aw) \/ e_pcs (r_state r (S t1)) !! i = Some (EWaiting k aw)))) as [[c' Hc']|[Hj' [Hi'|Hi']]].
    { pose proof (r_step _ r t1) as H. destruct (r_lab r t1) as [l|]; [|destruct H as [-> _]; auto].
      destruct H as (tr & Hs & _).
      assert ((exists c', l = EThread j c') \/ (forall c', l <> EThread j c')) as [[c' ->]|Hne].
      { destruct l as [j' c'|j']; [destruct (decide (j' = j)) as [->|]|]; [left; eauto| |]; right; intros; congruence. }
      { left. eauto. }
      right. split.
      - by destruct (step_other _ _ _ _ _ _ Hs Hj Hne) as [?|(? & ? & ? & _)].
      - destruct l as [l c'|l].
        + destruct (decide (l = i)) as [->|Hli].
          * simpl in Hs. unfold thread in Hs. rewrite Hp in Hs. by destruct c'.
          * destruct (step_other _ _ _ _ _ _ Hs Hp ltac:(intros; congruence)) as [?|(? & ? & [= <- <-] & ?)]; auto.
        + destruct (step_other _ _ _ _ _ _ Hs Hp ltac:(intros; congruence)) as [?|(? & ? & [= <- <-] & ?)]; auto. }
    + by eapply Hown.
    + apply (IH (S t1)); [lia|done|done|done|]. rewrite <- Hl. f_equal. lia.
    + eapply PW'; [|exact Hi'|done]. lia.
Qed.

(** Without the bound on the number of notifications the property is false: after
    exactly 2^32 notify_all calls the epoch has its old value and the thread sleeps,
    although every notifier has returned. *)
Lemma wrap_rounds m :
  exists h, ereach 2 (ECount (pack (N.of_nat m mod 2 ^ 32) 1) [EPrepared 0; EIdle]) h /\
    n_notify (since_prepare 0 h) = m /\ (forall j, notifying_all j h = false) /\
    (0 < m -> VNotify 1 true ∈ since_prepare 0 h)%nat.
Proof.
  induction m as [|m (h & Hr & Hc & Hna & Hin)].
  - exists [VPrepare 0]. split_and!; [|done|done|lia].
    apply (ereach_step 2 (einit 2) [] (EThread 0 ChPrepare) _ [VPrepare 0%nat]); [constructor|]. done.
  - set (v := pack (N.of_nat (S m) mod 2 ^ 32) 1).
    exists (VNotified 1 :: VNotify 1 true :: h). split_and!.
    + apply (ereach_step 2 (ECount v [EPrepared 0; EWake true]) (VNotify 1 true :: h) (EThread 1 ChGo) _ [VNotified 1%nat]).
      * apply (ereach_step 2 _ h (EThread 1 (ChNotify true)) _ [VNotify 1%nat true] Hr).
        simpl. unfold thread. simpl. rewrite decide_True by by rewrite waiters_pack.
        unfold set_pc, set_val. simpl. rewrite add_epoch_pack by done. f_equal. f_equal. unfold v. f_equal.
        rewrite N.add_mod_idemp_l by done. f_equal. lia.
      * done.
    + simpl. by rewrite Hc.
    + intros j. simpl. repeat case_decide; done.
    + intros _. simpl. set_solver.
Qed.

Theorem C23_2pow32_notifications_refuted :
  exists s h, ereach 2 s h /\ asleep 0 s /\
    N.of_nat (n_notify (since_prepare 0 h)) = 2 ^ 32 /\
    VNotify 1 true ∈ since_prepare 0 h /\
    (forall j, notifying_all j h = false).
Proof.
  destruct (wrap_rounds (N.to_nat (2 ^ 32))) as (h & Hr & Hc & Hna & Hin).
  rewrite N2Nat.id in Hr. rewrite N.mod_same in Hr by done.
  exists (ECount (pack 0 1) [EBlocked 0 false; EIdle]), h. split_and!.
  - apply (ereach_step 2 (ECount (pack 0 1) [EWaiting 0 false; EIdle]) h (EThread 0 ChGo) _ []).
    + apply (ereach_step 2 _ h (EThread 0 ChWait) _ [] Hr). done.
    + done.
  - exists 0, false. done.
  - rewrite Hc. apply N2Nat.id.
  - apply Hin. apply (Nat.lt_le_trans _ (N.to_nat 1)); [lia|]. lia.
  - done.
Qed.

(** ** C25: await *)

(** What has to be true of every event of a trace, given the events before it. *)
Definition await_ok (e : eev) (h : list eev) : Prop :=
  match e with
  | VAwaitCall i => registered i h = false /\ in_await i h = false
  | VAwaitRet i => registered i h = false /\ in_await i h = true /\ last_cond i h = Some CTrue
  | VAwaitThrow i x => registered i h = false /\ in_await i h = true /\ last_cond i h = Some (CThrow x)
  | _ => True
  end.

Lemma split0 (e : eev) k1 k2 : [] = k1 ++ e :: k2 -> False.
Proof. by destruct k1. Qed.
Lemma split1 (a e : eev) k1 k2 : [a] = k1 ++ e :: k2 -> e = a /\ k2 = [].
Proof. destruct k1 as [|? k1]; [by intros [= <- <-]|]. intros [= _ H]. by apply split0 in H. Qed.
Lemma split2 (a b e : eev) k1 k2 : [a; b] = k1 ++ e :: k2 -> (e = a /\ k2 = [b]) \/ (e = b /\ k2 = []).
Proof. destruct k1 as [|? k1]; [intros [= <- <-]; auto|]. intros [= _ H]. apply split1 in H. auto. Qed.

Lemma await_trace n s h h1 e h2 :
  N.of_nat n < 2 ^ 32 -> ereach n s h -> h = h1 ++ e :: h2 -> await_ok e h2.
Proof.
  intros Hn Hr. revert h1 e h2. induction Hr as [|s h l s' tr Hr IH Hs]; intros h1 e h2 E.
  { by destruct h1. }
  assert (forall k, k = rev tr -> forall h1 e h2, k ++ h = h1 ++ e :: h2 ->
    (exists k1, h = k1 ++ e :: h2) \/ (exists k1 k2, k = k1 ++ e :: k2 /\ h2 = k2 ++ h)) as Hsplit.
  { clear. intros k _. induction k as [|x k IHk]; intros h1 e h2 E; simpl in E; [left; eauto|].
    destruct h1 as [|y h1]; simpl in E.
    - injection E as -> <-. right. exists [], k. done.
    - injection E as -> E. destruct (IHk _ _ _ E) as [?|(k1 & k2 & -> & ->)]; [auto|].
      right. exists (y :: k1), k2. done. }
  destruct (Hsplit _ eq_refl _ _ _ E) as [[k1 Hk]|(k1 & k2 & Hk & ->)]; [by eapply IH|].
  clear IH E Hsplit h1.
  pose proof (ereach_inv n s h Hn Hr) as Hinv.
  destruct l as [i c|i]; simpl in Hs; cycle 1.
  { repeat case_match; try done. injection Hs as <- <-. by destruct k1. }
  unfold thread in Hs. destruct (e_pcs s !! i) as [p|] eqn:Hi; [|done].
  pose proof (i_tok _ _ _ Hinv _ _ Hi) as [T1 _ _ T4].
  destruct p, c; repeat case_match; try done; injection Hs as <- <-; simpl in Hk;
    (first [ apply split0 in Hk; done | apply split1 in Hk as [-> ->]
           | apply split2 in Hk as [[-> ->]|[-> ->]] ]);
    simpl; rewrite ?decide_True by done; simpl in T1, T4;
    repeat match goal with H : _ /\ _ |- _ => destruct H end; split_and?; done.
Qed.

(** await returns only after its last evaluation of the condition gave true; ... *)
Theorem C25_returns_when_true n s h1 i h2 :
  N.of_nat n < 2 ^ 32 -> ereach n s (h1 ++ VAwaitRet i :: h2) ->
  in_await i h2 = true /\ last_cond i h2 = Some CTrue.
Proof. intros Hn Hr. by destruct (await_trace n s _ _ _ _ Hn Hr eq_refl) as (_ & ? & ?). Qed.

(** ... throws only what the condition threw; ... *)
Theorem C25_throws_what_condition_threw n s h1 i x h2 :
  N.of_nat n < 2 ^ 32 -> ereach n s (h1 ++ VAwaitThrow i x :: h2) ->
  in_await i h2 = true /\ last_cond i h2 = Some (CThrow x).
Proof. intros Hn Hr. by destruct (await_trace n s _ _ _ _ Hn Hr eq_refl) as (_ & ? & ?). Qed.

(** ... and it is called, returns and throws with its thread not registered. *)
Theorem C25_registration_restored n s h1 e i h2 :
  N.of_nat n < 2 ^ 32 -> ereach n s (h1 ++ e :: h2) ->
  (e = VAwaitCall i \/ e = VAwaitRet i \/ exists x, e = VAwaitThrow i x) ->
  registered i h2 = false.
Proof.
  intros Hn Hr He. pose proof (await_trace n s _ _ _ _ Hn Hr eq_refl) as H.
  destruct He as [->|[->|[x ->]]]; by destruct H.
Qed.

(** The loop keeps going only while the condition is false: a thread sleeps in await
    only after the condition, evaluated since it prepared, gave false. *)
Theorem C25_sleeps_only_when_false n s h i :
  N.of_nat n < 2 ^ 32 -> ereach n s h -> asleep i s -> in_await i h = true -> last_cond i h = Some CFalse.
Proof.
  intros Hn Hr (k & aw & Hi) Ha. pose proof (ereach_inv n s h Hn Hr) as Hinv.
  pose proof (i_tok _ _ _ Hinv _ _ Hi) as [_ _ _ T]. destruct aw; simpl in T; [by destruct T|congruence].
Qed.

(** ** Non-vacuity *)

Fixpoint erun (ls : list elab) (s : ecount) (h : list eev) : option (ecount * list eev) :=
  match ls with
  | [] => Some (s, h)
  | l :: ls' => match estep_of l s with Next s' tr => erun ls' s' (rev tr ++ h) | _ => None end
  end.
Lemma erun_reach n ls s h s' h' : ereach n s h -> erun ls s h = Some (s', h') -> ereach n s' h'.
Proof.
  revert s h. induction ls as [|l ls IH]; intros s h Hr E; simpl in E; [by injection E as <- <-|].
  destruct (estep_of l s) as [s1 tr| |] eqn:Hs; try done. eapply IH; [|done]. by eapply ereach_step.
Qed.

(** Thread 0 awaits, finds its condition false and sleeps; thread 1 notifies all; the
    wake-up is on its way. *)
Example C23_nonvacuous : exists s h,
  ereach 2 s h /\ asleep 0 s /\ VNotify 1 true ∈ since_prepare 0 h /\ n_notify (since_prepare 0 h) = 1%nat /\
  notifying_all 1 h = true.
Proof.
  pose (ls := [EThread 0 ChAwait; EThread 0 (ChCond CFalse); EThread 0 ChGo; EThread 0 (ChCond CFalse); EThread 0 ChGo;
               EThread 1 (ChNotify true)]).
  destruct (erun ls (einit 2) []) as [[s h]|] eqn:E; [|vm_compute in E; done].
  exists s, h. split; [eapply erun_reach; [constructor|exact E]|].
  vm_compute in E. injection E as <- <-. split_and!; try done.
  - by exists 0, true.
  - simpl. set_solver.
Qed.

(** A whole await: false, sleep, woken, prepared again, true, returns. *)
Example C25_nonvacuous : exists s h,
  ereach 2 s (VAwaitRet 0 :: h) /\ n_notify h = 1%nat /\ last_cond 0 h = Some CTrue /\ e_val s = 2 ^ 32.
Proof.
  pose (ls := [EThread 0 ChAwait; EThread 0 (ChCond CFalse); EThread 0 ChGo; EThread 0 (ChCond CFalse); EThread 0 ChGo;
               EThread 1 (ChNotify true); EThread 1 ChGo; EThread 0 ChGo; EThread 0 ChGo; EThread 0 ChGo;
               EThread 0 (ChCond CTrue); EThread 0 ChGo]).
  destruct (erun ls (einit 2) []) as [[s [|e h]]|] eqn:E; [vm_compute in E; done| |vm_compute in E; done].
  exists s, h.
  assert (e = VAwaitRet 0) as -> by (vm_compute in E; by injection E as _ <- _).
  split; [eapply erun_reach; [constructor|exact E]|].
  vm_compute in E. injection E as <- <-. done.
Qed.

Example C25_throw_nonvacuous : exists s h,
  ereach 2 s (VAwaitThrow 0 7 :: h) /\ last_cond 0 h = Some (CThrow 7) /\ e_val s = 0.
Proof.
  pose (ls := [EThread 0 ChAwait; EThread 0 (ChCond CFalse); EThread 0 ChGo; EThread 0 (ChCond (CThrow 7)); EThread 0 ChGo]).
  destruct (erun ls (einit 2) []) as [[s [|e h]]|] eqn:E; [vm_compute in E; done| |vm_compute in E; done].
  exists s, h.
  assert (e = VAwaitThrow 0 7) as -> by (vm_compute in E; by injection E as _ <- _).
  split; [eapply erun_reach; [constructor|exact E]|].
  vm_compute in E. injection E as <- <-. done.
Qed.

(** A fair infinite execution that meets the hypotheses of [C23_wait_returns]. *)
Definition ex_labs : list elab :=
  [EThread 0 ChPrepare; EThread 0 ChWait; EThread 0 ChGo; EThread 1 (ChNotify true); EThread 1 ChGo; EThread 0 ChGo; EThread 0 ChGo].
Fixpoint ex_at (ls : list elab) (t : nat) (s : ecount) (h : list eev) : ecount * list eev :=
  match t, ls with
  | S t', l :: ls' => match estep_of l s with Next s' tr => ex_at ls' t' s' (rev tr ++ h) | _ => (s, h) end
  | _, _ => (s, h)
  end.
Lemma ex_step : forall t,
    match ex_labs !! t with
    | None => (ex_at ex_labs (S t) (einit 2) []).1 = (ex_at ex_labs t (einit 2) []).1 /\
              (ex_at ex_labs (S t) (einit 2) []).2 = (ex_at ex_labs t (einit 2) []).2
    | Some l => exists tr, estep_of l (ex_at ex_labs t (einit 2) []).1 = Next (ex_at ex_labs (S t) (einit 2) []).1 tr /\
              (ex_at ex_labs (S t) (einit 2) []).2 = rev tr ++ (ex_at ex_labs t (einit 2) []).2
    end.
Proof.
  intros t. do 7 (destruct t as [|t]; [eexists; split; vm_compute; reflexivity|]). by destruct t.
Qed.
Definition ex_run : run 2 :=
  Run 2 (fun t => (ex_at ex_labs t (einit 2) []).1) (fun t => (ex_at ex_labs t (einit 2) []).2) (fun t => ex_labs !! t)
    (ereach_init 2) ex_step.

Example C23_wait_returns_nonvacuous :
  fair ex_run /\ in_wait 0 (r_state ex_run 4) /\ (exists j, VNotify j true ∈ since_prepare 0 (r_hist ex_run 4)) /\
  (forall t', (4 <= t')%nat -> in_wait 0 (r_state ex_run t') -> N.of_nat (n_notify (since_prepare 0 (r_hist ex_run t'))) < 2 ^ 32).
Proof.
  assert (forall t, (7 <= t)%nat -> r_state ex_run t = ECount (2 ^ 32) [EIdle; EIdle]) as Hlate.
  { intros t Ht. do 7 (destruct t as [|t]; [lia|]). destruct t; done. }
  split_and!.
  - intros t i (p & Hp & Hr). 
    do 7 (destruct t as [|t]; [destruct i as [|[|i]]; vm_compute in Hp; try done; injection Hp as <-; try done;
       match goal with |- context[EThread ?i _] =>
         first [ by exists 1%nat, ChWait; split; [lia|] | by exists 2%nat, ChGo; split; [lia|] | by exists 4%nat, ChGo; split; [lia|]
               | by exists 5%nat, ChGo; split; [lia|] | by exists 6%nat, ChGo; split; [lia|] ] end|]).
    rewrite Hlate in Hp by lia. destruct i as [|[|i]]; vm_compute in Hp; try done; by injection Hp as <-.
  - exists 0, false. right. done.
  - exists 1%nat. vm_compute. left.
  - intros t' Ht'. do 4 (destruct t' as [|t']; [lia|]). do 3 (destruct t' as [|t']; [vm_compute; done|]).
    intros (k & aw & Hi). rewrite Hlate in Hi by lia. by destruct Hi.
Qed.

Print Assumptions C23_no_lost_wakeup.
Print Assumptions C23_sleeper_is_counted.
Print Assumptions C23_wait_returns.
Print Assumptions C23_2pow32_notifications_refuted.
Print Assumptions C24_counter.
Print Assumptions C24_no_assertion_fails.
Print Assumptions C24_sleeps_iff.
Print Assumptions C25_returns_when_true.
Print Assumptions C25_throws_what_condition_threw.
Print Assumptions C25_registration_restored.
Print Assumptions C25_sleeps_only_when_false.
