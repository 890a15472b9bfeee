(** * lazy_pool: each scheduled job is run by its worker, once and in order. *)

From stdpp Require Import prelude list.
From Coq Require Import Lia.
From Verif Require Import PoolCommon PoolFair PoolSpec LazyModel LazyProofs LazyInv LazyThief LazyLive BusyProofs.

Section Hist.
Context (n nd : nat) (dom : nat -> nat).
Notation worker := (worker n nd dom).
Notation step := (step n nd dom).
Notation reach := (reach n nd dom).

Definition lheld (p : wpc) : list nat :=
  match p with
  | WCancelJob h | TSub h | TNote h | TWake h | TAct h | TDom h _ | TDomNote h _ | TDomWake h _ | TRun h => h
  | _ => []
  end.

Record hinv (s : st) (h : list pev) : Prop := HInv {
  hi_jobs : forall w, pushes w (rev h) = ran w (rev h) ++ lheld (pc s w) ++ q s w;
  hi_ev : stop s = true <-> EvStop ∈ h
}.

(** A worker's own step keeps the balance. *)
Lemma worker_jobs w c s s' tr : worker w c s = Next s' tr ->
  pushes w tr = [] /\ (forall u, u <> w -> pushes u tr = [] /\ ran u tr = []) /\
  lheld (pc s w) ++ q s w = ran w tr ++ lheld (pc s' w) ++ q s' w.
Proof.
  intros Hs. unfold LazyModel.worker, ret, notify, unregister, thief_sub in Hs.
  destruct (pc s w) eqn:Hp.
  all: try (destruct (wake_one _ _ _ _ _) as [s1|] eqn:Hwk; [|done]; injection Hs as <- <-; simpl; rewrite LazyProofs.fset_eq;
    apply wake_one_classes in Hwk as (_ & _ & _ & _ & _ & _ & _ & Eq & _); rewrite Eq; split_and!; done).
  all: try (repeat case_match; try done; simplify_eq; simpl; rewrite ?LazyProofs.fset_eq; split_and!; try done; by rewrite ?app_nil_r).
  - injection Hs as <- <-. simpl. rewrite LazyProofs.fset_eq. split_and!; [done| |by rewrite decide_True, app_nil_r].
    intros u Hu. by rewrite decide_False.
Qed.

Lemma step_stop x s s' tr : step x s = Next s' tr -> (stop s' = true <-> stop s = true \/ EvStop ∈ tr).
Proof.
  assert (forall t : list pev, EvStop ∉ t -> stop s' = stop s -> (stop s' = true <-> stop s = true \/ EvStop ∈ t)) as Hk.
  { intros t H1 ->. split; [by left|intros [?|?]; done]. }
  assert (forall b, (true = true <-> b = true \/ EvStop ∈ (if b then [] else [EvStop]))) as Hb.
  { intros b. split; [|done]. intros _. destruct b; [by left|right; left]. }
  intros Hs. destruct x as [u c|a u j| |u]; simpl in Hs.
  - case_decide; [|done]. unfold LazyModel.worker, ret, notify, unregister, thief_sub in Hs.
    destruct (pc s u) eqn:Hp.
    all: try (destruct (wake_one _ _ _ _ _) as [s1|] eqn:Hwk; [|done]; injection Hs as <- <-;
      apply wake_one_classes in Hwk as (_ & _ & _ & _ & _ & _ & Eq & _); apply Hk; [apply not_elem_of_nil|by simpl; rewrite Eq]).
    all: try (by injection Hs as <- <-; apply Hb).
    all: repeat case_match; try done; simplify_eq; (apply Hk; [set_solver|done]).
  - unfold agent, ret, notify in Hs. repeat case_match; try done; simplify_eq; (apply Hk; [set_solver|done]).
  - unfold destructor, ret, notify in Hs. destruct (dt s).
    + injection Hs as <- <-. apply Hb.
    + repeat case_match; try done; simplify_eq; (apply Hk; [set_solver|done]).
    + repeat case_match; try done; simplify_eq; (apply Hk; [set_solver|done]).
    + repeat case_match; try done; simplify_eq; (apply Hk; [set_solver|done]).
    + done.
  - unfold spurious, ret in Hs. repeat case_match; try done; simplify_eq; (apply Hk; [set_solver|done]).
Qed.

Lemma other_jobs w x s s' tr : step x s = Next s' tr -> notw w x -> lheld (pc s' w) = lheld (pc s w) /\ ran w tr = [] /\ q s' w = q s w ++ pushes w tr.
Proof.
  intros Hs Hn. split.
  { destruct (other_pc n nd dom w x _ _ _ Hs Hn) as [->|(k & -> & ->)]; done. }
  destruct x as [u c|a u j| |u]; simpl in Hs, Hn.
  - case_decide; [|done]. destruct (worker_jobs u c s s' tr Hs) as (_ & Ho & _). destruct (Ho w) as [Ep Er]; [done|]. split; [done|].
    rewrite Ep, app_nil_r. assert (step (LWorker u c) s = Next s' tr) as Hst by (simpl; by rewrite decide_True).
    destruct (other_q n nd dom w _ _ _ _ Hst Hn) as [E|(j & _ & Hj)]; [done|]. exfalso.
    assert (forall t, pushes w t = [] -> EvPush w j ∉ t) as Hno.
    { clear. induction t as [|[u y|u js|] t IH]; simpl; intros H Hin; [by apply elem_of_nil in Hin|..]; apply elem_of_cons in Hin as [E|Hin]; try done.
      - simplify_eq. by rewrite decide_True in H.
      - case_decide; [done|]. by apply IH.
      - by apply IH.
      - by apply IH. }
    by eapply Hno.
  - unfold agent, ret, notify in Hs. destruct (ag s a).
    + case_decide; [|done]. injection Hs as <- <-. simpl. split; [done|]. unfold fset. repeat case_decide; subst; by rewrite ?app_nil_r.
    + injection Hs as <- <-. simpl. by rewrite app_nil_r.
    + injection Hs as <- <-. simpl. by rewrite app_nil_r.
  - unfold destructor, ret, notify in Hs. destruct (dt s).
    + injection Hs as <- <-. simpl. destruct (stop s); simpl; by rewrite app_nil_r.
    + repeat case_match; try done; simplify_eq; simpl; by rewrite app_nil_r.
    + injection Hs as <- <-. simpl. by rewrite app_nil_r.
    + repeat case_match; try done; simplify_eq; simpl; by rewrite app_nil_r.
    + done.
  - unfold spurious, ret in Hs. repeat case_match; try done; simplify_eq; simpl; by rewrite app_nil_r.
Qed.

Lemma step_hinv x s s' h tr : hinv s h -> step x s = Next s' tr -> hinv s' (rev tr ++ h).
Proof.
  intros [I1 I2] Hs. split.
  - intros w. rewrite rev_app_distr, rev_involutive, pushes_app, ran_app, I1.
    assert ((exists c, x = LWorker w c) \/ notw w x) as [[c ->]|Hn].
    { destruct x as [v c| | |]; simpl; auto. destruct (decide (v = w)) as [->|]; eauto. }
    * simpl in Hs. case_decide; [|done]. destruct (worker_jobs w c s s' tr Hs) as (Ep & _ & E). rewrite Ep, app_nil_r, E, <- !app_assoc. done.
    * destruct (other_jobs w x s s' tr Hs Hn) as (E1 & E2 & E3). rewrite E1, E2, E3, <- !app_assoc. done.
  - rewrite (step_stop x s s' tr Hs), I2, elem_of_app, elem_rev. tauto.
Qed.

Theorem reach_hinv s h : reach s h -> hinv s h.
Proof.
  induction 1 as [|s h x s' tr Hr IH Hs].
  - split; [done|]. split; [done|]. intros H. by apply elem_of_nil in H.
  - by eapply step_hinv.
Qed.
End Hist.
