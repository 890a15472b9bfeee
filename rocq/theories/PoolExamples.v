(** * Concrete executions of the thread pools, for the examples. *)

From stdpp Require Import prelude list.
From Coq Require Import Lia.
From Verif Require Import PoolCommon PoolFair PoolSpec.
From Verif Require LazyModel LazySpec LazyLive BusyModel BusySpec.

Lemma nth_error_skipn {A} (l : list A) i j : nth_error (skipn i l) j = nth_error l (i + j).
Proof. revert l. induction i as [|i IH]; intros [|x l]; simpl; try done. by destruct j. Qed.

(** ** lazy_pool *)
Section Lazy.
Import LazyModel LazySpec LazyLive.
Context (n nd : nat) (dom : nat -> nat).
Notation step := (step n nd dom).

Lemma exec_reach ls s h s' t : reach n nd dom s h -> exec step ls s = Some (s', t) -> reach n nd dom s' (rev t ++ h).
Proof.
  revert s h t. induction ls as [|x ls IH]; intros s h t Hr Hx; simpl in Hx.
  - injection Hx as <- <-. done.
  - destruct (step x s) as [s1 tr| |] eqn:Hs; try done. destruct (exec step ls s1) as [[s2 t2]|] eqn:E; [|done]. injection Hx as <- <-.
    rewrite rev_app_distr, <- app_assoc. eapply IH; [|done]. by econstructor.
Qed.

Lemma agent_label ls s s' t a : exec step ls s = Some (s', t) -> ag s a <> AIdle -> ag s' a = AIdle -> exists j w y, nth_error ls j = Some (LAgent a w y).
Proof.
  revert s t. induction ls as [|x ls IH]; intros s t Hx Hn He; simpl in Hx.
  - injection Hx as <- <-. done.
  - destruct (step x s) as [s1 tr| |] eqn:Hs; try done. destruct (exec step ls s1) as [[s2 t2]|] eqn:E; [|done]. injection Hx as <- <-.
    assert ((exists w y, x = LAgent a w y) \/ nota a x) as [(w & y & ->)|Hna].
    { destruct x as [|b w y| |]; simpl; auto. destruct (decide (b = a)) as [->|]; eauto. }
    + exists 0, w, y. done.
    + destruct (IH s1 t2 E) as (j & w & y & Hj); [by rewrite (other_ag n nd dom a x _ _ _ Hs Hna)|done|]. exists (S j), w, y. done.
Qed.
Lemma agent_idle ls s s' t a : exec step ls s = Some (s', t) -> ag s a = AIdle -> Forall (nota a) ls -> ag s' a = AIdle.
Proof.
  revert s t. induction ls as [|x ls IH]; intros s t Hx Hn He; simpl in Hx.
  - injection Hx as <- <-. done.
  - destruct (step x s) as [s1 tr| |] eqn:Hs; try done. destruct (exec step ls s1) as [[s2 t2]|] eqn:E; [|done]. injection Hx as <- <-.
    inversion He; subst. eapply IH; [done| |done]. by rewrite (other_ag n nd dom a x _ _ _ Hs).
Qed.

Lemma fair_of_list ls fin t : exec step ls init = Some (fin, t) ->
  (forall w, w < n -> pc fin w = XDone) -> (forall a, ag fin a = AIdle) -> dt fin = DDone ->
  fair n nd dom (states step init ls) (labels ls).
Proof.
  intros Hx H1 H2 H3. assert (state_after step init ls = fin) as Hfin by (unfold state_after; by rewrite Hx).
  split.
  - apply run_of_list. by rewrite Hx.
  - intros w Hw i. exists (i `max` length ls). split; [lia|right]. intros x [c ->]. rewrite states_end by lia. rewrite Hfin. simpl.
    rewrite decide_True by done. unfold worker. by rewrite H1.
  - intros a i Hn. destruct (exec step (firstn i ls) init) as [[s1 t1]|] eqn:E1.
    + unfold states, state_after in Hn. rewrite E1 in Hn.
      rewrite <- (firstn_skipn i ls), exec_app, E1 in Hx. destruct (exec step (skipn i ls) s1) as [[s2 t2]|] eqn:E2; [|done].
      injection Hx as -> _. destruct (agent_label _ _ _ _ a E2 Hn (H2 a)) as (j & w & y & Hj). rewrite nth_error_skipn in Hj.
      exists (i + j), w, y. split; [lia|done].
    + unfold states, state_after in Hn. by rewrite E1 in Hn.
  - intros i _. exists (i `max` length ls). split; [lia|right]. rewrite states_end by lia. rewrite Hfin. simpl. unfold destructor. by rewrite H3.
Qed.
End Lazy.

(** ** busy_pool and unit_pool *)
Section Busy.
Import BusyModel BusySpec.
Context (n : nat) (unit : bool).
Notation step := (step n unit).

Lemma busy_exec_reach ls s h s' t : reach n unit s h -> exec step ls s = Some (s', t) -> reach n unit s' (rev t ++ h).
Proof.
  revert s h t. induction ls as [|x ls IH]; intros s h t Hr Hx; simpl in Hx.
  - injection Hx as <- <-. done.
  - destruct (step x s) as [s1 tr| |] eqn:Hs; try done. destruct (exec step ls s1) as [[s2 t2]|] eqn:E; [|done]. injection Hx as <- <-.
    rewrite rev_app_distr, <- app_assoc. eapply IH; [|done]. by econstructor.
Qed.

(** An execution that goes on joining for ever: [LJoin] is always possible at the end. *)
Definition busy_labels (ls : list lab) (i : nat) : option lab :=
  match nth_error ls i with Some x => Some x | None => Some LJoin end.

Lemma busy_fair_of_list ls fin t : exec step ls init = Some (fin, t) ->
  (forall w, w < n -> pc fin w = XDone) -> stop fin = true -> dt fin = true ->
  fair n unit (states step init ls) (busy_labels ls).
Proof.
  intros Hx H1 H2 H3. assert (state_after step init ls = fin) as Hfin by (unfold state_after; by rewrite Hx).
  assert (step LJoin fin = Next fin []) as Hj.
  { simpl. rewrite decide_True by done. assert (forallb (fun u => match pc fin u with XDone => true | _ => false end) (seq 0 n) = true) as ->.
    - apply forallb_forall. intros u Hu. apply in_seq in Hu. rewrite H1 by lia. done.
    - f_equal. destruct fin; simpl in *. congruence. }
  split.
  - pose proof (run_of_list step init ls ltac:(by rewrite Hx)) as [R0 R1]. split; [done|]. intros i. specialize (R1 i).
    unfold labels in R1. unfold busy_labels. destruct (nth_error ls i) eqn:E; [done|]. apply nth_error_None in E.
    rewrite !states_end by lia. rewrite Hfin. eauto.
  - intros w Hw i. exists (i `max` length ls). split; [lia|right]. intros x [c ->]. rewrite states_end by lia. rewrite Hfin. simpl.
    rewrite decide_True by done. unfold worker. by rewrite H1.
  - intros i. exists (i `max` length ls). split; [lia|left]. exists LJoin. unfold busy_labels.
    assert (nth_error ls (i `max` length ls) = None) as -> by (apply nth_error_None; lia). done.
Qed.
End Busy.

Definition rep {A} (k : nat) (l : list A) : list A := concat (repeat l k).
