(** * C78: a task does not outlive its future unless it was detached: false of the code.

    Vocabulary: FutureLifeSpec.v; [reach]: see Prop_Future.v. *)

From stdpp Require Import prelude gmap list.
From Verif Require Import EventuallyModel FutureModel FutureSpec FutureLifeSpec FutureProofs FutureStep FutureStep2.
Local Notation step := FutureModel.step.

Lemma fate_good h i :
  good h -> scheduled i h ->
  (exists x, refers x h = Some i) \/ EvSignalled i ∈ h \/ detached i h \/ overwritten i h.
Proof.
  induction h as [|e h IH]; intros Hg (x & k & en & Hs); [by apply elem_of_nil in Hs|].
  cbn [good] in Hg. destruct Hg as [Hok Hg].
  assert (Keep : EvSignalled i ∈ h \/ detached i h \/ overwritten i h ->
                 EvSignalled i ∈ e :: h \/ detached i (e :: h) \/ overwritten i (e :: h)).
  { intros [H|[(h1 & y & h0 & -> & H)|(h1 & y & z & h0 & -> & H)]].
    - left. by right.
    - right; left. by exists (e :: h1), y, h0.
    - right; right. by exists (e :: h1), y, z, h0. }
  apply elem_of_cons in Hs as [<-|Hs].
  { left. exists x. cbn. by rewrite decide_True. }
  destruct (IH Hg) as [(w & Hw)|H]; [by exists x, k, en| |by right; apply Keep].
  destruct e as [y j k' e'|y z|y b|y|y j|y j g|y j|y|y o|j|j|j];
    try (left; exists w; cbn [refers]; exact Hw).
  - left. exists w. cbn [refers ok] in *. destruct Hok as [Hy _].
    rewrite decide_False; [done|]. intros ->. congruence.
  - cbn [refers]. destruct (decide (y = z)) as [->|Hne]; [by left; exists w|].
    destruct (decide (w = z)) as [->|Hwz]; [left; exists y; by rewrite decide_True|].
    destruct (decide (w = y)) as [->|Hwy].
    + right; right; right. by exists [], y, z, h.
    + left. exists w. by rewrite !decide_False.
  - destruct (decide (w = y)) as [->|Hwy].
    + right; right; left. by exists [], y, h.
    + left. exists w. cbn [refers]. by rewrite decide_False.
  - destruct (decide (w = y)) as [->|Hwy].
    + cbn [ok] in Hok. destruct o as [j|]; [|congruence]. destruct Hok as [H1 H2].
      right; left. right. congruence.
    + left. exists w. cbn [refers]. by rewrite decide_False.
Qed.

(** A task that no future refers to has signalled, or was detached, or its future was assigned to. *)
Theorem C78_outlives_partial s h i :
  reach s h -> scheduled i h -> unreferenced i h ->
  EvSignalled i ∈ h \/ detached i h \/ overwritten i h.
Proof.
  intros Hr Hs Hu. destruct (fate_good h i (i_good s h (reach_inv s h Hr)) Hs) as [(x & Hx)|H]; [|done].
  by destruct (Hu x).
Qed.
Print Assumptions C78_outlives_partial.

(** So a client that does neither, and has destroyed its futures, has no task running. *)
Theorem C78_all_joined_partial s h :
  reach s h -> (forall x, EvDetached x ∉ h) -> (forall i, ~ overwritten i h) ->
  (forall x, refers x h = None) -> forall i, scheduled i h -> EvSignalled i ∈ h.
Proof.
  intros Hr Hd Ho Hx i Hs. destruct (C78_outlives_partial s h i Hr Hs) as [?|[(h1 & x & h0 & -> & _)|H]]; [|done| |].
  - intros x. by rewrite Hx.
  - destruct (Hd x). rewrite elem_of_app, elem_of_cons. by right; left.
  - by destruct (Ho i).
Qed.
Print Assumptions C78_all_joined_partial.

Fixpoint go (s : st) (h : list ev) (l : list act) : option (st * list ev) :=
  match l with
  | [] => Some (s, h)
  | a :: l => match step s a with Some (Next s' l') => go s' (rev l' ++ h) l | _ => None end
  end.
Lemma go_reach l : forall s h s' h', reach s h -> go s h l = Some (s', h') -> reach s' h'.
Proof.
  induction l as [|a l IH]; intros s h s' h' Hr H; cbn in H; [by injection H as <- <-|].
  destruct (step s a) as [[s1 l1|]|] eqn:E; [|done|done]. eapply IH; [|exact H]. by eapply reach_step.
Qed.

(** Without the exception for assignment it is false: the client never detaches, destroys both its
    futures, which returns, and task 0 has not finished. *)
Theorem C78_outlives_refuted :
  ~ (forall s h i, reach s h -> scheduled i h -> unreferenced i h -> EvSignalled i ∈ h \/ detached i h).
Proof.
  intros H.
  destruct (go init [] [AStart 0 (FSchedule 0 0 KVal (EndVal 42)); AStart 0 (FSchedule 1 1 KVal (EndVal 43));
    AStart 0 (FAssign 0 1); ATask 1; ATask 1; ATask 1; AStart 0 (FDestroy 0); ACont 0; AStart 0 (FDestroy 1)]) as [[s h]|] eqn:E;
    [|by vm_compute in E].
  pose proof (go_reach _ _ _ _ _ reach_init E) as Hr. vm_compute in E. injection E as <- <-.
  destruct (H _ _ 0 Hr) as [Hs|(h1 & x & h0 & Hs & Hx)].
  - exists 0, KVal, (EndVal 42). set_solver.
  - intros x. cbn. repeat case_decide; done.
  - set_solver.
  - assert (X : EvDetached x ∈ h1 ++ EvDetached x :: h0) by set_solver. rewrite <- Hs in X. set_solver.
Qed.
Print Assumptions C78_outlives_refuted.

(** The hypotheses of C78_all_joined_partial can be met by a client that moves and destroys its futures. *)
Example C78_instance : exists s h,
  reach s h /\ (forall x, EvDetached x ∉ h) /\ (forall i, ~ overwritten i h) /\ (forall x, refers x h = None) /\
  scheduled 0 h /\ scheduled 1 h /\ EvMoved 2 0 ∈ h.
Proof.
  destruct (go init [] [AStart 0 (FSchedule 0 0 KVal (EndVal 42)); AStart 0 (FSchedule 1 1 KVal (EndVal 43));
    AStart 0 (FMove 2 0); AStart 0 (FDestroy 2); ATask 1; ATask 1; ATask 0; ATask 0; ACont 0; AStart 0 (FDestroy 0);
    AStart 0 (FDestroy 1); ACont 0]) as [[s h]|] eqn:E; [|by vm_compute in E].
  pose proof (go_reach _ _ _ _ _ reach_init E) as Hr. vm_compute in E. injection E as <- <-.
  eexists _, _. split; [exact Hr|]. split_and!.
  - intros x. set_solver.
  - intros i (h1 & y & z & h0 & Hs & Hne & Hx). clear -Hs Hx.
    repeat (destruct h1 as [|? h1]; cbn [app] in Hs;
      [first [discriminate Hs | (injection Hs as <- <- <-; by vm_compute in Hx)]|try discriminate Hs; injection Hs as _ Hs]).
  - intros x. cbn. repeat case_decide; done.
  - exists 0, KVal, (EndVal 42). set_solver.
  - exists 1, KVal, (EndVal 43). set_solver.
  - set_solver.
Qed.
