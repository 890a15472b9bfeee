(** * C28, C47, C49: busy_pool and unit_pool. *)

From stdpp Require Import prelude list.
From Coq Require Import Lia.
From Verif Require Import PoolCommon PoolFair PoolSpec PoolExamples.
From Verif Require Import BusyModel BusySpec BusyProofs BusyLive.

Section Thms.
(** [unit] is true for unit_pool. *)
Context (n : nat) (unit : bool).
Notation step := (step n unit).
Notation reach := (reach n unit).
Notation fair := (fair n unit).

(** ** C47: a job is run at most once, by the worker it was scheduled to, in order *)
Theorem C47_busy_jobs_in_order s h w : reach s h -> ran w (rev h) `prefix_of` pushes w (rev h).
Proof. intros Hr. pose proof (bi_jobs _ _ _ _ (reach_binv n unit s h Hr) w) as ->. by apply prefix_app_r. Qed.

(** ** C28: shutdown *)

(** When the destructor has returned every job scheduled before the stop has been run. *)
Theorem C28_busy_drains s h w : reach s h -> dt s = true -> w < n ->
  pushes w (upto_stop (rev h)) `prefix_of` ran w (rev h).
Proof.
  intros Hr Hd Hw. pose proof (reach_binv n unit s h Hr) as B. apply (bi_left _ _ _ _ B). by rewrite (bi_dt _ _ _ _ B Hd w Hw).
Qed.
(** ... and all threads have left. *)
Theorem C28_busy_threads_left s h w : reach s h -> dt s = true -> w < n -> pc s w = XDone.
Proof. intros Hr Hd Hw. exact (bi_dt _ _ _ _ (reach_binv n unit s h Hr) Hd w Hw). Qed.

(** Once the pool is told to stop and no more work turns up, the destructor returns. *)
Theorem C28_busy_terminates sg l : fair sg l -> forall i N, stop (sg i) = true -> work_ends n unit N sg l ->
  exists k, i <= k /\ dt (sg k) = true.
Proof. intros HF i N Hi HN. by eapply shutdown_terminates. Qed.

(** ** C49: a scheduled job is run *)
Theorem C49_busy_job_run sg l : fair sg l -> forall i w j, emits step sg l i (EvPush w j) -> stop (sg i) = false ->
  exists k h, i <= k /\ emits step sg l k (EvRun w h) /\ j ∈ h.
Proof. intros HF i w j He Hs. by eapply job_runs. Qed.
End Thms.

(** ** Concrete executions *)

(** Two workers; a job is scheduled to worker 0 just after it has looked; the pool is
    told to stop; worker 0 runs the job on its way out. *)
Definition bz_script : list lab :=
  [LWorker 0 false; LWorker 0 false; LWorker 0 false; LPush 0 7; LStop] ++
  rep 12 [LWorker 0 false; LWorker 1 false] ++ [LJoin].
Definition bz_run : list lab := greedy (step 2 false) bz_script init.
Definition bz_sg := states (step 2 false) init bz_run.
Definition bz_l := busy_labels bz_run.
(** unit_pool *)
Definition uz_run : list lab := greedy (step 1 true) ([LWorker 0 false; LWorker 0 false; LPush 0 7; LStop] ++ rep 12 [LWorker 0 false] ++ [LJoin]) init.

Example bz_fair : fair 2 false bz_sg bz_l.
Proof.
  assert (match exec (step 2 false) bz_run init with
          | Some (s, t) => pc s 0 = XDone /\ pc s 1 = XDone /\ dt s = true /\ stop s = true | None => False end) as H by (vm_compute; done).
  destruct (exec (step 2 false) bz_run init) as [[s t]|] eqn:Hx; [|destruct H]. destruct H as (H1 & H2 & H3 & H4).
  eapply busy_fair_of_list; [exact Hx|..|exact H4|exact H3]. clear Hx. intros [|[|w]] Hw; [done|done|lia].
Qed.
Example uz_fair : fair 1 true (states (step 1 true) init uz_run) (busy_labels uz_run).
Proof.
  assert (match exec (step 1 true) uz_run init with
          | Some (s, t) => pc s 0 = XDone /\ dt s = true /\ stop s = true | None => False end) as H by (vm_compute; done).
  destruct (exec (step 1 true) uz_run init) as [[s t]|] eqn:Hx; [|destruct H]. destruct H as (H1 & H3 & H4).
  eapply busy_fair_of_list; [exact Hx|..|exact H4|exact H3]. clear Hx. intros [|w] Hw; [done|lia].
Qed.

Example C28_busy_instance : exists s h, reach 2 false s h /\ dt s = true /\ rev h = [EvPush 0 7; EvStop; EvRun 0 [7]].
Proof.
  assert (match exec (step 2 false) bz_run init with
          | Some (s, t) => dt s = true /\ t = [EvPush 0 7; EvStop; EvRun 0 [7]] | None => False end) as H by (vm_compute; done).
  destruct (exec (step 2 false) bz_run init) as [[s t]|] eqn:Hx; [|destruct H]. destruct H as [H1 H2].
  exists s, (rev t). split; [rewrite <- (app_nil_r (rev t)); eapply busy_exec_reach; [constructor|exact Hx]|].
  rewrite rev_involutive. exact (conj H1 H2).
Qed.
Example C28_unit_instance : exists s h, reach 1 true s h /\ dt s = true /\ rev h = [EvPush 0 7; EvStop; EvRun 0 [7]].
Proof.
  assert (match exec (step 1 true) uz_run init with
          | Some (s, t) => dt s = true /\ t = [EvPush 0 7; EvStop; EvRun 0 [7]] | None => False end) as H by (vm_compute; done).
  destruct (exec (step 1 true) uz_run init) as [[s t]|] eqn:Hx; [|destruct H]. destruct H as [H1 H2].
  exists s, (rev t). split; [rewrite <- (app_nil_r (rev t)); eapply busy_exec_reach; [constructor|exact Hx]|].
  rewrite rev_involutive. exact (conj H1 H2).
Qed.
Example C49_push_instance : emits (step 2 false) bz_sg bz_l 3 (EvPush 0 7) /\ stop (bz_sg 3) = false.
Proof.
  split; [|vm_compute; reflexivity]. pose proof (run_step _ _ _ _ (fr_run _ _ _ _ bz_fair) 3) as H.
  assert (bz_l 3 = Some (LPush 0 7)) as E by (vm_compute; reflexivity). rewrite E in H. destruct H as [tr H].
  exists (LPush 0 7), tr. split; [exact E|]. split; [exact H|]. clear E. revert H. generalize (bz_sg 3) (bz_sg (3 + 1)). intros s s' H.
  simpl in H. injection H as _ <-. set_solver.
Qed.
Lemma busy_quiet ls sg w x i : forallb (fun z => match z with LPush _ _ => false | LWorker _ c => negb c | _ => true end) ls = true ->
  ~ emits (step 2 false) sg (busy_labels ls) i (EvPush w x).
Proof.
  intros Hf (y & tr & Hl & Hs & Hin). rewrite forallb_forall in Hf. unfold busy_labels in Hl.
  assert (forall u j, y <> LPush u j) as Hy.
  { intros u j ->. destruct (nth_error ls i) eqn:E; [|done]. apply nth_error_In in E. specialize (Hf _ E). injection Hl as ->. done. }
  destruct y as [u c|u j| |]; simpl in Hs.
  - case_decide; [|done]. unfold worker in Hs. repeat case_match; simplify_eq; try (by apply elem_of_nil in Hin); apply elem_of_list_singleton in Hin; done.
  - exact (Hy u j eq_refl).
  - repeat case_match; simplify_eq; try (by apply elem_of_nil in Hin); apply elem_of_list_singleton in Hin; done.
  - clear Hl. repeat case_match; simplify_eq; by apply elem_of_nil in Hin.
Qed.
Example C28_busy_ends_instance : stop (bz_sg 5) = true /\ work_ends 2 false 5 bz_sg bz_l.
Proof.
  split; [vm_compute; reflexivity|]. intros j Hj. split.
  - intros w x (y & tr & Hl & Hs & Hin).
    eapply (busy_quiet (skipn 5 bz_run) (fun i => bz_sg (5 + i)) w x (j - 5) ltac:(vm_compute; reflexivity)).
    exists y, tr. unfold busy_labels. rewrite nth_error_skipn. replace (5 + (j - 5)) with j by lia. replace (5 + (j - 5 + 1)) with (j + 1) by lia. exact (conj Hl (conj Hs Hin)).
  - intros w c Hl _. unfold bz_l, busy_labels in Hl. destruct (nth_error bz_run j) eqn:E; [|discriminate Hl].
    assert (forallb (fun z => match z with LWorker _ c => negb c | _ => true end) bz_run = true) as Hf by (vm_compute; reflexivity).
    rewrite forallb_forall in Hf. apply nth_error_In in E. specialize (Hf _ E). injection Hl as ->. simpl in Hf. by destruct c.
Qed.

Print Assumptions C28_busy_drains.
Print Assumptions C28_busy_threads_left.
Print Assumptions C28_busy_terminates.
Print Assumptions C47_busy_jobs_in_order.
Print Assumptions C49_busy_job_run.
