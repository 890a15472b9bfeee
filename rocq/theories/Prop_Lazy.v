(** * C26-C28, C46-C48: lazy_pool. *)

From stdpp Require Import prelude list.
From Coq Require Import Lia.
From Verif Require Import PoolCommon PoolFair PoolSpec PoolExamples.
From Verif Require Import LazyModel LazySpec LazyProofs LazyInv LazyThief LazyLive LazyLive2 LazyLive3 LazyHist.

Section Thms.
Context (n nd : nat) (dom : nat -> nat).
Notation step := (step n nd dom).
Notation reach := (reach n nd dom).
Notation fair := (fair n nd dom).

(** ** C46: the pool's counters and assertions *)

(** In every reachable state every step is defined: the counters of thieves, active
    workers and waiters never fall below zero. *)
Theorem C46_never_undefined s h l : reach s h -> step l s <> Undef.
Proof. intros Hr. apply step_defined. by apply (reach_all n nd dom s h). Qed.

(** ** C47: a job is run at most once, by the worker it was scheduled to, in order *)

Theorem C47_lazy_jobs_in_order s h w : reach s h -> ran w (rev h) `prefix_of` pushes w (rev h).
Proof. intros Hr. destruct (reach_hinv n nd dom s h Hr) as [H _]. rewrite (H w). by apply prefix_app_r. Qed.

(** ** C26: a submitted job is not slept through *)

(** A worker that sleeps with a job in its list is about to be woken by the thread
    that has put it there. *)
Theorem C26_job_not_slept_through s h w : reach s h -> w < n -> q s w <> [] -> asleep w s -> submitting dom w s.
Proof.
  intros Hr Hw Hq [k Hk]. destruct (reach_all n nd dom s h Hr) as (_ & _ & J & _).
  destruct (proj2 (J w Hw Hq) k Hk) as [[a Ha]|[_ [a Ha]]]; exists a; auto.
Qed.

Lemma push_facts sg l i w j : run step init sg l -> emits step sg l i (EvPush w j) -> w < n /\ j ∈ q (sg (i + 1)) w.
Proof.
  intros HR (x & tr & Hl & Hs & Hin). destruct x as [u c|a u y| |u]; simpl in Hs.
  - exfalso. case_decide; [|done]. unfold worker, ret in Hs.
    repeat case_match; simplify_eq; try (by apply elem_of_nil in Hin); apply elem_of_list_singleton in Hin; done.
  - unfold agent, ret, notify in Hs. destruct (ag (sg i) a); simpl in Hs.
    + case_decide; [|done]. injection Hs as Hs <-. apply elem_of_list_singleton in Hin. simplify_eq. split; [done|].
      rewrite <- Hs. simpl. unfold fset. rewrite decide_True by done. set_solver.
    + injection Hs as _ <-. by apply elem_of_nil in Hin.
    + injection Hs as _ <-. by apply elem_of_nil in Hin.
  - exfalso. unfold destructor, ret, notify in Hs. repeat case_match; simplify_eq; try (by apply elem_of_nil in Hin); apply elem_of_list_singleton in Hin; done.
  - exfalso. unfold spurious, ret in Hs. repeat case_match; simplify_eq. by apply elem_of_nil in Hin.
Qed.

Lemma push_emits sg l i a w j : run step init sg l -> l i = Some (LAgent a w j) -> ag (sg i) a = AIdle -> emits step sg l i (EvPush w j).
Proof.
  intros HR Hl Ha. pose proof (run_step _ _ _ _ HR i) as H. rewrite Hl in H. destruct H as [tr H]. exists (LAgent a w j), tr.
  split_and!; [done|done|]. simpl in H. unfold agent in H. rewrite Ha in H. case_decide; [|done]. injection H as _ <-. set_solver.
Qed.

(** In a fair execution a scheduled job is run, or the pool is told to stop. *)
Theorem C26_job_run sg l : fair sg l -> forall i w j, emits step sg l i (EvPush w j) ->
  exists k, i < k /\ ((exists h, emits step sg l k (EvRun w h) /\ j ∈ h) \/ stop (sg k) = true).
Proof.
  intros HF i w j He. destruct (push_facts sg l i w j (fr_run _ _ _ _ _ HF) He) as [Hw Hj].
  destruct (job_runs n nd dom sg l HF w j (i + 1) Hw Hj) as (k & Hk & H). exists k. split; [lia|done].
Qed.

(** ** C27: while somebody works, somebody looks for work *)

(** If some worker runs a task and some worker of domain [d] sleeps, then a worker of
    [d] is searching, or somebody is about to wake one in [d]. *)
Theorem C27_somebody_searches s h d : reach s h -> d < nd ->
  (exists u t, u < n /\ pc s u = TRun t) -> (exists v, v < n /\ dom v = d /\ asleep v s) ->
  (exists u, u < n /\ dom u = d /\ searching dom u s) \/ (exists u, u < n /\ will_wake dom d u s).
Proof.
  intros Hr Hd (r & t & Hrn & Hrp) (v & Hv & Hvd & [kv Hvk]). destruct (reach_all n nd dom s h Hr) as (C & F & _ & T).
  assert (0 < active s) as Ha by (eapply active_pos; [exact Hrn|exact C|by rewrite Hrp]).
  destruct (T Ha d Hd) as [(u & Hu & Hud & Hl)|[(u & Hu & Hp)|[_ [Hnb|(u & Hu & Hp)]]]].
  - destruct (pc s u) eqn:E; try (left; exists u; split_and!; [done|done|unfold searching; rewrite E, ?Hud; destruct Hl as [Hl|Hl]; simpl in Hl; done]);
      try (destruct Hl as [Hl|Hl]; simpl in Hl; done);
      try (right; exists u; split; [done|]; unfold will_wake; by rewrite E).
    exfalso. eapply (fi_2 _ _ _ _ F d Hd); [|exact Hv|exact Hvd|exact Hvk]. left. exists u. by rewrite E.
  - right. exists u. split; [done|]. unfold will_wake. destruct (pc s u); simpl in Hp; try done; lia.
  - exfalso. apply (Hnb v Hv Hvd). by rewrite Hvk.
  - right. exists u. split; [done|]. unfold will_wake. destruct (pc s u); simpl in Hp; try done; lia.
Qed.

(** In a fair execution, if some worker runs a task, then from then on each domain
    comes to have a worker that searches, or nobody asleep, or the pool is stopping. *)
Theorem C27_search_starts sg l : fair sg l -> forall i d, d < nd -> (exists u t, u < n /\ pc (sg i) u = TRun t) ->
  exists k, i <= k /\ ((exists u, u < n /\ dom u = d /\ searching dom u (sg k)) \/
                      (forall u, u < n -> dom u = d -> ~ asleep u (sg k)) \/ stop (sg k) = true).
Proof.
  intros HF i d Hd (u & t & Hu & Hp). apply (someone_looks n nd dom sg l HF d i Hd).
  destruct (run_inv n nd dom sg l HF i) as (C & _). eapply active_pos; [exact Hu|exact C|by rewrite Hp].
Qed.

(** ** C28: shutdown *)

(** Once the destructor of the pool waits for the threads, nobody sleeps. *)
Theorem C28_lazy_nobody_asleep s h : reach s h -> (forall u, u < n -> dom u < nd) -> dt s = DJoin \/ dt s = DDone ->
  forall w, w < n -> ~ asleep w s.
Proof.
  intros Hr Hdom Hj w Hw [k Hk]. destruct (reach_all n nd dom s h Hr) as (_ & F & _).
  eapply (fi_2 _ _ _ _ F (dom w)); [by apply Hdom| |exact Hw|done|exact Hk]. right. destruct Hj as [E|E]; by rewrite E.
Qed.

(** Once the destructor has been called and no more work turns up, it returns. *)
Theorem C28_lazy_terminates sg l : fair sg l -> (forall u, u < n -> dom u < nd) ->
  forall i N, dt (sg i) <> DIdle -> work_ends n nd dom N sg l -> exists k, dt (sg k) = DDone.
Proof. intros HF Hdom i N Hi HN. by eapply shutdown_terminates. Qed.

(** When it has returned all threads have left. *)
Theorem C28_lazy_threads_left s h : reach s h -> dt s = DDone -> forall w, w < n -> pc s w = XDone.
Proof.
  intros Hr. induction Hr as [|s h x s' tr Hr IH Hs]; [done|]. intros Hd w Hw.
  assert (x = LDtor \/ x <> LDtor) as [->|Hx] by (destruct x; auto; by right).
  - simpl in Hs. unfold destructor, ret, notify in Hs. destruct (dt s) eqn:E; simpl in Hs.
    + injection Hs as <- _. done.
    + case_decide; injection Hs as <- _; [simpl in Hd; by case_match|done].
    + injection Hs as <- _. done.
    + destruct (forallb _ _) eqn:Ef; [|done]. injection Hs as <- _. rewrite forallb_forall in Ef. simpl.
      specialize (Ef w ltac:(apply in_seq; lia)). by destruct (pc s w).
    + done.
  - assert (dt s = DDone) as E by (by rewrite <- (other_dt n nd dom x _ _ _ Hs Hx)). specialize (IH E w Hw).
    destruct x as [u c|a u y| |u]; [|..].
    + destruct (decide (u = w)) as [->|Hne].
      * simpl in Hs. rewrite decide_True in Hs by done. unfold worker in Hs. by rewrite IH in Hs.
      * destruct (other_pc n nd dom w _ _ _ _ Hs Hne) as [E'|(k & E' & _)]; congruence.
    + destruct (other_pc n nd dom w _ _ _ _ Hs I) as [E'|(k & E' & _)]; congruence.
    + done.
    + destruct (other_pc n nd dom w _ _ _ _ Hs I) as [E'|(k & E' & _)]; congruence.
Qed.
End Thms.

(** ** C48: does lazy_pool run every job scheduled before the shutdown?  It does not. *)

(** One worker.  It finds its list empty for the second time; a job is scheduled to it;
    the destructor is called; the worker sees the stop flag and leaves. *)
Definition drop_run : list lab :=
  greedy (step 1 1 (fun _ => 0)) (repeat (LWorker 0 (Choice false None)) 5 ++ [LAgent 0 0 7; LAgent 0 0 0; LAgent 0 0 0] ++ rep 20 [LDtor; LWorker 0 (Choice false None)]) init.

Theorem C48_lazy_drains_refuted : exists s h, reach 1 1 (fun _ => 0) s h /\ dt s = DDone /\
  pushes 0 (upto_stop (rev h)) = [7] /\ ran 0 (rev h) = [].
Proof.
  assert (match exec (step 1 1 (fun _ => 0)) drop_run init with
          | Some (s, t) => dt s = DDone /\ pushes 0 (upto_stop t) = [7] /\ ran 0 t = [] | None => False end) as H by (vm_compute; done).
  destruct (exec (step 1 1 (fun _ => 0)) drop_run init) as [[s t]|] eqn:Hx; [|destruct H].
  exists s, (rev t). split.
  - rewrite <- (app_nil_r (rev t)). eapply exec_reach; [constructor|exact Hx].
  - by rewrite rev_involutive.
Qed.

(** ** A concrete execution *)

(** Two workers in two domains fall asleep; a job for worker 0 is scheduled; worker 0 is
    woken, takes it, wakes worker 1 to look for work, runs the job; shutdown. *)
Definition lz_dom (w : nat) : nat := w.
Definition wN (w : nat) := LWorker w (Choice false None).
Definition wT (w t : nat) := LWorker w (Choice false (Some t)).
Definition lz_script : list lab :=
  rep 9 [wN 0] ++ rep 9 [wN 1] ++ [LAgent 0 0 7; LAgent 0 0 0; LAgent 0 0 0] ++
  rep 15 [wN 0; wT 0 1] ++ rep 60 [LDtor; wN 0; wN 1].
Definition lz_run : list lab := greedy (step 2 2 lz_dom) lz_script init.
Definition lz_sg := states (step 2 2 lz_dom) init lz_run.
Definition lz_l := labels lz_run.

Lemma lz_dom_ok u : u < 2 -> lz_dom u < 2. Proof. done. Qed.

Lemma only_agent_0 ls a : forallb (fun x => match x with LAgent b _ _ => bool_decide (b = 0) | _ => true end) ls = true -> a <> 0 -> Forall (nota a) ls.
Proof.
  intros Hf Ha. rewrite forallb_forall in Hf. apply Forall_forall. intros x Hin. apply elem_of_list_In in Hin. specialize (Hf x Hin).
  destruct x as [|b| |]; simpl; try done. apply bool_decide_eq_true in Hf. congruence.
Qed.
Lemma no_pushes ls sg j : forallb (fun z => match z with LDtor | LWorker _ _ => true | _ => false end) ls = true ->
  forall i w x, nth_error ls i = Some j -> ~ exists tr, step 2 2 lz_dom j (sg i) = Next (sg (S i)) tr /\ EvPush w x ∈ tr.
Proof.
  intros Hf i w x Hl (tr & Hs & Hin). rewrite forallb_forall in Hf. apply nth_error_In in Hl. specialize (Hf _ Hl). clear Hl.
  destruct j as [u c| | |]; try done; simpl in Hs.
  - case_decide; [|done]. unfold worker, ret, notify in Hs. repeat case_match; simplify_eq; try (by apply elem_of_nil in Hin); apply elem_of_list_singleton in Hin; done.
  - unfold destructor, ret, notify in Hs. repeat case_match; simplify_eq; try (by apply elem_of_nil in Hin); apply elem_of_list_singleton in Hin; done.
Qed.
Lemma no_steals ls i w c : forallb (fun z => match z with LWorker _ c => negb (c_steal c) | _ => true end) ls = true -> nth_error ls i = Some (LWorker w c) -> c_steal c = false.
Proof. intros Hf Hl. rewrite forallb_forall in Hf. apply nth_error_In in Hl. specialize (Hf _ Hl). simpl in Hf. by destruct (c_steal c). Qed.

Example lz_fair : fair 2 2 lz_dom lz_sg lz_l.
Proof.
  assert (match exec (step 2 2 lz_dom) lz_run init with
          | Some (s, t) => pc s 0 = XDone /\ pc s 1 = XDone /\ dt s = DDone /\ ag s 0 = AIdle | None => False end) as H by (vm_compute; done).
  destruct (exec (step 2 2 lz_dom) lz_run init) as [[s t]|] eqn:Hx; [|destruct H]. destruct H as (H1 & H2 & H3 & H4). eapply fair_of_list; [exact Hx|..|done].
  - intros [|[|w]] Hw; [done|done|lia].
  - intros a. destruct (decide (a = 0)) as [->|Hne]; [done|]. eapply agent_idle; [exact Hx|done|].
    apply only_agent_0; [vm_compute; done|done].
Qed.

Lemma lz_reach i : exists h, reach 2 2 lz_dom (lz_sg i) h.
Proof. apply (run_reach 2 2 lz_dom lz_sg lz_l lz_fair). Qed.

Example C26_sleeping_instance : exists i h, reach 2 2 lz_dom (lz_sg i) h /\ q (lz_sg i) 0 <> [] /\ asleep 0 (lz_sg i).
Proof. exists 19. destruct (lz_reach 19) as [h Hh]. exists h. split; [done|]. split; [vm_compute; done|exists 0; vm_compute; done]. Qed.
Example C26_push_instance : exists i, emits (step 2 2 lz_dom) lz_sg lz_l i (EvPush 0 7).
Proof.
  exists 18. eapply push_emits; [apply (fr_run _ _ _ _ _ lz_fair)|vm_compute; reflexivity|vm_compute; reflexivity].
Qed.
(** Three workers, the last two in one domain: worker 0 runs, worker 1 has been woken to
    search, worker 2 sleeps. *)
Definition tri_dom (w : nat) : nat := match w with 0 => 0 | _ => 1 end.
Definition tri_run : list lab :=
  rep 9 [wN 0] ++ rep 9 [wN 1] ++ rep 9 [wN 2] ++ [LAgent 0 0 7; LAgent 0 0 0; LAgent 0 0 0] ++ rep 13 [wT 0 1].
Example C27_instance : exists s h, reach 3 2 tri_dom s h /\ (exists u t, u < 3 /\ pc s u = TRun t) /\ (exists v, v < 3 /\ tri_dom v = 1 /\ asleep v s).
Proof.
  assert (match exec (step 3 2 tri_dom) tri_run init with Some (s, t) => pc s 0 = TRun [7] /\ pc s 2 = WBlocked 0 | None => False end) as H by (vm_compute; done).
  destruct (exec (step 3 2 tri_dom) tri_run init) as [[s t]|] eqn:Hx; [|destruct H]. destruct H as [H1 H2].
  exists s, (rev t). split; [rewrite <- (app_nil_r (rev t)); eapply exec_reach; [constructor|exact Hx]|].
  clear Hx. split; [exists 0, [7]; split; [lia|done]|exists 2; split_and!; [lia|done|by exists 0]].
Qed.
Example C27_run_instance : exists i t, pc (lz_sg i) 0 = TRun t.
Proof. exists 34, [7]. vm_compute. done. Qed.
Example C28_dtor_instance : exists i h, reach 2 2 lz_dom (lz_sg i) h /\ dt (lz_sg i) = DJoin.
Proof. exists 57. destruct (lz_reach 57) as [h Hh]. exists h. split; [done|vm_compute; done]. Qed.
Example C28_ends_instance : dt (lz_sg 46) <> DIdle /\ work_ends 2 2 lz_dom 46 lz_sg lz_l.
Proof.
  split; [vm_compute; done|]. intros j Hj. split.
  - intros w x (y & tr & Hl & Hs & Hin). unfold lz_l, labels in Hl. replace j with (46 + (j - 46)) in Hl by lia. rewrite <- nth_error_skipn in Hl.
    eapply (no_pushes (skipn 46 lz_run) (fun i => lz_sg (46 + i)) y ltac:(vm_compute; done) (j - 46) w x Hl).
    exists tr. replace (46 + (j - 46)) with j by lia. replace (46 + S (j - 46)) with (j + 1) by lia. exact (conj Hs Hin).
  - intros w c Hl _. eapply no_steals; [|exact Hl]. vm_compute. done.
Qed.
Example C47_instance : exists s h, reach 2 2 lz_dom s h /\ rev h = [EvPush 0 7; EvRun 0 [7]; EvStop] /\ dt s = DDone.
Proof.
  assert (match exec (step 2 2 lz_dom) lz_run init with
          | Some (s, t) => t = [EvPush 0 7; EvRun 0 [7]; EvStop] /\ dt s = DDone | None => False end) as H by (vm_compute; done).
  destruct (exec (step 2 2 lz_dom) lz_run init) as [[s t]|] eqn:Hx; [|destruct H].
  exists s, (rev t). split; [rewrite <- (app_nil_r (rev t)); eapply exec_reach; [constructor|exact Hx]|].
  by rewrite rev_involutive.
Qed.

Print Assumptions C26_job_not_slept_through.
Print Assumptions C26_job_run.
Print Assumptions C27_somebody_searches.
Print Assumptions C27_search_starts.
Print Assumptions C28_lazy_nobody_asleep.
Print Assumptions C28_lazy_terminates.
Print Assumptions C28_lazy_threads_left.
Print Assumptions C46_never_undefined.
Print Assumptions C47_lazy_jobs_in_order.
Print Assumptions C48_lazy_drains_refuted.
