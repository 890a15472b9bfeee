(** * C56, C57: lazy_pool with the memory orderings of the code. *)

From stdpp Require Import prelude list.
From Coq Require Import Lia.
From Verif Require Import PoolCommon PoolFair PoolSpec.
From Verif Require Import LazyModel LazySpec LazyProofs LazyInv LazyHist Prop_Lazy LazyWeakModel LazyWeakProofs.

Section Thms.
Context (n nd : nat) (dom : nat -> nat).
Notation wstep := (wstep n nd dom).
Notation wreach := (wreach n nd dom).

(** Whatever the loads return, no step is undefined. *)
Theorem C56_never_undefined sc s h l : wreach sc s h -> wstep sc l s <> Undef.
Proof. apply wreach_defined. Qed.

(** Jobs are run at most once, by the worker they were scheduled to, in order. *)
Theorem C56_jobs_in_order sc s h w : wreach sc s h -> ran w (rev h) `prefix_of` pushes w (rev h).
Proof. intros Hr. destruct (wreach_all n nd dom sc s h Hr) as (_ & _ & _ & _ & [H _]). rewrite (H w). by apply prefix_app_r. Qed.

(** A worker that sleeps with a job in its list is about to be woken. *)
Theorem C56_job_not_slept_through sc s h w : wreach sc s h -> w < n -> q (base s) w <> [] -> asleep w (base s) -> submitting dom w (base s).
Proof.
  intros Hr Hw Hq [k Hk]. destruct (wreach_all n nd dom sc s h Hr) as (_ & _ & J & _).
  destruct (proj2 (J w Hw Hq) k Hk) as [[a Ha]|[_ [a Ha]]]; exists a; auto.
Qed.

(** Once the destructor waits for the threads nobody sleeps: who can still read an unset
    stop flag will find a new epoch. *)
Theorem C56_nobody_asleep sc s h : wreach sc s h -> (forall u, u < n -> dom u < nd) -> dt (base s) = DJoin \/ dt (base s) = DDone ->
  forall w, w < n -> ~ asleep w (base s).
Proof.
  intros Hr Hdom Hj w Hw [k Hk]. destruct (wreach_all n nd dom sc s h Hr) as (_ & F & _).
  eapply (fi_2 _ _ _ _ F (dom w)); [by apply Hdom| |exact Hw|done|exact Hk]. right. destruct Hj as [E|E]; by rewrite E.
Qed.

(** When the destructor has returned all threads have left. *)
Theorem C56_threads_left sc s h : wreach sc s h -> dt (base s) = DDone -> forall w, w < n -> pc (base s) w = XDone.
Proof. apply wreach_left. Qed.

(** Every interleaving of C26-C28 is among the executions considered here. *)
Theorem C56_interleavings_covered sc s h : reach n nd dom s h -> exists w, wreach sc w h /\ base w = s.
Proof. apply reach_weak. Qed.

(** With loads that return the newest values (seq_cst operations) somebody searches while somebody works. *)
Theorem C57_somebody_searches_partial s h d : wreach true s h -> d < nd ->
  (exists u t, u < n /\ pc (base s) u = TRun t) -> (exists v, v < n /\ dom v = d /\ asleep v (base s)) ->
  (exists u, u < n /\ dom u = d /\ searching dom u (base s)) \/ (exists u, u < n /\ will_wake dom d u (base s)).
Proof. intros Hr. exact (C27_somebody_searches n nd dom (base s) h d (wreach_sc n nd dom s h Hr)). Qed.
End Thms.

Lemma wexec_reach n nd dom sc ls s h s' t : wreach n nd dom sc s h -> exec (wstep n nd dom sc) ls s = Some (s', t) -> wreach n nd dom sc s' (rev t ++ h).
Proof.
  revert s h t. induction ls as [|x ls IH]; intros s h t Hr Hx; simpl in Hx.
  - injection Hx as <- <-. done.
  - destruct (wstep n nd dom sc x s) as [s1 tr| |] eqn:Hs; try done. destruct (exec (wstep n nd dom sc) ls s1) as [[s2 t2]|] eqn:E; [|done]. injection Hx as <- <-.
    rewrite rev_app_distr, <- app_assoc. eapply IH; [|done]. by econstructor.
Qed.

(** ** With the orderings of the code the invariant of line 99 fails *)

Definition ww (w i : nat) : wlab := WLab (LWorker w (Choice false None)) i.

(** Two workers, one domain.  Worker 0 gets a job, worker 1 is about to sleep.  Worker 0
    decrements `thief` from 2 to 1 and increments `active` from 0; worker 1 decrements
    `thief` to 0 and reads the old 0 in `active`, so it sleeps; worker 0 reads the old 1
    in `thief`, so it wakes nobody, and runs the job. *)
Definition wk_run : list wlab :=
  [ww 0 0; ww 1 0; WLab (LAgent 0 0 7) 0; WLab (LAgent 0 0 0) 0; ww 0 0] ++
  repeat (ww 1 0) 5 ++ [ww 0 0; ww 0 0; ww 1 0; ww 1 0; ww 1 0; ww 0 3; ww 0 0].

Theorem C57_somebody_searches_refuted : exists s h, wreach 2 1 (fun _ => 0) false s h /\
  pc (base s) 0 = TRun [7] /\ asleep 1 (base s) /\ (forall a, ag (base s) a = AIdle) /\ dt (base s) = DIdle /\
  (forall u, u < 2 -> ~ searching (fun _ => 0) u (base s)) /\ (forall d u, u < 2 -> ~ will_wake (fun _ => 0) d u (base s)).
Proof.
  assert (match exec (wstep 2 1 (fun _ => 0) false) wk_run winit with
          | Some (s, t) => pc (base s) 0 = TRun [7] /\ pc (base s) 1 = WBlocked 1 /\ (forall a, ag (base s) a = AIdle) /\ dt (base s) = DIdle | None => False end) as H.
  { vm_compute. split_and!; try done. by intros [|a]. }
  destruct (exec (wstep 2 1 (fun _ => 0) false) wk_run winit) as [[s t]|] eqn:Hx; [|destruct H]. destruct H as (H1 & H2 & H3 & H4).
  exists s, (rev t). split; [rewrite <- (app_nil_r (rev t)); eapply wexec_reach; [constructor|exact Hx]|]. clear Hx.
  split_and!; [done|by exists 1|done|done|..].
  - intros [|[|u]] Hu; [..|lia]; unfold searching; rewrite ?H1, ?H2; simpl; tauto.
  - intros d [|[|u]] Hu; [..|lia]; unfold will_wake; rewrite ?H1, ?H2; simpl; tauto.
Qed.

(** ** Concrete executions *)

(** The destructor sets the flag while worker 0 is between its two looks; the worker
    reads the old flag, and is woken by the new epoch. *)
Definition stale_stop : list wlab :=
  [WLab LDtor 0] ++ repeat (ww 0 0) 5 ++ [ww 0 0; WLab LDtor 0; ww 0 0; ww 0 0; ww 0 0; ww 0 0].
Example C56_stale_stop_instance : exists s h, wreach 1 1 (fun _ => 0) false s h /\ stop (base s) = true /\ pc (base s) 0 = WTop /\ epoch (base s) 0 = 1.
Proof.
  assert (match exec (wstep 1 1 (fun _ => 0) false) stale_stop winit with
          | Some (s, t) => stop (base s) = true /\ pc (base s) 0 = WTop /\ epoch (base s) 0 = 1 | None => False end) as H by (vm_compute; done).
  destruct (exec (wstep 1 1 (fun _ => 0) false) stale_stop winit) as [[s t]|] eqn:Hx; [|destruct H].
  exists s, (rev t). split; [rewrite <- (app_nil_r (rev t)); eapply wexec_reach; [constructor|exact Hx]|done].
Qed.
(** The hypotheses of the theorems are met: the interleavings of Prop_Lazy.v are among these executions. *)
Example C56_job_instance : exists s h, wreach 2 2 lz_dom false s h /\ q (base s) 0 <> [] /\ asleep 0 (base s).
Proof.
  destruct C26_sleeping_instance as (i & h & Hr & H). destruct (C56_interleavings_covered 2 2 lz_dom false _ h Hr) as (w & Hw & E).
  exists w, h. by rewrite E.
Qed.
Example C56_dtor_instance : exists s h, wreach 2 2 lz_dom false s h /\ dt (base s) = DJoin.
Proof.
  destruct C28_dtor_instance as (i & h & Hr & H). destruct (C56_interleavings_covered 2 2 lz_dom false _ h Hr) as (w & Hw & E).
  exists w, h. by rewrite E.
Qed.
Example C56_left_instance : exists s h, wreach 2 2 lz_dom false s h /\ rev h = [EvPush 0 7; EvRun 0 [7]; EvStop] /\ dt (base s) = DDone.
Proof.
  destruct C47_instance as (s & h & Hr & H). destruct (C56_interleavings_covered 2 2 lz_dom false _ h Hr) as (w & Hw & E).
  exists w, h. by rewrite E.
Qed.
Example C57_instance : exists s h, wreach 3 2 tri_dom true s h /\ (exists u t, u < 3 /\ pc (base s) u = TRun t) /\ (exists v, v < 3 /\ tri_dom v = 1 /\ asleep v (base s)).
Proof.
  destruct C27_instance as (s & h & Hr & H). destruct (C56_interleavings_covered 3 2 tri_dom true _ h Hr) as (w & Hw & E).
  exists w, h. by rewrite E.
Qed.

Print Assumptions C56_never_undefined.
Print Assumptions C56_jobs_in_order.
Print Assumptions C56_job_not_slept_through.
Print Assumptions C56_nobody_asleep.
Print Assumptions C56_threads_left.
Print Assumptions C56_interleavings_covered.
Print Assumptions C57_somebody_searches_partial.
Print Assumptions C57_somebody_searches_refuted.
