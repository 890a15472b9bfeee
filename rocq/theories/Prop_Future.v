(** * Property theorems about futures (C36).

    [reach s h]: a state and its history, after any interleaving of any number of
    client threads, futures and root tasks.  Each theorem about an event [e] of a
    history says what must have been true in the part of the history before it:
    [h = h1 ++ e :: h0], newest first. *)

From stdpp Require Import prelude gmap list.
From Verif Require Import EventuallyModel FutureModel FutureSpec FutureProofs FutureStep FutureStep2.
Local Notation step := FutureModel.step.

(** C36: nothing a client may do with futures is undefined: no result is read before it is
    there or used after it is freed, no reference is dropped twice, the semaphore is
    released once. *)
Theorem C36_never_undefined s h a : reach s h -> step s a <> Some UB.
Proof.
  intros Hr Hs. destruct (step_ok s h a _ (reach_inv s h Hr) Hs) as (s' & l & E & _). done.
Qed.
Print Assumptions C36_never_undefined.

(** C36: wait, get and the destructor of a future that refers to a result (unless
    get or wait threw broken_future) return only after that task has signalled. *)
Theorem C36_not_before_signal s h h1 e h0 x i :
  reach s h -> h = h1 ++ e :: h0 ->
  (e = EvWaited x i \/ (exists g, e = EvGot x i g) \/ e = EvEmptyFuture x i \/ e = EvDestroyed x (Some i)) ->
  refers x h0 = Some i /\ EvSignalled i ∈ h0.
Proof.
  intros Hr Hh He. pose proof (good_split h e h1 h0 (i_good s h (reach_inv s h Hr)) Hh) as Hok.
  destruct He as [->|[[g ->]|[->| ->]]]; cbn in Hok; tauto.
Qed.
Print Assumptions C36_not_before_signal.

(** C36: the destructor that returned without a result belonged to a future that had none. *)
Theorem C36_destroyed_empty s h h1 h0 x :
  reach s h -> h = h1 ++ EvDestroyed x None :: h0 -> refers x h0 = None.
Proof. intros Hr Hh. exact (good_split h _ h1 h0 (i_good s h (reach_inv s h Hr)) Hh). Qed.
Print Assumptions C36_destroyed_empty.

(** C36: get delivers what the task of this future ended with. *)
Theorem C36_get_delivers s h h1 h0 x i g :
  reach s h -> h = h1 ++ EvGot x i g :: h0 ->
  refers x h0 = Some i /\ exists e, ends_with i e h0 /\ g = delivered e.
Proof.
  intros Hr Hh. pose proof (good_split h _ h1 h0 (i_good s h (reach_inv s h Hr)) Hh) as (H1 & _ & _ & H2). by split.
Qed.
Print Assumptions C36_get_delivers.

(** ... and a task has one ending: it is scheduled once. *)
Theorem C36_one_ending s h i e e' : reach s h -> ends_with i e h -> ends_with i e' h -> e = e'.
Proof.
  intros Hr (x & k & H) (x' & k' & H'). pose proof (i_good s h (reach_inv s h Hr)) as Hg. clear Hr.
  induction h as [|d h IH]; [by apply elem_of_nil in H|]. cbn in Hg. destruct Hg as [Hok Hg].
  apply elem_of_cons in H as [<-|H]; apply elem_of_cons in H' as [E|H'].
  - congruence.
  - destruct Hok as [_ Hok]. by destruct (Hok _ _ _ H').
  - subst d. destruct Hok as [_ Hok]. by destruct (Hok _ _ _ H).
  - by apply IH.
Qed.
Print Assumptions C36_one_ending.

(** C36: a result is delivered once: get succeeds if no get has before, and
    otherwise throws empty_future. *)
Theorem C36_get_once s h h1 h0 x i :
  reach s h ->
  (forall g, h = h1 ++ EvGot x i g :: h0 -> ~ already_got i h0) /\
  (h = h1 ++ EvEmptyFuture x i :: h0 -> already_got i h0).
Proof.
  intros Hr. split; intros; pose proof (good_split h _ h1 h0 (i_good s h (reach_inv s h Hr)) ltac:(eassumption)) as Hok; cbn in Hok; tauto.
Qed.
Print Assumptions C36_get_once.

(** C36: valid tells whether the future refers to a result, and wait and get throw
    broken_future only if it does not. *)
Theorem C36_valid s h h1 h0 x b :
  reach s h -> h = h1 ++ EvValid x b :: h0 -> b = true <-> exists i, refers x h0 = Some i.
Proof.
  intros Hr Hh. pose proof (good_split h _ h1 h0 (i_good s h (reach_inv s h Hr)) Hh) as Hok. cbn in Hok. subst b.
  rewrite bool_decide_eq_true. destruct (refers x h0); naive_solver.
Qed.
Print Assumptions C36_valid.
Theorem C36_broken s h h1 h0 x : reach s h -> h = h1 ++ EvBroken x :: h0 -> refers x h0 = None.
Proof. intros Hr Hh. exact (good_split h _ h1 h0 (i_good s h (reach_inv s h Hr)) Hh). Qed.
Print Assumptions C36_broken.

(** ... and if it does not, they throw at once and change nothing. *)
Theorem C36_broken_throws s h t x o r :
  reach s h -> refers x h = None -> o = FWait x \/ o = FGet x ->
  step s (AStart t o) = Some r -> r = Next s [EvBroken x].
Proof.
  intros Hr Hx Ho Hs. rewrite (i_refers s h (reach_inv s h Hr)) in Hx. cbn [step] in Hs.
  destruct (pc s t); [|done|done]. destruct Ho as [-> | ->]; cbn [start] in Hs;
    (destruct (f_var s !! x) as [[i|]|]; [done| |done]); destruct (in_use s x); congruence.
Qed.
Print Assumptions C36_broken_throws.

(** C36: the semaphore of a task is released once and acquired at most once, by whatever operations. *)
Theorem C36_acquired_once s h h1 h0 i :
  reach s h ->
  (h = h1 ++ EvAcquired i :: h0 -> EvSignalled i ∈ h0 /\ EvAcquired i ∉ h0) /\
  (h = h1 ++ EvSignalled i :: h0 -> EvSignalled i ∉ h0).
Proof. intros Hr. split; intros Hh; exact (good_split h _ h1 h0 (i_good s h (reach_inv s h Hr)) Hh). Qed.
Print Assumptions C36_acquired_once.

(** C36: destroying a future that refers to nothing (detached, moved from) never waits: the
    destructor is done in its first step. *)
Theorem C36_detached_destructor s h t x r :
  reach s h -> refers x h = None -> step s (AStart t (FDestroy x)) = Some r ->
  exists s', r = Next s' [EvDestroyed x None] /\ pc s' t = CIdle /\ f_var s' !! x = None.
Proof.
  intros Hr Hx Hs. rewrite (i_refers s h (reach_inv s h Hr)) in Hx. cbn [step] in Hs.
  destruct (pc s t) eqn:Hpc; [|done|done]. cbn [start] in Hs.
  destruct (f_var s !! x) as [[i|]|]; [done| |done]. destruct (in_use s x); [done|]. injection Hs as <-.
  eexists. split; [done|]. split; [exact Hpc|]. cbn. apply lookup_delete.
Qed.
Print Assumptions C36_detached_destructor.

(** C36: nor do any of the operations wait on a future one of whose operations has waited before. *)
Theorem C36_waits_once s h t x i o r :
  reach s h -> refers x h = Some i -> EvAcquired i ∈ h -> o = FWait x \/ o = FGet x \/ o = FDestroy x ->
  step s (AStart t o) = Some r -> exists s' l, r = Next s' l /\ forall k, pc s' t <> CAcquire x k.
Proof.
  intros Hr Hx Ha Ho Hs. pose proof (reach_inv s h Hr) as Hi. rewrite (i_refers s h Hi) in Hx.
  destruct (f_var s !! x) as [[j|]|] eqn:Hv; cbn in Hx; [|done|done]. injection Hx as ->.
  destruct (owned_heap s h x i Hi Hv) as (sh & e & p & Hh & Ht).
  destruct (obj_owned_inv s h i e p sh Hi Ht (ex_intro _ x Hv) Hh) as (Hf & Hrf & Hsem & Hgt & Hac & Hc).
  apply has_acq_iff in Ha. rewrite Ha in Hac. symmetry in Hac. apply bool_decide_eq_true in Hac.
  cbn [step] in Hs. destruct (pc s t) eqn:Hpc; [|done|done].
  destruct Ho as [->|[->| ->]]; cbn [start] in Hs; rewrite Hv in Hs; (destruct (in_use s x); [done|]); rewrite Hh in Hs;
    rewrite decide_False in Hs by done; injection Hs as <-.
  - eexists _, _. split; [done|]. by rewrite Hpc.
  - eexists _, _. split; [done|]. rewrite pc_set, decide_True by done. done.
  - set (s1 := set_var _ _). destruct (drop_own s1 i sh e p Hh Hf Hrf Hc) as (hp & l & Hd & _).
    cbn [bind_]. rewrite Hd. eexists _, _. split; [done|]. change (pc (set_heap hp s1) t) with (pc s t). by rewrite Hpc.
Qed.
Print Assumptions C36_waits_once.

(** C36: no operation waits for longer than the task needs: a thread in the middle of an
    operation can go on, or else it waits for a task that has not signalled yet and that can itself go on. *)
Theorem C36_no_deadlock s h t :
  reach s h -> pc s t <> CIdle ->
  (exists s' l, step s (ACont t) = Some (Next s' l)) \/
  (exists x k i, pc s t = CAcquire x k /\ refers x h = Some i /\ EvSignalled i ∉ h /\
                 exists s' l, step s (ATask i) = Some (Next s' l)).
Proof.
  intros Hr Hpc. pose proof (reach_inv s h Hr) as Hi.
  destruct (step s (ACont t)) as [r|] eqn:Hs.
  { left. destruct (step_ok s h _ r Hi Hs) as (s' & l & -> & _). eauto. }
  right. cbn [step] in Hs. destruct (pc s t) as [|x k|x] eqn:Hp; [done| |].
  - destruct (i_acq s h Hi t x k Hp) as (i & sh & Hx & Hh & Hst). rewrite Hx, Hh in Hs.
    destruct (owned_heap s h x i Hi Hx) as (sh0 & e & p & Hh' & Ht). rewrite Hh in Hh'. injection Hh' as <-.
    destruct (obj_owned_inv s h i e p sh Hi Ht (ex_intro _ x Hx) Hh) as (Hf & Hrf & Hsem & Hgt & Hac & Hc).
    exists x, k, i. split; [done|]. split; [by rewrite (i_refers s h Hi), Hx|].
    destruct (s_sem sh) eqn:Hn; [|by destruct k].
    assert (Hsp : signalled p = false).
    { unfold sem_ok in Hsem. destruct (signalled p); [|done]. rewrite Hn, Hst in Hsem. done. }
    split. { intros H. apply has_sig_iff in H. rewrite (i_sig s h Hi i e p Ht) in H. congruence. }
    destruct (step s (ATask i)) as [r|] eqn:Hs'.
    { destruct (step_ok s h _ r Hi Hs') as (s' & l & -> & _). eauto. }
    exfalso. cbn [step] in Hs'. rewrite Ht, Hh in Hs'. destruct p; try done.
    + destruct (fold_left _ _ _) as [c []]; done.
    + rewrite Hn in Hs'. done.
  - destruct (i_read s h Hi t x Hp) as (i & sh & Hx & Hh & Hst). rewrite Hx, Hh in Hs. done.
Qed.
Print Assumptions C36_no_deadlock.

(** A task is never blocked. *)
Theorem C36_task_goes_on s h i e p :
  reach s h -> f_task s !! i = Some (e, p) -> p <> TDone -> exists s' l, step s (ATask i) = Some (Next s' l).
Proof.
  intros Hr Ht Hp. pose proof (reach_inv s h Hr) as Hi.
  destruct (step s (ATask i)) as [r|] eqn:Hs'.
  { destruct (step_ok s h _ r Hi Hs') as (s' & l & -> & _). eauto. }
  exfalso. cbn [step] in Hs'. rewrite Ht in Hs'.
  assert (exists sh, f_heap s !! i = Some sh) as [sh Hh].
  { destruct (i_obj s h Hi i e p Ht) as [sh H1 H2|sh H1 H2|H1 H2]; eauto. done. }
  destruct p; rewrite ?Hh in Hs'; try done.
  - destruct (fold_left _ _ _) as [c []]; done.
  - destruct (s_sem sh); done.
Qed.
Print Assumptions C36_task_goes_on.

(** C36: nothing is leaked: when all tasks are finished and no future refers to a result,
    every shared state has been freed; a state is freed after its task has signalled
    and when no future refers to it. *)
Theorem C36_no_leak s h :
  reach s h -> (forall i e p, f_task s !! i = Some (e, p) -> p = TDone) -> (forall x, refers x h = None) ->
  f_heap s = ∅.
Proof.
  intros Hr Ht Hx. pose proof (reach_inv s h Hr) as Hi. apply map_eq. intros i. rewrite lookup_empty.
  destruct (f_heap s !! i) as [sh|] eqn:Hh; [|done]. exfalso.
  destruct (i_heaptask s h Hi i sh Hh) as [[e p] Hp]. pose proof (Ht i e p Hp) as ->.
  destruct (i_obj s h Hi i e TDone Hp) as [sh' [x Hv]|sh' H1 H2 H3 H4 H5|H1 H2]; [|done|congruence].
  specialize (Hx x). rewrite (i_refers s h Hi), Hv in Hx. done.
Qed.
Print Assumptions C36_no_leak.
Theorem C36_freed s h h1 h0 i :
  reach s h -> h = h1 ++ EvFreed i :: h0 -> EvSignalled i ∈ h0 /\ forall x, refers x h0 <> Some i.
Proof. intros Hr Hh. exact (good_split h _ h1 h0 (i_good s h (reach_inv s h Hr)) Hh). Qed.
Print Assumptions C36_freed.

(** ** Non-vacuity *)

Fixpoint runs (s : st) (h : list ev) (l : list act) : option (st * list ev) :=
  match l with
  | [] => Some (s, h)
  | a :: l => match step s a with Some (Next s' l') => runs s' (rev l' ++ h) l | _ => None end
  end.
Lemma runs_reach l : forall s h s' h', reach s h -> runs s h l = Some (s', h') -> reach s' h'.
Proof.
  induction l as [|a l IH]; intros s h s' h' Hr H; cbn in H; [by injection H as <- <-|].
  destruct (step s a) as [[s1 l1|]|] eqn:E; [|done|done]. eapply IH; [|exact H]. by eapply reach_step.
Qed.

(** Three tasks, two clients: client 0 gets the value of task 0 twice (blocking first); client 1
    moves its future, detaches the one that was moved from, waits and gets the exception of task 1, and detaches
    task 2, which ends later and frees its own state. *)
Definition scenario : list act :=
  [AStart 0 (FSchedule 0 0 KVal (EndVal 42)); AStart 1 (FSchedule 1 1 KVoid (EndExc 7));
   AStart 1 (FSchedule 2 2 KRef (EndVal 3));
   AStart 0 (FGet 0); AStart 1 (FMove 3 1); AStart 1 (FWait 1); AStart 1 (FValid 1); AStart 1 (FDestroy 1);
   AStart 1 (FWait 3); ATask 0; ATask 1; ATask 1; ACont 1; ATask 0; ACont 0; ACont 0; AStart 0 (FGet 0); ACont 0;
   AStart 1 (FGet 3); ATask 0; ACont 1; AStart 1 (FDetach 2); AStart 1 (FDestroy 2); AStart 0 (FDestroy 0);
   AStart 1 (FDestroy 3); ATask 1; ATask 2; ATask 2; ATask 2].
Definition scenario_history : list ev := Eval vm_compute in
  match runs init [] scenario with Some (_, h) => h | None => [] end.
Example scenario_runs : exists s, reach s scenario_history /\ f_heap s = ∅ /\
  (exists h1 h0, scenario_history = h1 ++ EvGot 0 0 (GVal 42) :: h0) /\
  (exists h1 h0, scenario_history = h1 ++ EvEmptyFuture 0 0 :: h0) /\
  (exists h1 h0, scenario_history = h1 ++ EvGot 3 1 (GExc 7) :: h0) /\
  (exists h1 h0, scenario_history = h1 ++ EvBroken 1 :: h0) /\
  (exists h1 h0, scenario_history = h1 ++ EvDestroyed 2 None :: h0) /\
  (exists h1 h0, scenario_history = h1 ++ EvFreed 2 :: h0).
Proof.
  set (r := default (init, []) (runs init [] scenario)).
  assert (Hh : snd r = scenario_history) by (vm_compute; reflexivity).
  assert (He : map_to_list (f_heap (fst r)) = []) by (vm_compute; reflexivity).
  exists (fst r). split_and!.
  { rewrite <- Hh. unfold r. destruct (runs init [] scenario) as [[s h]|] eqn:E; [|by vm_compute in E].
    exact (runs_reach _ _ _ _ _ reach_init E). }
  { by apply map_to_list_empty_iff. }
  all: clear r Hh He.
  all: unfold scenario_history.
  all: match goal with |- exists h1 h0, ?l = h1 ++ ?e :: h0 =>
         let rec go acc l := lazymatch l with
           | e :: ?l' => exists (rev acc), l'; reflexivity
           | ?a :: ?l' => go (a :: acc) l' end in go (@nil ev) l end.
Qed.
(** A state in which a destructor waits for its task (C36_no_deadlock). *)
Example waiting_destructor : exists s h, reach s h /\ pc s 0 = CAcquire 0 KDtor /\ refers 0 h = Some 0.
Proof.
  destruct (runs init [] [AStart 0 (FSchedule 0 0 KVal (EndVal 42)); AStart 0 (FDestroy 0)]) as [[s h]|] eqn:E; [|by vm_compute in E].
  exists s, h. pose proof (runs_reach _ _ _ _ _ reach_init E) as Hr. vm_compute in E. injection E as <- <-. by split.
Qed.
