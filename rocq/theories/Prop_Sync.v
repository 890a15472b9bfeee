(** * The memory orderings of the runtime (C54, C55).

    Vocabulary: SyncSpec.v (happens-before and data races after the C++ standard) and
    RuntimeSpec.v (programs that follow the rules).  [execution nw af s tr]: [nw]
    workers and the clients that submit root tasks and wait for their results can
    reach state [s] with the memory actions [tr], oldest first; allocations may fail
    if [af].  [tr !! n = Some (t, a)]: the [n]-th action is [a], by thread [t].
    [Code f]: user code of task [f] runs, up to its next fork, call, join, ... *)

From stdpp Require Import prelude gmap list relations.
From Coq Require Import NArith ZArith Lia.
From Verif Require Import RuntimeModel RuntimeSpec RuntimeExamples SyncSpec SyncModel SyncViews SyncInv SyncMain SyncOrder2 SyncOrder3.
Local Open Scope N_scope.

(** Every run of the runtime has such a trace. *)
Theorem execution_all nw af s h : reach nw af s h -> exists tr, execution nw af s tr.
Proof.
  induction 1 as [|s h l s' evs HR (tr & IH) Ha Hst]; [exists []; apply ex_init|].
  eexists. by eapply ex_step.
Qed.

(** ** C54: the library has no data race *)

Theorem C54_no_data_race nw af s tr i j : execution nw af s tr -> ~ race tr i j.
Proof. apply execution_no_race. Qed.

(** Two conflicting accesses happen in the order in which the machine performs them. *)
Theorem C54_conflicts_ordered nw af s tr i j t a u b :
  execution nw af s tr -> (i < j)%nat -> tr !! i = Some (t, a) -> tr !! j = Some (u, b) -> conflict a b ->
  hb tr i j.
Proof. intros (_ & _ & _ & Hs)%execution_inv Hlt Hi Hj Hc. by eapply safe_hb. Qed.

(** ** C55: what happens before what *)

(** The user code of a task runs as if on one thread, whichever workers run it. *)
Theorem C55_task_is_sequential nw af s tr i j t u f :
  execution nw af s tr -> (i < j)%nat -> tr !! i = Some (t, Code f) -> tr !! j = Some (u, Code f) -> hb tr i j.
Proof.
  intros He Hlt Hi Hj. eapply C54_conflicts_ordered; [exact He|done|exact Hi|exact Hj|].
  exists (LFrame f), true, true, false, false. cbn. auto.
Qed.

(** What a task did before it forked or called a child happens before all the child does. *)
Theorem C55_before_fork nw af s tr n t a p c i u j v :
  execution nw af s tr -> tr !! n = Some (t, a) -> creates p c a ->
  tr !! i = Some (u, Code p) -> (i <= S n)%nat -> tr !! j = Some (v, Code c) -> hb tr i j.
Proof.
  intros He Hn Hc Hi Hle Hj. destruct (execution_start _ _ _ _ _ _ _ _ He Hn (or_intror (ex_intro _ p Hc))) as (H4 & Hafter & _ & H1).
  specialize (H1 _ Hc). pose proof (Hafter _ _ Hj) as Hlt.
  assert (Hpo : hb tr (S n) (n + 4)).
  { apply tc_once. left. split; [lia|]. eexists _, _, _. split; [exact H1|exact H4]. }
  assert (Hcj : hb tr (n + 4) j).
  { eapply C54_conflicts_ordered; [exact He|exact Hlt|exact H4|exact Hj|].
    exists (LFrame c), true, true, false, false. cbn. auto. }
  destruct (decide (i = S n)) as [->|Hne]; [by eapply tc_transitive|].
  eapply tc_transitive; [|eapply tc_transitive; [exact Hpo|exact Hcj]].
  eapply C55_task_is_sequential; [exact He| |exact Hi|exact H1]. lia.
Qed.

(** The submission of a root task, and what the submitting thread did before it,
    happen before all the task does. *)
Theorem C55_before_submit nw af s tr n t x r i a j v :
  execution nw af s tr -> tr !! n = Some (t, Note (EvSpawn r x)) ->
  tr !! i = Some (t, a) -> (i <= n)%nat -> tr !! j = Some (v, Code r) -> hb tr i j.
Proof.
  intros He Hn Hi Hle Hj.
  destruct (execution_start _ _ _ _ _ _ _ _ He Hn (or_introl (ex_intro _ x eq_refl))) as (H4 & Hafter & _).
  pose proof (Hafter _ _ Hj) as Hlt. eapply tc_transitive; [apply tc_once; left|].
  - split; [|eexists _, _, _; split; [exact Hi|exact H4]]. lia.
  - eapply C54_conflicts_ordered; [exact He|exact Hlt|exact H4|exact Hj|].
    exists (LFrame r), true, true, false, false. cbn. auto.
Qed.

(** What a called child does, and all below it, happens before what its parent does
    after the call. *)
Theorem C55_after_call nw af s tr n t p c st x d i u j v :
  execution nw af s tr -> tr !! n = Some (t, Note (EvCall p c st x)) ->
  d = c \/ below tr d c -> tr !! i = Some (u, Code d) ->
  tr !! j = Some (v, Code p) -> (S n < j)%nat -> hb tr i j.
Proof. intros He Hn Hd Hi Hj Hlt. destruct (execution_call _ _ _ _ He _ _ _ _ _ _ Hn) as (_ & X). by eapply X. Qed.

(** What the children a task created before a join do, and all below them, happens
    before what the task does after the join. *)
Theorem C55_after_join nw af s tr n t p cs e d i u j v :
  execution nw af s tr -> tr !! n = Some (t, Note (EvJoin p cs e)) ->
  below (firstn n tr) d p -> tr !! i = Some (u, Code d) ->
  tr !! j = Some (v, Code p) -> (n < j)%nat -> hb tr i j.
Proof.
  intros He Hn Hd Hi Hj Hlt. destruct (execution_join _ _ _ _ He _ _ _ _ _ Hn) as (_ & k & Hk & Hkc & _ & X).
  eapply tc_transitive; [by eapply X|]. eapply C55_task_is_sequential; [exact He| |exact Hkc|exact Hj]. lia.
Qed.

(** All a root task does, and all below it, happens before the client reads its result. *)
Theorem C55_before_get nw af s tr n r d i u :
  execution nw af s tr -> tr !! n = Some (TX r, Read (LRes r)) ->
  d = r \/ below tr d r -> tr !! i = Some (u, Code d) -> hb tr i n.
Proof. intros He Hn Hd Hi. destruct (execution_res _ _ _ _ He _ _ Hn) as (_ & X). by eapply X. Qed.

(** ** What a user may conclude

    A variable of the user that only tasks touch is free of data races if any two
    tasks that touch it, one writing, do so in an order given by C55.  Below, the
    weakest case: a variable shared by a parent and what is below it, when the
    parent touches it only before the first fork and after the join. *)
Theorem C55_shared_variable nw af s tr n t a p c m u cs e i j :
  execution nw af s tr -> tr !! n = Some (t, a) -> creates p c a ->
  tr !! m = Some (u, Note (EvJoin p cs e)) -> (n < m)%nat ->
  (exists v, tr !! i = Some (v, Code p)) -> ((i <= S n)%nat \/ (m < i)%nat) ->
  (exists v, tr !! j = Some (v, Code c)) ->
  hb tr i j \/ hb tr j i.
Proof.
  intros He Hn Hc Hm Hlt (v & Hi) [Hle|Hge] (v' & Hj).
  - left. eapply C55_before_fork; [exact He|exact Hn|exact Hc|exact Hi|exact Hle|exact Hj].
  - right. eapply C55_after_join; [exact He|exact Hm| |exact Hj|exact Hi|done].
    apply tc_once. exists n, t, a. split; [|done]. apply lookup_take_Some. done.
Qed.

(** ** Sanity checks of the specification *)

Lemma sync_lt tr a b : synchronises tr a b -> (a < b)%nat.
Proof.
  intros (o & h & k & j & (t & x & _ & _ & [(-> & _)|(H & _)]) & (H1 & _) & (H2 & _) & (t' & y & _ & [(-> & _)|(H3 & _)])); lia.
Qed.
Lemma hb_lt tr a b : hb tr a b -> (a < b)%nat.
Proof.
  induction 1 as [a b [(H & _)|H%sync_lt]|a b c [(H & _)|H%sync_lt] _ IH]; lia.
Qed.

(** An action of a thread that releases nothing from then on is not seen by others. *)
Lemma hb_own tr i t j :
  (forall k a, (i <= k)%nat -> tr !! k = Some (t, a) -> ~ releases a /\ ~ rel_fence a) ->
  (exists a, tr !! i = Some (t, a)) -> hb tr i j -> exists b, tr !! j = Some (t, b).
Proof.
  intros Hr Hi H.
  assert (Hone : forall a b, (i <= a)%nat -> (exists x, tr !! a = Some (t, x)) -> po tr a b \/ synchronises tr a b ->
            (i <= b)%nat /\ exists x, tr !! b = Some (t, x)).
  { intros a b Hle (x & Ha) Hab. split; [destruct Hab as [(? & _)|?%sync_lt]; lia|].
    destruct Hab as [(_ & u & y & z & H1 & H2)|(o & h & k & l & (u & y & Hh & _ & Hs) & _)]; [simplify_eq; eauto|].
    exfalso. destruct Hs as [(-> & Hs)|(_ & z & Hz & Hs)]; simplify_eq; by destruct (Hr _ _ Hle Ha). }
  assert (Hall : forall a b, hb tr a b -> (i <= a)%nat -> (exists x, tr !! a = Some (t, x)) -> exists x, tr !! b = Some (t, x)).
  { induction 1 as [a b Hab|a b c Hab _ IH]; intros Hle Ha; [by eapply Hone|].
    destruct (Hone _ _ Hle Ha Hab) as (? & ?). by apply IH. }
  by eapply (Hall i j).
Qed.

(** Two writes of two threads without synchronisation are a race. *)
Example race_1 l : race [(TW 0, Write l); (TW 1, Write l)] 0 1.
Proof.
  split; [done|]. split; [eexists _, _, _, _; split_and!; [done|done|]; exists l, true, true, false, false; cbn; auto|].
  split; [|intros H%hb_lt; lia]. intros H. eapply (hb_own _ _ (TW 0)) in H as (b & H); [done| |eauto].
  intros [|[|k]] a _ E; simplify_eq/=; cbn; split; intros ?; done.
Qed.
(** Passing the variable with a relaxed store does not help; *)
Example race_2 l o : race [(TW 0, Write l); (TW 0, Store o false); (TW 1, Load o true); (TW 1, Write l)] 0 3.
Proof.
  split; [done|]. split; [eexists _, _, _, _; split_and!; [done|done|]; exists l, true, true, false, false; cbn; auto|].
  split; [|intros H%hb_lt; lia]. intros H. eapply (hb_own _ _ (TW 0)) in H as (b & H); [done| |eauto].
  intros [|[|[|[|k]]]] a _ E; simplify_eq/=; cbn; split; intros ?; done.
Qed.
(** with a release store it does. *)
Example no_race l o : ~ race [(TW 0, Write l); (TW 0, Store o true); (TW 1, Load o true); (TW 1, Write l)] 0 3.
Proof.
  intros (_ & _ & H & _). apply H. eapply tc_l with 1%nat; [left; split; [lia|]; by eexists _, _, _|].
  eapply tc_l with 2%nat; [right|apply tc_once; left; split; [lia|]; by eexists _, _, _].
  exists o, 1%nat, 1%nat, 2%nat. split_and!.
  - eexists _, _. split_and!; [done|done|]. left. done.
  - split; [lia|]. split; [by eexists _, _|]. intros j t x Hj. lia.
  - split; [lia|]. split; [by eexists _, _|]. split; [by eexists _, _|]. intros n t x Hn. lia.
  - eexists _, _. split; [done|]. left. done.
Qed.

(** ** A concrete execution

    A root task forks a child, calls another one and joins.  Worker 1 steals the
    root, has to wait at the join, and the child on worker 0 resumes the root; then
    the client gets the result. *)

(** Run a list of scheduling decisions and collect the memory actions. *)
Fixpoint traced (ls : list label) (s : state) : state * trace :=
  match ls with
  | [] => (s, [])
  | l :: ls' =>
    match step l s with
    | Next s' evs => let '(s1, tr) := traced ls' s' in (s1, step_trace l s evs ++ tr)
    | _ => (s, [])
    end
  end.

Lemma traced_execution nw af ls s tr :
  Forall (allowed nw af) ls -> execution nw af s tr ->
  execution nw af (fst (traced ls s)) (tr ++ snd (traced ls s)).
Proof.
  intros Ha. revert s tr. induction Ha as [|l ls Hl _ IH]; intros s tr He; cbn [traced].
  - cbn. by rewrite app_nil_r.
  - destruct (step l s) as [s' evs| |] eqn:E; [|cbn; by rewrite app_nil_r..].
    specialize (IH s' _ (ex_step _ _ _ _ _ _ _ He Hl E)). destruct (traced ls s') as [s1 tr1]. cbn in *.
    by rewrite app_assoc.
Qed.

Definition prog2 : task :=
  Fork FNone false (Ret 1%Z) (fun _ => Call MNone false (Ret 2%Z) (fun _ => Join (fun _ _ => Ret 3%Z))).
Lemma prog2_scoped nw : well_scoped nw prog2.
Proof. unfold well_scoped, prog2. repeat scp; done. Qed.

Definition sched2 : list label :=
  [LSpawn 0 prog2; LTake 0; LWork 0 false; LWork 0 false; LSteal 1 0] ++
  replicate 8 (LWork 1 false) ++ replicate 7 (LWork 0 false).
Definition S2 := fst (traced sched2 (init 2)).
Definition T2 := snd (traced sched2 (init 2)) ++ get_trace 0.

Lemma T2_execution : execution 2 false S2 T2.
Proof.
  apply ex_get; [|vm_compute; done]. apply (traced_execution 2 false sched2 (init 2) []); [|apply ex_init].
  constructor; [apply prog2_scoped|]. repeat constructor; cbn; done.
Qed.

(** Worker 1 writes the result of the called child, worker 0 reads it after the
    join; the client reads the result of the root. *)
Example C54_nonvacuous :
  execution 2 false S2 T2 /\
  T2 !! 60%nat = Some (TW 1, Write (LCell 0 1)) /\ T2 !! 115%nat = Some (TW 0, Read (LCell 0 1)) /\
  conflict (Write (LCell 0 1)) (Read (LCell 0 1)) /\
  T2 !! 120%nat = Some (TW 0, Write (LRes 0)) /\ T2 !! 138%nat = Some (TX 0, Read (LRes 0)).
Proof.
  split; [apply T2_execution|]. split_and!; try (vm_compute; reflexivity).
  exists (LCell 0 1), true, false, false, false. cbn. auto.
Qed.

Definition body1 : task := Ret 1%Z.
Definition body2 : task := Ret 2%Z.

Lemma T2_below_1 : below (firstn 118 T2) 1 0.
Proof.
  apply tc_once. exists 23%nat, (TW 0), (Note (EvFork 0 1 false body1)). split; [vm_compute; reflexivity|]. left. eauto.
Qed.

Example C55_nonvacuous :
  execution 2 false S2 T2 /\
  (* the root runs on worker 0, then on worker 1, then on worker 0 *)
  T2 !! 24%nat = Some (TW 0, Code 0) /\ T2 !! 46%nat = Some (TW 1, Code 0) /\ T2 !! 116%nat = Some (TW 0, Code 0) /\
  (* fork and call *)
  T2 !! 23%nat = Some (TW 0, Note (EvFork 0 1 false body1)) /\ T2 !! 88%nat = Some (TW 0, Code 1) /\
  T2 !! 47%nat = Some (TW 1, Note (EvCall 0 2 false body2)) /\ T2 !! 59%nat = Some (TW 1, Code 2) /\
  T2 !! 74%nat = Some (TW 1, Code 0) /\
  (* join *)
  T2 !! 118%nat = Some (TW 0, Note (EvJoin 0 [CVal 1%Z; CVal 2%Z] None)) /\ below (firstn 118 T2) 1 0 /\
  T2 !! 119%nat = Some (TW 0, Code 0) /\
  (* submission and result *)
  T2 !! 0%nat = Some (TX 0, Note (EvSpawn 0 prog2)) /\ T2 !! 138%nat = Some (TX 0, Read (LRes 0)).
Proof.
  split; [apply T2_execution|]. split_and!; try (vm_compute; reflexivity). apply T2_below_1.
Qed.

(** What the called child did on worker 1 happens before the code after the join on worker 0. *)
Example C55_across_workers : hb T2 59 119.
Proof.
  eapply (C55_after_join 2 false S2 T2 118 (TW 0) 0); [apply T2_execution|vm_compute; reflexivity| |vm_compute; reflexivity..|lia].
  apply tc_once. exists 47%nat, (TW 1), (Note (EvCall 0 2 false body2)). split; [vm_compute; reflexivity|]. right. eauto.
Qed.

(** Happens-before is not total: between the fork and the join, the code of the parent
    and the code of the child are not ordered. *)
Definition sched3 : list label :=
  [LSpawn 0 prog2; LTake 0; LWork 0 false; LWork 0 false; LSteal 1 0; LWork 1 false; LWork 1 false; LWork 0 false].
Definition S3 := fst (traced sched3 (init 2)).
Definition T3 := snd (traced sched3 (init 2)).

Example C55_parallel :
  execution 2 false S3 T3 /\ T3 !! 46%nat = Some (TW 1, Code 0) /\ T3 !! 47%nat = Some (TW 0, Code 1) /\
  ~ hb T3 46 47 /\ ~ hb T3 47 46.
Proof.
  assert (H1 : T3 !! 46%nat = Some (TW 1, Code 0)) by (vm_compute; reflexivity).
  assert (H2 : T3 !! 47%nat = Some (TW 0, Code 1)) by (vm_compute; reflexivity).
  split_and!; [|done|done| |intros H%hb_lt; lia].
  - apply (traced_execution 2 false sched3 (init 2) []); [|apply ex_init]. constructor; [apply prog2_scoped|]. repeat constructor; cbn; done.
  - intros H. eapply (hb_own _ _ (TW 1)) in H as (b & H); [congruence| |eauto].
    intros k a Hk E.
    assert (Hd : drop 46 T3 !! (k - 46)%nat = Some (TW 1, a)).
    { rewrite lookup_drop. by replace (46 + (k - 46))%nat with k by lia. }
    assert (Ht : drop 46 T3 = [(TW 1, Code 0); (TW 0, Code 1); (TW 0, Write (LCell 0 0)); (TW 0, Code 1); (TW 0, Note (EvEnd 1 (OVal 1%Z)))])
      by (vm_compute; reflexivity).
    rewrite Ht in Hd. destruct (k - 46)%nat as [|[|[|[|[|n]]]]]; simplify_eq/=; cbn; split; intros ?; done.
Qed.

Print Assumptions execution_all.
Print Assumptions C54_no_data_race.
Print Assumptions C54_conflicts_ordered.
Print Assumptions C55_task_is_sequential.
Print Assumptions C55_before_fork.
Print Assumptions C55_before_submit.
Print Assumptions C55_after_call.
Print Assumptions C55_after_join.
Print Assumptions C55_before_get.
Print Assumptions C55_shared_variable.
Print Assumptions C54_nonvacuous.
Print Assumptions C55_nonvacuous.
Print Assumptions C55_parallel.
