(** * C69: the memory bound of continuation stealing.

    Vocabulary: SpaceSpec.v.  [serial_space sz S1 t]: a serial run of [t] never occupies more
    than [S1], where [sz] gives the sizes of frames.  [space sz h]: what the frames of all tasks
    that exist after history [h] occupy. *)

From stdpp Require Import prelude gmap list.
From Coq Require Import NArith ZArith Lia.
From Verif Require Import RuntimeModel RuntimeSpec RuntimeExamples AlgoTaskModel SpaceSpec SpaceProofs SpaceProofs2.
Local Open Scope N_scope.

(** At any time the tasks that have no child are at most as many as the workers, not counting
    those that sit in a submission queue. *)
Theorem C69_busy_leaves nw af s h :
  reach nw af s h -> count (leaf_tasks h) <= N.of_nat nw + count (waiting_tasks h).
Proof. apply leaf_tasks_bound. Qed.

(** The memory needed on [nw] workers is at most [nw] times that of a serial run; each task in a
    submission queue may add as much again. *)
Theorem C69_space nw af s h sz S1 :
  reach nw af s h -> (forall f t, EvSpawn f t ∈ h -> serial_space sz S1 t) ->
  space sz h <= (N.of_nat nw + count (waiting_tasks h)) * S1.
Proof. apply space_bound. Qed.

(** If every submitted task has been started and no task has rescheduled itself then there is no
    such addition, however many tasks were created. *)
Theorem C69_linear nw af s h sz S1 :
  reach nw af s h -> (forall f t, EvSpawn f t ∈ h -> serial_space sz S1 t) ->
  (forall f t, EvSpawn f t ∈ h -> exists w, EvResume w f ∈ h) ->
  (forall f d, EvSwitch f d ∉ h) ->
  space sz h <= N.of_nat nw * S1.
Proof.
  intros HR Hs H1 H2. pose proof (C69_space nw af s h sz S1 HR Hs) as H.
  rewrite (none_waiting nw af s h HR H1 H2) in H. cbn in H. lia.
Qed.

(** for_each over at most 2^k elements: at most k + 2 tasks per worker, and those of the user's
    functions. *)
Theorem C69_for_each nw af s h fn pj U n k :
  (0 < n)%nat -> needs U fn -> needs U pj -> reach nw af s h ->
  (forall f t, EvSpawn f t ∈ h -> exists xs, (length xs <= 2 ^ k)%nat /\ t = for_each fn pj n xs) ->
  count (live_tasks h) <= (N.of_nat nw + count (waiting_tasks h)) * (N.of_nat k + 2 + U).
Proof.
  intros Hn Hf Hp HR Hs.
  assert (E : space one h = count (live_tasks h)).
  { unfold space, count, one. induction (live_tasks h) as [|x l IH]; [done|].
    change (1 + sum_of (map (fun _ : N * task => 1) l) = N.of_nat (length (x :: l))).
    rewrite IH. cbn [length]. lia. }
  rewrite <- E. eapply C69_space; [done|]. intros f t Hin. destruct (Hs f t Hin) as (xs & Hx & ->).
  by apply for_each_space.
Qed.

Theorem C69_fold nw af s h bop pj ub opt U n k :
  (0 < n)%nat -> needs U bop -> needs U pj -> reach nw af s h ->
  (forall f t, EvSpawn f t ∈ h -> exists xs, (length xs <= 2 ^ k)%nat /\ t = fold bop pj ub opt n xs) ->
  count (live_tasks h) <= (N.of_nat nw + count (waiting_tasks h)) * (N.of_nat k + 2 + U).
Proof.
  intros Hn Hf Hp HR Hs.
  assert (E : space one h = count (live_tasks h)).
  { unfold space, count, one. induction (live_tasks h) as [|x l IH]; [done|].
    change (1 + sum_of (map (fun _ : N * task => 1) l) = N.of_nat (length (x :: l))).
    rewrite IH. cbn [length]. lia. }
  rewrite <- E. eapply C69_space; [done|]. intros f t Hin. destruct (Hs f t Hin) as (xs & Hx & ->).
  by apply fold_space.
Qed.

(** ** The hypotheses can be met *)

(** A binary tree of tasks: 2^(d+1) - 1 tasks, at most d + 1 at a time in a serial run. *)
Fixpoint tree (d : nat) : task :=
  match d with
  | O => Ret 0%Z
  | S d => Fork FNone false (tree d) (fun _ => Call MNone false (tree d) (fun _ => Join (fun _ _ => Ret 0%Z)))
  end.

Lemma tree_scoped nw d : well_scoped nw (tree d).
Proof. unfold well_scoped. induction d; cbn; repeat scp; try done. Qed.

Lemma tree_space d : serial_space one (N.of_nat d + 1) (tree d).
Proof.
  exists (N.of_nat d). split; [unfold one; lia|]. induction d as [|d IH]; [constructor|]. cbn [tree].
  apply (ft_fork _ _ (N.of_nat d)); [unfold one; lia|done|]. intros _.
  apply (ft_call _ _ (N.of_nat d)); [unfold one; lia|done|]. intros _. constructor. intros. constructor.
Qed.

(** Reading off what a concrete history contains. *)
Definition spawns (h : list event) : list (N * task) :=
  omap (fun e => match e with EvSpawn f t => Some (f, t) | _ => None end) h.
Definition resumes (h : list event) : list (nat * N) :=
  omap (fun e => match e with EvResume w f => Some (w, f) | _ => None end) h.
Definition switches (h : list event) : list (N * nat) :=
  omap (fun e => match e with EvSwitch f d => Some (f, d) | _ => None end) h.
Lemma spawns_spec h f t : EvSpawn f t ∈ h -> (f, t) ∈ spawns h.
Proof. intros H. apply elem_of_list_omap. by exists (EvSpawn f t). Qed.
Lemma resumes_spec h w f : (w, f) ∈ resumes h -> EvResume w f ∈ h.
Proof. intros (e & He & E)%elem_of_list_omap. destruct e; try done. by injection E as -> ->. Qed.
Lemma switches_spec h f d : EvSwitch f d ∈ h -> (f, d) ∈ switches h.
Proof. intros H. apply elem_of_list_omap. by exists (EvSwitch f d). Qed.

(** An execution of [tree 2] (seven tasks) on two workers with several steals; after fourteen
    steps four tasks exist, two of them leaves; the bounds are six and two. *)
Definition ex_h : list event := demo_h 14 eager2 (tree 2).
Example C69_nonvacuous :
  reach 2 false (demo_s 14 eager2 (tree 2)) ex_h /\
  (forall f t, EvSpawn f t ∈ ex_h -> serial_space one 3 t) /\
  (forall f t, EvSpawn f t ∈ ex_h -> exists w, EvResume w f ∈ ex_h) /\
  (forall f d, EvSwitch f d ∉ ex_h) /\
  space one ex_h = 4 /\ count (leaf_tasks ex_h) = 2.
Proof.
  assert (Hs : forall f t, EvSpawn f t ∈ ex_h -> f = 0 /\ t = tree 2).
  { intros f t H%spawns_spec. assert (E : spawns ex_h = [(0, tree 2)]) by (vm_compute; reflexivity).
    rewrite E in H. apply elem_of_list_singleton in H. by injection H as -> ->. }
  split; [apply demo_hs; [apply eager2_allowed|apply tree_scoped]|].
  split; [intros f t (_ & ->)%Hs; apply (tree_space 2)|].
  split.
  { intros f t (-> & _)%Hs. exists 0%nat. apply resumes_spec.
    apply (bool_decide_unpack _). vm_compute. exact I. }
  split; [|split; vm_compute; reflexivity].
  intros f d H%switches_spec. assert (E : switches ex_h = []) by (vm_compute; reflexivity).
  rewrite E in H. inversion H.
Qed.

(** for_each over four elements, in the middle of an execution. *)
Definition ex_each : task := for_each (USync (fun v => OVal v)) (USync (fun v => OVal v)) 1 [1; 2; 3; 4]%Z.
Example C69_for_each_nonvacuous :
  needs 0 (USync (fun v : Z => OVal v)) /\
  reach 2 false (demo_s 14 eager2 ex_each) (demo_h 14 eager2 ex_each) /\
  (forall f t, EvSpawn f t ∈ demo_h 14 eager2 ex_each -> exists xs, (length xs <= 2 ^ 2)%nat /\
    t = for_each (USync (fun v => OVal v)) (USync (fun v => OVal v)) 1 xs) /\
  count (live_tasks (demo_h 14 eager2 ex_each)) = 5.
Proof.
  split; [done|].
  split; [apply demo_hs; [apply eager2_allowed|by apply AlgoTaskProofs.for_each_scoped; cbn; try lia]|].
  split; [|vm_compute; reflexivity].
  intros f t H%spawns_spec. exists [1; 2; 3; 4]%Z. split; [cbn; lia|].
  assert (E : spawns (demo_h 14 eager2 ex_each) = [(0, ex_each)]) by (vm_compute; reflexivity).
  rewrite E in H. apply elem_of_list_singleton in H. by injection H as -> ->.
Qed.

(** ** Rescheduling does cost memory

    One worker; the root forks two children, each of which asks to go on on that same worker and
    is put in its queue, so that the worker takes the root again.  Three tasks exist, although a
    serial run never has more than two. *)
Definition parked : task := Switch false 0 (Ret 0%Z).
Definition parking : task :=
  Fork FNone false parked (fun _ => Fork FNone false parked (fun _ => Join (fun _ _ => Ret 0%Z))).
Definition parking_labels : list label :=
  LSpawn 0 parking :: LTake 0 :: repeat (LWork 0 false) 9.
Definition parking_run : res := run parking_labels (init 1) [].

Theorem C69_rescheduling_refuted :
  exists s h, reach 1 false s h /\
    (forall f t, EvSpawn f t ∈ h -> serial_space one 2 t /\ exists w, EvResume w f ∈ h) /\
    ~ space one h <= 1 * 2.
Proof.
  destruct parking_run as [s tr| |] eqn:E; [|by vm_compute in E..].
  assert (Htr : rev tr = match parking_run with Next _ tr => rev tr | _ => [] end) by (by rewrite E).
  exists s, (rev tr). split; [|split].
  - rewrite <- (app_nil_r (rev tr)). eapply run_reach; [apply reach_init| |exact E].
    unfold parking_labels. constructor; [|repeat constructor; done].
    cbn. unfold well_scoped, parking, parked. repeat scp; done.
  - rewrite Htr. intros f t H%spawns_spec.
    assert (Es : spawns (match parking_run with Next _ tr => rev tr | _ => [] end) = [(0, parking)])
      by (vm_compute; reflexivity).
    rewrite Es in H. apply elem_of_list_singleton in H. injection H as -> ->. split.
    + exists 1. split; [unfold one; lia|]. unfold parking, parked.
      repeat first [apply (ft_fork _ _ 0); [unfold one; lia| |intros] | constructor | intros].
    + exists 0%nat. apply resumes_spec. apply (bool_decide_unpack _). vm_compute. exact I.
  - rewrite Htr. vm_compute. intros H. by apply H.
Qed.

Print Assumptions C69_busy_leaves.
Print Assumptions C69_space.
Print Assumptions C69_linear.
Print Assumptions C69_for_each.
Print Assumptions C69_fold.
Print Assumptions C69_rescheduling_refuted.
