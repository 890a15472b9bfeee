(** * Tasks that read an outdated counter or flag (C73).

    Vocabulary: RuntimeSpec.v and StaleSpec.v.  [visible nw af f s h v]: the value [v] is one the
    join counter of task [f] has had since the last join of [f], hence one that the memory model
    may let the worker that runs [f] read; [visible_flag] likewise for the exception flag.  The label
    [LStale i] of the model lets worker [i] go on as if children were missing, or as if no
    exception had been captured; it is part of every execution that the theorems about the
    runtime (C01-C12, C51, C54, C57, C64, C67-C71) range over. *)

From stdpp Require Import prelude gmap list.
From Coq Require Import NArith ZArith Lia.
From Verif Require Import RuntimeModel RuntimeSpec RuntimeInv RuntimeSafe RuntimeExamples StaleSpec StaleProofs.
Local Open Scope N_scope.

(** ** C73 *)

(** Between two joins of a task its counter only decreases. *)
Theorem C73_counter_only_decreases nw af f s0 h0 s h v0 v :
  reach nw af s0 h0 -> since nw af (passes f) f (s0, h0) (s, h) ->
  counter f s0 = Some v0 -> counter f s = Some v -> v <= v0.
Proof. intros HR Hs H0 H. exact (since_down _ _ _ _ _ Hs HR _ _ H0 H). Qed.

(** Whatever value the load returns, the code does what it would have done with the last value,
    or goes on as if children were missing.  The steps of the model cover both. *)
Theorem C73_every_value_covered nw af s h i w f fr k v :
  reach nw af s h -> s_workers s !! i = Some w -> w_pc w = PRun f -> s_frames s !! f = Some fr ->
  f_rp fr = RRun (Join k) -> visible nw af f s h v ->
  join_reading v i w f fr k s = step (LWork i false) s \/
  join_reading v i w f fr k s = step (LStale i) s.
Proof.
  intros HR Hi Hpc Hf Hr (s0 & h0 & HR0 & Hs & Hc).
  pose proof (C73_counter_only_decreases _ _ _ _ _ _ _ _ (f_joins fr) HR0 Hs Hc) as Hle.
  unfold counter in Hle. rewrite Hf in Hle. specialize (Hle eq_refl).
  destruct (reach_inv _ _ _ _ HR) as (G & I). destruct (joined_steals _ _ _ _ _ _ _ _ I Hi Hpc Hf Hr) as (Hm & Hj).
  cbn [step]. unfold wstep, stale. rewrite Hi, Hpc, Hf, Hr. unfold join_reading. cbn [run_task].
  destruct (decide (f_steals fr = 0)) as [|Hz]; [by left|].
  destruct (decide (f_steals fr = u16max - v)) as [Hv|Hv]; [|by right].
  left. rewrite decide_True by lia. done.
Qed.

(** A join that reads an outdated value when all children are done ends, one step later, in the
    same state, having done the same. *)
Theorem C73_outdated_value_same_outcome nw af s h i w f fr k s' tr :
  reach nw af s h -> s_workers s !! i = Some w -> w_pc w = PRun f -> s_frames s !! f = Some fr ->
  f_rp fr = RRun (Join k) -> f_steals fr <> 0 -> f_steals fr = u16max - f_joins fr ->
  step (LWork i false) s = Next s' tr ->
  exists s1, step (LStale i) s = Next s1 [] /\ step (LWork i false) s1 = Next s' tr.
Proof.
  intros HR Hi Hpc Hf Hr Hz Hd E. exists (put_worker i (set_pc (PJSusp f) w) s).
  assert (Hlt := lookup_lt_Some _ _ _ Hi).
  cbn [step] in *. unfold wstep, stale in *. rewrite Hi, Hpc, Hf, Hr in *. rewrite decide_False by done. split; [done|].
  cbn [s_workers put_worker s_frames]. rewrite list_lookup_insert by done. cbn [w_pc set_pc]. rewrite Hf.
  cbn [run_task] in E. rewrite decide_False, decide_True in E by done.
  unfold join_suspend. rewrite Hr. rewrite decide_True by done.
  unfold take_stack_join_resume in *. cbn [f_steals set_joins]. rewrite decide_False in * by done.
  change (stk (put_worker i (set_pc (PJSusp f) w) s)) with (stk s). cbn [w_stk set_pc].
  destruct (stk s (w_stk w)); [|done].
  unfold join_resume in *. cbn [f_steals f_joins reset set_joins set_steals f_stk f_cells] in *.
  destruct (decide _); [|done].
  unfold same_stacklet in *. cbn [f_stk w_stk set_wstk set_joins set_steals reset] in *.
  rewrite decide_True in * by done.
  assert (Hs : forall (w1 : worker) (fr1 : frame) s0, stk s0 = stk s -> stk (put_worker i w1 (put_frame f fr1 s0)) = stk s) by (intros ? ? ? <-; done).
  rewrite Hs in * by done.
  destruct (stk s (f_stk fr)) as [|g l]; [done|].
  destruct (decide (g = f)); [|done].
  unfold unsafe_rethrow in *. cbn [f_eflag f_eptr reset set_joins set_steals] in *.
  destruct (f_eflag fr); [destruct (f_eptr fr); [|done]|];
    injection E as <- <-; f_equal; unfold put_worker, put_frame; cbn; f_equal; by rewrite !list_insert_insert.
Qed.

(** No value makes a join go on too early: if the code goes on at once, whatever the load
    returned, then the children are done and have decremented the counter. *)
Theorem C73_never_early nw af s h i w f fr k v s' tr cs r :
  reach nw af s h -> s_workers s !! i = Some w -> w_pc w = PRun f -> s_frames s !! f = Some fr ->
  f_rp fr = RRun (Join k) -> visible nw af f s h v ->
  join_reading v i w f fr k s = Next s' tr -> EvJoin f cs r ∈ tr ->
  f_steals fr = u16max - f_joins fr /\ step (LWork i false) s = Next s' tr.
Proof.
  intros HR Hi Hpc Hf Hr Hv E Hin.
  destruct (C73_every_value_covered _ _ _ _ _ _ _ _ _ _ HR Hi Hpc Hf Hr Hv) as [X|X]; rewrite X in E.
  - split; [|done]. cbn [step] in E. unfold wstep in E. rewrite Hi, Hpc, Hf, Hr in E. cbn [run_task] in E.
    destruct (decide (f_steals fr = 0)) as [Hz|Hz].
    + unfold join_resume in E. destruct (decide _) as [(_ & ->)|]; [|done]. rewrite Hz. lia.
    + destruct (decide _) as [|]; [done|]. injection E as <- <-. by apply elem_of_nil in Hin.
  - exfalso. cbn [step] in E. unfold stale in E. rewrite Hi, Hpc, Hf, Hr in E.
    destruct (decide _); [done|]. injection E as <- <-. by apply elem_of_nil in Hin.
Qed.

(** Between two times a task clears its exception flag, the flag is only ever set. *)
Theorem C73_flag_only_rises nw af f s0 h0 s h :
  reach nw af s0 h0 -> since nw af (clears f) f (s0, h0) (s, h) ->
  flag f s0 = Some true -> flag f s = Some true.
Proof. intros HR Hs H0. exact (since_up _ _ _ _ _ Hs HR H0). Qed.

(** Whatever value of the flag a sync fork reads inside a scope with steals, the steps of the
    model cover it. *)
Theorem C73_every_flag_of_a_fork_covered nw af s h i w f fr k pre b :
  reach nw af s h -> s_workers s !! i = Some w -> w_pc w = PRun f -> s_frames s !! f = Some fr ->
  f_rp fr = RFork FSync true k pre -> f_steals fr <> 0 -> visible_flag nw af f s h b ->
  fork_reading b f fr k pre s = step (LWork i false) s \/
  fork_reading b f fr k pre s = step (LStale i) s.
Proof.
  intros HR Hi Hpc Hf Hr Hz (s0 & h0 & HR0 & Hs & Hb).
  cbn [step]. unfold wstep, stale. rewrite Hi, Hpc, Hf, Hr. unfold fork_reading, fork_resume.
  destruct (decide (f_steals fr = pre)); [|by left]. rewrite !decide_False by done.
  destruct b; [|right; by rewrite andb_false_r].
  left. pose proof (C73_flag_only_rises _ _ _ _ _ _ _ HR0 Hs Hb) as Hfl. unfold flag in Hfl. rewrite Hf in Hfl.
  cbn in Hfl. injection Hfl as ->. done.
Qed.

(** The same for an eager call inside a scope with steals, when the child [c] ends. *)
Theorem C73_every_flag_of_a_call_covered nw af s h i w c frc p j st frp k b :
  reach nw af s h -> s_workers s !! i = Some w -> w_pc w = PRun c -> s_frames s !! c = Some frc ->
  f_rp frc = RFinal -> f_kind frc = KCall p j st ->
  s_frames s !! p = Some frp -> f_rp frp = RCall MEager true k -> f_steals frp <> 0 ->
  visible_flag nw af p s h b ->
  exists s1, destroy w c frc s = Some s1 /\
    (call_reading b i w c p frp k s1 = step (LWork i false) s \/
     call_reading b i w c p frp k s1 = step (LStale i) s).
Proof.
  intros HR Hi Hpc Hc Hr Hk Hp Hrp Hz (s0 & h0 & HR0 & Hs & Hb).
  assert (Hsafe : step (LWork i false) s <> Undef) by (by eapply reach_safe).
  assert (Hst : step (LWork i false) s = finish true i w c frc s) by (cbn [step]; unfold wstep; by rewrite Hi, Hpc, Hc, Hr).
  assert (Hsl : step (LStale i) s = finish false i w c frc s) by (cbn [step]; unfold stale; by rewrite Hi, Hpc, Hc, Hr, Hk).
  rewrite Hst in Hsafe. rewrite Hst, Hsl. unfold finish in *. rewrite Hk in *. destruct (decide _); [|done].
  destruct (destroy w c frc s) as [s1|] eqn:Hd; [|done]. exists s1. split; [done|].
  destruct (s_frames s1 !! p) as [frp'|] eqn:Hp1; [|done].
  assert (frp' = frp) as ->.
  { rewrite (destroy_frames _ _ _ _ _ Hd) in Hp1. apply lookup_delete_Some in Hp1 as (_ & Hp1). congruence. }
  rewrite Hrp in *. unfold call_reading, call_resume. rewrite !decide_False by done.
  destruct b; [|right; by rewrite andb_false_r].
  left. pose proof (C73_flag_only_rises _ _ _ _ _ _ _ HR0 Hs Hb) as Hfl. unfold flag in Hfl. rewrite Hp in Hfl.
  cbn in Hfl. injection Hfl as ->. done.
Qed.

(** A task that misses an exception still has it: the join throws it (C11), as no step
    that reads the flag without throwing the exception itself changes the flag. *)
Theorem C73_missed_exception_not_lost nw af s h i w f fr k pre s' tr :
  reach nw af s h -> s_workers s !! i = Some w -> w_pc w = PRun f -> s_frames s !! f = Some fr ->
  f_rp fr = RFork FSync true k pre -> f_steals fr <> 0 -> f_eflag fr = true ->
  step (LStale i) s = Next s' tr -> flag f s' = Some true /\ pending_in f (rev tr ++ h) = pending_in f h.
Proof.
  intros HR Hi Hpc Hf Hr Hz Hfl E. cbn [step] in E. unfold stale, fork_resume in E. rewrite Hi, Hpc, Hf, Hr in E.
  unfold flag. destruct (decide _); [rewrite decide_False, andb_false_r in E by done|]; injection E as <- <-; cbn;
    rewrite lookup_insert; cbn; by rewrite Hfl.
Qed.

(** ** The hypotheses are met *)

Definition not_pass (f : fid) (e : event) : bool :=
  match e with EvJoin g _ _ => negb (bool_decide (g = f)) | _ => true end.
Definition not_clear (f : fid) (e : event) : bool :=
  match e with EvJoin g _ _ | EvEager g _ => negb (bool_decide (g = f)) | _ => true end.
Lemma not_pass_ok f e : not_pass f e = true -> ~ passes f e.
Proof. intros H (cs & r & ->). cbn in H. by rewrite bool_decide_eq_true_2 in H. Qed.
Lemma not_clear_ok f e : not_clear f e = true -> ~ clears f e.
Proof. intros H [(cs & r & ->)|(x & ->)]; cbn in H; by rewrite bool_decide_eq_true_2 in H. Qed.

(** Follow [ls] as long as [f] lives and only events that satisfy [ok] happen. *)
Fixpoint follow (ok : event -> bool) (f : fid) (ls : list label) (x : state * list event) : option (state * list event) :=
  match ls with
  | [] => Some x
  | l :: ls' =>
    match step l x.1 with
    | Next s' tr =>
      if bool_decide (is_Some (s_frames s' !! f)) && forallb ok tr
      then follow ok f ls' (s', rev tr ++ x.2) else None
    | _ => None
    end
  end.

Lemma follow_since nw af P ok f ls x y :
  (forall e, ok e = true -> ~ P e) ->
  Forall (allowed nw af) ls -> follow ok f ls x = Some y -> forall z, since nw af P f z x -> since nw af P f z y.
Proof.
  intros Hok HA. revert x. induction HA as [|l ls Hl _ IH]; intros x E z Hz; cbn in E.
  - by injection E as <-.
  - destruct (step l x.1) as [s' tr| |] eqn:Es; try done.
    destruct (bool_decide _ && _) eqn:Eb; [|done]. apply andb_true_iff in Eb as (Eb & Ef). apply bool_decide_eq_true in Eb.
    apply (IH _ E z). destruct x as [s h]. eapply since_step; [exact Hz|exact Hl|exact Es|exact Eb|].
    intros e Hin. apply elem_of_list_In in Hin. rewrite forallb_forall in Ef. by apply Hok, Ef.
Qed.

(** A task forks a child that returns 3; worker 1 steals the task. *)
Definition prog73 : task :=
  Fork FNone false (Ret 3%Z) (fun _ => Join (fun cs _ => Ret match cs with [CVal v] => v | _ => 0%Z end)).
Lemma prog73_scoped nw : well_scoped nw prog73.
Proof. unfold well_scoped, prog73. repeat scp; done. Qed.

Definition before : list label :=
  [LSpawn 0 prog73; LTake 0; LWork 0 false; LWork 0 false; LSteal 1 0; LWork 1 false; LWork 1 false].
Definition child_ends : list label := [LWork 0 false; LWork 0 false; LWork 0 false; LWork 0 false].
Definition at_before : state * list event :=
  match run before (init 2) [] with Next s tr => (s, rev tr) | _ => (init 2, []) end.
Definition at_join : state * list event := default (init 2, []) (follow (not_pass 0) 0 child_ends at_before).

Lemma before_reach : reach 2 false at_before.1 at_before.2.
Proof.
  assert (E : run before (init 2) [] = Next at_before.1 (rev at_before.2)) by (vm_compute; reflexivity).
  assert (X : reach 2 false at_before.1 (rev (rev at_before.2) ++ [])).
  { eapply run_reach; [apply reach_init| |exact E]. repeat constructor; cbn; try done; apply prog73_scoped. }
  by rewrite rev_involutive, app_nil_r in X.
Qed.
Lemma join_since : since 2 false (passes 0) 0 at_before at_join.
Proof.
  assert (E : follow (not_pass 0) 0 child_ends at_before = Some at_join) by (vm_compute; reflexivity).
  apply (follow_since 2 false (passes 0) (not_pass 0) 0 child_ends at_before at_join); [apply not_pass_ok|by repeat constructor|exact E|apply since_now].
Qed.

(** When the child has ended the counter says that the task is ready; the value it had before
    is still visible and says that it is not.  The task reads the old value, and ends with the
    child's result. *)
Example C73_reads_old_value :
  reach 2 false at_join.1 at_join.2 /\
  counter 0 at_join.1 = Some 65534 /\ visible 2 false 0 at_join.1 at_join.2 65535 /\
  exists w fr k,
    s_workers at_join.1 !! 1%nat = Some w /\ w_pc w = PRun 0 /\ s_frames at_join.1 !! 0 = Some fr /\
    f_rp fr = RRun (Join k) /\ f_steals fr = 1 /\
    join_reading 65535 1 w 0 fr k at_join.1 = step (LStale 1) at_join.1 /\
    join_reading 65535 1 w 0 fr k at_join.1 <> step (LWork 1 false) at_join.1 /\
    exists s' tr, run [LStale 1; LWork 1 false; LWork 1 false; LWork 1 false; LWork 1 false] at_join.1 [] = Next s' tr /\
      s_res s' !! 0 = Some (OVal 3%Z).
Proof.
  split_and!.
  - destruct at_before as [s0 h0] eqn:E. apply (since_reach 2 false (passes 0) 0 at_before at_join join_since). apply before_reach.
  - vm_compute. reflexivity.
  - exists at_before.1, at_before.2. split_and!; [apply before_reach| |vm_compute; reflexivity].
    destruct at_before as [s0 h0] eqn:E1, at_join as [s1 h1] eqn:E2. cbn [fst snd]. rewrite <- E1, <- E2. apply join_since.
  - eexists _, _, _. split_and!; try (vm_compute; reflexivity).
    + vm_compute. congruence.
    + eexists _, _. split; vm_compute; reflexivity.
Qed.

(** A task forks a child that throws; worker 1 steals the task, which forks another child with
    the sync modifier.  When that child has returned 5, the first child sets the exception flag. *)
Definition prog73f : task :=
  Fork FNone false (Throw (EUser 1)) (fun _ =>
  Fork FSync true (Ret 5%Z) (fun r => Join (fun _ e => Ret
    match r, e with FExn _, Some _ => 1%Z | FDone (CVal v), Some _ => v | _, _ => 0%Z end))).
(** The same with an eager call. *)
Definition prog73c : task :=
  Fork FNone false (Throw (EUser 1)) (fun _ =>
  Call MEager true (Ret 5%Z) (fun r => Join (fun _ e => Ret
    match r, e with CExn _, Some _ => 1%Z | CDone (CVal v), Some _ => v | _, _ => 0%Z end))).
Lemma prog73f_scoped nw : well_scoped nw prog73f.
Proof. unfold well_scoped, prog73f. repeat scp; done. Qed.
Lemma prog73c_scoped nw : well_scoped nw prog73c.
Proof. unfold well_scoped, prog73c. repeat scp; done. Qed.

Definition unset (t : task) (n : nat) : state * list event :=
  match run ([LSpawn 0 t; LTake 0; LWork 0 false; LWork 0 false; LSteal 1 0] ++ repeat (LWork 1 false) n) (init 2) [] with
  | Next s tr => (s, rev tr) | _ => (init 2, []) end.
Definition then_set (x : state * list event) : state * list event :=
  default (init 2, []) (follow (not_clear 0) 0 [LWork 0 false] x).

Lemma unset_reach t n : well_scoped 2 t -> reach 2 false (unset t n).1 (unset t n).2.
Proof.
  intros Ht. unfold unset.
  destruct (run _ _ _) as [s tr| |] eqn:E; [|apply reach_init..]. cbn [fst snd]. rewrite <- (app_nil_r (rev tr)).
  eapply run_reach; [apply reach_init| |exact E].
  apply Forall_app. split; [by repeat constructor|]. apply Forall_forall. intros l Hl.
  apply elem_of_list_In, repeat_spec in Hl. by subst l.
Qed.
Lemma set_since x : follow (not_clear 0) 0 [LWork 0 false] x = Some (then_set x) ->
  since 2 false (clears 0) 0 x (then_set x).
Proof.
  intros E. apply (follow_since 2 false (clears 0) (not_clear 0) 0 [LWork 0 false] x (then_set x)); [apply not_clear_ok|by repeat constructor|exact E|apply since_now].
Qed.
Lemma set_visible x : reach 2 false x.1 x.2 -> follow (not_clear 0) 0 [LWork 0 false] x = Some (then_set x) ->
  flag 0 x.1 = Some false -> reach 2 false (then_set x).1 (then_set x).2 /\ visible_flag 2 false 0 (then_set x).1 (then_set x).2 false.
Proof.
  intros HR E Hfl. pose proof (set_since _ E) as Hs. split; [by apply (since_reach _ _ _ _ _ _ Hs)|].
  exists x.1, x.2. destruct x, (then_set _). done.
Qed.

(** The flag is set; its old value is still visible.  The task reads the old value, goes on with the
    value 5 of the child, and the join throws the exception: the root returns 5.  If the task
    reads the last value, the fork throws, and the root returns 1. *)
Example C73_fork_reads_old_flag :
  let x := then_set (unset prog73f 6) in
  reach 2 false x.1 x.2 /\ flag 0 x.1 = Some true /\ visible_flag 2 false 0 x.1 x.2 false /\
  exists w fr k pre,
    s_workers x.1 !! 1%nat = Some w /\ w_pc w = PRun 0 /\ s_frames x.1 !! 0 = Some fr /\
    f_rp fr = RFork FSync true k pre /\ f_steals fr = 1 /\
    fork_reading false 0 fr k pre x.1 = step (LStale 1) x.1 /\
    (exists s' tr, run ([LStale 1] ++ repeat (LWork 0 false) 4 ++ [LWork 1 false; LWork 1 false]) x.1 [] = Next s' tr /\
       s_res s' !! 0 = Some (OVal 5%Z)) /\
    (exists s' tr, run ([LWork 1 false] ++ repeat (LWork 0 false) 4 ++ [LWork 1 false; LWork 1 false]) x.1 [] = Next s' tr /\
       s_res s' !! 0 = Some (OVal 1%Z)).
Proof.
  cbn zeta.
  destruct (set_visible (unset prog73f 6)) as (HR & HV); [apply unset_reach, prog73f_scoped|vm_compute; reflexivity..|].
  split_and!; [exact HR|vm_compute; reflexivity|exact HV|].
  eexists _, _, _, _. split_and!; try (vm_compute; reflexivity); eexists _, _; (split; vm_compute; reflexivity).
Qed.

Example C73_call_reads_old_flag :
  let x := then_set (unset prog73c 4) in
  reach 2 false x.1 x.2 /\ flag 0 x.1 = Some true /\ visible_flag 2 false 0 x.1 x.2 false /\
  exists w frc j st frp k,
    s_workers x.1 !! 1%nat = Some w /\ w_pc w = PRun 2 /\ s_frames x.1 !! 2 = Some frc /\
    f_rp frc = RFinal /\ f_kind frc = KCall 0 j st /\
    s_frames x.1 !! 0 = Some frp /\ f_rp frp = RCall MEager true k /\ f_steals frp = 1 /\
    (exists s' tr, run ([LStale 1] ++ repeat (LWork 0 false) 4 ++ [LWork 1 false; LWork 1 false]) x.1 [] = Next s' tr /\
       s_res s' !! 0 = Some (OVal 5%Z)) /\
    (exists s' tr, run ([LWork 1 false] ++ repeat (LWork 0 false) 4 ++ [LWork 1 false; LWork 1 false]) x.1 [] = Next s' tr /\
       s_res s' !! 0 = Some (OVal 1%Z)).
Proof.
  cbn zeta.
  destruct (set_visible (unset prog73c 4)) as (HR & HV); [apply unset_reach, prog73c_scoped|vm_compute; reflexivity..|].
  split_and!; [exact HR|vm_compute; reflexivity|exact HV|].
  eexists _, _, _, _, _, _. split_and!; try (vm_compute; reflexivity); eexists _, _; (split; vm_compute; reflexivity).
Qed.

Print Assumptions C73_counter_only_decreases.
Print Assumptions C73_every_value_covered.
Print Assumptions C73_outdated_value_same_outcome.
Print Assumptions C73_never_early.
Print Assumptions C73_flag_only_rises.
Print Assumptions C73_every_flag_of_a_fork_covered.
Print Assumptions C73_every_flag_of_a_call_covered.
Print Assumptions C73_missed_exception_not_lost.
