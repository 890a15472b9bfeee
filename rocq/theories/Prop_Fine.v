(** * C70: the runtime on the real deques.

    Vocabulary: FineModel.v, FineSpec.v and RuntimeSpec.v.  [freach nw k af x h]: the machine in
    which push, pop and steal are executed one memory access at a time, interleaved with all
    other workers, reaches [x] with history [h]; its [nw] deques start with capacity [2^k].
    [reach nw af s h]: so does the machine with atomic deques, which C01-C12 and C51 are about. *)

From stdpp Require Import prelude gmap list.
From Coq Require Import NArith ZArith Lia.
From Verif Require Import RuntimeModel RuntimeSpec RuntimeExamples FineModel FineSpec FineProofs2.
From Verif Require Prop_Runtime DequeModel.
Local Open Scope N_scope.

(** Every execution is one of the machine with atomic deques: same history, and the states
    agree. *)
Theorem C70_refines nw k af x h :
  freach nw k af x h -> exists s, reach nw af s h /\ agrees x s.
Proof.
  intros (s & Q & H & M)%freach_sim. exists s. split; [by eapply m_reach|by eapply sim_agrees].
Qed.

(** No assertion fails and nothing undefined happens, neither in the deques nor in the runtime. *)
Theorem C70_no_undefined nw k af x h l :
  freach nw k af x h -> fallowed nw af l -> fstep l x <> FUndef.
Proof. intros (s & Q & H & M)%freach_sim Hl. by eapply sim_fstep. Qed.

(** Every task that ends does so with an outcome that the serial elision of its body allows. *)
Theorem C70_serial nw k af x h f o :
  freach nw k af x h -> outcome_in f h = Some o ->
  exists t, body_in f h = Some t /\ eval af t o.
Proof. intros (s & HR & _)%C70_refines. by eapply Prop_Runtime.C03_serial. Qed.

(** The result a submitter reads is such an outcome. *)
Theorem C70_root_result nw k af x h f o :
  freach nw k af x h -> parent_in f h = None -> s_res (rt x) !! f = Some o ->
  exists t, body_in f h = Some t /\ eval af t o.
Proof. intros (s & HR & Ha)%C70_refines. rewrite (a_res _ _ Ha). by eapply Prop_Runtime.C03_root_result. Qed.

(** A join completes only when all children are gone, and sees their results. *)
Theorem C70_join_waits nw k af x h1 f cs r h0 :
  freach nw k af x (h1 ++ EvJoin f cs r :: h0) ->
  length cs = length (kids_in f h0) /\
  forall j c st, kids_in f h0 !! j = Some (c, st) ->
    status_in c h0 = Some Gone /\
    exists o, outcome_in c h0 = Some o /\ cs !! j = Some (cell_of st o).
Proof. intros (s & HR & _)%C70_refines. by eapply Prop_Runtime.C01_join_waits. Qed.

(** A task is resumed only while it is suspended; no two workers run the same task. *)
Theorem C70_resumed_only_if_suspended nw k af x h1 w f h0 :
  freach nw k af x (h1 ++ EvResume w f :: h0) ->
  status_in f h0 <> None /\ status_in f h0 <> Some Gone /\ forall w', status_in f h0 <> Some (Running w').
Proof. intros (s & HR & _)%C70_refines. by eapply Prop_Runtime.C02_resumed_only_if_suspended. Qed.

Theorem C70_one_worker nw k af x h i j w w' f :
  freach nw k af x h -> s_workers (rt x) !! i = Some w -> s_workers (rt x) !! j = Some w' ->
  w_pc w = PRun f -> w_pc w' = PRun f -> i = j.
Proof.
  intros (s & HR & Ha)%C70_refines Hi Hj Ei Ej. pose proof (a_workers _ _ Ha) as HW.
  destruct (Forall2_lookup_l _ _ _ _ _ HW Hi) as (v & Hv & Ev & _).
  destruct (Forall2_lookup_l _ _ _ _ _ HW Hj) as (v' & Hv' & Ev' & _).
  eapply (Prop_Runtime.C02_one_worker nw af s h i j v v' f); congruence.
Qed.

(** The submitter is released at most once. *)
Theorem C70_signalled_at_most_once nw k af x h f :
  freach nw k af x h -> signals_in f h <= 1 /\ sem (rt x) f = signals_in f h.
Proof.
  intros (s & HR & Ha)%C70_refines. unfold sem. rewrite (a_sem _ _ Ha). by apply (Prop_Runtime.C05_signalled_at_most_once nw af).
Qed.

(** ** Concrete executions

    Two workers, deques of capacity 1.  Worker 0 runs a program that forks twice; after the first
    child it pops its parent while worker 1 steals it. *)
Definition W (i n : nat) : list flabel := repeat (FWork i false) n.

(** Worker 1 has read top, bottom, the buffer and the slot, worker 0 has published its pop; worker
    1's compare-exchange comes first. *)
Definition race_won : list flabel :=
  FSpawn 0 prog_pure :: FTake 0 :: W 0 9 ++ [FSteal 1 0] ++ W 1 4 ++ W 0 3 ++ W 1 1.
(** Worker 1 has read top and bottom when worker 0's compare-exchange takes the task. *)
Definition race_lost : list flabel := FSpawn 0 prog_pure :: FTake 0 :: W 0 8 ++ [FSteal 1 0] ++ W 1 3 ++ W 0 6.

(** What follows, one worker at a time. *)
Fixpoint first_of (ls : list flabel) (s : fine) : option (flabel * fine) :=
  match ls with
  | [] => None
  | l :: ls' => match fstep l s with FNext s' _ => Some (l, s') | _ => first_of ls' s end
  end.
Fixpoint rest_of (n : nat) (s : fine) : list flabel :=
  match n with
  | O => []
  | S n' => match first_of [FWork 1 false; FWork 0 false; FTake 0; FTake 1] s with
            | None => [] | Some (l, s') => l :: rest_of n' s' end
  end.
Definition complete (ls : list flabel) : list flabel :=
  match frun ls (finit 2 0) [] with Some (s, _) => ls ++ rest_of 100 s | None => [] end.

Lemma frun_app ls s tr : frun ls s tr = match frun ls s [] with Some (s', tr') => Some (s', tr ++ tr') | None => None end.
Proof.
  revert s tr. induction ls as [|l ls IH]; intros s tr; cbn; [by rewrite app_nil_r|].
  destruct (fstep l s) as [s' tr'| |]; try done. rewrite (IH s' (tr ++ tr')), (IH s' tr').
  destruct (frun ls s' []) as [(s2 & tr2)|]; [|done]. by rewrite app_assoc.
Qed.

Lemma frun_freach nw k af ls x h x' tr :
  freach nw k af x h -> Forall (fallowed nw af) ls -> frun ls x [] = Some (x', tr) -> freach nw k af x' (rev tr ++ h).
Proof.
  intros HR HA. revert x h x' tr HR. induction HA as [|l ls Hl _ IH]; intros x h x' tr HR E; cbn in E.
  - injection E as <- <-. done.
  - destruct (fstep l x) as [s1 tr1| |] eqn:El; try done. rewrite frun_app in E.
    destruct (frun ls s1 []) as [(s2 & tr2)|] eqn:E2; [|done]. injection E as <- <-.
    rewrite rev_app_distr, <- app_assoc. eapply IH; [|exact E2]. by eapply freach_step.
Qed.

Lemma W_allowed nw af i n : Forall (fallowed nw af) (W i n).
Proof. apply Forall_forall. intros l Hl%elem_of_list_In%repeat_spec. by subst. Qed.
Lemma rest_allowed nw af n s : Forall (fallowed nw af) (rest_of n s).
Proof.
  revert s. induction n as [|n IH]; intros s; cbn [rest_of]; [constructor|].
  destruct (first_of _ _) as [(l & s')|] eqn:E; [|constructor]. constructor; [|apply IH].
  cbn [first_of] in E. repeat case_match; try done; injection E as <- _; done.
Qed.
Lemma race_won_allowed : Forall (fallowed 2 false) race_won.
Proof. unfold race_won. constructor; [apply prog_pure_scoped|]. constructor; [done|]. repeat (apply Forall_app; split); try apply W_allowed; repeat constructor. Qed.
Lemma race_lost_allowed : Forall (fallowed 2 false) race_lost.
Proof. unfold race_lost. constructor; [apply prog_pure_scoped|]. constructor; [done|]. repeat (apply Forall_app; split); try apply W_allowed; repeat constructor. Qed.

Definition state_of (ls : list flabel) : fine := match frun ls (finit 2 0) [] with Some (s, _) => s | None => finit 2 0 end.
Definition hist_of (ls : list flabel) : history := match frun ls (finit 2 0) [] with Some (_, tr) => rev tr | None => [] end.
Lemma freach_of ls : Forall (fallowed 2 false) ls -> freach 2 0 false (state_of ls) (hist_of ls).
Proof.
  intros HA. unfold state_of, hist_of. destruct (frun ls (finit 2 0) []) as [(s & tr)|] eqn:E; [|constructor].
  rewrite <- (app_nil_r (rev tr)). by eapply frun_freach; [constructor| |].
Qed.
Lemma complete_allowed ls : Forall (fallowed 2 false) ls -> Forall (fallowed 2 false) (complete ls).
Proof. intros H. unfold complete. destruct (frun _ _ _) as [(s & tr)|]; [|done]. apply Forall_app. split; [done|apply rest_allowed]. Qed.

(** In the middle of the race: the task is with the thief although the owner is about to try to
    take it; bottom is below top. *)
Example C70_race_nonvacuous :
  freach 2 0 false (state_of race_won) (hist_of race_won) /\
  map w_pc (s_workers (rt (state_of race_won))) = [PFinal 0; PStolen 0] /\
  DequeModel.d_own (dq (state_of race_won) 0) = DequeModel.OPopCas 0 0 /\
  DequeModel.d_thf (dq (state_of race_won) 0) 1 = DequeModel.TRet (DequeModel.RSome 0) /\
  freach 2 0 false (state_of race_lost) (hist_of race_lost) /\
  map w_pc (s_workers (rt (state_of race_lost))) = [PFinal 0; PIdle] /\
  DequeModel.d_own (dq (state_of race_lost) 0) = DequeModel.OPopRet 0 /\
  DequeModel.d_thf (dq (state_of race_lost) 0) 1 = DequeModel.TSlot 0 0.
Proof.
  repeat split; try (vm_compute; reflexivity); apply freach_of; [apply race_won_allowed|apply race_lost_allowed].
Qed.

(** Both executions end with the program's result; in the first the join has to wait. *)
Example C70_nonvacuous :
  freach 2 0 false (state_of (complete race_won)) (hist_of (complete race_won)) /\
  s_res (rt (state_of (complete race_won))) !! 0 = Some (OVal 11) /\
  parent_in 0 (hist_of (complete race_won)) = None /\
  outcome_in 0 (hist_of (complete race_won)) = Some (OVal 11) /\
  signals_in 0 (hist_of (complete race_won)) = 1 /\
  existsb (fun e => match e with EvWait 0 => true | _ => false end) (hist_of (complete race_won)) = true /\
  freach 2 0 false (state_of (complete race_lost)) (hist_of (complete race_lost)) /\
  s_res (rt (state_of (complete race_lost))) !! 0 = Some (OVal 11) /\
  existsb (fun e => match e with EvWait 0 => true | _ => false end) (hist_of (complete race_lost)) = false /\
  existsb (fun e => match e with EvJoin 0 _ _ => true | _ => false end) (hist_of (complete race_lost)) = true.
Proof.
  repeat split; try (vm_compute; reflexivity); apply freach_of, complete_allowed; [apply race_won_allowed|apply race_lost_allowed].
Qed.

Print Assumptions C70_refines.
Print Assumptions C70_no_undefined.
Print Assumptions C70_serial.
Print Assumptions C70_root_result.
Print Assumptions C70_join_waits.
Print Assumptions C70_resumed_only_if_suspended.
Print Assumptions C70_one_worker.
Print Assumptions C70_signalled_at_most_once.
