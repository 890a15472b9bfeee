(** * C76: programs on busy_pool and unit_pool with the real deques, from sync_wait to the destructor.

    Model: BDeepModel.v.  Specification: BDeepSpec.v, FineSpec.v, RuntimeSpec.v, RuntimeTermSpec.v. *)

From stdpp Require Import prelude gmap list.
From Coq Require Import NArith Lia.
From Verif Require Import PoolCommon PoolFair PoolExamples BusyModel BDeepModel BDeepSpec BDeepProofs.
From Verif Require RuntimeModel RuntimeSpec RuntimeTermSpec Prop_Term DequeModel FineModel FineSpec FineProofs2.
From Verif Require BWholeModel BWholeSpec Prop_BWhole.

Section Thms.
(** [unit] is true for unit_pool. *)
Context (n : nat) (unit : bool) (K k : nat) (af : bool).

(** Nothing undefined ever happens, in the pool, in the runtime or in the deques, whatever programs
    run and whenever the pool is destroyed. *)
Theorem C76_never_undefined x l : reach n unit K k af x -> legal n af l -> deep_step n unit K l x <> DUndef.
Proof. intros (y & D & _)%reach_sim Hl. by apply (deep_sim n unit K k af l x y). Qed.

(** What happens is what happens on a pool whose deques are atomic: the same events, the same
    state of the pool, the same tasks, and the same tasks in each deque that is not being used. *)
Theorem C76_refines x : reach n unit K k af x -> exists y, BWholeSpec.wreach n unit af y /\
  BWholeModel.pool y = pool x /\ BWholeModel.hist y = hist x /\ FineSpec.agrees (fn x) (BWholeModel.rt y).
Proof.
  intros (y & D & Hy)%reach_sim. exists y. split; [done|]. split; [by destruct D|]. split; [by destruct D|].
  destruct (ds_sim _ _ _ _ _ _ D) as (Q & H & M). by eapply FineProofs2.sim_agrees.
Qed.

(** Every sync_wait returns, with the value the program has if it is run by itself. *)
Theorem C76_sync_wait_returns sg l N :
  dfair n unit K k af sg l -> submissions_end N l -> all_terminate af sg ->
  exists m, forall i, m <= i -> forall f t, submitted f t (sg i) -> finished af f t (sg i).
Proof.
  intros HW HP HT. pose proof (run_sim n unit K k af sg l HW) as HS.
  destruct (Prop_BWhole.C60_sync_wait_returns n unit af _ _ N (whole_fair n unit K k af sg l HW)
    (whole_submissions K sg l N HP) (whole_terminate n unit K k af sg l HW HT)) as (m & Hm).
  exists m. intros i Hi f t Hs. pose proof (HS i) as D. eapply finished_sim; [exact D|]. apply (Hm i Hi).
  unfold BWholeSpec.submitted. rewrite <- (ds_hist _ _ _ _ _ _ D). exact Hs.
Qed.

(** The destructor returns. *)
Theorem C76_destructor_returns sg l N i :
  dfair n unit K k af sg l -> submissions_end N l -> all_terminate af sg ->
  stop (pool (sg i)) = true -> exists m, i <= m /\ dt (pool (sg m)) = true.
Proof.
  intros HW HP HT Hd. pose proof (run_sim n unit K k af sg l HW) as HS.
  destruct (Prop_BWhole.C60_destructor_returns n unit af _ _ N i (whole_fair n unit K k af sg l HW)
    (whole_submissions K sg l N HP) (whole_terminate n unit K k af sg l HW HT)) as (m & Hm & Hdt).
  - by rewrite <- (ds_pool _ _ _ _ _ _ (HS i)).
  - exists m. split; [done|]. by rewrite (ds_pool _ _ _ _ _ _ (HS m)).
Qed.

(** When the destructor has returned, all that was ever submitted is finished, and no task is
    left in memory. *)
Theorem C76_destructor_finishes x : dreach n unit K k af x -> dt (pool x) = true ->
  (forall f t, submitted f t x -> finished af f t x) /\ RuntimeModel.s_frames (FineModel.rt (fn x)) = ∅.
Proof.
  intros (y & D & Hy)%dreach_sim Hd. rewrite (ds_pool _ _ _ _ _ _ D) in Hd.
  destruct (Prop_BWhole.C61_destructor_finishes n unit af y Hy Hd) as (H1 & H2). split.
  - intros f t Hs. eapply finished_sim; [exact D|]. apply H1. unfold BWholeSpec.submitted. rewrite <- (ds_hist _ _ _ _ _ _ D). exact Hs.
  - destruct (ds_sim _ _ _ _ _ _ D) as (Q & H & M). by rewrite (FineSpec.a_frames _ _ (FineProofs2.sim_agrees _ _ _ _ _ _ _ _ M)).
Qed.

(** On unit_pool, which has one worker, it is enough that nobody submits from outside once the
    destructor has been called. *)
Theorem C76_unit_pool l x : n = 1 -> reach n unit K k af x ->
  (stop (pool x) = true -> forall d t, l <> YClient d t) -> documented l x.
Proof.
  intros En (y & D & Hy)%reach_sim Hc Hst. destruct l as [w c v fail|d t| | |w]; try done; [|by destruct (Hc Hst d t)].
  intros d Ha%(about_back _ _ _ _ _ _ _ _ D).
  assert (Hd : BWholeSpec.documented (BWholeModel.XWorker w c v fail) y) by (by eapply Prop_BWhole.C61_unit_pool).
  apply Hd; [by rewrite <- (ds_pool _ _ _ _ _ _ D)|done].
Qed.
End Thms.

(** ** The hypotheses are met *)

(** The step of a thread if the pool is used as documented. *)
Definition doc_ok (l : dlab) (x : deep) : bool :=
  negb (stop (pool x)) ||
  match l with
  | YWorker w _ _ _ =>
    match RuntimeModel.s_workers (FineModel.rt (fn x)) !! w with
    | Some wk =>
      match RuntimeModel.w_pc wk with
      | RuntimeModel.PRun f =>
        match RuntimeModel.f_rp <$> RuntimeModel.s_frames (FineModel.rt (fn x)) !! f with
        | Some (RuntimeModel.RRun (RuntimeModel.Switch _ d _)) => bool_decide (d = w)
        | _ => true
        end
      | _ => true
      end
    | None => true
    end
  | YClient _ _ => false
  | _ => true
  end.
Lemma doc_ok_documented l x : doc_ok l x = true -> documented l x.
Proof.
  unfold doc_ok, documented. intros H Hst. rewrite Hst in H. simpl in H. destruct l as [w c v fail|d t| | |w]; [|done..].
  intros d (wk & f & fr & skip & t & H1 & H2 & H3 & H4). rewrite H1, H2, H3 in H. simpl in H. rewrite H4 in H. by apply bool_decide_eq_true in H.
Qed.

(** A finite execution that got to its end is turned into an infinite fair one. *)
Section Example.
Context (n : nat) (unit : bool) (prog : RuntimeModel.task).
Notation ini := (init_deep n 1).
Notation stp := (deep_step n unit 2).

Definition wo (l : dlab) (x : deep) : outcome deep :=
  if doc_ok l x then match stp l x with DNext y => Next y [] | DBlock => Blocked | DUndef => Undef end else Blocked.
Definition ex_lab (l : dlab) : Prop :=
  match l with YWorker w _ _ fail => fail = false | YClient _ t => t = prog | _ => True end.
Definition is_client (l : dlab) : bool := match l with YClient _ _ => true | _ => false end.
Definition spawns (h : list RuntimeModel.event) : list (N * RuntimeModel.task) :=
  omap (fun e => match e with RuntimeModel.EvSpawn f t => Some (f, t) | _ => None end) h.

Lemma greedy_forall (P : dlab -> Prop) ls x : Forall P ls -> Forall P (greedy wo ls x).
Proof. intros H. revert x. induction H as [|l ls Hl _ IH]; intros x; simpl; [done|]. destruct (wo l x); [constructor|..]; auto. Qed.
Lemma wo_step l x y tr : wo l x = Next y tr -> documented l x /\ stp l x = DNext y.
Proof.
  unfold wo. destruct (doc_ok l x) eqn:E; [|done]. apply doc_ok_documented in E. destruct (stp l x); [|done..]. by intros [= -> _].
Qed.
Lemma step_hist l x y : stp l x = DNext y -> exists h, hist y = h ++ hist x.
Proof.
  intros E. assert (exists pl r t, both n unit pl r t x = DNext y) as (pl & r & t & (p & trp & f & tr & _ & _ & ->)%both_next); [|by exists (rev tr)].
  destruct l as [w c v fail|d t| | |w]; unfold deep_step, thread, alone in E; repeat case_match; try done; eexists _, _, _; exact E.
Qed.
Lemma exec_hist ls x y t : exec wo ls x = Some (y, t) -> exists h, hist y = h ++ hist x.
Proof.
  revert x t. induction ls as [|l ls IH]; intros x t Hx; simpl in Hx; [injection Hx as <- _; by exists []|].
  destruct (wo l x) as [z tr| |] eqn:Hs; [|done..]. destruct (exec wo ls z) as [[z2 t2]|] eqn:E; [|done]. injection Hx as <- _.
  destruct (IH z t2 E) as [h1 E1]. apply wo_step in Hs as [_ Hs]. apply step_hist in Hs as [h2 E2].
  exists (h1 ++ h2). by rewrite E1, E2, app_assoc.
Qed.
Lemma submitted_spawn f t x : submitted f t x -> (f, t) ∈ spawns (hist x).
Proof.
  unfold submitted. induction (hist x) as [|e h IH]; intros [H1 H2]; [done|].
  destruct e; simpl in *; try (by apply IH); case_decide; simplify_eq; try (by apply IH); [by left|right; by apply IH].
Qed.

Context (ls : list dlab) (y : deep) (ty : list pev) (M : nat).
Context (Hy : exec wo ls ini = Some (y, ty)) (HL : Forall ex_lab ls) (Hcl : existsb is_client (skipn M ls) = false).
Context (Hpc : forall w, w < n -> pc (pool y) w = XDone /\ FineModel.from (fn y) w = None) (Hst : stop (pool y) = true) (Hdt : dt (pool y) = true) (Hsp : spawns (hist y) = [(0%N, prog)]).
Context (Hsc : RuntimeSpec.well_scoped n prog) (Hte : RuntimeTermSpec.terminates false prog).

Definition ex_sg := states wo ini ls.
(** At the end the destructor's join goes on being possible. *)
Definition ex_l (i : nat) : option dlab := match nth_error ls i with Some x => Some x | None => Some YJoin end.

Lemma join_forever : stp YJoin y = DNext y.
Proof.
  unfold deep_step, alone, both. simpl. rewrite decide_True by done.
  assert (forallb (fun u => match pc (pool y) u with BusyModel.XDone => true | _ => false end) (seq 0 n) = true) as ->.
  { apply forallb_forall. intros u Hu. apply in_seq in Hu. destruct (Hpc u) as [-> _]; [lia|done]. }
  f_equal. destruct y as [p f tr h]. simpl in *. destruct p. simpl in *. congruence.
Qed.
Lemma ex_end i : length ls <= i -> ex_sg i = y.
Proof. intros Hi. unfold ex_sg. rewrite states_end by done. unfold state_after. by rewrite Hy. Qed.

Lemma ex_fair : dfair n unit 2 1 false ex_sg ex_l.
Proof.
  split.
  - destruct (run_of_list wo ini ls ltac:(by rewrite Hy)) as [R0 R1]. split; [done|]. intros i. specialize (R1 i).
    unfold ex_l, labels in *. fold ex_sg in R1. destruct (nth_error ls i) as [l|] eqn:Hl.
    + destruct R1 as [tr R1]. apply wo_step in R1 as [R1 R2]. split_and!; [|done|done].
      rewrite Forall_forall in HL. pose proof (HL l (proj2 (elem_of_list_In _ _) (nth_error_In _ _ Hl))) as HX.
      destruct l; simpl in *; [by rewrite HX|by rewrite HX|done|done|done].
    + apply nth_error_None in Hl. rewrite !ex_end by lia. split_and!; [done|by intros _|apply join_forever].
  - intros w i Hw. exists (i `max` length ls). split; [lia|right]. intros c v fail _. rewrite ex_end by lia.
    destruct (Hpc w Hw) as [Hp Hf]. unfold deep_step. rewrite decide_True by done. unfold thread. rewrite Hf, Hp.
    unfold alone, both. simpl. rewrite decide_True by done. unfold worker. by rewrite Hp.
  - intros i. exists (i `max` length ls). split; [lia|left]. unfold ex_l.
    assert (nth_error ls (i `max` length ls) = None) as -> by (apply nth_error_None; lia). done.
Qed.

Lemma ex_submissions : submissions_end M ex_l.
Proof.
  intros i d t Hi Hl. unfold ex_l in Hl. destruct (nth_error ls i) as [x|] eqn:E; [|discriminate Hl]. injection Hl as ->.
  replace i with (M + (i - M)) in E by lia. rewrite <- nth_error_skipn in E. apply nth_error_In in E.
  assert (existsb is_client (skipn M ls) = true) as E' by (apply existsb_exists; eexists; split; [exact E|reflexivity]). rewrite Hcl in E'. discriminate E'.
Qed.

Lemma ex_terminate : all_terminate false ex_sg.
Proof.
  intros i f t Hs%submitted_spawn.
  assert ((f, t) ∈ spawns (hist y)) as Hin; [|rewrite Hsp in Hin; apply elem_of_list_singleton in Hin; by injection Hin as -> ->].
  pose proof Hy as Hx. rewrite <- (firstn_skipn i ls), exec_app in Hx. unfold ex_sg, states, state_after in Hs.
  destruct (exec wo (firstn i ls) ini) as [[x1 t1]|]; [|done].
  destruct (exec wo (skipn i ls) x1) as [[y2 t2]|] eqn:E; [|done]. injection Hx as <- _.
  destruct (exec_hist _ _ _ _ E) as [h ->]. unfold spawns in *. rewrite omap_app. apply elem_of_app. by right.
Qed.

Lemma ex_reach i : dreach n unit 2 1 false (ex_sg i).
Proof.
  destruct (df_run _ _ _ _ _ _ _ ex_fair) as [R0 R1]. induction i as [|j IH]; [rewrite R0; constructor|].
  specialize (R1 j). destruct (ex_l j) as [l|]; [|rewrite Nat.add_1_r in R1; by rewrite R1]. destruct R1 as (Hl & Hd & Hs). rewrite Nat.add_1_r in Hs. by econstructor.
Qed.
End Example.

Lemma dreach_reach n unit K k af x : dreach n unit K k af x -> reach n unit K k af x.
Proof. induction 1; [constructor|by econstructor]. Qed.

(** busy_pool with two workers; the program of the README with argument 2 is submitted to
    worker 0 and the destructor is called before the program has started; worker 1 steals, in
    several steps, after worker 0 has pushed. *)
Definition prog : RuntimeModel.task := Prop_Term.fib 2.
Definition yw (w : nat) := YWorker w false 0 false.
Definition ys (w v : nat) := YWorker w true v false.
Definition bx_script : list dlab :=
  [yw 1; yw 1; yw 0; YClient 0 prog; YDtor] ++ rep 10 [yw 0] ++ rep 20 [ys 1 0] ++ rep 60 [yw 1; yw 0] ++ [YJoin].
Definition bx_run : list dlab := greedy (wo 2 false) bx_script (init_deep 2 1).
(** unit_pool; the task moves to its own worker after the destructor has been called. *)
Definition uprog : RuntimeModel.task := RuntimeModel.Switch false 0 (Prop_Term.fib 2).
Definition ux_script : list dlab := [YClient 0 uprog; YDtor] ++ rep 80 [yw 0] ++ [YJoin].
Definition ux_run : list dlab := greedy (wo 1 true) ux_script (init_deep 1 1).

Lemma bx_facts :
  match exec (wo 2 false) bx_run (init_deep 2 1) with
  | Some (y, _) => existsb is_client (skipn 4 bx_run) = false /\
                   (pc (pool y) 0 = XDone /\ FineModel.from (fn y) 0 = None) /\ (pc (pool y) 1 = XDone /\ FineModel.from (fn y) 1 = None) /\
                   stop (pool y) = true /\ dt (pool y) = true /\ spawns (hist y) = [(0%N, prog)] /\
                   submitted 0%N prog y /\ In (RuntimeModel.EvResume 1 0) (hist y) /\ RuntimeModel.s_res (FineModel.rt (fn y)) !! 0%N = Some (RuntimeModel.OVal 1)
  | None => False
  end.
Proof. vm_compute. repeat split; try reflexivity. tauto. Qed.
Lemma ux_facts :
  match exec (wo 1 true) ux_run (init_deep 1 1) with
  | Some (y, _) => existsb is_client (skipn 4 ux_run) = false /\ (pc (pool y) 0 = XDone /\ FineModel.from (fn y) 0 = None) /\
                   stop (pool y) = true /\ dt (pool y) = true /\ spawns (hist y) = [(0%N, uprog)] /\
                   submitted 0%N uprog y /\ RuntimeModel.s_res (FineModel.rt (fn y)) !! 0%N = Some (RuntimeModel.OVal 1)
  | None => False
  end.
Proof. vm_compute. repeat split; reflexivity. Qed.

Lemma bx_labs : Forall (ex_lab prog) bx_run.
Proof. apply greedy_forall. repeat constructor. Qed.
Lemma ux_labs : Forall (ex_lab uprog) ux_run.
Proof. apply greedy_forall. repeat constructor. Qed.

Lemma prog_scoped n : RuntimeSpec.well_scoped n prog.
Proof. exact (proj1 (Prop_Term.fib_scoped n 2)). Qed.
Lemma uprog_scoped : RuntimeSpec.well_scoped 1 uprog.
Proof. constructor; [lia|]. exact (prog_scoped 1). Qed.
Lemma prog_terminates : RuntimeTermSpec.terminates false prog.
Proof. exact (Prop_Term.C51_finite_programs_terminate false prog (proj1 (Prop_Term.fib_finite 2))). Qed.
Lemma uprog_terminates : RuntimeTermSpec.terminates false uprog.
Proof. apply Prop_Term.C51_finite_programs_terminate. constructor. exact (proj1 (Prop_Term.fib_finite 2)). Qed.

Opaque bx_run ux_run prog uprog.

(** The executions above are fair and as documented, their programs terminate, and they get to
    the end. *)
Example C76_instance : exists sg l N, dfair 2 false 2 1 false sg l /\ submissions_end N l /\ all_terminate false sg /\
  exists i, reach 2 false 2 1 false (sg i) /\ dreach 2 false 2 1 false (sg i) /\ stop (pool (sg i)) = true /\ dt (pool (sg i)) = true /\
    submitted 0%N prog (sg i) /\ RuntimeModel.EvResume 1 0 ∈ hist (sg i).
Proof.
  pose proof bx_facts as H. destruct (exec (wo 2 false) bx_run (init_deep 2 1)) as [[y t]|] eqn:Hy; [|destruct H].
  destruct H as (H1 & H2 & H3 & H4 & H5 & H6 & H7 & H8 & _).
  assert (forall w, w < 2 -> pc (pool y) w = XDone /\ FineModel.from (fn y) w = None) as Hpc by (intros [|[|w]] Hw; [exact H2|exact H3|lia]).
  exists (ex_sg 2 false bx_run), (ex_l bx_run), 4. split_and!.
  - exact (ex_fair 2 false prog bx_run y t Hy bx_labs Hpc H4 H5 H6 (prog_scoped 2)).
  - exact (ex_submissions bx_run 4 H1).
  - exact (ex_terminate 2 false prog bx_run y t Hy Hpc H4 H5 H6 prog_terminates).
  - pose proof (ex_reach 2 false prog bx_run y t Hy bx_labs Hpc H4 H5 H6 (prog_scoped 2) (length bx_run)) as Hr.
    exists (length bx_run). split; [exact (dreach_reach _ _ _ _ _ _ Hr)|]. split; [exact Hr|].
    rewrite (ex_end 2 false bx_run y t Hy) by lia. split_and!; [exact H4|exact H5|exact H7|by apply elem_of_list_In].
Qed.

Example C76_unit_instance : exists x, reach 1 true 2 1 false x /\ dreach 1 true 2 1 false x /\ dt (pool x) = true /\ submitted 0%N uprog x.
Proof.
  pose proof ux_facts as H. destruct (exec (wo 1 true) ux_run (init_deep 1 1)) as [[y t]|] eqn:Hy; [|destruct H].
  destruct H as (H1 & H2 & H4 & H5 & H6 & H7 & _).
  assert (forall w, w < 1 -> pc (pool y) w = XDone /\ FineModel.from (fn y) w = None) as Hpc by (intros [|w] Hw; [exact H2|lia]).
  pose proof (ex_reach 1 true uprog ux_run y t Hy ux_labs Hpc H4 H5 H6 uprog_scoped (length ux_run)) as Hr.
  rewrite (ex_end 1 true ux_run y t Hy) in Hr by lia. exists y. split; [exact (dreach_reach _ _ _ _ _ _ Hr)|].
  split; [exact Hr|]. split; [exact H5|exact H7].
Qed.

Print Assumptions C76_never_undefined.
Print Assumptions C76_refines.
Print Assumptions C76_sync_wait_returns.
Print Assumptions C76_destructor_returns.
Print Assumptions C76_destructor_finishes.
Print Assumptions C76_unit_pool.
