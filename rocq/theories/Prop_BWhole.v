(** * C60, C61: programs on busy_pool and unit_pool, from sync_wait to the destructor.

    Model: BWholeModel.v.  Specification: BWholeSpec.v, RuntimeSpec.v, RuntimeTermSpec.v. *)

From stdpp Require Import prelude gmap list.
From Coq Require Import NArith Lia.
From Verif Require Import PoolCommon PoolFair PoolExamples BusyModel BusySpec BusyProofs BusyLive BWholeModel BWholeSpec BWholeInv BWholeProofs.
From Verif Require RuntimeModel RuntimeSpec RuntimeTermSpec Prop_Term.

Section Thms.
(** [unit] is true for unit_pool. *)
Context (n : nat) (unit : bool) (af : bool).

(** ** C60 *)

(** Nothing undefined ever happens in the pool or in the runtime, whatever programs run and
    whenever the pool is destroyed. *)
Theorem C60_never_undefined x l : wreach n unit af x -> legal n af l -> whole_step n unit l x <> WUndef.
Proof. intros Hx Hl. eapply step_defined; [by apply wreach_winv|done]. Qed.

(** What happens is an execution of the pool's model and one of the runtime's model; both have
    the same submission lists. *)
Theorem C60_parts x : wreach n unit af x ->
  (exists h, BusyModel.reach n unit (pool x) h) /\ RuntimeSpec.reach n af (rt x) (hist x) /\
  forall w wk, RuntimeModel.s_workers (rt x) !! w = Some wk -> map N.to_nat (RuntimeModel.w_inbox wk) = q (pool x) w.
Proof. intros Hx%wreach_winv. split_and!; [apply Hx..]. Qed.

(** Every sync_wait returns, with the value the program has if it is run by itself. *)
Theorem C60_sync_wait_returns sg l N :
  wfair n unit af sg l -> submissions_end N l -> all_terminate af sg ->
  exists k, forall m, k <= m -> forall f t, submitted f t (sg m) -> finished af f t (sg m).
Proof.
  intros HW HP HT. destruct (comes_to_rest n unit af sg l HW N HP HT) as (K & _ & HK).
  exists K. intros m Hm f t [H1 H2]. destruct (HK m Hm) as [_ Hf].
  exact (Prop_Term.no_task_left n af _ _ f t (wi_rt _ _ _ _ (run_winv n unit af sg l HW m)) Hf H1 H2).
Qed.

(** The destructor returns. *)
Theorem C60_destructor_returns sg l N i :
  wfair n unit af sg l -> submissions_end N l -> all_terminate af sg ->
  stop (pool (sg i)) = true -> exists k, i <= k /\ dt (pool (sg k)) = true.
Proof.
  intros HW HP HT Hd. destruct (pool_ends n unit af sg l HW N HP HT) as (K & HK).
  exact (shutdown_terminates n unit _ _ (pool_fair n unit af sg l HW N HP HT) i K Hd HK).
Qed.

(** ** C61 *)

(** When the destructor has returned, all that was ever submitted is finished, and no task is
    left in memory. *)
Theorem C61_destructor_finishes x : dreach n unit af x -> dt (pool x) = true ->
  (forall f t, submitted f t x -> finished af f t x) /\ RuntimeModel.s_frames (rt x) = ∅.
Proof.
  intros Hx Hd. pose proof (wreach_winv _ _ _ x (dreach_wreach _ _ _ x Hx)) as I.
  assert (RuntimeModel.s_frames (rt x) = ∅) as Hf.
  { apply (all_left n unit af x I (dreach_linv n unit af x Hx)). intros w Hw. destruct (wi_pool _ _ _ _ I) as [h Hh].
    by rewrite (bi_dt _ _ _ _ (reach_binv n unit _ _ Hh) Hd w Hw). }
  split; [|done]. intros f t [H1 H2]. exact (Prop_Term.no_task_left n af _ _ f t (wi_rt _ _ _ _ I) Hf H1 H2).
Qed.

(** On unit_pool, which has one worker, it is enough that nobody submits from outside once the
    destructor has been called: tasks cannot move to another worker. *)
Theorem C61_unit_pool l x : n = 1 -> wreach n unit af x ->
  (stop (pool x) = true -> forall d t, l <> XClient d t) -> documented l x.
Proof.
  intros En Hx%wreach_winv Hc Hst. destruct l as [w c v fail|d t| | |w]; try done; [|by destruct (Hc Hst d t)].
  intros d (wk & f & fr & skip & t & H1 & H2 & H3 & H4).
  assert (w < n) as Hw by (rewrite <- (wi_len _ _ _ _ Hx); by eapply lookup_lt_Some).
  destruct (RuntimeSafe.reach_inv _ _ _ _ (wi_rt _ _ _ _ Hx)) as (G & J).
  pose proof (RuntimeInv.i_node _ _ _ J f fr H3) as (_ & _ & _ & _ & Hn). rewrite H4 in Hn. destruct Hn as (_ & _ & m & b & Hs & _).
  inversion Hs. lia.
Qed.
End Thms.

(** ** The hypotheses are met *)

(** The step of a thread if the pool is used as documented. *)
Definition doc_ok (l : wlab) (x : whole) : bool :=
  negb (stop (pool x)) ||
  match l with
  | XWorker w _ _ _ =>
    match RuntimeModel.s_workers (rt x) !! w with
    | Some wk =>
      match RuntimeModel.w_pc wk with
      | RuntimeModel.PRun f =>
        match RuntimeModel.f_rp <$> RuntimeModel.s_frames (rt x) !! f with
        | Some (RuntimeModel.RRun (RuntimeModel.Switch _ d _)) => bool_decide (d = w)
        | _ => true
        end
      | _ => true
      end
    | None => true
    end
  | XClient _ _ => false
  | _ => true
  end.
Lemma doc_ok_documented l x : doc_ok l x = true -> documented l x.
Proof.
  unfold doc_ok, documented. intros H Hst. rewrite Hst in H. simpl in H. destruct l as [w c v fail|d t| | |w]; [|done..].
  intros d (wk & f & fr & skip & t & H1 & H2 & H3 & H4). rewrite H1, H2, H3 in H. simpl in H. rewrite H4 in H. by apply bool_decide_eq_true in H.
Qed.

Section Example.
Context (n : nat) (unit : bool) (prog : RuntimeModel.task).

Definition wo (l : wlab) (x : whole) : outcome whole :=
  if doc_ok l x then match whole_step n unit l x with WNext y => Next y [] | WBlock => Blocked | WUndef => Undef end else Blocked.
Definition ex_lab (l : wlab) : Prop :=
  match l with XWorker w _ _ fail => fail = false | XClient _ t => t = prog | _ => True end.
Definition is_client (l : wlab) : bool := match l with XClient _ _ => true | _ => false end.
Definition spawns (h : list RuntimeModel.event) : list (N * RuntimeModel.task) :=
  omap (fun e => match e with RuntimeModel.EvSpawn f t => Some (f, t) | _ => None end) h.

Lemma greedy_forall (P : wlab -> Prop) ls x : Forall P ls -> Forall P (greedy wo ls x).
Proof. intros H. revert x. induction H as [|l ls Hl _ IH]; intros x; simpl; [done|]. destruct (wo l x); [constructor|..]; auto. Qed.
Lemma wo_step l x y tr : wo l x = Next y tr -> documented l x /\ whole_step n unit l x = WNext y.
Proof.
  unfold wo. destruct (doc_ok l x) eqn:E; [|done]. apply doc_ok_documented in E. destruct (whole_step n unit l x); [|done..]. by intros [= -> _].
Qed.
Lemma exec_hist ls x y t : exec wo ls x = Some (y, t) -> exists h, hist y = h ++ hist x.
Proof.
  revert x t. induction ls as [|l ls IH]; intros x t Hx; simpl in Hx; [injection Hx as <- _; by exists []|].
  destruct (wo l x) as [z tr| |] eqn:Hs; [|done..]. destruct (exec wo ls z) as [[z2 t2]|] eqn:E; [|done]. injection Hx as <- _.
  destruct (IH z t2 E) as [h1 E1]. apply wo_step in Hs as [_ Hs]. apply step_inv in Hs as (_ & tr' & _ & _ & E2).
  exists (h1 ++ rev tr'). by rewrite E1, E2, app_assoc.
Qed.
Lemma submitted_spawn f t x : submitted f t x -> (f, t) ∈ spawns (hist x).
Proof.
  unfold submitted. induction (hist x) as [|e h IH]; intros [H1 H2]; [done|].
  destruct e; simpl in *; try (by apply IH); case_decide; simplify_eq; try (by apply IH); [by left|right; by apply IH].
Qed.

Context (ls : list wlab) (y : whole) (ty : list pev) (M : nat).
Context (Hy : exec wo ls (init_whole n) = Some (y, ty)) (HL : Forall ex_lab ls) (Hcl : existsb is_client (skipn M ls) = false).
Context (Hpc : forall w, w < n -> pc (pool y) w = XDone) (Hst : stop (pool y) = true) (Hdt : dt (pool y) = true) (Hsp : spawns (hist y) = [(0%N, prog)]).
Context (Hsc : RuntimeSpec.well_scoped n prog) (Hte : RuntimeTermSpec.terminates false prog).

Definition ex_sg := states wo (init_whole n) ls.
(** At the end the destructor's join goes on being possible. *)
Definition ex_l (i : nat) : option wlab := match nth_error ls i with Some x => Some x | None => Some XJoin end.

Lemma join_forever : whole_step n unit XJoin y = WNext y.
Proof.
  unfold whole_step. simpl. rewrite decide_True by done.
  assert (forallb (fun u => match pc (pool y) u with BusyModel.XDone => true | _ => false end) (seq 0 n) = true) as ->.
  { apply forallb_forall. intros u Hu. apply in_seq in Hu. rewrite Hpc by lia. done. }
  f_equal. destruct y as [p r h]. simpl in *. destruct p. simpl in *. congruence.
Qed.
Lemma ex_end i : length ls <= i -> ex_sg i = y.
Proof. intros Hi. unfold ex_sg. rewrite states_end by done. unfold state_after. by rewrite Hy. Qed.

Lemma ex_fair : wfair n unit false ex_sg ex_l.
Proof.
  split.
  - destruct (run_of_list wo (init_whole n) ls ltac:(by rewrite Hy)) as [R0 R1]. split; [done|]. intros i. specialize (R1 i).
    unfold ex_l, labels in *. fold ex_sg in R1. destruct (nth_error ls i) as [l|] eqn:Hl.
    + destruct R1 as [tr R1]. apply wo_step in R1 as [R1 R2]. split_and!; [|done|done].
      rewrite Forall_forall in HL. pose proof (HL l (proj2 (elem_of_list_In _ _) (nth_error_In _ _ Hl))) as HX.
      destruct l; simpl in *; [by rewrite HX|by rewrite HX|done|done|done].
    + apply nth_error_None in Hl. rewrite !ex_end by lia. split_and!; [done|by intros _|apply join_forever].
  - intros w i Hw. exists (i `max` length ls). split; [lia|right]. intros c v fail _. rewrite ex_end by lia.
    unfold whole_step. simpl. rewrite Hpc by done. simpl. rewrite decide_True by done. unfold worker. by rewrite Hpc.
  - intros i. exists (i `max` length ls). split; [lia|left]. unfold ex_l.
    assert (nth_error ls (i `max` length ls) = None) as -> by (apply nth_error_None; lia). done.
Qed.

Lemma ex_submissions : submissions_end M ex_l.
Proof.
  intros i d t Hi Hl. unfold ex_l in Hl. destruct (nth_error ls i) as [x|] eqn:E; [|discriminate Hl]. injection Hl as ->.
  replace i with (M + (i - M)) in E by lia. rewrite <- nth_error_skipn in E. apply nth_error_In in E.
  assert (existsb is_client (skipn M ls) = true) as E' by (apply existsb_exists; eexists; split; [exact E|reflexivity]). rewrite Hcl in E'. discriminate E'.
Qed.

Lemma ex_terminate : all_terminate false ex_sg.
Proof.
  intros i f t Hs%submitted_spawn.
  assert ((f, t) ∈ spawns (hist y)) as Hin; [|rewrite Hsp in Hin; apply elem_of_list_singleton in Hin; by injection Hin as -> ->].
  pose proof Hy as Hx. rewrite <- (firstn_skipn i ls), exec_app in Hx. unfold ex_sg, states, state_after in Hs.
  destruct (exec wo (firstn i ls) (init_whole n)) as [[x1 t1]|]; [|done].
  destruct (exec wo (skipn i ls) x1) as [[y2 t2]|] eqn:E; [|done]. injection Hx as <- _.
  destruct (exec_hist _ _ _ _ E) as [h ->]. unfold spawns in *. rewrite omap_app. apply elem_of_app. by right.
Qed.

Lemma ex_dreach : dreach n unit false y.
Proof. rewrite <- (ex_end (length ls)) by lia. eapply run_dreach, ex_fair. Qed.
End Example.

(** busy_pool with two workers; the program of the README with argument 2 is submitted to
    worker 0 and the destructor is called before the program has started; worker 1 steals. *)
Definition prog : RuntimeModel.task := Prop_Term.fib 2.
Definition xw (w : nat) := XWorker w false 0 false.
Definition bx_script : list wlab :=
  [xw 1; xw 1; xw 0; XClient 0 prog; XDtor; xw 0; xw 0; xw 0; xw 0] ++ rep 3 [XWorker 1 true 0 false] ++ rep 25 [xw 1; xw 0] ++ [XJoin].
Definition bx_run : list wlab := greedy (wo 2 false) bx_script (init_whole 2).
(** unit_pool; the task moves to its own worker after the destructor has been called. *)
Definition uprog : RuntimeModel.task := RuntimeModel.Switch false 0 (Prop_Term.fib 2).
Definition ux_script : list wlab := [XClient 0 uprog; XDtor] ++ rep 40 [xw 0] ++ [XJoin].
Definition ux_run : list wlab := greedy (wo 1 true) ux_script (init_whole 1).

Lemma bx_facts :
  match exec (wo 2 false) bx_run (init_whole 2) with
  | Some (y, _) => existsb is_client (skipn 4 bx_run) = false /\ pc (pool y) 0 = XDone /\ pc (pool y) 1 = XDone /\ stop (pool y) = true /\ dt (pool y) = true /\
                   spawns (hist y) = [(0%N, prog)] /\ RuntimeModel.s_res (rt y) !! 0%N = Some (RuntimeModel.OVal 1)
  | None => False
  end.
Proof. vm_compute. repeat split; reflexivity. Qed.
Lemma ux_facts :
  match exec (wo 1 true) ux_run (init_whole 1) with
  | Some (y, _) => existsb is_client (skipn 4 ux_run) = false /\ pc (pool y) 0 = XDone /\ stop (pool y) = true /\ dt (pool y) = true /\
                   spawns (hist y) = [(0%N, uprog)] /\ RuntimeModel.s_res (rt y) !! 0%N = Some (RuntimeModel.OVal 1)
  | None => False
  end.
Proof. vm_compute. repeat split; reflexivity. Qed.

Lemma bx_labs : Forall (ex_lab prog) bx_run.
Proof. apply greedy_forall. repeat constructor. Qed.
Lemma ux_labs : Forall (ex_lab uprog) ux_run.
Proof. apply greedy_forall. repeat constructor. Qed.

Lemma prog_scoped n : RuntimeSpec.well_scoped n prog.
Proof. exact (proj1 (Prop_Term.fib_scoped n 2)). Qed.
Lemma uprog_scoped : RuntimeSpec.well_scoped 1 uprog.
Proof. constructor; [lia|]. exact (prog_scoped 1). Qed.
Lemma prog_terminates : RuntimeTermSpec.terminates false prog.
Proof. exact (Prop_Term.C51_finite_programs_terminate false prog (proj1 (Prop_Term.fib_finite 2))). Qed.
Lemma uprog_terminates : RuntimeTermSpec.terminates false uprog.
Proof. apply Prop_Term.C51_finite_programs_terminate. constructor. exact (proj1 (Prop_Term.fib_finite 2)). Qed.

Opaque bx_run ux_run prog uprog.

(** The executions above are fair and as documented, their programs terminate, and they get to
    the end. *)
Example C60_instance : exists sg l N, wfair 2 false false sg l /\ submissions_end N l /\ all_terminate false sg /\
  exists i, stop (pool (sg i)) = true /\ submitted 0%N prog (sg i).
Proof.
  pose proof bx_facts as H. destruct (exec (wo 2 false) bx_run (init_whole 2)) as [[y t]|] eqn:Hy; [|destruct H].
  destruct H as (H1 & H2 & H3 & H4 & H5 & H6 & _).
  assert (forall w, w < 2 -> pc (pool y) w = XDone) as Hpc by (intros [|[|w]] Hw; [exact H2|exact H3|lia]).
  exists (ex_sg 2 false bx_run), (ex_l bx_run), 4. split_and!.
  - exact (ex_fair 2 false prog bx_run y t Hy bx_labs Hpc H4 H5 H6 (prog_scoped 2)).
  - exact (ex_submissions bx_run 4 H1).
  - exact (ex_terminate 2 false prog bx_run y t Hy Hpc H4 H5 H6 prog_terminates).
  - exists (length bx_run). rewrite (ex_end 2 false bx_run y t Hy) by lia. split; [exact H4|].
    clear -Hy. assert (match exec (wo 2 false) bx_run (init_whole 2) with Some (y, _) => submitted 0%N prog y | None => False end) as H by (vm_compute; split; reflexivity).
    rewrite Hy in H. exact H.
Qed.

Example C61_instance : exists x, dreach 2 false false x /\ dt (pool x) = true /\ submitted 0%N prog x.
Proof.
  pose proof bx_facts as H. destruct (exec (wo 2 false) bx_run (init_whole 2)) as [[y t]|] eqn:Hy; [|destruct H].
  destruct H as (H1 & H2 & H3 & H4 & H5 & H6 & _). exists y.
  assert (forall w, w < 2 -> pc (pool y) w = XDone) as Hpc by (intros [|[|w]] Hw; [exact H2|exact H3|lia]).
  split; [exact (ex_dreach 2 false prog bx_run y t Hy bx_labs Hpc H4 H5 H6 (prog_scoped 2))|split; [exact H5|]].
  clear -Hy. assert (match exec (wo 2 false) bx_run (init_whole 2) with Some (y, _) => submitted 0%N prog y | None => False end) as H by (vm_compute; split; reflexivity).
  rewrite Hy in H. exact H.
Qed.

Example C61_unit_instance : exists x, dreach 1 true false x /\ dt (pool x) = true /\ submitted 0%N uprog x.
Proof.
  pose proof ux_facts as H. destruct (exec (wo 1 true) ux_run (init_whole 1)) as [[y t]|] eqn:Hy; [|destruct H].
  destruct H as (H1 & H2 & H4 & H5 & H6 & _). exists y.
  assert (forall w, w < 1 -> pc (pool y) w = XDone) as Hpc by (intros [|w] Hw; [exact H2|lia]).
  split; [exact (ex_dreach 1 true uprog ux_run y t Hy ux_labs Hpc H4 H5 H6 uprog_scoped)|split; [exact H5|]].
  clear -Hy. assert (match exec (wo 1 true) ux_run (init_whole 1) with Some (y, _) => submitted 0%N uprog y | None => False end) as H by (vm_compute; split; reflexivity).
  rewrite Hy in H. exact H.
Qed.

(** The restriction of [documented] is needed: on busy_pool a task that moves to another worker
    after the destructor has been called may be lost; its waiter is never released. *)
Definition mprog : RuntimeModel.task := RuntimeModel.Switch false 1 (RuntimeModel.Ret 5).
Definition mo (l : wlab) (x : whole) : outcome whole :=
  match whole_step 2 false l x with WNext y => Next y [] | WBlock => Blocked | WUndef => Undef end.
Definition mx_run : list wlab :=
  greedy mo ([XClient 0 mprog; XDtor] ++ rep 10 [xw 1] ++ rep 12 [xw 0] ++ rep 3 [xw 1; xw 0] ++ [XJoin]) (init_whole 2).
Lemma exec_wreach ls x y t : wreach 2 false false x -> Forall (legal 2 false) ls -> exec mo ls x = Some (y, t) -> wreach 2 false false y.
Proof.
  intros Hx HF. revert x t Hx. induction HF as [|l ls Hl _ IH]; intros x t Hx He; simpl in He; [by injection He as <- _|].
  destruct (mo l x) as [z tr| |] eqn:Hs; [|done..]. destruct (exec mo ls z) as [[z2 t2]|] eqn:E; [|done]. injection He as <- _.
  apply (IH z t2); [|done]. econstructor; [exact Hx|exact Hl|]. unfold mo in Hs. destruct (whole_step 2 false l x); [|done..]. by injection Hs as ->.
Qed.
Lemma mo_forall (P : wlab -> Prop) ls x : Forall P ls -> Forall P (greedy mo ls x).
Proof. intros H. revert x. induction H as [|l ls Hl _ IH]; intros x; simpl; [done|]. destruct (mo l x); [constructor|..]; auto. Qed.
Lemma mx_legal : Forall (legal 2 false) mx_run.
Proof.
  apply mo_forall. constructor; [|repeat constructor; intros E; discriminate E].
  constructor; [lia|]. constructor.
Qed.
Lemma mx_facts :
  match exec mo mx_run (init_whole 2) with
  | Some (y, _) => dt (pool y) = true /\ submitted 0%N mprog y /\ RuntimeSpec.signals_in 0%N (hist y) = 0%N
  | None => False
  end.
Proof. vm_compute. repeat split; reflexivity. Qed.
Opaque mx_run.
Theorem C61_moved_task_lost : exists x f t, wreach 2 false false x /\ dt (pool x) = true /\ submitted f t x /\
  RuntimeSpec.signals_in f (hist x) = 0%N.
Proof.
  pose proof mx_facts as H. destruct (exec mo mx_run (init_whole 2)) as [[y t]|] eqn:Hy; [|destruct H].
  destruct H as (H1 & H2 & H3). exists y, 0%N, mprog. split; [|split; [exact H1|split; [exact H2|exact H3]]].
  exact (exec_wreach _ _ _ _ (wreach_init _ _ _) mx_legal Hy).
Qed.

Print Assumptions C60_never_undefined.
Print Assumptions C60_parts.
Print Assumptions C60_sync_wait_returns.
Print Assumptions C60_destructor_returns.
Print Assumptions C61_destructor_finishes.
Print Assumptions C61_unit_pool.
Print Assumptions C61_moved_task_lost.
