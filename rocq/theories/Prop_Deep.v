(** * C75: programs on lazy_pool with the real deques, from sync_wait to the destructor.

    Model: DeepModel.v.  Specification: DeepSpec.v, FineSpec.v, RuntimeSpec.v, RuntimeTermSpec.v. *)

From stdpp Require Import prelude gmap list.
From Coq Require Import NArith Lia.
From Verif Require Import PoolCommon PoolFair PoolExamples LazyModel DeepModel DeepSpec DeepProofs.
From Verif Require RuntimeModel RuntimeSpec RuntimeTermSpec Prop_Term DequeModel FineModel FineSpec FineProofs2.
From Verif Require WholeModel WholeSpec Prop_Whole.

Section Thms.
Context (n nd : nat) (dom : nat -> nat) (K k : nat) (af : bool).

(** Nothing undefined ever happens, in the pool, in the runtime or in the deques, whatever programs
    run. *)
Theorem C75_never_undefined x l : dreach n nd dom K k af x -> legal n af l -> deep_step n nd dom K l x <> DUndef.
Proof. intros (y & D & _)%dreach_sim Hl. by apply (deep_sim n nd dom K k af l x y). Qed.

(** What happens is what happens on a pool whose deques are atomic: the same events, the same
    state of the pool, the same tasks, and the same tasks in each deque that is not being used. *)
Theorem C75_refines x : dreach n nd dom K k af x -> exists y, WholeSpec.wreach n nd dom af y /\
  WholeModel.pool y = pool x /\ WholeModel.hist y = hist x /\ FineSpec.agrees (fn x) (WholeModel.rt y).
Proof.
  intros (y & D & Hy)%dreach_sim. exists y. split; [done|]. split; [by destruct D|]. split; [by destruct D|].
  destruct (ds_sim _ _ _ _ _ _ _ D) as (Q & H & M). by eapply FineProofs2.sim_agrees.
Qed.

(** Every sync_wait returns, with the value the program has if it is run by itself. *)
Theorem C75_sync_wait_returns sg l N :
  dfair n nd dom K k af sg l -> proper N sg l -> all_terminate af sg ->
  exists m, forall i, m <= i -> forall f t, submitted f t (sg i) ->
    released f (sg i) /\ exists o, result f (sg i) = Some o /\ RuntimeSpec.eval af t o.
Proof.
  intros HW HP HT. pose proof (run_sim n nd dom K k af sg l HW) as HS.
  destruct (Prop_Whole.C58_sync_wait_returns n nd dom af _ _ N (whole_fair n nd dom K k af sg l HW)
    (whole_proper n nd dom K k af sg l HW N HP) (whole_terminate n nd dom K k af sg l HW HT)) as (m & Hm).
  exists m. intros i Hi f t Hs. pose proof (HS i) as D. destruct (Hm i Hi f t) as (H1 & o & H2 & H3).
  { unfold WholeSpec.submitted. rewrite <- (ds_hist _ _ _ _ _ _ _ D). exact Hs. }
  unfold WholeSpec.released in H1. rewrite <- (ds_hist _ _ _ _ _ _ _ D) in H1. split; [exact H1|]. exists o. split; [|done].
  destruct (ds_sim _ _ _ _ _ _ _ D) as (Q & H & M). unfold result. by rewrite (FineSpec.a_res _ _ (FineProofs2.sim_agrees _ _ _ _ _ _ _ _ M)).
Qed.

(** The destructor returns. *)
Theorem C75_destructor_returns sg l N i :
  (forall u, u < n -> dom u < nd) ->
  dfair n nd dom K k af sg l -> proper N sg l -> all_terminate af sg ->
  dt (pool (sg i)) <> DIdle -> exists m, dt (pool (sg m)) = DDone.
Proof.
  intros Hdom HW HP HT Hd. pose proof (run_sim n nd dom K k af sg l HW) as HS.
  destruct (Prop_Whole.C58_destructor_returns n nd dom af _ _ N i Hdom (whole_fair n nd dom K k af sg l HW)
    (whole_proper n nd dom K k af sg l HW N HP) (whole_terminate n nd dom K k af sg l HW HT)) as (m & Hm).
  - by rewrite <- (ds_pool _ _ _ _ _ _ _ (HS i)).
  - exists m. by rewrite (ds_pool _ _ _ _ _ _ _ (HS m)).
Qed.
End Thms.

(** ** The hypotheses are met *)

(** Two workers in two domains; a program [prog] is submitted by a thread outside the pool; then
    the pool is destroyed.  A finite execution of this kind that got to its end is turned into
    an infinite fair one. *)
Definition wd (w : nat) : nat := w.
Definition ini : deep := init_deep 2 1.
Definition stp := deep_step 2 2 wd 2.
Definition wo (l : dlab) (x : deep) : outcome deep :=
  match stp l x with DNext y => Next y [] | DBlock => Blocked | DUndef => Undef end.
Definition yw (w : nat) := YWorker w (Choice false None) 0 false.
Definition yt (w t : nat) := YWorker w (Choice false (Some t)) 0 false.
Definition ys (w v : nat) := YWorker w (Choice true None) v false.
Section Example.
Context (prog : RuntimeModel.task).

(** What the labels of the example look like. *)
Definition ex_lab (l : dlab) : Prop :=
  match l with YWorker w _ _ fail => w < 2 /\ fail = false | YClient a _ t => a = 2 /\ t = prog | _ => True end.
Lemma greedy_forall (P : dlab -> Prop) ls x : Forall P ls -> Forall P (greedy wo ls x).
Proof. intros H. revert x. induction H as [|l ls Hl _ IH]; intros x; simpl; [done|]. destruct (wo l x); [constructor|..]; auto. Qed.

Lemma wo_step l x y tr : wo l x = Next y tr -> deep_step 2 2 wd 2 l x = DNext y.
Proof. unfold wo, stp. destruct (deep_step 2 2 wd 2 l x); [|done..]. by intros [= -> _]. Qed.

(** The parts of a step. *)
Lemma step_parts l x y : deep_step 2 2 wd 2 l x = DNext y -> exists pl r t, both 2 2 wd pl r t x = DNext y /\
  match pl with
  | Some (LAgent a _ _) => match l with YWorker w _ _ _ => a = w | YClient b _ _ => a = b | _ => False end
  | Some LDtor => l = YDtor
  | _ => True
  end.
Proof.
  destruct l as [w c v fail|a d t| |w|w]; unfold deep_step, thread, alone; intros E;
    repeat case_match; try done; eexists _, _, _; (split; [exact E|done]).
Qed.

(** The history grows. *)
Lemma step_hist l x y : deep_step 2 2 wd 2 l x = DNext y -> exists h, hist y = h ++ hist x.
Proof.
  intros (pl & r & t & (p & trp & f & tr & _ & _ & ->)%both_next & _)%step_parts. by exists (rev tr).
Qed.
Lemma exec_hist ls x y t : exec wo ls x = Some (y, t) -> exists h, hist y = h ++ hist x.
Proof.
  revert x t. induction ls as [|l ls IH]; intros x t Hx; simpl in Hx; [injection Hx as <- _; by exists []|].
  destruct (wo l x) as [z tr| |] eqn:Hs; [|done..]. destruct (exec wo ls z) as [[z2 t2]|] eqn:E; [|done]. injection Hx as <- _.
  destruct (IH z t2 E) as [h1 E1]. destruct (step_hist l x z (wo_step _ _ _ _ Hs)) as [h2 E2]. exists (h1 ++ h2). by rewrite E1, E2, app_assoc.
Qed.

Lemma step_client l x y a : deep_step 2 2 wd 2 l x = DNext y -> ex_lab l -> 2 <= a -> (forall d t, l <> YClient a d t) -> ag (pool y) a = ag (pool x) a.
Proof.
  intros (pl & r & t & (p & trp & f & tr & E & _ & ->)%both_next & Hp)%step_parts Hl Ha Hn. cbn. destruct pl as [k|]; [|by injection E as <- _].
  apply (LazyLive.other_ag 2 2 wd a k _ _ _ E). destruct k as [|b d j| |]; simpl; try done.
  destruct l as [u c v fail|b' d' t'| |u|u]; try done; subst b.
  - destruct Hl as [Hu _]. lia.
  - intros <-. by apply (Hn d' t').
Qed.
Lemma exec_client ls x y t a : exec wo ls x = Some (y, t) -> Forall ex_lab ls -> 2 <= a -> ag (pool x) a <> AIdle -> ag (pool y) a = AIdle ->
  exists j d u, nth_error ls j = Some (YClient a d u).
Proof.
  intros Hx HF Ha Hn He. revert x t Hx Hn. induction HF as [|l ls Hl _ IH]; intros x t Hx Hn; simpl in Hx; [injection Hx as <- _; done|].
  destruct (wo l x) as [z tr| |] eqn:Hs; [|done..]. destruct (exec wo ls z) as [[z2 t2]|] eqn:E; [|done]. injection Hx as -> _.
  assert ((exists d u, l = YClient a d u) \/ forall d u, l <> YClient a d u) as [(d & u & ->)|Hne].
  { destruct l as [|b d u| | |]; [by right| |by right|by right|by right]. destruct (decide (b = a)) as [->|]; [left; eauto|right; congruence]. }
  - by exists 0, d, u.
  - destruct (IH z t2 E) as (j & d & u & Hj); [by rewrite (step_client l x z a (wo_step _ _ _ _ Hs) Hl Ha Hne)|]. by exists (S j), d, u.
Qed.
Lemma exec_other ls x y t a : exec wo ls x = Some (y, t) -> Forall ex_lab ls -> 2 < a -> ag (pool x) a = AIdle -> ag (pool y) a = AIdle.
Proof.
  intros Hx HF Ha Hn. revert x t Hx Hn. induction HF as [|l ls Hl _ IH]; intros x t Hx Hn; simpl in Hx; [injection Hx as <- _; done|].
  destruct (wo l x) as [z tr| |] eqn:Hs; [|done..]. destruct (exec wo ls z) as [[z2 t2]|] eqn:E; [|done]. injection Hx as -> _.
  apply (IH z t2 E). rewrite (step_client l x z a (wo_step _ _ _ _ Hs) Hl); [done|lia|]. intros d u ->. destruct Hl. lia.
Qed.

(** Who is submitted. *)
Definition spawns (h : list RuntimeModel.event) : list (N * RuntimeModel.task) :=
  omap (fun e => match e with RuntimeModel.EvSpawn f t => Some (f, t) | _ => None end) h.
Lemma submitted_spawn f t x : submitted f t x -> (f, t) ∈ spawns (hist x).
Proof.
  unfold submitted. induction (hist x) as [|e h IH]; intros [H1 H2]; [done|].
  destruct e; simpl in *; try (by apply IH); case_decide; simplify_eq; try (by apply IH); [by left|right; by apply IH].
Qed.
Lemma signals_app f h1 h2 : (RuntimeSpec.signals_in f (h1 ++ h2) = RuntimeSpec.signals_in f h1 + RuntimeSpec.signals_in f h2)%N.
Proof. induction h1 as [|e h1 IH]; [done|]. destruct e; simpl; rewrite ?IH; [..|]; lia. Qed.

(** The destructor is called by label [YDtor] only. *)
Lemma step_dtor l x y : deep_step 2 2 wd 2 l x = DNext y -> l <> YDtor -> dt (pool y) = dt (pool x).
Proof.
  intros (pl & r & t & (p & trp & f & tr & E & _ & ->)%both_next & Hp)%step_parts Hn. cbn. destruct pl as [k|]; [|by injection E as <- _].
  destruct k as [u c|a d j| |u]; simpl in E; [..|done|].
  - case_decide; [|done]. unfold worker, ret, notify, unregister, thief_sub, wake_one in E. repeat case_match; simplify_eq; done.
  - unfold agent, ret, notify in E. repeat case_match; simplify_eq; done.
  - case_decide; [|done]. unfold spurious, ret in E. repeat case_match; simplify_eq; done.
Qed.
Lemma exec_dtor ls x y t : exec wo ls x = Some (y, t) -> Forall (fun l => l <> YDtor) ls -> dt (pool y) = dt (pool x).
Proof.
  intros Hx HF. revert x t Hx. induction HF as [|l ls Hl _ IH]; intros x t Hx; simpl in Hx; [injection Hx as <- _; done|].
  destruct (wo l x) as [z tr| |] eqn:Hs; [|done..]. destruct (exec wo ls z) as [[z2 t2]|] eqn:E; [|done]. injection Hx as -> _.
  rewrite (IH z t2 E). exact (step_dtor l x z (wo_step _ _ _ _ Hs) Hl).
Qed.

Definition is_dtor (l : dlab) : bool := match l with YDtor => true | _ => false end.
Definition is_client (l : dlab) : bool := match l with YClient _ _ _ => true | _ => false end.

(** All is done in [y]. *)
Definition over (y : deep) : Prop :=
  pc (pool y) 0 = XDone /\ pc (pool y) 1 = XDone /\ ag (pool y) 0 = AIdle /\ ag (pool y) 1 = AIdle /\ ag (pool y) 2 = AIdle /\
  FineModel.from (fn y) 0 = None /\ FineModel.from (fn y) 1 = None /\ dt (pool y) = DDone /\
  RuntimeSpec.signals_in 0 (hist y) = 1%N /\ spawns (hist y) = [(0%N, prog)].

(** Before time [ex_stop] the destructor is not called, and then all is done; after time [ex_sub]
    nothing is submitted. *)
Definition facts (ex_run : list dlab) (ex_stop ex_sub : nat) : Prop :=
  match exec wo (firstn ex_stop ex_run) ini with
  | Some (x, _) =>
    existsb is_dtor (firstn ex_stop ex_run) = false /\ existsb is_client (skipn ex_sub ex_run) = false /\
    RuntimeSpec.signals_in 0 (hist x) = 1%N /\
    match exec wo (skipn ex_stop ex_run) x with Some (y, _) => over y | None => False end
  | None => False
  end.

Context (ex_run : list dlab) (ex_stop ex_sub : nat).
Context (ex_labs_run : Forall ex_lab ex_run) (ex_facts : facts ex_run ex_stop ex_sub).
Context (prog_scoped : RuntimeSpec.well_scoped 2 prog) (prog_terminates : RuntimeTermSpec.terminates false prog).

Definition ex_sg := states wo ini ex_run.
Definition ex_l := labels ex_run.

Lemma ex_end : exists x1 t1 y t, exec wo (firstn ex_stop ex_run) ini = Some (x1, t1) /\ exec wo ex_run ini = Some (y, t) /\
  existsb is_dtor (firstn ex_stop ex_run) = false /\ existsb is_client (skipn ex_sub ex_run) = false /\
  RuntimeSpec.signals_in 0 (hist x1) = 1%N /\ over y.
Proof.
  pose proof ex_facts as H. unfold facts in H. destruct (exec wo (firstn ex_stop ex_run) ini) as [[x1 t1]|] eqn:E1; [|destruct H].
  destruct (exec wo (skipn ex_stop ex_run) x1) as [[y t2]|] eqn:E2; [|destruct H as (_ & _ & _ & []); fail].
  exists x1, t1, y, (t1 ++ t2). split; [reflexivity|]. split; [|tauto].
  rewrite <- (firstn_skipn ex_stop ex_run) at 1. rewrite exec_app, E1, E2. reflexivity.
Qed.

(** The states of the example lie between the first and the last. *)
Lemma ex_split i y t : exec wo ex_run ini = Some (y, t) ->
  exists t1 t2, exec wo (firstn i ex_run) ini = Some (ex_sg i, t1) /\ exec wo (skipn i ex_run) (ex_sg i) = Some (y, t2).
Proof.
  intros Hx. rewrite <- (firstn_skipn i ex_run), exec_app in Hx. unfold ex_sg, states, state_after.
  destruct (exec wo (firstn i ex_run) ini) as [[x1 t1]|]; [|done].
  destruct (exec wo (skipn i ex_run) x1) as [[y2 t2]|]; [|done]. injection Hx as <- _. by exists t1, t2.
Qed.

Lemma ex_submitted i f t : submitted f t (ex_sg i) -> f = 0%N /\ t = prog.
Proof.
  intros Hs%submitted_spawn. destruct ex_end as (_ & _ & y & ty & _ & Hy & _ & _ & _ & _ & _ & _ & _ & _ & _ & _ & _ & _ & Hsp).
  destruct (ex_split i y ty Hy) as (_ & t2 & _ & E2). destruct (exec_hist _ _ _ _ E2) as [h Eh].
  assert ((f, t) ∈ spawns (hist y)) as Hin; [|rewrite Hsp in Hin; apply elem_of_list_singleton in Hin; split; [exact (f_equal fst Hin)|exact (f_equal snd Hin)]].
  rewrite Eh. unfold spawns in *. rewrite omap_app. apply elem_of_app. by right.
Qed.

Lemma ex_fair : dfair 2 2 wd 2 1 false ex_sg ex_l.
Proof.
  destruct ex_end as (_ & _ & y & ty & _ & Hy & _ & _ & _ & Hp0 & Hp1 & Ha0 & Ha1 & Ha & Hf0 & Hf1 & Hd & _).
  assert (forall i, length ex_run <= i -> ex_sg i = y) as Hend.
  { intros i Hi. unfold ex_sg. rewrite states_end by done. unfold state_after. by rewrite Hy. }
  split.
  - destruct (run_of_list wo ini ex_run ltac:(by rewrite Hy)) as [R0 R1]. split; [done|]. intros i. specialize (R1 i).
    unfold ex_l, ex_sg. destruct (labels ex_run i) as [l|] eqn:Hl; [|done]. destruct R1 as [tr R1]. split; [|by eapply wo_step].
    pose proof ex_labs_run as HF. rewrite Forall_forall in HF. pose proof (HF l (proj2 (elem_of_list_In _ _) (nth_error_In _ _ Hl))) as HL.
    destruct l; simpl in *; [destruct HL as [_ ->]; done|destruct HL as [_ ->]; exact prog_scoped|done|done|done].
  - intros w i Hw. exists (i `max` length ex_run). split; [lia|right]. intros c v fail _. rewrite Hend by lia.
    assert (pc (pool y) w = XDone /\ ag (pool y) w = AIdle /\ FineModel.from (fn y) w = None) as (Hpc & Haw & Hfw) by (destruct w as [|[|w]]; [done|done|lia]).
    unfold deep_step. rewrite decide_True by done. unfold thread. rewrite Haw, Hfw, Hpc. unfold alone, both. cbn. rewrite decide_True by done. unfold worker. by rewrite Hpc.
  - intros a i Ha2 Hn. destruct (ex_split i y ty Hy) as (t1 & t2 & E1 & E2).
    assert (Forall ex_lab (skipn i ex_run)) as HF by apply Forall_drop, ex_labs_run.
    destruct (exec_client _ _ _ _ a E2 HF Ha2 Hn) as (j & d & u & Hj).
    { destruct (decide (a = 2)) as [->|]; [done|]. apply (exec_other _ _ _ _ a Hy ex_labs_run); [lia|done]. }
    rewrite nth_error_skipn in Hj. exists (i + j), d, u. split; [lia|done].
  - intros i _. exists (i `max` length ex_run). split; [lia|right]. rewrite Hend by lia. unfold deep_step, alone, both. cbn. unfold destructor. by rewrite Hd.
Qed.

Lemma ex_proper : proper ex_sub ex_sg ex_l.
Proof.
  destruct ex_end as (x1 & t1 & y & ty & E1 & Hy & Hnd & Hnc & Hs1 & _ & _ & _ & _ & _ & _ & _ & _ & Hsy & _). split.
  - intros i a d t Hi Hl. exfalso. unfold ex_l, labels in Hl. replace i with (ex_sub + (i - ex_sub)) in Hl by lia. rewrite <- nth_error_skipn in Hl.
    apply nth_error_In in Hl. assert (existsb is_client (skipn ex_sub ex_run) = true) as E by (apply existsb_exists; eexists; split; [exact Hl|reflexivity]). rewrite Hnc in E. discriminate E.
  - intros i f t Hd Hsub. destruct (ex_submitted i f t Hsub) as [-> ->]. unfold released.
    destruct (ex_split i y ty Hy) as (u1 & u2 & F1 & F2).
    destruct (decide (i <= ex_stop)) as [Hle|Hgt].
    + exfalso. apply Hd. rewrite (exec_dtor _ _ _ _ F1); [done|]. apply Forall_forall. intros l Hl ->.
      assert (existsb is_dtor (firstn ex_stop ex_run) = true) as E; [|rewrite Hnd in E; discriminate E]. apply existsb_exists. exists YDtor. split; [|reflexivity].
      apply elem_of_list_In. replace (firstn i ex_run) with (firstn i (firstn ex_stop ex_run)) in Hl; [|by rewrite firstn_firstn, Nat.min_l by lia].
      by eapply elem_of_take in Hl as (? & ?%elem_of_list_lookup_2 & _).
    + assert (exists h, hist (ex_sg i) = h ++ hist x1) as [h1 Eh1].
      { replace (firstn i ex_run) with (firstn ex_stop (firstn i ex_run) ++ skipn ex_stop (firstn i ex_run)) in F1 by apply firstn_skipn.
        rewrite exec_app, firstn_firstn, Nat.min_l, E1 in F1 by lia. destruct (exec wo (skipn ex_stop (firstn i ex_run)) x1) as [[z tz]|] eqn:F3; [|done].
        injection F1 as <- _. exact (exec_hist _ _ _ _ F3). }
      destruct (exec_hist _ _ _ _ F2) as [h2 Eh2]. rewrite Eh2, Eh1, !signals_app in Hsy. rewrite Eh1, signals_app. lia.
Qed.

Lemma ex_terminate : all_terminate false ex_sg.
Proof. intros i f t Hs. destruct (ex_submitted i f t Hs) as [_ ->]. exact prog_terminates. Qed.

Lemma ex_reach i : dreach 2 2 wd 2 1 false (ex_sg i).
Proof.
  destruct (df_run _ _ _ _ _ _ _ _ ex_fair) as [R0 R1]. induction i as [|k IH]; [rewrite R0; constructor|].
  specialize (R1 k). destruct (ex_l k) as [l|]; [|rewrite Nat.add_1_r in R1; by rewrite R1]. destruct R1 as [Hl Hs]. rewrite Nat.add_1_r in Hs. by econstructor.
Qed.
End Example.

(** The program of the README with argument 2 is submitted to worker 0; worker 1 steals, in several
    steps, after worker 0 has pushed. *)
Definition prog : RuntimeModel.task := Prop_Term.fib 2.
Definition ex_script : list dlab :=
  rep 9 [yw 0] ++ rep 9 [yw 1] ++ [YClient 2 0 prog; YClient 2 0 prog; YClient 2 0 prog] ++
  rep 5 [yw 0] ++ [yt 0 0; yt 0 1] ++ rep 3 [yw 0; yt 0 1] ++ rep 10 [yw 0] ++ rep 20 [ys 1 0] ++ rep 60 [yw 1; yw 0] ++
  rep 20 [YDtor; yw 1; yw 0].
Definition the_run : list dlab := greedy wo ex_script ini.
Lemma the_facts : facts prog the_run 100 21.
Proof. vm_compute. repeat split; reflexivity. Qed.
Lemma the_labs : Forall (ex_lab prog) the_run.
Proof. apply greedy_forall. repeat constructor. Qed.
Opaque the_run prog.

(** This execution is as required, and it gets to the end: the program is submitted, worker 1 steals
    it from worker 0, the destructor is called, both return. *)
Example C75_instance : exists sg l N, dfair 2 2 wd 2 1 false sg l /\ proper N sg l /\ all_terminate false sg /\
  exists i, dreach 2 2 wd 2 1 false (sg i) /\ submitted 0%N prog (sg i) /\
    RuntimeModel.EvResume 0 0 ∈ hist (sg i) /\ RuntimeModel.EvResume 1 0 ∈ hist (sg i) /\
    result 0%N (sg i) = Some (RuntimeModel.OVal 1) /\ dt (pool (sg i)) = DDone.
Proof.
  exists (ex_sg the_run), (ex_l the_run), 21. split_and!.
  - exact (ex_fair prog the_run 100 21 the_labs the_facts (proj1 (Prop_Term.fib_scoped 2 2))).
  - exact (ex_proper prog the_run 100 21 the_facts).
  - exact (ex_terminate prog the_run 100 21 the_facts (Prop_Term.C51_finite_programs_terminate false prog (proj1 (Prop_Term.fib_finite 2)))).
  - exists (length the_run). split.
    + exact (ex_reach prog the_run 100 21 the_labs the_facts (proj1 (Prop_Term.fib_scoped 2 2)) _).
    + split; [vm_compute; split; reflexivity|]. split; [|split; [|vm_compute; split; reflexivity]].
      * apply elem_of_list_In. vm_compute. tauto.
      * apply elem_of_list_In. vm_compute. tauto.
Qed.

Print Assumptions C75_never_undefined.
Print Assumptions C75_refines.
Print Assumptions C75_sync_wait_returns.
Print Assumptions C75_destructor_returns.
