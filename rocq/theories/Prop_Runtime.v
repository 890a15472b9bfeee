(** * Properties of the fork-join runtime (C01 - C13, C39).

    Vocabulary: RuntimeSpec.v.  [reach nw af s h]: [s] is reachable with history
    [h] (newest event first) by [nw] workers running programs that follow the
    documented rules, under some schedule; allocations may fail if [af].
    A history [h1 ++ e :: h0] is one in which event [e] occurred after [h0]. *)

From stdpp Require Import prelude gmap list.
From Coq Require Import NArith ZArith Lia.
From Verif Require Import RuntimeModel RuntimeSpec RuntimeInv RuntimeSafe RuntimeHist RuntimeHist2
  RuntimeHist3 RuntimeHist4 RuntimeThms RuntimeLimit RuntimeExamples.
Local Open Scope N_scope.

(** The demo execution of [prog] on two workers with as many steals as possible. *)
Notation H := (demo_h 100 eager2 prog).
Ltac demo k := refine (demo_at 100 eager2 prog k _ eager2_allowed (prog_scoped 2 ltac:(lia)) _); vm_compute; reflexivity.

(** ** C01: a join waits for all children and makes their results visible *)

(** When a join of [f] completes, every child [f] forked or called so far has
    ended and is destroyed, and what [f] reads from the child's return object is
    what that child returned. *)
Theorem C01_join_waits nw af s h1 f cs r h0 :
  reach nw af s (h1 ++ EvJoin f cs r :: h0) ->
  length cs = length (kids_in f h0) /\
  forall j c st, kids_in f h0 !! j = Some (c, st) ->
    status_in c h0 = Some Gone /\
    exists o, outcome_in c h0 = Some o /\ cs !! j = Some (cell_of st o).
Proof.
  intros (Hok & H2 & _)%reach_ev. destruct Hok as (_ & Hk & -> & _). destruct H2 as (_ & Hg).
  split; [apply results_length|]. intros j c st Hj.
  assert (Hin : (c, st) ∈ kids_in f h0) by (by eapply elem_of_list_lookup_2).
  split; [by eapply Hg|]. destruct (Hk c st Hin) as (o & Ho). exists o. split; [done|].
  by eapply results_lookup.
Qed.

(** Three children; the parent was stolen and had to wait at the join. *)
Example C01_nonvacuous :
  reach 2 false (demo_s 100 eager2 prog)
    (firstn 5 H ++ EvJoin 0 [CUnset; CExc (EUser 8); CVal 4%Z] (Some (EUser 7)) :: skipn 6 H) /\
  kids_in 0 (skipn 6 H) = [(1, false); (2, true); (3, false)] /\
  EvWait 0 ∈ skipn 6 H.
Proof.
  split; [demo 5%nat|]. split; [vm_compute; reflexivity|].
  apply elem_of_list_lookup. exists 3%nat. vm_compute. reflexivity.
Qed.

(** ** C02: each suspended task is resumed once, by one worker *)

(** A task is resumed only while it is suspended: never while a worker runs it,
    never after its end.  *)
Theorem C02_resumed_only_if_suspended nw af s h1 w f h0 :
  reach nw af s (h1 ++ EvResume w f :: h0) ->
  status_in f h0 <> None /\ status_in f h0 <> Some Gone /\ forall w', status_in f h0 <> Some (Running w').
Proof.
  intros (_ & Hev & _)%reach_ev. cbn in Hev. destruct (status_in f h0) as [[]|]; done.
Qed.

(** Whatever a task does, it does while exactly one worker runs it. *)
Theorem C02_acts_only_if_running nw af s h1 e f h0 :
  reach nw af s (h1 ++ e :: h0) ->
  match e with
  | EvFork f' _ _ _ | EvCall f' _ _ _ | EvEnd f' _ | EvDestroy f' | EvStash f' _ | EvEager f' _
  | EvJoin f' _ _ | EvWait f' | EvSwitch f' _ | EvSync f' _ | EvSignal f' => f' = f
  | _ => False
  end ->
  exists w, status_in f h0 = Some (Running w).
Proof. intros (_ & Hev & _)%reach_ev He. destruct e; cbn in *; subst; destruct_and?; done. Qed.

(** No two workers run the same task. *)
Theorem C02_one_worker nw af s h i j w w' f :
  reach nw af s h -> s_workers s !! i = Some w -> s_workers s !! j = Some w' ->
  w_pc w = PRun f -> w_pc w' = PRun f -> i = j.
Proof.
  intros HR Hi Hj E E'. destruct (reach_inv _ _ _ _ HR) as (G & I).
  eapply (runs_uniq _ _ _ _ _ f I).
  - exists (PRun f). by rewrite (pcs_lookup _ _ _ Hi), E.
  - exists (PRun f). by rewrite (pcs_lookup _ _ _ Hj), E'.
Qed.

Example C02_nonvacuous :
  reach 2 false (demo_s 100 eager2 prog) (firstn 6 H ++ EvResume 0 0 :: skipn 7 H) /\
  status_in 0 (skipn 7 H) = Some AtJoin /\
  status_in 0 (skipn 9 H) = Some AtJoin /\ EvResume 1 0 ∈ skipn 9 H.
Proof.
  split; [demo 6%nat|]. split; [vm_compute; reflexivity|]. split; [vm_compute; reflexivity|].
  apply elem_of_list_lookup. exists 1%nat. vm_compute. reflexivity.
Qed.

(** ** C03: a parallel execution computes a result of the serial program *)

(** Whatever the schedule, the outcome of a task is one the serial semantics
    allows: [eval] runs every child to completion where it is created. *)
Theorem C03_serial nw af s h f o :
  reach nw af s h -> outcome_in f h = Some o ->
  exists t, body_in f h = Some t /\ eval af t o.
Proof.
  intros HR Ho. destruct (reach_hist _ _ _ _ HR) as (Hh & _).
  destruct (decide (f < s_nextf s)) as [Hlt|Hge].
  - destruct (g_old _ _ _ Hh f Hlt) as (t & Ht). exists t. split; [done|]. eapply g_eval; eauto.
  - destruct (g_new _ _ _ Hh f) as (_ & _ & _ & _ & E & _); [lia|]. congruence.
Qed.

(** In particular the result delivered to whoever submitted the root task [f]. *)
Theorem C03_root_result nw af s h f o :
  reach nw af s h -> parent_in f h = None -> s_res s !! f = Some o ->
  exists t, body_in f h = Some t /\ eval af t o.
Proof.
  intros HR Hp Ho. destruct (reach_hist _ _ _ _ HR) as (Hh & _).
  rewrite (g_res _ _ _ Hh f Hp) in Ho. by eapply C03_serial.
Qed.

(** A program that does not look at schedule-dependent facts has one result,
    whatever the number of workers and the schedule. *)
Theorem C03_deterministic t nw1 s1 h1 f1 o1 nw2 s2 h2 f2 o2 :
  pure true t ->
  reach nw1 false s1 h1 -> body_in f1 h1 = Some t -> outcome_in f1 h1 = Some o1 ->
  reach nw2 false s2 h2 -> body_in f2 h2 = Some t -> outcome_in f2 h2 = Some o2 ->
  o1 = o2.
Proof.
  intros Hp R1 B1 O1 R2 B2 O2.
  destruct (C03_serial _ _ _ _ _ _ R1 O1) as (t1 & Ht1 & E1).
  destruct (C03_serial _ _ _ _ _ _ R2 O2) as (t2 & Ht2 & E2).
  assert (t1 = t) as -> by congruence. assert (t2 = t) as -> by congruence.
  by eapply exec_pure_det.
Qed.

Example C03_nonvacuous :
  pure true prog_pure /\
  reach 2 false (demo_s 100 eager2 prog_pure) (demo_h 100 eager2 prog_pure) /\
  reach 2 false (demo_s 100 lazy2 prog_pure) (demo_h 100 lazy2 prog_pure) /\
  body_in 0 (demo_h 100 eager2 prog_pure) = Some prog_pure /\
  outcome_in 0 (demo_h 100 eager2 prog_pure) = Some (OVal 11%Z) /\
  outcome_in 0 (demo_h 100 lazy2 prog_pure) = Some (OVal 11%Z) /\
  s_res (demo_s 100 eager2 prog_pure) !! 0 = Some (OVal 11%Z) /\
  demo_h 100 eager2 prog_pure <> demo_h 100 lazy2 prog_pure.
Proof.
  split; [apply prog_pure_pure|].
  split; [apply demo_hs; [apply eager2_allowed|apply prog_pure_scoped]|].
  split; [apply demo_hs; [apply lazy2_allowed|apply prog_pure_scoped]|].
  split_and!; try (vm_compute; reflexivity).
  assert (length (demo_h 100 eager2 prog_pure) <> length (demo_h 100 lazy2 prog_pure)) by (vm_compute; done).
  congruence.
Qed.

(** ** C04: call is sequential *)

(** A task that called [c] continues only after [c] has ended and is destroyed. *)
Theorem C04_call_waits nw af s h1 w p c h0 :
  reach nw af s (h1 ++ EvResume w p :: h0) -> status_in p h0 = Some (AtCall c) ->
  status_in c h0 = Some Gone.
Proof. intros (_ & Hev & _)%reach_ev Hs. cbn in Hev. by rewrite Hs in Hev. Qed.

(** ... and reads the called function's result from the return object. *)
Theorem C04_call_result nw af s h p frp st k l s' tr i :
  reach nw af s h -> allowed nw af l -> step l s = Next s' tr ->
  s_frames s !! p = Some frp -> f_rp frp = RCall MNone st k -> EvResume i p ∈ tr ->
  exists c oc frp', status_in p h = Some (AtCall c) /\ outcome_in c h = Some oc /\
    s_frames s' !! p = Some frp' /\ f_rp frp' = RRun (k (CDone (cell_of st oc))) /\
    (f_eflag frp', f_eptr frp') = (f_eflag frp, f_eptr frp).
Proof. exact (call_result nw af s h p frp st k l s' tr i). Qed.

(** While it waits, no other worker can get hold of it. *)
Theorem C04_call_not_stealable nw af s h p c i w :
  reach nw af s h -> status_in p h = Some (AtCall c) -> s_workers s !! i = Some w ->
  p ∉ w_deque w ++ w_inbox w ++ w_batch w /\ w_pc w <> PStolen p /\ w_pc w <> PRun p.
Proof.
  intros HR Hs Hi. destruct (reach_inv _ _ _ _ HR) as (G & I). pose proof (reach_stat _ _ _ _ HR) as T.
  assert (Hn : forall j, ~ runs s j p).
  { intros j Hj. rewrite (t_run _ _ T j p Hj) in Hs. done. }
  destruct (s_frames s !! p) as [fr|] eqn:Hf; cycle 1.
  { destruct (decide (p < s_nextf s)).
    - rewrite (t_dead _ _ T p) in Hs; done.
    - rewrite (t_new _ _ T p) in Hs; [done|lia]. }
  pose proof (t_sus _ _ T p fr Hf Hn) as Hsus. pose proof (i_node _ _ _ I p fr Hf) as (Ntk & _).
  pose proof (sumw_ge (wtok p) _ _ _ Hi) as Hge.
  assert (E : wtok p w = 0).
  { destruct (f_rp fr); cbn in Hsus; try lia; try done; destruct_and?; try congruence;
      destruct Hsus as (? & ? & ? & ?); congruence. }
  unfold wtok in E. split_and!.
  - rewrite !elem_of_app, !occ_in. lia.
  - intros Ep. rewrite Ep in E. cbn in E. rewrite eqn_refl in E. lia.
  - intros Ep. rewrite Ep in E. cbn in E. rewrite eqn_refl in E. lia.
Qed.

Example C04_nonvacuous :
  reach 2 false (demo_s 100 eager2 prog) (firstn 10 H ++ EvResume 1 0 :: skipn 11 H) /\
  status_in 0 (skipn 11 H) = Some (AtCall 3).
Proof. split; [demo 10%nat|vm_compute; reflexivity]. Qed.

(** ** C05: a root task is signalled exactly once, at its end *)

Theorem C05_signalled_at_most_once nw af s h f :
  reach nw af s h -> signals_in f h <= 1 /\ sem s f = signals_in f h.
Proof.
  intros HR. destruct (reach_hist _ _ _ _ HR) as (Hh & _). split; [|by apply Hh].
  destruct (s_frames s !! f) as [fr|] eqn:Hf.
  - rewrite (k_sig _ _ _ _ (g_frames _ _ _ Hh f fr Hf)). destruct (f_rp fr); lia.
  - destruct (decide (f < s_nextf s)) as [Hlt|].
    + destruct (g_dead _ _ _ Hh f Hlt Hf) as (_ & ->). destruct (parent_in f h); lia.
    + destruct (g_new _ _ _ Hh f) as (_ & _ & _ & _ & _ & _ & ->); lia.
Qed.

(** When the waiting thread is released, the task and everything it created,
    directly or indirectly, has ended; all descendants are destroyed; and the
    result is in the shared state. *)
Theorem C05_signalled_at_end nw af s h1 f h0 :
  reach nw af s (h1 ++ EvSignal f :: h0) ->
  parent_in f h0 = None /\ signals_in f h0 = 0 /\ ended h0 f /\
  forall c, descendant h0 f c -> status_in c h0 = Some Gone.
Proof. intros (Hok & (_ & Hd) & _)%reach_ev. destruct Hok as (He & Hp & Hs). done. Qed.

Theorem C05_result_available nw af s h f :
  reach nw af s h -> signals_in f h = 1 -> exists o, outcome_in f h = Some o /\ s_res s !! f = Some o.
Proof.
  intros HR Hs. destruct (reach_hist _ _ _ _ HR) as (Hh & _).
  assert (Hp : exists h1 h0, h = h1 ++ EvSignal f :: h0).
  { clear -Hs. induction h as [|e h IH]; [done|].
    assert (G : signals_in f h = 1 -> exists h1 h0, e :: h = h1 ++ EvSignal f :: h0).
    { intros E. destruct (IH E) as (h1 & h0 & ->). by exists (e :: h1), h0. }
    destruct e; cbn in Hs; try (by apply G). case_decide; [subst; by exists [], h|apply G; lia]. }
  destruct Hp as (h1 & h0 & ->). destruct (C05_signalled_at_end _ _ _ _ _ _ HR) as (Hp & _ & (o & Ho) & _).
  assert (Hpar : parent_in f (h1 ++ EvSignal f :: h0) = None).
  { destruct (s_frames s !! f) as [fr|] eqn:Hf.
    - pose proof (g_frames _ _ _ Hh f fr Hf) as Fk. pose proof (k_sig _ _ _ _ Fk) as Hk. rewrite Hs in Hk.
      destruct (reach_inv _ _ _ _ HR) as (G & I). pose proof (i_node _ _ _ I f fr Hf) as N.
      destruct (f_rp fr) eqn:Er; try lia. destruct N as (_ & _ & _ & _ & N). rewrite Er in N.
      destruct N as (_ & _ & _ & _ & _ & Ek). pose proof (k_kind _ _ _ _ Fk) as Hkk. by rewrite Ek in Hkk.
    - destruct (decide (f < s_nextf s)) as [Hlt|].
      + destruct (g_dead _ _ _ Hh f Hlt Hf) as (_ & E). rewrite Hs in E. destruct (parent_in f (h1 ++ EvSignal f :: h0)); done.
      + destruct (g_new _ _ _ Hh f) as (_ & _ & ? & _); [lia|done]. }
  pose proof (g_res _ _ _ Hh f Hpar) as Hres. rewrite Hres.
  assert (Hend : ended (h1 ++ EvSignal f :: h0) f).
  { clear -Ho. induction h1 as [|e h1 IH]; [by exists o|]. destruct IH as (o' & Ho').
    unfold ended. destruct e; cbn; eauto. case_decide; eauto. }
  destruct Hend as (o' & Ho'). eauto.
Qed.

(** A destroyed root task has been signalled. *)
Theorem C05_finished_is_signalled nw af s h f t :
  reach nw af s h -> parent_in f h = None -> body_in f h = Some t -> status_in f h = Some Gone ->
  signals_in f h = 1.
Proof.
  intros HR Hp Hb Hg. destruct (reach_hist _ _ _ _ HR) as (Hh & _). pose proof (reach_stat _ _ _ _ HR) as T.
  destruct (decide (f < s_nextf s)) as [Hlt|]; cycle 1.
  { destruct (g_new _ _ _ Hh f) as (_ & ? & _); [lia|congruence]. }
  destruct (s_frames s !! f) as [fr|] eqn:Hf.
  - exfalso. destruct (decide (Exists (fun p => pcrun p = Some f) (pcs s))) as [He|He].
    + apply Exists_exists in He as (p & Hin & Hpr). apply elem_of_list_lookup in Hin as (i & Hi).
      rewrite (t_run _ _ T i f) in Hg; [done|]. by exists p.
    + assert (Hs : susp_ok h f (f_rp fr)).
      { apply (t_sus _ _ T f fr Hf). intros i (p & Hi & Hpr). apply He. apply Exists_exists.
        exists p. split; [by eapply elem_of_list_lookup_2|done]. }
      destruct (f_rp fr); cbn in Hs; rewrite ?Hg in Hs; try done; destruct Hs as (? & ? & ? & _); done.
  - destruct (g_dead _ _ _ Hh f Hlt Hf) as (_ & ->). by rewrite Hp.
Qed.

Example C05_nonvacuous :
  reach 2 false (demo_s 100 eager2 prog) (firstn 1 H ++ EvSignal 0 :: skipn 2 H) /\
  descendant (skipn 2 H) 0 4 /\ signals_in 0 H = 1 /\ sem (demo_s 100 eager2 prog) 0 = 1 /\
  status_in 0 H = Some Gone.
Proof.
  split; [demo 1%nat|]. split; [|split_and!; vm_compute; reflexivity].
  eapply (desc_trans _ _ 3 4 false); [apply (desc_kid _ _ 3 false)|];
    apply elem_of_list_lookup; [exists 2%nat|exists 0%nat]; vm_compute; reflexivity.
Qed.

(** ** C06: no deadlock *)

(** While some task exists that is not destroyed, some worker can take a step
    (other than being given new work). *)
Theorem C06_no_deadlock nw af s h f :
  reach nw af s h -> status_in f h <> None -> status_in f h <> Some Gone ->
  exists l s' tr, internal l /\ step l s = Next s' tr.
Proof.
  intros HR H1 H2. pose proof (reach_stat _ _ _ _ HR) as T.
  destruct (s_frames s !! f) as [fr|] eqn:Hf; [by eapply progress|]. exfalso.
  destruct (decide (f < s_nextf s)).
  - rewrite (t_dead _ _ T f) in H2; done.
  - rewrite (t_new _ _ T f) in H1; [done|lia].
Qed.

(** So when nothing can move, every submitted task has been signalled once and
    its result is in place. *)
Theorem C06_stuck_means_finished nw af s h f t :
  reach nw af s h -> (forall l s' tr, internal l -> step l s <> Next s' tr) ->
  parent_in f h = None -> body_in f h = Some t ->
  signals_in f h = 1 /\ exists o, s_res s !! f = Some o /\ eval af t o.
Proof.
  intros HR Hstuck Hp Hb. pose proof (reach_stat _ _ _ _ HR) as T. destruct (reach_hist _ _ _ _ HR) as (Hh & _).
  assert (Hg : status_in f h = Some Gone).
  { destruct (s_frames s !! f) as [fr|] eqn:Hf.
    - destruct (progress _ _ _ _ _ _ HR Hf) as (l & s' & tr & Hl & E). by apply Hstuck in E.
    - apply (t_dead _ _ T f); [|done]. destruct (decide (f < s_nextf s)); [done|].
      destruct (g_new _ _ _ Hh f) as (_ & ? & _); [lia|congruence]. }
  pose proof (C05_finished_is_signalled _ _ _ _ _ _ HR Hp Hb Hg) as Hs. split; [done|].
  destruct (C05_result_available _ _ _ _ _ HR Hs) as (o & Ho & Hr). exists o. split; [done|].
  destruct (C03_serial _ _ _ _ _ _ HR Ho) as (t' & Ht' & He). congruence.
Qed.

Example C06_nonvacuous :
  (exists s h, reach 2 false s h /\ status_in 0 h = Some AtJoin /\ status_in 1 h = Some (Running 0)) /\
  (parent_in 0 H = None /\ signals_in 0 H = 1).
Proof.
  split; [|split; vm_compute; reflexivity].
  exists (demo_s 22 eager2 prog), (demo_h 22 eager2 prog).
  split; [apply demo_hs; [apply eager2_allowed|apply prog_scoped; lia]|].
  vm_compute. split; reflexivity.
Qed.

(** ** C07: the limit of the 16-bit join counter *)

(** A scope may have 65534 forks: such a program follows the rules, so that all
    theorems of this file apply to it. *)
Theorem C07_up_to_65534_partial nw n : n <= 65534 -> well_scoped nw (forks_n n).
Proof. exact (forks_scoped nw n). Qed.

(** With 65535 forks there is a schedule on two workers in which a child finds
    the join counter at 1, so that it resumes its parent (promise.hpp:92) while
    another worker runs the parent. *)
Theorem C07_any_number_of_forks_refuted :
  exists ls s i j, runs_to (LSpawn 0 (forks_n 65535) :: ls) (init 2) = Some s /\
    i <> j /\
    w_pc <$> s_workers s !! j = Some (PRun 0) /\
    w_pc <$> s_workers s !! i = Some (PSub 0) /\
    f_joins <$> s_frames s !! 0 = Some 1 /\
    step (LWork i false) s = Undef.
Proof. exact too_many_forks. Qed.

(** ** C08: explicit rescheduling *)

(** A task that switched to worker [d] is next resumed by worker [d]. *)
Theorem C08_resumed_where_asked nw af s h1 w f d h0 :
  reach nw af s (h1 ++ EvResume w f :: h0) -> status_in f h0 = Some (AtSwitch d) -> w = d.
Proof. intros (_ & Hev & _)%reach_ev Hs. cbn in Hev. by rewrite Hs in Hev. Qed.

(** While it waits it is in exactly one place, the submission list of [d] (or
    the batch [d] has taken). *)
Theorem C08_waits_at_destination nw af s h f d :
  reach nw af s h -> status_in f h = Some (AtSwitch d) ->
  exists w, s_workers s !! d = Some w /\ f ∈ w_inbox w ++ w_batch w.
Proof.
  intros HR Hs. destruct (reach_inv _ _ _ _ HR) as (G & I). pose proof (reach_stat _ _ _ _ HR) as T.
  assert (Hn : forall j, ~ runs s j f).
  { intros j Hj. rewrite (t_run _ _ T j f Hj) in Hs. done. }
  destruct (s_frames s !! f) as [fr|] eqn:Hf; cycle 1.
  { destruct (decide (f < s_nextf s)).
    - rewrite (t_dead _ _ T f) in Hs; done.
    - rewrite (t_new _ _ T f) in Hs; [done|lia]. }
  pose proof (t_sus _ _ T f fr Hf Hn) as Hsus.
  destruct (f_rp fr) eqn:Er; cbn in Hsus; try congruence; try (destruct Hsus as (? & ? & ? & _); congruence); try done.
  assert (d0 = d) as -> by congruence.
  pose proof (i_node _ _ _ I f fr Hf) as (Ntk & _). rewrite Er in Ntk.
  assert (Hpos : 0 < sumw (wtok f) (s_workers s)) by lia.
  apply sumw_ex in Hpos as (i & w & Hi & Hw).
  destruct (i_wrk _ _ _ I i w Hi) as ((Wb & Wp) & _).
  assert (Hin : f ∈ w_inbox w ++ w_batch w).
  { unfold wtok in Hw. rewrite elem_of_app, !occ_in.
    assert (occ f (pc_tok (w_pc w)) = 0).
    { destruct (w_pc w) as [|g|g| | | |g| |] eqn:Epc; try done; cbn.
      - destruct (decide (g = f)) as [->|Hne]; [|rewrite eqn_ne by done; lia]. exfalso.
        pose proof (i_node _ _ _ I f fr Hf) as (_ & _ & _ & _ & N). rewrite Er in N. destruct N as (_ & N & _).
        pose proof (sumw_ge (wpend f) _ _ _ Hi) as Hge. unfold wpend in Hge at 1. rewrite Epc, eqn_refl in Hge. lia.
      - destruct (decide (g = f)) as [->|Hne]; [|rewrite eqn_ne by done; lia]. exfalso.
        apply (Hn i). exists (PRun f). by rewrite (pcs_lookup _ _ _ Hi), Epc.
      - destruct (decide (g = f)) as [->|Hne]; [|rewrite eqn_ne by done; lia]. exfalso.
        apply (Hn i). exists (PJSusp f). by rewrite (pcs_lookup _ _ _ Hi), Epc. }
    assert (occ f (w_deque w) = 0).
    { pose proof (i_node _ _ _ I f fr Hf) as (_ & _ & _ & _ & N). rewrite Er in N. destruct N as (_ & N & _).
      pose proof (sumw_ge (wpend f) _ _ _ Hi) as Hge. unfold wpend in Hge at 1. lia. }
    lia. }
  exists w. split; [|done]. destruct (Wb f Hin) as (fr' & Hf' & Hd). rewrite Hf in Hf'. injection Hf' as <-.
  rewrite Er in Hd. by subst.
Qed.

(** A task that asks for worker [d] is suspended to go on there, unless it asked
    with resume_on and already runs on [d]. *)
Theorem C08_suspends_unless_there nw af s h i w f fr skip d k fail s' tr :
  reach nw af s h -> s_workers s !! i = Some w -> w_pc w = PRun f ->
  s_frames s !! f = Some fr -> f_rp fr = RRun (Switch skip d k) ->
  step (LWork i fail) s = Next s' tr ->
  (status_in f (rev tr ++ h) = Some (AtSwitch d)) \/
  (skip = true /\ i = d /\ tr = [] /\ status_in f h = Some (Running i)).
Proof.
  intros HR Hi Hpc Hf Hrp Hs. pose proof (reach_stat _ _ _ _ HR) as T.
  cbn in Hs. unfold wstep in Hs. rewrite Hi, Hpc, Hf, Hrp in Hs. cbn in Hs.
  assert (Hrun : status_in f h = Some (Running i)).
  { apply (t_run _ _ T i f). exists (PRun f). by rewrite (pcs_lookup _ _ _ Hi), Hpc. }
  destruct (skip && bool_decide (d = i)) eqn:Esk.
  - right. apply andb_prop in Esk as [-> Ed]. apply (bool_decide_eq_true_1 (d = i)) in Ed as ->.
    by injection Hs as <- <-.
  - left. repeat case_match; try done. injection Hs as <- <-. cbn. by rewrite decide_True.
Qed.

Example C08_nonvacuous :
  reach 2 false (demo_s 100 eager2 prog) (firstn 3 H ++ EvResume 1 0 :: skipn 4 H) /\
  status_in 0 (skipn 4 H) = Some (AtSwitch 1).
Proof. split; [demo 3%nat|vm_compute; reflexivity]. Qed.

(** ** C09: sync fork reports truthfully *)

(** If a sync fork returns true, the child forked last has ended, and its
    variable holds its result. *)
Theorem C09_sync_true nw af s h1 f cl h0 :
  reach nw af s (h1 ++ EvSync f cl :: h0) ->
  exists c st o, last (kids_in f h0) = Some (c, st) /\ outcome_in c h0 = Some o /\ cl = cell_of st o.
Proof. intros (_ & (_ & Hx) & _)%reach_ev. exact Hx. Qed.

Example C09_nonvacuous :
  let h := demo_h 100 lazy2 prog_sync in
  reach 2 false (demo_s 100 lazy2 prog_sync) (firstn 4 h ++ EvSync 0 (CVal 5%Z) :: skipn 5 h) /\
  last (kids_in 0 (skipn 5 h)) = Some (1, false).
Proof.
  split; [refine (demo_at 100 lazy2 prog_sync 4 _ lazy2_allowed (prog_sync_scoped 2) _); vm_compute; reflexivity|].
  vm_compute. reflexivity.
Qed.

(** ** C10: stacks have one owner, are used in FILO order; no assertion fails *)

(** In no execution does a step of the runtime violate one of its assertions,
    destroy a frame that is not at the top of the worker's stack, or touch a
    destroyed task. *)
Theorem C10_no_assertion_fails nw af s h l :
  reach nw af s h -> allowed nw af l -> step l s <> Undef.
Proof. intros HR. by eapply reach_safe. Qed.

(** Two workers never use the same stack. *)
Theorem C10_single_owner nw af s h i j w w' f f' :
  reach nw af s h -> s_workers s !! i = Some w -> s_workers s !! j = Some w' -> i <> j ->
  w_pc w = PRun f -> w_pc w' = PRun f' -> w_stk w <> w_stk w'.
Proof.
  intros HR Hi Hj Hne E E'. destruct (reach_inv _ _ _ _ HR) as (G & I).
  eapply (i_own _ _ _ I); eauto; unfold eff; by rewrite ?E, ?E'.
Qed.

(** Every live task is on exactly one stack, at one position. *)
Theorem C10_one_stack_each nw af s h f fr x :
  reach nw af s h -> s_frames s !! f = Some fr ->
  (f ∈ stk s x <-> x = f_stk fr) /\ NoDup (stk s x).
Proof.
  intros HR Hf. destruct (reach_inv _ _ _ _ HR) as (G & I). pose proof (i_stk _ _ _ I) as S.
  split; [split|by apply S].
  - intros Hin. destruct (so_dom _ _ _ S f x Hin) as (k & Hk). rewrite (shape_lookup _ _ _ Hf) in Hk. congruence.
  - intros ->. eapply so_in; [done|]. by apply shape_lookup.
Qed.

Example C10_nonvacuous :
  exists s h w w' , reach 2 false s h /\ s_workers s !! 0%nat = Some w /\ s_workers s !! 1%nat = Some w' /\
    w_pc w = PRun 1 /\ w_pc w' = PRun 0 /\ stk s (w_stk w) = [1; 0] /\ stk s (w_stk w') = [].
Proof.
  exists (demo_s 6 eager2 prog), (demo_h 6 eager2 prog). eexists _, _.
  split; [apply demo_hs; [apply eager2_allowed|apply prog_scoped; lia]|].
  split; [vm_compute; reflexivity|]. split; [vm_compute; reflexivity|].
  vm_compute. split_and!; reflexivity.
Qed.

(** ** C11: exceptions are rethrown at the join, none is lost *)

(** A join throws iff an exception is pending, and then one of the pending ones;
    the pending ones are those that children without exception-storing return
    object threw, or the task stashed, since it last rethrew. *)
Theorem C11_join_rethrows nw af s h1 f cs r h0 :
  reach nw af s (h1 ++ EvJoin f cs r :: h0) ->
  (r = None <-> pending_in f h0 = ∅) /\ (forall e, r = Some e -> e ∈ pending_in f h0).
Proof.
  intros (Hok & _ & _)%reach_ev. destruct Hok as (_ & _ & _ & Hj).
  inversion Hj as [E|e E]; subst; split.
  - done.
  - done.
  - split; [done|]. set_solver.
  - by intros e' [= <-].
Qed.

(** What is rethrown was thrown by a child or stashed by the task itself. *)
Theorem C11_rethrown_is_a_childs nw af s h1 f cs e h0 :
  reach nw af s (h1 ++ EvJoin f cs (Some e) :: h0) ->
  (exists c, parent_in c h0 = Some (f, false) /\ outcome_in c h0 = Some (OExc e)) \/ EvStash f e ∈ h0.
Proof.
  intros HR. pose proof HR as (_ & _ & He)%reach_ev.
  destruct (C11_join_rethrows _ _ _ _ _ _ _ _ HR) as (_ & Hx). eapply pending_from; eauto.
Qed.

(** No task ends while an exception is pending in it. *)
Theorem C11_none_dropped nw af s h1 f o h0 :
  reach nw af s (h1 ++ EvEnd f o :: h0) -> pending_in f h0 = ∅.
Proof. intros (Hok & _ & _)%reach_ev. destruct Hok as (_ & _ & ? & _). done. Qed.

Example C11_nonvacuous :
  reach 2 false (demo_s 100 eager2 prog)
    (firstn 5 H ++ EvJoin 0 [CUnset; CExc (EUser 8); CVal 4%Z] (Some (EUser 7)) :: skipn 6 H) /\
  EUser 7 ∈ pending_in 0 (skipn 6 H).
Proof.
  split; [demo 5%nat|]. apply (bool_decide_eq_true_1 (EUser 7 ∈ pending_in 0 (skipn 6 H))). vm_compute. reflexivity.
Qed.

(** ** C12: exception-storing return objects *)

(** The exception of a child whose return object stores exceptions is found
    there after the join ... *)
Theorem C12_exception_stored nw af s h1 f cs r h0 j c e :
  reach nw af s (h1 ++ EvJoin f cs r :: h0) ->
  kids_in f h0 !! j = Some (c, true) -> outcome_in c h0 = Some (OExc e) -> cs !! j = Some (CExc e).
Proof.
  intros HR Hj Ho. destruct (C01_join_waits _ _ _ _ _ _ _ _ HR) as (_ & Hx).
  destruct (Hx j c true Hj) as (_ & o & Ho' & Hcs). rewrite Ho in Ho'. by injection Ho' as <-.
Qed.

(** ... and does not make the join throw. *)
Theorem C12_join_does_not_throw nw af s h1 f cs r h0 :
  reach nw af s (h1 ++ EvJoin f cs r :: h0) ->
  (forall c e, parent_in c h0 = Some (f, false) -> outcome_in c h0 <> Some (OExc e)) ->
  (forall e, EvStash f e ∉ h0) ->
  r = None.
Proof.
  intros HR Hk Hs. destruct r as [e|]; [|done]. exfalso.
  destruct (C11_rethrown_is_a_childs _ _ _ _ _ _ _ _ HR) as [(c & Hp & Ho)|Hin].
  - by eapply Hk.
  - by eapply Hs.
Qed.

Example C12_nonvacuous :
  let h := demo_h 100 eager2 prog_pure in
  reach 2 false (demo_s 100 eager2 prog_pure) (firstn 3 h ++ EvJoin 0 [CVal 1%Z; CExc (EUser 2)] None :: skipn 4 h) /\
  kids_in 0 (skipn 4 h) !! 1%nat = Some (2, true) /\ outcome_in 2 (skipn 4 h) = Some (OExc (EUser 2)).
Proof.
  split; [refine (demo_at 100 eager2 prog_pure 3 _ eager2_allowed (prog_pure_scoped 2) _); vm_compute; reflexivity|].
  vm_compute. split; reflexivity.
Qed.

(** ** C13: eager_throw and sync do not rethrow what the child left behind *)

(** [prog_eager m] calls a throwing function with modifier [m] and a return
    object that does not store exceptions, and returns 1 if the call throws, 2
    if only the following join throws.  With eager_throw it should return 1.
    In every execution in which it ends it returns 2: promise.hpp:217 generates
    the check only if the return object stores exceptions, in which case there
    is nothing to rethrow. *)
Theorem C13_eager_throw_refuted m nw s h f o :
  reach nw false s h -> body_in f h = Some (prog_eager m) -> outcome_in f h = Some o -> o = OVal 2%Z.
Proof.
  intros HR Hb Ho. destruct (C03_serial _ _ _ _ _ _ HR Ho) as (t & Ht & He).
  rewrite Hb in Ht. injection Ht as <-. unfold eval, prog_eager in He.
  inversion He as [| | | |cs X m' st c k oc r X' o' Hc Hr Hk| ? ? ? ? ? ? ? Hf| | | |]; subst; [|done].
  inversion Hc; subst. cbn in Hr. inversion Hr; subst; [|done|done].
  inversion Hk as [| | | | | |? ? ? ? ? Hj Hk'| | |]; subst.
  inversion Hj; subst; [exfalso; set_solver|]. inversion Hk'. done.
Qed.

Example C13_refuted_nonvacuous :
  let h := demo_h 100 eager2 (prog_eager MEager) in
  reach 2 false (demo_s 100 eager2 (prog_eager MEager)) h /\
  body_in 0 h = Some (prog_eager MEager) /\ outcome_in 0 h = Some (OVal 2%Z).
Proof.
  split; [apply demo_hs; [apply eager2_allowed|apply prog_eager_scoped]|].
  vm_compute. split; reflexivity.
Qed.

(** ** C39: just *)

(** When a task waiting in [co_await just[f](...)] is resumed, [f] has ended and
    the task goes on with exactly [f]'s outcome (its value, or its exception
    thrown at that point); its own pending exceptions are untouched. *)
Theorem C39_just nw af s h p frp k l s' tr i :
  reach nw af s h -> allowed nw af l -> step l s = Next s' tr ->
  s_frames s !! p = Some frp -> f_rp frp = RCall MNone true (just_k k) -> EvResume i p ∈ tr ->
  exists c oc frp', status_in p h = Some (AtCall c) /\ outcome_in c h = Some oc /\
    s_frames s' !! p = Some frp' /\ f_rp frp' = RRun (k oc) /\
    (f_eflag frp', f_eptr frp') = (f_eflag frp, f_eptr frp).
Proof.
  intros HR HA Hst Hp Hr Hin.
  destruct (call_result _ _ _ _ _ _ _ _ _ _ _ _ HR HA Hst Hp Hr Hin) as (c & oc & frp' & H1 & H2 & H3 & H4 & H5).
  exists c, oc, frp'. split_and!; try done. rewrite H4. by destruct oc.
Qed.

Example C39_nonvacuous :
  exists s h l s' tr frp k, reach 2 false s h /\ allowed 2 false l /\ step l s = Next s' tr /\
    s_frames s !! 0 = Some frp /\ f_rp frp = RCall MNone true (just_k k) /\ EvResume 0 0 ∈ tr /\
    outcome_in 1 h = Some (OExc (EUser 4)).
Proof.
  exists (demo_s 4 lazy2 prog_just), (demo_h 4 lazy2 prog_just), (LWork 0 false). eexists _, _, _,
    (fun o => match o with OVal v => Ret v | OExc _ => Ret 40%Z end).
  split; [apply demo_hs; [apply lazy2_allowed|apply prog_just_scoped]|].
  split; [done|]. split; [vm_compute; reflexivity|]. split; [vm_compute; reflexivity|].
  split; [vm_compute; reflexivity|]. split; [right; left|]. vm_compute. reflexivity.
Qed.

Print Assumptions C01_join_waits.
Print Assumptions C03_deterministic.
Print Assumptions C06_stuck_means_finished.
Print Assumptions C07_any_number_of_forks_refuted.
Print Assumptions C10_no_assertion_fails.
Print Assumptions C13_eager_throw_refuted.
Print Assumptions C39_just.
