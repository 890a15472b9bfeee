(** * C13: what eager_throw and sync rethrow.

    Model: RuntimeModel.v (call_resume, fork_resume).  Specification: RuntimeSpec.v. *)

From stdpp Require Import prelude gmap list.
From Coq Require Import NArith ZArith Lia.
From Verif Require Import RuntimeModel RuntimeSpec RuntimeInv RuntimeStep RuntimeStep2 RuntimeStep3
  RuntimeStep4 RuntimeStep5 RuntimeStep6 RuntimeStep7 RuntimeSafe RuntimeHist RuntimeHist2
  RuntimeHist3 RuntimeHist4 RuntimeThms RuntimeExamples.
Local Open Scope N_scope.

(** A task that waits in a call is resumed by call_awaitable::await_resume, when its child has
    ended. *)
Lemma call_resumed nw af s h p frp m st k l s' tr i :
  reach nw af s h -> allowed nw af l -> step l s = Next s' tr ->
  s_frames s !! p = Some frp -> f_rp frp = RCall m st k -> EvResume i p ∈ tr ->
  exists c oc seen j w s1, status_in p h = Some (AtCall c) /\ outcome_in c h = Some oc /\ parent_in c h = Some (p, st) /\
    fres_last (f_cells frp) = cell_of st oc /\ call_resume seen j w p frp m st k s1 [EvDestroy c; EvResume j p] = Next s' tr.
Proof.
  intros HR HA Hst Hp Hrp Hin.
  destruct (reach_inv _ _ _ _ HR) as (G & I). destruct (reach_hist _ _ _ _ HR) as (H & _).
  pose proof (reach_stat _ _ _ _ HR) as T.
  pose proof (i_node _ _ _ I p frp Hp) as (Ntk & Nc & _). rewrite Hrp in Ntk, Nc.
  assert (Htok : forall j w, s_workers s !! j = Some w -> wtok p w = 0).
  { intros j w Hj. pose proof (sumw_ge (wtok p) _ _ _ Hj). lia. }
  assert (Hfresh : p <> s_nextf s).
  { intros E. rewrite (i_fresh _ _ _ I p) in Hp; [done|lia]. }
  assert (Hno : forall j w q, s_workers s !! j = Some w -> q = p ->
    q ∈ pc_tok (w_pc w) \/ q ∈ w_deque w \/ q ∈ w_inbox w \/ q ∈ w_batch w -> False).
  { intros j w q Hj -> Hq. specialize (Htok j w Hj). unfold wtok in Htok.
    destruct Hq as [Hq|[Hq|[Hq|Hq]]]; apply occ_in in Hq; lia. }
  assert (Hsus : susp_ok h p (f_rp frp)).
  { apply (t_sus _ _ T p frp Hp). eapply nobody; eauto. left. by rewrite Hrp. }
  rewrite Hrp in Hsus. cbn in Hsus. destruct Hsus as (c & stc & Hs & Hl).
  assert (HX : forall seen w f fr, s_frames s !! f = Some fr -> f_rp fr = RFinal -> forall j, finish seen j w f fr s = Next s' tr ->
    exists c oc seen j w s1, status_in p h = Some (AtCall c) /\ outcome_in c h = Some oc /\ parent_in c h = Some (p, st) /\
    fres_last (f_cells frp) = cell_of st oc /\ call_resume seen j w p frp m st k s1 [EvDestroy c; EvResume j p] = Next s' tr).
  {
    clear Hst. intros seen w f fr Hf Er j Hst. unfold finish in Hst. case_decide as Hfin; [|done].
      destruct (f_kind fr) as [|q ji stf|q ji stf] eqn:Ek.
    - injection Hst as <- <-. set_solver.
    - destruct (destroy w f fr s) as [s1|] eqn:Ed; [|done].
      assert (HF1 : s_frames s1 = delete f (s_frames s)).
      { unfold destroy in Ed. repeat case_match; try done; injection Ed as <-; done. }
      destruct (s_frames s1 !! q) as [frq|] eqn:Hq; [|done].
      destruct (f_rp frq) as [| |m0 st0 k0| | | | |] eqn:Erq; try done.
      assert (Eq : q = p).
      { unfold call_resume in Hst. cbn zeta in Hst. clear -Hst Hin.
        repeat case_match; try done; injection Hst as <- <-; cbn in Hin; set_solver. }
      subst q. rewrite HF1 in Hq. apply lookup_delete_Some in Hq as (_ & Hq). rewrite Hp in Hq. injection Hq as <-.
      rewrite Hrp in Erq. injection Erq as <- <- <-.
      unfold call_resume in Hst. cbn zeta in Hst.
      destruct (i_kid _ _ _ I f _ _ p frp (shape_lookup _ _ _ Hf)) as (Hkid & _); [by rewrite Ek|done|].
      unfold kid_ok in Hkid. cbn in Hkid. rewrite Ek, Hrp in Hkid. destruct Hkid as (Hlen & _ & <-).
      pose proof (g_frames _ _ _ H f fr Hf) as Fk. pose proof (g_frames _ _ _ H p frp Hp) as Fp.
      pose proof (k_kind _ _ _ _ Fk) as Hkk. rewrite Ek in Hkk.
      pose proof (k_cells _ _ _ _ Fp) as Hcells.
      assert (Hlk : last (kids_in p h) = Some (f, stf)).
      { rewrite last_lookup. rewrite Hcells, results_length in Hlen. by rewrite <- Hlen. }
      rewrite Hl in Hlk. injection Hlk as -> ->.
      destruct (proj1 (k_over _ _ _ _ Fk)) as (oc & Hoc); [by rewrite Er|].
      assert (Hcl : fres_last (f_cells frp) = cell_of stf oc).
      { unfold fres_last. rewrite last_lookup, <- Hlen, Hcells. cbn [pred].
        by rewrite (results_lookup _ _ _ _ _ _ Hkk Hoc). }
      exists f, oc, seen, j, w, s1. split_and!; [done|done| |done|exact Hst].
      exact (proj1 (proj2 (g_kids _ _ _ H _ _ _ _ Hkk))).
    - destruct (destroy w f fr s) as [s1|] eqn:Ed; [|done]. injection Hst as <- <-. set_solver. }
  destruct l as [j fail|j|j|j v|d t]; cbn [step] in Hst.
  2:{ destruct (stale_inv _ _ _ _ Hst) as (w & f & fr & Hi & Hpc & Hf & [(k1 & Hr & Hz & -> & ->)|[(m1 & st1 & k1 & pre & Hr & E')|(p1 & j1 & st1 & Hr & Hk & E')]]).
      - set_solver.
      - exfalso. unfold fork_resume in E'. cbn zeta in E'. repeat case_match; try done; injection E' as <- <-; set_solver.
      - exact (HX _ _ _ _ Hf Hr _ E'). }
  2:{ unfold take in Hst. repeat case_match; try done. injection Hst as <- <-. set_solver. }
  2:{ unfold steal in Hst. repeat case_match; try done. injection Hst as <- <-. set_solver. }
  2:{ unfold spawn in Hst. repeat case_match; try done. injection Hst as <- <-. set_solver. }
  unfold wstep in Hst. destruct (s_workers s !! j) as [w|] eqn:Hj; [|done].
  destruct (w_pc w) as [|f|f|q|q| |f|b|] eqn:Epc.
  - destruct (w_batch w) as [|f rest] eqn:Eb; [done|]. unfold resume_submitted in Hst.
    repeat case_match; try done; injection Hst as <- <-; apply elem_of_list_singleton in Hin; injection Hin as -> ->;
      exfalso; eapply (Hno _ _ f Hj eq_refl); rewrite Eb; right; right; right; by left.
  - unfold resume_stolen in Hst. repeat case_match; try done. injection Hst as <- <-.
    apply elem_of_list_singleton in Hin; injection Hin as -> ->.
    exfalso; eapply (Hno _ _ f Hj eq_refl). left. rewrite Epc. by left.
  - destruct (s_frames s !! f) as [fr|] eqn:Hf; [|done].
    destruct (f_rp fr) as [t|m0 st0 k0 pre|m0 st0 k0|k0|d k0|e| |] eqn:Er; try done.
    + unfold run_task in Hst.
      assert (Hd : forall o, deliver f fr o s = Next s' tr -> False).
      { intros o Hd. unfold deliver in Hd. repeat case_match; try done; injection Hd as <- <-;
          apply elem_of_list_singleton in Hin; done. }
      destruct t; try (by exfalso; eapply Hd).
      * destruct fail; injection Hst as <- <-; [set_solver|].
        apply elem_of_cons in Hin as [Hin|Hin%elem_of_list_singleton]; [done|]. injection Hin as -> E. done.
      * destruct fail; injection Hst as <- <-; [set_solver|].
        apply elem_of_cons in Hin as [Hin|Hin%elem_of_list_singleton]; [done|]. injection Hin as -> E. done.
      * exfalso. unfold take_stack_join_resume, join_resume in Hst. cbn zeta in Hst.
        repeat case_match; try done; injection Hst as <- <-; cbn in Hin; set_solver.
      * exfalso. repeat case_match; try done; injection Hst as <- <-; cbn in Hin; set_solver.
      * injection Hst as <- <-. set_solver.
      * injection Hst as <- <-. set_solver.
    + exfalso. unfold fork_resume in Hst. cbn zeta in Hst.
      repeat case_match; try done; injection Hst as <- <-; set_solver.
    + injection Hst as <- <-. set_solver.
    + exfalso. unfold capture in Hst. repeat case_match; try done; injection Hst as <- <-; set_solver.
    + exact (HX _ _ _ _ Hf Er _ Hst).
    + exfalso. unfold root_destroy, to_idle in Hst. repeat case_match; try done; injection Hst as <- <-; set_solver.
  - destruct (w_deque w) as [|q' dq] eqn:Ed; [injection Hst as <- <-; set_solver|].
    case_decide; [|done]. injection Hst as <- <-. apply elem_of_list_singleton in Hin; injection Hin as -> ->. subst.
    exfalso; eapply (Hno _ _ q Hj eq_refl). rewrite Ed. right; left; by left.
  - exfalso. unfold final_sub in Hst. destruct (s_frames s !! q) as [frq|] eqn:Hq; [|done].
    destruct (same_stacklet s q frq w) as [same|]; [|done]. cbn zeta in Hst. case_decide.
    + destruct (f_rp frq) eqn:Erq; try done. case_match; [|done]. unfold join_resume in Hst.
      repeat case_match; try done; injection Hst as <- <-;
        (apply elem_of_cons in Hin as [Hin|Hin]; [|set_solver]); injection Hin as -> ->; congruence.
    + unfold to_idle in Hst. repeat case_match; try done; injection Hst as <- <-; set_solver.
  - exfalso. unfold to_idle in Hst. cbn zeta in Hst. repeat case_match; try done; injection Hst as <- <-; set_solver.
  - exfalso. unfold join_suspend, take_stack_join_resume, join_resume in Hst. cbn zeta in Hst.
    repeat case_match; try done; injection Hst as <- <-; cbn in Hin; set_solver.
  - exfalso. cbn zeta in Hst. repeat case_match; try done; injection Hst as <- <-; set_solver.
  - unfold self_steal in Hst. destruct (w_deque w) as [|q' dq] eqn:Ed.
    + exfalso. unfold to_idle in Hst. repeat case_match; try done; injection Hst as <- <-; set_solver.
    + destruct (s_frames s !! q'); [|done]. injection Hst as <- <-.
      apply elem_of_list_singleton in Hin; injection Hin as -> ->.
      exfalso; eapply (Hno _ _ q' Hj eq_refl). rewrite Ed. right; left; by left.
Qed.

(** The exception a called child left in the task that waits for it is still there. *)
Lemma outcome_body af c h o : evs_ok af h -> outcome_in c h = Some o -> body_in c h <> None.
Proof.
  induction h as [|ev h IH]; intros Hok Ho; [done|]. destruct Hok as [Hev Hok].
  destruct ev; cbn in Ho |- *; try (by apply IH); case_decide as E; try done; try (by apply IH).
  subst. destruct Hev as (_ & _ & _ & t & Hb & _). by rewrite Hb.
Qed.
Lemma left_in_task af p c e h : evs_ok af h -> evs2 h -> status_in p h = Some (AtCall c) ->
  parent_in c h = Some (p, false) -> outcome_in c h = Some (OExc e) -> e ∈ pending_in p h.
Proof.
  induction h as [|ev h IH]; intros Hok H2 Hs Hp Ho; [done|]. destruct Hok as [Hev Hok]. destruct H2 as [He2 H2].
  specialize (IH Hok H2).
  destruct ev; cbn in Hs, Hp, Ho |- *; try (by apply IH).
  - case_decide; [done|]. by apply IH.
  - destruct (decide (p0 = p)); [done|]. destruct (decide (c0 = p)); [done|]. destruct (decide (c0 = c)); [simplify_eq|]. by apply IH.
  - destruct (decide (p0 = p)) as [->|E1].
    + injection Hs as ->. exfalso. destruct Hev as (_ & Hb & _). by apply (outcome_body af c h (OExc e) Hok Ho).
    + destruct (decide (c0 = p)); [done|]. destruct (decide (c0 = c)); [simplify_eq|]. by apply IH.
  - case_decide; [done|]. by apply IH.
  - destruct (decide (f = c)) as [->|E1].
    + injection Ho as ->. rewrite decide_True by done. set_solver.
    + pose proof (IH Hs Hp Ho). destruct o; [done|]. case_decide; set_solver.
  - case_decide; [done|]. by apply IH.
  - case_decide; [|by apply IH]. pose proof (IH Hs Hp Ho). set_solver.
  - case_decide; [|by apply IH]. subst. destruct He2 as (w & He2). congruence.
  - case_decide; [|by apply IH]. subst. destruct He2 as ((w & He2) & _). congruence.
  - case_decide; [done|]. by apply IH.
  - case_decide; [done|]. by apply IH.
Qed.

(** The documented behaviour is implemented only for calls whose return object stores exceptions:
    when such a call with eager_throw ends and nothing forked by the task since its last join was
    stolen, then the call throws one of the exceptions that the task's other children left in it,
    and none is left; if there is no such exception it gives the child's result.  If something was
    stolen, the call may throw the exception "before join" if an exception is pending, and all
    pending exceptions are kept.  (Missing: the same for calls whose return object does not store
    exceptions, the only ones whose child leaves its own exception in the task; see
    [C13_own_exception_refuted].) *)
Theorem C13_eager_call_partial nw af s h p frp m k l s' tr i :
  reach nw af s h -> allowed nw af l -> step l s = Next s' tr ->
  s_frames s !! p = Some frp -> f_rp frp = RCall m true k -> m <> MNone -> EvResume i p ∈ tr ->
  exists c oc frp', status_in p h = Some (AtCall c) /\ outcome_in c h = Some oc /\ s_frames s' !! p = Some frp' /\
    if decide (f_steals frp = 0) then
      (pending_in p h = ∅ /\ f_rp frp' = RRun (k (CDone (cell_of true oc)))) \/
      (exists e, e ∈ pending_in p h /\ f_rp frp' = RRun (k (CExn e)) /\ pending_in p (rev tr ++ h) = ∅)
    else
      pending_in p (rev tr ++ h) = pending_in p h /\
      (f_rp frp' = RRun (k (CDone (cell_of true oc))) \/ pending_in p h <> ∅ /\ f_rp frp' = RRun (k (CExn EBeforeJoin))).
Proof.
  intros HR HA Hst Hp Hr Hm Hin.
  destruct (call_resumed _ _ _ _ _ _ _ _ _ _ _ _ _ HR HA Hst Hp Hr Hin) as (c & oc & seen & j & w & s1 & H1 & H2 & _ & Hl & E).
  destruct (reach_hist _ _ _ _ HR) as (H & _). pose proof (g_frames _ _ _ H p frp Hp) as F.
  pose proof (k_flag _ _ _ _ F) as Hfl. pose proof (k_eptr _ _ _ _ F) as Hep.
  exists c, oc. unfold call_resume in E. cbn zeta in E. rewrite Hl in E.
  assert (Hno : f_eflag frp = false -> pending_in p h = ∅).
  { intros Ef. destruct (decide (pending_in p h = ∅)) as [|Hn]; [done|]. apply Hfl in Hn. congruence. }
  unfold unsafe_rethrow in E.
  destruct m; [done|..]; destruct (decide (f_steals frp = 0)) as [Hz|Hz].
  - destruct (f_eflag frp) eqn:Ef; [destruct (f_eptr frp) as [e|] eqn:Ee; [|done]|]; injection E as <- <-; cbn; rewrite lookup_insert.
    + eexists. split; [done|]. split; [done|]. split; [reflexivity|]. right. exists e. split; [by apply Hep|]. split; [done|]. by rewrite decide_True.
    + eexists. split; [done|]. split; [done|]. split; [reflexivity|]. left. split; [by apply Hno|done].
  - destruct (f_eflag frp && seen) eqn:Ef; injection E as <- <-; cbn; rewrite lookup_insert.
    + eexists. split; [done|]. split; [done|]. split; [reflexivity|]. split; [done|]. right. apply andb_true_iff in Ef as (Ef & _). split; [by apply Hfl|done].
    + eexists. split; [done|]. split; [done|]. split; [reflexivity|]. split; [done|]. by left.
  - destruct (f_eflag frp) eqn:Ef; [destruct (f_eptr frp) as [e|] eqn:Ee; [|done]|]; injection E as <- <-; cbn; rewrite lookup_insert.
    + eexists. split; [done|]. split; [done|]. split; [reflexivity|]. right. exists e. split; [by apply Hep|]. split; [done|]. by rewrite decide_True.
    + eexists. split; [done|]. split; [done|]. split; [reflexivity|]. left. split; [by apply Hno|done].
  - done.
Qed.

(** A call whose return object does not store exceptions never throws, whatever its modifier: also
    if its child has thrown [e].  The exception is kept in the task, for the next join. *)
Theorem C13_own_exception_refuted nw af s h p frp m k l s' tr i :
  reach nw af s h -> allowed nw af l -> step l s = Next s' tr ->
  s_frames s !! p = Some frp -> f_rp frp = RCall m false k -> EvResume i p ∈ tr ->
  exists c oc frp', status_in p h = Some (AtCall c) /\ outcome_in c h = Some oc /\ s_frames s' !! p = Some frp' /\
    f_rp frp' = RRun (k (CDone (cell_of false oc))) /\ forall e, oc = OExc e -> e ∈ pending_in p (rev tr ++ h).
Proof.
  intros HR HA Hst Hp Hr Hin.
  destruct (call_resumed _ _ _ _ _ _ _ _ _ _ _ _ _ HR HA Hst Hp Hr Hin) as (c & oc & seen & j & w & s1 & H1 & H2 & H3 & Hl & E).
  destruct (reach_hist _ _ _ _ HR) as (H & _).
  assert (Hl' : forall e, oc = OExc e -> e ∈ pending_in p h).
  { intros e ->. exact (left_in_task af p c e h (g_evs _ _ _ H) (t_evs _ _ (reach_stat _ _ _ _ HR)) H1 H3 H2). }
  exists c, oc. unfold call_resume in E. cbn zeta in E. rewrite Hl in E.
  destruct m; injection E as <- <-; cbn; rewrite lookup_insert; eexists; split_and!; try done.
Qed.

(** The same for a fork with sync that completed synchronously ([pre]: the number of steals of the
    task before the fork; it has not changed). *)
Theorem C13_sync_fork_partial nw af s h p frp m k pre i w seen s' tr :
  reach nw af s h -> s_workers s !! i = Some w -> w_pc w = PRun p ->
  s_frames s !! p = Some frp -> f_rp frp = RFork m true k pre -> m <> FNone -> f_steals frp = pre ->
  step (if seen : bool then LWork i false else LStale i) s = Next s' tr ->
  exists frp', s_frames s' !! p = Some frp' /\
    if decide (f_steals frp = 0) then
      (pending_in p h = ∅ /\ f_rp frp' = RRun (k (FDone (fres_last (f_cells frp))))) \/
      (exists e, e ∈ pending_in p h /\ f_rp frp' = RRun (k (FExn e)) /\ pending_in p (rev tr ++ h) = ∅)
    else
      pending_in p (rev tr ++ h) = pending_in p h /\
      (f_rp frp' = RRun (k (FDone (fres_last (f_cells frp)))) \/ pending_in p h <> ∅ /\ f_rp frp' = RRun (k (FExn EBeforeJoin))).
Proof.
  intros HR Hi Hpc Hp Hr Hm Hpre Hst.
  assert (E : fork_resume seen i w p frp m true k pre s = Next s' tr).
  { destruct seen; cbn [step] in Hst; [unfold wstep in Hst|unfold stale in Hst]; by rewrite Hi, Hpc, Hp, Hr in Hst. }
  clear Hst. destruct (reach_hist _ _ _ _ HR) as (H & _). pose proof (g_frames _ _ _ H p frp Hp) as F.
  pose proof (k_flag _ _ _ _ F) as Hfl. pose proof (k_eptr _ _ _ _ F) as Hep.
  assert (Hno : f_eflag frp = false -> pending_in p h = ∅).
  { intros Ef. destruct (decide (pending_in p h = ∅)) as [|Hn]; [done|]. apply Hfl in Hn. congruence. }
  unfold fork_resume in E. cbn zeta in E. unfold unsafe_rethrow in E. 
  destruct m; [done|..]; rewrite decide_True in E by done; destruct (decide (f_steals frp = 0)) as [Hz|Hz].
  - destruct (f_eflag frp) eqn:Ef; [destruct (f_eptr frp) as [e|] eqn:Ee; [|done]|]; injection E as <- <-; cbn; rewrite lookup_insert.
    + eexists. split; [reflexivity|]. right. exists e. split; [by apply Hep|]. split; [done|]. by rewrite decide_True.
    + eexists. split; [reflexivity|]. left. split; [by apply Hno|done].
  - destruct (f_eflag frp && seen) eqn:Ef; injection E as <- <-; cbn; rewrite lookup_insert.
    + eexists. split; [reflexivity|]. split; [done|]. right. apply andb_true_iff in Ef as (Ef & _). split; [by apply Hfl|done].
    + eexists. split; [reflexivity|]. split; [done|]. by left.
  - destruct (f_eflag frp) eqn:Ef; [destruct (f_eptr frp) as [e|] eqn:Ee; [|done]|]; injection E as <- <-; cbn; rewrite lookup_insert.
    + eexists. split; [reflexivity|]. right. exists e. split; [by apply Hep|]. split; [done|]. by rewrite decide_True.
    + eexists. split; [reflexivity|]. left. split; [by apply Hno|done].
  - done.
Qed.

(** An exception thrown eagerly is one that a child, or the task itself, left in the task. *)
Theorem C13_thrown_is_a_childs nw af s h1 f e h0 :
  reach nw af s (h1 ++ EvEager f e :: h0) ->
  (exists c, parent_in c h0 = Some (f, false) /\ outcome_in c h0 = Some (OExc e)) \/ EvStash f e ∈ h0.
Proof.
  intros HR. pose proof HR as (He & _ & Hok)%reach_ev. destruct He as (_ & _ & He). eapply pending_from; eauto.
Qed.

(** ** The hypotheses are met *)

(** A forked child throws; the task then makes a call with eager_throw, or a fork with sync, whose
    return object stores exceptions: it throws the forked child's exception. *)
Definition prog_ecall : task :=
  Fork FNone false (Throw (EUser 7)) (fun _ => Call MEager true (Ret 1%Z) (fun r =>
    match r with CExn _ => Join (fun _ _ => Ret 1%Z) | CDone _ => Join (fun _ _ => Ret 2%Z) end)).
Definition prog_esync : task :=
  Fork FNone false (Throw (EUser 7)) (fun _ => Fork FSync true (Ret 1%Z) (fun r =>
    match r with FExn _ => Join (fun _ _ => Ret 1%Z) | _ => Join (fun _ _ => Ret 2%Z) end)).
Lemma prog_ecall_scoped nw : well_scoped nw prog_ecall.
Proof. unfold well_scoped, prog_ecall. repeat scp; try done. all: try (destruct r; scp). Qed.
Lemma prog_esync_scoped nw : well_scoped nw prog_esync.
Proof. unfold well_scoped, prog_esync. repeat scp; try done. all: try (destruct r; scp). Qed.

Example C13_eager_call_instance : exists s h s' tr frp k,
  reach 2 false s h /\ allowed 2 false (LWork 0 false) /\ step (LWork 0 false) s = Next s' tr /\ s_frames s !! 0 = Some frp /\
  f_rp frp = RCall MEager true k /\ EvResume 0 0 ∈ tr /\ f_steals frp = 0 /\ EUser 7 ∈ pending_in 0 h /\
  f_rp <$> s_frames s' !! 0 = Some (RRun (k (CExn (EUser 7)))).
Proof.
  exists (demo_s 10 lazy2 prog_ecall), (demo_h 10 lazy2 prog_ecall). eexists _, _, _, _.
  split; [apply demo_hs; [apply lazy2_allowed|apply prog_ecall_scoped]|].
  split; [done|]. split; [vm_compute; reflexivity|]. split; [vm_compute; reflexivity|].
  split; [vm_compute; reflexivity|]. split; [right; left|]. split; [vm_compute; reflexivity|].
  split; [|vm_compute; reflexivity].
  apply (bool_decide_eq_true_1 (EUser 7 ∈ pending_in 0 (demo_h 10 lazy2 prog_ecall))). vm_compute. reflexivity.
Qed.

Example C13_own_exception_instance : exists s h s' tr frp k,
  reach 2 false s h /\ allowed 2 false (LWork 0 false) /\ step (LWork 0 false) s = Next s' tr /\ s_frames s !! 0 = Some frp /\
  f_rp frp = RCall MEager false k /\ EvResume 0 0 ∈ tr /\ outcome_in 1 h = Some (OExc (EUser 7)) /\
  f_rp <$> s_frames s' !! 0 = Some (RRun (k (CDone CUnset))).
Proof.
  exists (demo_s 5 lazy2 (prog_eager MEager)), (demo_h 5 lazy2 (prog_eager MEager)). eexists _, _, _, _.
  split; [apply demo_hs; [apply lazy2_allowed|apply prog_eager_scoped]|].
  split; [done|]. split; [vm_compute; reflexivity|]. split; [vm_compute; reflexivity|].
  split; [vm_compute; reflexivity|]. split; [right; left|]. split; [vm_compute; reflexivity|vm_compute; reflexivity].
Qed.

Example C13_sync_fork_instance : exists s h s' tr w frp k,
  reach 2 false s h /\ s_workers s !! 0%nat = Some w /\ w_pc w = PRun 0 /\ s_frames s !! 0 = Some frp /\
  f_rp frp = RFork FSync true k 0 /\ f_steals frp = 0 /\ step (LWork 0 false) s = Next s' tr /\ EUser 7 ∈ pending_in 0 h /\
  f_rp <$> s_frames s' !! 0 = Some (RRun (k (FExn (EUser 7)))).
Proof.
  exists (demo_s 12 lazy2 prog_esync), (demo_h 12 lazy2 prog_esync). eexists _, _, _, _, _.
  split; [apply demo_hs; [apply lazy2_allowed|apply prog_esync_scoped]|].
  split; [vm_compute; reflexivity|]. split; [vm_compute; reflexivity|]. split; [vm_compute; reflexivity|].
  split; [vm_compute; reflexivity|]. split; [vm_compute; reflexivity|]. split; [vm_compute; reflexivity|].
  split; [|vm_compute; reflexivity].
  apply (bool_decide_eq_true_1 (EUser 7 ∈ pending_in 0 (demo_h 12 lazy2 prog_esync))). vm_compute. reflexivity.
Qed.

Example C13_thrown_instance :
  let h := demo_h 100 lazy2 prog_ecall in
  exists k, reach 2 false (demo_s 100 lazy2 prog_ecall) (firstn k h ++ EvEager 0 (EUser 7) :: skipn (S k) h).
Proof.
  exists 4%nat. refine (demo_at 100 lazy2 prog_ecall 4 _ lazy2_allowed (prog_ecall_scoped 2) _). vm_compute. reflexivity.
Qed.

Print Assumptions C13_eager_call_partial.
Print Assumptions C13_own_exception_refuted.
Print Assumptions C13_sync_fork_partial.
Print Assumptions C13_thrown_is_a_childs.
