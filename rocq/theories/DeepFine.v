(** Exactly which step of the runtime on atomic deques a step of the runtime on the real deques is. *)

From stdpp Require Import prelude gmap list.
From Coq Require Import NArith ZArith Lia.
From Verif Require Import RuntimeModel RuntimeSpec RuntimeInv RuntimeSafe RuntimeHist3 FineModel FineSpec FineLiveSpec FineProofs FineProofs2 FineLive.
From Verif Require DequeModel DequeSpec DequeProofs DequeLin FineDeque WholeModel DeepModel.

(** How far worker [i] is from the end of what it does with the deques. *)
Definition pos (i : nat) (x : fine) : nat :=
  match from x i with
  | Some v => 20 + trank (thf (dq x v) i)
  | None =>
    match DequeModel.d_own (dq x i) with
    | DequeModel.OIdle => 8
    | o => orank o
    end
  end.

(** The runtime's step in a step of worker [i] that is not stealing. *)
Definition adv (i : nat) (fail : bool) (x : fine) : option bool :=
  match DequeModel.d_own (dq x i) with
  | DequeModel.OIdle =>
    match next_op i (rt x) with
    | NoOp => Some fail
    | DoPush f => if fail then Some true else adv_op (Some f) false (dq x i)
    | DoPop => adv_op None false (dq x i)
    end
  | _ => adv_op None fail (dq x i)
  end.

Lemma own_exact nw k af x h s Q H i fail x' tr :
  sim nw k af x h s Q H -> from x i = None -> (fail = true -> af = true) -> own_step i fail x = FNext x' tr ->
  exists s' Q1 H1, sim nw k af x' (rev tr ++ h) s' Q1 H1 /\ from x' = from x /\
    match adv i fail x with
    | Some fl => (fl = true -> af = true) /\ step (LWork i fl) s = Next s' tr /\ (DequeModel.d_own (dq x i) <> OIdle -> next_op i (rt x) <> NoOp)
    | None => s' = s /\ tr = [] /\ pos i x' < pos i x /\ (DequeModel.d_own (dq x i) = OIdle -> next_op i (rt x) <> NoOp)
    end.
Proof.
  intros M Hf Hal Hs. pose proof M as [HR Es HH HO HT HF].
  assert (Hpl : DequeModel.d_own (dq x i) = OIdle -> next_op i (rt x) = NoOp \/ (fail = true /\ exists f, next_op i (rt x) = DoPush f) ->
    adv i fail x = Some fail ->
    after (wstep i fail (show i (seen (dq x i)) (rt x))) (dq x) (from x) = FNext x' tr ->
    exists s' Q1 H1, sim nw k af x' (rev tr ++ h) s' Q1 H1 /\ from x' = from x /\
      match adv i fail x with
      | Some fl => (fl = true -> af = true) /\ step (LWork i fl) s = Next s' tr /\ (DequeModel.d_own (dq x i) <> OIdle -> next_op i (rt x) <> NoOp)
      | None => s' = s /\ tr = [] /\ pos i x' < pos i x /\ (DequeModel.d_own (dq x i) = OIdle -> next_op i (rt x) <> NoOp)
      end).
  { intros Ho Hop Ea E. destruct (sim_plain _ _ _ _ _ _ _ _ _ _ M Hf Hal Ho Hop) as (_ & Hm).
    destruct (Hm _ _ E) as (s2 & Q2 & H2 & M2 & Hst). exists s2, Q2, H2. split; [done|].
    split; [by apply after_from in E as (_ & ->)|]. rewrite Ea. done. }
  assert (Hop : forall op fl, (fl = true -> fail = true) ->
    (DequeModel.d_own (dq x i) = OIdle -> match op with Some f => next_op i (rt x) = DoPush f | None => next_op i (rt x) = DoPop end) ->
    adv i fail x = adv_op op fl (dq x i) -> op_step i op fl x = FNext x' tr ->
    exists s' Q1 H1, sim nw k af x' (rev tr ++ h) s' Q1 H1 /\ from x' = from x /\
      match adv i fail x with
      | Some fl => (fl = true -> af = true) /\ step (LWork i fl) s = Next s' tr /\ (DequeModel.d_own (dq x i) <> OIdle -> next_op i (rt x) <> NoOp)
      | None => s' = s /\ tr = [] /\ pos i x' < pos i x /\ (DequeModel.d_own (dq x i) = OIdle -> next_op i (rt x) <> NoOp)
      end).
  { intros op fl Hfl Hnx Ea E. destruct (HO i) as (p & c & Hp & _ & _ & _ & Hd).
    destruct (sim_op nw k af x h s Q H i op fl p M Hf ltac:(auto) Hp Hnx) as (_ & Hm).
    destruct (Hm _ _ E) as (s2 & Q2 & H2 & p2 & M2 & Hp2 & Hc). clear Hm. exists s2, Q2, H2. split; [done|].
    destruct (op_step_parts _ _ _ _ _ _ E) as (q & ev & Eq & Ed & Ef). split; [done|]. rewrite Ea.
    destruct Hc as [(-> & -> & Hpend & ->)|(Hpend & _ & fl' & Hfl' & Hst & ->)].
    - split_and!; [done|done| |].
      + pose proof (owner_rank _ _ _ _ _ Eq) as Hr. unfold pos. rewrite Ef, Hf, Ed, set_at_eq.
        assert (Hq : p = Idle \/ pending p -> match DequeModel.d_own q with DequeModel.OIdle | DequeModel.OPushRet _ => False | _ => True end).
        { intros X. specialize (Hpend X). pose proof (m_hist _ _ _ _ _ _ _ _ M2 i) as Hri.
          rewrite Ed, set_at_eq in Hri. by eapply own_pending. }
        assert (Hp' : match DequeModel.d_own (dq x i) with DequeModel.OIdle => p = Idle | DequeModel.OPushRet _ => True | _ => pending p end).
        { pose proof (HH i) as Hri. destruct (DequeProofs.reach_inv _ _ _ Hri) as [(r0 & _ & _ & _ & _ & Hown & Htr & _) _ _ _].
          unfold DequeProofs.own_tr, DequeProofs.own_phase, DequeProofs.own_ok in *.
          destruct (DequeModel.d_own (dq x i)) as [|v b|v b t|v b t rn|v b t|v b|x0|b|b|b t|b [|]|b|] eqn:Eo;
            try done; try (destruct Htr as (v0 & Htr)); try (pose proof (DequeLin.in_phase_fun _ _ _ Htr _ Hp) as E'; by subst p).
          - destruct Hown as (-> & _ & Hv). destruct Hv as (_ & v & Hv); [done|]. rewrite Hv in Htr.
            pose proof (DequeLin.in_phase_fun _ _ _ Htr _ Hp) as E'. by subst p.
          - destruct Hown as (_ & v & Hv). rewrite Hv in Htr.
            pose proof (DequeLin.in_phase_fun _ _ _ Htr _ Hp) as E'. by subst p. }
        destruct (DequeModel.d_own (dq x i)) eqn:Eo;
          try (specialize (Hq (or_intror Hp')); destruct (DequeModel.d_own q); done).
        * specialize (Hq (or_introl Hp')). destruct Hr as (Hr1 & Hr2). destruct (DequeModel.d_own q); cbn in *; try done; lia.
        * rewrite Hr. cbn. lia.
      + intros Ho. specialize (Hnx Ho). destruct op; by rewrite Hnx.
    - split_and!; [intros X; auto|done|]. intros _ X. rewrite X in Hd. by destruct p as [|[]|[]]. }
  unfold own_step in Hs. unfold adv in *. destruct (DequeModel.d_own (dq x i)) eqn:Ho; try (by eapply Hop).
  destruct (next_op i (rt x)) as [|f|] eqn:Hnx.
  - apply Hpl; auto.
  - destruct fail; [apply Hpl; eauto|]. by eapply (Hop (Some f) false).
  - by eapply (Hop None false).
Qed.

(** ** Steals *)

Lemma resting_wd Q r i : WholeModel.resting (with_deques Q r) i = WholeModel.resting r i.
Proof. unfold WholeModel.resting. rewrite wd_lookup. by destruct (s_workers r !! i). Qed.
Lemma sim_resting nw k af x h s Q H i : sim nw k af x h s Q H -> WholeModel.resting (rt x) i = WholeModel.resting s i.
Proof. intros [_ -> _ _ _ _]. by rewrite resting_wd. Qed.
Lemma steal_resting i v s s' tr : step (LSteal i v) s = Next s' tr ->
  tr = [] /\ WholeModel.resting s i = true /\ WholeModel.resting s' i = false.
Proof.
  cbn [step]. unfold steal. intros E. unfold WholeModel.resting.
  destruct (s_workers s !! i) as [w|] eqn:Hi; [|done]. destruct (s_workers s !! v) as [wv|] eqn:Hv; [|done].
  case_decide; [done|]. destruct (w_pc w); try done. destruct (w_batch w); try done. destruct (last (w_deque wv)); try done.
  injection E as <- <-. split_and!; try done.
  cbn. rewrite list_lookup_insert; [done|]. rewrite insert_length. by eapply lookup_lt_Some.
Qed.

(** What a step of a steal is. *)
Definition stolen (nw k : nat) (af : bool) (x x' : fine) (h : history) (s : state) (tr : list event) (i v : nat) : Prop :=
  tr = [] /\ exists s' Q1 H1, sim nw k af x' h s' Q1 H1 /\
    if DeepModel.grabbed x x' i then step (LSteal i v) s = Next s' [] else s' = s.

Lemma moved_stolen nw k af x x' h s tr i v Q H :
  sim nw k af x h s Q H -> moved nw k af x' h s tr (fun l => l = LSteal i v) -> stolen nw k af x x' h s tr i v.
Proof.
  intros M (s' & Q1 & H1 & M' & Hc). unfold stolen, DeepModel.grabbed.
  rewrite (sim_resting _ _ _ _ _ _ _ _ i M), (sim_resting _ _ _ _ _ _ _ _ i M').
  destruct Hc as [(-> & ->)|(l & -> & _ & Hst)].
  - split; [done|]. exists s, Q1, H1. split; [done|]. by destruct (WholeModel.resting s i).
  - destruct (steal_resting _ _ _ _ _ Hst) as (-> & -> & ->). split; [done|]. by exists s', Q1, H1.
Qed.

Lemma work_steal nw k af x h s Q H i v fail :
  sim nw k af x h s Q H -> from x i = Some v ->
  fstep (FWork i fail) x <> FUndef /\ fstep (FWork i fail) x <> FBlocked /\
  forall x' tr, fstep (FWork i fail) x = FNext x' tr ->
    stolen nw k af x x' h s tr i v /\ pos i x' < pos i x /\ (from x' i = Some v \/ from x' i = None).
Proof.
  intros M Hf. pose proof M as [HR Es HH HO HT HF]. cbn [fstep]. rewrite Hf.
  destruct (HF i v Hf) as (X1 & X2 & X3 & X4 & w & X5 & X6 & X7).
  edestruct (sim_steal nw k af x h s Q H i v) as (Z1 & Z2); try done.
  { intros j u Hj _. by apply HF. }
  { exists w. split_and!; try done. intros [|]; [done|auto]. }
  split; [done|]. split; [unfold steal_step; repeat case_match; done|]. intros x' tr Ex.
  split; [by eapply moved_stolen, Z2|].
  destruct (steal_step_parts _ _ _ _ _ Ex) as (q & ev & Eq & Ed & Ef). destruct (thief_rank _ _ _ _ Eq) as (Hr & _ & Ho).
  specialize (Hr X4). unfold pos. rewrite Hf. destruct Ef as [-> | ->].
  - rewrite Hf, Ed, set_at_eq. split; [lia|by left].
  - rewrite set_at_eq, Ed. split; [|by right]. destruct (decide (i = v)) as [->|Hn]; [done|]. rewrite set_at_ne by done. rewrite X3. lia.
Qed.

Lemma looking_iff i x : looking i x = true <->
  from x i = None /\ DequeModel.d_own (dq x i) = OIdle /\ exists w, s_workers (rt x) !! i = Some w /\ w_pc w = PIdle /\ w_batch w = [].
Proof.
  unfold looking. split.
  - repeat case_match; try done. eauto 10.
  - intros (-> & -> & w & -> & -> & ->). done.
Qed.

Lemma begin_steal nw k af x h s Q H i v :
  sim nw k af x h s Q H ->
  fstep (FSteal i v) x <> FUndef /\
  forall x' tr, fstep (FSteal i v) x = FNext x' tr ->
    stolen nw k af x x' h s tr i v /\ DeepModel.grabbed x x' i = false /\ pos i x' <= 26 /\ pos i x = 8 /\
    from x' i = Some v /\ looking i x = true.
Proof.
  intros M. pose proof M as [HR Es HH HO HT HF].
  destruct (sim_fstep _ _ _ _ _ _ _ _ (FSteal i v) M I) as (Z1 & Z2). split; [done|]. intros x' tr Ex.
  pose proof (moved_stolen _ _ _ _ _ _ _ _ _ _ _ _ M (Z2 _ _ Ex)) as Hst. cbn [fstep] in Ex.
  case_decide as Hne; [done|]. destruct (s_workers (rt x) !! v) as [wv|] eqn:Hv; [|done].
  destruct (looking i x) eqn:El; [|done]. destruct (proj1 (looking_iff i x) El) as (Hf & Ho & w & Hw & Hpc & Hb).
  split; [done|].
  assert (Hti : DequeModel.d_thf (dq x v) i = TIdle).
  { destruct (DequeModel.d_thf (dq x v) i) eqn:E; try done; exfalso; (assert (X : from x i = Some v) by (apply HT; by rewrite E)); congruence. }
  unfold steal_step, DequeModel.thief in Ex. cbn [dq rt from] in Ex. rewrite Hti in Ex. injection Ex as <- <-.
  unfold DeepModel.grabbed, pos. cbn [rt dq from]. rewrite !set_at_eq, Hf, Ho. cbn. rewrite decide_True by done. cbn.
  split_and!; try done; try lia. by destruct (WholeModel.resting (rt x) i).
Qed.

(** ** Submission lists *)

Lemma take_exact nw k af x h s Q H i : sim nw k af x h s Q H ->
  fstep (FTake i) x <> FUndef /\
  forall x' tr, fstep (FTake i) x = FNext x' tr ->
    exists s', sim nw k af x' (rev tr ++ h) s' Q H /\ step (LTake i) s = Next s' tr /\ dq x' = dq x /\ from x' = from x.
Proof.
  intros M. pose proof M as [HR Es HH HO HT HF]. cbn [fstep].
  destruct (looking i x) eqn:El; [|done]. destruct (proj1 (looking_iff i x) El) as (Hf & Ho & w & Hw & Hpc & Hb).
  edestruct (sim_after nw k af x h s Q H i (LTake i) (take i (rt x)) (dq x) H Q M Hf I) as (Z1 & Z2).
  + cbn [step]. rewrite Es. apply take_c.
  + apply calm_take.
  + done.
  + apply HH.
  + done.
  + intros r' tr _. destruct (HO i) as (p & c & Hp & Hc & EQ & Hem & Hd). exists p, c.
    pose proof (proj1 (FineDeque.own_idle _ _ _ _ (HH i) Hp) Ho) as ->. split_and!; done.
  + split; [done|]. intros x' tr Ex. destruct (Z2 x' tr Ex) as (s' & Hs' & Hst). exists s'. split; [done|]. split; [done|].
    by apply after_from in Ex as (-> & ->).
Qed.
Lemma take_enabled nw k af x h s Q H i : sim nw k af x h s Q H -> looking i x = true ->
  step (LTake i) s <> Blocked -> fstep (FTake i) x <> FBlocked.
Proof.
  intros M El Hn. cbn [fstep]. rewrite El. cbn [step] in Hn. rewrite (m_state _ _ _ _ _ _ _ _ M), take_c in Hn.
  by destruct (take i (rt x)).
Qed.

Lemma spawn_exact nw k af x h s Q H d t : sim nw k af x h s Q H -> well_scoped nw t ->
  fstep (FSpawn d t) x <> FUndef /\
  forall x' tr, fstep (FSpawn d t) x = FNext x' tr ->
    exists s' Q1 H1, sim nw k af x' (rev tr ++ h) s' Q1 H1 /\ step (LSpawn d t) s = Next s' tr /\ dq x' = dq x /\ from x' = from x.
Proof.
  intros M Hw. destruct (sim_fstep _ _ _ _ _ _ _ _ (FSpawn d t) M Hw) as (Z1 & Z2). split; [done|]. intros x' tr Ex.
  destruct (Z2 _ _ Ex) as (s' & Q1 & H1 & M' & Hc). exists s', Q1, H1. split; [done|].
  destruct Hc as [(-> & ->)|(l & -> & _ & Hst)].
  - exfalso. cbn [fstep] in Ex. unfold spawn in Ex. destruct (s_workers (rt x) !! d); [|done]. by destruct (s_nextf (rt x)).
  - split; [done|]. cbn [fstep] in Ex. by apply after_from in Ex as (-> & ->).
Qed.

Lemma stale_exact nw k af x h s Q H i : sim nw k af x h s Q H ->
  fstep (FStale i) x <> FUndef /\
  forall x' tr, fstep (FStale i) x = FNext x' tr ->
    exists s', sim nw k af x' (rev tr ++ h) s' Q H /\ step (LStale i) s = Next s' tr /\ dq x' = dq x /\ from x' = from x.
Proof.
  intros M. destruct (sim_stale _ _ _ _ _ _ _ _ i M) as (Z1 & Z2). split; [done|]. intros x' tr Ex.
  destruct (Z2 x' tr Ex) as (s' & Hs' & Hst). exists s'. split; [done|]. split; [done|].
  cbn [fstep] in Ex. repeat case_match; try done. by apply after_from in Ex as (-> & ->).
Qed.

(** A step of somebody else. *)
Lemma other_pos i l x x' tr : ~ by_worker i l -> fstep l x = FNext x' tr ->
  from x' i = from x i /\ DequeModel.d_own (dq x' i) = DequeModel.d_own (dq x i) /\ forall v, thf (dq x' v) i = thf (dq x v) i.
Proof.
  intros Hby Hs.
  assert (Hown : forall j op fl, j <> i -> op_step j op fl x = FNext x' tr -> 
    from x' i = from x i /\ DequeModel.d_own (dq x' i) = DequeModel.d_own (dq x i) /\ forall v, thf (dq x' v) i = thf (dq x v) i).
  { intros j op fl Hj E. destruct (op_step_parts _ _ _ _ _ _ E) as (q & ev & Eq & Ed & Ef).
    split_and!; [by rewrite Ef|by rewrite Ed, set_at_ne|]. intros v. rewrite Ed. destruct (decide (v = j)) as [->|Hn].
    - rewrite set_at_eq. by destruct (FineDeque.owner_events _ _ _ _ _ Eq) as (-> & _).
    - by rewrite set_at_ne. }
  assert (Haft : forall y, after y (dq x) (from x) = FNext x' tr -> 
    from x' i = from x i /\ DequeModel.d_own (dq x' i) = DequeModel.d_own (dq x i) /\ forall v, thf (dq x' v) i = thf (dq x v) i).
  { intros y (E1 & E2)%after_from. by rewrite E1, E2. }
  assert (Hsteal : forall j v a, j <> i -> (a i = from x i) -> steal_step j v (Fine (rt x) (dq x) a) = FNext x' tr -> 
    from x' i = from x i /\ DequeModel.d_own (dq x' i) = DequeModel.d_own (dq x i) /\ forall v, thf (dq x' v) i = thf (dq x v) i).
  { intros j v a Hj Hai E. destruct (steal_step_parts _ _ _ _ _ E) as (q & ev & Eq & Ed & Ef). cbn [dq from rt] in *.
    destruct (thief_rank _ _ _ _ Eq) as (_ & Ht & Ho). split_and!.
    - destruct Ef as [-> | ->]; [done|]. by rewrite set_at_ne by done.
    - rewrite Ed. destruct (decide (i = v)) as [->|Hn]; [by rewrite set_at_eq, Ho|by rewrite set_at_ne].
    - intros u. rewrite Ed. destruct (decide (u = v)) as [->|Hn]; [rewrite set_at_eq; by apply Ht|by rewrite set_at_ne]. }
  destruct l as [j fl|j|j v|d t|j]; cbn [fstep by_worker] in *.
  - destruct (from x j) as [v|] eqn:Hf.
    + apply (Hsteal j v (from x)); [done|done|]. by destruct x.
    + unfold own_step in Hs. repeat case_match; try (by eapply Haft); by eapply Hown.
  - destruct (looking j x); [|done]. by eapply Haft.
  - case_decide; [done|]. destruct (s_workers (rt x) !! v); [|done]. destruct (looking j x); [|done].
    eapply (Hsteal j v (set_at j (Some v) (from x))); [done| |done]. by rewrite set_at_ne.
  - by eapply Haft.
  - repeat case_match; try done. by eapply Haft.
Qed.
Lemma other_pos_eq i l x x' tr : ~ by_worker i l -> fstep l x = FNext x' tr -> pos i x' = pos i x.
Proof.
  intros Hby Hs. destruct (other_pos _ _ _ _ _ Hby Hs) as (E1 & E2 & E3). unfold pos. rewrite E1, E2. destruct (from x i); [|done].
  by rewrite E3.
Qed.
