(** busy_pool and unit_pool on the real deques are simulated by those on atomic deques. *)

From stdpp Require Import prelude gmap list.
From Coq Require Import NArith Lia.
From Verif Require Import PoolCommon BusyModel BusyProofs BusyLive BDeepModel BDeepSpec.
From Verif Require RuntimeModel RuntimeSpec DequeModel FineModel FineSpec FineLiveSpec FineProofs FineProofs2 FineLive DeepModel DeepFine DeepProofs.
From Verif Require WholeModel BWholeModel BWholeSpec BWholeInv BWholeProofs.

Notation whole := BWholeModel.whole.
Notation wpool := BWholeModel.pool.
Notation wrt := BWholeModel.rt.
Notation whist := BWholeModel.hist.
Notation XWorker := BWholeModel.XWorker.
Notation from := FineModel.from.
Notation down x w := (DequeModel.d_own (FineModel.dq x w)).
Notation OIdle := DequeModel.OIdle.
Notation thf x v w := (DequeModel.d_thf (FineModel.dq x v) w).
Notation busy := BWholeInv.busy.

Section Sim.
Context (n : nat) (unit : bool) (K k : nat) (af : bool).
Notation deep_step := (deep_step n unit K).
Notation both := (both n unit).
Notation legal := (legal n af).
Notation whole_step := (BWholeModel.whole_step n unit).
Notation winv := (BWholeInv.winv n unit af).
Notation sim := (FineProofs2.sim n k af).
Notation pool_part := (BWholeModel.pool_part n unit).

(** What worker [w] does in the pool, and what it does with the deques. *)
Definition dw (w : nat) (p : st) (f : FineModel.fine) : Prop :=
  (forall v, from f w = Some v -> pc p w = BSteal \/ pc p w = BRun [] /\ exists r, thf f v w = DequeModel.TRet r) /\
  (~ busy (pc p w) -> down f w = OIdle).

Record dsim (x : deep) (y : whole) : Prop := DSim {
  ds_pool : pool x = wpool y;
  ds_hist : hist x = whist y;
  ds_sim : exists Q H, sim (fn x) (hist x) (wrt y) Q H;
  ds_winv : winv y;
  ds_dw : forall w, w < n -> dw w (pool x) (fn x)
}.

(** The step of the pool on atomic deques that the step [l] is, if any. *)
Definition wlab_of (l : dlab) (x : deep) : option BWholeModel.wlab :=
  match l with
  | YWorker w c v fail =>
    match from (fn x) w with
    | Some u =>
      match FineModel.fstep (FineModel.FWork w fail) (fn x) with
      | FineModel.FNext f _ => if DeepModel.grabbed (fn x) f w then Some (XWorker w true u false) else None
      | _ => None
      end
    | None =>
      match pc (pool x) w with
      | BSteal => if c && bool_decide (tries x w < K) then None else Some (XWorker w false v fail)
      | BRun _ | BDrainRun _ =>
        if FineModel.looking w (fn x) then Some (XWorker w c v fail)
        else match DeepFine.adv w fail (fn x) with Some fl => Some (XWorker w c v fl) | None => None end
      | _ => Some (XWorker w c v fail)
      end
    end
  | YClient d t => Some (BWholeModel.XClient d t)
  | YDtor => Some BWholeModel.XDtor
  | YJoin => Some BWholeModel.XJoin
  | YStale w => Some (BWholeModel.XStale w)
  end.

(** How far worker [w] is from its next step of the pool on atomic deques, at most. *)
Definition R (w : nat) (x : deep) : nat := (K - tries x w) * 30 + DeepFine.pos w (fn x).

(** ** Parts *)

Lemma both_next l r t x x' : both l r t x = DNext x' -> exists p trp f tr,
  pool_part l (pool x) = Next p trp /\ r = FineModel.FNext f tr /\ x' = Deep p f t (rev tr ++ hist x).
Proof.
  unfold BDeepModel.both. destruct (pool_part l (pool x)) as [p trp| |]; destruct r as [f tr| |]; try done.
  intros [= <-]. by exists p, trp, f, tr.
Qed.
Lemma pool_defined l p : pool_part l p <> Undef.
Proof. destruct l as [[w c|w j| |]|]; cbn; unfold BusyModel.worker; repeat case_match; done. Qed.
Lemma both_undef l r t x : r <> FineModel.FUndef -> both l r t x <> DUndef.
Proof. unfold BDeepModel.both. pose proof (pool_defined l (pool x)). destruct (pool_part l (pool x)), r; done. Qed.
Lemma both_block l r t x : r <> FineModel.FBlocked -> pool_part l (pool x) <> Blocked -> both l r t x <> DBlock.
Proof. unfold BDeepModel.both. destruct (pool_part l (pool x)), r; done. Qed.

(** A step of the pool together with one of the runtime on atomic deques. *)
Lemma joint x y m pl rl r t x' :
  dsim x y -> BWholeSpec.legal n af m -> BWholeModel.parts m y = (pl, rl) ->
  both pl r t x = DNext x' ->
  (forall f tr, r = FineModel.FNext f tr -> exists s' Q H, sim f (rev tr ++ hist x) s' Q H /\ BWholeModel.rt_part rl (wrt y) = RuntimeModel.Next s' tr) ->
  (forall w, w < n -> dw w (pool x') (fn x')) ->
  exists y', dsim x' y' /\ whole_step m y = BWholeModel.WNext y'.
Proof.
  intros D Hl Hp Hb Hr Hd. destruct (both_next _ _ _ _ _ Hb) as (p & trp & f & tr & H1 & -> & ->).
  destruct (Hr f tr eq_refl) as (s' & Q & H & M & H2). cbn in Hd. rewrite (ds_pool _ _ D) in H1.
  assert (E : whole_step m y = BWholeModel.WNext (BWholeModel.Whole p s' (rev tr ++ whist y))).
  { unfold BWholeModel.whole_step. rewrite Hp. cbn [fst snd]. by rewrite H1, H2. }
  exists (BWholeModel.Whole p s' (rev tr ++ whist y)). split; [|done]. split; cbn.
  - done.
  - by rewrite (ds_hist _ _ D).
  - eauto.
  - eapply BWholeInv.step_winv; [apply D|done|done].
  - done.
Qed.

Lemma part_pc u pl p p' trp : pool_part pl p = Next p' trp -> match pl with Some l => notw u l | None => True end -> pc p' u = pc p u.
Proof. destruct pl as [l|]; cbn; [apply (BWholeProofs.other_pc n unit)|by intros [= <- _]]. Qed.

Lemma dw_other u p p' f f' pl trp :
  pool_part pl p = Next p' trp -> match pl with Some l => notw u l | None => True end ->
  from f' u = from f u -> down f' u = down f u -> (forall v, thf f' v u = thf f v u) -> dw u p f -> dw u p' f'.
Proof.
  intros Hp Hn E1 E2 E3 (D1 & D2). unfold dw. rewrite E1, E2, (part_pc _ _ _ _ _ Hp Hn). split; [|done].
  intros v Hv. rewrite E3. by apply D1.
Qed.

(** After a step of worker [w]. *)
Lemma dw_worker w pl trp x p' l f' :
  (forall u, u < n -> dw u (pool x) (fn x)) ->
  pool_part pl (pool x) = Next p' trp ->
  match pl with Some (LWorker a _) => a = w | _ => True end ->
  (forall u, u <> w -> ~ FineLiveSpec.by_worker u l) ->
  (exists tr, FineModel.fstep l (fn x) = FineModel.FNext f' tr) \/ f' = fn x ->
  dw w p' f' -> forall u, u < n -> dw u p' f'.
Proof.
  intros D Hp Hpl Hl Hf Hw u Hu. destruct (decide (u = w)) as [->|Hne]; [done|].
  assert (from f' u = from (fn x) u /\ down f' u = down (fn x) u /\ forall v, thf f' v u = thf (fn x) v u) as (E1 & E2 & E3).
  { destruct Hf as [(tr & Hf)| ->]; [|done]. exact (DeepFine.other_pos u l _ _ _ (Hl u Hne) Hf). }
  eapply dw_other; [exact Hp| |done|done|done|by apply D].
  destruct pl as [[a c|a j| |]|]; try done; subst a; cbn; by intros ->.
Qed.

Lemma worker_pool w c p p' trp : pool_part (Some (LWorker w c)) p = Next p' trp -> w < n /\ BusyModel.worker n unit w c p = Next p' trp.
Proof. cbn. case_decide; done. Qed.

(** The step in which a steal gets its task. *)
Lemma grabbed_ret w v f f' tr : FineModel.steal_step w v f = FineModel.FNext f' tr -> DeepModel.grabbed f f' w = true ->
  (exists r, thf f' v w = DequeModel.TRet r) /\ forall r, thf f v w <> DequeModel.TRet r.
Proof.
  intros Es Eg. unfold FineModel.steal_step in Es.
  assert (Hrt : FineModel.rt f' = FineModel.rt f -> False).
  { intros E. unfold DeepModel.grabbed in Eg. rewrite E in Eg. by destruct (WholeModel.resting (FineModel.rt f) w). }
  unfold DequeModel.thief in Es. destruct (thf f v w) eqn:Et.
  all: repeat case_match; try done; simplify_eq; try (by destruct (Hrt eq_refl)).
  split; [|done]. cbn. rewrite FineProofs.set_at_eq. cbn. rewrite decide_True by done. eauto.
Qed.

(** ** The simulation *)

Definition sim_step (l : dlab) (x : deep) (y : whole) (x' : deep) : Prop :=
  exists y', dsim x' y' /\
    match wlab_of l x with
    | Some m => BWholeSpec.legal n af m /\ whole_step m y = BWholeModel.WNext y'
    | None => y' = y /\ exists w c v fail, l = YWorker w c v fail /\ R w x' < R w x
    end.

(** A step of the pool alone. *)
Lemma sim_alone l x y pl m x' t :
  dsim x y -> wlab_of l x = Some m -> BWholeSpec.legal n af m -> BWholeModel.parts m y = (Some pl, None) ->
  both (Some pl) (FineModel.FNext (fn x) []) t x = DNext x' ->
  (forall p' trp, pool_part (Some pl) (pool x) = Next p' trp -> forall w, w < n -> dw w p' (fn x)) ->
  sim_step l x y x'.
Proof.
  intros D Em Hl Hp Hb Hd. destruct (both_next _ _ _ _ _ Hb) as (p & trp & f & tr & H1 & E & Ex). injection E as <- <-.
  destruct (ds_sim _ _ D) as (Q & H & M).
  destruct (joint _ _ _ _ _ _ _ _ D Hl Hp Hb) as (y' & D' & Hs).
  - intros f tr [= <- <-]. exists (wrt y), Q, H. done.
  - subst x'. cbn. by eapply Hd.
  - exists y'. split; [done|]. by rewrite Em.
Qed.

Lemma thread_sim w c v fail x y :
  dsim x y -> w < n -> legal (YWorker w c v fail) ->
  thread n unit K w c v fail x <> DUndef /\
  forall x', thread n unit K w c v fail x = DNext x' -> sim_step (YWorker w c v fail) x y x'.
Proof.
  intros D Hw Hl. pose proof (ds_dw _ _ D) as DW. destruct (ds_sim _ _ D) as (Q & H & M). pose proof (ds_winv _ _ D) as I.
  destruct (DW w Hw) as (D1 & D2).
  assert (exists wk, RuntimeModel.s_workers (wrt y) !! w = Some wk) as (wk & Hwk).
  { apply lookup_lt_is_Some_2. by rewrite (BWholeInv.wi_len _ _ _ _ I). }
  pose proof (BWholeInv.wi_agree _ _ _ _ I w wk Hwk) as Hag.
  unfold thread.
  destruct (from (fn x) w) as [u|] eqn:Hf.
  { (* inside a steal *)
    destruct (DeepFine.work_steal _ _ _ _ _ _ _ _ _ _ fail M Hf) as (Z1 & Z2 & Z3).
    pose proof (D1 u eq_refl) as Hpc.
    destruct (FineModel.fstep (FineModel.FWork w fail) (fn x)) as [f tr| |] eqn:Ef; [|done..]. clear Z1 Z2.
    destruct (Z3 _ _ eq_refl) as ((-> & s' & Q1 & H1 & M' & Hs') & Hpos & Hfr). clear Z3.
    assert (Em : wlab_of (YWorker w c v fail) x = if DeepModel.grabbed (fn x) f w then Some (XWorker w true u false) else None).
    { cbn -[FineModel.fstep]. by rewrite Hf, Ef. }
    destruct (FineProofs2.m_from _ _ _ _ _ _ _ _ M w u Hf) as (_ & _ & Ho & _).
    assert (Ho' : down f w = OIdle).
    { cbn [FineModel.fstep] in Ef. rewrite Hf in Ef. destruct (FineLive.steal_step_parts _ _ _ _ _ Ef) as (q0 & ev & Eq & Ed & _).
      rewrite Ed. destruct (FineLive.thief_rank _ _ _ _ Eq) as (_ & _ & E). destruct (decide (w = u)) as [->|Hn]; [by rewrite FineProofs.set_at_eq, E|by rewrite FineProofs.set_at_ne]. }

    assert (Efs : FineModel.steal_step w u (fn x) = FineModel.FNext f []) by (cbn [FineModel.fstep] in Ef; by rewrite Hf in Ef).
    assert (HdwS : forall p' pl trp, pool_part pl (pool x) = Next p' trp ->
      match pl with Some (LWorker a _) => a = w | _ => True end ->
      (forall v0, from f w = Some v0 -> pc p' w = BSteal \/ pc p' w = BRun [] /\ exists r, thf f v0 w = DequeModel.TRet r) -> forall u0, u0 < n -> dw u0 p' f).
    { intros p' pl trp Hs Hpl Ep. eapply (dw_worker w); [done|exact Hs|done| |left; eexists; exact Ef|].
      - cbn. congruence.
      - split; [exact Ep|done]. }
    destruct (DeepModel.grabbed (fn x) f w) eqn:Eg.
    - destruct (grabbed_ret _ _ _ _ _ Efs Eg) as (Hret & Hnret).
      destruct Hpc as [Hpc|(_ & r & Hr)]; [|by destruct (Hnret r)].
      assert (Hp : BWholeModel.parts (XWorker w true u false) y = (Some (LWorker w true), Some (RuntimeModel.LSteal w u))).
      { cbn. by rewrite <- (ds_pool _ _ D), Hpc. }
      split; [by apply both_undef|].
      intros x' Hx. destruct (fun L R DD => joint x y _ _ _ _ _ _ D L Hp Hx R DD) as (y' & D' & Hst).
      + done.
      + intros f0 tr0 [= <- <-]. by exists s', Q1, H1.
      + destruct (both_next _ _ _ _ _ Hx) as (p & trp & f0 & tr0 & G1 & [= <- <-] & ->). cbn.
        pose proof (worker_pool _ _ _ _ _ G1) as (_ & G2).
        eapply HdwS; [exact G1|done|..]. unfold BusyModel.worker in G2; rewrite Hpc in G2; injection G2 as <- _; cbn.
        intros v0 Hv0. right. rewrite fset_eq. split; [done|]. destruct Hfr as [Hfr|Hfr]; rewrite Hfr in Hv0; [|done]. by injection Hv0 as <-.
      + exists y'. split; [done|]. rewrite Em. done.
    - split; [by apply both_undef|]. intros x' Hx. destruct (both_next _ _ _ _ _ Hx) as (p & trp & f0 & tr0 & G1 & [= <- <-] & ->).
      pose proof G1 as G1'. cbn in G1. injection G1 as <- <-. subst s'. exists y. split.
      + split; cbn; try apply D.
        * eauto.
        * eapply (HdwS _ None); [done|done|]. intros v0 Hv0. destruct Hpc as [Hpc|(Hpc & r & Hr)]; [by left|]. exfalso.
          unfold FineModel.steal_step, DequeModel.thief in Efs. rewrite Hr in Efs. injection Efs as <-. cbn in Hv0. by rewrite FineProofs.set_at_eq in Hv0.
      + rewrite Em. split; [done|]. exists w, c, v, fail. split; [done|]. unfold R. cbn. lia. }
  (* not stealing *)
  assert (Hdw1 : forall pl trp p', pool_part (Some (LWorker w pl)) (pool x) = Next p' trp ->
    (down (fn x) w = OIdle) -> forall u0, u0 < n -> dw u0 p' (fn x)).
  { intros pl trp p' Hs Ho. eapply (dw_worker w); [done|exact Hs|done|by intros u0 Hu0; instantiate (1 := FineModel.FTake w); cbn; congruence|by right|].
    split; [by rewrite Hf|done]. }
  (* a step of the pool alone *)
  assert (Hpool : forall c' t, wlab_of (YWorker w c v fail) x = Some (XWorker w c' v fail) ->
    BWholeModel.parts (XWorker w c' v fail) y = (Some (LWorker w c'), None) -> down (fn x) w = OIdle ->
    both (Some (LWorker w c')) (FineModel.FNext (fn x) []) t x <> DUndef /\
    forall x', both (Some (LWorker w c')) (FineModel.FNext (fn x) []) t x = DNext x' -> sim_step (YWorker w c v fail) x y x').
  { intros c' t Em Hp Ho. split; [by apply both_undef|].
    intros x' Hx. eapply sim_alone; [done|exact Em|exact Hl|exact Hp|exact Hx|]. intros p' trp Hs. by eapply Hdw1. }
  assert (Halone : ~ busy (pc (pool x) w) -> wlab_of (YWorker w c v fail) x = Some (XWorker w c v fail) ->
    BWholeModel.parts (XWorker w c v fail) y = (Some (LWorker w c), None) ->
    alone n unit (LWorker w c) x <> DUndef /\
    forall x', alone n unit (LWorker w c) x = DNext x' -> sim_step (YWorker w c v fail) x y x').
  { intros Hh Em Hp. apply Hpool; [done|done|by apply D2]. }
  (* the submission list *)
  assert (Hpop : ~ busy (pc (pool x) w) -> wlab_of (YWorker w c v fail) x = Some (XWorker w c v fail) ->
    BWholeModel.parts (XWorker w c v fail) y = (Some (LWorker w c), match q (pool x) w with [] => None | _ => Some (RuntimeModel.LTake w) end) ->
    both (Some (LWorker w c)) (match q (pool x) w with [] => FineModel.FNext (fn x) [] | _ => FineModel.fstep (FineModel.FTake w) (fn x) end) (tries x) x <> DUndef /\
    forall x', both (Some (LWorker w c)) (match q (pool x) w with [] => FineModel.FNext (fn x) [] | _ => FineModel.fstep (FineModel.FTake w) (fn x) end) (tries x) x = DNext x' ->
      sim_step (YWorker w c v fail) x y x').
  { intros Hh Em Hp. destruct (q (pool x) w) as [|j js] eqn:Eq; [by apply Halone|].
    destruct (DeepFine.take_exact _ _ _ _ _ _ _ _ w M) as (Z1 & Z2). split; [by apply both_undef|].
    intros x' Hx. destruct (both_next _ _ _ _ _ Hx) as (p & trp & f0 & tr0 & G1 & G2 & Ex).
    destruct (fun L R DD => joint x y _ _ _ _ _ _ D L Hp Hx R DD) as (y' & D' & Hst).
    + exact Hl.
    + intros f1 tr1 E. destruct (Z2 _ _ E) as (s' & M' & Hs' & _). eauto.
    + destruct (Z2 _ _ G2) as (s' & M' & Hs' & Ed & Efr). subst x'. cbn.
      eapply (dw_worker w); [done|exact G1|done| |left; eexists; exact G2|].
      * cbn. congruence.
      * split; [by rewrite Efr, Hf|]. intros _. rewrite Ed. by apply D2.
    + exists y'. split; [done|]. by rewrite Em. }
  assert (Hparts : forall c' fl, BWholeModel.parts (XWorker w c' v fl) y =
    match pc (pool x) w with
    | BPop | BDrain =>
      (Some (LWorker w c'), match q (pool x) w with [] => None | _ => Some (RuntimeModel.LTake w) end)
    | BSteal => (Some (LWorker w c'), if c' then Some (RuntimeModel.LSteal w v) else None)
    | BRun _ | BDrainRun _ =>
      if WholeModel.resting (wrt y) w then (Some (LWorker w c'), None)
      else (match WholeModel.moving (wrt y) w with Some (d, f) => Some (LPush d (N.to_nat f)) | None => None end,
            Some (RuntimeModel.LWork w fl))
    | _ => (Some (LWorker w c'), None)
    end).
  { intros c' fl. cbn. by rewrite <- (ds_pool _ _ D). }
  assert (Hlab : wlab_of (YWorker w c v fail) x =
    match pc (pool x) w with
    | BSteal => if c && bool_decide (tries x w < K) then None else Some (XWorker w false v fail)
    | BRun _ | BDrainRun _ =>
      if FineModel.looking w (fn x) then Some (XWorker w c v fail)
      else match DeepFine.adv w fail (fn x) with Some fl => Some (XWorker w c v fl) | None => None end
    | _ => Some (XWorker w c v fail)
    end).
  { cbn -[DeepFine.adv]. by rewrite Hf. }
  pose proof (Hparts c fail) as Hpc1.
  (* resume *)
  assert (Hrun : busy (pc (pool x) w) ->
    (if FineModel.looking w (fn x) then alone n unit (LWorker w c) x
     else both (match DeepModel.moving (fn x) w with Some (d, f) => Some (LPush d (N.to_nat f)) | None => None end)
               (FineModel.fstep (FineModel.FWork w fail) (fn x)) (tries x) x) <> DUndef /\
    forall x', (if FineModel.looking w (fn x) then alone n unit (LWorker w c) x
     else both (match DeepModel.moving (fn x) w with Some (d, f) => Some (LPush d (N.to_nat f)) | None => None end)
               (FineModel.fstep (FineModel.FWork w fail) (fn x)) (tries x) x) = DNext x' -> sim_step (YWorker w c v fail) x y x').
  { intros Hbusy.
    assert (Hlab' : wlab_of (YWorker w c v fail) x = if FineModel.looking w (fn x) then Some (XWorker w c v fail)
      else match DeepFine.adv w fail (fn x) with Some fl => Some (XWorker w c v fl) | None => None end)
      by (rewrite Hlab; by destruct (pc (pool x) w)).
    assert (Hparts' : forall c' fl, BWholeModel.parts (XWorker w c' v fl) y = if WholeModel.resting (wrt y) w then (Some (LWorker w c'), None)
      else (match WholeModel.moving (wrt y) w with Some (d, f) => Some (LPush d (N.to_nat f)) | None => None end,
            Some (RuntimeModel.LWork w fl))) by (intros; rewrite Hparts; by destruct (pc (pool x) w)).
    destruct (FineModel.looking w (fn x)) eqn:El.
    + destruct (proj1 (DeepFine.looking_iff _ _) El) as (_ & Ho & w1 & Hw1 & E1 & E2). apply Hpool; [done| |done].
      rewrite Hparts', <- (DeepFine.sim_resting _ _ _ _ _ _ _ _ w M). unfold WholeModel.resting. by rewrite Hw1, E1, E2.
    + destruct (FineProofs2.sim_own_step _ _ _ _ _ _ _ _ w fail M Hf Hl) as (Z1 & _).
      assert (Ef : FineModel.fstep (FineModel.FWork w fail) (fn x) = FineModel.own_step w fail (fn x)) by (cbn [FineModel.fstep]; by rewrite Hf).
      split; [apply both_undef; by rewrite Ef|].
      intros x' Hx. destruct (both_next _ _ _ _ _ Hx) as (p & trp & f0 & tr0 & G1 & G2 & Ex). rewrite Ef in G2.
      destruct (DeepFine.own_exact _ _ _ _ _ _ _ _ _ _ _ _ M Hf Hl G2) as (s' & Q1 & H1 & M' & Efr & Hadv).
      assert (Hdw : forall u0, u0 < n -> dw u0 (pool x') (fn x')).
      { subst x'. cbn. eapply (dw_worker w); [done|exact G1| | |left; eexists; rewrite Ef; exact G2|].
        - by destruct (DeepModel.moving (fn x) w) as [[d f]|].
        - cbn. congruence.
        - split; [by rewrite Efr, Hf|]. intros Hh. exfalso. apply Hh. rewrite (part_pc w _ _ _ _ G1); [done|].
          by destruct (DeepModel.moving (fn x) w) as [[d f]|]. }
      destruct (DeepFine.adv w fail (fn x)) as [fl|] eqn:Ea.
      * destruct Hadv as (Hal & Hst & Hno). 
        assert (Hm : DeepModel.moving (fn x) w = WholeModel.moving (wrt y) w).
        { rewrite <- (DeepProofs.sim_moving _ _ _ _ _ _ _ _ w M). unfold DeepModel.moving. destruct (down (fn x) w) eqn:Eo; try done; symmetry; by apply DeepProofs.moving_noop, Hno. }
        pose proof (Hparts' c fl) as Hp. rewrite (DeepProofs.work_resting _ _ _ _ _ Hst), <- Hm in Hp.
        destruct (fun L R DD => joint x y _ _ _ _ _ _ D L Hp Hx R DD) as (y' & D' & Hw').
        -- exact Hal.
        -- rewrite Ef. intros f1 tr1 E. rewrite G2 in E. injection E as <- <-. by exists s', Q1, H1.
        -- exact Hdw.
        -- exists y'. split; [done|]. rewrite Hlab'. done.
      * destruct Hadv as (-> & -> & Hpos & Hno).
        assert (Hm : DeepModel.moving (fn x) w = None).
        { unfold DeepModel.moving. destruct (down (fn x) w) eqn:Eo; try done. by apply DeepProofs.moving_noop, Hno. }
        rewrite Hm in G1. cbn in G1. injection G1 as <- <-. subst x'. exists y. split.
        -- split; cbn; try apply D; [eauto|]. exact Hdw.
        -- rewrite Hlab'. split; [done|]. exists w, c, v, fail. split; [done|]. unfold R. cbn. lia. }
  destruct (pc (pool x) w) eqn:Hpc; try (apply Halone; [by intros []|exact Hlab|exact Hpc1]); try (apply Hpop; [by intros []|exact Hlab|exact Hpc1]); try (by apply Hrun).
  (* try_steal *)
  destruct (c && bool_decide (tries x w < K)) eqn:Ec.
  + apply andb_true_iff in Ec as (_ & Ht%bool_decide_eq_true).
    destruct (DeepFine.begin_steal _ _ _ _ _ _ _ _ w v M) as (Z1 & Z2). split; [by apply both_undef|].
    intros x' Hx. destruct (both_next _ _ _ _ _ Hx) as (p & trp & f0 & tr0 & G1 & G2 & ->).
    destruct (Z2 _ _ G2) as ((-> & s' & Q1 & H1 & M' & Hs') & Eg & P1 & P2 & Ef0 & Elk). rewrite Eg in Hs'. subst s'.
    pose proof G1 as G1'. cbn in G1. injection G1 as <- <-. exists y. split.
    * split; cbn; try apply D; [eauto|]. eapply (dw_worker w); [done|exact G1'|done| |left; eexists; exact G2|].
      -- cbn. congruence.
      -- split; [intros v0 _; rewrite Hpc; auto|]. intros _.
         cbn [FineModel.fstep] in G2. case_decide as Hne; [done|]. destruct (RuntimeModel.s_workers (FineModel.rt (fn x)) !! v); [|done].
         rewrite Elk in G2. destruct (FineLive.steal_step_parts _ _ _ _ _ G2) as (q0 & ev & Eq & Ed & _). rewrite Ed. cbn.
         rewrite FineProofs.set_at_ne by done. apply D2. by intros [].
    * rewrite Hlab. split; [done|]. exists w, c, v, fail. split; [done|]. unfold R. cbn. rewrite FineProofs.set_at_eq. lia.
  + apply Hpool; [done| |apply D2; by intros []]. by rewrite Hparts.
Qed.

Lemma deep_sim l x y : dsim x y -> legal l ->
  deep_step l x <> DUndef /\ forall x', deep_step l x = DNext x' -> sim_step l x y x'.
Proof.
  intros D Hl. pose proof (ds_dw _ _ D) as DW. destruct (ds_sim _ _ D) as (Q & H & M). pose proof (ds_winv _ _ D) as I.
  (* a step of the pool alone that is not one of a worker *)
  assert (Hpool : forall pl m, wlab_of l x = Some m -> BWholeSpec.legal n af m -> BWholeModel.parts m y = (Some pl, None) ->
    (forall u, u < n -> notw u pl) ->
    alone n unit pl x <> DUndef /\ forall x', alone n unit pl x = DNext x' -> sim_step l x y x').
  { intros pl m Em Hm Hp Hn. split; [by apply both_undef|].
    intros x' Hx. eapply sim_alone; [done|exact Em|exact Hm|exact Hp|exact Hx|]. intros p' trp Hs u Hu.
    eapply dw_other; [exact Hs|by apply Hn|done|done|done|by apply DW]. }
  destruct l as [w c v fail|d t| | |w]; cbn [BDeepModel.deep_step].
  - case_decide as Hw; [|done]. by apply thread_sim.
  - assert (Hp : BWholeModel.parts (BWholeModel.XClient d t) y =
      (Some (LPush d (N.to_nat (RuntimeModel.s_nextf (FineModel.rt (fn x))))), Some (RuntimeModel.LSpawn d t))).
    { cbn. by rewrite (FineProofs2.m_state _ _ _ _ _ _ _ _ M). }
    destruct (DeepFine.spawn_exact _ _ _ _ _ _ _ _ d t M Hl) as (Z1 & Z2). split; [by apply both_undef|].
    intros x' Hx. destruct (both_next _ _ _ _ _ Hx) as (p & trp & f0 & tr0 & G1 & G2 & Ex).
    destruct (Z2 _ _ G2) as (s' & Q1 & H1 & M' & Hs' & Ed & Efr).
    destruct (fun L R DD => joint x y _ _ _ _ _ _ D L Hp Hx R DD) as (y' & D' & Hst).
    + exact Hl.
    + intros f1 tr1 E. rewrite G2 in E. injection E as <- <-. by exists s', Q1, H1.
    + subst x'. cbn. intros u Hu. eapply dw_other; [exact G1|done|by rewrite Efr|by rewrite Ed|intros; by rewrite Ed|by apply DW].
    + exists y'. split; [done|]. cbn. done.
  - by apply (Hpool LStop BWholeModel.XDtor).
  - by apply (Hpool LJoin BWholeModel.XJoin).
  - assert (Hp : BWholeModel.parts (BWholeModel.XStale w) y = (None, Some (RuntimeModel.LStale w))) by done.
    destruct (DeepFine.stale_exact _ _ _ _ _ _ _ _ w M) as (Z1 & Z2). split; [by apply both_undef|].
    intros x' Hx. destruct (both_next _ _ _ _ _ Hx) as (p & trp & f0 & tr0 & G1 & G2 & Ex).
    destruct (Z2 _ _ G2) as (s' & M' & Hs' & Ed & Efr).
    destruct (fun L R DD => joint x y _ _ _ _ _ _ D L Hp Hx R DD) as (y' & D' & Hst).
    + done.
    + intros f1 tr1 E. rewrite G2 in E. injection E as <- <-. eauto.
    + subst x'. cbn. intros u Hu. eapply dw_other; [exact G1|done|by rewrite Efr|by rewrite Ed|intros; by rewrite Ed|by apply DW].
    + exists y'. done.
Qed.

Lemma sim_init : dsim (init_deep n k) (BWholeModel.init_whole n).
Proof.
  split; cbn; [done|done| |apply BWholeInv.winv_init|].
  - eexists _, _. apply FineProofs2.sim_init.
  - intros w _. split; done.
Qed.

(** ** The rank of the others *)

Lemma thread_shape w c v fail x x' : thread n unit K w c v fail x = DNext x' ->
  (fn x' = fn x \/ exists l tr, FineModel.fstep l (fn x) = FineModel.FNext (fn x') tr /\ forall u, u <> w -> ~ FineLiveSpec.by_worker u l) /\
  forall u, u <> w -> tries x' u = tries x u.
Proof.
  intros E.
  assert (Hb : forall pl l t, both pl (FineModel.fstep l (fn x)) t x = DNext x' -> (forall u, u <> w -> ~ FineLiveSpec.by_worker u l) ->
    (forall u, u <> w -> t u = tries x u) ->
    (fn x' = fn x \/ exists l tr, FineModel.fstep l (fn x) = FineModel.FNext (fn x') tr /\ forall u, u <> w -> ~ FineLiveSpec.by_worker u l) /\
    forall u, u <> w -> tries x' u = tries x u).
  { intros pl l t Hx Hl Ht. destruct (both_next _ _ _ _ _ Hx) as (p & trp & f & tr & G1 & G2 & ->). cbn. split; [|done]. right. eauto. }
  assert (Ha : forall pl t, both pl (FineModel.FNext (fn x) []) t x = DNext x' -> (forall u, u <> w -> t u = tries x u) ->
    (fn x' = fn x \/ exists l tr, FineModel.fstep l (fn x) = FineModel.FNext (fn x') tr /\ forall u, u <> w -> ~ FineLiveSpec.by_worker u l) /\
    forall u, u <> w -> tries x' u = tries x u).
  { intros pl t Hx Ht. destruct (both_next _ _ _ _ _ Hx) as (p & trp & f & tr & G1 & [= <- <-] & ->). cbn. split; [by left|done]. }
  assert (Hset : forall z u, u <> w -> FineModel.set_at w z (tries x) u = tries x u) by (intros; by rewrite FineProofs.set_at_ne).
  assert (Hby : forall u, u <> w -> w <> u) by congruence.
  unfold thread in E. destruct (from (fn x) w).
  { cbn zeta in E. destruct (match FineModel.fstep (FineModel.FWork w fail) (fn x) with FineModel.FNext f _ => DeepModel.grabbed (fn x) f w | _ => false end);
      (eapply Hb; [exact E|exact Hby|]); [apply Hset|done]. }
  destruct (pc (pool x) w); try (by eapply Ha).
  - destruct (q (pool x) w); [by eapply Ha|]. eapply Hb; [exact E|exact Hby|done].
  - destruct (c && bool_decide (tries x w < K)); [eapply Hb; [exact E|exact Hby|apply Hset]|]. eapply Ha; [exact E|apply Hset].
  - destruct (FineModel.looking w (fn x)); [by eapply Ha|]. eapply Hb; [exact E|exact Hby|done].
  - destruct (q (pool x) w); [by eapply Ha|]. eapply Hb; [exact E|exact Hby|done].
  - destruct (FineModel.looking w (fn x)); [by eapply Ha|]. eapply Hb; [exact E|exact Hby|done].
Qed.

Lemma R_other u l x x' : deep_step l x = DNext x' -> (forall c v fail, l <> YWorker u c v fail) -> R u x' = R u x.
Proof.
  intros E Hn.
  assert (Hgen : (fn x' = fn x \/ exists l tr, FineModel.fstep l (fn x) = FineModel.FNext (fn x') tr /\ ~ FineLiveSpec.by_worker u l) ->
    tries x' u = tries x u -> R u x' = R u x).
  { unfold R. intros [-> |(l' & tr & Hs & Hb)] ->; [done|]. by rewrite (DeepFine.other_pos_eq _ _ _ _ _ Hb Hs). }
  assert (Ha : forall pl t, both pl (FineModel.FNext (fn x) []) t x = DNext x' -> t = tries x -> R u x' = R u x).
  { intros pl t Hx ->. destruct (both_next _ _ _ _ _ Hx) as (p & trp & f & tr & G1 & [= <- <-] & ->). apply Hgen; [by left|done]. }
  destruct l as [w c v fail|d t| | |w]; cbn [BDeepModel.deep_step] in E.
  - case_decide; [|done]. destruct (thread_shape _ _ _ _ _ _ E) as (H1 & H2).
    assert (u <> w) by (intros ->; by eapply Hn). apply Hgen; [|by apply H2]. destruct H1 as [|(l & tr & ? & ?)]; [by left|right; eauto].
  - destruct (both_next _ _ _ _ _ E) as (p & trp & f & tr & G1 & G2 & ->). apply Hgen; [|done]. right. exists (FineModel.FSpawn d t), tr. split; [exact G2|by intros []].
  - by eapply Ha.
  - by eapply Ha.
  - destruct (both_next _ _ _ _ _ E) as (p & trp & f & tr & G1 & G2 & ->). unfold R. cbn. unfold DeepFine.pos.
    cbn [FineModel.fstep] in G2. repeat case_match; try done; apply FineLive.after_from in G2 as (E1 & E2); rewrite E1, E2 in *; congruence.
Qed.

(** ** When a worker can go on *)

Lemma blocked_whole x y w : dsim x y -> w < n ->
  (forall c v fail, legal (YWorker w c v fail) -> deep_step (YWorker w c v fail) x = DBlock) ->
  forall c v fail, BWholeSpec.legal n af (XWorker w c v fail) -> whole_step (XWorker w c v fail) y = BWholeModel.WBlock.
Proof.
  intros D Hw Hb c v fail Hl. pose proof (ds_dw _ _ D) as DW. destruct (ds_sim _ _ D) as (Q & H & M). pose proof (ds_winv _ _ D) as I.
  destruct (DW w Hw) as (D1 & D2).
  assert (exists wk, RuntimeModel.s_workers (wrt y) !! w = Some wk) as (wk & Hwk).
  { apply lookup_lt_is_Some_2. by rewrite (BWholeInv.wi_len _ _ _ _ I). }
  pose proof (BWholeInv.wi_agree _ _ _ _ I w wk Hwk) as Hag.
  destruct (whole_step (XWorker w c v fail) y) as [y'| |] eqn:Ew; [|done|by destruct (BWholeInv.step_defined n unit af _ _ I Hl Ew)].
  exfalso. apply BWholeInv.step_inv in Ew as (trp & tr & H1 & H2 & _).
  assert (Hb' : forall c v, thread n unit K w c v false x = DBlock).
  { intros c0 v0. specialize (Hb c0 v0 false ltac:(done)). cbn [BDeepModel.deep_step] in Hb. by rewrite decide_True in Hb. }
  clear Hb. rewrite <- (ds_pool _ _ D) in H1. rewrite <- (ds_pool _ _ D) in Hag.
  cbn [BWholeModel.parts] in H1, H2. rewrite <- (ds_pool _ _ D) in H1, H2.
  pose proof (Hb' c v) as Hc. unfold thread in Hc.
  assert (Hbt : forall l r t, both l r t x = DBlock -> r <> FineModel.FBlocked -> pool_part l (pool x) <> Blocked -> False).
  { intros l r t E E1 E2. by eapply both_block. }
  destruct (from (fn x) w) as [u|] eqn:Hf.
  { destruct (DeepFine.work_steal _ _ _ _ _ _ _ _ _ _ false M Hf) as (_ & Z2 & _).
    cbn zeta in Hc. destruct (FineModel.fstep (FineModel.FWork w false) (fn x)) as [f tr1| |] eqn:Ef; [|done|].
    - destruct (DeepModel.grabbed (fn x) f w); (eapply Hbt; [exact Hc|done|]); [|done]. cbn. rewrite decide_True by done.
      unfold BusyModel.worker. by destruct (D1 u eq_refl) as [-> |(-> & _)].
    - eapply Hbt; [exact Hc|done|done]. }
  assert (Hlk : ~ busy (pc (pool x) w) -> FineModel.looking w (fn x) = true).
  { intros Hh. apply DeepFine.looking_iff. split; [done|]. split; [by apply D2|].
    rewrite (FineProofs2.m_state _ _ _ _ _ _ _ _ M), FineProofs.wd_lookup in Hwk.
    destruct (RuntimeModel.s_workers (FineModel.rt (fn x)) !! w) as [w0|]; [|done]. injection Hwk as <-. exists w0. split; [done|].
    exact (Hag Hh). }
  assert (Htake : ~ busy (pc (pool x) w) -> RuntimeModel.step (RuntimeModel.LTake w) (wrt y) <> RuntimeModel.Blocked ->
    FineModel.fstep (FineModel.FTake w) (fn x) <> FineModel.FBlocked).
  { intros Hh. eapply DeepFine.take_enabled; [exact M|by apply Hlk]. }
  assert (Hrun : (if FineModel.looking w (fn x) then alone n unit (LWorker w c) x
     else both (match DeepModel.moving (fn x) w with Some (d, f) => Some (LPush d (N.to_nat f)) | None => None end)
               (FineModel.fstep (FineModel.FWork w false) (fn x)) (tries x) x) = DBlock ->
     pool_part (fst (if WholeModel.resting (wrt y) w then (Some (LWorker w c), None)
      else (match WholeModel.moving (wrt y) w with Some (d, f) => Some (LPush d (N.to_nat f)) | None => None end,
            Some (RuntimeModel.LWork w fail)))) (pool x) = Next (wpool y') trp -> False).
  { clear Hc H1. intros Hc H1. destruct (FineModel.looking w (fn x)) eqn:El.
    + destruct (proj1 (DeepFine.looking_iff _ _) El) as (_ & _ & w0 & Hw0 & E1 & E2).
      assert (WholeModel.resting (wrt y) w = true) as Er.
      { rewrite <- (DeepFine.sim_resting _ _ _ _ _ _ _ _ w M). unfold WholeModel.resting. by rewrite Hw0, E1, E2. }
      rewrite Er in H1. eapply Hbt; [exact Hc|done|cbn [fst] in H1; by rewrite H1].
    + eapply Hbt; [exact Hc| |].
      * eapply FineLive.work_enabled; [exact M|]. right. split; [done|].
        rewrite (FineProofs2.m_state _ _ _ _ _ _ _ _ M), FineProofs.wd_lookup in Hwk. by destruct (RuntimeModel.s_workers (FineModel.rt (fn x)) !! w).
      * destruct (DeepModel.moving (fn x) w) as [[d f]|] eqn:Em; [|done].
        assert (WholeModel.moving (wrt y) w = Some (d, f)) as Em'.
        { rewrite <- (DeepProofs.sim_moving _ _ _ _ _ _ _ _ w M). unfold DeepModel.moving in Em. by destruct (down (fn x) w). }
        assert (WholeModel.resting (wrt y) w = false) as Er.
        { unfold WholeModel.moving in Em'. unfold WholeModel.resting. rewrite Hwk in *. by destruct (RuntimeModel.w_pc wk). }
        rewrite Er, Em' in H1. cbn [fst] in H1. by rewrite H1. }
  destruct (pc (pool x) w) eqn:Hpc; cbn [fst snd] in H1, H2; try (eapply Hbt; [exact Hc|done|by rewrite H1]); try (by apply Hrun).
  - destruct (q (pool x) w); (eapply Hbt; [exact Hc| |by rewrite H1]); [done|]. apply Htake; [by intros []|]. cbn in H2 |- *. by rewrite H2.
  - clear Hc. pose proof (Hb' false v) as Hc. unfold thread in Hc. rewrite Hf, Hpc in Hc. cbn [andb] in Hc.
    eapply Hbt; [exact Hc|done|]. cbn. rewrite decide_True by done. unfold BusyModel.worker. by rewrite Hpc.
  - destruct (q (pool x) w); (eapply Hbt; [exact Hc| |by rewrite H1]); [done|]. apply Htake; [by intros []|]. cbn in H2 |- *. by rewrite H2.
Qed.

(** ** Use as documented *)

Lemma about_same x y w d : dsim x y -> BWholeSpec.about_to_move w d y -> about_to_move w d x.
Proof.
  intros D (wk & f & fr & skip & t & H1 & H2 & H3 & H4). destruct (ds_sim _ _ D) as (Q & H & M).
  rewrite (FineProofs2.m_state _ _ _ _ _ _ _ _ M) in H1, H3. rewrite FineProofs.wd_lookup in H1.
  destruct (RuntimeModel.s_workers (FineModel.rt (fn x)) !! w) as [w0|] eqn:E; [|done]. injection H1 as <-. by exists w0, f, fr, skip, t.
Qed.
Lemma about_back x y w d : dsim x y -> about_to_move w d x -> BWholeSpec.about_to_move w d y.
Proof.
  intros D (wk & f & fr & skip & t & H1 & H2 & H3 & H4). destruct (ds_sim _ _ D) as (Q & H & M).
  exists (RuntimeModel.set_deque (Q w) wk), f, fr, skip, t. rewrite (FineProofs2.m_state _ _ _ _ _ _ _ _ M). split; [|done].
  by rewrite FineProofs.wd_lookup, H1.
Qed.
Lemma documented_whole l m x y : dsim x y -> wlab_of l x = Some m -> documented l x -> BWholeSpec.documented m y.
Proof.
  intros D Em Hd Hs. rewrite <- (ds_pool _ _ D) in Hs. specialize (Hd Hs).
  assert (Hw : forall w c v fail c' v' fail', l = YWorker w c v fail -> m = XWorker w c' v' fail' ->
    match m with XWorker w _ _ _ => forall d, BWholeSpec.about_to_move w d y -> d = w | BWholeModel.XClient _ _ => False | _ => True end).
  { intros w c v fail c' v' fail' -> -> d Ha. apply Hd. by eapply about_same. }
  destruct l as [w c v fail|d t| | |w]; cbn -[FineModel.fstep DeepFine.adv] in Em; [|by injection Em as <-..].
  assert (exists c' v' fail', m = XWorker w c' v' fail') as (c' & v' & fail' & E).
  { clear Hd Hw. repeat case_match; try done; injection Em as <-; eauto. }
  by eapply Hw.
Qed.

(** ** Infinite executions *)

Section run.
Context (sg : nat -> deep) (l : nat -> option dlab).
Hypothesis HW : dfair n unit K k af sg l.

(** The execution of the pool on atomic deques. *)
Definition wl (i : nat) : option BWholeModel.wlab := match l i with Some d => wlab_of d (sg i) | None => None end.
Fixpoint ws (i : nat) : whole :=
  match i with
  | O => BWholeModel.init_whole n
  | S j => match wl j with
           | Some m => match whole_step m (ws j) with BWholeModel.WNext y => y | _ => ws j end
           | None => ws j
           end
  end.

Lemma run_step i : dsim (sg i) (ws i) -> dsim (sg (S i)) (ws (S i)) /\
  match wl i with
  | Some m => BWholeSpec.legal n af m /\ BWholeSpec.documented m (ws i) /\ whole_step m (ws i) = BWholeModel.WNext (ws (S i))
  | None => ws (S i) = ws i /\ match l i with
            | Some d => exists w c v fail, d = YWorker w c v fail /\ R w (sg (S i)) < R w (sg i)
            | None => sg (S i) = sg i end
  end.
Proof.
  intros D. pose proof (dr_step _ _ _ _ _ _ _ (df_run _ _ _ _ _ _ _ HW) i) as Hs. rewrite Nat.add_1_r in Hs.
  cbn [ws]. unfold wl. destruct (l i) as [d|] eqn:El.
  - destruct Hs as (Hl & Hdoc & Hs). destruct (deep_sim d _ _ D Hl) as (_ & Hx). destruct (Hx _ Hs) as (y' & D' & Hy).
    destruct (wlab_of d (sg i)) as [m|] eqn:Em.
    + destruct Hy as (H1 & H2). rewrite H2. split; [done|]. split; [done|]. split; [by eapply documented_whole|done].
    + by destruct Hy as (-> & Hy).
  - by rewrite Hs.
Qed.
Lemma run_sim i : dsim (sg i) (ws i).
Proof.
  induction i as [|i IH]; [|by apply run_step]. rewrite (dr_init _ _ _ _ _ _ _ (df_run _ _ _ _ _ _ _ HW)). apply sim_init.
Qed.

Lemma R_step w i : (exists c v fail, wl i = Some (XWorker w c v fail)) \/
  (R w (sg (S i)) <= R w (sg i) /\ ((exists c v fail, l i = Some (YWorker w c v fail)) -> R w (sg (S i)) < R w (sg i))).
Proof.
  destruct (run_step i (run_sim i)) as (_ & Hs).
  pose proof (dr_step _ _ _ _ _ _ _ (df_run _ _ _ _ _ _ _ HW) i) as Hd. rewrite Nat.add_1_r in Hd. unfold wl in *.
  destruct (l i) as [d|] eqn:El; [|right; rewrite Hd; split; [done|by intros (? & ? & ? & ?)]]. destruct Hd as (_ & _ & Hd).
  assert (Hdec : (exists c v fail, d = YWorker w c v fail) \/ forall c v fail, d <> YWorker w c v fail).
  { destruct d as [w' c v fail|d t| | |u]; try (right; done). destruct (decide (w' = w)) as [->|]; [left; eauto|right; congruence]. }
  destruct Hdec as [(c & v & fail & ->)|Hne].
  - destruct (wlab_of (YWorker w c v fail) (sg i)) as [m|] eqn:Em.
    + left. cbn -[FineModel.fstep DeepFine.adv] in Em. repeat case_match; try done; injection Em as <-; eauto.
    + destruct Hs as (_ & w' & c' & v' & fail' & [= -> -> -> ->] & HR). right. split; [lia|done].
  - right. rewrite (R_other w d _ _ Hd Hne). split; [done|]. intros (c & v & fail & [= ->]). by destruct (Hne c v fail).
Qed.

Lemma worker_fair w i : w < n -> exists j, i <= j /\
  ((exists c v fail, wl j = Some (XWorker w c v fail)) \/
   forall c v fail, BWholeSpec.legal n af (XWorker w c v fail) -> whole_step (XWorker w c v fail) (ws j) = BWholeModel.WBlock).
Proof.
  intros Hw. remember (R w (sg i)) as r eqn:Er. revert i Er. induction (lt_wf r) as [r _ IH]. intros i ->.
  destruct (df_worker _ _ _ _ _ _ _ HW w i Hw) as (j & Hij & Hj).
  assert (Hwalk : forall d, (exists m, i <= m < i + d /\ exists c v fail, wl m = Some (XWorker w c v fail)) \/ R w (sg (i + d)) <= R w (sg i)).
  { induction d as [|d IHd]; [right; by rewrite Nat.add_0_r|]. destruct IHd as [(m & Hm & Hx)|Hle]; [left; exists m; split; [lia|done]|].
    destruct (R_step w (i + d)) as [Hx|(Hr & _)]; [left; exists (i + d); split; [lia|done]|]. right. rewrite Nat.add_succ_r. lia. }
  destruct (Hwalk (j - i)) as [(m & Hm & Hx)|Hle]; [exists m; split; [lia|by left]|]. replace (i + (j - i)) with j in Hle by lia.
  destruct Hj as [Hj|Hj].
  - destruct (R_step w j) as [Hx|(_ & Hlt)]; [exists j; split; [lia|by left]|]. specialize (Hlt Hj).
    destruct (IH (R w (sg (S j))) ltac:(lia) (S j) eq_refl) as (m & Hm & Hx). exists m. split; [lia|done].
  - exists j. split; [done|]. right. by apply (blocked_whole (sg j) (ws j) w (run_sim j) Hw).
Qed.

Theorem whole_fair : BWholeSpec.wfair n unit af ws wl.
Proof.
  split.
  - split; [done|]. intros i. rewrite Nat.add_1_r. destruct (run_step i (run_sim i)) as (_ & Hs). destruct (wl i); [done|]. by destruct Hs.
  - intros w i Hw. by apply worker_fair.
  - intros i. destruct (df_join _ _ _ _ _ _ _ HW i) as (j & Hij & Hj). exists j. split; [done|].
    destruct Hj as [Hj|Hj]; [left; unfold wl; by rewrite Hj|]. right.
    cbn [BDeepModel.deep_step] in Hj. unfold alone, BDeepModel.both in Hj. unfold BWholeModel.whole_step. cbn [BWholeModel.parts fst snd].
    rewrite (ds_pool _ _ (run_sim j)) in Hj. by destruct (pool_part (Some LJoin) (wpool (ws j))).
Qed.

Lemma whole_submissions N : submissions_end N l -> BWholeSpec.submissions_end N wl.
Proof.
  intros HS i d t Hi Hl. unfold wl in Hl. destruct (l i) as [d0|] eqn:El; [|done].
  destruct d0 as [w c v fail|d' t'| | |u]; cbn -[FineModel.fstep DeepFine.adv] in Hl; [repeat case_match; done| |done..].
  injection Hl as -> ->. by eapply HS.
Qed.
Lemma whole_terminate : all_terminate af sg -> BWholeSpec.all_terminate af ws.
Proof. intros HT i f t. unfold BWholeSpec.submitted. rewrite <- (ds_hist _ _ (run_sim i)). apply HT. Qed.
End run.

Lemma reach_sim x : reach n unit K k af x -> exists y, dsim x y /\ BWholeSpec.wreach n unit af y.
Proof.
  induction 1 as [|x l x' Hr (y & D & Hy) Hl Hs]; [exists (BWholeModel.init_whole n); split; [apply sim_init|constructor]|].
  destruct (deep_sim l x y D Hl) as (_ & Hx). destruct (Hx _ Hs) as (y' & D' & Hm). exists y'. split; [done|].
  destruct (wlab_of l x) as [m|]; [|by destruct Hm as (-> & _)]. destruct Hm. by econstructor.
Qed.
Lemma dreach_sim x : dreach n unit K k af x -> exists y, dsim x y /\ BWholeSpec.dreach n unit af y.
Proof.
  induction 1 as [|x l x' Hr (y & D & Hy) Hl Hd Hs]; [exists (BWholeModel.init_whole n); split; [apply sim_init|constructor]|].
  destruct (deep_sim l x y D Hl) as (_ & Hx). destruct (Hx _ Hs) as (y' & D' & Hm). exists y'. split; [done|].
  destruct (wlab_of l x) as [m|] eqn:Em; [|by destruct Hm as (-> & _)]. destruct Hm. econstructor; [done|done|by eapply documented_whole|done].
Qed.

(** What is done on atomic deques is done here. *)
Lemma finished_sim f t x y : dsim x y -> BWholeSpec.finished af f t y -> finished af f t x.
Proof.
  intros D (H1 & o & H2 & H3). rewrite <- (ds_hist _ _ D) in H1. split; [done|]. exists o. split; [|done].
  destruct (ds_sim _ _ D) as (Q & H & M). by rewrite (FineSpec.a_res _ _ (FineProofs2.sim_agrees _ _ _ _ _ _ _ _ M)).
Qed.
End Sim.
