(** The pool on the real deques is simulated by the pool on atomic deques. *)

From stdpp Require Import prelude gmap list.
From Coq Require Import NArith Lia.
From Verif Require Import PoolCommon LazyModel LazyProofs LazyLive LazyLive2 DeepModel DeepSpec.
From Verif Require RuntimeModel RuntimeSpec DequeModel FineModel FineSpec FineLiveSpec FineProofs FineProofs2 FineLive DeepFine.
From Verif Require WholeModel WholeSpec WholeInv WholeProofs.

Notation whole := WholeModel.whole.
Notation wpool := WholeModel.pool.
Notation wrt := WholeModel.rt.
Notation whist := WholeModel.hist.
Notation XWorker := WholeModel.XWorker.
Notation from := FineModel.from.
Notation down x w := (DequeModel.d_own (FineModel.dq x w)).
Notation OIdle := DequeModel.OIdle.

Section Sim.
Context (n nd : nat) (dom : nat -> nat) (K k : nat) (af : bool).
Notation deep_step := (deep_step n nd dom K).
Notation both := (both n nd dom).
Notation legal := (legal n af).
Notation whole_step := (WholeModel.whole_step n nd dom).
Notation winv := (WholeInv.winv n nd dom af).
Notation sim := (FineProofs2.sim n k af).

(** What worker [w] does in the pool, and what it does with the deques. *)
Definition dw (w : nat) (p : st) (f : FineModel.fine) : Prop :=
  (forall v, from f w = Some v -> ag p w = AIdle /\ (pc p w = WSteal \/ pc p w = TSub [])) /\
  ((forall h, pc p w <> TRun h) -> down f w = OIdle).

Record dsim (x : deep) (y : whole) : Prop := DSim {
  ds_pool : pool x = wpool y;
  ds_hist : hist x = whist y;
  ds_sim : exists Q H, sim (fn x) (hist x) (wrt y) Q H;
  ds_winv : winv y;
  ds_dw : forall w, w < n -> dw w (pool x) (fn x)
}.

(** The step of the pool on atomic deques that the step [l] is, if any. *)
Definition wlab_of (l : dlab) (x : deep) : option WholeModel.wlab :=
  match l with
  | YWorker w c v fail =>
    match ag (pool x) w with
    | AIdle =>
      match from (fn x) w with
      | Some u =>
        match FineModel.fstep (FineModel.FWork w fail) (fn x) with
        | FineModel.FNext f _ => if grabbed (fn x) f w then Some (XWorker w (Choice true None) u false) else None
        | _ => None
        end
      | None =>
        match pc (pool x) w with
        | WSteal => if c_steal c && bool_decide (tries x w < K) then None else Some (XWorker w (Choice false (c_target c)) v fail)
        | TRun _ =>
          if FineModel.looking w (fn x) then Some (XWorker w c v fail)
          else match DeepFine.adv w fail (fn x) with Some fl => Some (XWorker w c v fl) | None => None end
        | _ => Some (XWorker w c v fail)
        end
      end
    | _ => Some (XWorker w c v fail)
    end
  | YClient a d t => Some (WholeModel.XClient a d t)
  | YDtor => Some WholeModel.XDtor
  | YSpurious w => Some (WholeModel.XSpurious w)
  | YStale w => Some (WholeModel.XStale w)
  end.

(** How far worker [w] is from its next step of the pool on atomic deques, at most. *)
Definition R (w : nat) (x : deep) : nat := (K - tries x w) * 30 + DeepFine.pos w (fn x).

(** ** Parts *)

Lemma both_next l r t x x' : both l r t x = DNext x' -> exists p trp f tr,
  WholeModel.pool_part n nd dom l (pool x) = Next p trp /\ r = FineModel.FNext f tr /\ x' = Deep p f t (rev tr ++ hist x).
Proof.
  unfold DeepModel.both. destruct (WholeModel.pool_part n nd dom l (pool x)) as [p trp| |]; destruct r as [f tr| |]; try done.
  intros [= <-]. by exists p, trp, f, tr.
Qed.
Lemma both_undef l r t x : r <> FineModel.FUndef -> WholeModel.pool_part n nd dom l (pool x) <> Undef -> both l r t x <> DUndef.
Proof. unfold DeepModel.both. destruct (WholeModel.pool_part n nd dom l (pool x)), r; done. Qed.
Lemma both_block l r t x : r <> FineModel.FBlocked -> WholeModel.pool_part n nd dom l (pool x) <> Blocked -> both l r t x <> DBlock.
Proof. unfold DeepModel.both. destruct (WholeModel.pool_part n nd dom l (pool x)), r; done. Qed.

Lemma pool_defined m y pl rl : winv y -> WholeSpec.legal n af m -> WholeModel.parts n m y = Some (pl, rl) ->
  WholeModel.pool_part n nd dom pl (wpool y) <> Undef.
Proof.
  intros I Hl Hp Hu. apply (WholeProofs.step_defined n nd dom af m y I Hl). unfold WholeModel.whole_step. by rewrite Hp, Hu.
Qed.

(** A step of the pool together with one of the runtime on atomic deques. *)
Lemma joint x y m pl rl r t x' :
  dsim x y -> WholeSpec.legal n af m -> WholeModel.parts n m y = Some (pl, rl) ->
  both pl r t x = DNext x' ->
  (forall f tr, r = FineModel.FNext f tr -> exists s' Q H, sim f (rev tr ++ hist x) s' Q H /\ WholeModel.rt_part rl (wrt y) = RuntimeModel.Next s' tr) ->
  (forall w, w < n -> dw w (pool x') (fn x')) ->
  exists y', dsim x' y' /\ whole_step m y = WholeModel.WNext y'.
Proof.
  intros D Hl Hp Hb Hr Hd. destruct (both_next _ _ _ _ _ Hb) as (p & trp & f & tr & H1 & -> & ->).
  destruct (Hr f tr eq_refl) as (s' & Q & H & M & H2). cbn in Hd. rewrite (ds_pool _ _ D) in H1.
  assert (E : whole_step m y = WholeModel.WNext (WholeModel.Whole p s' (rev tr ++ whist y))).
  { unfold WholeModel.whole_step. by rewrite Hp, H1, H2. }
  exists (WholeModel.Whole p s' (rev tr ++ whist y)). split; [|done]. split; cbn.
  - done.
  - by rewrite (ds_hist _ _ D).
  - eauto.
  - eapply WholeInv.step_winv; [apply D|done|done].
  - done.
Qed.

Lemma dw_other u p p' f f' pl trp :
  WholeModel.pool_part n nd dom pl p = Next p' trp ->
  match pl with Some l => notw u l /\ nota u l | None => True end ->
  from f' u = from f u -> down f' u = down f u -> dw u p f -> dw u p' f'.
Proof.
  intros Hp Hn E1 E2 (D1 & D2). unfold dw. rewrite E1, E2. destruct pl as [l|]; cbn in Hp; [|by injection Hp as <- _].
  destruct Hn as (Hn1 & Hn2). pose proof (other_ag n nd dom u _ _ _ _ Hp Hn2) as Ea.
  pose proof (other_pc n nd dom u _ _ _ _ Hp Hn1) as Ep. split.
  - intros v Hv. destruct (D1 v Hv) as (X1 & X2). rewrite Ea. split; [done|].
    destruct Ep as [->|(key & Ep & _)]; [done|]. rewrite Ep in X2. by destruct X2.
  - intros Hh. apply D2. intros h Hh'. destruct Ep as [Ep|(key & Ep & _)]; [|congruence]. apply (Hh h). congruence.
Qed.

(** After a step of worker [w]. *)
Lemma dw_worker w pl trp x p' l f' :
  (forall u, u < n -> dw u (pool x) (fn x)) ->
  WholeModel.pool_part n nd dom pl (pool x) = Next p' trp ->
  match pl with Some (LWorker a _) | Some (LAgent a _ _) => a = w | Some _ => False | None => True end ->
  (forall u, u <> w -> ~ FineLiveSpec.by_worker u l) ->
  (exists tr, FineModel.fstep l (fn x) = FineModel.FNext f' tr) \/ f' = fn x ->
  dw w p' f' -> forall u, u < n -> dw u p' f'.
Proof.
  intros D Hp Hpl Hl Hf Hw u Hu. destruct (decide (u = w)) as [->|Hne]; [done|].
  assert (from f' u = from (fn x) u /\ down f' u = down (fn x) u) as (E1 & E2).
  { destruct Hf as [(tr & Hf)| ->]; [|done]. destruct (DeepFine.other_pos u l _ _ _ (Hl u Hne) Hf) as (? & ? & _). done. }
  eapply dw_other; [exact Hp| |done|done|by apply D].
  destruct pl as [[a c|a d j| |a]|]; try done; subst a; cbn; split; try done; by intros ->.
Qed.

Lemma agent_defined a d j p : LazyModel.step n nd dom (LAgent a d j) p <> Undef.
Proof. simpl. unfold agent, ret, notify. repeat case_match; done. Qed.

Lemma sim_moving x h s Q H w : sim x h s Q H -> WholeModel.moving (FineModel.rt x) w = WholeModel.moving s w.
Proof.
  intros [_ -> _ _ _ _]. unfold WholeModel.moving. rewrite FineProofs.wd_lookup.
  destruct (RuntimeModel.s_workers (FineModel.rt x) !! w); done.
Qed.
Lemma moving_noop r w : FineModel.next_op w r <> FineModel.NoOp -> WholeModel.moving r w = None.
Proof.
  unfold FineModel.next_op, WholeModel.moving. destruct (RuntimeModel.s_workers r !! w) as [wk|]; [|done].
  destruct (RuntimeModel.w_pc wk) eqn:Ep; try done. destruct (RuntimeModel.s_frames r !! f) as [fr|]; [|done]. cbn.
  destruct (RuntimeModel.f_rp fr) as [t| | | | | | |]; try done. by destruct t.
Qed.
Lemma work_resting w fl s s' tr : RuntimeModel.step (RuntimeModel.LWork w fl) s = RuntimeModel.Next s' tr -> WholeModel.resting s w = false.
Proof.
  cbn. intros Hs. unfold WholeModel.resting. destruct (RuntimeModel.s_workers s !! w) as [wk|] eqn:Hw; [|unfold RuntimeModel.wstep in Hs; by rewrite Hw in Hs].
  destruct (RuntimeModel.w_pc wk) eqn:E1; try done. destruct (RuntimeModel.w_batch wk) eqn:E2; try done.
  by rewrite (FineLive.wstep_idle _ _ _ _ Hw E1 E2) in Hs.
Qed.

Lemma worker_pool w c p p' trp : WholeModel.pool_part n nd dom (Some (LWorker w c)) p = Next p' trp ->
  w < n /\ LazyModel.worker n nd dom w c p = Next p' trp.
Proof. cbn. case_decide; done. Qed.

(** ** The simulation *)

Definition sim_step (l : dlab) (x : deep) (y : whole) (x' : deep) : Prop :=
  exists y', dsim x' y' /\
    match wlab_of l x with
    | Some m => WholeSpec.legal n af m /\ whole_step m y = WholeModel.WNext y'
    | None => y' = y /\ exists w c v fail, l = YWorker w c v fail /\ R w x' < R w x
    end.

(** A step of the pool alone. *)
Lemma sim_alone l x y pl m x' t :
  dsim x y -> wlab_of l x = Some m -> WholeSpec.legal n af m -> WholeModel.parts n m y = Some (Some pl, None) ->
  both (Some pl) (FineModel.FNext (fn x) []) t x = DNext x' ->
  (forall p' trp, WholeModel.pool_part n nd dom (Some pl) (pool x) = Next p' trp -> forall w, w < n -> dw w p' (fn x)) ->
  sim_step l x y x'.
Proof.
  intros D Em Hl Hp Hb Hd. destruct (both_next _ _ _ _ _ Hb) as (p & trp & f & tr & H1 & E & Ex). injection E as <- <-.
  destruct (ds_sim _ _ D) as (Q & H & M).
  destruct (joint _ _ _ _ _ _ _ _ D Hl Hp Hb) as (y' & D' & Hs).
  - intros f tr [= <- <-]. exists (wrt y), Q, H. done.
  - subst x'. cbn. by eapply Hd.
  - exists y'. split; [done|]. by rewrite Em.
Qed.

Ltac fine_labels := cbn; intros ? ? ?; congruence.

Lemma thread_sim w c v fail x y :
  dsim x y -> w < n -> legal (YWorker w c v fail) ->
  thread n nd dom K w c v fail x <> DUndef /\
  forall x', thread n nd dom K w c v fail x = DNext x' -> sim_step (YWorker w c v fail) x y x'.
Proof.
  intros D Hw Hl. pose proof (ds_dw _ _ D) as DW. destruct (ds_sim _ _ D) as (Q & H & M). pose proof (ds_winv _ _ D) as I.
  destruct (DW w Hw) as (D1 & D2).
  assert (exists wk, RuntimeModel.s_workers (wrt y) !! w = Some wk) as (wk & Hwk).
  { apply lookup_lt_is_Some_2. by rewrite (WholeInv.wi_len _ _ _ _ _ I). }
  pose proof (WholeInv.wi_agree _ _ _ _ _ I w wk Hwk) as Hag.
  unfold thread. unfold sim_step, wlab_of. fold (wlab_of (YWorker w c v fail) x). 
  (* inside schedule *)
  assert (Hag0 : ag (pool x) w <> AIdle ->
    alone n nd dom (LAgent w 0 0) x <> DUndef /\
    forall x', alone n nd dom (LAgent w 0 0) x = DNext x' -> sim_step (YWorker w c v fail) x y x').
  { intros Ha. assert (Em : wlab_of (YWorker w c v fail) x = Some (XWorker w c v fail)) by (cbn; by destruct (ag (pool x) w)).
    assert (Hp : WholeModel.parts n (XWorker w c v fail) y = Some (Some (LAgent w 0 0), None)).
    { cbn. rewrite <- (ds_pool _ _ D). by destruct (ag (pool x) w). }
    split.
    - apply both_undef; [done|]. rewrite (ds_pool _ _ D). by eapply (pool_defined (XWorker w c v fail)).
    - intros x' Hx. eapply sim_alone; [done|exact Em|done|exact Hp|exact Hx|].
      intros p' trp Hs. eapply (dw_worker w); [done|exact Hs|done|by intros u Hu; cbn; instantiate (1 := FineModel.FTake w); cbn; congruence|by right|].
      split.
      + intros v0 Hv0. destruct (D1 v0 Hv0) as (X & _). by destruct Ha.
      + intros Hh. apply D2. intros h Hh'. destruct (other_pc n nd dom w (LAgent w 0 0) _ _ _ Hs Logic.I) as [E|(key & E & _)]; [|congruence].
        apply (Hh h). congruence. }
  destruct (ag (pool x) w) eqn:Ha; [|by apply Hag0..]. clear Hag0.
  destruct (from (fn x) w) as [u|] eqn:Hf.
  { (* inside a steal *)
    destruct (DeepFine.work_steal _ _ _ _ _ _ _ _ _ _ fail M Hf) as (Z1 & Z2 & Z3).
    destruct (D1 u eq_refl) as (_ & Hpc).
    destruct (FineModel.fstep (FineModel.FWork w fail) (fn x)) as [f tr| |] eqn:Ef; [|done..]. clear Z1 Z2.
    destruct (Z3 _ _ eq_refl) as ((-> & s' & Q1 & H1 & M' & Hs') & Hpos & Hfr). clear Z3.
    assert (Em : wlab_of (YWorker w c v fail) x = if grabbed (fn x) f w then Some (XWorker w (Choice true None) u false) else None).
    { cbn -[FineModel.fstep]. by rewrite Ha, Hf, Ef. }
    destruct (FineProofs2.m_from _ _ _ _ _ _ _ _ M w u Hf) as (_ & _ & Ho & _).
    assert (Ho' : down f w = OIdle).
    { cbn [FineModel.fstep] in Ef. rewrite Hf in Ef. destruct (FineLive.steal_step_parts _ _ _ _ _ Ef) as (q0 & ev & Eq & Ed & _).
      rewrite Ed. destruct (FineLive.thief_rank _ _ _ _ Eq) as (_ & _ & E). destruct (decide (w = u)) as [->|Hn]; [by rewrite FineProofs.set_at_eq, E|by rewrite FineProofs.set_at_ne]. }
    assert (HdwS : forall p' pl trp, WholeModel.pool_part n nd dom pl (pool x) = Next p' trp ->
      match pl with Some (LWorker a _) | Some (LAgent a _ _) => a = w | Some _ => False | None => True end ->
      ag p' w = AIdle -> (pc p' w = WSteal \/ pc p' w = TSub []) -> forall u0, u0 < n -> dw u0 p' f).
    { intros p' pl trp Hs Hpl Ea Ep. eapply (dw_worker w); [done|exact Hs|done| |left; eexists; exact Ef|].
      - cbn. congruence.
      - split; [by intros|done]. }
    destruct (grabbed (fn x) f w) eqn:Eg.
    - assert (Hr : WholeModel.resting (wrt y) w = true).
      { rewrite <- (DeepFine.sim_resting _ _ _ _ _ _ _ _ w M). unfold grabbed in Eg. by destruct (WholeModel.resting _ w). }
      assert (Hpc' : pc (pool x) w = WSteal).
      { destruct Hpc as [|Hpc]; [done|]. rewrite <- (ds_pool _ _ D), Hpc in Hag. cbn in Hag. destruct Hag as (g & Hg).
        unfold WholeModel.resting in Hr. by rewrite Hwk, Hg in Hr. }
      assert (Hp : WholeModel.parts n (XWorker w (Choice true None) u false) y = Some (Some (LWorker w (Choice true None)), Some (RuntimeModel.LSteal w u))).
      { cbn. by rewrite <- (ds_pool _ _ D), Ha, Hpc'. }
      split.
      + apply both_undef; [done|]. rewrite (ds_pool _ _ D). by eapply (pool_defined (XWorker w (Choice true None) u false)).
      + intros x' Hx. destruct (fun L R DD => joint x y _ _ _ _ _ _ D L Hp Hx R DD) as (y' & D' & Hst).
        * done.
        * intros f0 tr0 [= <- <-]. by exists s', Q1, H1.
        * destruct (both_next _ _ _ _ _ Hx) as (p & trp & f0 & tr0 & G1 & [= <- <-] & ->). cbn.
          pose proof (worker_pool _ _ _ _ _ G1) as (_ & G2).
          eapply HdwS; [exact G1|done|..]; unfold LazyModel.worker, ret in G2; rewrite Hpc' in G2; injection G2 as <- _; cbn.
          -- done.
          -- right. by rewrite fset_eq.
        * exists y'. split; [done|]. rewrite Em. done.
    - split; [by apply both_undef|]. intros x' Hx. destruct (both_next _ _ _ _ _ Hx) as (p & trp & f0 & tr0 & G1 & [= <- <-] & ->).
      pose proof G1 as G1'. cbn in G1. injection G1 as <- <-. subst s'. exists y. split.
      + split; cbn; try apply D.
        * eauto.
        * by eapply (HdwS _ None).
      + rewrite Em. split; [done|]. exists w, c, v, fail. split; [done|]. unfold R. cbn. lia. }
  (* not stealing *)
  assert (Hdw1 : forall pl trp p', WholeModel.pool_part n nd dom (Some (LWorker w pl)) (pool x) = Next p' trp ->
    (down (fn x) w = OIdle) -> forall u0, u0 < n -> dw u0 p' (fn x)).
  { intros pl trp p' Hs Ho. eapply (dw_worker w); [done|exact Hs|done|by intros u0 Hu0; instantiate (1 := FineModel.FTake w); cbn; congruence|by right|].
    split; [by rewrite Hf|done]. }
  (* a step of the pool alone *)
  assert (Hpool : forall c' t, wlab_of (YWorker w c v fail) x = Some (XWorker w c' v fail) ->
    WholeModel.parts n (XWorker w c' v fail) y = Some (Some (LWorker w c'), None) -> down (fn x) w = OIdle ->
    both (Some (LWorker w c')) (FineModel.FNext (fn x) []) t x <> DUndef /\
    forall x', both (Some (LWorker w c')) (FineModel.FNext (fn x) []) t x = DNext x' -> sim_step (YWorker w c v fail) x y x').
  { intros c' t Em Hp Ho. split.
    - apply both_undef; [done|]. rewrite (ds_pool _ _ D). by eapply (pool_defined (XWorker w c' v fail)).
    - intros x' Hx. eapply sim_alone; [done|exact Em|exact Hl|exact Hp|exact Hx|]. intros p' trp Hs. by eapply Hdw1. }
  assert (Halone : (forall h, pc (pool x) w <> TRun h) -> wlab_of (YWorker w c v fail) x = Some (XWorker w c v fail) ->
    WholeModel.parts n (XWorker w c v fail) y = Some (Some (LWorker w c), None) ->
    alone n nd dom (LWorker w c) x <> DUndef /\
    forall x', alone n nd dom (LWorker w c) x = DNext x' -> sim_step (YWorker w c v fail) x y x').
  { intros Hh Em Hp. apply Hpool; [done|done|by apply D2]. }
  (* the submission list *)
  assert (Hpop : (forall h, pc (pool x) w <> TRun h) -> wlab_of (YWorker w c v fail) x = Some (XWorker w c v fail) ->
    WholeModel.parts n (XWorker w c v fail) y = Some (Some (LWorker w c), match q (pool x) w with [] => None | _ => Some (RuntimeModel.LTake w) end) ->
    both (Some (LWorker w c)) (match q (pool x) w with [] => FineModel.FNext (fn x) [] | _ => FineModel.fstep (FineModel.FTake w) (fn x) end) (tries x) x <> DUndef /\
    forall x', both (Some (LWorker w c)) (match q (pool x) w with [] => FineModel.FNext (fn x) [] | _ => FineModel.fstep (FineModel.FTake w) (fn x) end) (tries x) x = DNext x' ->
      sim_step (YWorker w c v fail) x y x').
  { intros Hh Em Hp. destruct (q (pool x) w) as [|j js] eqn:Eq; [by apply Halone|].
    destruct (DeepFine.take_exact _ _ _ _ _ _ _ _ w M) as (Z1 & Z2). split.
    - apply both_undef; [done|]. rewrite (ds_pool _ _ D). by eapply (pool_defined (XWorker w c v fail)).
    - intros x' Hx. destruct (both_next _ _ _ _ _ Hx) as (p & trp & f0 & tr0 & G1 & G2 & Ex).
      destruct (fun L R DD => joint x y _ _ _ _ _ _ D L Hp Hx R DD) as (y' & D' & Hst).
      + exact Hl.
      + intros f1 tr1 E. destruct (Z2 _ _ E) as (s' & M' & Hs' & _). eauto.
      + destruct (Z2 _ _ G2) as (s' & M' & Hs' & Ed & Efr). subst x'. cbn.
        eapply (dw_worker w); [done|exact G1|done| |left; eexists; exact G2|].
        * cbn. congruence.
        * split; [by rewrite Efr, Hf|]. intros _. rewrite Ed. by apply D2.
      + exists y'. split; [done|]. by rewrite Em. }
  assert (Hparts : forall c' fl, WholeModel.parts n (XWorker w c' v fl) y =
    match pc (pool x) w with
      | WPop1 | WPop2 _ =>
        Some (Some (LWorker w c'), match q (pool x) w with [] => None | _ => Some (RuntimeModel.LTake w) end)
      | WSteal => Some (Some (LWorker w c'), if c_steal c' then Some (RuntimeModel.LSteal w v) else None)
      | TRun _ =>
        if WholeModel.resting (wrt y) w then Some (Some (LWorker w c'), None)
        else Some (match WholeModel.moving (wrt y) w with Some (d, f) => Some (LAgent w d (N.to_nat f)) | None => None end,
                   Some (RuntimeModel.LWork w fl))
      | _ => Some (Some (LWorker w c'), None)
      end).
  { intros c' fl. cbn. by rewrite <- (ds_pool _ _ D), Ha. }
  assert (Hlab : wlab_of (YWorker w c v fail) x =
     match pc (pool x) w with
        | WSteal => if c_steal c && bool_decide (tries x w < K) then None else Some (XWorker w (Choice false (c_target c)) v fail)
        | TRun _ =>
          if FineModel.looking w (fn x) then Some (XWorker w c v fail)
          else match DeepFine.adv w fail (fn x) with Some fl => Some (XWorker w c v fl) | None => None end
        | _ => Some (XWorker w c v fail)
        end).
  { cbn -[DeepFine.adv]. by rewrite Ha, Hf. }
  pose proof (Hparts c fail) as Hpc1.
  destruct (pc (pool x) w) eqn:Hpc; try (apply Halone; done).
  - by apply Hpop.
  - (* try_steal *)
    destruct (c_steal c && bool_decide (tries x w < K)) eqn:Ec.
    + apply andb_true_iff in Ec as (_ & Ht%bool_decide_eq_true).
      destruct (DeepFine.begin_steal _ _ _ _ _ _ _ _ w v M) as (Z1 & Z2). split; [by apply both_undef|].
      intros x' Hx. destruct (both_next _ _ _ _ _ Hx) as (p & trp & f0 & tr0 & G1 & G2 & ->).
      destruct (Z2 _ _ G2) as ((-> & s' & Q1 & H1 & M' & Hs') & Eg & P1 & P2 & Ef0 & Elk). rewrite Eg in Hs'. subst s'.
      pose proof G1 as G1'. cbn in G1. injection G1 as <- <-. exists y. split.
      * split; cbn; try apply D; [eauto|]. eapply (dw_worker w); [done|exact G1'|done| |left; eexists; exact G2|].
        -- cbn. congruence.
        -- split; [intros _ _; rewrite Ha, Hpc; auto|]. intros _.
           cbn [FineModel.fstep] in G2. case_decide as Hne; [done|]. destruct (RuntimeModel.s_workers (FineModel.rt (fn x)) !! v); [|done].
           rewrite Elk in G2. destruct (FineLive.steal_step_parts _ _ _ _ _ G2) as (q0 & ev & Eq & Ed & _). rewrite Ed. cbn.
           rewrite FineProofs.set_at_ne by done. apply D2. congruence.
      * rewrite Hlab. split; [done|]. exists w, c, v, fail. split; [done|]. unfold R. cbn. rewrite FineProofs.set_at_eq. lia.
    + apply Hpool; [done| |apply D2; congruence]. by rewrite Hparts.
  - by apply Hpop.
  - (* resume *)
    destruct (FineModel.looking w (fn x)) eqn:El.
    + destruct (proj1 (DeepFine.looking_iff _ _) El) as (_ & Ho & w1 & Hw1 & E1 & E2). apply Hpool; [done| |done].
      rewrite Hpc1, <- (DeepFine.sim_resting _ _ _ _ _ _ _ _ w M). unfold WholeModel.resting. by rewrite Hw1, E1, E2.
    + destruct (FineProofs2.sim_own_step _ _ _ _ _ _ _ _ w fail M Hf Hl) as (Z1 & _).
      assert (Ef : FineModel.fstep (FineModel.FWork w fail) (fn x) = FineModel.own_step w fail (fn x)) by (cbn [FineModel.fstep]; by rewrite Hf).
      split.
      * apply both_undef; [by rewrite Ef|]. destruct (moving (fn x) w) as [[d f]|]; [apply agent_defined|done].
      * intros x' Hx. destruct (both_next _ _ _ _ _ Hx) as (p & trp & f0 & tr0 & G1 & G2 & Ex). rewrite Ef in G2.
        destruct (DeepFine.own_exact _ _ _ _ _ _ _ _ _ _ _ _ M Hf Hl G2) as (s' & Q1 & H1 & M' & Efr & Hadv).
        assert (Hdw : forall u0, u0 < n -> dw u0 (pool x') (fn x')).
        { subst x'. cbn. eapply (dw_worker w); [done|exact G1| | |left; eexists; rewrite Ef; exact G2|].
          - by destruct (moving (fn x) w) as [[d f]|].
          - cbn. congruence.
          - split; [by rewrite Efr, Hf|]. intros Hh. exfalso. destruct (moving (fn x) w) as [[d f]|]; cbn in G1.
            + destruct (other_pc n nd dom w (LAgent w d (N.to_nat f)) _ _ _ G1 Logic.I) as [E|(key & E & _)]; [|congruence].
              apply (Hh h). congruence.
            + injection G1 as <- _. by apply (Hh h). }
        destruct (DeepFine.adv w fail (fn x)) as [fl|] eqn:Ea.
        -- destruct Hadv as (Hal & Hst & Hno). 
           assert (Hm : moving (fn x) w = WholeModel.moving (wrt y) w).
           { rewrite <- (sim_moving _ _ _ _ _ w M). unfold moving. destruct (down (fn x) w) eqn:Eo; try done; symmetry; by apply moving_noop, Hno. }
           pose proof (Hparts c fl) as Hp. rewrite (work_resting _ _ _ _ _ Hst), <- Hm in Hp.
           destruct (fun L R DD => joint x y _ _ _ _ _ _ D L Hp Hx R DD) as (y' & D' & Hw').
           ++ exact Hal.
           ++ rewrite Ef. intros f1 tr1 E. rewrite G2 in E. injection E as <- <-. by exists s', Q1, H1.
           ++ exact Hdw.
           ++ exists y'. split; [done|]. rewrite Hlab. done.
        -- destruct Hadv as (-> & -> & Hpos & Hno).
           assert (Hm : moving (fn x) w = None).
           { unfold moving. destruct (down (fn x) w) eqn:Eo; try done. by apply moving_noop, Hno. }
           rewrite Hm in G1. cbn in G1. injection G1 as <- <-. subst x'. exists y. split.
           ++ split; cbn; try apply D; [eauto|]. exact Hdw.
           ++ rewrite Hlab. split; [done|]. exists w, c, v, fail. split; [done|]. unfold R. cbn. lia.
Qed.

Lemma deep_sim l x y : dsim x y -> legal l ->
  deep_step l x <> DUndef /\ forall x', deep_step l x = DNext x' -> sim_step l x y x'.
Proof.
  intros D Hl. pose proof (ds_dw _ _ D) as DW. destruct (ds_sim _ _ D) as (Q & H & M). pose proof (ds_winv _ _ D) as I.
  (* a step of the pool alone that is not one of a worker *)
  assert (Hpool : forall pl m, wlab_of l x = Some m -> WholeSpec.legal n af m -> WholeModel.parts n m y = Some (Some pl, None) ->
    (forall u, u < n -> notw u pl /\ nota u pl) ->
    alone n nd dom pl x <> DUndef /\ forall x', alone n nd dom pl x = DNext x' -> sim_step l x y x').
  { intros pl m Em Hm Hp Hn. split.
    - apply both_undef; [done|]. rewrite (ds_pool _ _ D). by eapply (pool_defined m).
    - intros x' Hx. eapply sim_alone; [done|exact Em|exact Hm|exact Hp|exact Hx|]. intros p' trp Hs u Hu.
      eapply dw_other; [exact Hs|by apply Hn|done|done|by apply DW]. }
  destruct l as [w c v fail|a d t| |w|w]; cbn [DeepModel.deep_step].
  - case_decide as Hw; [|done]. by apply thread_sim.
  - case_decide as Hna; [done|]. assert (Hn : forall d j u, u < n -> notw u (LAgent a d j) /\ nota u (LAgent a d j)) by (intros d' j u Hu; split; [done|]; cbn; lia).
    destruct (ag (pool x) a) eqn:Ha.
    + assert (Hp : WholeModel.parts n (WholeModel.XClient a d t) y =
        Some (Some (LAgent a d (N.to_nat (RuntimeModel.s_nextf (FineModel.rt (fn x))))), Some (RuntimeModel.LSpawn d t))).
      { cbn. rewrite decide_False by done. rewrite <- (ds_pool _ _ D), Ha. by rewrite (FineProofs2.m_state _ _ _ _ _ _ _ _ M). }
      destruct (DeepFine.spawn_exact _ _ _ _ _ _ _ _ d t M Hl) as (Z1 & Z2). split.
      * apply both_undef; [done|]. apply agent_defined.
      * intros x' Hx. destruct (both_next _ _ _ _ _ Hx) as (p & trp & f0 & tr0 & G1 & G2 & Ex).
        destruct (Z2 _ _ G2) as (s' & Q1 & H1 & M' & Hs' & Ed & Efr).
        destruct (fun L R DD => joint x y _ _ _ _ _ _ D L Hp Hx R DD) as (y' & D' & Hst).
        -- exact Hl.
        -- intros f1 tr1 E. rewrite G2 in E. injection E as <- <-. by exists s', Q1, H1.
        -- subst x'. cbn. intros u Hu. eapply dw_other; [exact G1|by apply Hn|by rewrite Efr|by rewrite Ed|by apply DW].
        -- exists y'. split; [done|]. cbn. done.
    + apply (Hpool (LAgent a 0 0) (WholeModel.XClient a d t)); [done|exact Hl| |by apply Hn]. cbn. rewrite decide_False by done. by rewrite <- (ds_pool _ _ D), Ha.
    + apply (Hpool (LAgent a 0 0) (WholeModel.XClient a d t)); [done|exact Hl| |by apply Hn]. cbn. rewrite decide_False by done. by rewrite <- (ds_pool _ _ D), Ha.
  - by apply (Hpool LDtor WholeModel.XDtor).
  - by apply (Hpool (LSpurious w) (WholeModel.XSpurious w)).
  - destruct (ag (pool x) w) eqn:Ha; try done. destruct (pc (pool x) w) eqn:Hpc; try done.
    assert (Hp : WholeModel.parts n (WholeModel.XStale w) y = Some (None, Some (RuntimeModel.LStale w))).
    { cbn. by rewrite <- (ds_pool _ _ D), Ha, Hpc. }
    destruct (DeepFine.stale_exact _ _ _ _ _ _ _ _ w M) as (Z1 & Z2). split; [by apply both_undef|].
    intros x' Hx. destruct (both_next _ _ _ _ _ Hx) as (p & trp & f0 & tr0 & G1 & G2 & Ex).
    destruct (Z2 _ _ G2) as (s' & M' & Hs' & Ed & Efr).
    destruct (fun L R DD => joint x y _ _ _ _ _ _ D L Hp Hx R DD) as (y' & D' & Hst).
    + done.
    + intros f1 tr1 E. rewrite G2 in E. injection E as <- <-. eauto.
    + subst x'. cbn. intros u Hu. eapply dw_other; [exact G1|done|by rewrite Efr|by rewrite Ed|by apply DW].
    + exists y'. done.
Qed.

Lemma sim_init : dsim (init_deep n k) (WholeModel.init_whole n).
Proof.
  split; cbn; [done|done| |apply WholeInv.winv_init|].
  - eexists _, _. apply FineProofs2.sim_init.
  - intros w _. split; done.
Qed.

(** ** The rank of the others *)

Lemma thread_shape w c v fail x x' : thread n nd dom K w c v fail x = DNext x' ->
  (fn x' = fn x \/ exists l tr, FineModel.fstep l (fn x) = FineModel.FNext (fn x') tr /\ forall u, u <> w -> ~ FineLiveSpec.by_worker u l) /\
  forall u, u <> w -> tries x' u = tries x u.
Proof.
  intros E.
  assert (Hb : forall pl l t, both pl (FineModel.fstep l (fn x)) t x = DNext x' -> (forall u, u <> w -> ~ FineLiveSpec.by_worker u l) ->
    (forall u, u <> w -> t u = tries x u) ->
    (fn x' = fn x \/ exists l tr, FineModel.fstep l (fn x) = FineModel.FNext (fn x') tr /\ forall u, u <> w -> ~ FineLiveSpec.by_worker u l) /\
    forall u, u <> w -> tries x' u = tries x u).
  { intros pl l t Hx Hl Ht. destruct (both_next _ _ _ _ _ Hx) as (p & trp & f & tr & G1 & G2 & ->). cbn. split; [|done]. right. eauto. }
  assert (Ha : forall pl t, both pl (FineModel.FNext (fn x) []) t x = DNext x' -> (forall u, u <> w -> t u = tries x u) ->
    (fn x' = fn x \/ exists l tr, FineModel.fstep l (fn x) = FineModel.FNext (fn x') tr /\ forall u, u <> w -> ~ FineLiveSpec.by_worker u l) /\
    forall u, u <> w -> tries x' u = tries x u).
  { intros pl t Hx Ht. destruct (both_next _ _ _ _ _ Hx) as (p & trp & f & tr & G1 & [= <- <-] & ->). cbn. split; [by left|done]. }
  assert (Hset : forall z u, u <> w -> FineModel.set_at w z (tries x) u = tries x u) by (intros; by rewrite FineProofs.set_at_ne).
  assert (Hby : forall u, u <> w -> w <> u) by congruence.
  unfold thread in E. destruct (ag (pool x) w); [|by eapply Ha..].
  destruct (from (fn x) w).
  { cbn zeta in E. destruct (match FineModel.fstep (FineModel.FWork w fail) (fn x) with FineModel.FNext f _ => grabbed (fn x) f w | _ => false end);
      (eapply Hb; [exact E|exact Hby|]); [apply Hset|done]. }
  destruct (pc (pool x) w); try (by eapply Ha).
  - destruct (q (pool x) w); [by eapply Ha|]. eapply Hb; [exact E|exact Hby|done].
  - destruct (c_steal c && bool_decide (tries x w < K)); [eapply Hb; [exact E|exact Hby|apply Hset]|]. eapply Ha; [exact E|apply Hset].
  - destruct (q (pool x) w); [by eapply Ha|]. eapply Hb; [exact E|exact Hby|done].
  - destruct (FineModel.looking w (fn x)); [by eapply Ha|]. eapply Hb; [exact E|exact Hby|done].
Qed.

Lemma R_other u l x x' : deep_step l x = DNext x' -> (forall c v fail, l <> YWorker u c v fail) -> R u x' = R u x.
Proof.
  intros E Hn.
  assert (Hgen : (fn x' = fn x \/ exists l tr, FineModel.fstep l (fn x) = FineModel.FNext (fn x') tr /\ ~ FineLiveSpec.by_worker u l) ->
    tries x' u = tries x u -> R u x' = R u x).
  { unfold R. intros [-> |(l' & tr & Hs & Hb)] ->; [done|]. by rewrite (DeepFine.other_pos_eq _ _ _ _ _ Hb Hs). }
  assert (Ha : forall pl t, both pl (FineModel.FNext (fn x) []) t x = DNext x' -> t = tries x -> R u x' = R u x).
  { intros pl t Hx ->. destruct (both_next _ _ _ _ _ Hx) as (p & trp & f & tr & G1 & [= <- <-] & ->). apply Hgen; [by left|done]. }
  destruct l as [w c v fail|a d t| |w|w]; cbn [DeepModel.deep_step] in E.
  - case_decide; [|done]. destruct (thread_shape _ _ _ _ _ _ E) as (H1 & H2).
    assert (u <> w) by (intros ->; by eapply Hn). apply Hgen; [|by apply H2]. destruct H1 as [|(l & tr & ? & ?)]; [by left|right; eauto].
  - case_decide; [done|]. destruct (ag (pool x) a); [|by eapply Ha..].
    destruct (both_next _ _ _ _ _ E) as (p & trp & f & tr & G1 & G2 & ->). apply Hgen; [|done]. right. exists (FineModel.FSpawn d t), tr. split; [exact G2|by intros []].
  - by eapply Ha.
  - by eapply Ha.
  - destruct (ag (pool x) w); try done. destruct (pc (pool x) w); try done.
    destruct (both_next _ _ _ _ _ E) as (p & trp & f & tr & G1 & G2 & ->). unfold R. cbn. unfold DeepFine.pos.
    cbn [FineModel.fstep] in G2. repeat case_match; try done; apply FineLive.after_from in G2 as (E1 & E2); rewrite E1, E2 in *; congruence.
Qed.

(** ** When a worker can go on *)

Lemma blocked_whole x y w : dsim x y -> w < n ->
  (forall c v fail, legal (YWorker w c v fail) -> deep_step (YWorker w c v fail) x = DBlock) ->
  forall c v fail, WholeSpec.legal n af (XWorker w c v fail) -> whole_step (XWorker w c v fail) y = WholeModel.WBlock.
Proof.
  intros D Hw Hb c v fail Hl. pose proof (ds_dw _ _ D) as DW. destruct (ds_sim _ _ D) as (Q & H & M). pose proof (ds_winv _ _ D) as I.
  destruct (DW w Hw) as (D1 & D2).
  assert (exists wk, RuntimeModel.s_workers (wrt y) !! w = Some wk) as (wk & Hwk).
  { apply lookup_lt_is_Some_2. by rewrite (WholeInv.wi_len _ _ _ _ _ I). }
  pose proof (WholeInv.wi_agree _ _ _ _ _ I w wk Hwk) as Hag.
  destruct (whole_step (XWorker w c v fail) y) as [y'| |] eqn:Ew; [|done|by destruct (WholeProofs.step_defined n nd dom af _ _ I Hl Ew)].
  exfalso. apply WholeInv.step_inv in Ew as (pl & rl & trp & tr & Hp & H1 & H2 & _).
  assert (Hb' : forall c v, thread n nd dom K w c v false x = DBlock).
  { intros c0 v0. specialize (Hb c0 v0 false ltac:(done)). cbn [DeepModel.deep_step] in Hb. by rewrite decide_True in Hb. }
  clear Hb. cbn [WholeModel.parts] in Hp. rewrite <- (ds_pool _ _ D) in Hp, H1. rewrite <- (ds_pool _ _ D) in Hag.
  pose proof (Hb' c v) as Hc. unfold thread in Hc.
  assert (Hbt : forall l r t, both l r t x = DBlock -> r <> FineModel.FBlocked -> WholeModel.pool_part n nd dom l (pool x) <> Blocked -> False).
  { intros l r t E E1 E2. by eapply both_block. }
  destruct (ag (pool x) w) eqn:Ha; [|injection Hp as <- <-; eapply Hbt; [exact Hc|done|by rewrite H1]..].
  destruct (from (fn x) w) as [u|] eqn:Hf.
  { destruct (DeepFine.work_steal _ _ _ _ _ _ _ _ _ _ false M Hf) as (_ & Z2 & _).
    cbn zeta in Hc. destruct (FineModel.fstep (FineModel.FWork w false) (fn x)) as [f tr1| |] eqn:Ef; [|done|].
    - destruct (grabbed (fn x) f w); (eapply Hbt; [exact Hc|done|]); [|done]. cbn. rewrite decide_True by done.
      unfold LazyModel.worker. destruct (D1 u eq_refl) as (_ & [-> | ->]); [done|]. by destruct (LazyModel.thief_sub _ _).
    - eapply Hbt; [exact Hc|done|done]. }
  assert (Hlk : (forall h, pc (pool x) w <> TRun h) -> hof (pc (pool x) w) = None -> FineModel.looking w (fn x) = true).
  { intros Hh Ho. apply DeepFine.looking_iff. split; [done|]. split; [by apply D2|].
    rewrite (FineProofs2.m_state _ _ _ _ _ _ _ _ M), FineProofs.wd_lookup in Hwk.
    destruct (RuntimeModel.s_workers (FineModel.rt (fn x)) !! w) as [w0|]; [|done]. injection Hwk as <-. exists w0. split; [done|].
    unfold WholeInv.agree in Hag. rewrite Ho in Hag. by destruct (pc (pool x) w). }
  assert (Htake : (forall h, pc (pool x) w <> TRun h) -> hof (pc (pool x) w) = None -> RuntimeModel.step (RuntimeModel.LTake w) (wrt y) <> RuntimeModel.Blocked ->
    FineModel.fstep (FineModel.FTake w) (fn x) <> FineModel.FBlocked).
  { intros Hh Ho. eapply DeepFine.take_enabled; [exact M|by apply Hlk]. }
  destruct (pc (pool x) w) eqn:Hpc; try (injection Hp as <- <-; eapply Hbt; [exact Hc|done|by rewrite H1]).
  - injection Hp as <- <-. destruct (q (pool x) w); (eapply Hbt; [exact Hc| |by rewrite H1]); [done|]. apply Htake; [done|done|]. cbn in H2 |- *. by rewrite H2.
  - clear Hc. pose proof (Hb' (Choice false None) v) as Hc. unfold thread in Hc. rewrite Ha, Hf, Hpc in Hc. cbn [c_steal andb] in Hc.
    eapply Hbt; [exact Hc|done|]. cbn. rewrite decide_True by done. unfold LazyModel.worker. by rewrite Hpc.
  - injection Hp as <- <-. destruct (q (pool x) w); (eapply Hbt; [exact Hc| |by rewrite H1]); [done|]. apply Htake; [done|done|]. cbn in H2 |- *. by rewrite H2.
  - destruct (FineModel.looking w (fn x)) eqn:El.
    + destruct (proj1 (DeepFine.looking_iff _ _) El) as (_ & _ & w0 & Hw0 & E1 & E2).
      assert (WholeModel.resting (wrt y) w = true) as Er.
      { rewrite <- (DeepFine.sim_resting _ _ _ _ _ _ _ _ w M). unfold WholeModel.resting. by rewrite Hw0, E1, E2. }
      rewrite Er in Hp. injection Hp as <- <-. eapply Hbt; [exact Hc|done|by rewrite H1].
    + eapply Hbt; [exact Hc| |].
      * eapply FineLive.work_enabled; [exact M|]. right. split; [done|].
        rewrite (FineProofs2.m_state _ _ _ _ _ _ _ _ M), FineProofs.wd_lookup in Hwk. by destruct (RuntimeModel.s_workers (FineModel.rt (fn x)) !! w).
      * destruct (moving (fn x) w) as [[d f]|] eqn:Em; [|done].
        assert (WholeModel.moving (wrt y) w = Some (d, f)) as Em'.
        { rewrite <- (sim_moving _ _ _ _ _ w M). unfold moving in Em. by destruct (down (fn x) w). }
        assert (WholeModel.resting (wrt y) w = false) as Er.
        { unfold WholeModel.moving in Em'. unfold WholeModel.resting. rewrite Hwk in *. by destruct (RuntimeModel.w_pc wk). }
        rewrite Er, Em' in Hp. injection Hp as <- <-. by rewrite H1.
Qed.

(** ** Infinite executions *)

Section run.
Context (sg : nat -> deep) (l : nat -> option dlab).
Hypothesis HW : dfair n nd dom K k af sg l.

(** The execution of the pool on atomic deques. *)
Definition wl (i : nat) : option WholeModel.wlab := match l i with Some d => wlab_of d (sg i) | None => None end.
Fixpoint ws (i : nat) : whole :=
  match i with
  | O => WholeModel.init_whole n
  | S j => match wl j with
           | Some m => match whole_step m (ws j) with WholeModel.WNext y => y | _ => ws j end
           | None => ws j
           end
  end.

Lemma run_step i : dsim (sg i) (ws i) -> dsim (sg (S i)) (ws (S i)) /\
  match wl i with
  | Some m => WholeSpec.legal n af m /\ whole_step m (ws i) = WholeModel.WNext (ws (S i))
  | None => ws (S i) = ws i /\ match l i with
            | Some d => exists w c v fail, d = YWorker w c v fail /\ R w (sg (S i)) < R w (sg i)
            | None => sg (S i) = sg i end
  end.
Proof.
  intros D. pose proof (dr_step _ _ _ _ _ _ _ _ (df_run _ _ _ _ _ _ _ _ HW) i) as Hs. rewrite Nat.add_1_r in Hs.
  cbn [ws]. unfold wl. destruct (l i) as [d|] eqn:El.
  - destruct Hs as (Hl & Hs). destruct (deep_sim d _ _ D Hl) as (_ & Hx). destruct (Hx _ Hs) as (y' & D' & Hy).
    destruct (wlab_of d (sg i)) as [m|].
    + destruct Hy as (H1 & H2). by rewrite H2.
    + by destruct Hy as (-> & Hy).
  - by rewrite Hs.
Qed.
Lemma run_sim i : dsim (sg i) (ws i).
Proof.
  induction i as [|i IH]; [|by apply run_step]. rewrite (dr_init _ _ _ _ _ _ _ _ (df_run _ _ _ _ _ _ _ _ HW)). apply sim_init.
Qed.

Lemma R_step w i : (exists c v fail, wl i = Some (XWorker w c v fail)) \/
  (R w (sg (S i)) <= R w (sg i) /\ ((exists c v fail, l i = Some (YWorker w c v fail)) -> R w (sg (S i)) < R w (sg i))).
Proof.
  destruct (run_step i (run_sim i)) as (_ & Hs).
  pose proof (dr_step _ _ _ _ _ _ _ _ (df_run _ _ _ _ _ _ _ _ HW) i) as Hd. rewrite Nat.add_1_r in Hd. unfold wl in *.
  destruct (l i) as [d|] eqn:El; [|right; rewrite Hd; split; [done|by intros (? & ? & ? & ?)]]. destruct Hd as (_ & Hd).
  assert (Hdec : (exists c v fail, d = YWorker w c v fail) \/ forall c v fail, d <> YWorker w c v fail).
  { destruct d as [w' c v fail|a d t| |u|u]; try (right; done). destruct (decide (w' = w)) as [->|]; [left; eauto|right; congruence]. }
  destruct Hdec as [(c & v & fail & ->)|Hne].
  - destruct (wlab_of (YWorker w c v fail) (sg i)) as [m|] eqn:Em.
    + left. cbn -[FineModel.fstep DeepFine.adv] in Em. repeat case_match; try done; injection Em as <-; eauto.
    + destruct Hs as (_ & w' & c' & v' & fail' & [= -> -> -> ->] & HR). right. split; [lia|done].
  - right. rewrite (R_other w d _ _ Hd Hne). split; [done|]. intros (c & v & fail & [= ->]). by destruct (Hne c v fail).
Qed.

Lemma worker_fair w i : w < n -> exists j, i <= j /\
  ((exists c v fail, wl j = Some (XWorker w c v fail)) \/
   forall c v fail, WholeSpec.legal n af (XWorker w c v fail) -> whole_step (XWorker w c v fail) (ws j) = WholeModel.WBlock).
Proof.
  intros Hw. remember (R w (sg i)) as r eqn:Er. revert i Er. induction (lt_wf r) as [r _ IH]. intros i ->.
  destruct (df_worker _ _ _ _ _ _ _ _ HW w i Hw) as (j & Hij & Hj).
  assert (Hwalk : forall d, (exists m, i <= m < i + d /\ exists c v fail, wl m = Some (XWorker w c v fail)) \/ R w (sg (i + d)) <= R w (sg i)).
  { induction d as [|d IHd]; [right; by rewrite Nat.add_0_r|]. destruct IHd as [(m & Hm & Hx)|Hle]; [left; exists m; split; [lia|done]|].
    destruct (R_step w (i + d)) as [Hx|(Hr & _)]; [left; exists (i + d); split; [lia|done]|]. right. rewrite Nat.add_succ_r. lia. }
  destruct (Hwalk (j - i)) as [(m & Hm & Hx)|Hle]; [exists m; split; [lia|by left]|]. replace (i + (j - i)) with j in Hle by lia.
  destruct Hj as [Hj|Hj].
  - destruct (R_step w j) as [Hx|(_ & Hlt)]; [exists j; split; [lia|by left]|]. specialize (Hlt Hj).
    destruct (IH (R w (sg (S j))) ltac:(lia) (S j) eq_refl) as (m & Hm & Hx). exists m. split; [lia|done].
  - exists j. split; [done|]. right. by apply (blocked_whole (sg j) (ws j) w (run_sim j) Hw).
Qed.

Theorem whole_fair : WholeSpec.wfair n nd dom af ws wl.
Proof.
  split.
  - split; [done|]. intros i. rewrite Nat.add_1_r. destruct (run_step i (run_sim i)) as (_ & Hs). destruct (wl i); [done|]. by destruct Hs.
  - intros w i Hw. by apply worker_fair.
  - intros a i Ha Hn. rewrite <- (ds_pool _ _ (run_sim i)) in Hn.
    destruct (df_client _ _ _ _ _ _ _ _ HW a i Ha Hn) as (j & d & t & Hij & Hj). exists j, d, t. split; [done|]. unfold wl. by rewrite Hj.
  - intros i Hn. rewrite <- (ds_pool _ _ (run_sim i)) in Hn. destruct (df_dtor _ _ _ _ _ _ _ _ HW i Hn) as (j & Hij & Hj). exists j. split; [done|].
    destruct Hj as [Hj|Hj]; [left; unfold wl; by rewrite Hj|]. right.
    cbn [DeepModel.deep_step] in Hj. unfold alone, DeepModel.both in Hj. unfold WholeModel.whole_step. cbn [WholeModel.parts].
    rewrite (ds_pool _ _ (run_sim j)) in Hj. by destruct (WholeModel.pool_part n nd dom (Some LDtor) (wpool (ws j))).
Qed.

Lemma whole_proper N : proper N sg l -> WholeSpec.proper N ws wl.
Proof.
  intros [P1 P2]. split.
  - intros i a d t Hi Hl. rewrite <- (ds_pool _ _ (run_sim i)). unfold wl in Hl. destruct (l i) as [d0|] eqn:El; [|done].
    destruct d0 as [w c v fail|a' d' t'| |u|u]; cbn -[FineModel.fstep DeepFine.adv] in Hl; [repeat case_match; done| |done..].
    injection Hl as -> -> ->. by eapply P1.
  - intros i f t. rewrite <- (ds_pool _ _ (run_sim i)). unfold WholeSpec.submitted, WholeSpec.released. rewrite <- (ds_hist _ _ (run_sim i)). apply P2.
Qed.
Lemma whole_terminate : all_terminate af sg -> WholeSpec.all_terminate af ws.
Proof. intros HT i f t. unfold WholeSpec.submitted. rewrite <- (ds_hist _ _ (run_sim i)). apply HT. Qed.
End run.

Lemma dreach_sim x : dreach n nd dom K k af x -> exists y, dsim x y /\ WholeSpec.wreach n nd dom af y.
Proof.
  induction 1 as [|x l x' Hr (y & D & Hy) Hl Hs]; [exists (WholeModel.init_whole n); split; [apply sim_init|constructor]|].
  destruct (deep_sim l x y D Hl) as (_ & Hx). destruct (Hx _ Hs) as (y' & D' & Hm). exists y'. split; [done|].
  destruct (wlab_of l x) as [m|]; [|by destruct Hm as (-> & _)]. destruct Hm. by econstructor.
Qed.
End Sim.
