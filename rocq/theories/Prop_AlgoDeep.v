(** * C67, C68: for_each and fold on pools with the real deques.

    Model: AlgoTaskModel.v; DeepModel.v (lazy_pool) and BDeepModel.v (busy_pool, unit_pool).
    Specification: AlgoTaskSpec.v; DeepSpec.v and BDeepSpec.v. *)

From stdpp Require Import prelude gmap list.
From Coq Require Import NArith ZArith Lia.
From Verif Require Import RuntimeModel RuntimeSpec RuntimeHist RuntimeHist2 RuntimeTermSpec AlgoTaskModel AlgoTaskSpec Prop_AlgoTask.
From Verif Require WholeModel WholeSpec BWholeModel BWholeSpec FineModel FineSpec FineProofs2 LazyModel BusyModel.
From Verif Require DeepModel DeepSpec DeepProofs Prop_Deep BDeepModel BDeepSpec BDeepProofs Prop_BDeep.
From Verif Require PoolCommon PoolExamples PoolFair.
Local Open Scope nat_scope.

(** ** C67: for_each *)

Section for_each.
Context (af : bool) (n : nat) (Hn : 0 < n).
Context (fn : Z -> task) (pj : ufun Z) (p : Z -> Z) (E : exn -> Prop) (lab : task -> label) (key : Z -> Z).
Context (Hpj : computes af E pj p) (HL : labelling fn pj lab key).

(** sync_wait of a for_each on lazy_pool returns; then every element has been visited exactly once,
    or an exception is reported. *)
Theorem C67_lazy_pool_deques w nd dom K k sg l N :
  DeepSpec.dfair w nd dom K k af sg l -> DeepSpec.proper N sg l -> DeepSpec.all_terminate af sg ->
  exists m, forall i, m <= i -> forall f xs, DeepSpec.submitted f (for_each (UAsync fn) pj n xs) (sg i) ->
    DeepSpec.released f (sg i) /\
    exists o T, DeepSpec.result f (sg i) = Some o /\ recorded (DeepModel.hist (sg i)) f T /\
      visits af E (fun x => key (p x)) xs o (user_calls lab T).
Proof using Hn Hpj HL.
  intros HW HP HT. pose proof (DeepProofs.run_sim w nd dom K k af sg l HW) as HS.
  destruct (C67_lazy_pool af n Hn fn pj p E lab key Hpj HL w nd dom _ _ N (DeepProofs.whole_fair w nd dom K k af sg l HW)
    (DeepProofs.whole_proper w nd dom K k af sg l HW N HP) (DeepProofs.whole_terminate w nd dom K k af sg l HW HT)) as (m & Hm).
  exists m. intros i Hi f xs Hs. pose proof (HS i) as D. destruct (Hm i Hi f xs) as (H1 & o & T & H2 & H3 & H4).
  { unfold WholeSpec.submitted. rewrite <- (DeepProofs.ds_hist _ _ _ _ _ _ _ D). exact Hs. }
  unfold WholeSpec.released in H1. rewrite <- (DeepProofs.ds_hist _ _ _ _ _ _ _ D) in H1, H3. split; [exact H1|].
  exists o, T. split; [|done]. destruct (DeepProofs.ds_sim _ _ _ _ _ _ _ D) as (Q & H & M).
  unfold DeepSpec.result. by rewrite (FineSpec.a_res _ _ (FineProofs2.sim_agrees _ _ _ _ _ _ _ _ M)).
Qed.

(** The same on busy_pool and unit_pool, whose destructor may have been called meanwhile. *)
Theorem C67_busy_pool_deques w unit K k sg l N :
  BDeepSpec.dfair w unit K k af sg l -> BDeepSpec.submissions_end N l -> BDeepSpec.all_terminate af sg ->
  exists m, forall i, m <= i -> forall f xs, BDeepSpec.submitted f (for_each (UAsync fn) pj n xs) (sg i) ->
    signals_in f (BDeepModel.hist (sg i)) = 1%N /\
    exists o T, s_res (FineModel.rt (BDeepModel.fn (sg i))) !! f = Some o /\ recorded (BDeepModel.hist (sg i)) f T /\
      visits af E (fun x => key (p x)) xs o (user_calls lab T).
Proof using Hn Hpj HL.
  intros HW HP HT. pose proof (BDeepProofs.run_sim w unit K k af sg l HW) as HS.
  destruct (C67_busy_pool af n Hn fn pj p E lab key Hpj HL w unit _ _ N (BDeepProofs.whole_fair w unit K k af sg l HW)
    (BDeepProofs.whole_submissions K sg l N HP) (BDeepProofs.whole_terminate w unit K k af sg l HW HT)) as (m & Hm).
  exists m. intros i Hi f xs Hs. pose proof (HS i) as D. destruct (Hm i Hi f xs) as (H1 & o & T & H2 & H3 & H4).
  { unfold BWholeSpec.submitted. rewrite <- (BDeepProofs.ds_hist _ _ _ _ _ _ D). exact Hs. }
  rewrite <- (BDeepProofs.ds_hist _ _ _ _ _ _ D) in H1, H3. split; [exact H1|].
  exists o, T. split; [|done]. destruct (BDeepProofs.ds_sim _ _ _ _ _ _ D) as (Q & H & M).
  by rewrite (FineSpec.a_res _ _ (FineProofs2.sim_agrees _ _ _ _ _ _ _ _ M)).
Qed.
End for_each.

(** ** C68: fold *)

Section fold.
Context (af : bool) (n : nat) (Hn : 0 < n).
Context (bop : ufun (Z * Z)) (pj : ufun Z) (ub : exn) (opt : option Z -> Z).
(** With chunks of more than one element the operation is an ordinary function. *)
Context (Ho : n <> 1 -> ordinary bop).
Context (op : Z -> Z -> Z) (p : Z -> Z) (E : exn -> Prop).
Context (Hpj : computes af E pj p) (Hbop : computes af E bop (fun ab => op ab.1 ab.2)).
Context (Hassoc : forall a b c, op a (op b c) = op (op a b) c).

(** sync_wait of a fold on lazy_pool returns the left fold, or an exception. *)
Theorem C68_lazy_pool_deques w nd dom K k sg l N :
  DeepSpec.dfair w nd dom K k af sg l -> DeepSpec.proper N sg l -> DeepSpec.all_terminate af sg ->
  exists m, forall i, m <= i -> forall f xs, DeepSpec.submitted f (fold bop pj ub opt n xs) (sg i) ->
    DeepSpec.released f (sg i) /\
    exists o, DeepSpec.result f (sg i) = Some o /\
      (o = OVal (opt (left_fold op p xs)) \/ exists e, o = OExc e /\ (E e \/ no_memory af e)).
Proof using Hn Ho Hpj Hbop Hassoc.
  intros HW HP HT. destruct (Prop_Deep.C75_sync_wait_returns _ _ _ _ _ _ _ _ _ HW HP HT) as (m & Hm). exists m.
  intros i Hi f xs Hs. destruct (Hm i Hi f _ Hs) as (H1 & o & H2 & H3). split; [done|]. exists o. split; [done|].
  by eapply C68_left_fold.
Qed.

Theorem C68_busy_pool_deques w unit K k sg l N :
  BDeepSpec.dfair w unit K k af sg l -> BDeepSpec.submissions_end N l -> BDeepSpec.all_terminate af sg ->
  exists m, forall i, m <= i -> forall f xs, BDeepSpec.submitted f (fold bop pj ub opt n xs) (sg i) ->
    signals_in f (BDeepModel.hist (sg i)) = 1%N /\
    exists o, s_res (FineModel.rt (BDeepModel.fn (sg i))) !! f = Some o /\
      (o = OVal (opt (left_fold op p xs)) \/ exists e, o = OExc e /\ (E e \/ no_memory af e)).
Proof using Hn Ho Hpj Hbop Hassoc.
  intros HW HP HT. destruct (Prop_BDeep.C76_sync_wait_returns _ _ _ _ _ _ _ _ HW HP HT) as (m & Hm). exists m.
  intros i Hi f xs Hs. destruct (Hm i Hi f _ Hs) as (H1 & o & H2 & H3). split; [done|]. exists o. split; [done|].
  by eapply C68_left_fold.
Qed.
End fold.

(** ** The hypotheses are met *)

(** lazy_pool with two workers: [t] is submitted to worker 0, the other one steals. *)
Definition dscript (t : task) : list DeepModel.dlab :=
  PoolExamples.rep 9 [Prop_Deep.yw 0] ++ PoolExamples.rep 9 [Prop_Deep.yw 1] ++ PoolExamples.rep 3 [DeepModel.YClient 2 0 t] ++
  PoolExamples.rep 5 [Prop_Deep.yw 0] ++ [Prop_Deep.yt 0 0; Prop_Deep.yt 0 1] ++ PoolExamples.rep 3 [Prop_Deep.yw 0; Prop_Deep.yt 0 1] ++
  PoolExamples.rep 10 [Prop_Deep.yw 0] ++ PoolExamples.rep 20 [Prop_Deep.ys 1 0] ++ PoolExamples.rep 90 [Prop_Deep.yw 1; Prop_Deep.yw 0] ++
  PoolExamples.rep 20 [DeepModel.YDtor; Prop_Deep.yw 1; Prop_Deep.yw 0].
Definition drun (t : task) := PoolFair.greedy Prop_Deep.wo (dscript t) Prop_Deep.ini.
Definition dstop (t : task) : nat :=
  (fix go i l := match l with [] => i | x :: l => if Prop_Deep.is_dtor x then i else go (S i) l end) 0 (drun t).
Lemma dlabs t : Forall (Prop_Deep.ex_lab t) (drun t).
Proof. apply Prop_Deep.greedy_forall. repeat constructor. Qed.
Lemma dfacts_each : Prop_Deep.facts yprog (drun yprog) (dstop yprog) 21.
Proof. vm_compute. repeat split; reflexivity. Qed.
Lemma dfacts_fold : Prop_Deep.facts yfold (drun yfold) (dstop yfold) 21.
Proof. vm_compute. repeat split; reflexivity. Qed.
Definition dfinal (t : task) : DeepModel.deep := Prop_Deep.ex_sg (drun t) (length (drun t)).
Lemma dsub_each : (DeepSpec.submitted 0%N yprog (dfinal yprog) /\ DeepSpec.result 0%N (dfinal yprog) = Some (OVal 0%Z)) /\
  In (EvResume 1 1) (DeepModel.hist (dfinal yprog)).
Proof. vm_compute. repeat split; tauto. Qed.
Lemma dsub_fold : (DeepSpec.submitted 0%N yfold (dfinal yfold) /\ DeepSpec.result 0%N (dfinal yfold) = Some (OVal 23%Z)) /\
  In (EvResume 1 1) (DeepModel.hist (dfinal yfold)).
Proof. vm_compute. repeat split; tauto. Qed.

(** busy_pool with two workers; the destructor is called before the program has started. *)
Definition cscript (t : task) : list BDeepModel.dlab :=
  [Prop_BDeep.yw 1; Prop_BDeep.yw 1; Prop_BDeep.yw 0; BDeepModel.YClient 0 t; BDeepModel.YDtor] ++ PoolExamples.rep 10 [Prop_BDeep.yw 0] ++
  PoolExamples.rep 20 [Prop_BDeep.ys 1 0] ++ PoolExamples.rep 90 [Prop_BDeep.yw 1; Prop_BDeep.yw 0] ++ [BDeepModel.YJoin].
Definition crun (t : task) := PoolFair.greedy (Prop_BDeep.wo 2 false) (cscript t) (BDeepModel.init_deep 2 1).
Lemma clabs t : Forall (Prop_BDeep.ex_lab t) (crun t).
Proof. apply Prop_BDeep.greedy_forall. repeat constructor. Qed.
Definition cfacts (t : task) (v : Z) : Prop :=
  match PoolFair.exec (Prop_BDeep.wo 2 false) (crun t) (BDeepModel.init_deep 2 1) with
  | Some (y, _) => existsb Prop_BDeep.is_client (skipn 4 (crun t)) = false /\
      (BusyModel.pc (BDeepModel.pool y) 0 = BusyModel.XDone /\ FineModel.from (BDeepModel.fn y) 0 = None) /\
      (BusyModel.pc (BDeepModel.pool y) 1 = BusyModel.XDone /\ FineModel.from (BDeepModel.fn y) 1 = None) /\
      BusyModel.stop (BDeepModel.pool y) = true /\ BusyModel.dt (BDeepModel.pool y) = true /\
      Prop_BDeep.spawns (BDeepModel.hist y) = [(0%N, t)] /\ s_res (FineModel.rt (BDeepModel.fn y)) !! 0%N = Some (OVal v) /\
      BDeepSpec.submitted 0%N t y /\ In (EvResume 1 1) (BDeepModel.hist y)
  | None => False
  end.
Lemma cfacts_each : cfacts yprog 0%Z.
Proof. vm_compute. repeat split; try reflexivity; tauto. Qed.
Lemma cfacts_fold : cfacts yfold 23%Z.
Proof. vm_compute. repeat split; try reflexivity; tauto. Qed.

Opaque drun crun yprog yfold dstop.

(** Fair executions of the pools, as required, in which for_each and fold were submitted and stolen
    from. *)
Lemma dinstance t v : Prop_Deep.facts t (drun t) (dstop t) 21 -> well_scoped 2 t -> terminates false t ->
  (DeepSpec.submitted 0%N t (dfinal t) /\ DeepSpec.result 0%N (dfinal t) = Some (OVal v)) /\ In (EvResume 1 1) (DeepModel.hist (dfinal t)) ->
  exists sg l N, DeepSpec.dfair 2 2 Prop_Deep.wd 2 1 false sg l /\ DeepSpec.proper N sg l /\ DeepSpec.all_terminate false sg /\
    exists i, (DeepSpec.submitted 0%N t (sg i) /\ DeepSpec.result 0%N (sg i) = Some (OVal v)) /\ In (EvResume 1 1) (DeepModel.hist (sg i)).
Proof.
  intros Hf Hs Ht Hv. exists (Prop_Deep.ex_sg (drun t)), (Prop_Deep.ex_l (drun t)), 21. split_and!.
  - exact (Prop_Deep.ex_fair t (drun t) (dstop t) 21 (dlabs t) Hf Hs).
  - exact (Prop_Deep.ex_proper t (drun t) (dstop t) 21 Hf).
  - exact (Prop_Deep.ex_terminate t (drun t) (dstop t) 21 Hf Ht).
  - exists (length (drun t)). exact Hv.
Qed.
Lemma cinstance t v : cfacts t v -> well_scoped 2 t -> terminates false t ->
  exists sg l N, BDeepSpec.dfair 2 false 2 1 false sg l /\ BDeepSpec.submissions_end N l /\ BDeepSpec.all_terminate false sg /\
    exists i, BDeepSpec.submitted 0%N t (sg i) /\ s_res (FineModel.rt (BDeepModel.fn (sg i))) !! 0%N = Some (OVal v) /\
      In (EvResume 1 1) (BDeepModel.hist (sg i)).
Proof.
  unfold cfacts. intros H Hs Ht. destruct (PoolFair.exec _ (crun t) _) as [[y ty]|] eqn:Hy; [|destruct H].
  destruct H as (H1 & H2 & H3 & H4 & H5 & H6 & H7 & H8 & H9).
  assert (forall w, w < 2 -> BusyModel.pc (BDeepModel.pool y) w = BusyModel.XDone /\ FineModel.from (BDeepModel.fn y) w = None) as Hpc
    by (intros [|[|w]] Hw; [exact H2|exact H3|lia]).
  exists (Prop_BDeep.ex_sg 2 false (crun t)), (Prop_BDeep.ex_l (crun t)), 4. split_and!.
  - exact (Prop_BDeep.ex_fair 2 false t (crun t) y ty Hy (clabs t) Hpc H4 H5 H6 Hs).
  - exact (Prop_BDeep.ex_submissions (crun t) 4 H1).
  - exact (Prop_BDeep.ex_terminate 2 false t (crun t) y ty Hy Hpc H4 H5 H6 Ht).
  - exists (length (crun t)). rewrite (Prop_BDeep.ex_end 2 false (crun t) y ty Hy) by lia. split; [exact H8|]. split; [exact H7|exact H9].
Qed.

Example C67_lazy_deques_instance : exists sg l N, DeepSpec.dfair 2 2 Prop_Deep.wd 2 1 false sg l /\ DeepSpec.proper N sg l /\
  DeepSpec.all_terminate false sg /\
  exists i, (DeepSpec.submitted 0%N yprog (sg i) /\ DeepSpec.result 0%N (sg i) = Some (OVal 0%Z)) /\ In (EvResume 1 1) (DeepModel.hist (sg i)).
Proof. exact (dinstance yprog 0%Z dfacts_each yprog_scoped yprog_terminates dsub_each). Qed.
Example C67_busy_deques_instance : exists sg l N, BDeepSpec.dfair 2 false 2 1 false sg l /\ BDeepSpec.submissions_end N l /\
  BDeepSpec.all_terminate false sg /\
  exists i, BDeepSpec.submitted 0%N yprog (sg i) /\ s_res (FineModel.rt (BDeepModel.fn (sg i))) !! 0%N = Some (OVal 0%Z) /\
    In (EvResume 1 1) (BDeepModel.hist (sg i)).
Proof. exact (cinstance yprog 0%Z cfacts_each yprog_scoped yprog_terminates). Qed.
Example C68_lazy_deques_instance : exists sg l N, DeepSpec.dfair 2 2 Prop_Deep.wd 2 1 false sg l /\ DeepSpec.proper N sg l /\
  DeepSpec.all_terminate false sg /\
  exists i, (DeepSpec.submitted 0%N yfold (sg i) /\ DeepSpec.result 0%N (sg i) = Some (OVal 23%Z)) /\ In (EvResume 1 1) (DeepModel.hist (sg i)).
Proof. exact (dinstance yfold 23%Z dfacts_fold (xfold_scoped 2 _) yfold_terminates dsub_fold). Qed.
Example C68_busy_deques_instance : exists sg l N, BDeepSpec.dfair 2 false 2 1 false sg l /\ BDeepSpec.submissions_end N l /\
  BDeepSpec.all_terminate false sg /\
  exists i, BDeepSpec.submitted 0%N yfold (sg i) /\ s_res (FineModel.rt (BDeepModel.fn (sg i))) !! 0%N = Some (OVal 23%Z) /\
    In (EvResume 1 1) (BDeepModel.hist (sg i)).
Proof. exact (cinstance yfold 23%Z cfacts_fold (xfold_scoped 2 _) yfold_terminates). Qed.

Print Assumptions C67_lazy_pool_deques.
Print Assumptions C67_busy_pool_deques.
Print Assumptions C68_lazy_pool_deques.
Print Assumptions C68_busy_pool_deques.
Print Assumptions C67_lazy_deques_instance.
Print Assumptions C68_busy_deques_instance.
