(** * C67, C68: for_each and fold on pools with the real deques and the real stacks.

    Model: AlgoTaskModel.v; LStackModel.v (lazy_pool) and BStackModel.v (busy_pool, unit_pool).
    Specification: AlgoTaskSpec.v; LStackSpec.v, BStackSpec.v, DeepSpec.v and BDeepSpec.v. *)

From stdpp Require Import prelude gmap list.
From Coq Require Import NArith ZArith Lia.
From Verif Require Import RuntimeModel RuntimeSpec RuntimeHist RuntimeHist2 RuntimeTermSpec AlgoTaskModel AlgoTaskSpec Prop_AlgoTask.
From Verif Require FineModel LazyModel BusyModel DeepModel DeepSpec Prop_Deep BDeepModel BDeepSpec Prop_BDeep.
From Verif Require RStackModel LStackModel LStackSpec LStackProofs Prop_LStack BStackModel BStackSpec BStackProofs Prop_BStack.
From Verif Require PoolCommon PoolExamples PoolFair Prop_AlgoDeep.
Local Open Scope nat_scope.

(** ** C67: for_each *)

Section for_each.
Context (af : bool) (n : nat) (Hn : 0 < n).
Context (fn : Z -> task) (pj : ufun Z) (p : Z -> Z) (E : exn -> Prop) (lab : task -> label) (key : Z -> Z).
Context (Hpj : computes af E pj p) (HL : labelling fn pj lab key).

(** sync_wait of a for_each on lazy_pool returns, whatever malloc answers; then every element has been
    visited exactly once, or an exception is reported. *)
Theorem C67_lazy_pool_memory w nd dom K k sg mm l N :
  LStackSpec.sfair w nd dom K k af sg mm l -> LStackSpec.sproper N sg l -> DeepSpec.all_terminate af sg ->
  exists m, forall i, m <= i -> forall f xs, DeepSpec.submitted f (for_each (UAsync fn) pj n xs) (sg i) ->
    DeepSpec.released f (sg i) /\
    exists o T, DeepSpec.result f (sg i) = Some o /\ recorded (DeepModel.hist (sg i)) f T /\
      visits af E (fun x => key (p x)) xs o (user_calls lab T).
Proof using Hn Hpj HL.
  intros HW HP HT. exact (Prop_AlgoDeep.C67_lazy_pool_deques af n Hn fn pj p E lab key Hpj HL w nd dom K k sg _ N
    (LStackProofs.bare_fair w nd dom K k af sg mm l HW) (LStackProofs.bare_proper K sg mm l N HP) HT).
Qed.

(** The same on busy_pool and unit_pool, whose destructor may have been called meanwhile. *)
Theorem C67_busy_pool_memory w unit K k sg mm l N :
  BStackSpec.sfair w unit K k af sg mm l -> BStackSpec.ssubmissions_end N l -> BDeepSpec.all_terminate af sg ->
  exists m, forall i, m <= i -> forall f xs, BDeepSpec.submitted f (for_each (UAsync fn) pj n xs) (sg i) ->
    signals_in f (BDeepModel.hist (sg i)) = 1%N /\
    exists o T, s_res (FineModel.rt (BDeepModel.fn (sg i))) !! f = Some o /\ recorded (BDeepModel.hist (sg i)) f T /\
      visits af E (fun x => key (p x)) xs o (user_calls lab T).
Proof using Hn Hpj HL.
  intros HW HP HT. exact (Prop_AlgoDeep.C67_busy_pool_deques af n Hn fn pj p E lab key Hpj HL w unit K k sg _ N
    (BStackProofs.bare_fair w unit K k af sg mm l HW) (BStackProofs.bare_submissions K sg mm l N HP) HT).
Qed.
End for_each.

(** ** C68: fold *)

Section fold.
Context (af : bool) (n : nat) (Hn : 0 < n).
Context (bop : ufun (Z * Z)) (pj : ufun Z) (ub : exn) (opt : option Z -> Z).
(** With chunks of more than one element the operation is an ordinary function. *)
Context (Ho : n <> 1 -> ordinary bop).
Context (op : Z -> Z -> Z) (p : Z -> Z) (E : exn -> Prop).
Context (Hpj : computes af E pj p) (Hbop : computes af E bop (fun ab => op ab.1 ab.2)).
Context (Hassoc : forall a b c, op a (op b c) = op (op a b) c).

(** sync_wait of a fold on lazy_pool returns the left fold, or an exception. *)
Theorem C68_lazy_pool_memory w nd dom K k sg mm l N :
  LStackSpec.sfair w nd dom K k af sg mm l -> LStackSpec.sproper N sg l -> DeepSpec.all_terminate af sg ->
  exists m, forall i, m <= i -> forall f xs, DeepSpec.submitted f (fold bop pj ub opt n xs) (sg i) ->
    DeepSpec.released f (sg i) /\
    exists o, DeepSpec.result f (sg i) = Some o /\
      (o = OVal (opt (left_fold op p xs)) \/ exists e, o = OExc e /\ (E e \/ no_memory af e)).
Proof using Hn Ho Hpj Hbop Hassoc.
  intros HW HP HT. eapply (Prop_AlgoDeep.C68_lazy_pool_deques af n Hn bop pj ub opt Ho op p E Hpj Hbop Hassoc w nd dom K k sg _ N);
    [exact (LStackProofs.bare_fair w nd dom K k af sg mm l HW)|exact (LStackProofs.bare_proper K sg mm l N HP)|exact HT].
Qed.

Theorem C68_busy_pool_memory w unit K k sg mm l N :
  BStackSpec.sfair w unit K k af sg mm l -> BStackSpec.ssubmissions_end N l -> BDeepSpec.all_terminate af sg ->
  exists m, forall i, m <= i -> forall f xs, BDeepSpec.submitted f (fold bop pj ub opt n xs) (sg i) ->
    signals_in f (BDeepModel.hist (sg i)) = 1%N /\
    exists o, s_res (FineModel.rt (BDeepModel.fn (sg i))) !! f = Some o /\
      (o = OVal (opt (left_fold op p xs)) \/ exists e, o = OExc e /\ (E e \/ no_memory af e)).
Proof using Hn Ho Hpj Hbop Hassoc.
  intros HW HP HT. eapply (Prop_AlgoDeep.C68_busy_pool_deques af n Hn bop pj ub opt Ho op p E Hpj Hbop Hassoc w unit K k sg _ N);
    [exact (BStackProofs.bare_fair w unit K k af sg mm l HW)|exact (BStackProofs.bare_submissions K sg mm l N HP)|exact HT].
Qed.
End fold.

(** ** The hypotheses are met *)

(** lazy_pool: the executions of Prop_AlgoDeep.v, with memory. *)
Definition four (m : RStackModel.mem) : bool := Nat.eqb (size (RStackModel.m_heap m)) 4.
Lemma four_eq m : four m = true -> size (RStackModel.m_heap m) = 4.
Proof. apply Nat.eqb_eq. Qed.
Lemma lmem_each : match Prop_LStack.mem_after 0 (Prop_AlgoDeep.drun yprog) Prop_Deep.ini Prop_LStack.bm with Some m => four m | None => false end = true.
Proof. vm_compute. reflexivity. Qed.
Lemma lmem_fold : match Prop_LStack.mem_after 0 (Prop_AlgoDeep.drun yfold) Prop_Deep.ini Prop_LStack.bm with Some m => four m | None => false end = true.
Proof. vm_compute. reflexivity. Qed.

(** busy_pool. *)
Definition brun (t : task) : list BStackModel.slab :=
  PoolFair.greedy (Prop_BStack.wo 2 false) (imap Prop_BStack.at_step (Prop_AlgoDeep.cscript t)) (BDeepModel.init_deep 2 1, Prop_BStack.bm).
Definition bfacts (t : task) (v : Z) : Prop :=
  match PoolFair.exec (Prop_BStack.wo 2 false) (brun t) (BDeepModel.init_deep 2 1, Prop_BStack.bm) with
  | Some (y, _) => existsb Prop_BStack.is_client (skipn 4 (brun t)) = false /\
      Prop_BStack.idle_at y.1 0 = true /\ Prop_BStack.idle_at y.1 1 = true /\
      BusyModel.stop (BDeepModel.pool y.1) = true /\ BusyModel.dt (BDeepModel.pool y.1) = true /\
      Prop_BDeep.spawns (BDeepModel.hist y.1) = [(0%N, t)] /\ s_res (FineModel.rt (BDeepModel.fn y.1)) !! 0%N = Some (OVal v) /\
      BDeepSpec.submitted 0%N t y.1 /\ In (EvResume 1 1) (BDeepModel.hist y.1)
  | None => False
  end.
Lemma bfacts_each : bfacts yprog 0%Z.
Proof. vm_compute. repeat split; try reflexivity; tauto. Qed.
Lemma bfacts_fold : bfacts yfold 23%Z.
Proof. vm_compute. repeat split; try reflexivity; tauto. Qed.
Lemma blabs t : Forall (Prop_BStack.ex_lab t) (brun t).
Proof. apply Prop_BStack.greedy_forall. apply (Prop_BStack.at_labs _ _ 0). repeat constructor. Qed.

Opaque Prop_AlgoDeep.drun brun yprog yfold Prop_AlgoDeep.dstop.

Lemma linstance t v : Prop_Deep.facts t (Prop_AlgoDeep.drun t) (Prop_AlgoDeep.dstop t) 21 -> well_scoped 2 t -> terminates false t ->
  match Prop_LStack.mem_after 0 (Prop_AlgoDeep.drun t) Prop_Deep.ini Prop_LStack.bm with Some m => four m | None => false end = true ->
  (DeepSpec.submitted 0%N t (Prop_AlgoDeep.dfinal t) /\ DeepSpec.result 0%N (Prop_AlgoDeep.dfinal t) = Some (OVal v)) /\
    In (EvResume 1 1) (DeepModel.hist (Prop_AlgoDeep.dfinal t)) ->
  exists sg mm l N, LStackSpec.sfair 2 2 Prop_Deep.wd 2 1 false sg mm l /\ LStackSpec.sproper N sg l /\ DeepSpec.all_terminate false sg /\
    exists i, ((DeepSpec.submitted 0%N t (sg i) /\ DeepSpec.result 0%N (sg i) = Some (OVal v)) /\ In (EvResume 1 1) (DeepModel.hist (sg i))) /\
      size (RStackModel.m_heap (mm i)) = 4.
Proof.
  intros Hf Hs Ht Hm Hv.
  destruct (Prop_LStack.lift_run (Prop_AlgoDeep.drun t) four Hm
    (Prop_Deep.ex_fair t (Prop_AlgoDeep.drun t) (Prop_AlgoDeep.dstop t) 21 (Prop_AlgoDeep.dlabs t) Hf Hs)) as (HF & HS).
  exists (Prop_Deep.ex_sg (Prop_AlgoDeep.drun t)), (Prop_LStack.ex_mm (Prop_AlgoDeep.drun t)), (Prop_LStack.lifted (Prop_Deep.ex_l (Prop_AlgoDeep.drun t)) Prop_LStack.at_step), 21.
  split; [exact HF|]. split.
  { apply Prop_LStack.lift_proper; [intros i d; apply Prop_LStack.at_step_ok|].
    exact (Prop_Deep.ex_proper t (Prop_AlgoDeep.drun t) (Prop_AlgoDeep.dstop t) 21 Hf). }
  split; [exact (Prop_Deep.ex_terminate t (Prop_AlgoDeep.drun t) (Prop_AlgoDeep.dstop t) 21 Hf Ht)|].
  exists (length (Prop_AlgoDeep.drun t)). split; [exact Hv|]. exact (four_eq _ HS).
Qed.
Lemma binstance t v : bfacts t v -> well_scoped 2 t -> terminates false t ->
  exists sg mm l N, BStackSpec.sfair 2 false 2 1 false sg mm l /\ BStackSpec.ssubmissions_end N l /\ BDeepSpec.all_terminate false sg /\
    exists i, BDeepSpec.submitted 0%N t (sg i) /\ s_res (FineModel.rt (BDeepModel.fn (sg i))) !! 0%N = Some (OVal v) /\
      In (EvResume 1 1) (BDeepModel.hist (sg i)).
Proof.
  unfold bfacts. intros H Hs Ht. destruct (PoolFair.exec _ (brun t) _) as [[y ty]|] eqn:Hy; [|destruct H].
  destruct H as (H1 & H2%Prop_BStack.idle_at_eq & H3%Prop_BStack.idle_at_eq & H4 & H5 & H6 & H7 & H8 & H9).
  assert (forall w, w < 2 -> BusyModel.pc (BDeepModel.pool y.1) w = BusyModel.XDone /\ FineModel.from (BDeepModel.fn y.1) w = None) as Hpc
    by (intros [|[|w]] Hw; [exact H2|exact H3|lia]).
  exists (Prop_BStack.ex_sg 2 false Prop_BStack.bm (brun t)), (Prop_BStack.ex_mm 2 false Prop_BStack.bm (brun t)), (Prop_BStack.ex_l (brun t)), 4. split_and!.
  - exact (Prop_BStack.ex_fair 2 false t Prop_BStack.bm (brun t) y ty 4 Prop_BStack.bm_booted Hy (blabs t) Hpc H4 H5 H6 Hs).
  - exact (Prop_BStack.ex_submissions 2 (brun t) y 4 H1 Hpc).
  - exact (Prop_BStack.ex_terminate 2 false t Prop_BStack.bm (brun t) y ty Hy Hpc H4 H5 H6 Ht).
  - exists (length (brun t)). unfold Prop_BStack.ex_sg. rewrite (Prop_BStack.ex_end 2 false Prop_BStack.bm (brun t) y ty Hy) by lia.
    split; [exact H8|]. split; [exact H7|exact H9].
Qed.

Example C67_lazy_memory_instance : exists sg mm l N, LStackSpec.sfair 2 2 Prop_Deep.wd 2 1 false sg mm l /\ LStackSpec.sproper N sg l /\
  DeepSpec.all_terminate false sg /\
  exists i, ((DeepSpec.submitted 0%N yprog (sg i) /\ DeepSpec.result 0%N (sg i) = Some (OVal 0%Z)) /\ In (EvResume 1 1) (DeepModel.hist (sg i))) /\
    size (RStackModel.m_heap (mm i)) = 4.
Proof. exact (linstance yprog 0%Z Prop_AlgoDeep.dfacts_each yprog_scoped yprog_terminates lmem_each Prop_AlgoDeep.dsub_each). Qed.
Example C68_lazy_memory_instance : exists sg mm l N, LStackSpec.sfair 2 2 Prop_Deep.wd 2 1 false sg mm l /\ LStackSpec.sproper N sg l /\
  DeepSpec.all_terminate false sg /\
  exists i, ((DeepSpec.submitted 0%N yfold (sg i) /\ DeepSpec.result 0%N (sg i) = Some (OVal 23%Z)) /\ In (EvResume 1 1) (DeepModel.hist (sg i))) /\
    size (RStackModel.m_heap (mm i)) = 4.
Proof. exact (linstance yfold 23%Z Prop_AlgoDeep.dfacts_fold (xfold_scoped 2 _) yfold_terminates lmem_fold Prop_AlgoDeep.dsub_fold). Qed.
Example C67_busy_memory_instance : exists sg mm l N, BStackSpec.sfair 2 false 2 1 false sg mm l /\ BStackSpec.ssubmissions_end N l /\
  BDeepSpec.all_terminate false sg /\
  exists i, BDeepSpec.submitted 0%N yprog (sg i) /\ s_res (FineModel.rt (BDeepModel.fn (sg i))) !! 0%N = Some (OVal 0%Z) /\
    In (EvResume 1 1) (BDeepModel.hist (sg i)).
Proof. exact (binstance yprog 0%Z bfacts_each yprog_scoped yprog_terminates). Qed.
Example C68_busy_memory_instance : exists sg mm l N, BStackSpec.sfair 2 false 2 1 false sg mm l /\ BStackSpec.ssubmissions_end N l /\
  BDeepSpec.all_terminate false sg /\
  exists i, BDeepSpec.submitted 0%N yfold (sg i) /\ s_res (FineModel.rt (BDeepModel.fn (sg i))) !! 0%N = Some (OVal 23%Z) /\
    In (EvResume 1 1) (BDeepModel.hist (sg i)).
Proof. exact (binstance yfold 23%Z bfacts_fold (xfold_scoped 2 _) yfold_terminates). Qed.

Print Assumptions C67_lazy_pool_memory.
Print Assumptions C67_busy_pool_memory.
Print Assumptions C68_lazy_pool_memory.
Print Assumptions C68_busy_pool_memory.
Print Assumptions C67_lazy_memory_instance.
Print Assumptions C68_busy_memory_instance.
