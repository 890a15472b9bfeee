(** * C67, C68: for_each and fold on the runtime and on the pools.

    Model: AlgoTaskModel.v.  Specification: AlgoTaskSpec.v; RuntimeSpec.v for executions of the
    runtime ([reach], [recorded]); WholeSpec.v and BWholeSpec.v for the pools. *)

From stdpp Require Import prelude gmap list.
From Coq Require Import NArith ZArith Lia.
From Verif Require Import RuntimeModel RuntimeSpec RuntimeHist RuntimeHist2 RuntimeTermSpec RuntimeTree RuntimeExamples
  AlgoTaskModel AlgoTaskSpec AlgoTaskProofs Prop_Runtime Prop_Term Prop_Tree.
From Verif Require WholeModel WholeSpec Prop_Whole BWholeModel BWholeSpec Prop_BWhole PoolCommon PoolExamples PoolFair.
Local Open Scope nat_scope.

(** ** C67: for_each *)

Section for_each.
Context (af : bool) (n : nat) (Hn : 0 < n).

(** for_each follows the rules of the library if the user's functions do. *)
Theorem C67_well_scoped nw fn pj xs :
  follows_rules nw fn -> follows_rules nw pj -> well_scoped nw (for_each fn pj n xs).
Proof using Hn. by apply for_each_scoped. Qed.

(** for_each terminates if the user's functions do. *)
Theorem C67_terminates fn pj xs : ends af fn -> ends af pj -> terminates af (for_each fn pj n xs).
Proof using Hn. by apply for_each_terminates. Qed.

Context (fn : Z -> task) (pj : ufun Z) (p : Z -> Z) (E : exn -> Prop) (lab : task -> label) (key : Z -> Z).
Context (Hpj : computes af E pj p) (HL : labelling fn pj lab key).

(** Whatever the number of workers and the schedule: every element is visited exactly once, or an
    exception is reported. *)
Theorem C67_visits_each_once nw s h f xs o :
  reach nw af s h -> body_in f h = Some (for_each (UAsync fn) pj n xs) -> outcome_in f h = Some o ->
  exists T, recorded h f T /\ visits af E (fun x => key (p x)) xs o (user_calls lab T).
Proof using Hn Hpj HL.
  intros HR Hb Ho. destruct (C66_serial_run _ _ _ _ _ _ HR Ho) as (T & HT & HS & Hb' & <- & _). exists T. split; [done|].
  destruct HL. eapply for_each_visits; eauto. congruence.
Qed.

(** On lazy_pool: sync_wait of a for_each returns, and then the above holds. *)
Theorem C67_lazy_pool w nd dom sg l N :
  WholeSpec.wfair w nd dom af sg l -> WholeSpec.proper N sg l -> WholeSpec.all_terminate af sg ->
  exists k, forall m, k <= m -> forall f xs, WholeSpec.submitted f (for_each (UAsync fn) pj n xs) (sg m) ->
    WholeSpec.released f (sg m) /\
    exists o T, s_res (WholeModel.rt (sg m)) !! f = Some o /\ recorded (WholeModel.hist (sg m)) f T /\
      visits af E (fun x => key (p x)) xs o (user_calls lab T).
Proof using Hn Hpj HL.
  intros HW HP HT. destruct (Prop_Whole.C58_sync_wait_returns _ _ _ _ _ _ _ HW HP HT) as (k & Hk). exists k.
  intros m Hm f xs Hs. destruct (Hk m Hm f _ Hs) as (H1 & o & Ho & _). split; [done|]. exists o.
  destruct Hs as (Hp & Hb). pose proof (WholeInv.wi_rt _ _ _ _ _ (WholeProofs.run_winv w nd dom af sg l HW m)) as HR.
  destruct (reach_hist _ _ _ _ HR) as (Hh & _). pose proof Ho as Ho'. rewrite (g_res _ _ _ Hh f Hp) in Ho'.
  destruct (C67_visits_each_once _ _ _ _ _ _ HR Hb Ho') as (T & A & B). eauto.
Qed.

(** The same on busy_pool and unit_pool, whose destructor may have been called meanwhile. *)
Theorem C67_busy_pool w unit sg l N :
  BWholeSpec.wfair w unit af sg l -> BWholeSpec.submissions_end N l -> BWholeSpec.all_terminate af sg ->
  exists k, forall m, k <= m -> forall f xs, BWholeSpec.submitted f (for_each (UAsync fn) pj n xs) (sg m) ->
    signals_in f (BWholeModel.hist (sg m)) = 1%N /\
    exists o T, s_res (BWholeModel.rt (sg m)) !! f = Some o /\ recorded (BWholeModel.hist (sg m)) f T /\
      visits af E (fun x => key (p x)) xs o (user_calls lab T).
Proof using Hn Hpj HL.
  intros HW HP HT. destruct (Prop_BWhole.C60_sync_wait_returns _ _ _ _ _ _ HW HP HT) as (k & Hk). exists k.
  intros m Hm f xs Hs. destruct (Hk m Hm f _ Hs) as (H1 & o & Ho & _). split; [done|]. exists o.
  destruct Hs as (Hp & Hb). pose proof (BWholeInv.wi_rt _ _ _ _ (BWholeProofs.run_winv w unit af sg l HW m)) as HR.
  destruct (reach_hist _ _ _ _ HR) as (Hh & _). pose proof Ho as Ho'. rewrite (g_res _ _ _ Hh f Hp) in Ho'.
  destruct (C67_visits_each_once _ _ _ _ _ _ HR Hb Ho') as (T & A & B). eauto.
Qed.
End for_each.

(** ** C68: fold *)

Section fold.
Context (af : bool) (n : nat) (bop : ufun (Z * Z)) (pj : ufun Z) (ub : exn) (opt : option Z -> Z).
(** With chunks of more than one element the operation is an ordinary function: otherwise the code
    breaks the rules of the library (see C13 and C45). *)
Context (Hn : 0 < n) (Ho : n <> 1 -> ordinary bop).

Theorem C68_well_scoped nw xs :
  follows_rules nw bop -> follows_rules nw pj -> well_scoped nw (fold bop pj ub opt n xs).
Proof using Hn Ho. by apply fold_scoped. Qed.

Theorem C68_terminates xs : ends af bop -> ends af pj -> terminates af (fold bop pj ub opt n xs).
Proof using Hn Ho. by apply fold_terminates. Qed.

Context (op : Z -> Z -> Z) (p : Z -> Z) (E : exn -> Prop).
Context (Hpj : computes af E pj p) (Hbop : computes af E bop (fun ab => op ab.1 ab.2)).
Context (Hassoc : forall a b c, op a (op b c) = op (op a b) c).

(** Run by itself, fold gives the left fold of the projected range or an exception of a function
    the user supplied, or it runs out of memory; it never reads a result that is not there. *)
Theorem C68_left_fold xs o :
  eval af (fold bop pj ub opt n xs) o ->
  o = OVal (opt (left_fold op p xs)) \/ exists e, o = OExc e /\ (E e \/ no_memory af e).
Proof using Hn Ho Hpj Hbop Hassoc. by eapply fold_folds. Qed.

(** Whatever the number of workers and the schedule. *)
Theorem C68_parallel nw s h f xs o :
  reach nw af s h -> body_in f h = Some (fold bop pj ub opt n xs) -> outcome_in f h = Some o ->
  o = OVal (opt (left_fold op p xs)) \/ exists e, o = OExc e /\ (E e \/ no_memory af e).
Proof using Hn Ho Hpj Hbop Hassoc.
  intros HR Hb Hout. destruct (C03_serial _ _ _ _ _ _ HR Hout) as (t & Ht & He). rewrite Hb in Ht. injection Ht as <-.
  by apply C68_left_fold.
Qed.

(** On lazy_pool: sync_wait of a fold returns the left fold. *)
Theorem C68_lazy_pool w nd dom sg l N :
  WholeSpec.wfair w nd dom af sg l -> WholeSpec.proper N sg l -> WholeSpec.all_terminate af sg ->
  exists k, forall m, k <= m -> forall f xs, WholeSpec.submitted f (fold bop pj ub opt n xs) (sg m) ->
    WholeSpec.released f (sg m) /\
    exists o, s_res (WholeModel.rt (sg m)) !! f = Some o /\
      (o = OVal (opt (left_fold op p xs)) \/ exists e, o = OExc e /\ (E e \/ no_memory af e)).
Proof using Hn Ho Hpj Hbop Hassoc.
  intros HW HP HT. destruct (Prop_Whole.C58_sync_wait_returns _ _ _ _ _ _ _ HW HP HT) as (k & Hk). exists k.
  intros m Hm f xs Hs. destruct (Hk m Hm f _ Hs) as (H1 & o & Hout & He). split; [done|]. exists o. split; [done|].
  by apply C68_left_fold.
Qed.

Theorem C68_busy_pool w unit sg l N :
  BWholeSpec.wfair w unit af sg l -> BWholeSpec.submissions_end N l -> BWholeSpec.all_terminate af sg ->
  exists k, forall m, k <= m -> forall f xs, BWholeSpec.submitted f (fold bop pj ub opt n xs) (sg m) ->
    signals_in f (BWholeModel.hist (sg m)) = 1%N /\
    exists o, s_res (BWholeModel.rt (sg m)) !! f = Some o /\
      (o = OVal (opt (left_fold op p xs)) \/ exists e, o = OExc e /\ (E e \/ no_memory af e)).
Proof using Hn Ho Hpj Hbop Hassoc.
  intros HW HP HT. destruct (Prop_BWhole.C60_sync_wait_returns _ _ _ _ _ _ HW HP HT) as (k & Hk). exists k.
  intros m Hm f xs Hs. destruct (Hk m Hm f _ Hs) as (H1 & o & Hout & He). split; [done|]. exists o. split; [done|].
  by apply C68_left_fold.
Qed.
End fold.

(** ** The hypotheses are met *)

(** The user's function forks a child and throws for one argument; the projection is an async
    function as well. *)
Definition xfn (v : Z) : task :=
  Fork FNone false (Ret v) (fun r =>
    match r with
    | FExn e => Throw e
    | _ => Join (fun _ r => match r with Some e => Throw e | None => if Z.eqb v 15 then Throw (EUser 5) else Ret v end)
    end).
Definition xpf (x : Z) : task := Where (fun _ => Ret (x + 10)%Z).
Definition xpj : ufun Z := UAsync xpf.
Definition xlab (t : task) : label :=
  match t with Fork _ _ (Ret v) _ => LUser v | Where _ => LOther | _ => LInternal end.

Lemma eval_xpf af x o : eval af (xpf x) o -> o = OVal (x + 10)%Z.
Proof. intros H. inversion H as [| | | | | | | | |? ? ? ? ? H0]; subst. by inversion H0. Qed.
Lemma xpj_computes af : computes af (fun _ => False) xpj (fun x => x + 10)%Z.
Proof. intros x o H. cbn in H. by rewrite (eval_xpf _ _ _ H). Qed.
Lemma xpj_rules nw : follows_rules nw xpj.
Proof. intros x. constructor. intros; constructor. Qed.
Lemma xpj_ends af : ends af xpj.
Proof. intros x. constructor. intros; constructor. Qed.
Lemma xfn_rules nw : follows_rules nw (UAsync xfn).
Proof. intros v. unfold xfn, well_scoped. repeat scp; repeat case_match; repeat scp. Qed.
Lemma xfn_ends af : ends af (UAsync xfn).
Proof.
  intros v. apply Prop_Term.C51_finite_programs_terminate. unfold xfn. constructor; [constructor|]. intros r.
  destruct r; repeat (constructor; intros); repeat case_match; constructor.
Qed.

Lemma xlab_n n ys : 0 < n -> xlab (for_each_n (UAsync xfn) xpj n ys) = LInternal.
Proof.
  intros Hn. rewrite for_each_n_unfold. case_decide as D0; [done|]. case_decide as D1; [by destruct ys|]. cbn [both xlab].
  destruct (halves ys ltac:(lia)) as (_ & Hl & _). cbn zeta in Hl. rewrite for_each_n_unfold.
  case_decide; [lia|]. case_decide; [|done]. by destruct (firstn _ _).
Qed.
Lemma xlab_1 ys : xlab (for_each_1 (UAsync xfn) xpj ys) = LInternal.
Proof.
  rewrite for_each_1_unfold. destruct ys as [|y [|z ys]]; [done|done|].
  destruct (halves (y :: z :: ys) ltac:(cbn; lia)) as (_ & Hl & _). cbn zeta in Hl. cbn [both xlab].
  rewrite for_each_1_unfold. destruct (firstn _ _) as [|a [|b l]]; [cbn in Hl; lia|done|done].
Qed.
Lemma xlabelling : labelling xfn xpj xlab (fun v => v).
Proof.
  split; [done|by intros f x [= <-]|intros; by apply xlab_n|apply xlab_1|].
  intros n ys. unfold for_each. by case_decide.
Qed.

(** The calls of a run over three elements, on two workers with steals; and a run in which the
    call for the third element throws. *)
Definition xprog (z : Z) : task := for_each (UAsync xfn) xpj 2 [1; 2; z]%Z.
Definition xh (z : Z) := demo_h 300 eager2 (xprog z).
Lemma xprog_scoped z : well_scoped 2 (xprog z).
Proof. apply C67_well_scoped; [lia|apply xfn_rules|apply xpj_rules]. Qed.

Example C67_instance :
  reach 2 false (demo_s 300 eager2 (xprog 3)) (xh 3) /\ body_in 0 (xh 3) = Some (xprog 3) /\
  outcome_in 0 (xh 3) = Some (OVal 0%Z) /\
  reach 2 false (demo_s 300 eager2 (xprog 5)) (xh 5) /\ body_in 0 (xh 5) = Some (xprog 5) /\
  outcome_in 0 (xh 5) = Some (OExc (EUser 5)).
Proof.
  split; [apply demo_hs; [apply eager2_allowed|apply xprog_scoped]|].
  split; [vm_compute; reflexivity|]. split; [vm_compute; reflexivity|].
  split; [apply demo_hs; [apply eager2_allowed|apply xprog_scoped]|].
  split; vm_compute; reflexivity.
Qed.
Example C67_instance_calls : exists T, recorded (xh 3) 0 T /\ map fst (user_calls xlab T) = [11; 12; 13]%Z.
Proof.
  destruct C67_instance as (HR & Hb & Ho & _).
  destruct (C67_visits_each_once false 2 ltac:(lia) xfn xpj _ _ xlab _ (xpj_computes false) xlabelling _ _ _ _ _ _ HR Hb Ho) as (T & HT & [(_ & E & _)|(e & ? & _)]); [|done].
  exists T. split; [done|]. by rewrite E.
Qed.

(** A fold with an async operation, and one with chunks of two elements. *)
Definition xadd : ufun (Z * Z) := UAsync (fun ab => Where (fun _ => Ret (ab.1 + ab.2)%Z)).
Definition xmul : ufun (Z * Z) := USync (fun ab => OVal (ab.1 * ab.2)%Z).
Definition xopt (o : option Z) : Z := match o with Some v => v | None => (-1)%Z end.
Definition xfold (xs : list Z) : task := fold xadd xpj (EUser 9) xopt 1 xs.
Definition xfold2 (xs : list Z) : task := fold xmul xpj (EUser 9) xopt 2 xs.
Lemma xadd_computes af : computes af (fun _ => False) xadd (fun ab => ab.1 + ab.2)%Z.
Proof. intros x o H. cbn in H. inversion H as [| | | | | | | | |? ? ? ? ? H0]; subst. by inversion H0. Qed.
Lemma xmul_computes af : computes af (fun _ => False) xmul (fun ab => ab.1 * ab.2)%Z.
Proof. by intros x o ->. Qed.
Lemma xadd_rules nw : follows_rules nw xadd.
Proof. intros x. constructor. intros; constructor. Qed.
Lemma xadd_ends af : ends af xadd.
Proof. intros x. constructor. intros; constructor. Qed.
Lemma xfold_scoped nw xs : well_scoped nw (xfold xs).
Proof. apply C68_well_scoped; [lia|lia|apply xadd_rules|apply xpj_rules]. Qed.
Lemma xfold2_scoped nw xs : well_scoped nw (xfold2 xs).
Proof. apply C68_well_scoped; [lia|done|done|apply xpj_rules]. Qed.

Example C68_instance :
  reach 2 false (demo_s 300 eager2 (xfold [1; 2; 3]%Z)) (demo_h 300 eager2 (xfold [1; 2; 3]%Z)) /\
  body_in 0 (demo_h 300 eager2 (xfold [1; 2; 3]%Z)) = Some (xfold [1; 2; 3]%Z) /\
  outcome_in 0 (demo_h 300 eager2 (xfold [1; 2; 3]%Z)) = Some (OVal 36%Z) /\
  reach 2 false (demo_s 300 eager2 (xfold2 [1; 2; 3; 4; 5]%Z)) (demo_h 300 eager2 (xfold2 [1; 2; 3; 4; 5]%Z)) /\
  body_in 0 (demo_h 300 eager2 (xfold2 [1; 2; 3; 4; 5]%Z)) = Some (xfold2 [1; 2; 3; 4; 5]%Z) /\
  outcome_in 0 (demo_h 300 eager2 (xfold2 [1; 2; 3; 4; 5]%Z)) = Some (OVal 360360%Z) /\
  left_fold Z.add (fun x => x + 10)%Z [1; 2; 3]%Z = Some 36%Z /\
  left_fold Z.mul (fun x => x + 10)%Z [1; 2; 3; 4; 5]%Z = Some 360360%Z.
Proof.
  split; [apply demo_hs; [apply eager2_allowed|apply xfold_scoped]|].
  split; [vm_compute; reflexivity|]. split; [vm_compute; reflexivity|].
  split; [apply demo_hs; [apply eager2_allowed|apply xfold2_scoped]|].
  split; [vm_compute; reflexivity|]. split; [vm_compute; reflexivity|]. split; reflexivity.
Qed.

(** The same programs on the pools. *)
Definition yprog : task := for_each (UAsync xfn) xpj 1 [1; 2]%Z.
Definition yfold : task := xfold [1; 2]%Z.
Lemma yprog_scoped : well_scoped 2 yprog.
Proof. apply C67_well_scoped; [lia|apply xfn_rules|apply xpj_rules]. Qed.
Lemma yprog_terminates : terminates false yprog.
Proof. apply C67_terminates; [lia|apply xfn_ends|apply xpj_ends]. Qed.
Lemma yfold_terminates : terminates false yfold.
Proof. apply C68_terminates; [lia|lia|apply xadd_ends|apply xpj_ends]. Qed.

(** lazy_pool with two workers. *)
Definition lscript (t : task) : list WholeModel.wlab :=
  PoolExamples.rep 9 [Prop_Whole.xw 0] ++ PoolExamples.rep 9 [Prop_Whole.xw 1] ++ PoolExamples.rep 3 [WholeModel.XClient 2 0 t] ++
  PoolExamples.rep 5 [Prop_Whole.xw 0] ++ [Prop_Whole.xt 0 0; Prop_Whole.xt 0 1] ++ PoolExamples.rep 3 [Prop_Whole.xw 0; Prop_Whole.xt 0 1] ++
  PoolExamples.rep 6 [Prop_Whole.xw 0] ++ PoolExamples.rep 5 [Prop_Whole.xs 1 0] ++ PoolExamples.rep 60 [Prop_Whole.xw 1; Prop_Whole.xw 0] ++
  PoolExamples.rep 20 [WholeModel.XDtor; Prop_Whole.xw 1; Prop_Whole.xw 0].
Definition lrun (t : task) := PoolFair.greedy Prop_Whole.wo (lscript t) (WholeModel.init_whole 2).
Definition dtor_at (t : task) : nat :=
  (fix go i l := match l with [] => i | x :: l => if Prop_Whole.is_dtor x then i else go (S i) l end) 0 (lrun t).
Lemma llabs t : Forall (Prop_Whole.ex_lab t) (lrun t).
Proof. apply Prop_Whole.greedy_forall. repeat constructor. Qed.
Lemma lfacts_each : Prop_Whole.facts yprog (lrun yprog) (dtor_at yprog) 21.
Proof. vm_compute. repeat split; reflexivity. Qed.
Lemma lfacts_fold : Prop_Whole.facts yfold (lrun yfold) (dtor_at yfold) 21.
Proof. vm_compute. repeat split; reflexivity. Qed.
Lemma lsub_each : WholeSpec.submitted 0%N yprog (Prop_Whole.ex_sg (lrun yprog) (length (lrun yprog))) /\
  s_res (WholeModel.rt (Prop_Whole.ex_sg (lrun yprog) (length (lrun yprog)))) !! 0%N = Some (OVal 0%Z).
Proof. vm_compute. repeat split; reflexivity. Qed.
Lemma lsub_fold : WholeSpec.submitted 0%N yfold (Prop_Whole.ex_sg (lrun yfold) (length (lrun yfold))) /\
  s_res (WholeModel.rt (Prop_Whole.ex_sg (lrun yfold) (length (lrun yfold)))) !! 0%N = Some (OVal 23%Z).
Proof. vm_compute. repeat split; reflexivity. Qed.

(** busy_pool with two workers; the destructor is called before the program has started. *)
Definition bscript (t : task) : list BWholeModel.wlab :=
  [Prop_BWhole.xw 1; Prop_BWhole.xw 1; Prop_BWhole.xw 0; BWholeModel.XClient 0 t; BWholeModel.XDtor] ++ PoolExamples.rep 7 [Prop_BWhole.xw 0] ++
  PoolExamples.rep 3 [BWholeModel.XWorker 1 true 0 false] ++ PoolExamples.rep 60 [Prop_BWhole.xw 1; Prop_BWhole.xw 0] ++ [BWholeModel.XJoin].
Definition brun (t : task) := PoolFair.greedy (Prop_BWhole.wo 2 false) (bscript t) (BWholeModel.init_whole 2).
Lemma blabs t : Forall (Prop_BWhole.ex_lab t) (brun t).
Proof. apply Prop_BWhole.greedy_forall. repeat constructor. Qed.
Definition bfacts (t : task) (v : Z) : Prop :=
  match PoolFair.exec (Prop_BWhole.wo 2 false) (brun t) (BWholeModel.init_whole 2) with
  | Some (y, _) => existsb Prop_BWhole.is_client (skipn 4 (brun t)) = false /\
      BusyModel.pc (BWholeModel.pool y) 0 = BusyModel.XDone /\ BusyModel.pc (BWholeModel.pool y) 1 = BusyModel.XDone /\
      BusyModel.stop (BWholeModel.pool y) = true /\ BusyModel.dt (BWholeModel.pool y) = true /\
      Prop_BWhole.spawns (BWholeModel.hist y) = [(0%N, t)] /\ s_res (BWholeModel.rt y) !! 0%N = Some (OVal v) /\ BWholeSpec.submitted 0%N t y
  | None => False
  end.
Lemma bfacts_each : bfacts yprog 0%Z.
Proof. vm_compute. repeat split; reflexivity. Qed.
Lemma bfacts_fold : bfacts yfold 23%Z.
Proof. vm_compute. repeat split; reflexivity. Qed.

Opaque lrun brun yprog yfold dtor_at.

(** Fair executions of the pools, as required, in which for_each and fold were submitted. *)
Lemma linstance t v : Prop_Whole.facts t (lrun t) (dtor_at t) 21 -> well_scoped 2 t -> terminates false t ->
  WholeSpec.submitted 0%N t (Prop_Whole.ex_sg (lrun t) (length (lrun t))) /\
  s_res (WholeModel.rt (Prop_Whole.ex_sg (lrun t) (length (lrun t)))) !! 0%N = Some (OVal v) ->
  exists sg l N, WholeSpec.wfair 2 2 Prop_Whole.wd false sg l /\ WholeSpec.proper N sg l /\ WholeSpec.all_terminate false sg /\
    exists i, WholeSpec.submitted 0%N t (sg i) /\ s_res (WholeModel.rt (sg i)) !! 0%N = Some (OVal v).
Proof.
  intros Hf Hs Ht Hv. exists (Prop_Whole.ex_sg (lrun t)), (Prop_Whole.ex_l (lrun t)), 21. split_and!.
  - exact (Prop_Whole.ex_fair t (lrun t) (dtor_at t) 21 (llabs t) Hf Hs).
  - exact (Prop_Whole.ex_proper t (lrun t) (dtor_at t) 21 Hf).
  - exact (Prop_Whole.ex_terminate t (lrun t) (dtor_at t) 21 Hf Ht).
  - exists (length (lrun t)). exact Hv.
Qed.
Lemma binstance t v : bfacts t v -> well_scoped 2 t -> terminates false t ->
  exists sg l N, BWholeSpec.wfair 2 false false sg l /\ BWholeSpec.submissions_end N l /\ BWholeSpec.all_terminate false sg /\
    exists i, BWholeSpec.submitted 0%N t (sg i) /\ s_res (BWholeModel.rt (sg i)) !! 0%N = Some (OVal v).
Proof.
  unfold bfacts. intros H Hs Ht. destruct (PoolFair.exec _ (brun t) _) as [[y ty]|] eqn:Hy; [|destruct H].
  destruct H as (H1 & H2 & H3 & H4 & H5 & H6 & H7 & H8).
  assert (forall w, w < 2 -> BusyModel.pc (BWholeModel.pool y) w = BusyModel.XDone) as Hpc by (intros [|[|w]] Hw; [exact H2|exact H3|lia]).
  exists (Prop_BWhole.ex_sg 2 false (brun t)), (Prop_BWhole.ex_l (brun t)), 4. split_and!.
  - exact (Prop_BWhole.ex_fair 2 false t (brun t) y ty Hy (blabs t) Hpc H4 H5 H6 Hs).
  - exact (Prop_BWhole.ex_submissions (brun t) 4 H1).
  - exact (Prop_BWhole.ex_terminate 2 false t (brun t) y ty Hy Hpc H4 H5 H6 Ht).
  - exists (length (brun t)). rewrite (Prop_BWhole.ex_end 2 false (brun t) y ty Hy) by lia. by split.
Qed.

Example C67_lazy_instance : exists sg l N, WholeSpec.wfair 2 2 Prop_Whole.wd false sg l /\ WholeSpec.proper N sg l /\
  WholeSpec.all_terminate false sg /\
  exists i, WholeSpec.submitted 0%N yprog (sg i) /\ s_res (WholeModel.rt (sg i)) !! 0%N = Some (OVal 0%Z).
Proof. exact (linstance yprog 0%Z lfacts_each yprog_scoped yprog_terminates lsub_each). Qed.
Example C67_busy_instance : exists sg l N, BWholeSpec.wfair 2 false false sg l /\ BWholeSpec.submissions_end N l /\
  BWholeSpec.all_terminate false sg /\
  exists i, BWholeSpec.submitted 0%N yprog (sg i) /\ s_res (BWholeModel.rt (sg i)) !! 0%N = Some (OVal 0%Z).
Proof. exact (binstance yprog 0%Z bfacts_each yprog_scoped yprog_terminates). Qed.
Example C68_lazy_instance : exists sg l N, WholeSpec.wfair 2 2 Prop_Whole.wd false sg l /\ WholeSpec.proper N sg l /\
  WholeSpec.all_terminate false sg /\
  exists i, WholeSpec.submitted 0%N yfold (sg i) /\ s_res (WholeModel.rt (sg i)) !! 0%N = Some (OVal 23%Z).
Proof. exact (linstance yfold 23%Z lfacts_fold (xfold_scoped 2 _) yfold_terminates lsub_fold). Qed.
Example C68_busy_instance : exists sg l N, BWholeSpec.wfair 2 false false sg l /\ BWholeSpec.submissions_end N l /\
  BWholeSpec.all_terminate false sg /\
  exists i, BWholeSpec.submitted 0%N yfold (sg i) /\ s_res (BWholeModel.rt (sg i)) !! 0%N = Some (OVal 23%Z).
Proof. exact (binstance yfold 23%Z bfacts_fold (xfold_scoped 2 _) yfold_terminates). Qed.

Print Assumptions C67_well_scoped.
Print Assumptions C67_terminates.
Print Assumptions C67_visits_each_once.
Print Assumptions C67_lazy_pool.
Print Assumptions C67_busy_pool.
Print Assumptions C68_well_scoped.
Print Assumptions C68_terminates.
Print Assumptions C68_left_fold.
Print Assumptions C68_parallel.
Print Assumptions C68_lazy_pool.
Print Assumptions C68_busy_pool.
Print Assumptions C67_lazy_instance.
Print Assumptions C68_busy_instance.
