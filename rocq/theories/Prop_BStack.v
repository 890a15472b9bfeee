(** * C80: programs on busy_pool and unit_pool with the real deques and the real stacks, from the start of
    the pool to its destructor.

    Model: BStackModel.v.  Specification: BStackSpec.v, BDeepSpec.v, FStackSpec.v, StackSpec.v. *)

From stdpp Require Import prelude gmap list.
From Coq Require Import NArith Lia.
From Verif Require Import PoolCommon PoolFair PoolExamples BusyModel BDeepModel BDeepSpec BStackModel BStackSpec BStackProofs.
From Verif Require RuntimeModel RuntimeSpec RuntimeTermSpec Prop_Term FineModel FineSpec.
From Verif Require StackModel StackSpec RStackModel RStackSpec FStackModel FStackSpec Prop_FStack Prop_BDeep.

Section Thms.
(** [unit] is true for unit_pool. *)
Context (n : nat) (unit : bool) (K k : nat) (af : bool).

(** Nothing undefined ever happens, in the pool, in the runtime, in the deques or in the stacks, whatever
    programs run, whatever malloc answers, and whenever the pool is destroyed. *)
Theorem C80_never_undefined doc x m b :
  sreach n unit K k af doc x m -> slegal n af b -> sstep n unit K b x m <> SUndef.
Proof.
  intros Hr (Hl & Hsz). pose proof (sreach_creach _ _ _ _ _ _ _ _ Hr) as Hc. pose proof (sreach_reach _ _ _ _ _ _ _ _ Hr) as Hd.
  pose proof (Prop_BDeep.C76_never_undefined n unit K k af x (s_lab b) Hd Hl) as Hu. unfold sstep.
  destruct (deep_step n unit K (s_lab b) x) as [x'| |] eqn:E; [|done|done]. pose proof (part_step n unit K _ _ _ E) as Hp.
  unfold stack_part. destruct (fine_part K (s_lab b) x) as [fl|] eqn:Ef; [|done]. destruct Hp as (tr & Hf & _).
  pose proof (Prop_FStack.C79_never_undefined n k af _ _ _ (with_answers b fl) Hc (part_allowed n K af _ _ _ Hl Ef) Hsz) as Hn.
  unfold FStackModel.cstep in Hn. cbn [FStackModel.c_lab with_answers] in Hn. rewrite Hf in Hn.
  by destruct (RStackModel.execs (FStackModel.cacts (with_answers b fl) (fn x)) m).
Qed.

(** What happens is what happens on the pool with the real deques if stacks are left out; and it is what
    happens to the runtime on the real deques and stacks if the pool is left out.  So all that is proved in
    C76 and C79 holds here. *)
Theorem C80_refines doc x m : sreach n unit K k af doc x m ->
  reach n unit K k af x /\ (doc = true -> dreach n unit K k af x) /\ FStackSpec.creach n k af (fn x) m (hist x).
Proof.
  intros Hr. split; [by eapply sreach_reach|]. split; [intros ->; by eapply sreach_dreach|]. by eapply sreach_creach.
Qed.

(** The stacks never get in the way: what can happen without them happens with them, except that malloc may
    refuse. *)
Theorem C80_progress doc x m b x' :
  sreach n unit K k af doc x m -> slegal n af b -> deep_step n unit K (s_lab b) x = DNext x' ->
  (exists m', sstep n unit K b x m = SNext x' m') \/
  (sstep n unit K b x m = STerm /\ exists hp, StackModel.stack_ctor (s_o1 b) (RStackModel.m_heap m) = StackModel.Thr hp) \/
  (exists d t m', s_lab b = YClient d t /\ sstep n unit K b x m = SNext x m') \/
  (sstep n unit K b x m = SBlock /\ exists w c v fail fib, s_lab b = YWorker w c v fail /\ RStackModel.m_fib m !! w = Some fib /\
     ((exists hp, RStackModel.new_coro (s_o1 b) fib (s_sz b) (RStackModel.m_heap m) = StackModel.Thr hp) \/
      (fail = true /\ exists hp v, RStackModel.new_coro (s_o1 b) fib (s_sz b) (RStackModel.m_heap m) = StackModel.Ret hp v))).
Proof.
  intros Hr (Hl & Hsz) E. pose proof (sreach_creach _ _ _ _ _ _ _ _ Hr) as Hc. pose proof (part_step n unit K _ _ _ E) as Hp.
  unfold sstep. rewrite E. unfold stack_part. destruct (fine_part K (s_lab b) x) as [fl|] eqn:Ef; [|left; by exists m].
  destruct Hp as (tr & Hf & _).
  pose proof (Prop_FStack.C79_progress n k af _ _ _ (with_answers b fl) _ _ Hc (part_allowed n K af _ _ _ Hl Ef) Hsz Hf) as Hn.
  unfold FStackModel.cstep in Hn. cbn [FStackModel.c_lab FStackModel.c_o1 FStackModel.c_sz with_answers] in Hn. rewrite Hf in Hn.
  destruct (RStackModel.execs (FStackModel.cacts (with_answers b fl) (fn x)) m) as [m'| |m'| |] eqn:Ex.
  - left. by exists m'.
  - right; right; right. split; [done|]. destruct Hn as [(? & ?)|[(? & _)|[(? & ? & ? & _ & ?)|(_ & i & fail & fib & -> & Hfib & Hx)]]]; try done.
    destruct (s_lab b) as [w c v fl|d t| | |w]; cbn [fine_part] in Ef; try done. exists w, c, v, fl, fib. split; [done|].
    unfold thread_part in Ef. repeat case_match; try done; injection Ef as -> ->; done.
  - right; right; left.
    assert (Hst : RStackModel.execs (stack_part K b x) m = RStackModel.MThr m') by (unfold stack_part; by rewrite Ef).
    destruct (throws_client n unit K k af b x m x' m' Hc (conj Hl Hsz) E Hst) as (d & t & Hb). by exists d, t, m'.
  - right; left. split; [done|]. destruct Hn as [(? & ?)|[(_ & ?)|[(? & ? & ? & _ & ?)|(? & _)]]]; done.
  - destruct Hn as [(? & ?)|[(? & _)|[(? & ? & ? & _ & ?)|(? & _)]]]; done.
Qed.

(** The frame of each task that exists lies in a live block, and no two of them share a byte. *)
Theorem C80_frames_in_memory doc x m f : sreach n unit K k af doc x m ->
  (is_Some (RuntimeModel.s_frames (FineModel.rt (fn x)) !! f) <-> is_Some (RStackModel.m_frm m !! f)) /\
  (forall fm, RStackModel.m_frm m !! f = Some fm -> RStackSpec.in_block m fm) /\
  (forall g fm gm, RStackModel.m_frm m !! f = Some fm -> RStackModel.m_frm m !! g = Some gm -> f <> g -> RStackSpec.apart fm gm).
Proof. intros Hr%sreach_creach. by eapply Prop_FStack.C79_frames_in_memory. Qed.

(** When the destructor of the pool has returned, all that was ever submitted is finished, and when the
    workers' stacks are destroyed all memory has been freed. *)
Theorem C80_destructor_frees x m : sreach n unit K k af true x m -> dt (pool x) = true ->
  (forall f t, submitted f t x -> finished af f t x) /\ RStackModel.m_frm m = ∅ /\ all_freed m.
Proof.
  intros Hr Hd. pose proof (sreach_dreach _ _ _ _ _ _ _ Hr) as Hx. pose proof (sreach_creach _ _ _ _ _ _ _ _ Hr) as Hc.
  destruct (Prop_BDeep.C76_destructor_finishes n unit K k af x Hx Hd) as (H1 & H2). split; [exact H1|]. split.
  - apply map_empty. intros f. destruct (Prop_FStack.C79_frames_in_memory n k af _ _ _ f Hc) as (Hi & _). rewrite H2, lookup_empty in Hi.
    apply eq_None_not_Some. intros X%Hi. by destruct X.
  - unfold all_freed. eapply Prop_FStack.C79_shutdown; [exact Hc|exact H2|]. eapply ended_idle; [by eapply sreach_reach|exact Hd].
Qed.

(** Every sync_wait returns, with the value the program has if it is run by itself. *)
Theorem C80_sync_wait_returns sg mm l N :
  sfair n unit K k af sg mm l -> ssubmissions_end N l -> all_terminate af sg ->
  exists m, forall i, m <= i -> forall f t, submitted f t (sg i) -> finished af f t (sg i).
Proof.
  intros HW HP HT. exact (Prop_BDeep.C76_sync_wait_returns n unit K k af sg _ N (bare_fair n unit K k af sg mm l HW) (bare_submissions K sg mm l N HP) HT).
Qed.

(** The destructor returns; then all that was submitted is finished and all memory is given back. *)
Theorem C80_destructor_returns sg mm l N i :
  sfair n unit K k af sg mm l -> ssubmissions_end N l -> all_terminate af sg ->
  stop (pool (sg i)) = true ->
  exists m, i <= m /\ dt (pool (sg m)) = true /\ (forall f t, submitted f t (sg m) -> finished af f t (sg m)) /\ all_freed (mm m).
Proof.
  intros HW HP HT Hs.
  destruct (Prop_BDeep.C76_destructor_returns n unit K k af sg _ N i (bare_fair n unit K k af sg mm l HW) (bare_submissions K sg mm l N HP) HT Hs) as (m & Hm & Hd).
  exists m. split; [done|]. split; [done|].
  destruct (C80_destructor_frees _ _ (run_sreach n unit K k af sg mm l HW m) Hd) as (H1 & _ & H2). by split.
Qed.
End Thms.

(** ** The hypotheses are met *)

(** A finite execution that got to its end is turned into an infinite fair one. *)
Section Example.
Context (n : nat) (unit : bool) (prog : RuntimeModel.task) (m0 : RStackModel.mem).
Notation stt := (deep * RStackModel.mem)%type.
Notation ini := (init_deep n 1, m0).
Notation stp := (sstep n unit 2).

Definition wo (b : slab) (x : stt) : outcome stt :=
  if Prop_BDeep.doc_ok (s_lab b) x.1 then match stp b x.1 x.2 with SNext y m => Next (y, m) [] | SUndef => Undef | _ => Blocked end else Blocked.
Definition ex_lab (b : slab) : Prop := Prop_BDeep.ex_lab prog (s_lab b) /\ (s_sz b <= StackSpec.max_request)%N.
Definition is_client (b : slab) : bool := Prop_BDeep.is_client (s_lab b).
Notation spawns := Prop_BDeep.spawns.

Lemma greedy_forall (P : slab -> Prop) ls x : Forall P ls -> Forall P (greedy wo ls x).
Proof. intros H. revert x. induction H as [|l ls Hl _ IH]; intros x; simpl; [done|]. destruct (wo l x); [constructor|..]; auto. Qed.
Lemma wo_step b x y tr : wo b x = Next y tr -> documented (s_lab b) x.1 /\ stp b x.1 x.2 = SNext y.1 y.2.
Proof.
  unfold wo. destruct (Prop_BDeep.doc_ok (s_lab b) x.1) eqn:E; [|done]. apply Prop_BDeep.doc_ok_documented in E.
  destruct (stp b x.1 x.2); [|done..]. by intros [= <- _].
Qed.
Lemma step_hist b x y tr : wo b x = Next y tr -> exists h, hist y.1 = h ++ hist x.1.
Proof.
  intros [_ [(Hd & _)|(-> & _)]%sstep_inv]%wo_step; [by eapply Prop_BDeep.step_hist|by exists []].
Qed.
Lemma exec_hist ls x y t : exec wo ls x = Some (y, t) -> exists h, hist y.1 = h ++ hist x.1.
Proof.
  revert x t. induction ls as [|l ls IH]; intros x t Hx; simpl in Hx; [injection Hx as <- _; by exists []|].
  destruct (wo l x) as [z tr| |] eqn:Hs; [|done..]. destruct (exec wo ls z) as [[z2 t2]|] eqn:E; [|done]. injection Hx as <- _.
  destruct (IH z t2 E) as [h1 E1]. apply step_hist in Hs as [h2 E2]. exists (h1 ++ h2). by rewrite E1, E2, app_assoc.
Qed.

Context (ls : list slab) (y : stt) (ty : list pev) (M : nat).
Context (Hm0 : booted n m0) (Hy : exec wo ls ini = Some (y, ty)) (HL : Forall ex_lab ls) (Hcl : existsb is_client (skipn M ls) = false).
Context (Hpc : forall w, w < n -> pc (pool y.1) w = XDone /\ FineModel.from (fn y.1) w = None) (Hst : stop (pool y.1) = true) (Hdt : dt (pool y.1) = true) (Hsp : spawns (hist y.1) = [(0%N, prog)]).
Context (Hsc : RuntimeSpec.well_scoped n prog) (Hte : RuntimeTermSpec.terminates false prog).

Definition ex_st := states wo ini ls.
Definition ex_sg (i : nat) : deep := (ex_st i).1.
Definition ex_mm (i : nat) : RStackModel.mem := (ex_st i).2.
(** At the end the destructor's join goes on being possible. *)
Definition the_join : slab := SL YJoin 0 None None None.
Definition ex_l (i : nat) : option slab := match nth_error ls i with Some x => Some x | None => Some the_join end.

Lemma join_forever : stp the_join y.1 y.2 = SNext y.1 y.2.
Proof.
  assert (deep_step n unit 2 YJoin y.1 = DNext y.1) as E; [|unfold sstep; cbn [s_lab the_join]; by rewrite E].
  unfold deep_step, alone, both. simpl. rewrite decide_True by done.
  assert (forallb (fun u => match pc (pool y.1) u with BusyModel.XDone => true | _ => false end) (seq 0 n) = true) as ->.
  { apply forallb_forall. intros u Hu. apply in_seq in Hu. destruct (Hpc u) as [-> _]; [lia|done]. }
  f_equal. destruct y as [[p f tr h] m]. simpl in *. destruct p. simpl in *. congruence.
Qed.
Lemma ex_end i : length ls <= i -> ex_st i = y.
Proof. intros Hi. unfold ex_st. rewrite states_end by done. unfold state_after. by rewrite Hy. Qed.

Lemma ex_fair : sfair n unit 2 1 false ex_sg ex_mm ex_l.
Proof.
  unfold ex_sg, ex_mm. split.
  - destruct (run_of_list wo ini ls ltac:(by rewrite Hy)) as [R0 R1]. split; [unfold ex_st; by rewrite R0|]. intros i. specialize (R1 i).
    unfold ex_l, labels in *. fold ex_st in R1. destruct (nth_error ls i) as [b|] eqn:Hl.
    + destruct R1 as [tr R1]. apply wo_step in R1 as [R1 R2]. split_and!; [|done|done].
      rewrite Forall_forall in HL. destruct (HL b (proj2 (elem_of_list_In _ _) (nth_error_In _ _ Hl))) as [HX HZ]. split; [|done].
      destruct (s_lab b); simpl in *; [by rewrite HX|by rewrite HX|done|done|done].
    + apply nth_error_None in Hl. rewrite !ex_end by lia. split_and!; [by split|by intros _|apply join_forever].
  - intros w i Hw. exists (i `max` length ls). split; [lia|right]. intros c v fail _. rewrite ex_end by lia.
    destruct (Hpc w Hw) as [Hp Hf]. unfold deep_step. rewrite decide_True by done. unfold thread. rewrite Hf, Hp.
    unfold alone, both. simpl. rewrite decide_True by done. unfold worker. by rewrite Hp.
  - intros i. exists (i `max` length ls). split; [lia|left]. exists the_join. split; [|done]. unfold ex_l.
    assert (nth_error ls (i `max` length ls) = None) as -> by (apply nth_error_None; lia). done.
Qed.

Lemma ex_submissions : ssubmissions_end M ex_l.
Proof.
  intros i d t Hi (b & Hl & Hb). unfold ex_l in Hl. destruct (nth_error ls i) as [x|] eqn:E; [|injection Hl as <-; discriminate Hb]. injection Hl as ->.
  replace i with (M + (i - M)) in E by lia. rewrite <- nth_error_skipn in E. apply nth_error_In in E.
  assert (existsb is_client (skipn M ls) = true) as E'; [|rewrite Hcl in E'; discriminate E'].
  apply existsb_exists. exists b. split; [exact E|]. unfold is_client. by rewrite Hb.
Qed.

Lemma ex_terminate : all_terminate false ex_sg.
Proof.
  intros i f t Hs%Prop_BDeep.submitted_spawn. unfold ex_sg in Hs.
  assert ((f, t) ∈ spawns (hist y.1)) as Hin; [|rewrite Hsp in Hin; apply elem_of_list_singleton in Hin; by injection Hin as -> ->].
  pose proof Hy as Hx. rewrite <- (firstn_skipn i ls), exec_app in Hx. unfold ex_st, states, state_after in Hs.
  destruct (exec wo (firstn i ls) ini) as [[x1 t1]|]; [|done].
  destruct (exec wo (skipn i ls) x1) as [[y2 t2]|] eqn:E; [|done]. injection Hx as <- _.
  destruct (exec_hist _ _ _ _ E) as [h ->]. unfold Prop_BDeep.spawns in *. rewrite omap_app. apply elem_of_app. by right.
Qed.
End Example.

(** Frames have 2500 bytes, and malloc answers with fresh addresses. *)
Definition at_step (i : nat) (l : dlab) : slab :=
  let a := (2 ^ 20 + 2 ^ 20 * N.of_nat i)%N in SL l 2500 (Some a) (Some (a + 2 ^ 18)%N) (Some (a + 2 ^ 19)%N).
Definition bm : RStackModel.mem :=
  match RStackModel.boot [Some 4096%N; Some 16384%N] (RStackModel.Mem ∅ [] ∅) with Some m => m | None => RStackModel.Mem ∅ [] ∅ end.
Definition um : RStackModel.mem :=
  match RStackModel.boot [Some 4096%N] (RStackModel.Mem ∅ [] ∅) with Some m => m | None => RStackModel.Mem ∅ [] ∅ end.
Lemma bm_booted : booted 2 bm.
Proof. exists [Some 4096%N; Some 16384%N]. split; [done|]. unfold bm. by destruct (RStackModel.boot _ _) eqn:E; [|vm_compute in E]. Qed.
Lemma um_booted : booted 1 um.
Proof. exists [Some 4096%N]. split; [done|]. unfold um. by destruct (RStackModel.boot _ _) eqn:E; [|vm_compute in E]. Qed.
Definition bx_run : list slab := greedy (wo 2 false) (imap at_step Prop_BDeep.bx_script) (init_deep 2 1, bm).
Definition ux_run : list slab := greedy (wo 1 true) (imap at_step Prop_BDeep.ux_script) (init_deep 1 1, um).

(** The facts that are computed. *)
Definition idle_at (y : deep) (w : nat) : bool :=
  match pc (pool y) w, FineModel.from (fn y) w with XDone, None => true | _, _ => false end.
Lemma idle_at_eq y w : idle_at y w = true -> pc (pool y) w = XDone /\ FineModel.from (fn y) w = None.
Proof. unfold idle_at. destruct (pc (pool y) w), (FineModel.from (fn y) w); done. Qed.
Lemma bx_facts :
  match exec (wo 2 false) bx_run (init_deep 2 1, bm) with
  | Some (y, _) => existsb is_client (skipn 4 bx_run) = false /\ idle_at y.1 0 = true /\ idle_at y.1 1 = true /\
                   stop (pool y.1) = true /\ dt (pool y.1) = true /\ Prop_BDeep.spawns (hist y.1) = [(0%N, Prop_BDeep.prog)] /\
                   submitted 0%N Prop_BDeep.prog y.1 /\ In (RuntimeModel.EvResume 1 0) (hist y.1) /\
                   RuntimeModel.s_res (FineModel.rt (fn y.1)) !! 0%N = Some (RuntimeModel.OVal 1) /\ size (RStackModel.m_heap y.2) = 3
  | None => False
  end.
Proof. vm_compute. repeat split; try reflexivity. tauto. Qed.
Lemma ux_facts :
  match exec (wo 1 true) ux_run (init_deep 1 1, um) with
  | Some (y, _) => existsb is_client (skipn 4 ux_run) = false /\ idle_at y.1 0 = true /\
                   stop (pool y.1) = true /\ dt (pool y.1) = true /\ Prop_BDeep.spawns (hist y.1) = [(0%N, Prop_BDeep.uprog)] /\
                   submitted 0%N Prop_BDeep.uprog y.1 /\ size (RStackModel.m_heap y.2) = 2
  | None => False
  end.
Proof. vm_compute. repeat split; reflexivity. Qed.
Lemma at_labs p ls i : Forall (Prop_BDeep.ex_lab p) ls -> Forall (ex_lab p) (imap (fun j => at_step (i + j)) ls).
Proof.
  intros H. revert i. induction H as [|l ls Hl _ IH]; intros i; [constructor|]. cbn [imap]. constructor; [split; [exact Hl|by vm_compute]|].
  rewrite (imap_ext _ (fun j => at_step (S i + j))); [apply IH|]. intros j y _. cbn. by rewrite Nat.add_succ_r.
Qed.
Lemma bx_labs : Forall (ex_lab Prop_BDeep.prog) bx_run.
Proof. apply greedy_forall. apply (at_labs _ _ 0). repeat constructor. Qed.
Lemma ux_labs : Forall (ex_lab Prop_BDeep.uprog) ux_run.
Proof. apply greedy_forall. apply (at_labs _ _ 0). repeat constructor. Qed.

Opaque bx_run ux_run Prop_BDeep.prog Prop_BDeep.uprog.

(** busy_pool with two workers, one of which steals; the destructor is called before the program has
    started.  The execution is fair and as documented, its program terminates, and it gets to the end, where
    three blocks are to be freed. *)
Example C80_instance : exists sg mm l N, sfair 2 false 2 1 false sg mm l /\ ssubmissions_end N l /\ all_terminate false sg /\
  exists i, sreach 2 false 2 1 false true (sg i) (mm i) /\ stop (pool (sg i)) = true /\ dt (pool (sg i)) = true /\
    submitted 0%N Prop_BDeep.prog (sg i) /\ RuntimeModel.EvResume 1 0 ∈ hist (sg i) /\ size (RStackModel.m_heap (mm i)) = 3.
Proof.
  pose proof bx_facts as H. destruct (exec (wo 2 false) bx_run (init_deep 2 1, bm)) as [[y t]|] eqn:Hy; [|destruct H].
  destruct H as (H1 & H2%idle_at_eq & H3%idle_at_eq & H4 & H5 & H6 & H7 & H8 & _ & H9).
  assert (forall w, w < 2 -> pc (pool y.1) w = XDone /\ FineModel.from (fn y.1) w = None) as Hpc by (intros [|[|w]] Hw; [exact H2|exact H3|lia]).
  pose proof (ex_fair 2 false Prop_BDeep.prog bm bx_run y t 4 bm_booted Hy bx_labs Hpc H4 H5 H6 (Prop_BDeep.prog_scoped 2)) as HF.
  exists (ex_sg 2 false bm bx_run), (ex_mm 2 false bm bx_run), (ex_l bx_run), 4. split_and!.
  - exact HF.
  - exact (ex_submissions 2 bx_run y 4 H1 Hpc).
  - exact (ex_terminate 2 false Prop_BDeep.prog bm bx_run y t Hy Hpc H4 H5 H6 Prop_BDeep.prog_terminates).
  - exists (length bx_run). split; [exact (run_sreach _ _ _ _ _ _ _ _ HF _)|].
    unfold ex_sg, ex_mm. rewrite (ex_end 2 false bm bx_run y t Hy) by lia. split_and!; [exact H4|exact H5|exact H7|by apply elem_of_list_In|exact H9].
Qed.

(** unit_pool. *)
Example C80_unit_instance : exists x m, sreach 1 true 2 1 false true x m /\ dt (pool x) = true /\
  submitted 0%N Prop_BDeep.uprog x /\ size (RStackModel.m_heap m) = 2.
Proof.
  pose proof ux_facts as H. destruct (exec (wo 1 true) ux_run (init_deep 1 1, um)) as [[y t]|] eqn:Hy; [|destruct H].
  destruct H as (H1 & H2%idle_at_eq & H4 & H5 & H6 & H7 & H8).
  assert (forall w, w < 1 -> pc (pool y.1) w = XDone /\ FineModel.from (fn y.1) w = None) as Hpc by (intros [|w] Hw; [exact H2|lia]).
  pose proof (ex_fair 1 true Prop_BDeep.uprog um ux_run y t 4 um_booted Hy ux_labs Hpc H4 H5 H6 Prop_BDeep.uprog_scoped) as HF.
  pose proof (run_sreach _ _ _ _ _ _ _ _ HF (length ux_run)) as Hr. unfold ex_sg, ex_mm in Hr.
  rewrite (ex_end 1 true um ux_run y t Hy) in Hr by lia. exists y.1, y.2. split; [exact Hr|]. split_and!; [exact H5|exact H7|exact H8].
Qed.

Print Assumptions C80_never_undefined.
Print Assumptions C80_refines.
Print Assumptions C80_progress.
Print Assumptions C80_frames_in_memory.
Print Assumptions C80_destructor_frees.
Print Assumptions C80_sync_wait_returns.
Print Assumptions C80_destructor_returns.
