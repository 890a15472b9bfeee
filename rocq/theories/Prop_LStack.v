(** * C81: programs on lazy_pool with the real deques and the real stacks, from the start of the pool to its
    destructor.

    Model: LStackModel.v.  Specification: LStackSpec.v, DeepSpec.v, FStackSpec.v, StackSpec.v. *)

From stdpp Require Import prelude gmap list.
From Coq Require Import NArith Lia.
From Verif Require Import PoolCommon PoolFair PoolExamples LazyModel DeepModel DeepSpec LStackModel LStackSpec LStackProofs.
From Verif Require RuntimeModel RuntimeSpec RuntimeTermSpec Prop_Term FineModel FineSpec.
From Verif Require StackModel StackSpec RStackModel RStackSpec FStackModel FStackSpec Prop_FStack Prop_Deep.

Section Thms.
Context (n nd : nat) (dom : nat -> nat) (K k : nat) (af : bool).

(** Nothing undefined ever happens, in the pool, in the runtime, in the deques or in the stacks, whatever
    programs run, whatever malloc answers, and whenever the pool is destroyed. *)
Theorem C81_never_undefined x m b :
  sreach n nd dom K k af x m -> slegal n af b -> sstep n nd dom K b x m <> SUndef.
Proof.
  intros Hr (Hl & Hsz). pose proof (sreach_creach _ _ _ _ _ _ _ _ Hr) as Hc. pose proof (sreach_dreach _ _ _ _ _ _ _ _ Hr) as Hd.
  pose proof (Prop_Deep.C75_never_undefined n nd dom K k af x (s_lab b) Hd Hl) as Hu. unfold sstep.
  destruct (deep_step n nd dom K (s_lab b) x) as [x'| |] eqn:E; [|done|done]. pose proof (part_step n nd dom K _ _ _ E) as Hp.
  unfold stack_part. destruct (fine_part K (s_lab b) x) as [fl|] eqn:Ef; [|done]. destruct Hp as (tr & Hf & _).
  pose proof (Prop_FStack.C79_never_undefined n k af _ _ _ (with_answers b fl) Hc (part_allowed n K af _ _ _ Hl Ef) Hsz) as Hn.
  unfold FStackModel.cstep in Hn. cbn [FStackModel.c_lab with_answers] in Hn. rewrite Hf in Hn.
  by destruct (RStackModel.execs (FStackModel.cacts (with_answers b fl) (fn x)) m).
Qed.

(** What happens is what happens on the pool with the real deques if stacks are left out; and it is what
    happens to the runtime on the real deques and stacks if the pool is left out.  So all that is proved in
    C75 and C79 holds here. *)
Theorem C81_refines x m : sreach n nd dom K k af x m ->
  dreach n nd dom K k af x /\ FStackSpec.creach n k af (fn x) m (hist x).
Proof. intros Hr. split; [by eapply sreach_dreach|by eapply sreach_creach]. Qed.

(** The stacks never get in the way: what can happen without them happens with them, except that malloc may
    refuse. *)
Theorem C81_progress x m b x' :
  sreach n nd dom K k af x m -> slegal n af b -> deep_step n nd dom K (s_lab b) x = DNext x' ->
  (exists m', sstep n nd dom K b x m = SNext x' m') \/
  (sstep n nd dom K b x m = STerm /\ exists hp, StackModel.stack_ctor (s_o1 b) (RStackModel.m_heap m) = StackModel.Thr hp) \/
  (exists a d t m', s_lab b = YClient a d t /\ ag (pool x) a = AIdle /\ sstep n nd dom K b x m = SNext x m') \/
  (sstep n nd dom K b x m = SBlock /\ exists w c v fail fib, s_lab b = YWorker w c v fail /\ RStackModel.m_fib m !! w = Some fib /\
     ((exists hp, RStackModel.new_coro (s_o1 b) fib (s_sz b) (RStackModel.m_heap m) = StackModel.Thr hp) \/
      (fail = true /\ exists hp v, RStackModel.new_coro (s_o1 b) fib (s_sz b) (RStackModel.m_heap m) = StackModel.Ret hp v))).
Proof.
  intros Hr (Hl & Hsz) E. pose proof (sreach_creach _ _ _ _ _ _ _ _ Hr) as Hc. pose proof (part_step n nd dom K _ _ _ E) as Hp.
  unfold sstep. rewrite E. unfold stack_part. destruct (fine_part K (s_lab b) x) as [fl|] eqn:Ef; [|left; by exists m].
  destruct Hp as (tr & Hf & _).
  pose proof (Prop_FStack.C79_progress n k af _ _ _ (with_answers b fl) _ _ Hc (part_allowed n K af _ _ _ Hl Ef) Hsz Hf) as Hn.
  unfold FStackModel.cstep in Hn. cbn [FStackModel.c_lab FStackModel.c_o1 FStackModel.c_sz with_answers] in Hn. rewrite Hf in Hn.
  destruct (RStackModel.execs (FStackModel.cacts (with_answers b fl) (fn x)) m) as [m'| |m'| |] eqn:Ex.
  - left. by exists m'.
  - right; right; right. split; [done|]. destruct Hn as [(? & ?)|[(? & _)|[(? & ? & ? & _ & ?)|(_ & i & fail & fib & -> & Hfib & Hx)]]]; try done.
    destruct (s_lab b) as [w c v fl|a d t| |w|w]; cbn [fine_part] in Ef; try done; [|by destruct (ag (pool x) a)].
    exists w, c, v, fl, fib. split; [done|]. unfold thread_part in Ef. repeat case_match; try done; injection Ef as -> ->; done.
  - right; right; left.
    assert (Hst : RStackModel.execs (stack_part K b x) m = RStackModel.MThr m') by (unfold stack_part; by rewrite Ef).
    destruct (throws_client n nd dom K af b x m x' m' (conj Hl Hsz) E Hst) as (a & d & t & Hb & Ha). by exists a, d, t, m'.
  - right; left. split; [done|]. destruct Hn as [(? & ?)|[(_ & ?)|[(? & ? & ? & _ & ?)|(? & _)]]]; done.
  - destruct Hn as [(? & ?)|[(? & _)|[(? & ? & ? & _ & ?)|(? & _)]]]; done.
Qed.

(** The frame of each task that exists lies in a live block, and no two of them share a byte. *)
Theorem C81_frames_in_memory x m f : sreach n nd dom K k af x m ->
  (is_Some (RuntimeModel.s_frames (FineModel.rt (fn x)) !! f) <-> is_Some (RStackModel.m_frm m !! f)) /\
  (forall fm, RStackModel.m_frm m !! f = Some fm -> RStackSpec.in_block m fm) /\
  (forall g fm gm, RStackModel.m_frm m !! f = Some fm -> RStackModel.m_frm m !! g = Some gm -> f <> g -> RStackSpec.apart fm gm).
Proof. intros Hr%sreach_creach. by eapply Prop_FStack.C79_frames_in_memory. Qed.

(** Every sync_wait returns, with the value the program has if it is run by itself. *)
Theorem C81_sync_wait_returns sg mm l N :
  sfair n nd dom K k af sg mm l -> sproper N sg l -> all_terminate af sg ->
  exists m, forall i, m <= i -> forall f t, submitted f t (sg i) ->
    released f (sg i) /\ exists o, result f (sg i) = Some o /\ RuntimeSpec.eval af t o.
Proof.
  intros HW HP HT.
  exact (Prop_Deep.C75_sync_wait_returns n nd dom K k af sg _ N (bare_fair n nd dom K k af sg mm l HW) (bare_proper K sg mm l N HP) HT).
Qed.

(** The destructor returns; in the end no task is left in memory, and destroying the stacks of the workers
    frees everything. *)
Theorem C81_destructor_returns sg mm l N i :
  (forall u, u < n -> dom u < nd) ->
  sfair n nd dom K k af sg mm l -> sproper N sg l -> all_terminate af sg ->
  dt (pool (sg i)) <> DIdle ->
  exists m, forall j, m <= j -> dt (pool (sg j)) = DDone /\ RStackModel.m_frm (mm j) = ∅ /\ all_freed (mm j).
Proof.
  intros Hdom HW HP HT Hs.
  destruct (Prop_Deep.C75_destructor_returns n nd dom K k af sg _ N i Hdom (bare_fair n nd dom K k af sg mm l HW) (bare_proper K sg mm l N HP) HT Hs) as (m1 & Hd).
  destruct (rests n nd dom K k af sg mm l HW N HP HT) as (m2 & Hf). exists (m1 `max` m2). intros j Hj.
  assert (Hdj : dt (pool (sg j)) = DDone) by (by eapply (stays_done n nd dom K k af sg mm l HW m1); [lia|]).
  specialize (Hf j ltac:(lia)). pose proof (run_sreach n nd dom K k af sg mm l HW j) as Hr. pose proof (sreach_creach _ _ _ _ _ _ _ _ Hr) as Hc.
  split; [done|]. split.
  - apply map_empty. intros f. destruct (Prop_FStack.C79_frames_in_memory n k af _ _ _ f Hc) as (Hi & _). rewrite Hf, lookup_empty in Hi.
    apply eq_None_not_Some. intros X%Hi. by destruct X.
  - unfold all_freed. eapply Prop_FStack.C79_shutdown; [exact Hc|exact Hf|]. eapply ended_idle; [by eapply sreach_dreach|exact Hdj].
Qed.
End Thms.

(** ** The hypotheses are met *)

(** A fair execution without memory and answers of malloc with which all allocations succeed make a fair
    execution with memory. *)
Section Lift.
Context (n nd : nat) (dom : nat -> nat) (K k : nat) (af : bool) (sg : nat -> deep) (l : nat -> option dlab).
Context (at_step : nat -> dlab -> slab) (mm : nat -> RStackModel.mem).
Definition lifted (i : nat) : option slab := at_step i <$> l i.
Lemma lift_fair :
  (forall i d, s_lab (at_step i d) = d /\ (s_sz (at_step i d) <= StackSpec.max_request)%N) -> booted n (mm 0) ->
  (forall i, match l i with
             | Some d => RStackModel.execs (stack_part K (at_step i d) (sg i)) (mm i) = RStackModel.MOk (mm (i + 1))
             | None => mm (i + 1) = mm i
             end) ->
  dfair n nd dom K k af sg l -> sfair n nd dom K k af sg mm lifted.
Proof.
  intros Ha Hb Hm [[R0 R1] Hw Hc Hd]. assert (M : forall i d, l i = Some d -> makes (lifted i) d).
  { intros i d E. exists (at_step i d). unfold lifted. rewrite E. split; [done|]. apply Ha. }
  split.
  - split; [done|]. intros i. specialize (R1 i). specialize (Hm i). unfold lifted. destruct (l i) as [d|]; [|done]. cbn. destruct R1 as [H1 H2].
    destruct (Ha i d) as [E1 E2]. split; [split; [by rewrite E1|done]|]. unfold sstep. by rewrite E1, H2, Hm.
  - intros w i Hlt. destruct (Hw w i Hlt) as (j & Hij & [(c & v & fail & H)|H]); exists j; (split; [done|]); [left; eauto 6|by right].
  - intros a i H1 H2. destruct (Hc a i H1 H2) as (j & d & t & Hij & H). exists j, d, t. split; [done|]. by apply M.
  - intros i H1. destruct (Hd i H1) as (j & Hij & [H|H]); exists j; (split; [done|]); [left; by apply M|by right].
Qed.
Lemma lift_proper N : (forall i d, s_lab (at_step i d) = d) -> proper N sg l -> sproper N sg lifted.
Proof.
  intros Ha [P1 P2]. split; [|done]. intros i a d t Hi (b & Hb & E). unfold lifted in Hb. apply fmap_Some in Hb as (d' & Hl & ->).
  rewrite Ha in E. subst d'. by eapply P1.
Qed.
End Lift.

(** Frames have 2500 bytes, and malloc answers with fresh addresses. *)
Definition at_step (i : nat) (l : dlab) : slab :=
  let a := (2 ^ 20 + 2 ^ 20 * N.of_nat i)%N in SL l 2500 (Some a) (Some (a + 2 ^ 18)%N) (Some (a + 2 ^ 19)%N).
Lemma at_step_ok i d : s_lab (at_step i d) = d /\ (s_sz (at_step i d) <= StackSpec.max_request)%N.
Proof. split; [done|by vm_compute]. Qed.
Definition bm : RStackModel.mem :=
  match RStackModel.boot [Some 4096%N; Some 16384%N] (RStackModel.Mem ∅ [] ∅) with Some m => m | None => RStackModel.Mem ∅ [] ∅ end.
Lemma bm_booted : booted 2 bm.
Proof. exists [Some 4096%N; Some 16384%N]. split; [done|]. unfold bm. by destruct (RStackModel.boot _ _) eqn:E; [|vm_compute in E]. Qed.

(** The memory after the steps [ls], the first of which is step [i]. *)
Fixpoint mem_after (i : nat) (ls : list dlab) (x : deep) (m : RStackModel.mem) : option RStackModel.mem :=
  match ls with
  | [] => Some m
  | l :: ls =>
    match Prop_Deep.wo l x, RStackModel.execs (stack_part 2 (at_step i l) x) m with
    | Next y _, RStackModel.MOk m' => mem_after (S i) ls y m'
    | _, _ => None
    end
  end.
Lemma mem_after_app l1 l2 : forall i x m, mem_after i (l1 ++ l2) x m =
  match exec Prop_Deep.wo l1 x, mem_after i l1 x m with
  | Some (y, _), Some m' => mem_after (i + length l1) l2 y m'
  | _, _ => None
  end.
Proof.
  induction l1 as [|l l1 IH]; intros i x m; [cbn; by rewrite Nat.add_0_r|]. cbn [app mem_after exec length].
  destruct (Prop_Deep.wo l x) as [y tr| |]; [|done..]. destruct (RStackModel.execs _ _) as [m'| | | |].
  - rewrite IH. rewrite Nat.add_succ_r. cbn [Nat.add]. destruct (exec Prop_Deep.wo l1 y) as [[z tz]|]; done.
  - by destruct (exec Prop_Deep.wo l1 y) as [[z tz]|].
  - by destruct (exec Prop_Deep.wo l1 y) as [[z tz]|].
  - by destruct (exec Prop_Deep.wo l1 y) as [[z tz]|].
  - by destruct (exec Prop_Deep.wo l1 y) as [[z tz]|].
Qed.
Section Mem.
Context (ls : list dlab) (y : deep) (ty : list pev) (my : RStackModel.mem).
Context (Hy : exec Prop_Deep.wo ls Prop_Deep.ini = Some (y, ty)) (Hm : mem_after 0 ls Prop_Deep.ini bm = Some my).
Definition ex_mm (i : nat) : RStackModel.mem := default bm (mem_after 0 (firstn i ls) Prop_Deep.ini bm).
Lemma ex_mm_step i : match labels ls i with
  | Some d => RStackModel.execs (stack_part 2 (at_step i d) (states Prop_Deep.wo Prop_Deep.ini ls i)) (ex_mm i) = RStackModel.MOk (ex_mm (i + 1))
  | None => ex_mm (i + 1) = ex_mm i
  end.
Proof.
  unfold labels, ex_mm, states, state_after. destruct (nth_error ls i) as [d|] eqn:E.
  - assert (Hi : i < length ls) by (apply nth_error_Some; congruence).
    assert (Es : skipn i ls = d :: skipn (S i) ls).
    { clear -E. revert i E. induction ls as [|z zs IH]; intros [|i] E; try done; cbn in *; [by injection E as ->|by apply IH]. }
    assert (El : firstn (i + 1) ls = firstn i ls ++ [d]).
    { clear -E. revert i E. induction ls as [|z zs IH]; intros [|i] E; try done; cbn in *; [by injection E as ->|f_equal; by apply IH]. }
    pose proof Hm as H. rewrite <- (firstn_skipn i ls), mem_after_app in H.
    rewrite El, mem_after_app. destruct (exec Prop_Deep.wo (firstn i ls) Prop_Deep.ini) as [[x tx]|]; [|done].
    destruct (mem_after 0 (firstn i ls) Prop_Deep.ini bm) as [m|]; [|done]. rewrite Es in H. cbn [mem_after] in H |- *.
    rewrite firstn_length, Nat.min_l in H |- * by lia. cbn [Nat.add] in H |- *. cbn [default].
    destruct (Prop_Deep.wo d x); [|done..]. destruct (RStackModel.execs (stack_part 2 (at_step i d) x) m) eqn:Ex; try discriminate H. exact Ex.
  - apply nth_error_None in E. by rewrite !firstn_all2 by lia.
Qed.
End Mem.

(** The execution [ls] with memory. *)
Lemma lift_run ls P : match mem_after 0 ls Prop_Deep.ini bm with Some m => P m | None => false end = true ->
  dfair 2 2 Prop_Deep.wd 2 1 false (Prop_Deep.ex_sg ls) (Prop_Deep.ex_l ls) ->
  sfair 2 2 Prop_Deep.wd 2 1 false (Prop_Deep.ex_sg ls) (ex_mm ls) (lifted (Prop_Deep.ex_l ls) at_step) /\
  P (ex_mm ls (length ls)) = true.
Proof.
  intros X HD. destruct (mem_after 0 ls Prop_Deep.ini bm) as [my|] eqn:Hm; [|discriminate X]. split.
  - apply lift_fair; [exact at_step_ok|exact bm_booted|exact (ex_mm_step ls my Hm)|exact HD].
  - unfold ex_mm. rewrite firstn_all, Hm. exact X.
Qed.
Definition three (m : RStackModel.mem) : bool := Nat.eqb (size (RStackModel.m_heap m)) 3.
Lemma three_eq m : three m = true -> size (RStackModel.m_heap m) = 3.
Proof. apply Nat.eqb_eq. Qed.
Lemma mem_facts : match mem_after 0 Prop_Deep.the_run Prop_Deep.ini bm with Some m => three m | None => false end = true.
Proof. vm_compute. reflexivity. Qed.

(** Two workers in two domains, one of which steals; the pool is destroyed.  The execution is as required,
    and it gets to the end, where three blocks are to be freed. *)
Example C81_instance : exists sg mm l N, sfair 2 2 Prop_Deep.wd 2 1 false sg mm l /\ sproper N sg l /\ all_terminate false sg /\
  (forall u, u < 2 -> Prop_Deep.wd u < 2) /\
  exists i, sreach 2 2 Prop_Deep.wd 2 1 false (sg i) (mm i) /\ submitted 0%N Prop_Deep.prog (sg i) /\
    RuntimeModel.EvResume 1 0 ∈ hist (sg i) /\ dt (pool (sg i)) = DDone /\ size (RStackModel.m_heap (mm i)) = 3.
Proof.
  destruct (lift_run Prop_Deep.the_run three mem_facts
    (Prop_Deep.ex_fair Prop_Deep.prog Prop_Deep.the_run 100 21 Prop_Deep.the_labs Prop_Deep.the_facts (proj1 (Prop_Term.fib_scoped 2 2)))) as (HF & HS).
  exists (Prop_Deep.ex_sg Prop_Deep.the_run), (ex_mm Prop_Deep.the_run), (lifted (Prop_Deep.ex_l Prop_Deep.the_run) at_step), 21.
  split; [exact HF|]. split.
  { apply lift_proper; [intros i d; apply at_step_ok|]. exact (Prop_Deep.ex_proper Prop_Deep.prog Prop_Deep.the_run 100 21 Prop_Deep.the_facts). }
  split.
  { exact (Prop_Deep.ex_terminate Prop_Deep.prog Prop_Deep.the_run 100 21 Prop_Deep.the_facts
      (Prop_Term.C51_finite_programs_terminate false Prop_Deep.prog (proj1 (Prop_Term.fib_finite 2)))). }
  split; [intros u Hu; exact Hu|].
  exists (length Prop_Deep.the_run). split; [exact (run_sreach _ _ _ _ _ _ _ _ _ HF _)|]. apply three_eq in HS.
  split; [vm_compute; split; reflexivity|]. split; [apply elem_of_list_In; vm_compute; tauto|].
  split; [vm_compute; reflexivity|exact HS].
Qed.

Print Assumptions C81_never_undefined.
Print Assumptions C81_refines.
Print Assumptions C81_progress.
Print Assumptions C81_frames_in_memory.
Print Assumptions C81_sync_wait_returns.
Print Assumptions C81_destructor_returns.
