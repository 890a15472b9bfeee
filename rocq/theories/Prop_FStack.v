(** * C79: the runtime on the real deques and the real segmented stacks together.

    [creach nw k af x m h]: an execution of [nw] workers whose deques are those of deque.hpp, with
    initial capacity [2^k], and whose coroutine frames are allocated on the stacks of stack.hpp,
    with any frame sizes, any answers of malloc and any interleaving of the accesses to shared memory.
    [x] is the state of the tasks and deques, [m] the heap, the stack of each worker and the place of
    each frame.  A failed assertion is undefined behaviour, [CUndef]; [CTerm] is std::terminate. *)

From stdpp Require Import prelude gmap list.
From Coq Require Import NArith ZArith Lia.
From Verif Require Import RuntimeModel RuntimeSpec RuntimeExamples FineModel FineSpec RStackModel RStackSpec FStackModel FStackSpec FStackProofs.
From Verif Require FineProofs2 RStackProofs Prop_Runtime Prop_RStack StackModel StackSpec DequeModel.
Local Open Scope N_scope.

(** No execution runs into undefined behaviour, in the deques, in the stacks or in the runtime. *)
Theorem C79_never_undefined nw k af x m h c :
  creach nw k af x m h -> fallowed nw af (c_lab c) -> c_sz c <= StackSpec.max_request -> cstep c x m <> CUndef.
Proof. intros (s & Q & H & M & HR)%creach_sim Ha Hsz. by eapply cstep_sim. Qed.

(** What happens is what happens on atomic deques with the same stacks: the same events, the same heap and
    frames, the same tasks, and the same tasks in each deque that is not being used. *)
Theorem C79_refines nw k af x m h : creach nw k af x m h -> exists s, rreach nw af s m h /\ agrees x s.
Proof. intros (s & Q & H & M & HR)%creach_sim. exists s. split; [done|]. by eapply FineProofs2.sim_agrees. Qed.

(** It is also what happens on the real deques if stacks are left out. *)
Theorem C79_refines_deques nw k af x m h : creach nw k af x m h -> freach nw k af x h.
Proof.
  induction 1 as [|c x m h x' m' tr _ IH Ha _ Hs]; [constructor|]. unfold cstep in Hs.
  destruct (fstep (c_lab c) x) as [x1 tr1| |] eqn:E; [|done..].
  destruct (execs (cacts c x) m); try done; injection Hs as <- <- <-; [by econstructor|done].
Qed.

(** The stacks never get in the way: a step that can happen without them happens with them, except that
    malloc may refuse.  Then the program terminates if a worker gives up its stack; schedule()
    throws and no task was submitted; or operator new throws although the label says it does not, or
    the other way round. *)
Theorem C79_progress nw k af x m h c x' tr :
  creach nw k af x m h -> fallowed nw af (c_lab c) -> c_sz c <= StackSpec.max_request ->
  fstep (c_lab c) x = FNext x' tr ->
  (exists m', cstep c x m = CNext x' m' tr) \/
  (cstep c x m = CTerm /\ exists hp, StackModel.stack_ctor (c_o1 c) (m_heap m) = StackModel.Thr hp) \/
  (exists d t m', c_lab c = FSpawn d t /\ cstep c x m = CNext x m' []) \/
  (cstep c x m = CBlocked /\ exists i fail fib, c_lab c = FWork i fail /\ m_fib m !! i = Some fib /\
     ((exists hp, new_coro (c_o1 c) fib (c_sz c) (m_heap m) = StackModel.Thr hp) \/
      (fail = true /\ exists hp v, new_coro (c_o1 c) fib (c_sz c) (m_heap m) = StackModel.Ret hp v))).
Proof. intros (s & Q & H & M & HR)%creach_sim. by eapply cprogress. Qed.

(** Every task that ends does so with an outcome that the serial elision of its body allows; so does
    the result that a submitter reads. *)
Theorem C79_serial nw k af x m h f o :
  creach nw k af x m h -> outcome_in f h = Some o -> exists t, body_in f h = Some t /\ eval af t o.
Proof. intros (s & HR & _)%C79_refines. eapply Prop_Runtime.C03_serial. by eapply Prop_RStack.C77_refines. Qed.
Theorem C79_root_result nw k af x m h f o :
  creach nw k af x m h -> parent_in f h = None -> s_res (rt x) !! f = Some o ->
  exists t, body_in f h = Some t /\ eval af t o.
Proof.
  intros (s & HR & Ha)%C79_refines. rewrite (a_res _ _ Ha). eapply Prop_Runtime.C03_root_result. by eapply Prop_RStack.C77_refines.
Qed.

(** The frame of each task that exists lies in a live block, aligned, behind the header; memory holds
    the frames of no other tasks; and no two of them share a byte. *)
Theorem C79_frames_in_memory nw k af x m h f :
  creach nw k af x m h ->
  (is_Some (s_frames (rt x) !! f) <-> is_Some (m_frm m !! f)) /\
  (forall fm, m_frm m !! f = Some fm -> in_block m fm) /\
  (forall g fm gm, m_frm m !! f = Some fm -> m_frm m !! g = Some gm -> f <> g -> apart fm gm).
Proof.
  intros (s & HR & Ha)%C79_refines. rewrite (a_frames _ _ Ha). destruct (Prop_RStack.C77_frames_in_memory _ _ _ _ _ f HR) as (A & B).
  split; [exact A|]. split; [exact B|]. intros g fm gm. by apply (Prop_RStack.C77_frames_apart _ _ _ _ _ f g fm gm HR).
Qed.

(** Frames do not move: in a step a frame stays where it is, and a new one has the size that was asked
    for. *)
Theorem C79_frames_stay nw k af x m h c x' m' tr f fm :
  creach nw k af x m h -> fallowed nw af (c_lab c) -> cstep c x m = CNext x' m' tr -> m_frm m' !! f = Some fm ->
  m_frm m !! f = Some fm \/ (m_frm m !! f = None /\ fm_size fm = c_sz c).
Proof. intros (s & Q & H & M & HR)%creach_sim. by eapply cframes_stay. Qed.

(** At most three blocks for each task that exists and two for each worker. *)
Theorem C79_blocks_bounded nw k af x m h :
  creach nw k af x m h -> (size (m_heap m) <= 3 * size (s_frames (rt x)) + 2 * nw)%nat.
Proof. intros (s & HR & Ha)%C79_refines. rewrite (a_frames _ _ Ha). by eapply Prop_RStack.C77_blocks_bounded. Qed.

(** When no task exists and the workers are idle, destroying the stacks of the workers frees everything
    and fails no assertion. *)
Theorem C79_shutdown nw k af x m h :
  creach nw k af x m h -> s_frames (rt x) = ∅ ->
  (forall i w, s_workers (rt x) !! i = Some w -> w_pc w = PIdle) ->
  halt (m_fib m) (m_heap m) = StackModel.Ret ∅ tt.
Proof.
  intros (s & HR & Ha)%C79_refines Hf Hw. rewrite (a_frames _ _ Ha) in Hf. eapply Prop_RStack.C77_shutdown; [exact HR|exact Hf|].
  intros i w Hi. destruct (Forall2_lookup_r _ _ _ _ _ (a_workers _ _ Ha) Hi) as (v & Hv & E & _). rewrite <- E. by eapply Hw.
Qed.

(** ** Executions that meet the hypotheses *)

(** Follow a list of labels; frames have [sz] bytes, and malloc answers with fresh addresses. *)
Definition at_step (sz : N) (n : nat) (l : flabel) : clabel :=
  let a := 2 ^ 20 + 2 ^ 20 * N.of_nat n in CL l sz (Some a) (Some (a + 2 ^ 18)) (Some (a + 2 ^ 19)).
Fixpoint first_c (ls : list flabel) (mk : flabel -> clabel) (x : fine) (m : mem) : option (fine * mem * list event) :=
  match ls with
  | [] => None
  | l :: ls => match cstep (mk l) x m with CNext x m tr => Some (x, m, tr) | _ => first_c ls mk x m end
  end.
(** Each element of [plan] is a list of labels, the first of which that can happen does. *)
Fixpoint follow (plan : list (list flabel)) (sz : N) (y : fine * mem * history) : fine * mem * history :=
  match plan with
  | [] => y
  | ls :: plan' =>
    let '(x, m, h) := y in
    match first_c ls (at_step sz (length plan)) x m with
    | Some (x, m, tr) => follow plan' sz (x, m, rev tr ++ h)
    | None => y
    end
  end.
Lemma follow_reach plan sz : forall x m h x' m' h',
  creach 2 0 false x m h -> Forall (Forall (fallowed 2 false)) plan -> sz <= StackSpec.max_request ->
  follow plan sz (x, m, h) = (x', m', h') -> creach 2 0 false x' m' h'.
Proof.
  induction plan as [|ls plan IH]; intros x m h x' m' h' Hr Ha Hsz E; cbn [follow] in E; [by injection E as <- <- <-|].
  apply Forall_cons in Ha as [Hls Ha].
  destruct (first_c ls (at_step sz (length (ls :: plan))) x m) as [[[x1 m1] tr]|] eqn:X; [|by injection E as <- <- <-].
  refine (IH _ _ _ _ _ _ _ Ha Hsz E).
  assert (Y : exists l, l ∈ ls /\ cstep (at_step sz (length (ls :: plan)) l) x m = CNext x1 m1 tr).
  { revert X. generalize (length (ls :: plan)). clear. intros k. induction ls as [|l ls IHl]; [done|]. cbn [first_c].
    destruct (cstep (at_step sz k l) x m) eqn:E; intros X.
    - injection X as <- <- <-. exists l. split; [by left|done].
    - destruct (IHl X) as (l' & ? & ?). exists l'. split; [by right|done].
    - destruct (IHl X) as (l' & ? & ?). exists l'. split; [by right|done].
    - destruct (IHl X) as (l' & ? & ?). exists l'. split; [by right|done]. }
  destruct Y as (l & Hl & Hs). rewrite Forall_forall in Hls.
  exact (cr_step _ _ _ (at_step sz (length (ls :: plan)) l) _ _ _ _ _ _ Hr (Hls _ Hl) Hsz Hs).
Qed.

(** Two workers with deques of capacity 1; the program is submitted to worker 0; the other worker steals
    whenever it can. *)
Definition w0 : flabel := FWork 0 false.
Definition w1 : flabel := FWork 1 false.
Definition plan (n : nat) : list (list flabel) :=
  [[FSpawn 0 prog]; [FTake 0]] ++ concat (repeat [[w0; FTake 0; w1; FTake 1]; [w1; FTake 1; FSteal 1 0; w0; FTake 0]] n).
Lemma plan_allowed n : Forall (Forall (fallowed 2 false)) (plan n).
Proof.
  unfold plan. repeat (apply Forall_cons; split; [repeat constructor; try done; apply prog_scoped; lia|]).
  induction n as [|n IH]; [constructor|]. repeat (apply Forall_cons; split; [by repeat constructor|]). exact IH.
Qed.
Definition cdemo (p : list (list flabel)) (sz : N) : option (fine * mem * history) :=
  match boot [Some 4096; Some 16384] (Mem ∅ [] ∅) with
  | Some m => Some (follow p sz (finit 2 0, m, []))
  | None => None
  end.
Lemma demo_such p sz (P : fine -> mem -> history -> bool) :
  Forall (Forall (fallowed 2 false)) p -> sz <= StackSpec.max_request ->
  match cdemo p sz with Some (x, m, h) => P x m h | None => false end = true ->
  exists x m h, creach 2 0 false x m h /\ P x m h = true.
Proof.
  intros Hp Hsz. unfold cdemo. destruct (boot [Some 4096; Some 16384] (Mem ∅ [] ∅)) as [m0|] eqn:Eb; [|done].
  destruct (follow p sz (finit 2 0, m0, [])) as [[x m] h] eqn:E. intros X. exists x, m, h. split; [|exact X].
  refine (follow_reach _ _ _ _ _ _ _ _ _ Hp Hsz E). exact (cr_boot 2 0 false [Some 4096; Some 16384] m0 eq_refl Eb).
Qed.

(** Worker 1 has stolen the root task, whose frame lies on the stack that worker 0 adopted, and given it
    back; three frames exist, in three blocks on different stacks, and two more blocks. *)
Definition busy_at (x : fine) (m : mem) (h : history) : bool :=
  bool_decide ((size (s_frames (rt x)), size (m_heap m)) = (3%nat, 5%nat)) &&
  bool_decide (NoDup (fm_top ∘ snd <$> map_to_list (m_frm m))) &&
  existsb (fun e => match e with EvResume 1%nat 0 => true | _ => false end) h.
Example C79_demo : exists x m h,
  creach 2 0 false x m h /\ (size (s_frames (rt x)), size (m_heap m)) = (3%nat, 5%nat) /\
  NoDup (fm_top ∘ snd <$> map_to_list (m_frm m)) /\ EvResume 1 0 ∈ h.
Proof.
  destruct (demo_such (plan 26) 2500 busy_at (plan_allowed _)) as (x & m & h & R & X); [by vm_compute|vm_compute; reflexivity|].
  exists x, m, h. split; [exact R|]. unfold busy_at in X. rewrite !andb_true_iff, !bool_decide_eq_true in X.
  destruct X as ((X1 & X2) & X3). split; [exact X1|]. split; [exact X2|].
  apply existsb_exists in X3 as (e & He & X3). apply elem_of_list_In in He.
  destruct e as [| | |i f| | | | | | | | |]; try discriminate X3. destruct i as [|[|i]]; try discriminate X3. destruct f; [exact He|discriminate X3].
Qed.

(** At the end no frame is left and the workers are idle. *)
Definition is103 (o : option outcome) : bool := match o with Some (OVal v) => Z.eqb v 103 | _ => false end.
Lemma is103_eq o : is103 o = true -> o = Some (OVal 103%Z).
Proof. destruct o as [[v|]|]; cbn; try done. by intros ->%Z.eqb_eq. Qed.
Definition done_at (x : fine) (m : mem) (h : history) : bool :=
  bool_decide (size (s_frames (rt x)) = 0%nat) && bool_decide (size (m_heap m) = 3%nat) &&
  forallb (fun w => match w_pc w with PIdle => true | _ => false end) (s_workers (rt x)) &&
  is103 (s_res (rt x) !! 0) && bool_decide (parent_in 0 h = None) && is103 (outcome_in 0 h).
Example C79_demo_end : exists x m h,
  creach 2 0 false x m h /\ s_frames (rt x) = ∅ /\ (forall i w, s_workers (rt x) !! i = Some w -> w_pc w = PIdle) /\
  size (m_heap m) = 3%nat /\ s_res (rt x) !! 0 = Some (OVal 103%Z) /\ parent_in 0 h = None /\ outcome_in 0 h = Some (OVal 103%Z).
Proof.
  destruct (demo_such (plan 40) 2500 done_at (plan_allowed _)) as (x & m & h & R & X); [by vm_compute|vm_compute; reflexivity|].
  exists x, m, h. split; [exact R|]. unfold done_at in X. rewrite !andb_true_iff, !bool_decide_eq_true in X.
  destruct X as [[[[[X1 X2] X3] X4] X5] X6]. split_and!; [by apply map_size_empty_inv| |exact X2|exact (is103_eq _ X4)|exact X5|exact (is103_eq _ X6)].
  intros i w Hi. rewrite forallb_forall in X3. apply elem_of_list_lookup_2, elem_of_list_In in Hi.
  specialize (X3 _ Hi). by destruct (w_pc w).
Qed.

(** If malloc refuses when worker 0, whose pop found nothing, gives up its stack, the program is
    terminated. *)
Example C79_demo_term : exists x m h,
  creach 2 0 false x m h /\ cstep (CL w0 0 None None None) x m = CTerm.
Proof.
  destruct (demo_such (plan 16) 2500 (fun x m _ => match cstep (CL w0 0 None None None) x m with CTerm => true | _ => false end) (plan_allowed _))
    as (x & m & h & R & X); [by vm_compute|vm_compute; reflexivity|].
  exists x, m, h. split; [exact R|]. by destruct (cstep _ x m).
Qed.

Print Assumptions C79_never_undefined.
Print Assumptions C79_refines.
Print Assumptions C79_refines_deques.
Print Assumptions C79_progress.
Print Assumptions C79_serial.
Print Assumptions C79_root_result.
Print Assumptions C79_frames_in_memory.
Print Assumptions C79_frames_stay.
Print Assumptions C79_blocks_bounded.
Print Assumptions C79_shutdown.
