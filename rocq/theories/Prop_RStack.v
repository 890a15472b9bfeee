(** * C77: the runtime on the real segmented stacks.

    [rreach nw af s m h]: an execution of [nw] workers whose coroutine frames are allocated on
    the stacks of stack.hpp, with any frame sizes and any answers of malloc ([af]: whether
    operator new may fail).  [s] is the state of the tasks, [m] the heap, the stack of each
    worker and the place of each frame.  An assertion of the stack code or of the code that
    calls it that fails is undefined behaviour, [RUndef]; so is an exception that
    nothing catches in the runtime; [RTerm] is std::terminate. *)

From stdpp Require Import prelude gmap list.
From Coq Require Import NArith ZArith Lia.
From Verif Require Import RuntimeModel RuntimeSpec RuntimeExamples RStackModel RStackSpec RStackProofs.
From Verif Require StackModel StackSpec.
Local Open Scope N_scope.

(** No execution runs into undefined behaviour: frames are given back in the order the stack
    demands, to the stack they came from, every assertion on top() and empty() holds, and
    a stack is destroyed only when nothing lies on it. *)
Theorem C77_never_undefined nw af s m h r :
  rreach nw af s m h -> allowed nw af (r_lab r) -> r_sz r <= StackSpec.max_request ->
  rstep r s m <> RUndef.
Proof. apply rreach_safe. Qed.
Print Assumptions C77_never_undefined.

(** The tasks do what they do in [RuntimeModel], so the theorems about [reach] (C01 to C13 and
    others) hold of executions on the real stacks. *)
Theorem C77_refines nw af s m h : rreach nw af s m h -> reach nw af s h.
Proof. intros Hr. by destruct (rreach_ok _ _ _ _ _ Hr). Qed.
Print Assumptions C77_refines.

(** The stacks never get in the way of a step of the tasks: what can happen without them
    happens with them, except that malloc may refuse.  Then the program terminates if a
    worker gives up its stack; schedule() throws and no task was submitted; and a fork or
    call throws exactly if operator new does, so that a wrong guess of [fail] is
    replaced by the other. *)
Theorem C77_progress nw af s m h r s' tr :
  rreach nw af s m h -> allowed nw af (r_lab r) -> r_sz r <= StackSpec.max_request ->
  step (r_lab r) s = Next s' tr ->
  (exists m', rstep r s m = RNext s' m' tr) \/
  (rstep r s m = RTerm /\ exists hp, StackModel.stack_ctor (r_o1 r) (m_heap m) = StackModel.Thr hp) \/
  (exists d t m', r_lab r = LSpawn d t /\ rstep r s m = RNext s m' []) \/
  (rstep r s m = RBlocked /\ exists i fail fail' s2 m2 tr2, r_lab r = LWork i fail /\
     rstep (RL (LWork i fail') (r_sz r) (r_o1 r) (r_o2 r) (r_o3 r) false) s m = RNext s2 m2 tr2).
Proof. apply step_progress. Qed.
Print Assumptions C77_progress.

(** The frame of each task that exists lies in a live block, aligned, behind the header; and
    memory holds the frames of no other tasks. *)
Theorem C77_frames_in_memory nw af s m h f :
  rreach nw af s m h ->
  (is_Some (s_frames s !! f) <-> is_Some (m_frm m !! f)) /\
  (forall fm, m_frm m !! f = Some fm -> in_block m fm).
Proof. apply frames_placed. Qed.
Print Assumptions C77_frames_in_memory.

(** No two of them share a byte, whichever workers the tasks run on and however often they were
    stolen. *)
Theorem C77_frames_apart nw af s m h f g fm gm :
  rreach nw af s m h -> m_frm m !! f = Some fm -> m_frm m !! g = Some gm -> f <> g -> apart fm gm.
Proof. apply frames_apart. Qed.
Print Assumptions C77_frames_apart.

(** Frames do not move: in a step, whatever stacks change hands, a frame stays where it is, and
    a new one has the size that was asked for. *)
Theorem C77_frames_stay nw af r s m h s' m' tr f fm :
  rreach nw af s m h -> rstep r s m = RNext s' m' tr -> m_frm m' !! f = Some fm ->
  m_frm m !! f = Some fm \/ (m_frm m !! f = None /\ fm_size fm = r_sz r).
Proof. apply frames_stay. Qed.
Print Assumptions C77_frames_stay.

(** At most three blocks for each task that exists and two for each worker. *)
Theorem C77_blocks_bounded nw af s m h :
  rreach nw af s m h -> (size (m_heap m) <= 3 * size (s_frames s) + 2 * nw)%nat.
Proof. apply blocks_bounded. Qed.
Print Assumptions C77_blocks_bounded.

(** When no task exists and the workers are idle, destroying the stacks of the workers
    (worker_finalize) frees everything and fails no assertion. *)
Theorem C77_shutdown nw af s m h :
  rreach nw af s m h -> s_frames s = ∅ ->
  (forall i w, s_workers s !! i = Some w -> w_pc w = PIdle) ->
  halt (m_fib m) (m_heap m) = StackModel.Ret ∅ tt.
Proof. apply shutdown_ok. Qed.
Print Assumptions C77_shutdown.

(** ** Executions that meet the hypotheses *)

(** Follow a priority list for [n] steps; frames have [sz] bytes, and malloc answers with fresh
    addresses. *)
Definition at_step (sz : N) (n : nat) (l : label) : rlabel :=
  let a := 2 ^ 20 + 2 ^ 20 * N.of_nat n in
  RL l sz (Some a) (Some (a + 2 ^ 18)) (Some (a + 2 ^ 19)) false.

Fixpoint first_r (ls : list label) (mk : label -> rlabel) (s : state) (m : mem) : option (state * mem * list event) :=
  match ls with
  | [] => None
  | l :: ls => match rstep (mk l) s m with RNext s m tr => Some (s, m, tr) | _ => first_r ls mk s m end
  end.
Fixpoint follow (n : nat) (prio : list label) (sz : N) (x : state * mem * history) : state * mem * history :=
  match n with
  | O => x
  | S n' =>
    let '(s, m, h) := x in
    match first_r prio (at_step sz n) s m with
    | Some (s, m, tr) => follow n' prio sz (s, m, rev tr ++ h)
    | None => x
    end
  end.
Definition rdemo (n : nat) (prio : list label) (sz : N) (t : task) : state * mem * history :=
  match boot [Some 4096; Some 16384] (Mem ∅ [] ∅) with
  | Some m =>
    match rstep (at_step sz 0 (LSpawn 0 t)) (init 2) m with
    | RNext s m tr => follow n prio sz (s, m, rev tr ++ [])
    | _ => (init 2, m, [])
    end
  | None => (init 2, Mem ∅ [] ∅, [])
  end.

Lemma follow_reach n prio sz : forall s m h s' m' h',
  rreach 2 false s m h -> Forall (allowed 2 false) prio -> sz <= StackSpec.max_request ->
  follow n prio sz (s, m, h) = (s', m', h') -> rreach 2 false s' m' h'.
Proof.
  induction n as [|n IH]; intros s m h s' m' h' Hr Ha Hsz E; cbn [follow] in E; [by injection E as <- <- <-|].
  destruct (first_r prio (at_step sz (S n)) s m) as [[[s1 m1] tr]|] eqn:X; [|by injection E as <- <- <-].
  refine (IH _ _ _ _ _ _ _ Ha Hsz E).
  assert (Y : exists l, l ∈ prio /\ rstep (at_step sz (S n) l) s m = RNext s1 m1 tr).
  { revert X. generalize (S n). clear. intros k. induction prio as [|l ls IHl]; [done|]. cbn [first_r].
    destruct (rstep (at_step sz k l) s m) eqn:E; intros X.
    - injection X as <- <- <-. exists l. split; [by left|done].
    - destruct (IHl X) as (l' & ? & ?). exists l'. split; [by right|done].
    - destruct (IHl X) as (l' & ? & ?). exists l'. split; [by right|done].
    - destruct (IHl X) as (l' & ? & ?). exists l'. split; [by right|done]. }
  destruct Y as (l & Hl & Hs). rewrite Forall_forall in Ha.
  exact (rr_step _ _ (at_step sz (S n) l) _ _ _ _ _ _ Hr (Ha _ Hl) Hsz Hs).
Qed.

Lemma rdemo_reach n prio sz t s m h :
  Forall (allowed 2 false) prio -> well_scoped 2 t -> sz <= StackSpec.max_request ->
  size (m_heap m) <> 0%nat ->
  rdemo n prio sz t = (s, m, h) -> rreach 2 false s m h.
Proof.
  intros Ha Ht Hsz Hne E. unfold rdemo in E.
  destruct (boot [Some 4096; Some 16384] (Mem ∅ [] ∅)) as [m0|] eqn:Eb; [|injection E as <- <- <-; done].
  assert (R0 : rreach 2 false (init 2) m0 []) by exact (rr_boot 2 false [Some 4096; Some 16384] m0 eq_refl Eb).
  destruct (rstep (at_step sz 0 (LSpawn 0 t)) (init 2) m0) as [s1 m1 tr| | |] eqn:Es.
  - refine (follow_reach _ _ _ _ _ _ _ _ _ _ Ha Hsz E). exact (rr_step _ _ (at_step sz 0 (LSpawn 0 t)) _ _ _ _ _ _ R0 Ht Hsz Es).
  - by injection E as <- <- <-.
  - by injection E as <- <- <-.
  - by injection E as <- <- <-.
Qed.

Lemma prog2_scoped : well_scoped 2 prog.
Proof. apply prog_scoped. lia. Qed.

(** After 13 steps four frames exist, in four blocks of two workers' stacks: the root's frame on
    the stack that schedule() made and worker 0 adopted, one of its children on a second block of
    that stack, a called child on the stack of worker 1 and its child on a second block there. *)
Definition places (m : mem) : list (N * N) := (fun p => (fm_ptr p.2, fm_top p.2)) <$> map_to_list (m_frm m).

Definition busy_at (s : state) (m : mem) (h : history) : bool :=
  bool_decide ((size (s_frames s), size (m_heap m)) = (4%nat, 4%nat)) && bool_decide (length h = 14%nat) &&
  bool_decide (NoDup (snd <$> places m)) && bool_decide (length (places m) = 4%nat).

Lemma demo_such n sz (P : state -> mem -> history -> bool) :
  sz <= StackSpec.max_request ->
  (let '(s, m, h) := rdemo n eager2 sz prog in P s m h && negb (bool_decide (size (m_heap m) = 0%nat))) = true ->
  exists s m h, rreach 2 false s m h /\ P s m h = true.
Proof.
  intros Hsz. destruct (rdemo n eager2 sz prog) as [[s m] h] eqn:E. intros X.
  apply andb_true_iff in X as [X1 X2]. apply negb_true_iff, bool_decide_eq_false in X2.
  exists s, m, h. split; [|exact X1].
  exact (rdemo_reach _ _ _ _ _ _ _ eager2_allowed prog2_scoped Hsz X2 E).
Qed.

Example C77_demo : exists s m h,
  rreach 2 false s m h /\ (size (s_frames s), size (m_heap m)) = (4%nat, 4%nat) /\
  length h = 14%nat /\ NoDup (snd <$> places m) /\ length (places m) = 4%nat.
Proof.
  destruct (demo_such 13 2500 busy_at) as (s & m & h & R & X); [by vm_compute|vm_compute; reflexivity|].
  exists s, m, h. split; [exact R|]. unfold busy_at in X. rewrite !andb_true_iff, !bool_decide_eq_true in X. tauto.
Qed.

(** And at the end no frame is left, the workers are idle, and three blocks are: the two stacks,
    one of them with a cached block.  At the context switch worker 0 gave up its stack and
    worker 1 adopted it. *)
Definition done_at (s : state) (m : mem) (h : history) : bool :=
  bool_decide (size (s_frames s) = 0%nat) && bool_decide (size (m_heap m) = 3%nat) &&
  forallb (fun w => match w_pc w with PIdle => true | _ => false end) (s_workers s) &&
  existsb (fun e => match e with EvEnd 0 (OVal 103%Z) => true | _ => false end) h.

Example C77_demo_end : exists s m h,
  rreach 2 false s m h /\ s_frames s = ∅ /\ (forall i w, s_workers s !! i = Some w -> w_pc w = PIdle) /\
  size (m_heap m) = 3%nat /\ (exists e, EvEnd e (OVal 103%Z) ∈ h).
Proof.
  destruct (demo_such 60 2500 done_at) as (s & m & h & R & X); [by vm_compute|vm_compute; reflexivity|].
  exists s, m, h. split; [exact R|]. unfold done_at in X. rewrite !andb_true_iff, !bool_decide_eq_true in X.
  destruct X as [[[X1 X2] X3] X4]. split_and!.
  - by apply map_size_empty_inv.
  - intros i w Hi. rewrite forallb_forall in X3. apply elem_of_list_lookup_2, elem_of_list_In in Hi.
    specialize (X3 _ Hi). by destruct (w_pc w).
  - exact X2.
  - apply existsb_exists in X4 as (e & He & X4). apply elem_of_list_In in He.
    destruct e as [| | | |f o| | | | | | | |]; try discriminate X4. exists f.
    destruct f; [|discriminate X4]. destruct o as [v|]; [|discriminate X4].
    assert (Z.eqb v 103%Z = true) as E; [|apply Z.eqb_eq in E; subst v; exact He].
    clear -X4. repeat case_match; try discriminate X4; reflexivity.
Qed.

(** If malloc refuses when worker 0 gives up its stack, the program is terminated. *)
Example C77_demo_term : exists s m h,
  rreach 2 false s m h /\ rstep (RL (LWork 0 false) 0 None None None false) s m = RTerm.
Proof.
  destruct (demo_such 29 2500 (fun s m _ => match rstep (RL (LWork 0 false) 0 None None None false) s m with RTerm => true | _ => false end))
    as (s & m & h & R & X); [by vm_compute|vm_compute; reflexivity|].
  exists s, m, h. split; [exact R|]. by destruct (rstep _ s m).
Qed.
