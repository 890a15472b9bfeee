(** * The 16-bit join counter: 65535 forks in a scope are too many. *)

From stdpp Require Import prelude gmap list.
From Coq Require Import NArith ZArith Lia.
From Verif Require Import RuntimeModel RuntimeSpec.
Local Open Scope N_scope.

Global Arguments N.add : simpl never.
Global Arguments N.sub : simpl never.
Global Arguments N.mul : simpl never.
Global Arguments N.modulo : simpl never.

(** A task that forks [n] children which do nothing, then joins. *)
CoFixpoint forks_n (n : N) : task :=
  if decide (n = 0) then Join (fun _ _ => Ret 0%Z)
  else Fork FNone false (Ret 0%Z) (fun _ => forks_n (n - 1)).

Definition unroll (t : task) : task :=
  match t with
  | Ret v => Ret v | Throw e => Throw e | Fork m st c k => Fork m st c k | Call m st c k => Call m st c k
  | Join k => Join k | Switch sk d k => Switch sk d k | Stash e k => Stash e k | Where k => Where k
  end.
Lemma unroll_eq t : t = unroll t.
Proof. by destruct t. Qed.
Lemma forks_0 : forks_n 0 = Join (fun _ _ => Ret 0%Z).
Proof. rewrite (unroll_eq (forks_n 0)). done. Qed.
Lemma forks_S n : n <> 0 -> forks_n n = Fork FNone false (Ret 0%Z) (fun _ => forks_n (n - 1)).
Proof.
  intros H. rewrite (unroll_eq (forks_n n)).
  transitivity (unroll (if decide (n = 0) then Join (fun _ _ => Ret 0%Z)
    else Fork FNone false (Ret 0%Z) (fun _ => forks_n (n - 1)))); [reflexivity|].
  by rewrite decide_False.
Qed.

(** With at most 65534 forks the program follows the rules ... *)
Lemma forks_scoped nw n : n <= max_forks -> well_scoped nw (forks_n n).
Proof.
  unfold well_scoped. intros Hn.
  assert (G : forall k m x, m + k <= max_forks -> scoped nw m x (forks_n k)).
  { clear. intros k. induction k as [|k IH] using N.peano_ind; intros m x H.
    - rewrite forks_0. constructor. intros. constructor.
    - rewrite forks_S by lia. replace (N.succ k - 1) with k by lia.
      constructor; try done; [lia|constructor|apply IH; lia|intros; apply IH; lia]. }
  apply G. lia.
Qed.

(** The effect of a list of decisions on the state. *)
Fixpoint runs_to (ls : list label) (s : state) : option state :=
  match ls with
  | [] => Some s
  | l :: ls' => match step l s with Next s' _ => runs_to ls' s' | _ => None end
  end.

Lemma runs_to_app l1 l2 s s' : runs_to l1 s = Some s' -> runs_to (l1 ++ l2) s = runs_to l2 s'.
Proof.
  revert s. induction l1 as [|l l1 IH]; intros s H; cbn in *; [by injection H as ->|].
  destruct (step l s); try done. auto.
Qed.

(** ** One round: worker [i] forks a child, worker [j] steals the parent, the
    child ends. *)
Definition round_a (i j : nat) : list label :=
  [LWork i false; LSteal j i; LWork j false; LWork j false; LWork i false; LWork i false; LWork i false].

Section round.
Context (i j : nat) (Hij : i <> j).

(** [n] children were forked, stolen from and joined; worker [i] runs the parent,
    which has [65535 - n] forks to go; worker [j] is idle. *)
Record mid (n : N) (s : state) : Prop := {
  m_i : exists x, s_workers s !! i = Some (mkWorker (PRun 0) [] [] [] x) /\ x <> 2 /\ stk s x = [];
  m_j : exists y, s_workers s !! j = Some (mkWorker PIdle [] [] [] y) /\ y <> 2 /\ stk s y = [];
  m_xy : forall w w', s_workers s !! i = Some w -> s_workers s !! j = Some w' -> w_stk w <> w_stk w';
  m_fr : exists cs, s_frames s !! 0 =
    Some (mkFrame KRoot (RRun (forks_n (u16max - n))) n (u16max - n) false None cs 2);
  m_next : 0 < s_nextf s
}.

(** ... and the child forked after that has told its parent nothing yet. *)
Record end_ (n : N) (s : state) : Prop := {
  e_i : exists x, s_workers s !! i = Some (mkWorker (PSub 0) [] [] [] x) /\ x <> 2 /\ stk s x = [];
  e_j : exists y, s_workers s !! j = Some (mkWorker (PRun 0) [] [] [] y) /\ y <> 2 /\ stk s y = [];
  e_xy : forall w w', s_workers s !! i = Some w -> s_workers s !! j = Some w' -> w_stk w <> w_stk w';
  e_fr : exists cs, s_frames s !! 0 =
    Some (mkFrame KRoot (RRun (forks_n (u16max - n - 1))) (n + 1) (u16max - n) false None cs 2);
  e_next : 0 < s_nextf s
}.

Ltac lk := repeat (first
  [ rewrite lookup_insert | rewrite lookup_insert_ne by done
  | rewrite list_lookup_insert by (rewrite ?insert_length; done)
  | rewrite list_lookup_insert_ne by done ]).

Lemma round_1 n s : n < u16max -> mid n s ->
  exists s', runs_to (round_a i j) s = Some s' /\ end_ n s'.
Proof.
  intros Hn [(x & Hi & Hx2 & Hx) (y & Hj & Hy2 & Hy) Hxy (cs & Hf) Hnf].
  assert (Hxy' : x <> y) by (specialize (Hxy _ _ Hi Hj); done).
  assert (Hli : (i < length (s_workers s))%nat) by (by apply lookup_lt_Some in Hi).
  assert (Hlj : (j < length (s_workers s))%nat) by (by apply lookup_lt_Some in Hj).
  assert (Hc : s_nextf s <> 0) by lia.
  assert (Hc' : 0 <> s_nextf s) by lia.
  assert (Hji : j <> i) by done.
  rewrite forks_S in Hf by lia.
  unfold round_a. cbn [runs_to step].
  (* the fork *)
  unfold wstep at 1. rewrite Hi. cbn [w_pc]. rewrite Hf. cbn [f_rp run_task].
  set (s1 := put_worker i _ _).
  assert (H1i : s_workers s1 !! i = Some (mkWorker (PRun (s_nextf s)) [0] [] [] x)) by (cbn; by lk).
  assert (H1j : s_workers s1 !! j = Some (mkWorker PIdle [] [] [] y)) by (cbn; by lk).
  assert (H1c : s_frames s1 !! s_nextf s = Some (new_frame (KFork 0 (length cs) false) (Ret 0%Z) x)) by (cbn; by lk).
  assert (H1f : s_frames s1 !! 0 = Some (mkFrame KRoot (RFork FNone false (fun _ => forks_n (u16max - n - 1)) n) n (u16max - n) false None (cs ++ [CUnset]) 2)) by (cbn; by lk).
  assert (H1x : stk s1 x = [s_nextf s]) by (unfold stk; cbn; lk; cbn; rewrite <- Hx; done).
  assert (H1y : stk s1 y = []) by (unfold stk; cbn; lk; done).
  assert (H1n : s_nextf s1 = s_nextf s + 1) by done.
  assert (H1l : length (s_workers s1) = length (s_workers s)) by (cbn; by rewrite insert_length).
  clearbody s1.
  (* the steal *)
  unfold steal. rewrite H1i, H1j. rewrite decide_False by done. cbn [w_pc w_batch w_deque last].
  set (s2 := put_worker j _ _).
  assert (H2i : s_workers s2 !! i = Some (mkWorker (PRun (s_nextf s)) [] [] [] x)) by (cbn; rewrite list_lookup_insert_ne by done; rewrite list_lookup_insert by lia; done).
  assert (H2j : s_workers s2 !! j = Some (mkWorker (PStolen 0) [] [] [] y)) by (cbn; rewrite list_lookup_insert by (rewrite insert_length; lia); done).
  assert (H2F : s_frames s2 = s_frames s1) by done.
  assert (H2s : forall z, stk s2 z = stk s1 z) by done.
  assert (H2n : s_nextf s2 = s_nextf s1) by done.
  assert (H2l : length (s_workers s2) = length (s_workers s)) by (cbn; by rewrite !insert_length).
  clearbody s2.
  (* the thief resumes the parent *)
  unfold wstep at 1. rewrite H2j. cbn [w_pc]. unfold resume_stolen. rewrite H2F, H1f. cbn [w_deque w_stk].
  rewrite H2s, H1y.
  set (s3 := put_worker j _ _).
  assert (H3i : s_workers s3 !! i = Some (mkWorker (PRun (s_nextf s)) [] [] [] x)) by (cbn; rewrite list_lookup_insert_ne by done; done).
  assert (H3j : s_workers s3 !! j = Some (mkWorker (PRun 0) [] [] [] y)) by (cbn; rewrite list_lookup_insert by lia; done).
  assert (H3c : s_frames s3 !! s_nextf s = Some (new_frame (KFork 0 (length cs) false) (Ret 0%Z) x)) by (cbn; rewrite H2F; by lk).
  assert (H3f : s_frames s3 !! 0 = Some (mkFrame KRoot (RFork FNone false (fun _ => forks_n (u16max - n - 1)) n) (n + 1) (u16max - n) false None (cs ++ [CUnset]) 2)).
  { cbn. lk. unfold set_steals. cbn. f_equal. f_equal. unfold u16inc. apply N.mod_small. unfold u16max, u16mod in *. lia. }
  assert (H3s : forall z, stk s3 z = stk s1 z) by (intros z; rewrite <- H2s; done).
  assert (H3n : s_nextf s3 = s_nextf s1) by done.
  assert (H3l : length (s_workers s3) = length (s_workers s)) by (cbn; by rewrite !insert_length).
  clearbody s3.
  unfold wstep at 1. rewrite H3j. cbn [w_pc]. rewrite H3f. cbn [f_rp]. unfold fork_resume. cbn zeta.
  set (s4 := put_frame 0 _ _).
  assert (H4w : s_workers s4 = s_workers s3) by done.
  assert (H4c : s_frames s4 !! s_nextf s = Some (new_frame (KFork 0 (length cs) false) (Ret 0%Z) x)) by (cbn; by lk).
  assert (H4f : s_frames s4 !! 0 = Some (mkFrame KRoot (RRun (forks_n (u16max - n - 1))) (n + 1) (u16max - n) false None (cs ++ [CUnset]) 2)) by (cbn; by lk).
  assert (H4s : forall z, stk s4 z = stk s1 z) by (intros z; rewrite <- H3s; done).
  assert (H4n : s_nextf s4 = s_nextf s1) by done.
  clearbody s4.
  (* the child returns *)
  unfold wstep at 1. rewrite H4w, H3i. cbn [w_pc]. rewrite H4c. cbn [f_rp new_frame run_task]. unfold deliver.
  cbn [f_kind new_frame]. rewrite H4f. cbn [f_cells].
  set (s5 := put_frame 0 _ _).
  assert (H5w : s_workers s5 = s_workers s3) by done.
  assert (H5c : s_frames s5 !! s_nextf s = Some (set_rp RFinal (new_frame (KFork 0 (length cs) false) (Ret 0%Z) x))) by (cbn; by lk).
  assert (H5f : exists cs', s_frames s5 !! 0 = Some (mkFrame KRoot (RRun (forks_n (u16max - n - 1))) (n + 1) (u16max - n) false None cs' 2)) by (eexists; cbn; by lk).
  assert (H5s : forall z, stk s5 z = stk s1 z) by (intros z; rewrite <- H4s; done).
  assert (H5n : s_nextf s5 = s_nextf s1) by done.
  clearbody s5. destruct H5f as (cs' & H5f).
  unfold wstep at 1. rewrite H5w, H3i. cbn [w_pc]. rewrite H5c. cbn [f_rp set_rp]. unfold finish.
  cbn [f_steals f_joins f_eflag f_kind new_frame set_rp]. rewrite decide_True by done.
  unfold destroy. cbn [f_stk new_frame set_rp w_stk]. rewrite decide_True by done. rewrite H5s, H1x, decide_True by done.
  set (s6 := put_worker i _ _).
  assert (H6i : s_workers s6 !! i = Some (mkWorker (PFinal 0) [] [] [] x)) by (cbn; rewrite H5w; rewrite list_lookup_insert by lia; done).
  assert (H6j : s_workers s6 !! j = Some (mkWorker (PRun 0) [] [] [] y)) by (cbn; rewrite H5w; rewrite list_lookup_insert_ne by done; done).
  assert (H6f : s_frames s6 !! 0 = Some (mkFrame KRoot (RRun (forks_n (u16max - n - 1))) (n + 1) (u16max - n) false None cs' 2)) by (cbn; rewrite lookup_delete_ne by done; done).
  assert (H6x : stk s6 x = []) by (unfold stk; cbn; by lk).
  assert (H6y : stk s6 y = []) by (unfold stk; cbn; lk; change (stk s5 y = []); by rewrite H5s).
  assert (H6n : s_nextf s6 = s_nextf s1) by done.
  assert (H6l : length (s_workers s6) = length (s_workers s)) by (cbn; rewrite insert_length, H5w; done).
  clearbody s6.
  unfold wstep. rewrite H6i. cbn [w_pc w_deque].
  eexists. split; [reflexivity|]. split.
  - exists x. cbn. rewrite list_lookup_insert by lia. done.
  - exists y. cbn. rewrite list_lookup_insert_ne by done. done.
  - intros w w'. cbn. rewrite list_lookup_insert by lia. rewrite list_lookup_insert_ne by done. rewrite H6j.
    intros [= <-] [= <-]. done.
  - exists cs'. done.
  - cbn. lia.
Qed.

Lemma round_2 n s : n < max_forks -> end_ n s ->
  exists s', runs_to [LWork i false] s = Some s' /\
    s_frames s' !! 0 = (fun fr => set_joins (u16max - (n + 1)) fr) <$> s_frames s !! 0 /\
    s_workers s' = <[i := set_pc PIdle (mkWorker (PSub 0) [] [] [] (w_stk (default (mkWorker PIdle [] [] [] 0) (s_workers s !! i))))]> (s_workers s) /\
    (forall z, stk s' z = stk s z) /\ s_nextf s' = s_nextf s.
Proof.
  intros Hn [(x & Hi & Hx2 & Hx) (y & Hj & Hy2 & Hy) Hxy (cs & Hf) Hnf].
  cbn [runs_to step]. unfold wstep. rewrite Hi. cbn [w_pc]. unfold final_sub. rewrite Hf.
  unfold same_stacklet. cbn [f_stk w_stk]. rewrite decide_False by done. cbn zeta. cbn [f_joins].
  rewrite decide_False by (unfold max_forks, u16max in *; lia).
  unfold to_idle. cbn [w_deque w_stk].
  assert (E : stk (put_frame 0 (set_joins (u16sub (u16max - n) 1) (mkFrame KRoot (RRun (forks_n (u16max - n - 1))) (n + 1) (u16max - n) false None cs 2)) s) x = []) by done.
  rewrite E. eexists. split; [reflexivity|]. split_and!; try done.
  cbn. rewrite lookup_insert. unfold set_joins. cbn. f_equal. f_equal.
  unfold u16sub. replace (u16max - n + u16mod - 1) with (u16max - (n + 1) + 1 * u16mod) by (unfold max_forks, u16max, u16mod in *; lia).
  rewrite N.mod_add by done. apply N.mod_small. unfold u16max, u16mod. lia.
Qed.

End round.

Lemma round_ok i j n s : i <> j -> n < max_forks -> mid i j n s ->
  exists s', runs_to (round_a i j ++ [LWork i false]) s = Some s' /\ mid j i (n + 1) s'.
Proof.
  intros Hij Hn Hm. destruct (round_1 i j Hij n s) as (s1 & E1 & H1); [unfold max_forks, u16max in *; lia|done|].
  destruct (round_2 i j Hij n s1 Hn H1) as (s2 & E2 & Hf & Hw & Hs & Hnf).
  exists s2. split; [by rewrite (runs_to_app _ _ _ _ E1)|].
  destruct H1 as [(x & Hi & Hx2 & Hx) (y & Hj & Hy2 & Hy) Hxy (cs & Hfr) Hlt].
  rewrite Hi in Hw. cbn in Hw. rewrite Hfr in Hf. cbn in Hf. unfold set_joins in Hf. cbn in Hf.
  assert (Hli : (i < length (s_workers s1))%nat) by (by apply lookup_lt_Some in Hi).
  specialize (Hxy _ _ Hi Hj). cbn in Hxy.
  split.
  - exists y. rewrite Hw, list_lookup_insert_ne by done. rewrite Hs. done.
  - exists x. rewrite Hw, list_lookup_insert by done. rewrite Hs. done.
  - intros w w'. rewrite Hw, list_lookup_insert by done. rewrite list_lookup_insert_ne by done. rewrite Hj.
    intros [= <-] [= <-]. done.
  - exists cs. rewrite Hf. replace (u16max - n - 1) with (u16max - (n + 1)) by lia. done.
  - lia.
Qed.

(** The beginning: worker 0 takes the submitted task and forks; worker 1 steals. *)
Definition prelude : list label :=
  [LSpawn 0 (forks_n u16max); LTake 0; LWork 0 false; LWork 0 false; LSteal 1 0; LWork 1 false; LWork 1 false;
   LWork 0 false; LWork 0 false; LWork 0 false; LWork 0 false; LWork 0 false].

Lemma prelude_ok : exists s, runs_to prelude (init 2) = Some s /\ mid 1 0 1 s.
Proof.
  unfold prelude. cbn [runs_to step]. unfold spawn. cbn [init s_workers]. cbn [map seq lookup list_lookup].
  set (t := forks_n u16max). set (t' := forks_n (u16max - 1)).
  assert (Et : t = Fork FNone false (Ret 0%Z) (fun _ => t')) by (by apply forks_S).
  rewrite Et. assert (Et' : forks_n (u16max - 1) = t') by done. clearbody t'.
  destruct (runs_to (LTake 0 :: tl (tl prelude)) (match spawn 0 (Fork FNone false (Ret 0%Z) (fun _ => t')) (init 2) with Next s _ => s | _ => init 0 end)) as [s|] eqn:E.
  2:{ exfalso. vm_compute in E. done. }
  exists s. split; [exact E|]. vm_compute in E. injection E as <-.
  split.
  - eexists. split; [reflexivity|]. split; [done|reflexivity].
  - eexists. split; [reflexivity|]. split; [done|reflexivity].
  - intros w w'. cbn. intros [= <-] [= <-]. done.
  - rewrite Et'. eexists. reflexivity.
  - done.
Qed.

(** After [n] rounds. *)
Lemma rounds n : 1 <= n -> n <= max_forks ->
  exists ls s i j, i <> j /\ (i < 2)%nat /\ (j < 2)%nat /\ runs_to (LSpawn 0 (forks_n u16max) :: ls) (init 2) = Some s /\ mid i j n s.
Proof.
  induction n as [|n IH] using N.peano_ind; [lia|]. intros _ Hn.
  destruct (decide (n = 0)) as [->|Hn0].
  - destruct prelude_ok as (s & E & Hm). eexists _, s, 1%nat, 0%nat. split_and!; [lia..|exact E|exact Hm].
  - destruct IH as (ls & s & i & j & Hij & Hi & Hj & E & Hm); [lia..|].
    destruct (round_ok i j n s Hij) as (s' & E' & Hm'); [lia|done|].
    exists (ls ++ round_a i j ++ [LWork i false]), s', j, i. split_and!; try done.
    + change (LSpawn 0 (forks_n u16max) :: ls ++ round_a i j ++ [LWork i false])
        with ((LSpawn 0 (forks_n u16max) :: ls) ++ (round_a i j ++ [LWork i false])).
      by rewrite (runs_to_app _ _ _ _ E).
    + by rewrite <- N.add_1_r.
Qed.

(** The 65535th child finds the counter at 1 and takes itself for the last child
    of a parent that is suspended at its join, while another worker runs the
    parent. *)
Lemma too_many_forks :
  exists ls s i j, runs_to (LSpawn 0 (forks_n 65535) :: ls) (init 2) = Some s /\
    i <> j /\
    w_pc <$> s_workers s !! j = Some (PRun 0) /\
    w_pc <$> s_workers s !! i = Some (PSub 0) /\
    f_joins <$> s_frames s !! 0 = Some 1 /\
    step (LWork i false) s = Undef.
Proof.
  destruct (rounds max_forks) as (ls & s & i & j & Hij & _ & _ & E & Hm); [done..|].
  destruct (round_1 i j Hij max_forks s) as (s' & E' & He); [done|done|].
  exists (ls ++ round_a i j), s', i, j. destruct He as [(x & Hi & Hx2 & Hx) (y & Hj & Hy2 & Hy) Hxy (cs & Hf) Hlt].
  split_and!; try done.
  - change (LSpawn 0 (forks_n 65535) :: ls ++ round_a i j)
      with ((LSpawn 0 (forks_n u16max) :: ls) ++ round_a i j).
    by rewrite (runs_to_app _ _ _ _ E).
  - by rewrite Hj.
  - by rewrite Hi.
  - by rewrite Hf.
  - cbn [step]. unfold wstep. rewrite Hi. cbn [w_pc]. unfold final_sub. rewrite Hf.
    unfold same_stacklet. cbn [f_stk w_stk]. rewrite decide_False by done. cbn zeta.
    cbn [f_joins]. rewrite decide_True by done. cbn [f_rp]. done.
Qed.
