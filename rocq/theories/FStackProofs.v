(** The runtime on the real deques and stacks is simulated by the one on atomic deques and real stacks. *)

From stdpp Require Import prelude gmap list.
From Coq Require Import NArith ZArith Lia.
From Verif Require Import RuntimeModel RuntimeSpec FineModel FineSpec FineProofs FineProofs2 RStackModel RStackSpec FStackModel FStackSpec.
From Verif Require DequeModel DequeSpec StackModel StackSpec RStackProofs.
Local Open Scope N_scope.

(** ** The runtime is shown enough of its deque *)

Lemma commit_adv op fail q : (fun a => a.1.1) <$> commit_op op fail q = adv_op op fail q.
Proof. unfold commit_op, adv_op. repeat case_match; done. Qed.

Lemma commit_op_after i op fail x fl push l x' tr :
  commit_op op fail (dq x i) = Some (fl, push, l) -> op_step i op fail x = FNext x' tr ->
  exists d, after (wstep i fl (show i l (rt x))) d (from x) = FNext x' tr.
Proof.
  unfold commit_op, op_step. destruct (DequeModel.owner op fail (dq x i)) as [q ev|]; [|done].
  intros E X. exists (set_at i q (dq x)). revert E X. repeat case_match; intros E X; try done; injection E as <- <- <-; try done.
Qed.

Lemma after_next y d a x' tr : after y d a = FNext x' tr -> exists r', y = Next r' tr /\ x' = Fine (hide r') d a.
Proof. destruct y; cbn; [|done..]. intros [= <- <-]. eauto. Qed.

Lemma self_pc i fl s w s' tr : s_workers s !! i = Some w -> w_pc w = PSelf -> wstep i fl s = Next s' tr ->
  exists w', s_workers s' !! i = Some w' /\ (w_pc w' = PIdle <-> w_deque w = []).
Proof.
  intros Hw Hpc. unfold wstep. rewrite Hw, Hpc. unfold self_steal, to_idle.
  pose proof (lookup_lt_Some _ _ _ Hw) as Hlt.
  destruct (w_deque w) as [|q d] eqn:Ed.
  - intros E. assert (exists w', s_workers s' !! i = Some w' /\ w_pc w' = PIdle) as (w' & ? & ?); [|by exists w'].
    repeat case_match; try done; injection E as <- _; cbn; eexists; (split; [by apply list_lookup_insert|done]).
  - destruct (s_frames s !! q); [|done]. intros [= <- _]. cbn. eexists. split; [by apply list_lookup_insert|]. done.
Qed.

Lemma work_acts_eq r i fl s s2 w d d2 :
  s_workers s !! i = Some (set_deque d w) -> s_workers s2 !! i = Some (set_deque d2 w) ->
  s_frames s = s_frames s2 -> s_nextf s = s_nextf s2 -> (w_pc w = PSelf -> d = [] <-> d2 = []) ->
  work_acts r i fl s = work_acts r i fl s2.
Proof.
  intros H1 H2 Ef En Hd. unfold work_acts. rewrite H1, H2. cbn [set_deque w_pc w_batch w_stk w_deque]. rewrite <- Ef.
  destruct (w_pc w); try done.
  - destruct (s_frames s !! f) as [fr|]; [|done]. destruct (f_rp fr); try done. unfold task_acts. by rewrite En.
  - destruct (Hd eq_refl) as [X Y]. destruct d, d2; try done; [by specialize (X eq_refl)|by specialize (Y eq_refl)].
Qed.

Lemma shown_acts nw k af x' h s s' Q' H' Q i fl push l tr c x d a :
  s = with_deques Q (rt x) -> step (LWork i fl) s = Next s' tr -> sim nw k af x' h s' Q' H' ->
  after (wstep i fl (show i l (rt x))) d a = FNext x' tr ->
  acts (with_answers c (LWork i fl) push) s = acts (with_answers c (LWork i fl) push) (show i l (rt x)).
Proof.
  intros Es Hs M (r' & Hr & ->)%after_next. cbn [step] in Hs. unfold acts. cbn [with_answers r_lab].
  destruct (s_workers (rt x) !! i) as [w|] eqn:Hw; cycle 1.
  { rewrite wstep_none in Hr; [done|]. cbn. by rewrite list_lookup_alter, Hw. }
  assert (X1 : s_workers s !! i = Some (set_deque (Q i) w)) by (by rewrite Es, wd_lookup, Hw).
  assert (X2 : s_workers (show i l (rt x)) !! i = Some (set_deque l w)) by (by apply show_lookup).
  eapply work_acts_eq; [exact X1|exact X2|by subst s|by subst s|].
  intros Hpc. destruct (self_pc _ _ _ _ _ _ X1 Hpc Hs) as (w1 & A1 & A2). destruct (self_pc _ _ _ _ _ _ X2 Hpc Hr) as (w2 & B1 & B2).
  cbn [set_deque w_deque] in A2, B2. rewrite <- A2, <- B2.
  rewrite (m_state _ _ _ _ _ _ _ _ M), wd_lookup in A1. cbn in A1. rewrite list_lookup_fmap, B1 in A1. cbn in A1. by injection A1 as <-.
Qed.

(** ** A step *)

(** The step [r] of the runtime on real stacks belongs to the label [c]. *)
Definition fits (c : clabel) (r : rlabel) : Prop :=
  r_sz r = c_sz c /\ r_o1 r = c_o1 c /\
  match r_lab r with
  | LWork i fl => exists fail, c_lab c = FWork i fail /\ (fl = true -> fail = true)
  | LSpawn d t => c_lab c = FSpawn d t
  | _ => True
  end.
Lemma fits_work c i fail fl push : c_lab c = FWork i fail -> (fl = true -> fail = true) -> fits c (with_answers c (LWork i fl) push).
Proof. intros E H. split; [done|]. split; [done|]. by exists fail. Qed.

Definition with_stacks (nw k : nat) (af : bool) (c : clabel) (x x' : fine) (h : history) (s : state) (tr : list event) : Prop :=
  exists s' Q1 H1, sim nw k af x' (rev tr ++ h) s' Q1 H1 /\
    ((s' = s /\ tr = [] /\ cacts c x = []) \/
     exists r, allowed nw af (r_lab r) /\ fits c r /\ step (r_lab r) s = Next s' tr /\ acts r s = cacts c x).

Lemma own_stacks nw k af x h s Q H c i fail x' tr :
  sim nw k af x h s Q H -> (fail = true -> af = true) -> c_lab c = FWork i fail -> from x i = None ->
  own_step i fail x = FNext x' tr -> with_stacks nw k af c x x' h s tr.
Proof.
  intros M Hfail Hc Hf Hstep. pose proof M as [HR Es HH HO HT HF]. unfold with_stacks, cacts. rewrite Hc, Hf.
  assert (Hplain : DequeModel.d_own (dq x i) = OIdle ->
    next_op i (rt x) = NoOp \/ (fail = true /\ exists f, next_op i (rt x) = DoPush f) ->
    after (wstep i fail (show i (seen (dq x i)) (rt x))) (dq x) (from x) = FNext x' tr ->
    exists s' Q1 H1, sim nw k af x' (rev tr ++ h) s' Q1 H1 /\
      exists r, allowed nw af (r_lab r) /\ fits c r /\ step (r_lab r) s = Next s' tr /\
        acts r s = acts (with_answers c (LWork i fail) false) (show i (seen (dq x i)) (rt x))).
  { intros Ho Hop Ea. destruct (sim_plain _ _ _ _ _ _ _ _ _ _ M Hf Hfail Ho Hop) as (_ & Z2).
    destruct (Z2 _ _ Ea) as (s' & Q1 & H1 & Hs' & Hst). exists s', Q1, H1. split; [done|].
    exists (with_answers c (LWork i fail) false). split; [exact Hfail|]. split; [by apply (fits_work _ _ fail)|]. split; [done|].
    by eapply shown_acts. }
  assert (Hop : forall op fl, (fl = true -> fail = true) -> (DequeModel.d_own (dq x i) = OIdle ->
       match op with Some f => next_op i (rt x) = DoPush f | None => next_op i (rt x) = DoPop end) ->
    op_step i op fl x = FNext x' tr ->
    exists s' Q1 H1, sim nw k af x' (rev tr ++ h) s' Q1 H1 /\
    ((s' = s /\ tr = [] /\ commit_op op fl (dq x i) = None) \/
     exists fl' push l, commit_op op fl (dq x i) = Some (fl', push, l) /\ 
      exists r, allowed nw af (r_lab r) /\ fits c r /\ step (r_lab r) s = Next s' tr /\
        acts r s = acts (with_answers c (LWork i fl') push) (show i l (rt x)))).
  { intros op fl Hfl Hop Ea. destruct (HO i) as (p & cc & Hp & _).
    destruct (sim_op nw k af x h s Q H i op fl p M Hf ltac:(auto) Hp Hop) as (_ & Hy).
    destruct (Hy _ _ Ea) as (s' & Q1 & H1 & p' & Hs' & _ & Hx). exists s', Q1, H1. split; [done|].
    pose proof (commit_adv op fl (dq x i)) as Eadv.
    destruct Hx as [(-> & -> & _ & Ha)|(_ & _ & fl' & Hfl' & Hst & Ha)].
    - left. rewrite Ha in Eadv. split; [done|]. split; [done|]. by destruct (commit_op op fl (dq x i)).
    - right. rewrite Ha in Eadv. destruct (commit_op op fl (dq x i)) as [[[fl2 push] l]|] eqn:Ec; [|done].
      cbn in Eadv. injection Eadv as ->. exists fl', push, l. split; [done|].
      exists (with_answers c (LWork i fl') push). split; [cbn; auto|]. split; [apply (fits_work _ _ fail); auto|]. split; [done|].
      destruct (commit_op_after _ _ _ _ _ _ _ _ _ Ec Ea) as (d & Ed). by eapply shown_acts. }
  assert (Hgo : forall op fl, (fl = true -> fail = true) -> (DequeModel.d_own (dq x i) = OIdle ->
       match op with Some f => next_op i (rt x) = DoPush f | None => next_op i (rt x) = DoPop end) ->
    op_step i op fl x = FNext x' tr -> commit i fail x = commit_op op fl (dq x i) ->
    exists s' Q1 H1, sim nw k af x' (rev tr ++ h) s' Q1 H1 /\
    ((s' = s /\ tr = [] /\ match commit i fail x with Some (fl, push, l) => acts (with_answers c (LWork i fl) push) (show i l (rt x)) | None => [] end = []) \/
      exists r, allowed nw af (r_lab r) /\ fits c r /\ step (r_lab r) s = Next s' tr /\
        acts r s = match commit i fail x with Some (fl, push, l) => acts (with_answers c (LWork i fl) push) (show i l (rt x)) | None => [] end)).
  { intros op fl A B C ->. destruct (Hop op fl A B C) as (s' & Q1 & H1 & Hs' & Hx). exists s', Q1, H1. split; [done|].
    destruct Hx as [(-> & -> & ->)|(fl' & push & l & -> & Hx)]; [by left|by right]. }
  assert (Hgp : DequeModel.d_own (dq x i) = OIdle ->
    next_op i (rt x) = NoOp \/ (fail = true /\ exists f, next_op i (rt x) = DoPush f) ->
    after (wstep i fail (show i (seen (dq x i)) (rt x))) (dq x) (from x) = FNext x' tr ->
    commit i fail x = Some (fail, false, seen (dq x i)) ->
    exists s' Q1 H1, sim nw k af x' (rev tr ++ h) s' Q1 H1 /\
    ((s' = s /\ tr = [] /\ match commit i fail x with Some (fl, push, l) => acts (with_answers c (LWork i fl) push) (show i l (rt x)) | None => [] end = []) \/
      exists r, allowed nw af (r_lab r) /\ fits c r /\ step (r_lab r) s = Next s' tr /\
        acts r s = match commit i fail x with Some (fl, push, l) => acts (with_answers c (LWork i fl) push) (show i l (rt x)) | None => [] end)).
  { intros A B C ->. destruct (Hplain A B C) as (s' & Q1 & H1 & Hs' & Hx). exists s', Q1, H1. split; [done|by right]. }
  clear Hop Hplain. unfold own_step in Hstep.
  destruct (DequeModel.d_own (dq x i)) eqn:Ho; try (apply (Hgo None fail); [done|done|exact Hstep|unfold commit; by rewrite Ho]).
  destruct (next_op i (rt x)) as [|f|] eqn:Hnx.
  - apply Hgp; [done|by left|exact Hstep|]. unfold commit. by rewrite Ho, Hnx.
  - destruct fail.
    + apply Hgp; [done|right; eauto|exact Hstep|]. unfold commit. by rewrite Ho, Hnx.
    + apply (Hgo (Some f) false); [done|done|exact Hstep|]. unfold commit. by rewrite Ho, Hnx.
  - apply (Hgo None false); [done|done|exact Hstep|]. unfold commit. by rewrite Ho, Hnx.
Qed.

Lemma step_stacks nw k af x h s Q H c x' tr :
  sim nw k af x h s Q H -> fallowed nw af (c_lab c) -> fstep (c_lab c) x = FNext x' tr -> with_stacks nw k af c x x' h s tr.
Proof.
  intros M Hal Hs. pose proof M as [HR Es HH HO HT HF].
  destruct (c_lab c) as [i fail|i|i v|d t|i] eqn:Hc.
  - cbn [fstep] in Hs. destruct (from x i) as [v|] eqn:Hf; [|by eapply own_stacks].
    destruct (HF i v Hf) as (X1 & X2 & X3 & X4 & w & X5 & X6 & X7).
    edestruct (sim_steal nw k af x h s Q H i v) as (Z1 & Z2); try done.
    { intros j u Hj _. by apply HF. }
    { exists w. split_and!; try done. intros [|]; [done|auto]. }
    destruct (Z2 _ _ Hs) as (s' & Q1 & H1 & Hs' & Hx). exists s', Q1, H1. split; [done|]. unfold cacts. rewrite Hc, Hf.
    destruct Hx as [(-> & ->)|(l & -> & Hl & Hst)]; [by left|right]. by exists (with_answers c (LSteal i v) false).
  - destruct (sim_fstep _ _ _ _ _ _ _ _ _ M Hal) as (_ & Z2). destruct (Z2 _ _ Hs) as (s' & Q1 & H1 & Hs' & Hx).
    exists s', Q1, H1. split; [done|]. unfold cacts. rewrite Hc.
    destruct Hx as [(-> & ->)|(l & -> & Hl & Hst)]; [by left|right]. by exists (with_answers c (LTake i) false).
  - destruct (sim_fstep _ _ _ _ _ _ _ _ _ M Hal) as (_ & Z2). destruct (Z2 _ _ Hs) as (s' & Q1 & H1 & Hs' & Hx).
    exists s', Q1, H1. split; [done|]. unfold cacts. rewrite Hc.
    destruct Hx as [(-> & ->)|(l & -> & Hl & Hst)]; [by left|right]. by exists (with_answers c (LSteal i v) false).
  - destruct (sim_fstep _ _ _ _ _ _ _ _ _ M Hal) as (_ & Z2). destruct (Z2 _ _ Hs) as (s' & Q1 & H1 & Hs' & Hx).
    exists s', Q1, H1. split; [done|]. unfold cacts. rewrite Hc.
    destruct Hx as [(-> & ->)|(l & -> & Hl & Hst)].
    + exfalso. cbn [fstep] in Hs. apply after_next in Hs as (r' & Hr & _). unfold spawn in Hr. repeat case_match; done.
    + right. exists (with_answers c (LSpawn d t) false). split; [done|]. split; [done|]. split; [done|]. by subst s.
  - destruct (sim_stale _ _ _ _ _ _ _ _ i M) as (_ & Z2). destruct (Z2 _ _ Hs) as (s' & Hs' & Hst). exists s', Q, H. split; [done|].
    right. exists (with_answers c (LStale i) false). split; [done|]. split; [done|]. split; [done|].
    unfold cacts. rewrite Hc. unfold acts. cbn [with_answers r_lab]. rewrite Es, wd_lookup.
    destruct (s_workers (rt x) !! i); done.
Qed.

Lemma cstep_sim nw k af x m h s Q H c :
  sim nw k af x h s Q H -> rreach nw af s m h -> fallowed nw af (c_lab c) -> c_sz c <= StackSpec.max_request ->
  cstep c x m <> CUndef /\
  forall x' m' tr, cstep c x m = CNext x' m' tr ->
    exists s' Q1 H1, sim nw k af x' (rev tr ++ h) s' Q1 H1 /\ rreach nw af s' m' (rev tr ++ h).
Proof.
  intros M HR Hal Hsz. unfold cstep.
  destruct (fstep (c_lab c) x) as [x1 tr1| |] eqn:E; [|done|by destruct (proj1 (sim_fstep _ _ _ _ _ _ _ _ _ M Hal))].
  destruct (step_stacks _ _ _ _ _ _ _ _ _ _ _ M Hal E) as (s' & Q1 & H1 & Hs' & Hx).
  destruct Hx as [(-> & -> & ->)|(r & Ha & Er & Hst & <-)].
  - cbn [execs]. split; [done|]. intros x' m' tr [= <- <- <-]. exists s, Q1, H1. done.
  - assert (Hsz' : r_sz r <= StackSpec.max_request) by (by rewrite (proj1 Er)).
    pose proof (RStackProofs.rreach_safe _ _ _ _ _ _ HR Ha Hsz') as Hsafe.
    pose proof (fun s1 m1 t1 => rr_step nw af r s m h s1 m1 t1 HR Ha Hsz') as Hgo.
    unfold rstep in Hsafe, Hgo. rewrite Hst in Hsafe, Hgo.
    destruct (execs (acts r s) m) as [m1| |m1| |]; [| | | |done].
    + split; [done|]. intros x' m' tr [= <- <- <-]. exists s', Q1, H1. split; [done|]. by apply Hgo.
    + done.
    + split; [done|]. intros x' m' tr [= <- <- <-]. exists s, Q, H. split; [done|]. by apply Hgo.
    + done.
Qed.

Theorem creach_sim nw k af x m h : creach nw k af x m h -> exists s Q H, sim nw k af x h s Q H /\ rreach nw af s m h.
Proof.
  induction 1 as [os m Hl Hb|c x m h x' m' tr _ (s & Q & H & M & HR) Ha Hsz Hs].
  - eexists _, _, _. split; [apply sim_init|]. by eapply rr_boot.
  - destruct (cstep_sim _ _ _ _ _ _ _ _ _ _ M HR Ha Hsz) as (_ & Hx). by apply Hx.
Qed.

(** ** Which malloc answers contradict a label *)

Definition allocs (a : act) : bool :=
  match a with AAlloc _ _ _ _ | AAllocFail _ _ _ | AAllocUndo _ _ _ => true | _ => false end.
Lemma exec_no a m : exec a m = MNo -> allocs a = true.
Proof. destruct a; cbn [exec allocs]; try done; intros E; exfalso; repeat case_match; done. Qed.
Lemma execs_no l m : forallb (fun a => negb (allocs a)) l = true -> execs l m <> MNo.
Proof.
  revert m. induction l as [|a l IH]; intros m; [done|]. cbn [forallb execs]. intros (Ha & Hl)%andb_true_iff.
  destruct (exec a m) eqn:E; try done; [by apply IH|]. apply exec_no in E. by rewrite E in Ha.
Qed.

(** Stack code that allocates a coroutine frame for worker [i] and does nothing else. *)
Definition one_alloc (r : rlabel) (i : nat) (fail : bool) (l : list act) : Prop :=
  (exists c, l = [AAlloc i c (r_sz r) (r_o1 r)]) \/ (fail = true /\ l = [AAllocUndo i (r_sz r) (r_o1 r)]) \/
  (fail = true /\ l = [AAllocFail i (r_sz r) (r_o1 r)]).
Lemma task_acts_alloc r i fail f fr t s :
  forallb (fun a => negb (allocs a)) (task_acts r i fail f fr t s) = true \/ one_alloc r i fail (task_acts r i fail f fr t s).
Proof.
  unfold task_acts, take_acts, one_alloc. destruct t; try (by left).
  - right. destruct fail; [destruct (r_push r)|]; eauto.
  - right. destruct fail; eauto.
  - left. case_decide; [done|]. by case_decide.
  - left. by destruct (_ && _).
Qed.
Lemma acts_alloc r s :
  forallb (fun a => negb (allocs a)) (acts r s) = true \/
  exists i fail, r_lab r = LWork i fail /\ one_alloc r i fail (acts r s).
Proof.
  unfold acts. destruct (r_lab r) as [i fail| | | |i] eqn:Er; try (by left).
  - unfold work_acts. destruct (s_workers s !! i) as [w|]; [|by left].
    destruct (w_pc w) as [|f|f|f|f| |f|b|].
    + left. destruct (w_batch w) as [|f l]; [done|]. destruct (s_frames s !! f) as [fr|]; [|done]. by case_decide.
    + by left.
    + destruct (s_frames s !! f) as [fr|]; [|by left]. destruct (f_rp fr) as [t| | | | | | |]; try (by left).
      * destruct (task_acts_alloc r i fail f fr t s) as [|]; [by left|right]. eauto.
      * left. by destruct (f_kind fr).
    + by left.
    + left. destruct (s_frames s !! f) as [fr|]; [|done]. case_decide; case_decide; done.
    + by left.
    + left. destruct (s_frames s !! f) as [fr|]; [|done]. by case_decide.
    + left. by destruct b.
    + left. by destruct (w_deque w).
  - left. destruct (s_workers s !! i) as [w|]; [|done]. destruct (w_pc w); try done.
    destruct (s_frames s !! f) as [fr|]; [|done]. by destruct (f_rp fr).
Qed.

Lemma acts_no r s m : execs (acts r s) m = MNo ->
  exists i fail fib, r_lab r = LWork i fail /\ m_fib m !! i = Some fib /\
    ((exists hp, new_coro (r_o1 r) fib (r_sz r) (m_heap m) = StackModel.Thr hp) \/
     (fail = true /\ exists hp v, new_coro (r_o1 r) fib (r_sz r) (m_heap m) = StackModel.Ret hp v)).
Proof.
  intros E. destruct (acts_alloc r s) as [X|(i & fail & El & X)]; [by apply (execs_no _ m) in X|].
  exists i, fail. destruct X as [(c & Ea)|[(Hf & Ea)|(Hf & Ea)]]; rewrite Ea in E; cbn [execs] in E.
  - destruct (exec _ m) eqn:E2; try done. cbn [exec] in E2. destruct (m_fib m !! i) as [fib|]; [|done]. exists fib.
    split; [done|]. split; [done|]. left. destruct (new_coro _ _ _ _) as [? [? ?]| |]; [done|eauto|done].
  - destruct (exec _ m) eqn:E2; try done. cbn [exec] in E2. destruct (m_fib m !! i) as [fib|]; [|done]. exists fib.
    split; [done|]. split; [done|]. left. destruct (new_coro _ _ _ _) as [? [? ?]| |]; [|eauto|done].
    by destruct (del_coro _ _ _).
  - destruct (exec _ m) eqn:E2; try done. cbn [exec] in E2. destruct (m_fib m !! i) as [fib|]; [|done]. exists fib.
    split; [done|]. split; [done|]. right. split; [done|]. destruct (new_coro _ _ _ _) as [? ?| |]; [eauto|done|done].
Qed.

(** ** Progress *)

(** Only schedule() throws. *)
Definition spawns (a : act) : bool := match a with ASched _ _ _ _ _ => true | _ => false end.
Lemma exec_thr a m m' : exec a m = MThr m' -> spawns a = true.
Proof. destruct a; cbn [exec spawns]; try done; intros E; exfalso; repeat case_match; done. Qed.
Lemma execs_thr l m m' : execs l m = MThr m' -> existsb spawns l = true.
Proof.
  revert m. induction l as [|a l IH]; intros m; [done|]. cbn [existsb execs]. destruct (exec a m) eqn:E; try done.
  - intros X. rewrite (IH _ X). apply orb_true_r.
  - by rewrite (exec_thr _ _ _ E).
Qed.
Lemma acts_spawn r s m m' : execs (acts r s) m = MThr m' -> exists d t, r_lab r = LSpawn d t.
Proof.
  intros X%execs_thr. unfold acts in X. destruct (r_lab r) eqn:El; try (by eauto); exfalso.
  - unfold work_acts, task_acts, take_acts in X. repeat case_match; discriminate X.
  - repeat case_match; discriminate X.
Qed.

Lemma cprogress nw k af x m h s Q H c x' tr :
  sim nw k af x h s Q H -> rreach nw af s m h -> fallowed nw af (c_lab c) -> c_sz c <= StackSpec.max_request ->
  fstep (c_lab c) x = FNext x' tr ->
  (exists m', cstep c x m = CNext x' m' tr) \/
  (cstep c x m = CTerm /\ exists hp, StackModel.stack_ctor (c_o1 c) (m_heap m) = StackModel.Thr hp) \/
  (exists d t m', c_lab c = FSpawn d t /\ cstep c x m = CNext x m' []) \/
  (cstep c x m = CBlocked /\ exists i fail fib, c_lab c = FWork i fail /\ m_fib m !! i = Some fib /\
     ((exists hp, new_coro (c_o1 c) fib (c_sz c) (m_heap m) = StackModel.Thr hp) \/
      (fail = true /\ exists hp v, new_coro (c_o1 c) fib (c_sz c) (m_heap m) = StackModel.Ret hp v))).
Proof.
  intros M HR Hal Hsz E. destruct (step_stacks _ _ _ _ _ _ _ _ _ _ _ M Hal E) as (s' & Q1 & H1 & Hs' & Hx).
  unfold cstep. rewrite E. destruct Hx as [(-> & -> & ->)|(r & Ha & (Er & Eo & El) & Hst & <-)]; [left; cbn; eauto|].
  assert (Hsz' : r_sz r <= StackSpec.max_request) by (by rewrite Er).
  pose proof (RStackProofs.step_progress _ _ _ _ _ _ _ _ HR Ha Hsz' Hst) as HP. unfold rstep in HP. rewrite Hst in HP.
  destruct (execs (acts r s) m) as [m1| |m1| |] eqn:X.
  - left. eauto.
  - do 3 right. split; [done|]. destruct (acts_no _ _ _ X) as (i & fl & fib & E1 & E2 & E3). rewrite E1 in El.
    destruct El as (fail & El & Hfl). exists i, fail, fib. rewrite <- Er, <- Eo. split; [done|]. split; [done|].
    destruct E3 as [|(-> & ?)]; [by left|right; auto].
  - do 2 right; left. destruct HP as [(? & HP)|[(HP & _)|[(d & t & m' & HP & _)|(HP & _)]]]; [|done| |done].
    + destruct (acts_spawn _ _ _ _ X) as (d & t & Ed). rewrite Ed in El. eauto.
    + rewrite HP in El. eauto.
  - right; left. split; [done|]. destruct HP as [(? & HP)|[(_ & HP)|[(d & t & m' & _ & HP)|(HP & _)]]]; [done| |done|done]. by rewrite <- Eo.
  - destruct HP as [(? & HP)|[(HP & _)|[(d & t & m' & _ & HP)|(HP & _)]]]; done.
Qed.

Lemma cframes_stay nw k af x m h s Q H c x' m' tr f fm :
  sim nw k af x h s Q H -> rreach nw af s m h -> fallowed nw af (c_lab c) -> cstep c x m = CNext x' m' tr ->
  m_frm m' !! f = Some fm -> m_frm m !! f = Some fm \/ (m_frm m !! f = None /\ fm_size fm = c_sz c).
Proof.
  intros M HR Hal Hs Hf. unfold cstep in Hs. destruct (fstep (c_lab c) x) as [x1 tr1| |] eqn:E; [|done..].
  destruct (step_stacks _ _ _ _ _ _ _ _ _ _ _ M Hal E) as (s' & Q1 & H1 & _ & Hx).
  destruct Hx as [(-> & -> & Ea)|(r & _ & (<- & _) & Hst & Ea)].
  - rewrite Ea in Hs. cbn in Hs. injection Hs as <- <- <-. by left.
  - rewrite <- Ea in Hs. pose proof (fun s1 m1 t1 => RStackProofs.frames_stay nw af r s m h s1 m1 t1 f fm HR) as Hgo.
    unfold rstep in Hgo. rewrite Hst in Hgo. destruct (execs (acts r s) m) as [m1| |m1| |]; try done; injection Hs as <- <- <-; by eapply Hgo.
Qed.
