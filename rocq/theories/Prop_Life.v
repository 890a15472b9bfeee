(** * C62, C63: the life of a thread pool; C64: tasks that come from another pool; C65: moved pools. *)

From stdpp Require Import prelude list.
From Coq Require Import Lia.
From Verif Require Import PoolCommon LifeModel LifeSpec LifeProofs LifeLive.
From Verif Require PoolMoveModel.

(** ** C62.  In careful use no worker, task, thief or client ever touches a context that is not there yet or
    is gone, or a freed shared block. *)
Theorem C62_no_use_after_free n unit client s l :
  0 < n -> (unit = true -> n = 1) -> reach n unit client (careful n) s -> careful n l s -> step n unit client l s <> Undef.
Proof. intros Hn Hu Hr. apply step_defined; [done|done|]. by apply (reach_inv n unit client). Qed.

(** While a worker is in its loop, or runs a task, the contexts of all workers are there. *)
Theorem C62_victims_live n unit client s w v :
  0 < n -> (unit = true -> n = 1) -> reach n unit client (careful n) s -> w < n -> v < n ->
  wpc s w = WLoop \/ wpc s w = WRun -> ready s v.
Proof.
  intros Hn Hu Hr Hw Hv H. pose proof (reach_inv n unit client Hn Hu s Hr) as I. pose proof (i_w _ _ s I w Hw) as W. unfold wok in W.
  apply (ready_of n unit client Hn Hu s w v I Hw Hv); destruct H as [H|H]; rewrite H in *; naive_solver.
Qed.

(** When the destructor has returned every thread is gone, every context is destroyed and nothing is kept. *)
Theorem C62_nothing_left n unit client s w :
  0 < n -> (unit = true -> n = 1) -> reach n unit client (careful n) s -> mpc s = MDone -> w < n ->
  wpc s w = WExit /\ ctx s w = CDead /\ held unit s = false.
Proof.
  intros Hn Hu Hr Hm Hw. pose proof (reach_inv n unit client Hn Hu s Hr) as I. pose proof (i_m _ _ s I) as M. unfold mok in M. rewrite Hm in M.
  destruct M as (M & _). pose proof (i_w _ _ s I w Hw) as W. unfold wok in W. rewrite (M w Hw) in W. split; [by apply M|]. split; [by apply W|].
  unfold held. destruct unit eqn:E; [by rewrite Hm|]. destruct (i_refs _ _ s I) as [R|?]; [|done]. unfold holders in R. rewrite Hm in R.
  rewrite cnt_none in R; [by rewrite R|]. intros u Hu'. by rewrite (M u Hu').
Qed.

(** ** C63.  The constructor ends, *)
Theorem C63_constructor_ends n unit client sg l :
  0 < n -> (unit = true -> n = 1) -> fair n unit client sg l -> exists i, mpc (sg i) = MAlive \/ mpc (sg i) = MThrown.
Proof. intros Hn Hu HF. by apply (constructor_ends n unit client Hn Hu sg l). Qed.

(** if it returns all workers have started and contexts() lists the contexts of all of them, *)
Theorem C63_returned n client s w :
  0 < n -> reach n false client (careful n) s -> mpc s = MAlive -> w < n ->
  view s = map Some (seq 0 n) /\ ready s w /\ wpc s w <> W0.
Proof.
  intros Hn Hr Hm Hw. assert (false = true -> n = 1) as Hu by done. pose proof (reach_inv n false client Hn Hu s Hr) as I.
  split_and!; [|by apply (ready_alive n false client Hn Hu)|]; pose proof (i_m _ _ s I) as M; unfold mok in M; rewrite Hm in M; naive_solver.
Qed.
Theorem C63_unit_returned client s : reach 1 true client (careful 1) s -> mpc s = MAlive -> ready s 0 /\ wpc s 0 <> W0.
Proof.
  intros Hr Hm. assert (0 < 1) as Hn by lia. assert (true = true -> 1 = 1) as Hu by done. pose proof (reach_inv 1 true client Hn Hu s Hr) as I.
  split; [by apply (ready_alive 1 true client Hn Hu)|]. pose proof (i_m _ _ s I) as M. unfold mok in M. rewrite Hm in M. destruct M as (M & _). apply M. lia.
Qed.

(** and if it throws no thread has been started and nothing is kept. *)
Theorem C63_thrown n unit client s w :
  0 < n -> (unit = true -> n = 1) -> reach n unit client (careful n) s -> mpc s = MThrown -> w < n ->
  wpc s w = W0 /\ ctx s w = CNone /\ held unit s = false.
Proof.
  intros Hn Hu Hr Hm Hw. pose proof (reach_inv n unit client Hn Hu s Hr) as I. pose proof (i_m _ _ s I) as M. unfold mok in M. rewrite Hm in M.
  destruct M as (M & _). pose proof (i_w _ _ s I w Hw) as W. unfold wok in W. rewrite (M w Hw) in W. split; [by apply M|]. split; [by apply W|].
  unfold held. destruct unit eqn:E; [by rewrite Hm|]. destruct (i_refs _ _ s I) as [R|?]; [|done]. unfold holders in R. rewrite Hm in R. by rewrite R.
Qed.

(** ** Executions *)
Section Exec.
Context (n : nat) (unit : bool) (client : nat -> bool).
Definition good (l : lab) (s : st) : bool :=
  match l with
  | LOther k d => match opc s k with OIdle => match mpc s with MAlive => bool_decide (d < n) | _ => false end | _ => true end
  | LDtor => false
  | _ => true
  end.
Fixpoint exec (ls : list lab) (s : st) : option st :=
  match ls with
  | [] => Some s
  | l :: ls => if good l s then match step n unit client l s with Next s' => exec ls s' | _ => None end else None
  end.
Lemma exec_reach (P : lab -> st -> Prop) ls s s' :
  (forall l s, match l with LOther k d => call_allowed n s k d | LDtor => False | _ => True end -> P l s) ->
  reach n unit client P s -> exec ls s = Some s' -> reach n unit client P s'.
Proof.
  intros HP. revert s. induction ls as [|l ls IH]; intros s Hr He; simpl in He; [by injection He as <-|].
  destruct (good l s) eqn:Hg; [|done]. destruct (step n unit client l s) as [s1| | |] eqn:Hs; try done. apply (IH s1); [|done].
  apply (reach_step n unit client P s l s1); [done| |done]. apply HP. destruct l as [f|w a f|k d|]; try done.
  intros E. simpl in Hg. rewrite E in Hg. destruct (mpc s); try done. apply bool_decide_eq_true in Hg. done.
Qed.
End Exec.
Definition mast (k : nat) : list lab := repeat (LMaster false) k.
Definition work (w : nat) (l : list act) : list lab := map (fun a => LWorker w a false) l.
Definition up (w : nat) : list lab := work w [APop; APop; APop].
Definition down (w : nat) : list lab := work w [ATest; APop; APop].

(** A pool with two workers: it is built, a client submits a task, which moves to the other worker; the task is done, the
    destructor is called and returns. *)
Definition before : list lab :=
  mast 7 ++ up 1 ++ up 0 ++ mast 2 ++ work 0 [APop] ++ work 1 [APop] ++ mast 3 ++ [LOther 0 0] ++ [LOther 0 0] ++ [LOther 0 0] ++
  work 0 [APop; AMove 1; APop; APop; AEnd] ++ work 1 [ASteal 0 false; APop; AEnd].
Definition after : list lab := mast 1 ++ down 1 ++ down 0 ++ work 1 [APop; APop; APop; APop] ++ work 0 [APop; APop; APop; APop] ++ mast 4.
Definition mid : st := match exec 2 false (fun _ => true) before (init 2 false) with Some s => s | None => init 2 false end.
Definition fin : st := match exec 2 false (fun _ => true) after (set_m MStop mid) with Some s => s | None => init 2 false end.

Example C62_instance : exists s0 s1, reach 2 false (fun _ => true) (careful 2) s0 /\ mpc s0 = MAlive /\ ready s0 0 /\ ready s0 1 /\
  view s0 = [Some 0; Some 1] /\ reach 2 false (fun _ => true) (careful 2) s1 /\ mpc s1 = MDone.
Proof.
  assert (exec 2 false (fun _ => true) before (init 2 false) = Some mid) as E0 by (vm_compute; reflexivity).
  assert (exec 2 false (fun _ => true) after (set_m MStop mid) = Some fin) as E1 by (vm_compute; reflexivity).
  assert (forall l s, match l with LOther k d => call_allowed 2 s k d | LDtor => False | _ => True end -> careful 2 l s) as HP.
  { intros l s H. destruct l; try exact H. destruct H. }
  pose proof (exec_reach 2 false (fun _ => true) (careful 2) before (init 2 false) mid HP (reach_init _ _ _ _) E0) as R0.
  exists mid, fin. split; [exact R0|]. split; [vm_compute; reflexivity|]. split; [split; vm_compute; reflexivity|].
  split; [split; vm_compute; reflexivity|]. split; [vm_compute; reflexivity|]. split; [|vm_compute; reflexivity].
  apply (exec_reach 2 false (fun _ => true) (careful 2) after (set_m MStop mid) fin HP); [|exact E1].
  apply (reach_step 2 false (fun _ => true) (careful 2) mid LDtor); [exact R0| |vm_compute; reflexivity].
  intros [|k]; vm_compute; reflexivity.
Qed.

(** A fair execution: a pool with one worker is built, then the worker looks for work for ever. *)
Definition prefix : list lab := mast 5 ++ up 0 ++ mast 2 ++ work 0 [APop] ++ mast 2.
Definition labs (i : nat) : lab := nth i prefix (LWorker 0 ATest false).
Fixpoint sigma (i : nat) : st :=
  match i with
  | 0 => init 1 false
  | S i => match step 1 false (fun _ => true) (labs i) (sigma i) with Next s => s | _ => sigma i end
  end.
Definition idles (s : st) : bool :=
  match mpc s, wpc s 0, stop s, refs s with MAlive, WLoop, false, S _ => true | _, _, _, _ => false end.
Lemma idles_step s : idles s = true -> exists s', step 1 false (fun _ => true) (LWorker 0 ATest false) s = Next s' /\ idles s' = true.
Proof.
  unfold idles. destruct (mpc s) eqn:E1; try discriminate 1. destruct (wpc s 0) eqn:E2; try discriminate 1. destruct (stop s) eqn:E3; try discriminate 1.
  destruct (refs s) eqn:E4; try discriminate 1. intros _. simpl. unfold worker, held. rewrite E2, E4, E3. eexists. split; [reflexivity|].
  simpl. by rewrite E1, E3, E4.
Qed.
Lemma sigma_idles k : idles (sigma (k + 13)) = true.
Proof.
  induction k as [|k IH]; [vm_compute; reflexivity|]. destruct (idles_step _ IH) as (s' & Hs & Hi).
  change (sigma (S k + 13)) with (match step 1 false (fun _ => true) (labs (k + 13)) (sigma (k + 13)) with Next s => s | _ => sigma (k + 13) end).
  assert (labs (k + 13) = LWorker 0 ATest false) as E by (unfold labs; apply nth_overflow; vm_compute length; lia).
  rewrite E, Hs. exact Hi.
Qed.
Definition defined_at (i : nat) : bool := match step 1 false (fun _ => true) (labs i) (sigma i) with Next _ => true | _ => false end.
Example C63_fair_instance : exists sg l, fair 1 false (fun _ => true) sg l /\ mpc (sg 13) = MAlive.
Proof.
  exists sigma, (fun i => Some (labs i)). split; [|vm_compute; reflexivity]. split.
  - reflexivity.
  - intros i. split.
    + destruct (decide (i < 13)) as [Hi|Hi].
      * assert (forallb (fun i => match labs i with LMaster _ | LWorker _ _ _ => true | _ => false end) (seq 0 13) = true) as H by (vm_compute; reflexivity).
        rewrite forallb_forall in H. specialize (H i). rewrite in_seq in H. specialize (H ltac:(lia)). destruct (labs i); done.
      * unfold labs. rewrite nth_overflow by (vm_compute length; lia). done.
    + rewrite Nat.add_1_r. assert (defined_at i = true) as H.
      { destruct (decide (i < 13)) as [Hi|Hi].
        - assert (forallb defined_at (seq 0 13) = true) as H by (vm_compute; reflexivity).
          rewrite forallb_forall in H. apply H. rewrite in_seq. lia.
        - unfold defined_at. replace i with ((i - 13) + 13) by lia. destruct (idles_step _ (sigma_idles (i - 13))) as (s' & Hs & _).
          assert (labs (i - 13 + 13) = LWorker 0 ATest false) as -> by (unfold labs; apply nth_overflow; vm_compute length; lia). by rewrite Hs. }
      unfold defined_at in H. change (sigma (S i)) with (match step 1 false (fun _ => true) (labs i) (sigma i) with Next s => s | _ => sigma i end).
      destruct (step 1 false (fun _ => true) (labs i) (sigma i)); try discriminate H. reflexivity.
  - intros i. exists (i + 13). split; [lia|]. right. intros f. unfold enabled. simpl. unfold master.
    pose proof (sigma_idles i) as H. unfold idles in H. destruct (mpc (sigma (i + 13))); try discriminate H. intros F. by apply F.
  - intros w i Hw. exists (i + 13). split; [lia|]. left. exists ATest, false. assert (w = 0) as -> by lia.
    f_equal. unfold labs. apply nth_overflow. vm_compute length. lia.
Qed.

(** An allocation that fails in the first part of the constructor makes it throw; one that fails after the threads have been
    started ends the program although the constructor may throw (busy_pool.hpp:186-188). *)
Theorem C63_late_failure_terminates : exists s, reach 1 false (fun _ => true) (careful 1) s /\ mpc s = MView 0 /\
  step 1 false (fun _ => true) (LMaster true) s = Terminate.
Proof.
  destruct (exec 1 false (fun _ => true) (mast 5 ++ up 0 ++ mast 2) (init 1 false)) as [s|] eqn:E; [|by vm_compute in E].
  exists s. split; [apply (exec_reach 1 false (fun _ => true) (careful 1) _ _ _ ltac:(intros l x H; by destruct l) (reach_init _ _ _ _) E)|].
  vm_compute in E. injection E as <-. by vm_compute.
Qed.
Example C63_thrown_instance : exists s, reach 2 false (fun _ => true) (careful 2) s /\ mpc s = MThrown.
Proof.
  destruct (exec 2 false (fun _ => true) (mast 1 ++ [LMaster true]) (init 2 false)) as [s|] eqn:E; [|by vm_compute in E].
  exists s. split; [apply (exec_reach 2 false (fun _ => true) (careful 2) _ _ _ ltac:(intros l x H; by destruct l) (reach_init _ _ _ _) E)|].
  vm_compute in E. injection E as <-. by vm_compute.
Qed.

(** A pool without workers cannot be used: schedule draws an index from 0 to 2^64-1 and m_worker is empty. *)
Theorem C63_empty_pool_refuted : exists s, reach 0 false (fun _ => true) (careful 0) s /\ mpc s = MAlive /\
  forall k d, opc s k = OIdle -> careful 0 (LOther k d) s /\ step 0 false (fun _ => true) (LOther k d) s = Undef.
Proof.
  destruct (exec 0 false (fun _ => true) (mast 6) (init 0 false)) as [s|] eqn:E; [|by vm_compute in E].
  exists s. split; [apply (exec_reach 0 false (fun _ => true) (careful 0) _ _ _ ltac:(intros l x H; by destruct l) (reach_init _ _ _ _) E)|].
  assert (mpc s = MAlive) as Hm by (vm_compute in E; by injection E as <-). split; [done|].
  intros k d Hk. split; [intros _; split; [done|lia]|]. cbn [step]. unfold other. rewrite Hk. unfold usable. rewrite Hm.
  rewrite bool_decide_false by lia. reflexivity.
Qed.

(** ** C64.  A task may come from a worker of another pool: it moves itself to a context of this one.  When all
    work is done the destructor of this pool may run; but the worker of the other pool can still be inside worker_context::schedule,
    between the push and the call to the notification (context.hpp:72-77). *)
Theorem C64_other_pool_refuted : exists s s', reach 1 false (fun _ => false) (visible 1 (fun _ => false)) s /\
  all_done 1 (fun _ => false) s /\ step 1 false (fun _ => false) LDtor s = Next s' /\
  exists s2 k d, reach 1 false (fun _ => false) (visible 1 (fun _ => false)) s2 /\ mpc s2 = MDone /\ opc s2 k = ONotify d /\
    visible 1 (fun _ => false) (LOther k d) s2 /\ step 1 false (fun _ => false) (LOther k d) s2 = Undef.
Proof.
  set (cl := fun _ : nat => false).
  destruct (exec 1 false cl (mast 5 ++ up 0 ++ mast 2 ++ work 0 [APop] ++ mast 2 ++ [LOther 0 0; LOther 0 0] ++ work 0 [APop; AEnd]) (init 1 false)) as [s|] eqn:E;
    [|by vm_compute in E].
  assert (reach 1 false cl (visible 1 cl) s) as R.
  { apply (exec_reach 1 false cl (visible 1 cl) _ _ _ ltac:(intros l x H; by destruct l) (reach_init _ _ _ _) E). }
  assert (all_done 1 cl s) as D.
  { vm_compute in E. injection E as <-. split_and!; [done| |].
    - intros [|k] d; by vm_compute.
    - intros [|w] Hw; [by vm_compute|lia]. }
  destruct (step 1 false cl LDtor s) as [s1| | |] eqn:E1; [|by vm_compute in E; injection E as <-; vm_compute in E1..].
  exists s, s1. split; [done|]. split; [done|]. split; [done|].
  destruct (exec 1 false cl (mast 1 ++ down 0 ++ work 0 [APop; APop; APop; APop] ++ mast 3) s1) as [s2|] eqn:E2;
    [|vm_compute in E; injection E as <-; vm_compute in E1; injection E1 as <-; by vm_compute in E2].
  exists s2, 0, 0. split.
  { apply (exec_reach 1 false cl (visible 1 cl) _ _ _ ltac:(intros l x H; by destruct l) (reach_step 1 false cl _ s LDtor s1 R D E1) E2). }
  vm_compute in E. injection E as <-. vm_compute in E1. injection E1 as <-. vm_compute in E2. injection E2 as <-.
  split; [by vm_compute|]. split; [by vm_compute|]. split; [by vm_compute|by vm_compute].
Qed.

(** If only the user's own threads submit from outside, what the user can see is enough. *)
Theorem C64_own_threads_partial n unit s l :
  0 < n -> (unit = true -> n = 1) -> reach n unit (fun _ => true) (visible n (fun _ => true)) s -> visible n (fun _ => true) l s ->
  step n unit (fun _ => true) l s <> Undef.
Proof.
  intros Hn Hu Hr Hv.
  assert (forall l s, visible n (fun _ => true) l s -> careful n l s) as HV.
  { intros [f|w a f|k d|] x; try done. intros (H & _). intros k. by apply H. }
  apply C62_no_use_after_free; [done|done| |by apply HV]. clear Hv. induction Hr as [|x l' x' Hr IH Hv Hs]; [apply reach_init|].
  eapply reach_step; [exact IH|by apply HV|done].
Qed.

(** ** C65.  A program that moves a pool and then ends the life of all its pools does something undefined or terminates. *)
Import PoolMoveModel.
Fixpoint moves (os : list op) : nat :=
  match os with [] => 0 | MoveConstruct _ :: os => S (moves os) | _ :: os => moves os end.
Definition nobody (s : PoolMoveModel.st) : Prop := forall x, PoolMoveModel.live s x = None.

Definition hollow (p : option pool) : nat := match p with Some p => match share p with None => 1 | Some _ => 0 end | None => 0 end.
Definition hollows (l : list (option pool)) : nat := sum_list (map hollow l).
Definition sane (p : option pool) : Prop := match p with Some p => share p = None <-> threads p = 0 | None => True end.
Lemma hollows_app l1 l2 : hollows (l1 ++ l2) = hollows l1 + hollows l2.
Proof. unfold hollows. induction l1 as [|a l1 IH]; simpl; [done|]. rewrite IH. lia. Qed.
Lemma hollows_set l x p q : nth_error l x = Some p -> hollows (<[x := q]> l) + hollow p = hollows l + hollow q.
Proof.
  unfold hollows. revert x. induction l as [|a l IH]; intros [|x] H; simpl in *; try done.
  - injection H as ->. lia.
  - specialize (IH x H). lia.
Qed.
Lemma nth_set {A} (l : list A) x y (q : A) : nth_error (<[x := q]> l) y = if decide (x = y) then match nth_error l y with Some _ => Some q | None => None end else nth_error l y.
Proof.
  revert x y. induction l as [|a l IH]; intros [|x] [|y]; simpl; try done.
  - by case_decide.
  - rewrite IH. destruct (decide (x = y)) as [->|]; [by rewrite decide_True|by rewrite decide_False by lia].
Qed.
Definition all_sane (s : PoolMoveModel.st) : Prop := forall x p, nth_error (objs s) x = Some p -> sane p.

Lemma live_nth s x p : PoolMoveModel.live s x = Some p -> nth_error (objs s) x = Some (Some p).
Proof. unfold PoolMoveModel.live. destruct (nth_error (objs s) x) as [[q|]|]; try done. by intros [= ->]. Qed.
Lemma sane_set s x q : all_sane s -> sane q -> all_sane (set x q s).
Proof.
  intros Hs Hq y p. unfold set. simpl. rewrite nth_set. case_decide; [|apply Hs].
  destruct (nth_error (objs s) y); [|done]. by intros [= <-].
Qed.
Lemma sane_app l q : (forall x p, nth_error l x = Some p -> sane p) -> sane q -> forall x p, nth_error (l ++ [q]) x = Some p -> sane p.
Proof.
  intros Hs Hq x p H. destruct (decide (x < length l)) as [Hx|Hx].
  - rewrite nth_error_app1 in H by done. by apply (Hs x).
  - rewrite nth_error_app2 in H by lia. destruct (x - length l) as [|k]; simpl in H; [by injection H as <-|]. by destruct k.
Qed.

Lemma step_hollows o s s' : all_sane s -> PoolMoveModel.step o s = Ok s' ->
  all_sane s' /\ hollows (objs s) + moves [o] <= hollows (objs s').
Proof.
  intros Hs H. destruct o as [n|x|y x|x|x]; simpl in H.
  - destruct n as [|n]; [done|]. injection H as <-. split.
    + unfold all_sane. simpl. apply sane_app; [done|]. simpl. split; [done|lia].
    + simpl. rewrite hollows_app. unfold hollows. simpl. lia.
  - destruct (PoolMoveModel.live s x) as [p|] eqn:E; [|done]. injection H as <-. apply live_nth in E. split.
    + unfold all_sane, add. simpl. apply sane_app; [apply (sane_set s x _ Hs); done|by apply (Hs x)].
    + simpl. rewrite hollows_app. pose proof (hollows_set (objs s) x _ (Some moved) E) as Hh.
      assert (hollows [Some p] = hollow (Some p)) as -> by (unfold hollows; simpl; lia). simpl in *. lia.
  - destruct (PoolMoveModel.live s y) as [q|] eqn:Ey; [|done]. destruct (PoolMoveModel.live s x) as [p|] eqn:Ex; [|done]. case_decide as D; [done|].
    destruct (threads q) as [|t] eqn:Et; [|done]. injection H as <-. apply live_nth in Ex, Ey. split.
    + apply sane_set; [by apply sane_set|by apply (Hs x)].
    + simpl. pose proof (hollows_set (objs s) x _ (Some moved) Ex) as H1.
      assert (nth_error (<[x:=Some moved]> (objs s)) y = Some (Some q)) as Ey' by (rewrite nth_set; by rewrite decide_False).
      pose proof (hollows_set _ y _ (Some p) Ey') as H2. simpl in *.
      pose proof (Hs y _ Ey) as [_ Hq]. rewrite (Hq Et) in H2. simpl in H1, H2. destruct (share p); lia.
  - destruct (PoolMoveModel.live s x) as [p|] eqn:E; [|done]. destruct (share p) eqn:Es; [|done]. injection H as <-. apply live_nth in E.
    split; [by apply sane_set|]. simpl. pose proof (hollows_set (objs s) x _ None E) as H1. simpl in H1. rewrite Es in H1. lia.
  - destruct (PoolMoveModel.live s x) as [p|] eqn:E; [|done]. destruct (threads p); [done|]. injection H as <-. split; [done|]. simpl. lia.
Qed.
Lemma run_hollows os : forall s s', all_sane s -> run os s = Ok s' -> hollows (objs s) + moves os <= hollows (objs s').
Proof.
  induction os as [|o os IH]; intros s s' Hs H; simpl in H; [injection H as <-; simpl; lia|].
  destruct (PoolMoveModel.step o s) as [s1| | |] eqn:E; try done. destruct (step_hollows o s s1 Hs E) as [Hs1 Hh].
  specialize (IH s1 s' Hs1 H). destruct o; simpl in *; lia.
Qed.
Theorem C65_moved_pools_refuted os s : run os start = Ok s -> nobody s -> moves os = 0.
Proof.
  intros H Hn. pose proof (run_hollows os start s) as Hh.
  assert (all_sane start) as Hs by (intros [|x] p; simpl; done). specialize (Hh Hs H).
  assert (hollows (objs s) = 0) as E; [|simpl in Hh; lia].
  unfold nobody, PoolMoveModel.live in Hn. unfold hollows. clear - Hn. revert Hn. induction (objs s) as [|p l IH]; intros Hn; simpl; [done|].
  rewrite IH; [|intros x; apply (Hn (S x))]. specialize (Hn 0). simpl in Hn. by destruct p.
Qed.
(** The pool that is moved into can be used, and can be destroyed if the other is never destroyed. *)
Theorem C65_target_partial n os : 0 < n -> (os = [] \/ os = [Schedule 1] \/ os = [Schedule 1; Destroy 1]) ->
  exists s, run ([Construct n; MoveConstruct 0] ++ os) start = Ok s.
Proof. intros Hn Hos. destruct n as [|n]; [lia|]. destruct Hos as [->|[->| ->]]; by eexists. Qed.
Example C65_instance : run [Construct 2; MoveConstruct 0; Schedule 1; Destroy 1; Destroy 0] start = Undef /\
  run [Construct 2; Construct 3; MoveAssign 0 1] start = Terminate /\
  (exists s, run [Construct 2; Schedule 0; Destroy 0] start = Ok s /\ nobody s).
Proof. split_and!; [done|done|]. eexists. split; [reflexivity|]. intros [|[|x]]; done. Qed.

Print Assumptions C62_no_use_after_free.
Print Assumptions C62_victims_live.
Print Assumptions C62_nothing_left.
Print Assumptions C63_constructor_ends.
Print Assumptions C63_returned.
Print Assumptions C63_unit_returned.
Print Assumptions C63_thrown.
Print Assumptions C63_late_failure_terminates.
Print Assumptions C63_empty_pool_refuted.
Print Assumptions C64_other_pool_refuted.
Print Assumptions C64_own_threads_partial.
Print Assumptions C65_moved_pools_refuted.
Print Assumptions C65_target_partial.
