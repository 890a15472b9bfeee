(** * Concrete programs and executions used to show that the theorems about the
    runtime are not vacuous. *)

From stdpp Require Import prelude gmap list.
From Coq Require Import NArith ZArith Lia.
From Verif Require Import RuntimeModel RuntimeSpec.
Local Open Scope N_scope.

(** The first enabled decision of a list. *)
Fixpoint first_enabled (ls : list label) (s : state) : option (label * state) :=
  match ls with
  | [] => None
  | l :: ls' => match step l s with Next s' _ => Some (l, s') | _ => first_enabled ls' s end
  end.

(** Follow a priority list of decisions for at most [n] steps. *)
Fixpoint schedule (n : nat) (prio : list label) (s : state) : list label :=
  match n with
  | O => []
  | S n' =>
    match first_enabled prio s with
    | None => []
    | Some (l, s') => l :: schedule n' prio s'
    end
  end.

(** Two workers; stealing has priority, then worker 1. *)
Definition eager2 : list label :=
  [LSteal 1 0; LSteal 0 1; LWork 1 false; LWork 0 false; LTake 0; LTake 1].
(** Two workers; worker 0 has priority. *)
Definition lazy2 : list label :=
  [LWork 0 false; LWork 1 false; LTake 0; LTake 1; LSteal 1 0; LSteal 0 1].

Lemma run_app ls s tr s' tr' :
  run ls s tr = Next s' tr' -> exists tr0, tr' = tr ++ tr0 /\ run ls s [] = Next s' tr0.
Proof.
  revert s tr s' tr'. induction ls as [|l ls IH]; intros s tr s' tr' E; cbn in *.
  - injection E as <- <-. exists []. by rewrite app_nil_r.
  - destruct (step l s) as [s1 tr1| |] eqn:El; try done.
    destruct (IH _ _ _ _ E) as (tr0 & -> & E0). exists (tr1 ++ tr0). rewrite app_assoc. split; [done|].
    destruct (run ls s1 tr1) as [s2 tr2| |] eqn:E2.
    + destruct (IH _ _ _ _ E2) as (tr3 & -> & E3). congruence.
    + exfalso. revert E0 E2. clear. revert s1 tr1. generalize (@nil event).
      induction ls as [|l ls IH]; intros tr s1 tr1 E0 E2; cbn in *; [done|].
      destruct (step l s1); try done. by eapply IH.
    + exfalso. revert E0 E2. clear. revert s1 tr1. generalize (@nil event).
      induction ls as [|l ls IH]; intros tr s1 tr1 E0 E2; cbn in *; [done|].
      destruct (step l s1); try done. by eapply IH.
Qed.

(** A successful run of allowed decisions is an execution. *)
Lemma run_reach nw af ls s h s' tr :
  reach nw af s h -> Forall (allowed nw af) ls -> run ls s [] = Next s' tr -> reach nw af s' (rev tr ++ h).
Proof.
  intros HR HA. revert s h s' tr HR. induction HA as [|l ls Hl _ IH]; intros s h s' tr HR E; cbn in E.
  - injection E as <- <-. done.
  - destruct (step l s) as [s1 tr1| |] eqn:El; try done.
    destruct (run_app _ _ _ _ _ E) as (tr0 & -> & E0). cbn in E0 |- *.
    rewrite rev_app_distr, <- app_assoc. eapply IH; [|exact E0]. by eapply reach_step.
Qed.

Lemma schedule_allowed nw af n prio s : Forall (allowed nw af) prio -> Forall (allowed nw af) (schedule n prio s).
Proof.
  intros HA. revert s. induction n as [|n IH]; intros s; cbn; [constructor|].
  destruct (first_enabled prio s) as [(l & s1)|] eqn:E; [|constructor]. constructor; [|apply IH].
  clear IH. induction HA as [|l0 ls Hl Hls IH2]; cbn in E; [done|].
  destruct (step l0 s); [|by apply IH2..]. by injection E as <- <-.
Qed.

(** Submit [t] to worker 0 of two and follow [prio] for [n] steps. *)
Definition demo_labels (n : nat) (prio : list label) (t : task) : list label :=
  match spawn 0 t (init 2) with
  | Next s _ => LSpawn 0 t :: schedule n prio s
  | _ => []
  end.
Definition demo (n : nat) (prio : list label) (t : task) : res :=
  run (demo_labels n prio t) (init 2) [].

Lemma demo_reach n prio t s tr :
  Forall (allowed 2 false) prio -> well_scoped 2 t -> demo n prio t = Next s tr ->
  reach 2 false s (rev tr).
Proof.
  intros HA Ht E. rewrite <- (app_nil_r (rev tr)). eapply run_reach; [apply reach_init| |exact E].
  unfold demo_labels. cbn. constructor; [done|]. by apply schedule_allowed.
Qed.

Lemma eager2_allowed : Forall (allowed 2 false) eager2.
Proof. repeat constructor; cbn; done. Qed.
Lemma lazy2_allowed : Forall (allowed 2 false) lazy2.
Proof. repeat constructor; cbn; done. Qed.

(** ** A program with forks, a call, an exception, a join and a context switch

    The first child throws into its parent, the second stores its exception,
    the third is called. *)
Definition prog : task :=
  Fork FNone false (Throw (EUser 7)) (fun _ =>
  Fork FNone true (Throw (EUser 8)) (fun _ =>
  Call MNone false (Fork FNone false (Ret 3%Z) (fun _ => Join (fun _ _ => Ret 4%Z))) (fun _ =>
  Join (fun cs r =>
  Switch false 1 (Ret (Z.of_nat (length cs) + match r with Some _ => 100 | None => 0 end)%Z))))).

Ltac scp := first
  [ apply sc_ret | apply sc_throw
  | apply sc_fork; [unfold max_forks; lia|done| | | |]
  | apply sc_call; [unfold max_forks; lia|done| | |]
  | apply sc_join | apply sc_switch; [lia|] | apply sc_stash | apply sc_where ]; intros; cbn.

Lemma prog_scoped nw : (2 <= nw)%nat -> well_scoped nw prog.
Proof. intros H. unfold well_scoped, prog. repeat scp; try done. Qed.

(** A program whose sync fork may see its child complete. *)
Definition prog_sync : task :=
  Fork FSync false (Ret 5%Z) (fun r =>
    match r with
    | FDone (CVal v) => Join (fun _ _ => Ret (v + 1)%Z)
    | _ => Join (fun _ _ => Ret 0%Z)
    end).
Lemma prog_sync_scoped nw : well_scoped nw prog_sync.
Proof.
  unfold well_scoped, prog_sync. repeat scp; try done.
  destruct cl; repeat scp.
Qed.

(** A called child that throws, with the eager_throw modifier. *)
Definition prog_eager (m : cmod) : task :=
  Call m false (Throw (EUser 7)) (fun r =>
    match r with
    | CExn _ => Ret 1%Z                              (* thrown at the call, as documented *)
    | CDone _ => Join (fun _ e =>
        match e with Some _ => Ret 2%Z | None => Ret 3%Z end)  (* only at the join *)
    end).
Lemma prog_eager_scoped nw m : well_scoped nw (prog_eager m).
Proof.
  unfold well_scoped, prog_eager. repeat scp; try done. destruct r; scp.
Qed.

(** ** Picking an event out of a demo execution *)

Definition demo_h (n : nat) (prio : list label) (t : task) : list event :=
  match demo n prio t with Next _ tr => rev tr | _ => [] end.
Definition demo_s (n : nat) (prio : list label) (t : task) : state :=
  match demo n prio t with Next s _ => s | _ => init 2 end.

Lemma demo_hs n prio t :
  Forall (allowed 2 false) prio -> well_scoped 2 t ->
  reach 2 false (demo_s n prio t) (demo_h n prio t).
Proof.
  intros HA Ht. unfold demo_s, demo_h. destruct (demo n prio t) eqn:E; [|apply reach_init..].
  by eapply demo_reach.
Qed.

Lemma demo_at n prio t k e :
  Forall (allowed 2 false) prio -> well_scoped 2 t -> demo_h n prio t !! k = Some e ->
  reach 2 false (demo_s n prio t) (firstn k (demo_h n prio t) ++ e :: skipn (S k) (demo_h n prio t)).
Proof. intros HA Ht He. rewrite take_drop_middle by done. by apply demo_hs. Qed.

(** A program without schedule dependence. *)
Definition prog_pure : task :=
  Fork FNone false (Ret 1%Z) (fun _ => Fork FNone true (Throw (EUser 2)) (fun _ =>
  Join (fun cs _ => match cs with [CVal a; CExc _] => Ret (a + 10)%Z | _ => Throw (EUser 9) end))).
Lemma prog_pure_scoped nw : well_scoped nw prog_pure.
Proof. unfold well_scoped, prog_pure. repeat scp; try done; repeat case_match; repeat scp. Qed.
Lemma prog_pure_pure : pure true prog_pure.
Proof. unfold prog_pure. constructor; [constructor|]. constructor; [constructor|]. constructor. intros cs. repeat case_match; constructor. Qed.

(** A use of [just]. *)
Definition prog_just : task :=
  just (Throw (EUser 4)) (fun o => match o with OVal v => Ret v | OExc _ => Ret 40%Z end).
Lemma prog_just_scoped nw : well_scoped nw prog_just.
Proof.
  unfold well_scoped, prog_just, just. scp; try done; try scp.
  - destruct cl; cbn; scp.
Qed.
