(** * Every program that terminates serially terminates under the runtime (C51).

    Vocabulary: RuntimeSpec.v and RuntimeTermSpec.v.  [terminates af t]: the program [t] ends after
    finitely many awaits whatever results its children give it, among those the serial
    semantics allows.  [moves]: one step of some worker.  [lasting]: a complete execution. *)

From stdpp Require Import prelude gmap list.
From Coq Require Import NArith ZArith Lia.
From Verif Require Import RuntimeModel RuntimeSpec RuntimeHist RuntimeHist2 RuntimeHist3 RuntimeHist4 RuntimeThms RuntimeExamples RuntimeTermSpec RuntimeTermOrder
  RuntimeTerm3 Prop_Runtime.
Local Open Scope N_scope.

(** ** C51: the runtime terminates *)

(** If all submitted programs terminate then, from any point of any execution, the
    workers cannot go on making steps forever, whatever the schedule. *)
Theorem C51_no_endless_execution nw af s h :
  reach nw af s h ->
  (forall f t, parent_in f h = None -> body_in f h = Some t -> terminates af t) ->
  ~ exists x : nat -> state * list event, x 0%nat = (s, h) /\ forall n, moves nw af (x n) (x (S n)).
Proof.
  intros HR HT (x & E & Hm). pose proof (moves_acc af nw (s, h) HR HT) as HA. rewrite <- E in HA.
  generalize dependent 0%nat. intros n _ HA. remember (x n) as y eqn:Ey. revert n Ey.
  induction HA as [y _ IH]. intros n ->. by apply (IH (x (S n)) (Hm n) (S n)).
Qed.

Lemma no_task_left nw af s h f t :
  reach nw af s h -> s_frames s = ∅ -> parent_in f h = None -> body_in f h = Some t ->
  signals_in f h = 1 /\ exists o, s_res s !! f = Some o /\ eval af t o.
Proof.
  intros HR Hs Hp Hb. destruct (reach_hist _ _ _ _ HR) as (Hh & _).
  assert (Hlt : f < s_nextf s).
  { destruct (decide (f < s_nextf s)); [done|]. destruct (g_new _ _ _ Hh f) as (_ & ? & _); [lia|congruence]. }
  destruct (g_dead _ _ _ Hh f Hlt) as ((o & Ho) & Hsig); [by rewrite Hs, lookup_empty|].
  rewrite Hp in Hsig. split; [done|]. exists o. rewrite (g_res _ _ _ Hh f Hp). split; [done|]. by eapply g_eval.
Qed.

(** Every complete execution reaches a time from which on every submitted program has
    finished: the thread that waits for it has been released, and the result it reads is one
    the serial semantics gives. *)
Theorem C51_sync_wait_returns nw af s h x :
  reach nw af s h ->
  (forall f t, parent_in f h = None -> body_in f h = Some t -> terminates af t) ->
  lasting nw af x -> x 0%nat = (s, h) ->
  exists n, forall m, (n <= m)%nat -> forall f t, parent_in f h = None -> body_in f h = Some t ->
    signals_in f (x m).2 = 1 /\ exists o, s_res (x m).1 !! f = Some o /\ eval af t o.
Proof.
  intros HR HT HL E. assert (HR0 : reach nw af (x 0%nat).1 (x 0%nat).2) by (by rewrite E).
  assert (HA := moves_acc af nw (s, h) HR HT). rewrite <- E in HA.
  destruct (run_drains af nw x HL HR0 _ HA) as (n & Hn). exists n. intros m Hle f t Hp Hb.
  pose proof (run_empty af nw x HL HR0 n m Hle Hn) as Hm.
  assert (Hroot := run_root af nw x HL HR0 m f t). rewrite E in Hroot. destruct (Hroot Hp Hb) as (Hp' & Hb').
  by eapply (no_task_left nw af _ _ f t (RuntimeTerm3.run_reach af nw x HL HR0 m)).
Qed.

(** Programs whose tree of awaits has no infinite branch terminate. *)
Theorem C51_finite_programs_terminate af t : finite t -> terminates af t.
Proof. intros H. by apply finite_halts. Qed.

(** ** The hypotheses are met *)

(** From every state there is a complete execution. *)
Definition labels (n : nat) : list label :=
  concat (map (fun i => LWork i false :: LTake i :: LStale i :: map (LSteal i) (seq 0 n)) (seq 0 n)).

Definition next (x : state * list event) : state * list event :=
  match first_enabled (labels (length (s_workers x.1))) x.1 with
  | Some (l, _) => match step l x.1 with Next s' tr => (s', rev tr ++ x.2) | _ => x end
  | None => x
  end.

Definition play (x : state * list event) (n : nat) : state * list event := Nat.iter n next x.

Lemma first_enabled_some ls s l s' : first_enabled ls s = Some (l, s') -> l ∈ ls /\ exists tr, step l s = Next s' tr.
Proof.
  induction ls as [|l0 ls IH]; cbn; [done|]. destruct (step l0 s) eqn:E.
  - intros [= <- <-]. split; [by left|eauto].
  - intros (? & ?)%IH. split; [by right|done].
  - intros (? & ?)%IH. split; [by right|done].
Qed.
Lemma first_enabled_none ls s l : first_enabled ls s = None -> l ∈ ls -> forall s' tr, step l s <> Next s' tr.
Proof.
  induction ls as [|l0 ls IH]; cbn; [by intros _ ?%elem_of_nil|]. destruct (step l0 s) eqn:E; [done| |];
    (intros Hn [->|Hl]%elem_of_cons s' tr; [by rewrite E|by apply IH]).
Qed.
Lemma labels_elem n l : l ∈ labels n <->
  match l with LWork i fail => (i < n)%nat /\ fail = false | LTake i | LStale i => (i < n)%nat
  | LSteal i v => (i < n)%nat /\ (v < n)%nat | LSpawn _ _ => False end.
Proof.
  unfold labels. rewrite elem_of_list_In, in_concat. split.
  - intros (r & Hr & Hl). apply in_map_iff in Hr as (i & <- & Hi). apply in_seq in Hi.
    destruct Hl as [<-|[<-|[<-|Hl]]]; [lia|lia|lia|]. apply in_map_iff in Hl as (v & <- & Hv). apply in_seq in Hv. lia.
  - intros H. assert (Hi : exists i, (i < n)%nat /\ In l (LWork i false :: LTake i :: LStale i :: map (LSteal i) (seq 0 n))).
    { destruct l as [i fail|i|i|i v|]; [|..|done]; exists i.
      - destruct H as (? & ->). split; [lia|by left].
      - split; [lia|right; right; by left].
      - split; [lia|right; by left].
      - destruct H as (? & ?). split; [lia|]. right. right. right. apply in_map_iff. exists v. split; [done|]. apply in_seq. lia. }
    destruct Hi as (i & Hi & Hin). eexists. split; [|exact Hin]. apply in_map_iff. exists i. split; [done|].
    apply in_seq. lia.
Qed.

Lemma next_cases nw af x : next x = x /\ ~ can_move x.1 \/ moves nw af x (next x).
Proof.
  unfold next. destruct (first_enabled _ _) as [(l & s')|] eqn:E.
  - apply first_enabled_some in E as (Hl & tr & E). rewrite E. right. apply labels_elem in Hl.
    exists l, tr. split_and!; [|by destruct l|done|done]. destruct l; cbn; try done. by destruct Hl as (_ & ->).
  - left. split; [done|]. intros (l & s' & tr & H1 & H2 & Hs).
    eapply first_enabled_none; [exact E| |exact Hs]. apply labels_elem.
    assert (Hw : forall i, (length (s_workers x.1) <= i)%nat -> s_workers x.1 !! i = None) by (intros; by apply lookup_ge_None).
    destruct l as [i fail|i|i|i v|d t]; cbn in Hs; [..|by destruct (H1 d t)].
    + destruct (decide (i < length (s_workers x.1))%nat); [|unfold wstep in Hs; rewrite Hw in Hs by lia; done].
      split; [done|]. destruct fail; [by destruct (H2 i)|done].
    + destruct (decide (i < length (s_workers x.1))%nat); [done|unfold stale in Hs; rewrite Hw in Hs by lia; done].
    + destruct (decide (i < length (s_workers x.1))%nat); [done|unfold take in Hs; rewrite Hw in Hs by lia; done].
    + unfold steal in Hs. destruct (s_workers x.1 !! i) eqn:Ei; [|done]. destruct (s_workers x.1 !! v) eqn:Ev; [|done].
      apply lookup_lt_Some in Ei, Ev. lia.
Qed.

Lemma play_lasting nw af x : lasting nw af (play x).
Proof.
  split.
  - intros n. change (play x (S n)) with (next (play x n)). destruct (next_cases nw af (play x n)) as [(-> & _)|Hm]; [by left|by right].
  - intros n Hc. exists n. split; [done|]. change (play x (S n)) with (next (play x n)). by destruct (next_cases nw af (play x n)) as [(_ & ?)|Hm].
Qed.

(** The recursive Fibonacci function of the README, for every argument. *)
Definition add_cells (cs : list cell) : Z :=
  foldr (fun c a => match c with CVal v => (v + a)%Z | _ => a end) 0%Z cs.
Fixpoint fib (n : nat) : task :=
  match n with
  | O => Ret 0
  | S n1 =>
    match n1 with
    | O => Ret 1
    | S n2 =>
      Fork FNone true (fib n1) (fun r => match r with FExn e => Throw e | _ =>
      Call MNone true (fib n2) (fun r => match r with CExn e => Join (fun _ _ => Throw e) | _ =>
      Join (fun cs _ => Ret (add_cells cs)) end) end)
    end
  end.

Lemma fib_finite n : finite (fib n) /\ finite (fib (S n)).
Proof.
  induction n as [|n (IH1 & IH2)]; [split; constructor|]. split; [done|]. cbn -[fib].
  constructor; [done|]. intros [| |e]; [..|constructor]; (constructor; [done|]; intros []; constructor; intros; constructor).
Qed.

Lemma fib_scoped nw n : well_scoped nw (fib n) /\ well_scoped nw (fib (S n)).
Proof.
  induction n as [|n (IH1 & IH2)]; [split; constructor|]. split; [done|].
  unfold well_scoped in *.
  apply sc_fork; [unfold max_forks; lia|done|done| | |]; cbn [orb negb].
  - apply sc_call; [unfold max_forks; lia|done|done| |]; cbn [orb negb]; intros; apply sc_join; intros; constructor.
  - done.
  - intros. constructor.
Qed.

(** A program that loops until its child gives the answer, which it always does. *)
CoFixpoint retry : task :=
  Call MNone true (Ret 1) (fun r => match r with CDone (CVal 1%Z) => Ret 0 | _ => retry end).

Definition unfold_task (t : task) : task :=
  match t with
  | Ret v => Ret v | Throw e => Throw e | Fork m st c k => Fork m st c k | Call m st c k => Call m st c k
  | Join k => Join k | Switch sk d k => Switch sk d k | Stash e k => Stash e k | Where k => Where k
  end.
Lemma task_unfold t : t = unfold_task t.
Proof. by destruct t. Qed.

Example C51_nonvacuous :
  (forall n, exists x, reach 2 false (x 0%nat).1 (x 0%nat).2 /\ lasting 2 false x /\
     parent_in 0 (x 0%nat).2 = None /\ body_in 0 (x 0%nat).2 = Some (fib n) /\ terminates false (fib n)) /\
  (terminates false retry /\ ~ finite retry).
Proof.
  split; [|split].
  - intros n. destruct (spawn 0 (fib n) (init 2)) as [s tr| |] eqn:E; [|done..].
    exists (play (s, rev tr)). split_and!.
    + cbn. rewrite <- (app_nil_r (rev tr)). eapply (reach_step _ _ _ _ (LSpawn 0 (fib n))); [apply reach_init| |exact E].
      apply fib_scoped.
    + apply play_lasting.
    + cbn in E. injection E as <- <-. done.
    + cbn in E. injection E as <- <-. done.
    + apply C51_finite_programs_terminate, fib_finite.
  - unfold terminates. rewrite (task_unfold retry). cbn. constructor; [constructor| |done|done|done].
    intros cl (o & He & ->). inversion He; subst. constructor.
  - intros H. remember retry as t eqn:Et. induction H; rewrite (task_unfold retry) in Et; cbn in Et; try done.
    injection Et as -> -> -> ->. apply (H1 (CExn EBadAlloc)). done.
Qed.

Print Assumptions C51_no_endless_execution.
Print Assumptions C51_sync_wait_returns.
Print Assumptions C51_finite_programs_terminate.
