(** * C71: on the real deques every submitted program that terminates serially finishes.

    Vocabulary: FineModel.v, FineSpec.v, FineLiveSpec.v, RuntimeTermSpec.v.  [endless nw af x c]: an
    infinite execution in which push, pop and steal are executed one memory access at a time.
    [pool_loop K x c]: no worker stops forever while it has something to do, and none tries to steal
    more than [K] times without looking at its submission list. *)

From stdpp Require Import prelude gmap list.
From Coq Require Import NArith ZArith Lia.
From Verif Require Import RuntimeModel RuntimeSpec RuntimeHist RuntimeHist2 RuntimeHist3 RuntimeHist4 RuntimeTermSpec RuntimeTerm3 RuntimeExamples
  FineModel FineSpec FineProofs2 FineLiveSpec FineLive Prop_Fine.
From Verif Require Prop_Term DequeModel RuntimeInv RuntimeSafe.

Section endless.
Context (nw k : nat) (af : bool) (x : nat -> fine * history) (c : nat -> option flabel).
Hypothesis HE : endless nw af x c.
Hypothesis HR : freach nw k af (x 0).1 (x 0).2.

Lemma always_at n : exists s, at_ nw k af x n s.
Proof using HE HR.
  induction n as [|n (s & Hs)].
  - destruct (freach_sim _ _ _ _ _ HR) as (s & Q & H & M). by exists s, Q, H.
  - destruct (always nw k af x c HE n s Hs) as (s' & Hs' & _). by exists s'.
Qed.

Lemma empty_at n m : n <= m -> s_frames (rt (x n).1) = ∅ -> s_frames (rt (x m).1) = ∅.
Proof using HE HR.
  intros Hle Hn. induction Hle as [|m Hle IH]; [done|].
  destruct (always_at m) as (s & Hs). destruct (always nw k af x c HE m s Hs) as (s' & (Q' & H' & M') & Hf & _).
  destruct Hs as (Q & H & M). pose proof (m_state _ _ _ _ _ _ _ _ M) as E. pose proof (m_state _ _ _ _ _ _ _ _ M') as E'.
  rewrite E' in Hf. cbn in Hf. apply Hf. by rewrite E.
Qed.

Lemma root_at n f t :
  parent_in f (x 0).2 = None -> body_in f (x 0).2 = Some t ->
  parent_in f (x n).2 = None /\ body_in f (x n).2 = Some t.
Proof using HE HR.
  intros Hp Hb. induction n as [|n IH]; [done|]. destruct IH as (Hp' & Hb').
  destruct (always_at n) as (s & Hs). destruct (always nw k af x c HE n s Hs) as (s' & (Q' & H' & M') & _ & tr & E).
  destruct (reach_hist _ _ _ _ (m_reach _ _ _ _ _ _ _ _ M')) as (HH & _). pose proof (g_evs _ _ _ HH) as Hok.
  rewrite E in *. by eapply root_evs.
Qed.
End endless.

(** Let an execution in which the workers run the loop of a pool begin in any reachable state, and
    let all programs submitted by then terminate serially.  Then from some time on every thread that
    waits for one of them has been released, exactly once, and the result it reads is one the serial
    semantics gives. *)
Theorem C71_sync_wait_returns nw k af K x c :
  freach nw k af (x 0).1 (x 0).2 ->
  (forall f t, parent_in f (x 0).2 = None -> body_in f (x 0).2 = Some t -> terminates af t) ->
  endless nw af x c -> pool_loop K x c ->
  exists n, forall m, n <= m -> forall f t,
    parent_in f (x 0).2 = None -> body_in f (x 0).2 = Some t ->
    signals_in f (x m).2 = 1%N /\ exists o, s_res (rt (x m).1) !! f = Some o /\ eval af t o.
Proof.
  intros HR HT HE HP. destruct (freach_sim _ _ _ _ _ HR) as (s & Q & H & M).
  assert (HA := moves_acc af nw (s, (x 0).2) (m_reach _ _ _ _ _ _ _ _ M) HT).
  destruct (drains nw k af x c K HE HP _ HA 0) as (n & _ & Hn); [by exists Q, H|done|].
  exists n. intros m Hle f t Hp Hb. destruct (root_at nw k af x c HE HR m f t Hp Hb) as (Hp' & Hb').
  pose proof (empty_at nw k af x c HE HR n m Hle Hn) as Hm.
  destruct (always_at nw k af x c HE HR m) as (s' & Q' & H' & M'). pose proof (m_state _ _ _ _ _ _ _ _ M') as E.
  destruct (Prop_Term.no_task_left nw af s' (x m).2 f t) as (Hsig & o & Ho & Hev); try done.
  - by eapply m_reach.
  - by rewrite E.
  - split; [done|]. exists o. split; [|done]. by rewrite E in Ho.
Qed.

(** From some time on no task exists any more, and none is created again. *)
Theorem C71_all_tasks_end nw k af K x c :
  freach nw k af (x 0).1 (x 0).2 ->
  (forall f t, parent_in f (x 0).2 = None -> body_in f (x 0).2 = Some t -> terminates af t) ->
  endless nw af x c -> pool_loop K x c ->
  exists n, forall m, n <= m -> s_frames (rt (x m).1) = ∅.
Proof.
  intros HR HT HE HP. destruct (freach_sim _ _ _ _ _ HR) as (s & Q & H & M).
  assert (HA := moves_acc af nw (s, (x 0).2) (m_reach _ _ _ _ _ _ _ _ M) HT).
  destruct (drains nw k af x c K HE HP _ HA 0) as (n & _ & Hn); [by exists Q, H|done|].
  exists n. intros m Hle. by apply (empty_at nw k af x c HE HR n m).
Qed.

(** ** A concrete execution

    The race of C70: worker 1 steals the program from worker 0 while worker 0 pops it.  The
    execution begins after the submission and is at rest after the last step. *)
Definition run_x (ls : list flabel) (n : nat) : fine * history := (state_of (firstn (S n) ls), hist_of (firstn (S n) ls)).
Definition run_c (ls : list flabel) (n : nat) : option flabel := ls !! S n.

Lemma frun_snoc ls l s : frun (ls ++ [l]) s [] =
  match frun ls s [] with
  | Some (s', tr) => match fstep l s' with FNext s'' tr' => Some (s'', tr ++ tr') | _ => None end
  | None => None
  end.
Proof.
  revert s. induction ls as [|l' ls IH]; intros s; cbn.
  - destruct (fstep l s); done.
  - destruct (fstep l' s) as [s' tr'| |]; [|done..]. rewrite (frun_app (ls ++ [l])), (frun_app ls), IH.
    destruct (frun ls s' []) as [(s2 & tr2)|]; [|done]. destruct (fstep l s2); [|done..]. by rewrite app_assoc.
Qed.

Lemma frun_prefix ls ls' s : frun (ls ++ ls') s [] <> None -> frun ls s [] <> None.
Proof.
  induction ls' as [|l ls' IH] using rev_ind; [by rewrite app_nil_r|]. rewrite app_assoc, frun_snoc. intros H.
  apply IH. intros E. by rewrite E in H.
Qed.

Definition is_spawn (l : flabel) : bool := match l with FSpawn _ _ => true | _ => false end.
Definition is_steal (l : flabel) : bool := match l with FSteal _ _ => true | _ => false end.
Definition quiet_in (i : nat) (s : fine) : bool :=
  match fstep (FWork i false) s, fstep (FTake i) s with FBlocked, FBlocked => true | _, _ => false end.

(** What has to be computed: the list is an execution, with one submission at its beginning, at
    most one steal, and nothing left to do at its end. *)
Definition runs (ls : list flabel) : bool :=
  match frun ls (finit 2 0) [] with Some (s, _) => quiet_in 0 s && quiet_in 1 s && (length (s_workers (rt s)) =? 2) | None => false end.
Definition one_steal (p : nat) (ls : list flabel) : bool :=
  forallb (fun q => Nat.eqb (fst q) (S p) || negb (is_steal (snd q))) (zip (seq 0 (length ls)) ls).

Section list.
Context (ls : list flabel) (p : nat).
Hypothesis HA : Forall (fallowed 2 false) ls.
Hypothesis HR : runs ls = true.
Hypothesis HSp : forallb (fun l => negb (is_spawn l)) (tail ls) = true.
Hypothesis HSt : one_steal p ls = true.

Lemma run_no_spawn n l : run_c ls n = Some l -> is_spawn l = false.
Proof using HSp.
  intros E. pose proof HSp as H. rewrite forallb_forall in H. specialize (H l). destruct (is_spawn l); [|done]. discriminate H.
  apply elem_of_list_In, elem_of_list_lookup. exists n. unfold run_c in E. by rewrite lookup_tail.
Qed.

Lemma run_endless : endless 2 false (run_x ls) (run_c ls).
Proof using HA HR HSp.
  intros n. pose proof (run_no_spawn n) as HN. unfold run_x, run_c in *. cbn [fst snd]. destruct (ls !! S n) as [l|] eqn:E; cycle 1.
  - apply lookup_ge_None in E. by rewrite !firstn_all2 by lia.
  - split; [by eapply Forall_lookup_1|]. split; [intros d t ->; by specialize (HN _ eq_refl)|].
    rewrite (take_S_r ls (S n) l E). unfold state_of, hist_of.
    assert (HN2 : frun (firstn (S n) ls ++ [l]) (finit 2 0) [] <> None).
    { rewrite <- (take_S_r ls (S n) l E). apply (frun_prefix _ (drop (S (S n)) ls)). rewrite take_drop. intros E2.
      unfold runs in HR. by rewrite E2 in HR. }
    rewrite frun_snoc in *. destruct (frun (firstn (S n) ls) (finit 2 0) []) as [(s & tr)|]; [|done].
    destruct (fstep l s) as [s' tr'| |]; try done. exists tr'. split; [done|]. by rewrite rev_app_distr.
Qed.

Lemma run_one_steal n : n <> p -> match run_c ls n with Some l => is_steal l = false | None => True end.
Proof using HSt.
  intros Hn. destruct (run_c ls n) as [l|] eqn:E; [|done]. unfold run_c in E. pose proof HSt as H. unfold one_steal in H.
  rewrite forallb_forall in H. specialize (H (S n, l)). cbn in H. destruct (is_steal l); [|done]. exfalso.
  destruct (n =? p) eqn:E10; [by apply Nat.eqb_eq in E10|]. discriminate H.
  apply elem_of_list_In, elem_of_list_lookup. exists (S n). apply lookup_lt_Some in E as Hlt.
  apply lookup_zip_with_Some. exists (S n), l. split; [done|]. split; [|done]. by apply lookup_seq.
Qed.

Lemma steals_le c i : (forall n, n <> p -> match c n with Some l => is_steal l = false | None => True end) ->
  forall n d, steals_in c i n d <= (if decide (n + d <= p) then 0 else 1).
Proof.
  intros Hp n d. induction d as [|d IH]; cbn [steals_in]; [case_decide; lia|].
  destruct (decide (n + d = p)) as [E|E].
  - rewrite decide_True in IH by lia. rewrite decide_False by lia. repeat case_match; lia.
  - specialize (Hp _ E). destruct (c (n + d)) as [[j fl|j|j v|d' t|j]|]; try done;
      repeat case_decide; lia.
Qed.

Lemma run_workers n : length (s_workers (rt (run_x ls n).1)) = 2.
Proof using HA.
  destruct (C70_refines 2 0 false (run_x ls n).1 (run_x ls n).2) as (s & HRs & Ha).
  { apply freach_of. by apply Forall_take. }
  rewrite (Forall2_length _ _ _ (a_workers _ _ Ha)). destruct (RuntimeSafe.reach_inv _ _ _ _ HRs) as (G & J).
  by apply RuntimeInv.i_len in J.
Qed.

Lemma quiet_nothing i s : quiet_in i s = true -> nothing_to_do i s.
Proof. unfold quiet_in, nothing_to_do. by repeat case_match. Qed.

Lemma run_pool_loop : pool_loop 1 (run_x ls) (run_c ls).
Proof using HA HR HSt.
  split.
  - intros i n Hi. exists (n + length ls). split; [lia|]. right. unfold run_x. cbn [fst]. rewrite firstn_all2 by lia.
    unfold state_of. pose proof HR as H. unfold runs in H. destruct (frun ls (finit 2 0) []) as [(s & tr)|]; [|done].
    apply andb_prop in H as (H & E%Nat.eqb_eq). apply andb_prop in H as (H0 & H1).
    destruct i as [|[|i]]; try by apply quiet_nothing. exfalso. revert Hi. apply eq_None_not_Some, lookup_ge_None.
    rewrite run_workers. lia.
  - intros i n d _. etrans; [apply (steals_le (run_c ls) i), run_one_steal|]. case_decide; lia.
Qed.
End list.

Definition race : list flabel := complete race_won.
Lemma race_allowed : Forall (fallowed 2 false) race.
Proof. apply complete_allowed, race_won_allowed. Qed.
Lemma race_runs : runs race = true.
Proof. vm_compute; reflexivity. Qed.
Lemma race_no_spawn : forallb (fun l => negb (is_spawn l)) (tail race) = true.
Proof. vm_compute; reflexivity. Qed.
Lemma race_one_steal : one_steal 10 race = true.
Proof. vm_compute; reflexivity. Qed.
Definition begins (ls : list flabel) : history := hist_of (firstn 1 ls).
Lemma run_begins ls : (run_x ls 0).2 = begins ls.
Proof. done. Qed.
Lemma run_ends ls n : length ls <= S n -> (run_x ls n).1 = state_of ls.
Proof. intros H. unfold run_x. cbn [fst]. by rewrite firstn_all2. Qed.
Lemma race_begins : begins race = [EvSpawn 0 prog_pure].
Proof. vm_compute; reflexivity. Qed.
Lemma race_result : s_res (rt (state_of race)) !! 0%N = Some (OVal 11).
Proof. vm_compute; reflexivity. Qed.
Lemma race_length : length race <= 201.
Proof. apply Nat.leb_le. vm_compute; reflexivity. Qed.

Lemma prog_pure_finite : finite prog_pure.
Proof.
  unfold prog_pure. apply fi_fork; [apply fi_ret|]. intros _. apply fi_fork; [apply fi_throw|]. intros _. apply fi_join.
  intros cs _. repeat case_match; constructor.
Qed.

(** The hypotheses of C71 hold of it; at its beginning nothing has run, and the program is finished
    at a later time. *)
Example C71_nonvacuous :
  freach 2 0 false (run_x race 0).1 (run_x race 0).2 /\
  (forall f t, parent_in f (run_x race 0).2 = None -> body_in f (run_x race 0).2 = Some t -> terminates false t) /\
  endless 2 false (run_x race) (run_c race) /\ pool_loop 1 (run_x race) (run_c race) /\
  (run_x race 0).2 = [EvSpawn 0 prog_pure] /\
  s_res (rt (run_x race 200).1) !! 0%N = Some (OVal 11).
Proof.
  split; [|split; [|split; [|split; [|split]]]].
  - apply freach_of. apply Forall_take, race_allowed.
  - intros f t _. rewrite (run_begins race), race_begins. cbn.
    case_decide; [|discriminate]. intros [= <-]. apply Prop_Term.C51_finite_programs_terminate, prog_pure_finite.
  - apply run_endless; [apply race_allowed|apply race_runs|apply race_no_spawn].
  - apply (run_pool_loop race 10); [apply race_allowed|apply race_runs|apply race_one_steal].
  - rewrite (run_begins race). exact race_begins.
  - rewrite (run_ends race 200 race_length). exact race_result.
Qed.

Print Assumptions C71_sync_wait_returns.
Print Assumptions C71_all_tasks_end.
