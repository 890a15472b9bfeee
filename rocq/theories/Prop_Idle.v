(** * C59: an idle lazy_pool sleeps.

    Model: LazyModel.v, WholeModel.v.  Specification: LazySpec.v, WholeSpec.v. *)

From stdpp Require Import prelude gmap list.
From Coq Require Import NArith Lia.
From Verif Require Import PoolCommon PoolFair PoolSpec PoolExamples LazyModel LazySpec LazyLive LazyIdle WholeModel WholeSpec WholeProofs.
From Verif Require Prop_Lazy.

Section Thms.
Context (n nd : nat) (dom : nat -> nat).

(** Once no more work comes, and until the pool is destroyed, all workers go to sleep and stay
    asleep: the pool uses no processor time. *)
Theorem C59_idle_pool_sleeps sg l N :
  fair n nd dom sg l -> work_ends n nd dom N sg l -> (forall i, dt (sg i) = DIdle) ->
  (forall i w, N <= i -> l i <> Some (LSpurious w)) ->
  exists K, forall k w, K <= k -> w < n -> asleep w (sg k).
Proof. intros HF HE HD HS. exact (all_sleep n nd dom sg l HF N HE HD HS). Qed.

(** A worker that wakes up spuriously goes back to sleep. *)
Theorem C59_back_to_sleep sg l N :
  fair n nd dom sg l -> work_ends n nd dom N sg l -> (forall i, dt (sg i) = DIdle) ->
  forall i w, w < n -> exists k, i <= k /\ asleep w (sg k).
Proof. intros HF HE HD i w Hw. exact (sleeps_again n nd dom sg l HF N HE HD w i Hw). Qed.

(** The same for programs: when the programs are done the workers sleep. *)
Theorem C59_programs_done_pool_sleeps af sg l N :
  wfair n nd dom af sg l -> proper N sg l -> all_terminate af sg -> (forall i, dt (pool (sg i)) = DIdle) ->
  (forall i w, N <= i -> l i <> Some (XSpurious w)) ->
  exists K, forall k w, K <= k -> w < n -> asleep w (pool (sg k)).
Proof.
  intros HW HP HT HD HS. destruct (pool_ends n nd dom af sg l HW N HP HT) as (M & HM).
  apply (C59_idle_pool_sleeps (fun k => pool (sg k)) (pl n sg l) (M `max` N)).
  - by eapply pool_fair.
  - intros j Hj. apply HM. lia.
  - done.
  - intros i w Hi. unfold pl. destruct (l i) as [x|] eqn:Hl; [|done]. assert (x <> XSpurious w) as Hx by (intros ->; by apply (HS i w); [lia|]).
    destruct x as [u c v fail|a d t| |u|u]; simpl; [| |done|congruence|].
    + repeat case_match; simplify_eq; done.
    + repeat case_match; simplify_eq; done.
    + by destruct (ag (pool (sg i)) u), (pc (pool (sg i)) u).
Qed.
End Thms.

(** ** The hypotheses are met *)

(** The execution of Prop_Lazy.v without the destructor: two workers, one job. *)
Definition id_run : list lab :=
  greedy (step 2 2 Prop_Lazy.lz_dom)
    (rep 9 [Prop_Lazy.wN 0] ++ rep 9 [Prop_Lazy.wN 1] ++ [LAgent 0 0 7; LAgent 0 0 0; LAgent 0 0 0] ++
     rep 15 [Prop_Lazy.wN 0; Prop_Lazy.wT 0 1] ++ rep 30 [Prop_Lazy.wN 0; Prop_Lazy.wN 1]) init.
Definition id_sg := states (step 2 2 Prop_Lazy.lz_dom) init id_run.
Definition id_l := labels id_run.

Lemma id_facts :
  match exec (step 2 2 Prop_Lazy.lz_dom) id_run init with
  | Some (s, t) => (exists k, pc s 0 = WBlocked k) /\ (exists k, pc s 1 = WBlocked k) /\ ag s 0 = AIdle /\ t = [EvPush 0 7; EvRun 0 [7]]
  | None => False
  end.
Proof. vm_compute. repeat split; eexists; reflexivity. Qed.

Definition id_lab (x : lab) : bool :=
  match x with LWorker _ c => negb (c_steal c) | LAgent a _ _ => Nat.eqb a 0 | _ => false end.
Lemma id_labs : forallb id_lab id_run = true.
Proof. vm_compute. reflexivity. Qed.
Definition is_agent (x : lab) : bool := match x with LAgent _ _ _ => true | _ => false end.
Lemma id_agents : existsb is_agent (skipn 21 id_run) = false.
Proof. vm_compute. reflexivity. Qed.
Opaque id_run.

Lemma id_lab_at i x : id_l i = Some x -> id_lab x = true.
Proof. intros H. apply nth_error_In in H. pose proof id_labs as E. rewrite forallb_forall in E. by apply E. Qed.

Lemma id_dt' i : exec (step 2 2 Prop_Lazy.lz_dom) id_run init <> None -> dt (id_sg i) = DIdle.
Proof.
  intros Hx. pose proof (run_step _ _ _ _ (run_of_list (step 2 2 Prop_Lazy.lz_dom) init id_run Hx)) as HR. clear Hx.
  change (labels id_run) with id_l in HR. change (states (step 2 2 Prop_Lazy.lz_dom) init id_run) with id_sg in HR.
  induction i as [|i IH]; [reflexivity|]. specialize (HR i). rewrite Nat.add_1_r in HR. destruct (id_l i) as [x|] eqn:Hl; [|by rewrite HR].
  destruct HR as [tr Hs]. rewrite (other_dt 2 2 Prop_Lazy.lz_dom x _ _ _ Hs); [exact IH|].
  intros ->. apply id_lab_at in Hl. discriminate Hl.
Qed.

Example id_fair : fair 2 2 Prop_Lazy.lz_dom id_sg id_l.
Proof.
  pose proof id_facts as H. destruct (exec (step 2 2 Prop_Lazy.lz_dom) id_run init) as [[s t]|] eqn:Hx; [|destruct H].
  destruct H as ([k0 H0] & [k1 H1] & Ha & _). assert (forall i, length id_run <= i -> id_sg i = s) as Hend.
  { intros i Hi. unfold id_sg. rewrite states_end by done. unfold state_after. by rewrite Hx. }
  assert (forall a, ag s a = AIdle) as Hag.
  { intros a. destruct (decide (a = 0)) as [->|Hne]; [done|]. eapply agent_idle; [exact Hx|done|].
    apply Forall_forall. intros x Hin. apply elem_of_list_In in Hin. pose proof id_labs as E. rewrite forallb_forall in E. specialize (E x Hin).
    destruct x as [|b d j| |]; [exact I| |exact I|exact I]. apply Nat.eqb_eq in E. simpl. lia. }
  split.
  - apply run_of_list. by rewrite Hx.
  - intros w Hw i. exists (i `max` length id_run). split; [lia|right]. intros x [c ->]. rewrite Hend by lia. simpl. rewrite decide_True by done.
    unfold worker. destruct w as [|[|w]]; [by rewrite H0|by rewrite H1|lia].
  - intros a i Hn. destruct (exec (step 2 2 Prop_Lazy.lz_dom) (firstn i id_run) init) as [[s1 t1]|] eqn:E1.
    + unfold id_sg, states, state_after in Hn. rewrite E1 in Hn.
      rewrite <- (firstn_skipn i id_run), exec_app, E1 in Hx. destruct (exec _ (skipn i id_run) s1) as [[s2 t2]|] eqn:E2; [|done].
      injection Hx as -> _. destruct (agent_label _ _ _ _ _ _ _ a E2 Hn (Hag a)) as (j & w & y & Hj). rewrite nth_error_skipn in Hj.
      exists (i + j), w, y. split; [lia|done].
    + exfalso. unfold id_sg, states, state_after in Hn. rewrite E1 in Hn. exact (Hn eq_refl).
  - intros i Hd. exfalso. apply Hd. apply id_dt'. rewrite Hx. discriminate.
Qed.

Lemma id_ok : exec (step 2 2 Prop_Lazy.lz_dom) id_run init <> None.
Proof. pose proof id_facts as H. destruct (exec _ id_run init); [discriminate|destruct H]. Qed.
Lemma id_dt i : dt (id_sg i) = DIdle.
Proof. apply id_dt', id_ok. Qed.

Example C59_instance : work_ends 2 2 Prop_Lazy.lz_dom 21 id_sg id_l /\ (forall i, dt (id_sg i) = DIdle) /\
  (forall i w, 21 <= i -> id_l i <> Some (LSpurious w)) /\ exists s, exec (step 2 2 Prop_Lazy.lz_dom) id_run init = Some (s, [EvPush 0 7; EvRun 0 [7]]).
Proof.
  split_and!.
  - intros j Hj. split.
    + intros w x (y & tr & Hl & Hs & Hin). assert (is_agent y = true) as Hy.
      { destruct y as [u c|a d k| |u]; [|done|by apply id_lab_at in Hl..]. exfalso. simpl in Hs. case_decide; [|done].
        unfold worker, ret, notify in Hs. repeat case_match; simplify_eq; try (by apply elem_of_nil in Hin); apply elem_of_list_singleton in Hin; done. }
      unfold id_l, labels in Hl. replace j with (21 + (j - 21)) in Hl by lia. rewrite <- nth_error_skipn in Hl. apply nth_error_In in Hl.
      assert (existsb is_agent (skipn 21 id_run) = true) as E by (apply existsb_exists; eauto). rewrite id_agents in E. discriminate E.
    + intros w c Hl _. apply id_lab_at in Hl. simpl in Hl. by destruct (c_steal c).
  - apply id_dt.
  - intros i w _ Hl. by apply id_lab_at in Hl.
  - pose proof id_facts as H. destruct (exec (step 2 2 Prop_Lazy.lz_dom) id_run init) as [[s t]|] eqn:Hx; [|destruct H]. destruct H as (_ & _ & _ & ->).
    exists s. reflexivity.
Qed.

Print Assumptions C59_idle_pool_sleeps.
Print Assumptions C59_back_to_sleep.
Print Assumptions C59_programs_done_pool_sleeps.
