(** * An idle lazy_pool goes to sleep. *)

From stdpp Require Import prelude list.
From Coq Require Import Lia.
From Verif Require Import PoolCommon PoolFair LazyModel LazySpec LazyProofs LazyInv LazyThief LazyLive LazyLive2 LazyLive3.

Section Idle.
Context (n nd : nat) (dom : nat -> nat).
Notation worker := (worker n nd dom).
Notation step := (step n nd dom).
Context (sg : nat -> st) (l : nat -> option lab) (HF : fair n nd dom sg l).
Notation emits := (emits step sg l).
Notation acts := (acts n nd dom sg l).
Notation tick := (tick n nd dom sg l HF).
Notation run_inv := (run_inv n nd dom sg l HF).
Notation run_binv := (run_binv n nd dom sg l HF).
Notation worker_acts := (worker_acts n nd dom sg l HF).
Notation acts_at := (acts_at n nd dom sg l HF).
Context (N : nat) (HE : work_ends n nd dom N sg l) (HD : forall i, dt (sg i) = DIdle).

Lemma step_at k : match l k with Some x => exists tr, step x (sg k) = Next (sg (k + 1)) tr | None => sg (k + 1) = sg k end.
Proof. apply (run_step _ _ _ _ (fr_run _ _ _ _ _ HF) k). Qed.

Lemma never_stop k : stop (sg k) = false.
Proof.
  induction k as [|k IH]; [by rewrite (run_init _ _ _ _ (fr_run _ _ _ _ _ HF))|].
  pose proof (step_at k) as Hs. rewrite Nat.add_1_r in Hs. destruct (l k) as [x|]; [|by rewrite Hs]. destruct Hs as [tr Hs].
  destruct (run_inv k) as (_ & F & _). pose proof (HD (S k)) as Hd. destruct x as [u c|a d j| |u]; simpl in Hs.
  - case_decide as Hu; [|done]. assert (~ exiting (pc (sg k) u)) as Hx.
    { intros Hx. rewrite (fi_stop _ _ _ _ F) in IH; [done|]. left. eauto. }
    unfold LazyModel.worker, ret, notify, unregister, thief_sub in Hs.
    destruct (pc (sg k) u) eqn:Hp; simpl in Hx; try (by destruct (Hx I)); try (repeat case_match; try done; simplify_eq; match goal with E : _ = sg _ |- _ => rewrite <- E end; simpl; congruence).
    all: destruct (wake_one _ _ _ _ _) as [s1|] eqn:Hwk; [|done]; injection Hs as Hs _; rewrite <- Hs; simpl;
      apply wake_one_cases in Hwk as [(?&?&?&?&?&->)|[-> _]]; simpl; done.
  - unfold agent, ret, notify in Hs. repeat case_match; try done; injection Hs as Hs _; rewrite <- Hs; simpl; congruence.
  - exfalso. unfold destructor, ret in Hs. rewrite (HD k) in Hs. injection Hs as Hs _. by rewrite <- Hs in Hd.
  - case_decide; [|done]. unfold spurious, ret in Hs. repeat case_match; try done. injection Hs as Hs _. by rewrite <- Hs.
Qed.

(** ** The lists become empty *)

Lemma q_stays w k : N <= k -> q (sg k) w = [] -> q (sg (k + 1)) w = [].
Proof.
  intros Hk Hq. destruct (tick k w) as [(c & tr & Hl & Hs & _)|[(x & tr & Hl & Hn & Hs)|He]]; [| |by rewrite He].
  - unfold LazyModel.worker, ret, notify, unregister, thief_sub in Hs. rewrite Hq in Hs.
    destruct (pc (sg k) w) eqn:Hp; try done; try (repeat case_match; try done; simplify_eq; match goal with E : _ = sg _ |- _ => rewrite <- E end; simpl; unfold fset; repeat case_decide; done).
    all: destruct (wake_one _ _ _ _ _) as [s1|] eqn:Hwk; [|done]; injection Hs as Hs _; rewrite <- Hs; simpl;
      apply wake_one_cases in Hwk as [(?&?&?&?&?&->)|[-> _]]; simpl; done.
  - destruct (other_q n nd dom w x _ _ _ Hs Hn) as [E|(y & _ & Hy)]; [congruence|]. exfalso. eapply (proj1 (HE k Hk)). exists x, tr. eauto.
Qed.

(** A worker that gets a handle has emptied its list. *)
Lemma gets_handle w k : N <= k -> hof (pc (sg k) w) = None -> hof (pc (sg (k + 1)) w) <> None -> q (sg (k + 1)) w = [].
Proof.
  intros Hk Hh Hh'. destruct (tick k w) as [(c & tr & Hl & Hs & _)|[(x & tr & Hl & Hn & Hs)|He]].
  - pose proof (proj2 (HE k Hk) w c Hl) as Hst. unfold LazyModel.worker, ret, notify, unregister, thief_sub in Hs.
    destruct (pc (sg k) w) eqn:Hp; simpl in Hh; try done.
    all: try (specialize (Hst eq_refl); rewrite Hst in Hs).
    all: repeat case_match; try done; simplify_eq; match goal with E : _ = sg _ |- _ => rewrite <- E in Hh' |- * end; simpl in *; rewrite ?fset_eq in *; done.
  - exfalso. apply Hh'. destruct (other_pc n nd dom w x _ _ _ Hs Hn) as [E|(key & _ & E)]; [congruence|by rewrite E].
  - by rewrite He in Hh'.
Qed.
Lemma got_handle w a b : N <= a -> a <= b -> hof (pc (sg a) w) = None -> hof (pc (sg b) w) <> None -> exists c, a <= c /\ q (sg c) w = [].
Proof.
  intros Ha Hab Hh Hb. remember (b - a) as m eqn:Hm. revert a Ha Hab Hh Hm. induction m as [|m IH]; intros a Ha Hab Hh Hm.
  - assert (a = b) as -> by lia. done.
  - destruct (hof (pc (sg (a + 1)) w)) as [h|] eqn:E.
    + exists (a + 1). split; [lia|]. apply gets_handle; [done|done|congruence].
    + destruct (IH (a + 1)) as (c & Hc & Hq); [lia|lia|done|lia|]. exists c. split; [lia|done].
Qed.

Lemma runs_frees w h k : emits k (EvRun w h) -> hof (pc (sg k) w) = Some h /\ hof (pc (sg (k + 1)) w) = None.
Proof.
  intros (x & tr & Hl & Hs & Hin). destruct x as [u c|a d j| |u]; simpl in Hs.
  - case_decide; [|done]. unfold LazyModel.worker, ret, notify, unregister, thief_sub in Hs.
    destruct (pc (sg k) u) eqn:Hp; try done; try (repeat case_match; try done; simplify_eq; set_solver).
    injection Hs as Hs <-. apply elem_of_list_singleton in Hin. injection Hin as -> ->. rewrite Hp, <- Hs. simpl. by rewrite fset_eq.
  - unfold agent, ret, notify in Hs. repeat case_match; try done; injection Hs as _ <-; set_solver.
  - unfold destructor, ret, notify in Hs. repeat case_match; try done; injection Hs as _ <-; set_solver.
  - case_decide; [|done]. unfold spurious, ret in Hs. repeat case_match; try done; injection Hs as _ <-; set_solver.
Qed.

Lemma empties w i : w < n -> N <= i -> exists k, i <= k /\ q (sg k) w = [].
Proof.
  intros Hw Hi. destruct (q (sg i) w) as [|j r] eqn:Hq; [by exists i|].
  assert (forall a, N <= a -> q (sg a) w <> [] -> exists k, a <= k /\ (q (sg k) w = [] \/ exists h, emits k (EvRun w h))) as Hrun.
  { intros a Ha Hne. destruct (q (sg a) w) as [|j1 r1] eqn:E; [done|].
    destruct (job_runs n nd dom sg l HF w j1 a Hw) as (k & Hk & [(h & He & _)|Hst]); [rewrite E; by left|eauto|].
    by rewrite never_stop in Hst. }
  destruct (Hrun i Hi) as (k & Hk & [?|(h & He)]); [by rewrite Hq|by exists k|].
  apply runs_frees in He as [_ Hf]. destruct (q (sg (k + 1)) w) as [|j2 r2] eqn:Hq2; [exists (k + 1); split; [lia|done]|].
  destruct (Hrun (k + 1)) as (k2 & Hk2 & [?|(h2 & He2)]); [lia|by rewrite Hq2|exists k2; split; [lia|done]|].
  apply runs_frees in He2 as [Hf2 _]. destruct (got_handle w (k + 1) k2) as (c & Hc & Hqc); [lia|done|done|congruence|].
  exists c. split; [lia|done].
Qed.

(** ** Workers in their search loop *)

Definition calm (p : wpc) : bool :=
  match p with
  | WTop | WPop1 | WSteal | WPrep | WPop2 _ | WStop _ | WSub _ | WAct _ | WCancel | WWait _ | WBlocked _ | WUnreg => true
  | _ => false
  end.
Definition still (w k : nat) : Prop := calm (pc (sg k) w) = true /\ q (sg k) w = [].

Lemma still_stays w k : N <= k -> still w k -> still w (k + 1).
Proof.
  intros Hk [Hc Hq]. split; [|by apply q_stays]. destruct (tick k w) as [(c & tr & Hl & Hs & _)|[(x & tr & Hl & Hn & Hs)|He]]; [| |by rewrite He].
  - pose proof (proj2 (HE k Hk) w c Hl) as Hst. unfold LazyModel.worker, ret, notify, unregister, thief_sub in Hs. rewrite Hq, never_stop in Hs.
    destruct (pc (sg k) w) eqn:Hp; simpl in Hc; try done.
    all: try (specialize (Hst eq_refl); rewrite Hst in Hs).
    all: repeat case_match; try done; simplify_eq; match goal with E : _ = sg _ |- _ => rewrite <- E end; simpl; by rewrite fset_eq.
  - destruct (other_pc n nd dom w x _ _ _ Hs Hn) as [E|(key & _ & E)]; [by rewrite E|by rewrite E].
Qed.

Lemma stills w i : w < n -> N <= i -> exists k, i <= k /\ still w k.
Proof.
  intros Hw Hi. destruct (empties w i Hw Hi) as (a & Ha & Hq).
  assert (exists b, a <= b /\ hof (pc (sg b) w) = None) as (b & Hb & Hh).
  { destruct (hof (pc (sg a) w)) as [h|] eqn:E; [|by exists a]. destruct (handle_runs n nd dom sg l HF w h Hw _ a (le_n _) E) as (k & Hk & He).
    apply runs_frees in He as [_ He]. exists (k + 1). split; [lia|done]. }
  assert (q (sg b) w = []) as Hqb by (apply (stable (fun k => q (sg k) w = []) a); [intros k Hk; apply q_stays; lia|done|done]).
  assert (calm (pc (sg b) w) = true \/ pc (sg b) w = TEnd) as [Hc|Hp].
  { assert (~ exiting (pc (sg b) w)) as Hx by (intros Hx; pose proof (never_stop b) as E; by rewrite (exiting_stop n nd dom sg l HF w b Hw Hx) in E).
    destruct (pc (sg b) w); simpl in *; auto; try done; by destruct (Hx I). }
  - exists b. split; [lia|done].
  - destruct (acts_at w b TEnd Hw Hp) as (j & Hj & Hpj & (c & tr & Hl & Hs)); [done..|]. exists (j + 1). split; [lia|]. split.
    + unfold LazyModel.worker, ret in Hs. rewrite Hpj in Hs. destruct (active (sg j)); [done|]. injection Hs as Hs _. rewrite <- Hs. simpl. by rewrite fset_eq.
    + apply (stable (fun k => q (sg k) w = []) b); [intros k Hk; apply q_stays; lia|done|lia].
Qed.

(** ** Submitting threads return *)

Lemma agents_bound i : exists m, forall a, m <= a -> ag (sg i) a = AIdle.
Proof.
  induction i as [|i [m IH]]; [exists 0; by rewrite (run_init _ _ _ _ (fr_run _ _ _ _ _ HF))|].
  pose proof (step_at i) as Hs. rewrite Nat.add_1_r in Hs. destruct (l i) as [x|]; [|rewrite Hs; eauto]. destruct Hs as [tr Hs].
  exists (m `max` match x with LAgent a _ _ => S a | _ => 0 end). intros a Ha. rewrite (other_ag n nd dom a x _ _ _ Hs); [apply IH; lia|].
  destruct x; simpl; lia.
Qed.
Lemma agent_stays a k : N <= k -> ag (sg k) a = AIdle -> ag (sg (k + 1)) a = AIdle.
Proof.
  intros Hk Ha. pose proof (step_at k) as Hs. destruct (l k) as [x|] eqn:Hl; [|by rewrite Hs]. destruct Hs as [tr Hs].
  assert ((exists w j, x = LAgent a w j) \/ nota a x) as [(w & j & ->)|Hn].
  { destruct x as [|b w j| |]; simpl; auto. destruct (decide (b = a)) as [->|]; eauto. }
  - exfalso. simpl in Hs. unfold agent in Hs. rewrite Ha in Hs. case_decide as Hw; [|done]. eapply (proj1 (HE k Hk) w j). exists (LAgent a w j), tr.
    split; [done|]. split; [simpl; unfold agent; by rewrite Ha, decide_True by done|]. injection Hs as _ <-. set_solver.
  - by rewrite (other_ag n nd dom a x _ _ _ Hs Hn).
Qed.
Lemma agent_returns a i : exists k, i <= k /\ ag (sg k) a = AIdle.
Proof.
  assert (forall i p, ag (sg i) a = p -> p <> AIdle -> exists j w y tr, i <= j /\ ag (sg j) a = p /\ agent n dom a w y (sg j) = Next (sg (j + 1)) tr) as Hact.
  { clear i. intros i p Hp Hne. destruct (until (fun k => ag (sg k) a = p) (fun _ => False) (fun k => exists w y, l k = Some (LAgent a w y)) i) as (j & Hj & [[]|[HR (w & y & HX)]]).
    - intros k Hk HR. pose proof (step_at k) as Hs. destruct (l k) as [x|] eqn:Hl; [|right; left; by rewrite Hs]. destruct Hs as [tr Hs].
      assert ((exists w j, x = LAgent a w j) \/ nota a x) as [(w & j & ->)|Hn]; [|by eauto|right; left; by rewrite (other_ag n nd dom a x _ _ _ Hs Hn)].
      destruct x as [|b w j| |]; simpl; auto. destruct (decide (b = a)) as [->|]; eauto.
    - done.
    - destruct (fr_agent _ _ _ _ _ HF a i) as (j & w & y & Hj & Hl); [congruence|]. eauto.
    - pose proof (step_at j) as Hs. rewrite HX in Hs. destruct Hs as [tr Hs]. exists j, w, y, tr. done. }
  destruct (ag (sg i) a) as [|w|d] eqn:Ha; [by exists i|..].
  - destruct (Hact i _ Ha) as (j & w1 & y & tr & Hj & Hp & Hs); [done|]. unfold agent, notify, ret in Hs. rewrite Hp in Hs. case_bool_decide; simpl in Hs.
    + injection Hs as Hs _. exists (j + 1). split; [lia|]. rewrite <- Hs. simpl. by rewrite fset_eq.
    + injection Hs as Hs _. destruct (Hact (j + 1) (AWake (dom w))) as (j2 & w2 & y2 & tr2 & Hj2 & Hp2 & Hs2); [rewrite <- Hs; simpl; by rewrite fset_eq|done|].
      unfold agent, ret in Hs2. rewrite Hp2 in Hs2. injection Hs2 as Hs2 _. exists (j2 + 1). split; [lia|]. rewrite <- Hs2. simpl. by rewrite fset_eq.
  - destruct (Hact i _ Ha) as (j & w1 & y & tr & Hj & Hp & Hs); [done|]. unfold agent, ret in Hs. rewrite Hp in Hs. injection Hs as Hs _.
    exists (j + 1). split; [lia|]. rewrite <- Hs. simpl. by rewrite fset_eq.
Qed.

(** ** Nobody notifies any more *)

Definition quiet (k : nat) : Prop := (forall w, w < n -> still w k) /\ forall a, ag (sg k) a = AIdle.

Lemma becomes_quiet : exists K, N <= K /\ forall k, K <= k -> quiet k.
Proof.
  destruct (gather still n N) as (a & Ha & Hs); [intros w k _; apply still_stays|intros w Hw; by apply stills|].
  destruct (agents_bound a) as [m Hm].
  destruct (gather (fun b k => ag (sg k) b = AIdle) m a) as (b & Hb & Hg); [intros w k _ Hk; apply agent_stays; lia|intros; apply agent_returns|].
  exists b. split; [lia|]. intros k Hk. split.
  - intros w Hw. apply (stable (still w) a); [intros j Hj; apply still_stays; lia|by apply Hs|lia].
  - intros c. destruct (decide (c < m)) as [Hc|Hc].
    + apply (stable (fun k => ag (sg k) c = AIdle) b); [intros j Hj; apply agent_stays; lia|by apply Hg|done].
    + apply (stable (fun k => ag (sg k) c = AIdle) a); [intros j Hj; apply agent_stays; lia|apply Hm; lia|lia].
Qed.

Lemma quiet_step k : N <= k -> quiet k -> (forall d, epoch (sg (k + 1)) d = epoch (sg k) d) /\
  forall w, w < n -> (exists c, l k = Some (LWorker w c)) \/ l k = Some (LSpurious w) \/ pc (sg (k + 1)) w = pc (sg k) w.
Proof.
  intros Hk [Q1 Q2]. pose proof (step_at k) as Hs. destruct (l k) as [x|] eqn:Hl; [|rewrite Hs; auto]. destruct Hs as [tr Hs].
  destruct x as [u c|a d j| |u]; simpl in Hs.
  - case_decide as Hu; [|done]. destruct (Q1 u Hu) as [Hc _]. assert (sg (k + 1) = sg (k + 1)) as _ by done.
    unfold LazyModel.worker, ret, unregister, thief_sub in Hs.
    assert ((forall d, epoch (sg (k + 1)) d = epoch (sg k) d) /\ forall w, w <> u -> pc (sg (k + 1)) w = pc (sg k) w) as [H1 H2].
    { destruct (pc (sg k) u) eqn:Hp; simpl in Hc; try done; repeat case_match; try done; simplify_eq; match goal with E : _ = sg _ |- _ => rewrite <- E end; simpl; (split; [done|]; intros w Hw; by rewrite fset_ne). }
    split; [done|]. intros w Hw. destruct (decide (w = u)) as [->|Hne]; [left; eauto|right; right; by apply H2].
  - exfalso. unfold agent in Hs. rewrite Q2 in Hs. case_decide as Hd; [|done]. eapply (proj1 (HE k Hk) d j). exists (LAgent a d j), tr.
    split; [done|]. split; [simpl; unfold agent; by rewrite Q2, decide_True by done|]. injection Hs as _ <-. set_solver.
  - exfalso. unfold destructor, ret in Hs. rewrite HD in Hs. injection Hs as Hs _. pose proof (HD (k + 1)) as E. by rewrite <- Hs in E.
  - case_decide as Hu; [|done]. unfold spurious, ret in Hs. destruct (pc (sg k) u); try done. injection Hs as Hs _. rewrite <- Hs. simpl. split; [done|].
    intros w Hw. destruct (decide (w = u)) as [->|Hne]; [by auto|right; right; by rewrite fset_ne].
Qed.

Lemma quiet_active k : quiet k -> active (sg k) = 0.
Proof.
  intros [Q _]. destruct (run_inv k) as (C & _). rewrite (ci_active _ _ _ C). unfold total.
  assert (forall m, m <= n -> cnt m (fun u => activest (pc (sg k) u)) = 0) as H; [|by apply H].
  induction m as [|m IH]; intros Hm; simpl; [done|]. rewrite IH by lia. destruct (Q m ltac:(lia)) as [Hc _]. by destruct (pc (sg k) m).
Qed.

(** The way to sleep. *)
Definition ri (w k : nat) : nat :=
  match pc (sg k) w with
  | WBlocked _ => 0 | WWait key => if decide (key = epoch (sg k) (dom w)) then 1 else 20
  | WAct key => if decide (key = epoch (sg k) (dom w)) then 2 else 21
  | WSub key => if decide (key = epoch (sg k) (dom w)) then 3 else 22
  | WStop key => if decide (key = epoch (sg k) (dom w)) then 4 else 23
  | WPop2 key => if decide (key = epoch (sg k) (dom w)) then 5 else 24
  | WPrep => 6 | WSteal => 7 | WPop1 => 8 | WTop => 9 | WUnreg | WCancel => 10
  | _ => 30
  end.

Lemma ri_down w k c tr : quiet k -> N <= k -> w < n -> l k = Some (LWorker w c) -> worker w c (sg k) = Next (sg (k + 1)) tr -> ri w (k + 1) < ri w k.
Proof.
  intros Q Hk Hw Hl Hs. pose proof (quiet_active k Q) as Hact. destruct (quiet_step k Hk Q) as [He _]. pose proof (proj2 (HE k Hk) w c Hl) as Hst.
  destruct (proj1 Q w Hw) as [Hc Hq]. unfold ri. rewrite He. unfold LazyModel.worker, ret, unregister, thief_sub in Hs. rewrite Hq, never_stop, Hact in Hs.
  destruct (pc (sg k) w) eqn:Hp; simpl in Hc; try done.
  all: try (specialize (Hst eq_refl); rewrite Hst in Hs).
  all: repeat match type of Hs with context [match ?x with _ => _ end] => destruct x eqn:?; try done end.
  all: simplify_eq; match goal with E : _ = sg _ |- _ => rewrite <- E end; simpl; rewrite ?fset_eq; repeat case_decide; simplify_eq; try lia; done.
Qed.

Lemma sleeps w K : w < n -> N <= K -> (forall k, K <= k -> quiet k) -> forall r i, K <= i -> ri w i <= r -> exists k, i <= k /\ asleep w (sg k).
Proof.
  intros Hw HK HQ. induction r as [|r IH]; intros i Hi Hr.
  - exists i. split; [done|]. unfold ri in Hr. destruct (pc (sg i) w) eqn:Hp; try (repeat case_decide; lia). by exists k.
  - assert (asleep w (sg i) \/ ~ asleep w (sg i)) as [Ha|Hna].
    { unfold asleep. destruct (pc (sg i) w); try (right; intros [? ?]; done). left. eauto. }
    { by exists i. }
    destruct (worker_acts w i (fun k => pc (sg k) w = pc (sg i) w /\ ri w k = ri w i) (fun _ => False)) as (j & Hj & [[]|[[Hp Hrj] (c & tr & Hl & Hs)]]); [done|done|..].
    + intros k Hk [E _] Hx. destruct (proj1 (HQ k ltac:(lia)) w Hw) as [Hc _]. destruct Hx as [[key Hx]|[[Hx _]|Hx]]; [|by rewrite Hx in Hc..].
      apply Hna. exists key. congruence.
    + intros k Hk [E Er]. assert (pc (sg (k + 1)) w = pc (sg k) w -> ri w (k + 1) = ri w k) as Hri.
      { intros E1. destruct (quiet_step k ltac:(lia) (HQ k ltac:(lia))) as [He _]. unfold ri. by rewrite E1, He. }
      split.
      * intros x tr Hl Hn Hs. left. assert (pc (sg (k + 1)) w = pc (sg k) w) as E1; [|split; [congruence|rewrite Hri; congruence]].
        destruct (other_pc n nd dom w x _ _ _ Hs Hn) as [?|(key & E2 & _)]; [done|]. exfalso. apply Hna. exists key. congruence.
      * intros E1. left. rewrite <- Er, <- E. split; [by rewrite E1|apply Hri; by rewrite E1].
    + pose proof (ri_down w j c tr (HQ j ltac:(lia)) ltac:(lia) Hw Hl Hs) as Hd. destruct (IH (j + 1)) as (k & Hk & Ha); [lia|lia|]. exists k. split; [lia|done].
Qed.

(** Again and again each worker is asleep. *)
Theorem sleeps_again w i : w < n -> exists k, i <= k /\ asleep w (sg k).
Proof.
  intros Hw. destruct becomes_quiet as (K & HK & HQ). destruct (sleeps w K Hw HK HQ _ (i `max` K) ltac:(lia) (le_n _)) as (k & Hk & Ha).
  exists k. split; [lia|done].
Qed.

(** Without spurious wake-ups the workers sleep for ever. *)
Theorem all_sleep : (forall i w, N <= i -> l i <> Some (LSpurious w)) -> exists K, forall k w, K <= k -> w < n -> asleep w (sg k).
Proof.
  intros Hsp. destruct becomes_quiet as (K & HK & HQ).
  assert (forall w k, w < n -> K <= k -> asleep w (sg k) -> asleep w (sg (k + 1))) as Hst.
  { intros w k Hw Hk [key Ha]. destruct (quiet_step k ltac:(lia) (HQ k ltac:(lia))) as [_ H]. destruct (H w Hw) as [[c Hl]|[Hl|E]].
    - pose proof (step_at k) as Hs. rewrite Hl in Hs. destruct Hs as [tr Hs]. simpl in Hs. rewrite decide_True in Hs by done.
      unfold LazyModel.worker in Hs. by rewrite Ha in Hs.
    - by destruct (Hsp k w ltac:(lia)).
    - exists key. congruence. }
  destruct (gather (fun w k => asleep w (sg k)) n K) as (a & Ha & Hall); [intros w k Hw Hk; by apply Hst| |].
  - intros w Hw. by apply (sleeps w K Hw HK HQ _ K ltac:(lia) (le_n _)).
  - exists a. intros k w Hk Hw. apply (stable (fun k => asleep w (sg k)) a); [intros j Hj; apply Hst; [done|lia]|by apply Hall|done].
Qed.
End Idle.
