(** * lazy_pool: every submitted job is run; there is always somebody to look for work;
    shutdown terminates. *)

From stdpp Require Import prelude list.
From Coq Require Import Lia.
From Verif Require Import PoolCommon PoolFair LazyModel LazyProofs LazyInv LazyThief LazySpec LazyLive.

Section Live.
Context (n nd : nat) (dom : nat -> nat).
Notation worker := (worker n nd dom).
Notation step := (step n nd dom).
Notation cinv := (cinv n dom).
Notation finv := (finv n nd dom).
Notation jinv := (jinv n dom).
Notation tinv := (tinv n nd dom).
Notation binv := (binv nd).

(** The number of steps to the next look at the queue, at most. *)
Definition rk (p : wpc) : nat :=
  match p with
  | WPop1 | WPop2 _ => 0
  | WTop | WPrep => 1
  | WUnreg | WCancel | TEnd => 2
  | TRun _ | WWait _ => 3
  | WBlocked _ | WAct _ => 4
  | WSub _ => 5
  | WStop _ => 6
  | TDom _ i => 4 + 3 * (nd - i)
  | TDomNote _ i => 3 + 3 * (nd - i)
  | TDomWake _ i => 2 + 3 * (nd - i)
  | TAct _ => 5 + 3 * nd
  | TWake _ => 6 + 3 * nd
  | TNote _ => 7 + 3 * nd
  | TSub _ => 8 + 3 * nd
  | WCancelJob _ | WSteal => 9 + 3 * nd
  | _ => 0
  end.

(** The jobs a worker has taken and not yet run. *)
Definition hof (p : wpc) : option (list nat) :=
  match p with
  | WCancelJob h | TSub h | TNote h | TWake h | TAct h | TDom h _ | TDomNote h _ | TDomWake h _ | TRun h => Some h
  | _ => None
  end.

Lemma worker_handle w c s s' tr h : binv s -> worker w c s = Next s' tr -> hof (pc s w) = Some h ->
  EvRun w h ∈ tr \/ (hof (pc s' w) = Some h /\ rk (pc s' w) < rk (pc s w)).
Proof.
  intros B Hs Hh. pose proof (B w) as Bw. unfold LazyModel.worker, ret, notify, unregister, thief_sub in Hs.
  destruct (pc s w) eqn:Hp; try done; simpl in Hh; injection Hh as ->.
  all: try (repeat case_match; try done; simplify_eq; right; simpl; rewrite fset_eq; simpl; (split; [done|lia])).
  - specialize (Bw h d (or_introl eq_refl)). repeat case_match; try done; simplify_eq; right; simpl; rewrite fset_eq; simpl; (split; [done|simpl in *; lia]).
  - specialize (Bw h d (or_intror eq_refl)). destruct (wake_one _ _ _ _ _) as [s1|] eqn:Hwk; [|done]. injection Hs as <- <-.
    right. simpl. rewrite fset_eq. simpl. split; [done|lia].
  - injection Hs as <- <-. left. set_solver.
Qed.

(** The worker will not (again) go to sleep before it looks at its queue. *)
Definition alert (w : nat) (s : st) : Prop :=
  match pc s w with WStop k | WSub k | WAct k | WWait k | WBlocked k => k <> epoch s (dom w) | _ => True end.

Lemma worker_queue w c s s' tr j : binv s -> worker w c s = Next s' tr -> j ∈ q s w -> alert w s ->
  (exists h, hof (pc s' w) = Some h /\ j ∈ h) \/ exiting (pc s' w) \/
  (q s' w = q s w /\ alert w s' /\ rk (pc s' w) < rk (pc s w)).
Proof.
  intros B Hs Hj Ha. pose proof (B w) as Bw. unfold alert in Ha. unfold LazyModel.worker, ret, notify, unregister, thief_sub in Hs.
  destruct (pc s w) eqn:Hp; try done.
  all: try (repeat case_match; try done; simplify_eq; right; unfold alert; simpl; rewrite !fset_eq; simpl; try (by left); right; (split_and!; [done|done|lia])).
  all: try (destruct (q s w) as [|j0 js] eqn:Hq; [by apply elem_of_nil in Hj|]; injection Hs as <- <-; left; simpl; rewrite fset_eq; simpl; eauto; fail).
  - destruct (wake_one _ _ _ _ _) as [s1|] eqn:Hwk; [|done]. injection Hs as <- <-. right. right. unfold alert. simpl. rewrite fset_eq. simpl.
    apply wake_one_classes in Hwk as (_ & _ & _ & _ & _ & _ & _ & Eq & _). split_and!; [by rewrite Eq|done|lia].
  - right. right. specialize (Bw h d (or_introl eq_refl)). repeat case_match; try done; simplify_eq; unfold alert; simpl; rewrite !fset_eq; simpl; (split_and!; [done|done|lia]).
  - right. right. specialize (Bw h d (or_intror eq_refl)). destruct (wake_one _ _ _ _ _) as [s1|] eqn:Hwk; [|done]. injection Hs as <- <-.
    unfold alert. simpl. rewrite fset_eq. simpl. apply wake_one_classes in Hwk as (_ & _ & _ & _ & _ & _ & _ & Eq & _). split_and!; [by rewrite Eq|done|lia].
Qed.

Context (sg : nat -> st) (l : nat -> option lab) (HF : fair n nd dom sg l).
Notation emits := (emits step sg l).
Notation acts := (acts n nd dom sg l).
Notation tick := (tick n nd dom sg l HF).
Notation run_inv := (run_inv n nd dom sg l HF).
Notation run_binv := (run_binv n nd dom sg l HF).
Notation worker_acts := (worker_acts n nd dom sg l HF).

(** A worker that cannot be stuck at its pc makes its step from there. *)
Lemma acts_at w i p : w < n -> pc (sg i) w = p -> (forall k, p <> WBlocked k) -> p <> XLatch -> p <> XDone ->
  exists j, i <= j /\ pc (sg j) w = p /\ acts w j.
Proof.
  intros Hw Hp H1 H2 H3. destruct (worker_acts w i (fun k => pc (sg k) w = p) (fun _ => False)) as (j & Hj & [[]|[HR HX]]); eauto.
  - intros k Hk HR [(key & E)|[[E _]|E]]; rewrite HR in E; [by eapply H1|by apply H2|by apply H3].
  - intros k Hk HR. split.
    + intros x tr Hl Hn Hs. left. destruct (other_pc n nd dom w x _ _ _ Hs Hn) as [E|(key & E & _)]; [congruence|].
      rewrite HR in E. by destruct (H1 key).
    + intros E. left. by rewrite E.
Qed.

Lemma handle_runs w h : w < n -> forall r i, rk (pc (sg i) w) <= r -> hof (pc (sg i) w) = Some h -> exists k, i <= k /\ emits k (EvRun w h).
Proof.
  intros Hw. induction r as [|r IH]; intros i Hr Hh.
  - destruct (pc (sg i) w); simpl in *; try done; lia.
  - destruct (acts_at w i (pc (sg i) w) Hw eq_refl) as (j & Hj & Hp & (c & tr & Hl & Hs)); [intros k E; by rewrite E in Hh|intros E; by rewrite E in Hh..|].
    rewrite <- Hp in Hh, Hr. destruct (worker_handle w c _ _ _ h (run_binv j) Hs Hh) as [He|[Hh' Hr']].
    + exists j. split; [done|]. exists (LWorker w c), tr. split; [done|]. split; [|done]. simpl. by rewrite decide_True.
    + destruct (IH (j + 1)) as (k & Hk & He); [lia|done|]. exists k. split; [lia|done].
Qed.

Lemma key_le i w k : w < n -> keyof (pc (sg i) w) = Some k -> k <= epoch (sg i) (dom w).
Proof. intros Hw Hk. destruct (run_inv i) as [C _]. by eapply ci_key. Qed.

(** Others do not disturb an alert worker's progress. *)
Lemma other_alert w x i tr : w < n -> notw w x -> step x (sg i) = Next (sg (i + 1)) tr -> alert w (sg i) -> alert w (sg (i + 1)).
Proof.
  intros Hw Hn Hs Ha. unfold alert in *. pose proof (epoch_mono n nd dom x _ _ _ (dom w) Hs) as He.
  pose proof (key_le i w) as Hk.
  destruct (other_pc n nd dom w x _ _ _ Hs Hn) as [E|(k & E & E')].
  - rewrite E. destruct (pc (sg i) w); try done; specialize (Hk _ Hw eq_refl); lia.
  - rewrite E'. rewrite E in Ha, Hk. specialize (Hk _ Hw eq_refl). lia.
Qed.

Lemma other_job w x i tr j : notw w x -> step x (sg i) = Next (sg (i + 1)) tr -> j ∈ q (sg i) w -> j ∈ q (sg (i + 1)) w.
Proof. intros Hn Hs Hj. destruct (other_q n nd dom w x _ _ _ Hs Hn) as [E|(j' & E & _)]; rewrite E; [done|]. apply elem_of_app. by left. Qed.

(** A submitting thread makes its next step. *)
Lemma agent_acts a i (R G : nat -> Prop) :
  R i -> (forall k, i <= k -> R k -> ag (sg k) a <> AIdle) ->
  (forall k, i <= k -> R k -> (forall x tr, l k = Some x -> nota a x -> step x (sg k) = Next (sg (k + 1)) tr -> R (k + 1) \/ G (k + 1)) /\
                   (sg (k + 1) = sg k -> R (k + 1) \/ G (k + 1))) ->
  exists j, i <= j /\ (G j \/ (R j /\ exists w x tr, l j = Some (LAgent a w x) /\ agent n dom a w x (sg j) = Next (sg (j + 1)) tr)).
Proof.
  intros HR Hni Hoth.
  destruct (until R G (fun k => exists w x tr, l k = Some (LAgent a w x) /\ agent n dom a w x (sg k) = Next (sg (k + 1)) tr) i) as (j & Hj & H); [..|by eauto].
  - intros k Hk HRk. pose proof (run_step _ _ _ _ (fr_run _ _ _ _ _ HF) k) as Hs. destruct (l k) as [x|] eqn:Hl.
    + destruct Hs as [tr Hs]. assert ((exists w y, x = LAgent a w y) \/ nota a x) as [(w & y & ->)|Hn].
      { destruct x as [|b w y| |]; simpl; auto. destruct (decide (b = a)) as [->|]; eauto. }
      * left. exists w, y, tr. done.
      * right. by eapply (proj1 (Hoth k Hk HRk)).
    + right. by apply (proj2 (Hoth k Hk HRk)).
  - done.
  - destruct (fr_agent _ _ _ _ _ HF a i (Hni i ltac:(lia) HR)) as (j & w & x & Hj & Hl). exists j. split; [done|].
    pose proof (run_step _ _ _ _ (fr_run _ _ _ _ _ HF) j) as Hs. rewrite Hl in Hs. destruct Hs as [tr Hs]. exists w, x, tr. done.
Qed.

Definition taken (w j : nat) (k : nat) : Prop := exists h, hof (pc (sg k) w) = Some h /\ j ∈ h.
Definition gone (w j : nat) (k : nat) : Prop := taken w j k \/ stop (sg k) = true.

(** The job stays in the queue until the worker takes it. *)
Lemma job_tick w i j : w < n -> j ∈ q (sg i) w -> j ∈ q (sg (i + 1)) w \/ taken w j (i + 1).
Proof.
  intros Hw Hj. destruct (tick i w) as [(c & tr & Hl & Hs & Hst)|[(x & tr & Hl & Hn & Hs)|He]].
  - unfold LazyModel.worker, ret, notify, unregister, thief_sub in Hs.
    destruct (pc (sg i) w) eqn:Hp.
    all: try (left; repeat case_match; try done; simplify_eq;
      match goal with H : _ = ?f (_ + 1) |- _ => rewrite <- H end; simpl; rewrite ?fset_ne; done).
    all: try (destruct (q (sg i) w) as [|j0 js] eqn:Hq; [by apply elem_of_nil in Hj|]; injection Hs as Hs _; right; exists (j0 :: js);
      rewrite <- Hs; simpl; rewrite fset_eq; simpl; split; done).
    1,2: (left; destruct (wake_one _ _ _ _ _) as [s1|] eqn:Hwk; [|done]; injection Hs as Hs _; rewrite <- Hs; simpl;
      apply wake_one_classes in Hwk as (_ & _ & _ & _ & _ & _ & _ & Eq & _); by rewrite Eq).
  - left. by eapply other_job.
  - left. by rewrite He.
Qed.

Lemma exiting_stop w i : w < n -> exiting (pc (sg i) w) -> stop (sg i) = true.
Proof. intros Hw He. destruct (run_inv i) as (_ & F & _). apply (fi_stop _ _ _ _ F). left. eauto. Qed.

(** Blocked with a job and notified: a submitting thread is about to wake the worker. *)
Lemma unblocks w j i : w < n -> j ∈ q (sg i) w -> alert w (sg i) -> (exists k, pc (sg i) w = WBlocked k) ->
  exists k, i <= k /\ (gone w j k \/ (j ∈ q (sg k) w /\ alert w (sg k) /\ exists key, pc (sg k) w = WWait key)).
Proof.
  intros Hw Hj Ha [key Hb].
  set (R := fun k => j ∈ q (sg k) w /\ alert w (sg k) /\ exists key, pc (sg k) w = WBlocked key).
  set (G := fun k => j ∈ q (sg k) w /\ alert w (sg k) /\ exists key, pc (sg k) w = WWait key).
  assert (forall k x tr, R k -> notw w x -> step x (sg k) = Next (sg (k + 1)) tr -> R (k + 1) \/ G (k + 1)) as Hoth.
  { intros k x tr (HR1 & HR2 & key' & HR3) Hn Hs.
    pose proof (other_job w x k tr j Hn Hs HR1) as HJ. pose proof (other_alert w x k tr Hw Hn Hs HR2) as HA.
    destruct (other_pc n nd dom w x _ _ _ Hs Hn) as [E|(k' & E & E')]; [left|right]; (split_and!; [done|done|]).
    - exists key'. congruence.
    - exists k'. done. }
  assert (forall k, R k -> forall c tr, worker w c (sg k) <> Next (sg (k + 1)) tr) as Hnw.
  { intros k (_ & _ & key' & E) c tr. unfold LazyModel.worker. by rewrite E. }
  (* one agent's turn *)
  assert (forall a i x, R i -> ag (sg i) a = x -> x <> AIdle ->
    exists k, i <= k /\ (G k \/ (R k /\ ag (sg k) a = x /\ exists u y tr, l k = Some (LAgent a u y) /\ agent n dom a u y (sg k) = Next (sg (k + 1)) tr))) as Hag.
  { intros a i0 x HR Hx Hne.
    destruct (agent_acts a i0 (fun k => R k /\ ag (sg k) a = x) G) as (k & Hk & [HG|[[HRk Hxk] Hs]]); [done|..|by eauto|by eauto 10].
    - intros k _ [_ E]. by rewrite E.
    - intros k _ [HRk E]. split.
      + intros y tr Hl Hn Hs. assert (notw w y) as Hnw'.
        { destruct y as [u c| | |]; simpl; auto. intros ->. simpl in Hs. case_decide; [|done]. by eapply Hnw. }
        destruct (Hoth k y tr HRk Hnw' Hs) as [?|?]; [left|by right]. split; [done|]. rewrite (other_ag n nd dom a y _ _ _ Hs Hn). done.
      + intros E'. left. unfold R. by rewrite E'. }
  assert (forall i, R i -> (exists a, ag (sg i) a = AWake (dom w)) -> exists k, i <= k /\ G k) as Hwake.
  { intros i0 HR [a Hx]. destruct (Hag a i0 _ HR Hx) as (k & Hk & [HG|(HRk & Hxk & u & y & tr & Hl & Hs)]); [done|by eauto|].
    exists (k + 1). split; [lia|]. assert (step (LAgent a u y) (sg k) = Next (sg (k + 1)) tr) as Hst by done.
    destruct (Hoth k (LAgent a u y) tr HRk ltac:(done) Hst) as [(HR1 & HR2 & key' & E)|]; [|done]. exfalso.
    unfold agent, ret in Hs. rewrite Hxk in Hs. injection Hs as Hs _. rewrite <- Hs in E. simpl in E. rewrite decide_True in E by done.
    by destruct (pc (sg k) w). }
  assert (R i) as HR by (split_and!; eauto).
  destruct (run_inv i) as (_ & _ & J & _). destruct (J w Hw) as [_ J2]; [intros E; rewrite E in Hj; by apply elem_of_nil in Hj|].
  destruct (J2 key Hb) as [[a Hx]|[_ Hx]].
  - destruct (Hag a i _ HR Hx) as (k & Hk & [HG|(HRk & Hxk & u & y & tr & Hl & Hs)]); [done|by eauto|].
    assert (step (LAgent a u y) (sg k) = Next (sg (k + 1)) tr) as Hst by done.
    destruct (Hoth k (LAgent a u y) tr HRk ltac:(done) Hst) as [HR'|HG]; [|exists (k + 1); split; [lia|auto]].
    destruct (Hwake (k + 1) HR') as (k' & Hk' & HG); [|exists k'; split; [lia|auto]].
    exists a. unfold agent, ret, notify in Hs. rewrite Hxk in Hs. injection Hs as Hs _. rewrite <- Hs. simpl. rewrite fset_eq.
    destruct HRk as (_ & _ & key' & E). destruct (run_inv k) as (C & _).
    assert (0 < waiters (sg k) (dom w)) by (apply (reg_pos n dom w _ Hw C); by rewrite E). by rewrite bool_decide_false by lia.
  - destruct (Hwake i HR Hx) as (k & Hk & HG). eauto.
Qed.

(** From an alert state. *)
Lemma queue_taken w j : w < n -> forall r i, rk (pc (sg i) w) <= r -> j ∈ q (sg i) w -> alert w (sg i) -> exists k, i <= k /\ gone w j k.
Proof.
  intros Hw.
  assert (forall i, j ∈ q (sg i) w -> alert w (sg i) ->
            exists k, i <= k /\ (gone w j k \/ (j ∈ q (sg k) w /\ alert w (sg k) /\ rk (pc (sg k) w) < rk (pc (sg i) w)))) as Hstep.
  { intros i Hj Ha.
    assert ((exists k, pc (sg i) w = WBlocked k) \/ exiting (pc (sg i) w) \/
            (forall k, pc (sg i) w <> WBlocked k) /\ pc (sg i) w <> XLatch /\ pc (sg i) w <> XDone) as [Hb|[Hx|(H1 & H2 & H3)]].
    { destruct (pc (sg i) w); simpl; eauto; right; right; done. }
    - destruct (unblocks w j i Hw Hj Ha Hb) as (k & Hk & [Hg|(Hj' & Ha' & key & E)]); exists k; (split; [done|]); [by left|right].
      destruct Hb as [key' E']. rewrite E, E'. simpl. split_and!; [done|done|lia].
    - exists i. split; [lia|]. left. right. by eapply exiting_stop.
    - destruct (worker_acts w i (fun k => pc (sg k) w = pc (sg i) w /\ j ∈ q (sg k) w /\ alert w (sg k)) (fun _ => False)) as (k & Hk & [[]|[(Hp & Hjk & Hak) HX]]); [done|done|..].
      + intros k _ [E _] Hs. rewrite E in Hs. destruct Hs as [[key Hs]|[[Hs _]|Hs]]; [by eapply H1|done|done].
      + intros k _ (E & Hjk & Hak). split.
        * intros x tr _ Hn Hs. left. split_and!; [|by eapply other_job|by eapply other_alert].
          destruct (other_pc n nd dom w x _ _ _ Hs Hn) as [E'|(key & E' & _)]; [congruence|]. rewrite E in E'. by destruct (H1 key).
        * intros E'. left. by rewrite E'.
      + destruct HX as (c & tr & Hl & Hs). exists (k + 1). split; [lia|].
        destruct (worker_queue w c _ _ _ j (run_binv k) Hs Hjk Hak) as [Ht|[Hx|(Eq & Ha' & Hr)]].
        * left. by left.
        * left. right. by eapply exiting_stop.
        * right. rewrite Eq. rewrite Hp in Hr. done. }
  induction r as [r IH] using lt_wf_ind. intros i Hr Hj Ha.
  destruct (Hstep i Hj Ha) as (k & Hk & [Hg|(Hj' & Ha' & Hr')]); [by eauto|].
  destruct (IH (rk (pc (sg k) w)) ltac:(lia) k ltac:(lia) Hj' Ha') as (k' & Hk' & Hg). exists k'. split; [lia|done].
Qed.

(** A worker with a job becomes alert. *)
Lemma becomes_alert w j i : w < n -> j ∈ q (sg i) w -> exists k, i <= k /\ (gone w j k \/ (j ∈ q (sg k) w /\ alert w (sg k))).
Proof.
  intros Hw Hj.
  assert (alert w (sg i) \/ exists a, ag (sg i) a = APushed w) as [Ha|[a Hx]]; [|by eauto|].
  { destruct (run_inv i) as (_ & _ & J & _). destruct (J w Hw) as [J1 J2]; [intros E; rewrite E in Hj; by apply elem_of_nil in Hj|].
    unfold alert. destruct (pc (sg i) w) eqn:Hp; try (by left); try (by apply J1). destruct (J2 k eq_refl) as [?|[? _]]; auto. }
  destruct (agent_acts a i (fun k => j ∈ q (sg k) w /\ ag (sg k) a = APushed w) (taken w j)) as (k & Hk & [HG|[[Hjk Hxk] (u & y & tr & Hl & Hs)]]); [done|..].
  - intros k _ [_ E]. by rewrite E.
  - intros k _ [Hjk E]. split.
    + intros x tr Hl Hn Hs. destruct (job_tick w k j Hw Hjk) as [?|?]; [left|by right]. split; [done|]. by rewrite (other_ag n nd dom a x _ _ _ Hs Hn).
    + intros E'. left. by rewrite E'.
  - exists k. split; [done|left; by left].
  - exists (k + 1). split; [lia|]. right. unfold agent, ret, notify in Hs. rewrite Hxk in Hs. injection Hs as Hs _. rewrite <- Hs. simpl.
    split; [done|]. unfold alert. simpl. rewrite fset_eq. pose proof (key_le k w) as Hkl.
    destruct (pc (sg k) w); try done; specialize (Hkl _ Hw eq_refl); lia.
Qed.

Theorem job_runs w j i : w < n -> j ∈ q (sg i) w -> exists k, i <= k /\ ((exists h, emits k (EvRun w h) /\ j ∈ h) \/ stop (sg k) = true).
Proof.
  intros Hw Hj. destruct (becomes_alert w j i Hw Hj) as (k & Hk & Hg).
  assert (exists k', k <= k' /\ gone w j k') as (k' & Hk' & [(h & Hh & Hjh)|Hst]).
  { destruct Hg as [Hg|[Hjk Ha]]; [by eauto|]. by eapply queue_taken. }
  - destruct (handle_runs w h Hw _ k' (le_n _) Hh) as (k2 & Hk2 & He). exists k2. split; [lia|]. left. eauto.
  - exists k'. split; [lia|by right].
Qed.
End Live.
