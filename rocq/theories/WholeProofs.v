(** * Programs on lazy_pool: fair executions of the whole are fair executions of its parts. *)

From stdpp Require Import prelude gmap list.
From Coq Require Import NArith Lia.
From Verif Require Import PoolCommon PoolFair LazyModel LazyProofs LazyInv LazyThief LazySpec LazyLive LazyLive2 LazyLive3 WholeModel WholeSpec WholeInv WholeEsc.
From Verif Require RuntimeModel RuntimeSpec RuntimeInv RuntimeSafe RuntimeHist4 RuntimeThms RuntimeTermSpec RuntimeTerm3 WholeRt Prop_Term.

Section Proofs.
Context (n nd : nat) (dom : nat -> nat) (af : bool).
Notation winv := (winv n nd dom af).
Notation whole_step := (whole_step n nd dom).
Notation legal := (legal n af).

(** ** Single steps *)

Lemma worker_at x w : winv x -> w < n -> exists wk, rworkers (rt x) !! w = Some wk.
Proof. intros I Hw. apply lookup_lt_is_Some. by rewrite (wi_len _ _ _ _ _ I). Qed.

(** The step of the runtime that belongs to a step of a worker is possible. *)
Lemma take_enabled x w : winv x -> w < n -> hof (pc (pool x) w) = None -> q (pool x) w <> [] ->
  exists r', rstep (RuntimeModel.LTake w) (rt x) = RuntimeModel.Next r' [].
Proof.
  intros I Hw Hh Hq. destruct (worker_at x w I Hw) as (wk & Hk). pose proof (wi_q _ _ _ _ _ I w wk Hk) as Eq.
  pose proof (wi_agree _ _ _ _ _ I w wk Hk) as Ha. assert (RuntimeModel.w_pc wk = RuntimeModel.PIdle /\ RuntimeModel.w_batch wk = []) as [E1 E2].
  { unfold agree in Ha. destruct (pc (pool x) w); simpl in Hh; try done. }
  simpl. unfold RuntimeModel.take. rewrite Hk, E1, E2. destruct (RuntimeModel.w_inbox wk); simpl in Eq; [by rewrite <- Eq in Hq|]. eauto.
Qed.

Lemma move_in_range x w fail r' tr d f : winv x -> RuntimeModel.wstep w fail (rt x) = RuntimeModel.Next r' tr -> moving (rt x) w = Some (d, f) -> d < n.
Proof.
  intros I Hs Hm. destruct (rworkers (rt x) !! w) as [wk|] eqn:Hk; [|unfold moving in Hm; by rewrite Hk in Hm].
  destruct (WholeRt.wstep_workers w fail _ _ _ wk Hk Hs) as (w' & _ & E). rewrite Hm in E. destruct E as (wd & Hd & _).
  apply lookup_lt_Some in Hd. rewrite insert_length in Hd. by rewrite (wi_len _ _ _ _ _ I) in Hd.
Qed.

(** A worker at the point of resuming with something left to resume. *)
Lemma work_next x w c v fail h : winv x -> ag (pool x) w = AIdle -> pc (pool x) w = TRun h -> resting (rt x) w = false -> (fail = true -> af = true) ->
  exists x', whole_step (XWorker w c v fail) x = WNext x'.
Proof.
  intros I Ha Hp Hr Hf. destruct (WholeRt.work_enabled n af _ _ w fail (wi_rt _ _ _ _ _ I) Hf Hr) as (r' & tr & E).
  unfold WholeModel.whole_step. simpl. rewrite Ha, Hp, Hr. destruct (moving (rt x) w) as [[d f]|] eqn:Em; simpl; rewrite E; [|eauto].
  unfold agent. rewrite Ha, decide_True by (by eapply move_in_range). eauto.
Qed.

(** A worker thread that cannot make a step in the whole is stuck in the pool. *)
Lemma blocked_stuck x w : winv x -> w < n ->
  (forall c v fail, legal (XWorker w c v fail) -> whole_step (XWorker w c v fail) x = WBlock) ->
  ag (pool x) w = AIdle /\ stuck n nd dom w (pool x).
Proof.
  intros I Hw Hb. assert (forall c v, whole_step (XWorker w c v false) x = WBlock) as Hb' by (intros c v; by apply Hb). clear Hb.
  assert (ag (pool x) w = AIdle) as Ha.
  { specialize (Hb' (Choice false None) 0). unfold WholeModel.whole_step in Hb'. simpl in Hb'. destruct (ag (pool x) w) eqn:Ha; [done|..];
      simpl in Hb'; unfold agent, ret, notify in Hb'; by rewrite Ha in Hb'. }
  split; [done|]. intros l [c ->]. pose proof (Hb' c 0) as Hc. unfold WholeModel.whole_step in Hc. simpl in Hc. rewrite Ha in Hc.
  assert (rt_part None (rt x) = RuntimeModel.Next (rt x) []) as En by done.
  destruct (pc (pool x) w) eqn:Hp.
  all: try (simpl in Hc; simpl; destruct (decide (w < n)); [|done]; destruct (LazyModel.worker n nd dom w c (pool x)); done).
  - destruct (q (pool x) w) as [|j js] eqn:Hq.
    + simpl in Hc; simpl; destruct (decide (w < n)); [|done]; destruct (LazyModel.worker n nd dom w c (pool x)); done.
    + exfalso. destruct (take_enabled x w I Hw) as (r' & E); [by rewrite Hp|by rewrite Hq|]. cbn [pool_part rt_part] in Hc. rewrite E in Hc.
      simpl in Hc. rewrite decide_True in Hc by done. unfold LazyModel.worker in Hc. by rewrite Hp, Hq in Hc.
  - exfalso. specialize (Hb' (Choice false None) 0). unfold WholeModel.whole_step in Hb'. simpl in Hb'. rewrite Ha, Hp in Hb'. simpl in Hb'.
    rewrite decide_True in Hb' by done. unfold LazyModel.worker in Hb'. by rewrite Hp in Hb'.
  - destruct (q (pool x) w) as [|j js] eqn:Hq.
    + simpl in Hc; simpl; destruct (decide (w < n)); [|done]; destruct (LazyModel.worker n nd dom w c (pool x)); done.
    + exfalso. destruct (take_enabled x w I Hw) as (r' & E); [by rewrite Hp|by rewrite Hq|]. cbn [pool_part rt_part] in Hc. rewrite E in Hc.
      simpl in Hc. rewrite decide_True in Hc by done. unfold LazyModel.worker in Hc. by rewrite Hp, Hq in Hc.
  - destruct (resting (rt x) w) eqn:Hr.
    + simpl in Hc; simpl; destruct (decide (w < n)); [|done]; destruct (LazyModel.worker n nd dom w c (pool x)); done.
    + exfalso. destruct (work_next x w c 0 false h I Ha Hp Hr) as (x' & E); [done|]. by rewrite Hb' in E.
Qed.

(** No step of the whole is undefined. *)
Lemma step_defined l x : winv x -> legal l -> whole_step l x <> WUndef.
Proof.
  intros I Hl. unfold WholeModel.whole_step. destruct (parts n l x) as [[pl rl]|] eqn:Hp; [|done].
  assert (pool_part n nd dom pl (pool x) <> Undef) as H1.
  { destruct pl as [pl|]; [|done]. destruct (wi_pool _ _ _ _ _ I) as [h Hh]. simpl. apply LazyProofs.step_defined. by apply (reach_all n nd dom _ h). }
  assert (rt_part rl (rt x) <> RuntimeModel.Undef) as H2.
  { destruct rl as [rl|]; [|done]. simpl. eapply RuntimeSafe.reach_safe; [apply (wi_rt _ _ _ _ _ I)|by eapply parts_allowed]. }
  by destruct (pool_part n nd dom pl (pool x)), (rt_part rl (rt x)).
Qed.

(** ** Executions *)

Context (sg : nat -> whole) (l : nat -> option wlab) (HW : wfair n nd dom af sg l).

Definition pl (k : nat) : option lab := match l k with Some x => match parts n x (sg k) with Some (p, _) => p | None => None end | None => None end.
Definition rl (k : nat) : option RuntimeModel.label := match l k with Some x => match parts n x (sg k) with Some (_, r) => r | None => None end | None => None end.
Notation psg := (fun k => pool (sg k)).
Definition Esc (k : nat) : Prop := rl k <> None.

Lemma whole_tick k : (exists trp, pool_part n nd dom (pl k) (pool (sg k)) = Next (pool (sg (k + 1))) trp) /\
  (exists tr, rt_part (rl k) (rt (sg k)) = RuntimeModel.Next (rt (sg (k + 1))) tr /\ hist (sg (k + 1)) = rev tr ++ hist (sg k)) /\
  (forall r, rl k = Some r -> RuntimeSpec.allowed n af r).
Proof.
  pose proof (wr_step _ _ _ _ _ _ (wf_run _ _ _ _ _ _ HW) k) as Hs. unfold pl, rl. destruct (l k) as [x|].
  - destruct Hs as [Hl Hs]. apply step_inv in Hs as (p & r & trp & tr & Hp & H1 & H2 & H3). rewrite Hp. split_and!; [eauto|eauto|].
    intros r0 ->. by eapply parts_allowed.
  - rewrite Hs. split_and!; [by eexists|by eexists|done].
Qed.

Lemma run_winv k : winv (sg k).
Proof.
  induction k as [|k IH]; [rewrite (wr_init _ _ _ _ _ _ (wf_run _ _ _ _ _ _ HW)); apply winv_init|].
  pose proof (wr_step _ _ _ _ _ _ (wf_run _ _ _ _ _ _ HW) k) as Hs. rewrite Nat.add_1_r in Hs. destruct (l k) as [x|].
  - destruct Hs as [Hl Hs]. by eapply step_winv.
  - by rewrite Hs.
Qed.

Lemma pool_run : run (LazyModel.step n nd dom) init psg pl.
Proof.
  split; [by rewrite (wr_init _ _ _ _ _ _ (wf_run _ _ _ _ _ _ HW))|]. intros k. destruct (whole_tick k) as [[trp H] _].
  destruct (pl k); simpl in H; [by eauto|]. by injection H.
Qed.

Lemma esc_dec k : Esc k \/ rl k = None.
Proof. unfold Esc. destruct (rl k); [by left|by right]. Qed.
Lemma esc_same k : rl k = None -> rt (sg (k + 1)) = rt (sg k) /\ hist (sg (k + 1)) = hist (sg k).
Proof. intros E. destruct (whole_tick k) as (_ & (tr & H & H') & _). rewrite E in H. simpl in H. injection H as H <-. done. Qed.
Lemma esc_or i j : i <= j -> (exists m, i <= m /\ Esc m) \/ rt (sg j) = rt (sg i) /\ hist (sg j) = hist (sg i).
Proof.
  induction 1 as [|j Hij IH]; [by right|]. destruct IH as [?|[E1 E2]]; [by left|].
  destruct (esc_dec j) as [He|He]; [left; by exists j|]. right. apply esc_same in He as [F1 F2]. rewrite Nat.add_1_r in F1, F2. split; congruence.
Qed.

(** A worker thread's next step, or it is stuck. *)
Definition turn (w k : nat) : Prop := (exists c v fail, l k = Some (XWorker w c v fail)) \/ stuck n nd dom w (pool (sg k)) /\ ag (pool (sg k)) w = AIdle.

Lemma own_agent w k : w < n -> (forall c v fail, l k <> Some (XWorker w c v fail)) -> ag (pool (sg (k + 1))) w = ag (pool (sg k)) w.
Proof.
  intros Hw Hn. destruct (whole_tick k) as [[trp H] _].
  assert (forall x, pl k = Some x -> nota w x) as Hx.
  { intros x Hx. unfold pl in Hx. destruct (l k) as [y|]; [|done]. destruct y as [u c v fail|a d t| |u|u]; simpl in Hx.
    - assert (u <> w) by (intros ->; by eapply Hn). destruct (ag (pool (sg k)) u); [|by injection Hx as <-..].
      destruct (pc (pool (sg k)) u); try (by injection Hx as <-). destruct (resting (rt (sg k)) u); [by injection Hx as <-|].
      destruct (moving (rt (sg k)) u) as [[d f]|]; [|done]. by injection Hx as <-.
    - case_decide; [done|]. destruct (ag (pool (sg k)) a); injection Hx as <-; simpl; lia.
    - by injection Hx as <-.
    - by injection Hx as <-.
    - by destruct (ag (pool (sg k)) u), (pc (pool (sg k)) u). }
  destruct (pl k) as [x|]; simpl in H; [|by injection H as ->]. eapply other_ag; [exact H|by apply Hx].
Qed.

Lemma label_dec w k : (exists c v fail, l k = Some (XWorker w c v fail)) \/ (forall c v fail, l k <> Some (XWorker w c v fail)).
Proof. destruct (l k) as [[u c v fail| | | |]|]; try (by right). destruct (decide (u = w)) as [->|]; [left; eauto|right]. intros ??? [=]. done. Qed.

Lemma next_turn w i : w < n -> exists j, i <= j /\ ag (pool (sg j)) w = ag (pool (sg i)) w /\ turn w j.
Proof.
  intros Hw. destruct (until (fun k => ag (pool (sg k)) w = ag (pool (sg i)) w) (fun _ => False) (turn w) i) as (j & Hj & [[]|[HR HX]]); [..|by eauto].
  - intros k Hk HR. destruct (label_dec w k) as [?|Hn]; [left; by left|]. right. left. by rewrite own_agent.
  - done.
  - destruct (wf_worker _ _ _ _ _ _ HW w i Hw) as (j & Hj & [?|Hb]); exists j; (split; [done|]); [by left|right].
    destruct (blocked_stuck (sg j) w (run_winv j) Hw Hb). done.
Qed.

Definition ar (p : apc) : nat := match p with AIdle => 0 | AWake _ => 1 | APushed _ => 2 end.

Lemma own_pl w k c v fail : l k = Some (XWorker w c v fail) ->
  (ag (pool (sg k)) w = AIdle /\ (Esc k \/ exists c, pl k = Some (LWorker w c))) \/
  (pl k = Some (LAgent w 0 0) /\ ag (pool (sg k)) w <> AIdle).
Proof.
  intros Hl. unfold Esc, pl, rl. rewrite Hl. simpl. destruct (ag (pool (sg k)) w); [left|right; done..]. split; [done|].
  destruct (pc (pool (sg k)) w); try (right; by eauto). destruct (resting (rt (sg k)) w); [right; by eauto|by left].
Qed.

Lemma agent_down w k : pl k = Some (LAgent w 0 0) -> ag (pool (sg k)) w <> AIdle -> ar (ag (pool (sg (k + 1))) w) < ar (ag (pool (sg k)) w).
Proof.
  intros Hp Hne. destruct (whole_tick k) as [[trp H] _]. rewrite Hp in H. simpl in H. unfold agent, ret, notify in H.
  destruct (ag (pool (sg k)) w) eqn:Ha; [done|..]; injection H as H _; rewrite <- H; simpl; rewrite fset_eq; [|simpl; lia]. case_bool_decide; simpl; lia.
Qed.

Lemma worker_fair w i : w < n -> exists j, i <= j /\ (Esc j \/ (exists c, pl j = Some (LWorker w c)) \/ stuck n nd dom w (pool (sg j))).
Proof.
  intros Hw. remember (ar (ag (pool (sg i)) w)) as r eqn:Hr. revert i Hr. induction r as [r IH] using lt_wf_ind. intros i ->.
  destruct (next_turn w i Hw) as (j & Hj & Ea & [(c & v & fail & Hl)|[Hst _]]); [|exists j; auto].
  destruct (own_pl w j c v fail Hl) as [[_ [?|?]]|[Hp Hne]]; [exists j; auto..|].
  pose proof (agent_down w j Hp Hne) as Hd. rewrite Ea in Hd. destruct (IH _ Hd (j + 1) eq_refl) as (k & Hk & H). exists k. split; [lia|done].
Qed.

Lemma agent_fair a i : ag (pool (sg i)) a <> AIdle -> exists j w k, i <= j /\ pl j = Some (LAgent a w k).
Proof.
  intros Hne. destruct (decide (a < n)) as [Ha|Ha].
  - destruct (next_turn a i Ha) as (j & Hj & Ea & [(c & v & fail & Hl)|[_ Hi]]); [|congruence].
    destruct (own_pl a j c v fail Hl) as [[? _]|[Hp _]]; [congruence|]. eauto.
  - destruct (wf_client _ _ _ _ _ _ HW a i ltac:(lia) Hne) as (j & d & t & Hj & Hl). exists j. unfold pl. rewrite Hl. simpl.
    rewrite decide_False by done. destruct (ag (pool (sg j)) a); eauto.
Qed.

Lemma pop_escapes w i c : pl i = Some (LWorker w c) -> pops (pc (pool (sg i)) w) -> q (pool (sg i)) w <> [] -> Esc i.
Proof.
  unfold Esc, pl, rl. intros Hp Hpop Hq. destruct (l i) as [y|]; [|done]. destruct y as [u c' v fail|a d t| |u|u]; simpl in Hp |- *; [..|done|done|by destruct (ag (pool (sg i)) u), (pc (pool (sg i)) u)].
  - destruct (ag (pool (sg i)) u); [|done..]. assert (u = w) as ->.
    { destruct (pc (pool (sg i)) u); try (by injection Hp). destruct (resting (rt (sg i)) u); [by injection Hp|]. by destruct (moving (rt (sg i)) u) as [[??]|]. }
    destruct (pc (pool (sg i)) w); try done; by destruct (q (pool (sg i)) w).
  - case_decide; [done|]. by destruct (ag (pool (sg i)) a).
Qed.

Theorem pool_fairE : fairE n nd dom Esc psg pl.
Proof. split; [apply pool_run|intros; by apply worker_fair|intros w i c; apply pop_escapes|intros a i; apply agent_fair]. Qed.

(** ** The runtime moves while it can *)

Lemma agree_active k w wk : rworkers (rt (sg k)) !! w = Some wk -> resting (rt (sg k)) w = false -> exists h, hof (pc (pool (sg k)) w) = Some h.
Proof.
  intros Hw Hr. pose proof (wi_agree _ _ _ _ _ (run_winv k) w wk Hw) as Ha. unfold agree in Ha.
  destruct (hof (pc (pool (sg k)) w)) as [h|] eqn:Hh; [by exists h|]. exfalso.
  assert (RuntimeModel.w_pc wk = RuntimeModel.PIdle /\ RuntimeModel.w_batch wk = []) as E by (by destruct (pc (pool (sg k)) w)).
  apply (WholeRt.resting_spec _ _ _ Hw) in E. congruence.
Qed.

Lemma active_escapes k w : w < n -> resting (rt (sg k)) w = false -> exists j, k <= j /\ Esc j.
Proof.
  intros Hw Hr. destruct (worker_at _ w (run_winv k) Hw) as (wk & Hk). destruct (agree_active k w wk Hk Hr) as (h & Hh).
  destruct (handle_arrives n nd dom Esc _ _ pool_fairE w h Hw _ k (le_n _) Hh) as (k1 & Hk1 & [He|Hrun]); [by eauto|].
  destruct (esc_or k k1 Hk1) as [(m & Hm & He)|[E1 _]]; [by eauto|].
  destruct (acts_at n nd dom Esc _ _ pool_fairE w k1 (TRun h) Hw Hrun) as (j & Hj & [He|[Hp (c & tr & Hl & Hs)]]); [done..|exists j; split; [lia|done]|].
  destruct (esc_or k j) as [(m & Hm & He)|[E2 _]]; [lia|by eauto|]. exists j. split; [lia|].
  unfold Esc, pl, rl in *. destruct (l j) as [y|]; [|done]. destruct y as [u c' v fail|a d t| |u|u]; simpl in Hl |- *; [..|done|done|by destruct (ag (pool (sg j)) u), (pc (pool (sg j)) u)].
  - destruct (ag (pool (sg j)) u); [|done..]. assert (u = w) as ->.
    { destruct (pc (pool (sg j)) u); try (by injection Hl). destruct (resting (rt (sg j)) u); [by injection Hl|]. by destruct (moving (rt (sg j)) u) as [[??]|]. }
    rewrite Hp, E2, Hr. done.
  - case_decide; [done|]. by destruct (ag (pool (sg j)) a).
Qed.

Lemma waiting_escapes k w : w < n -> WholeRt.waiting (rt (sg k)) w -> exists j, k <= j /\ (Esc j \/ stop (pool (sg j)) = true).
Proof.
  intros Hw (wk & f & Hk & Hf). pose proof (wi_q _ _ _ _ _ (run_winv k) w wk Hk) as Hq.
  apply (job_taken n nd dom Esc _ _ pool_fairE w (N.to_nat f) k Hw). rewrite <- Hq. apply elem_of_list_fmap. by exists f.
Qed.

(** The pool is stopped only by its destructor. *)
Lemma stop_dtor k : stop (pool (sg k)) = true -> dt (pool (sg k)) <> DIdle.
Proof.
  induction k as [|k IH]; [by rewrite (wr_init _ _ _ _ _ _ (wf_run _ _ _ _ _ _ HW))|]. destruct (whole_tick k) as [[trp H] _]. rewrite Nat.add_1_r in H.
  intros Hst. destruct (pl k) as [x|]; simpl in H; [|injection H as H _; rewrite <- H in *; by apply IH].
  assert (x = LDtor \/ x <> LDtor) as [->|Hx] by (destruct x; auto; right; done).
  - simpl in H. unfold destructor, ret, notify in H. destruct (dt (pool (sg k))); repeat case_match; try done; injection H as H _; by rewrite <- H.
  - rewrite (other_dt n nd dom x _ _ _ H Hx). apply IH. destruct (stop (pool (sg k))) eqn:Hs; [done|]. exfalso.
    destruct (wi_pool _ _ _ _ _ (run_winv k)) as [h Hh]. destruct (reach_all n nd dom _ _ Hh) as (_ & F & _).
    assert (forall w, w < n -> ~ exiting (pc (pool (sg k)) w)) as Hne.
    { intros w Hw He. rewrite (fi_stop _ _ _ _ F) in Hs; [done|]. left. eauto. }
    destruct x as [w c|a w j| |w]; simpl in H; [|..|done|].
    + case_decide as Hw; [|done]. unfold LazyModel.worker, ret, notify, unregister, thief_sub in H. specialize (Hne w Hw).
      destruct (pc (pool (sg k)) w) eqn:Hp; try (by destruct Hne).
      all: try (repeat case_match; try done; simplify_eq; match goal with E : _ = pool (sg (S _)) |- _ => rewrite <- E in Hst end; simpl in Hst; congruence).
      all: destruct (wake_one _ _ _ _ _) as [s1|] eqn:Hwk; [|done]; injection H as H _; rewrite <- H in Hst; simpl in Hst;
        apply wake_one_classes in Hwk as (_ & _ & _ & _ & _ & _ & Es & _); congruence.
    + unfold agent, ret, notify in H. repeat case_match; try done; injection H as H _; rewrite <- H in Hst; simpl in Hst; congruence.
    + case_decide; [|done]. unfold spurious, ret in H. repeat case_match; try done; injection H as H _; rewrite <- H in Hst; simpl in Hst; congruence.
Qed.

(** ** Used as documented *)

Context (N : nat) (HP : proper N sg l).

Definition obs (k : nat) : RuntimeModel.state * list RuntimeModel.event := (rt (sg (N + k)), hist (sg (N + k))).

Lemma no_spawn k r : N <= k -> rl k = Some r -> forall d t, r <> RuntimeModel.LSpawn d t.
Proof.
  unfold rl. intros Hk Hr d t ->. destruct (l k) as [y|] eqn:Hl; [|done]. destruct y as [u c v fail|a d' t'| |u|u]; simpl in Hr; [..|done|done|by destruct (ag (pool (sg k)) u), (pc (pool (sg k)) u)].
  - destruct (ag (pool (sg k)) u); [|done..]. repeat case_match; congruence.
  - case_decide; [done|]. pose proof (pr_end _ _ _ HP k a d' t' Hk Hl) as Hne. by destruct (ag (pool (sg k)) a).
Qed.

Lemma obs_step k : obs (S k) = obs k /\ rl (N + k) = None \/ RuntimeTermSpec.moves n af (obs k) (obs (S k)) /\ Esc (N + k).
Proof.
  unfold obs. replace (N + S k) with (N + k + 1) by lia. destruct (esc_dec (N + k)) as [He|He].
  - right. split; [|done]. destruct (whole_tick (N + k)) as (_ & (tr & H & H') & HA). unfold Esc in He. destruct (rl (N + k)) as [r|] eqn:Hr; [|done].
    exists r, tr. simpl in *. split_and!; [by apply HA|apply (no_spawn (N + k) r); [lia|done]|done|done].
  - left. apply esc_same in He as HE. destruct HE as [-> ->]. done.
Qed.

Lemma moves_at j : N <= j -> Esc j -> RuntimeTermSpec.moves n af (obs (j - N)) (obs (S (j - N))).
Proof.
  intros Hj He. destruct (obs_step (j - N)) as [[_ E]|[? _]]; [|done]. unfold Esc in He. by replace (N + (j - N)) with j in E by lia.
Qed.

Lemma obs_lasting : RuntimeTermSpec.lasting n af obs.
Proof.
  split.
  - intros k. destruct (obs_step k) as [[-> _]|[? _]]; auto.
  - intros k Hc. assert (exists j, N + k <= j /\ Esc j) as (j & Hj & He).
    { pose proof (wi_rt _ _ _ _ _ (run_winv (N + k))) as HR.
      destruct (WholeRt.can_move_who _ _ _ _ HR Hc) as (w & Hw & [Hr|Hwait]); [by apply (active_escapes _ w)|].
      destruct (waiting_escapes (N + k) w Hw Hwait) as (j & Hj & [He|Hst]); [by eauto|].
      destruct (esc_or (N + k) j Hj) as [?|[E1 E2]]; [done|]. exfalso. apply stop_dtor in Hst.
      eapply (WholeRt.done_waiting n af (rt (sg (N + k))) (hist (sg (N + k)))); [exact HR| |exact Hwait].
      intros f t H1 H2. rewrite <- E2 in *. apply (pr_dtor _ _ _ HP j f t Hst). done. }
    exists (j - N). split; [lia|]. apply moves_at; [lia|done].
Qed.

Lemma obs_reach : RuntimeSpec.reach n af (obs 0).1 (obs 0).2.
Proof. apply (wi_rt _ _ _ _ _ (run_winv (N + 0))). Qed.

Context (HT : all_terminate af sg).

(** The runtime comes to rest. *)
Lemma comes_to_rest : exists K, N <= K /\ forall m, K <= m -> rl m = None /\ RuntimeModel.s_frames (rt (sg m)) = ∅.
Proof.
  destruct (WholeRt.run_rests n af obs 0 obs_lasting obs_reach) as (k & _ & Hc).
  { apply RuntimeTerm3.moves_acc; [apply obs_reach|]. intros f t H1 H2. by apply (HT (N + 0) f t). }
  pose proof (WholeRt.rests_forever n af obs k obs_lasting obs_reach Hc) as Hf.
  exists (N + k). split; [lia|]. intros m Hm. split.
  - destruct (obs_step (m - N)) as [[_ E]|[Hmv _]]; [by replace (N + (m - N)) with m in E by lia|]. exfalso.
    eapply (WholeRt.stuck_moves n af (obs (m - N))); [|rewrite Hf by lia; exact Hc|exact Hmv].
    apply (RuntimeTerm3.run_reach af n obs obs_lasting obs_reach).
  - assert (rt (sg m) = rt (sg (N + k))) as ->.
    { assert (obs (m - N) = obs k) as E by (apply Hf; lia). unfold obs in E. replace (N + (m - N)) with m in E by lia. congruence. }
    apply map_eq. intros f. rewrite lookup_empty. destruct (RuntimeModel.s_frames (rt (sg (N + k))) !! f) as [fr|] eqn:E; [|done]. exfalso.
    apply Hc. destruct (RuntimeThms.progress n af _ _ f fr (wi_rt _ _ _ _ _ (run_winv (N + k))) E) as (lb & s' & tr & Hl & Hs).
    exists lb, s', tr. destruct lb; simpl in Hl; try done. by subst.
Qed.

(** The pool's part is then a fair execution of the pool with no more work. *)
Lemma pool_fair : fair n nd dom psg pl.
Proof.
  destruct comes_to_rest as (K & _ & HK). split.
  - apply pool_run.
  - intros w Hw i. destruct (worker_fair w (i `max` K) Hw) as (j & Hj & [He|[(c & Hc)|Hst]]); [by destruct He; apply HK; lia|..]; exists j; (split; [lia|]).
    + left. eauto.
    + by right.
  - intros a i Ha. by apply agent_fair.
  - intros i Hd. destruct (wf_dtor _ _ _ _ _ _ HW i Hd) as (j & Hj & [Hl|Hb]); exists j; (split; [done|]).
    + left. unfold pl. by rewrite Hl.
    + right. unfold WholeModel.whole_step in Hb. simpl in Hb. simpl. by destruct (destructor n nd dom (pool (sg j))).
Qed.

Lemma pool_ends : exists K, work_ends n nd dom K psg pl.
Proof.
  destruct comes_to_rest as (K & _ & HK). exists K. intros j Hj. destruct (HK j Hj) as [Hr _]. split.
  - intros w y (x & tr & Hl & Hs & Hin). unfold pl, rl in Hl, Hr. destruct (l j) as [z|]; [|done].
    assert (forall a d k, x = LAgent a d k -> ag (pool (sg j)) a <> AIdle) as Hag.
    { intros a d k ->. destruct z as [u c v fail|a' d' t| |u|u]; simpl in Hl, Hr; [..|done|done|by destruct (ag (pool (sg j)) u), (pc (pool (sg j)) u)].
      - destruct (ag (pool (sg j)) u) eqn:Ha; [|injection Hl as <- _ _; by rewrite Ha..].
        destruct (pc (pool (sg j)) u); try done. destruct (resting (rt (sg j)) u); done.
      - case_decide; [done|]. destruct (ag (pool (sg j)) a') eqn:Ha; [done|injection Hl as <- _ _; by rewrite Ha..]. }
    destruct x as [u c|a d k| |u]; simpl in Hs.
    + case_decide; [|done]. unfold LazyModel.worker, ret, notify, unregister, thief_sub in Hs.
      destruct (pc (pool (sg j)) u); repeat case_match; try done; simplify_eq; set_solver.
    + specialize (Hag a d k eq_refl). unfold agent, ret, notify in Hs. destruct (ag (pool (sg j)) a); [done|..]; injection Hs as _ <-; set_solver.
    + unfold destructor, ret, notify in Hs. destruct (dt (pool (sg j))); repeat case_match; try done; simplify_eq; set_solver.
    + case_decide; [|done]. unfold spurious, ret in Hs. repeat case_match; try done; simplify_eq; set_solver.
  - intros w c Hl Hp. unfold pl, rl in Hl, Hr. destruct (l j) as [z|]; [|done]. destruct z as [u c' v fail|a' d' t| |u|u]; simpl in Hl, Hr; [..|done|done|by destruct (ag (pool (sg j)) u), (pc (pool (sg j)) u)].
    + destruct (ag (pool (sg j)) u); [|done..]. destruct (pc (pool (sg j)) u) eqn:Hpu; try (injection Hl as -> ->; congruence).
      * injection Hl as -> ->. by destruct (c_steal c).
      * destruct (resting (rt (sg j)) u); [injection Hl as -> ->; congruence|]. by destruct (moving (rt (sg j)) u) as [[??]|].
    + case_decide; [done|]. by destruct (ag (pool (sg j)) a').
Qed.
End Proofs.
