(** * lazy_pool: somebody looks for work; shutdown terminates. *)

From stdpp Require Import prelude list.
From Coq Require Import Lia.
From Verif Require Import PoolCommon PoolFair LazyModel LazyProofs LazyInv LazyThief LazySpec LazyLive LazyLive2.

Section Live.
Context (n nd : nat) (dom : nat -> nat).
Notation worker := (worker n nd dom).
Notation step := (step n nd dom).
Notation cinv := (cinv n dom).
Notation finv := (finv n nd dom).
Notation jinv := (jinv n dom).
Notation tinv := (tinv n nd dom).
Notation binv := (binv nd).
Context (sg : nat -> st) (l : nat -> option lab) (HF : fair n nd dom sg l).
Notation emits := (emits step sg l).
Notation acts := (acts n nd dom sg l).
Notation tick := (tick n nd dom sg l HF).
Notation run_inv := (run_inv n nd dom sg l HF).
Notation run_binv := (run_binv n nd dom sg l HF).
Notation worker_acts := (worker_acts n nd dom sg l HF).
Notation acts_at := (acts_at n nd dom sg l HF).
Notation key_le := (key_le n nd dom sg l HF).

(** ** Somebody looks for work *)

Definition good (d k : nat) : Prop :=
  (exists u, u < n /\ dom u = d /\ searching dom u (sg k)) \/ (forall u, u < n -> dom u = d -> ~ asleep u (sg k)) \/ stop (sg k) = true.

Lemma looking_good d k : looking n dom d (sg k) -> good d k.
Proof.
  intros (u & Hu & Hd & Hl).
  assert (exiting (pc (sg k) u) \/ searching dom u (sg k)) as [Hx|Hs].
  { unfold searching. rewrite Hd. destruct Hl as [Hl|Hl]; destruct (pc (sg k) u); simpl in *; auto; done. }
  - right. right. by eapply exiting_stop.
  - left. eauto.
Qed.
Lemma noblocked_good d k : noblocked n dom d (sg k) -> good d k.
Proof. intros H. right. left. intros u Hu Hd [key E]. apply (H u Hu Hd). by rewrite E. Qed.

Lemma fresh_step v d k : v < n -> dom v = d -> fresh (epoch (sg (k + 1)) d) (pc (sg (k + 1)) v) -> nofresh n dom d (sg k) -> looking n dom d (sg k).
Proof.
  intros Hv Hd Hf Hnf. specialize (Hnf v Hv Hd).
  assert (keyof (pc (sg k) v) = Some (epoch (sg (k + 1)) d) -> epoch (sg k) d <= epoch (sg (k + 1)) d -> epoch (sg (k + 1)) d = epoch (sg k) d) as Hkey.
  { intros Hk He. apply (key_le k v _ Hv) in Hk. rewrite Hd in Hk. lia. }
  destruct (tick k v) as [(c & tr & Hl & Hs & Hst)|[(x & tr & Hl & Hn & Hs)|He]].
  - pose proof (epoch_mono n nd dom _ _ _ _ d Hst) as Hep.
    assert (thiefst (pc (sg k) v) = true \/ (exists key, pc (sg k) v = WAct key) \/ (exists key, pc (sg k) v = WWait key /\ pc (sg (k + 1)) v = WBlocked key)) as [Ht|[[key Ht]|(key & Ht & Ht')]].
    { unfold LazyModel.worker, ret, notify, unregister, thief_sub in Hs. destruct (pc (sg k) v) eqn:Hp; simpl; eauto.
      all: try (repeat case_match; try done; injection Hs as Hs _; rewrite <- Hs in Hf; simpl in Hf; rewrite fset_eq in Hf; done). }
    + exists v. split; [done|]. split; [done|]. by left.
    + exists v. split; [done|]. split; [done|]. rewrite Ht. by right.
    + exfalso. apply Hnf. rewrite Ht' in Hf. simpl in Hf. subst key. rewrite Ht. simpl. apply Hkey; [by rewrite Ht|done].
  - pose proof (epoch_mono n nd dom _ _ _ _ d Hs) as Hep. exfalso. apply Hnf.
    destruct (other_pc n nd dom v x _ _ _ Hs Hn) as [E|(key & E & E')].
    + rewrite E in Hf. pose proof (fresh_key _ _ Hf) as Hk. rewrite (Hkey Hk Hep) in Hf. done.
    + rewrite E' in Hf. simpl in Hf. subst key. rewrite E. simpl. apply Hkey; [by rewrite E|done].
  - exfalso. apply Hnf. by rewrite He in Hf.
Qed.

Lemma posted_good d u i : u < n -> nofresh n dom d (sg i) -> post dom d u (pc (sg i) u) -> exists k, i <= k /\ good d k.
Proof.
  intros Hu Hnf Hp. set (p := pc (sg i) u).
  assert (forall k, p <> WBlocked k) as H1 by (intros k E; unfold p in E; by rewrite E in Hp).
  assert (p <> XLatch) as H2 by (intros E; unfold p in E; by rewrite E in Hp).
  assert (p <> XDone) as H3 by (intros E; unfold p in E; by rewrite E in Hp).
  set (G := fun k => exists k', i <= k' /\ k' <= k /\ good d k').
  assert (forall k, i <= k -> nofresh n dom d (sg k) -> nofresh n dom d (sg (k + 1)) \/ looking n dom d (sg k)) as Hfr.
  { intros k Hk Hnfk.
    assert (forall m, m <= n -> (forall v, v < m -> dom v = d -> ~ fresh (epoch (sg (k + 1)) d) (pc (sg (k + 1)) v)) \/ looking n dom d (sg k)) as Hm.
    { induction m as [|m IH]; intros Hm; [left; intros; lia|]. destruct IH as [IH|]; [lia| |by right].
      assert ({fresh (epoch (sg (k + 1)) d) (pc (sg (k + 1)) m)} + {~ fresh (epoch (sg (k + 1)) d) (pc (sg (k + 1)) m)}) as [Hf|Hf].
      { unfold fresh. destruct (pc (sg (k + 1)) m); auto; apply decide; apply _. }
      - destruct (decide (dom m = d)) as [Hd|Hd]; [right; eapply (fresh_step m); done|].
        left. intros v Hv Hdv. assert (v <> m) by congruence. apply IH; [lia|done].
      - left. intros v Hv Hdv. destruct (decide (v = m)) as [->|]; [done|]. apply IH; [lia|done]. }
    destruct (Hm n (le_n _)) as [?|?]; [by left|by right]. }
  destruct (worker_acts u i (fun k => nofresh n dom d (sg k) /\ pc (sg k) u = p) G) as (k & Hk & [(k' & ? & ? & HG)|[[Hnfk Hpk] (c & tr & Hl & Hs)]]); [done|done|..|by eauto|].
  - intros k _ [_ E] Hx. rewrite E in Hx. destruct Hx as [[key Hx]|[[Hx _]|Hx]]; [by eapply H1|done|done].
  - intros k Hk [Hnfk E].
    assert (pc (sg (k + 1)) u = p -> (nofresh n dom d (sg (k + 1)) /\ pc (sg (k + 1)) u = p) \/ G (k + 1)) as Hgo.
    { intros Hpk. destruct (Hfr k Hk Hnfk) as [?|Hl]; [by left|right]. exists k. split_and!; [done|lia|by apply looking_good]. }
    split.
    + intros x tr _ Hn Hs. apply Hgo. destruct (other_pc n nd dom u x _ _ _ Hs Hn) as [E'|(key & E' & _)]; [congruence|].
      rewrite E in E'. by destruct (H1 key).
    + intros E'. apply Hgo. by rewrite E'.
  - (* the waking step *)
    assert (exists t s1, wake_one n dom d t (sg k) = Some s1 /\ exists p', sg (k + 1) = set_pc u p' s1 /\ ~ blocked p' /\ (forall e, ~ look e p)) as (t & s1 & Hwk & p' & Hp' & Hnb & Hnl).
    { unfold LazyModel.worker, ret in Hs. fold p in Hp. rewrite Hpk in Hs. destruct p eqn:E; try done; simpl in Hp.
      - rewrite Hp in Hs. destruct (wake_one _ _ _ _ _) as [s1|] eqn:Hwk; [|done]. injection Hs as Hs _. exists (c_target c), s1.
        split; [done|]. eexists. split; [done|]. split; [by intros []|]. intros e [?|?]; done.
      - rewrite Hp in Hs. destruct (wake_one _ _ _ _ _) as [s1|] eqn:Hwk; [|done]. injection Hs as Hs _. exists (c_target c), s1.
        split; [done|]. eexists. split; [done|]. split; [by intros []|]. intros e [?|?]; done. }
    exists (k + 1). split; [lia|]. destruct (wake_one_good n dom d t _ s1 Hwk Hnfk) as [_ [(v & Hv & Hd & Hlk)|Hnb']].
    + apply looking_good. exists v. split; [done|]. split; [done|]. rewrite Hp'. simpl. rewrite fset_ne; [done|]. intros ->.
      assert (pc s1 u = p) as Hp1.
      { apply wake_one_cases in Hwk as [(t' & key & Ht & Hdt & Hpt & ->)|[-> _]]; [|done]. simpl. rewrite fset_ne; [done|].
        intros ->. rewrite Hpk in Hpt. by eapply H1. }
      rewrite Hp1 in Hlk. by eapply Hnl.
    + apply noblocked_good. intros v Hv Hd. rewrite Hp'. simpl. unfold fset. case_decide; [done|]. by apply Hnb'.
Qed.

Lemma pre_good d u : d < nd -> u < n -> forall r i, rk nd (pc (sg i) u) <= r -> pre dom d u (pc (sg i) u) -> exists k, i <= k /\ good d k.
Proof.
  intros Hdn Hu. induction r as [|r IH]; intros i Hr Hp; [destruct (pc (sg i) u); simpl in *; try done; lia|].
  destruct (acts_at u i (pc (sg i) u) Hu eq_refl) as (j & Hj & Hpj & (c & tr & Hl & Hs)); [intros k E; by rewrite E in Hp|intros E; by rewrite E in Hp..|].
  rewrite <- Hpj in Hr, Hp. clear Hpj.
  assert (forall k, j <= k -> good d k -> exists k, i <= k /\ good d k) as Hdone by (intros k Hk Hg; exists k; split; [lia|done]).
  assert (pre dom d u (pc (sg (j + 1)) u) -> rk nd (pc (sg (j + 1)) u) <= r -> exists k, i <= k /\ good d k) as Hrec.
  { intros Hp' Hr'. destruct (IH (j + 1) Hr' Hp') as (k & Hk & Hg). exists k. split; [lia|done]. }
  destruct (run_inv j) as (C & _). pose proof (run_binv j u) as B.
  assert (forall s1 p', sg (j + 1) = set_pc u p' s1 -> waiters s1 d = 0 -> cinv s1 -> ~ blocked p' -> noblocked n dom d (sg (j + 1))) as Hzero.
  { intros s1 p' E Hz C1 Hnb v Hv Hd. rewrite E. simpl. unfold fset. case_decide; [done|]. intros Hb. destruct (pc s1 v) eqn:Hpv; try done.
    by eapply (F2_waiters n dom d s1 C1 Hz v). }
  assert (forall p', sg (j + 1) = set_pc u p' (set_epoch d (S (epoch (sg j) d)) (sg j)) -> (forall e, ~ fresh e p') -> nofresh n dom d (sg (j + 1))) as Hnfe.
  { intros p' E Hnf v Hv Hd. pose proof (nofresh_epoch n dom d (sg j) C v Hv Hd) as Hx. rewrite E. simpl in Hx |- *. unfold fset at 2. case_decide; [by apply Hnf|done]. }
  assert (cinv (set_epoch d (S (epoch (sg j) d)) (sg j))) as C1.
  { destruct C as [I1 I2 I3 I4 I5]. split; simpl; try done. intros v k Hv Hk. specialize (I5 v k Hv Hk). unfold fset. case_decide as E; [|done]. rewrite E in *. lia. }
  unfold LazyModel.worker, ret, notify in Hs.
  destruct (pc (sg j) u) eqn:Hpu; try done; simpl in Hp.
  - (* TNote *)
    rewrite Hp in Hs. injection Hs as Hs _. symmetry in Hs. case_bool_decide as Hz; simpl in Hs.
    + apply (Hdone (j + 1)); [lia|]. apply noblocked_good. eapply Hzero; [done|done|done|by intros []].
    + destruct (posted_good d u (j + 1) Hu) as (k & Hk & Hg); [eapply Hnfe; [done|by intros ? []]|rewrite Hs; simpl; by rewrite fset_eq|].
      apply (Hdone k); [lia|done].
  - (* TDom *)
    rewrite decide_True in Hs by lia. injection Hs as Hs _. symmetry in Hs. case_decide as Hth.
    + apply Hrec; rewrite Hs; simpl; rewrite fset_eq; simpl; simpl in Hr; lia.
    + destruct (decide (d0 = d)) as [->|Hne].
      * apply (Hdone j); [lia|]. by apply looking_good, some_thief.
      * apply Hrec; rewrite Hs; simpl; rewrite fset_eq; simpl; simpl in Hr; lia.
  - (* TDomNote *)
    specialize (B _ _ (or_introl eq_refl)). injection Hs as Hs _. symmetry in Hs. destruct (decide (d0 = d)) as [->|Hne].
    + case_bool_decide as Hz; simpl in Hs.
      * apply (Hdone (j + 1)); [lia|]. apply noblocked_good. eapply Hzero; [done|done|done|by intros []].
      * destruct (posted_good d u (j + 1) Hu) as (k & Hk & Hg); [eapply Hnfe; [done|by intros ? []]|rewrite Hs; simpl; by rewrite fset_eq|].
        apply (Hdone k); [lia|done].
    + apply Hrec; rewrite Hs; simpl; rewrite fset_eq; case_bool_decide; simpl; simpl in Hr; lia.
  - (* TDomWake *)
    specialize (B _ _ (or_intror eq_refl)). destruct (wake_one _ _ _ _ _) as [s1|]; [|done]. injection Hs as Hs _. symmetry in Hs.
    apply Hrec; rewrite Hs; simpl; rewrite fset_eq; simpl; simpl in Hr; lia.
Qed.

Theorem someone_looks d i : d < nd -> 0 < active (sg i) -> exists k, i <= k /\ good d k.
Proof.
  intros Hd Hac. destruct (run_inv i) as (_ & _ & _ & T). destruct (T Hac d Hd) as [Hl|[(u & Hu & Hp)|[Hnf [Hnb|(u & Hu & Hp)]]]].
  - exists i. split; [lia|]. by apply looking_good.
  - by eapply pre_good.
  - exists i. split; [lia|]. by apply noblocked_good.
  - by eapply posted_good.
Qed.

(** ** Shutdown terminates *)

Definition dr (p : dpc) : nat :=
  match p with DNote i => 1 + 2 * (nd - i) | DWake i => 2 + 2 * (nd - S i) | _ => 0 end.

Lemma dtor_acts i p : dt (sg i) = p -> p <> DIdle -> (forall k, i <= k -> dt (sg k) = p -> step LDtor (sg k) <> Blocked) ->
  exists j tr, i <= j /\ dt (sg j) = p /\ destructor n nd dom (sg j) = Next (sg (j + 1)) tr.
Proof.
  intros Hp Hne Hnb.
  destruct (until (fun k => dt (sg k) = p) (fun _ => False) (fun k => l k = Some LDtor \/ step LDtor (sg k) = Blocked) i) as (j & Hj & [[]|[HR HX]]); [..|].
  - intros k Hk HR. pose proof (run_step _ _ _ _ (fr_run _ _ _ _ _ HF) k) as Hs. destruct (l k) as [x|] eqn:Hl.
    + destruct Hs as [tr Hs]. assert (x = LDtor \/ x <> LDtor) as [->|Hx] by (destruct x; auto; right; done); [by auto|].
      right. left. by rewrite (other_dt n nd dom x _ _ _ Hs Hx).
    + right. left. by rewrite Hs.
  - done.
  - apply (fr_dtor _ _ _ _ _ HF). by rewrite Hp.
  - destruct HX as [HX|HX]; [|by destruct (Hnb j Hj HR)]. pose proof (run_step _ _ _ _ (fr_run _ _ _ _ _ HF) j) as Hs. rewrite HX in Hs.
    destruct Hs as [tr Hs]. exists j, tr. done.
Qed.

Lemma dtor_joins : forall r i, dr (dt (sg i)) <= r -> dt (sg i) <> DIdle -> exists j, i <= j /\ (dt (sg j) = DJoin \/ dt (sg j) = DDone).
Proof.
  induction r as [|r IH]; intros i Hr Hne.
  - exists i. split; [lia|]. destruct (dt (sg i)); simpl in *; auto; try done; lia.
  - destruct (dt (sg i)) as [|d|d| |] eqn:Hp; try done; try (exists i; by eauto).
    + destruct (dtor_acts i _ Hp) as (j & tr & Hj & Hpj & Hs); [done|intros k _ E; simpl; unfold destructor, ret, notify; rewrite E; repeat case_match; done|].
      unfold destructor, ret, notify in Hs. rewrite Hpj in Hs.
      destruct (IH (j + 1)) as (k & Hk & H); [..|exists k; split; [lia|done]].
      * case_decide; injection Hs as Hs _; rewrite <- Hs; cbn [dt set_dt dr negb]; [|lia]. cbn [dr] in Hr. case_bool_decide; cbn [negb dr]; lia.
      * case_decide; injection Hs as Hs _; rewrite <- Hs; simpl; [|done]. by case_bool_decide.
    + destruct (dtor_acts i _ Hp) as (j & tr & Hj & Hpj & Hs); [done|intros k _ E; simpl; unfold destructor, ret, notify; rewrite E; repeat case_match; done|].
      unfold destructor, ret, notify in Hs. rewrite Hpj in Hs. injection Hs as Hs _.
      destruct (IH (j + 1)) as (k & Hk & H); [..|exists k; split; [lia|done]]; rewrite <- Hs; cbn [dt set_dt dr]; [|done]. cbn [dr] in Hr. lia.
Qed.

(** The way of a worker out of its loop. *)
Definition rk2 (p : wpc) : nat :=
  match p with
  | XDone | XLatch => 0 | XArrive => 1 | XStop => 2 | XSub => 3 | XWake => 4 | XNote => 5 | XCancel => 6
  | WStop _ => 7 | WPop2 _ => 8 | WPrep => 9 | WSteal => 10 | WPop1 => 11 | WTop => 12
  | WUnreg | WCancel | TEnd => 13 | WWait _ | TRun _ => 14 | WAct _ | WBlocked _ => 15 | WSub _ => 16
  | TDom _ i => 15 + 3 * (nd - i) | TDomNote _ i => 14 + 3 * (nd - i) | TDomWake _ i => 13 + 3 * (nd - i)
  | TAct _ => 16 + 3 * nd | TWake _ => 17 + 3 * nd | TNote _ => 18 + 3 * nd | TSub _ => 19 + 3 * nd | WCancelJob _ => 20 + 3 * nd
  end.
Definition sk (w : nat) (s : st) : nat := rk2 (pc s w) + match q s w with [] => 0 | _ => 30 + 3 * nd end.

Lemma worker_down w c s s' tr : binv s -> stop s = true -> worker w c s = Next s' tr ->
  (pc s w = WSteal -> c_steal c = false) -> (forall k, pc s' w <> WBlocked k) -> pc s w <> XLatch -> sk w s' < sk w s.
Proof.
  intros B Hst Hs Hsteal Hnb Hnl. unfold sk. pose proof (B w) as Bw.
  unfold LazyModel.worker, ret, notify, unregister, thief_sub in Hs.
  destruct (pc s w) eqn:Hp; try done.
  all: try (rewrite Hst in Hs).
  all: try (specialize (Hsteal eq_refl); rewrite Hsteal in Hs).
  all: try (match goal with H : pc _ _ = TDomNote ?h ?d |- _ => specialize (Bw h d (or_introl eq_refl)) end).
  all: try (match goal with H : pc _ _ = TDomWake ?h ?d |- _ => specialize (Bw h d (or_intror eq_refl)) end).
  all: try (destruct (q s w) as [|j0 js] eqn:Hq; injection Hs as <- <-; simpl; rewrite ?fset_eq, ?Hq; simpl; lia).
  all: try (destruct (wake_one _ _ _ _ _) as [s1|] eqn:Hwk; [|done]; injection Hs as <- <-; simpl; rewrite ?fset_eq;
    apply wake_one_classes in Hwk as (_ & _ & _ & _ & _ & _ & _ & Eq & _); rewrite Eq; simpl; lia).
  all: try (destruct (decide (epoch s (dom w) = k)) as [E|E]; injection Hs as <- <-; [exfalso; apply (Hnb k); simpl; by rewrite fset_eq|simpl; rewrite fset_eq; simpl; lia]).
  all: try (destruct (waiters s (dom w)) eqn:?; [done|]; injection Hs as <- <-; simpl; rewrite ?fset_eq; simpl; lia).
  all: try (destruct (thief s (dom w)) as [|[|th]] eqn:?; [done|..]; injection Hs as <- <-; simpl; rewrite ?fset_eq; simpl; lia).
  all: try (repeat case_decide; injection Hs as <- <-; simpl; rewrite ?fset_eq; simpl; lia).
  all: try (case_bool_decide; injection Hs as <- <-; simpl; rewrite ?fset_eq; simpl; lia).
  all: try (destruct (active s) eqn:?; [done|]; injection Hs as <- <-; simpl; rewrite ?fset_eq; simpl; lia).
Qed.

Context (Hdom : forall u, u < n -> dom u < nd).

Lemma stop_stable i j : i <= j -> stop (sg i) = true -> stop (sg j) = true.
Proof.
  intros Hij Hst. apply (stable (fun k => stop (sg k) = true) i); [|done|done]. intros k _ Hk.
  pose proof (run_step _ _ _ _ (fr_run _ _ _ _ _ HF) k) as Hs. destruct (l k); [|by rewrite Hs]. destruct Hs as [tr Hs]. by eapply stop_mono.
Qed.
Definition joining (k : nat) : Prop := dt (sg k) = DJoin \/ dt (sg k) = DDone.
Lemma joining_stable i j : i <= j -> joining i -> joining j.
Proof.
  intros Hij Hst. apply (stable joining i); [|done|done]. intros k _ Hk.
  pose proof (run_step _ _ _ _ (fr_run _ _ _ _ _ HF) k) as Hs. destruct (l k) as [x|]; [|unfold joining in *; by rewrite Hs].
  destruct Hs as [tr Hs]. assert (x = LDtor \/ x <> LDtor) as [->|Hx] by (destruct x; auto; right; done).
  - simpl in Hs. unfold destructor, ret in Hs. destruct Hk as [E|E]; rewrite E in Hs; [|done]. case_match; [|done].
    injection Hs as Hs _. right. by rewrite <- Hs.
  - unfold joining. by rewrite (other_dt n nd dom x _ _ _ Hs Hx).
Qed.
Lemma joining_facts k : joining k -> stop (sg k) = true /\ forall w key, w < n -> pc (sg k) w <> WBlocked key.
Proof.
  intros Hj. destruct (run_inv k) as (_ & F & _). split.
  - apply (fi_stop _ _ _ _ F). right. destruct Hj as [E|E]; by rewrite E.
  - intros w key Hw. eapply (fi_2 _ _ _ _ F (dom w)); [by apply Hdom| |done|done]. right. destruct Hj as [E|E]; by rewrite E.
Qed.

Lemma arrives w N : w < n -> joining N -> work_ends n nd dom N sg l -> forall r i, N <= i -> sk w (sg i) <= r -> exists j, i <= j /\ arrst (pc (sg j) w) = true.
Proof.
  intros Hw HN HE. induction r as [r IH] using lt_wf_ind. intros i Hi Hr.
  assert (arrst (pc (sg i) w) = true \/ (pc (sg i) w <> XLatch /\ pc (sg i) w <> XDone)) as [Ha|[H1 H2]].
  { destruct (pc (sg i) w); simpl; auto. }
  { exists i. split; [lia|done]. }
  pose proof (fun k Hk => joining_facts k (joining_stable N k Hk HN)) as Hjf.
  destruct (worker_acts w i (fun k => pc (sg k) w = pc (sg i) w /\ q (sg k) w = q (sg i) w) (fun _ => False)) as (j & Hj & [[]|[[Hp Hq] (c & tr & Hl & Hs)]]); [done|done|..].
  - intros k Hk [E _] [[key Hb]|[[Hb _]|Hb]]; [|congruence|congruence]. eapply (proj2 (Hjf k ltac:(lia))); done.
  - intros k Hk [E Eq]. split; [|intros E'; left; by rewrite E'].
    intros x tr Hl Hn Hs. left. split.
    + destruct (other_pc n nd dom w x _ _ _ Hs Hn) as [E'|(key & E' & _)]; [congruence|]. exfalso. eapply (proj2 (Hjf k ltac:(lia))); done.
    + destruct (other_q n nd dom w x _ _ _ Hs Hn) as [E'|(y & _ & Hy)]; [congruence|].
      exfalso. eapply (proj1 (HE k ltac:(lia))). exists x, tr. eauto.
  - assert (sk w (sg (j + 1)) < sk w (sg j)) as Hd.
    { eapply worker_down; [apply run_binv|apply (Hjf j ltac:(lia))|done|..].
      - by apply (proj2 (HE j ltac:(lia))).
      - intros k. by apply (proj2 (Hjf (j + 1) ltac:(lia))).
      - congruence. }
    assert (sk w (sg j) = sk w (sg i)) as Esk by (unfold sk; by rewrite Hp, Hq).
    destruct (IH (sk w (sg (j + 1))) ltac:(lia) (j + 1) ltac:(lia) (le_n _)) as (k & Hk & Ha). exists k. split; [lia|done].
Qed.

Lemma arrst_stable w k : arrst (pc (sg k) w) = true -> arrst (pc (sg (k + 1)) w) = true.
Proof.
  intros Ha. destruct (tick k w) as [(c & tr & Hl & Hs & _)|[(x & tr & Hl & Hn & Hs)|He]]; [| |by rewrite He].
  - unfold LazyModel.worker, ret in Hs. destruct (pc (sg k) w); try done. case_decide; [|done]. injection Hs as Hs _. rewrite <- Hs. simpl. by rewrite fset_eq.
  - destruct (other_pc n nd dom w x _ _ _ Hs Hn) as [E|(key & E & _)]; [by rewrite E|by rewrite E in Ha].
Qed.
Lemma done_stable w k : pc (sg k) w = XDone -> pc (sg (k + 1)) w = XDone.
Proof.
  intros Ha. destruct (tick k w) as [(c & tr & Hl & Hs & _)|[(x & tr & Hl & Hn & Hs)|He]]; [| |by rewrite He].
  - unfold LazyModel.worker, ret in Hs. by rewrite Ha in Hs.
  - destruct (other_pc n nd dom w x _ _ _ Hs Hn) as [E|(key & E & _)]; [by rewrite E|by rewrite E in Ha].
Qed.

Lemma cnt_all m f : (forall u, u < m -> f u = true) -> cnt m f = m.
Proof. induction m as [|m IH]; intros H; simpl; [done|]. rewrite IH by (intros; apply H; lia). rewrite H by lia. simpl. lia. Qed.

Theorem shutdown_terminates i N : dt (sg i) <> DIdle -> work_ends n nd dom N sg l -> exists k, dt (sg k) = DDone.
Proof.
  intros Hd HE. destruct (dtor_joins _ i (le_n _) Hd) as (j & Hj & Hjn).
  set (M := j `max` N). assert (joining M) as HM by (apply (joining_stable j); [lia|done]).
  assert (work_ends n nd dom M sg l) as HEM by (intros k Hk; apply HE; lia).
  destruct (gather (fun w k => arrst (pc (sg k) w) = true) n M) as (a & Ha & Hall).
  { intros w k _ _. apply arrst_stable. }
  { intros w Hw. by eapply (arrives w M). }
  assert (forall k, a <= k -> arrived (sg k) = n) as Harr.
  { intros k Hk. destruct (run_inv k) as (C & _). rewrite (ci_arr _ _ _ C). apply cnt_all. intros u Hu.
    apply (stable (fun k => arrst (pc (sg k) u) = true) a); [intros; by apply arrst_stable|by apply Hall|done]. }
  destruct (gather (fun w k => pc (sg k) w = XDone) n a) as (b & Hb & Hdone).
  { intros w k _ _. apply done_stable. }
  { intros w Hw. specialize (Hall w Hw). destruct (pc (sg a) w) eqn:Hp; try done; [|exists a; by auto].
    destruct (worker_acts w a (fun k => pc (sg k) w = XLatch) (fun _ => False)) as (k & Hk & [[]|[HR (c & tr & Hl & Hs)]]); [done|done|..].
    - intros k Hk E [[key Hx]|[[_ Hx]|Hx]]; [congruence| |congruence]. by apply Hx, Harr.
    - intros k Hk E. split; [|intros E'; left; by rewrite E']. intros x tr Hl Hn Hs. left.
      destruct (other_pc n nd dom w x _ _ _ Hs Hn) as [E'|(key & E' & _)]; congruence.
    - exists (k + 1). split; [lia|]. unfold LazyModel.worker, ret in Hs. rewrite HR in Hs. rewrite decide_True in Hs by (apply Harr; lia).
      injection Hs as Hs _. rewrite <- Hs. simpl. by rewrite fset_eq. }
  assert (forall k, b <= k -> forallb (fun u => match pc (sg k) u with XDone => true | _ => false end) (seq 0 n) = true) as Hfa.
  { intros k Hk. apply forallb_forall. intros u Hu. apply in_seq in Hu.
    rewrite (stable (fun k => pc (sg k) u = XDone) b); [done|intros; by apply done_stable|apply Hdone; lia|done]. }
  assert (joining b) as Hjb by (apply (joining_stable M); [lia|done]). destruct Hjb as [E|E]; [|by exists b].
  destruct (dtor_acts b DJoin E) as (k & tr & Hk & Hpk & Hs); [done| |].
  - intros k Hk Ek. simpl. unfold destructor. rewrite Ek, Hfa by done. done.
  - exists (k + 1). unfold destructor, ret in Hs. rewrite Hpk, Hfa in Hs by done. injection Hs as Hs _. by rewrite <- Hs.
Qed.
End Live.
