(** * lazy_pool: liveness under fairness. *)

From stdpp Require Import prelude list.
From Coq Require Import Lia.
From Verif Require Import PoolCommon PoolFair LazyModel LazyProofs LazyInv LazyThief LazySpec.

Section Live.
Context (n nd : nat) (dom : nat -> nat).
Notation worker := (worker n nd dom).
Notation step := (step n nd dom).
Notation cinv := (cinv n dom).
Notation finv := (finv n nd dom).
Notation jinv := (jinv n dom).
Notation tinv := (tinv n nd dom).

(** ** Frame properties of single steps *)

Definition notw (w : nat) (x : lab) : Prop := match x with LWorker u _ => u <> w | _ => True end.

Lemma wake_all_pc d s u : pc (wake_all dom d s) u = pc s u \/ exists k, pc s u = WBlocked k /\ pc (wake_all dom d s) u = WWait k.
Proof. simpl. case_decide; [|by left]. destruct (pc s u); simpl; eauto. Qed.

Lemma other_pc w x s s' tr : step x s = Next s' tr -> notw w x ->
  pc s' w = pc s w \/ exists k, pc s w = WBlocked k /\ pc s' w = WWait k.
Proof.
  intros Hs Hn. destruct x as [u c|a u j| |u]; simpl in Hs, Hn.
  - case_decide; [|done]. unfold LazyModel.worker, ret, notify, unregister, thief_sub in Hs.
    destruct (pc s u) eqn:Hp; try (by repeat case_match; try done; simplify_eq; left; simpl; rewrite fset_ne).
    1,2: (destruct (wake_one _ _ _ _ _) as [s1|] eqn:Hwk; [|done]; injection Hs as <- <-;
      apply wake_one_cases in Hwk as [(t & k & Ht & Hd & Hpt & ->)|[-> _]]; simpl; rewrite fset_ne by done; [|by left];
      unfold fset; case_decide as E; [|by left]; subst; right; by exists k).
    injection Hs as <- <-. simpl. rewrite fset_ne by done. apply wake_all_pc.
  - unfold agent, ret, notify in Hs. destruct (ag s a).
    + case_decide; [|done]. injection Hs as <- <-. by left.
    + injection Hs as <- <-. by left.
    + injection Hs as <- <-. apply (wake_all_pc _ s w).
  - unfold destructor, ret, notify in Hs. destruct (dt s).
    + injection Hs as <- <-. by left.
    + case_decide; injection Hs as <- <-; by left.
    + injection Hs as <- <-. apply (wake_all_pc _ s w).
    + case_match; [|done]. injection Hs as <- <-. by left.
    + done.
  - case_decide; [|done]. unfold spurious, ret in Hs. destruct (pc s u) eqn:Hp; try done. injection Hs as <- <-. simpl.
    unfold fset. case_decide as E; [|by left]. subst. right. eauto.
Qed.

Lemma other_q w x s s' tr : step x s = Next s' tr -> notw w x ->
  q s' w = q s w \/ exists j, q s' w = q s w ++ [j] /\ EvPush w j ∈ tr.
Proof.
  intros Hs Hn. destruct x as [u c|a u j| |u]; simpl in Hs, Hn.
  - case_decide; [|done]. unfold LazyModel.worker, ret, notify, unregister, thief_sub in Hs. left.
    destruct (pc s u) eqn:Hp; try (by repeat case_match; try done; simplify_eq; simpl; rewrite ?fset_ne).
    1,2: (destruct (wake_one _ _ _ _ _) as [s1|] eqn:Hwk; [|done]; injection Hs as <- <-; simpl;
      apply wake_one_classes in Hwk as (_ & _ & _ & _ & _ & _ & _ & Ew & _); by rewrite Ew).
  - unfold agent, ret, notify in Hs. destruct (ag s a).
    + case_decide; [|done]. injection Hs as <- <-. simpl. unfold fset. case_decide as E; [subst; right|by left]. exists j. split; [done|set_solver].
    + injection Hs as <- <-. by left.
    + injection Hs as <- <-. by left.
  - unfold destructor, ret, notify in Hs. left. destruct (dt s); repeat case_match; try done; by injection Hs as <- <-.
  - case_decide; [|done]. unfold spurious, ret in Hs. destruct (pc s u) eqn:Hp; try done. injection Hs as <- <-. by left.
Qed.

Lemma stop_mono x s s' tr : step x s = Next s' tr -> stop s = true -> stop s' = true.
Proof.
  intros Hs Hst. destruct x as [u c|a u j| |u]; simpl in Hs.
  - case_decide; [|done]. unfold LazyModel.worker, ret, notify, unregister, thief_sub in Hs.
    destruct (pc s u) eqn:Hp; try (by repeat case_match; try done; simplify_eq).
    1,2: (destruct (wake_one _ _ _ _ _) as [s1|] eqn:Hwk; [|done]; injection Hs as <- <-; simpl;
      apply wake_one_classes in Hwk as (_ & _ & _ & _ & _ & _ & Ew & _); by rewrite Ew).
  - unfold agent, ret, notify in Hs. repeat case_match; try done; by injection Hs as <- <-.
  - unfold destructor, ret, notify in Hs. repeat case_match; try done; by injection Hs as <- <-.
  - unfold spurious, ret in Hs. repeat case_match; try done; by injection Hs as <- <-.
Qed.

Lemma epoch_mono x s s' tr d : step x s = Next s' tr -> epoch s d <= epoch s' d.
Proof.
  assert (forall d d' e, e d <= fset d' (S (e d')) e d) as Hf.
  { intros a b e. unfold fset. case_decide; [subst; lia|done]. }
  intros Hs. destruct x as [u c|a u j| |u]; simpl in Hs.
  - case_decide; [|done]. unfold LazyModel.worker, ret, notify, unregister, thief_sub in Hs.
    destruct (pc s u) eqn:Hp; try (repeat case_match; try done; simplify_eq; simpl; by auto).
    1,2: (destruct (wake_one _ _ _ _ _) as [s1|] eqn:Hwk; [|done]; injection Hs as <- <-; simpl;
      apply wake_one_classes in Hwk as (_ & _ & _ & _ & _ & Ew & _); by rewrite Ew).
  - unfold agent, ret, notify in Hs. repeat case_match; try done; injection Hs as <- <-; simpl; by auto.
  - unfold destructor, ret, notify in Hs. repeat case_match; try done; injection Hs as <- <-; simpl; by auto.
  - unfold spurious, ret in Hs. repeat case_match; try done; by injection Hs as <- <-.
Qed.

Definition nota (a : nat) (x : lab) : Prop := match x with LAgent b _ _ => b <> a | _ => True end.
Lemma other_ag a x s s' tr : step x s = Next s' tr -> nota a x -> ag s' a = ag s a.
Proof.
  intros Hs Hn. destruct x as [u c|b u j| |u]; simpl in Hs, Hn.
  - case_decide; [|done]. unfold LazyModel.worker, ret, notify, unregister, thief_sub in Hs.
    destruct (pc s u) eqn:Hp; try (by repeat case_match; try done; simplify_eq).
    1,2: (destruct (wake_one _ _ _ _ _) as [s1|] eqn:Hwk; [|done]; injection Hs as <- <-; simpl;
      apply wake_one_classes in Hwk as (_ & _ & _ & _ & _ & _ & _ & _ & Ew & _); by rewrite Ew).
  - unfold agent, ret, notify in Hs. repeat case_match; try done; injection Hs as <- <-; simpl; by rewrite fset_ne.
  - unfold destructor, ret, notify in Hs. repeat case_match; try done; by injection Hs as <- <-.
  - unfold spurious, ret in Hs. repeat case_match; try done; by injection Hs as <- <-.
Qed.

Lemma other_dt x s s' tr : step x s = Next s' tr -> x <> LDtor -> dt s' = dt s.
Proof.
  intros Hs Hn. destruct x as [u c|b u j| |u]; simpl in Hs, Hn.
  - case_decide; [|done]. unfold LazyModel.worker, ret, notify, unregister, thief_sub in Hs.
    destruct (pc s u) eqn:Hp; try (by repeat case_match; try done; simplify_eq).
    1,2: (destruct (wake_one _ _ _ _ _) as [s1|] eqn:Hwk; [|done]; injection Hs as <- <-; simpl;
      apply wake_one_classes in Hwk as (_ & _ & _ & _ & _ & _ & _ & _ & _ & Ew); by rewrite Ew).
  - unfold agent, ret, notify in Hs. repeat case_match; try done; by injection Hs as <- <-.
  - done.
  - unfold spurious, ret in Hs. repeat case_match; try done; by injection Hs as <- <-.
Qed.

(** Second half of notify_one is always possible. *)
Lemma wake_one_enabled d s : exists t s', wake_one n dom d t s = Some s'.
Proof.
  destruct (existsb (fun u => is_blocked (pc s u) && bool_decide (dom u = d)) (seq 0 n)) eqn:Hx.
  - apply existsb_exists in Hx as (u & Hu & Hb). apply in_seq in Hu. apply andb_true_iff in Hb as [Hb Hd].
    apply bool_decide_eq_true in Hd. destruct (pc s u) eqn:Hp; try done. exists (Some u). simpl. rewrite Hp.
    rewrite decide_True by (split; [lia|done]). eauto.
  - exists None. simpl. rewrite Hx. eauto.
Qed.

Definition stuck (w : nat) (s : st) : Prop := forall x, (exists c, x = LWorker w c) -> step x s = Blocked.

(** A worker can only be stuck asleep or at the end. *)
Lemma stuck_pc w s : w < n -> cinv s -> stuck w s ->
  (exists k, pc s w = WBlocked k) \/ (pc s w = XLatch /\ arrived s <> n) \/ pc s w = XDone.
Proof.
  intros Hw C Hst.
  assert (forall c, worker w c s = Blocked) as Hb.
  { intros c. specialize (Hst (LWorker w c) (ex_intro _ c eq_refl)). simpl in Hst. by rewrite decide_True in Hst. }
  clear Hst. unfold LazyModel.worker, ret, notify, unregister, thief_sub in Hb.
  destruct (pc s w) eqn:Hp; eauto; try (specialize (Hb (Choice false None)); by repeat case_match).
  - destruct (wake_one_enabled (dom w) s) as (t & s' & Ht). specialize (Hb (Choice false t)). simpl in Hb. by rewrite Ht in Hb.
  - destruct (wake_one_enabled d s) as (t & s' & Ht). specialize (Hb (Choice false t)). simpl in Hb. by rewrite Ht in Hb.
  - specialize (Hb (Choice false None)). case_decide; [done|]. right. left. done.
Qed.

(** The announcing loop stays in range. *)
Definition binv (s : st) : Prop := forall u h i, pc s u = TDomNote h i \/ pc s u = TDomWake h i -> i < nd.
Lemma step_binv x s s' tr : binv s -> step x s = Next s' tr -> binv s'.
Proof.
  intros I Hs u h i Hp.
  assert ((exists c, x = LWorker u c) \/ notw u x) as [[c ->]|Hn].
  { destruct x as [v c| | |]; simpl; auto. destruct (decide (v = u)) as [->|]; eauto. }
  - simpl in Hs. case_decide; [|done]. unfold LazyModel.worker, ret, notify, unregister, thief_sub in Hs.
    destruct (pc s u) eqn:Hpu.
    all: try (repeat case_match; try done; simplify_eq; simpl in Hp; rewrite fset_eq in Hp; destruct Hp; simplify_eq; by eauto).
  - destruct (other_pc u x s s' tr Hs Hn) as [E|(k & _ & E)]; [rewrite E in Hp; by eapply I|]. rewrite E in Hp. by destruct Hp.
Qed.

(** ** Executions *)

Context (sg : nat -> st) (l : nat -> option lab) (HF : fair n nd dom sg l).

Lemma run_reach i : exists h, reach n nd dom (sg i) h.
Proof.
  induction i as [|i [h IH]].
  - exists []. rewrite (run_init _ _ _ _ (fr_run _ _ _ _ _ HF)). constructor.
  - pose proof (run_step _ _ _ _ (fr_run _ _ _ _ _ HF) i) as Hs. rewrite Nat.add_1_r in Hs. destruct (l i) as [x|].
    + destruct Hs as [tr Hs]. eexists. by econstructor.
    + rewrite Hs. eauto.
Qed.
Lemma run_inv i : cinv (sg i) /\ finv (sg i) /\ jinv (sg i) /\ tinv (sg i).
Proof. destruct (run_reach i) as [h Hr]. by eapply reach_all. Qed.
Lemma run_binv i : binv (sg i).
Proof.
  induction i as [|i IH].
  - rewrite (run_init _ _ _ _ (fr_run _ _ _ _ _ HF)). intros u h j [?|?]; done.
  - pose proof (run_step _ _ _ _ (fr_run _ _ _ _ _ HF) i) as Hs. rewrite Nat.add_1_r in Hs. destruct (l i) as [x|].
    + destruct Hs as [tr Hs]. by eapply step_binv.
    + by rewrite Hs.
Qed.

(** What happens at time [i], seen from worker [w]. *)
Lemma tick i w : (exists c tr, l i = Some (LWorker w c) /\ worker w c (sg i) = Next (sg (i + 1)) tr /\
                    step (LWorker w c) (sg i) = Next (sg (i + 1)) tr) \/
  (exists x tr, l i = Some x /\ notw w x /\ step x (sg i) = Next (sg (i + 1)) tr) \/
  sg (i + 1) = sg i.
Proof.
  pose proof (run_step _ _ _ _ (fr_run _ _ _ _ _ HF) i) as Hs. destruct (l i) as [x|] eqn:Hl; [|by auto].
  destruct Hs as [tr Hs]. assert ((exists c, x = LWorker w c) \/ notw w x) as [[c ->]|Hn].
  { destruct x as [v c| | |]; simpl; auto. destruct (decide (v = w)) as [->|]; eauto. }
  - left. exists c, tr. split; [done|]. split; [|done]. simpl in Hs. by case_decide.
  - right. left. eauto.
Qed.

(** Worker [w], in a state where it is not asleep and where [R] is kept by all other
    threads, eventually makes a step (or [G] happens). *)
Definition acts (w i : nat) : Prop := exists c tr, l i = Some (LWorker w c) /\ worker w c (sg i) = Next (sg (i + 1)) tr.
Lemma worker_acts w i (R G : nat -> Prop) :
  w < n -> R i ->
  (forall k, i <= k -> R k -> (exists key, pc (sg k) w = WBlocked key) \/ (pc (sg k) w = XLatch /\ arrived (sg k) <> n) \/ pc (sg k) w = XDone -> False) ->
  (forall k, i <= k -> R k -> (forall x tr, l k = Some x -> notw w x -> step x (sg k) = Next (sg (k + 1)) tr -> R (k + 1) \/ G (k + 1)) /\
                   (sg (k + 1) = sg k -> R (k + 1) \/ G (k + 1))) ->
  exists j, i <= j /\ (G j \/ (R j /\ acts w j)).
Proof.
  intros Hw HR Hns Hoth.
  destruct (until R G (fun k => acts w k \/ stuck w (sg k)) i) as (j & Hj & [HG|[HRj HX]]); [..|exists j; by auto|].
  - intros k Hk HRk. destruct (tick k w) as [(c & tr & Hl & Hs & _)|[(x & tr & Hl & Hn & Hs)|He]].
    + left. left. exists c, tr. done.
    + right. by eapply (proj1 (Hoth k Hk HRk)).
    + right. by apply (proj2 (Hoth k Hk HRk)).
  - done.
  - destruct (fr_worker _ _ _ _ _ HF w Hw i) as (j & Hj & [(x & Hl & c & ->)|Hst]); exists j; (split; [done|]).
    + left. pose proof (run_step _ _ _ _ (fr_run _ _ _ _ _ HF) j) as Hs. rewrite Hl in Hs. destruct Hs as [tr Hs].
      exists c, tr. split; [done|]. simpl in Hs. by case_decide.
    + by right.
  - exists j. split; [done|right]. split; [done|]. destruct HX as [?|Hst]; [done|]. destruct (run_inv j) as [C _].
    exfalso. apply (Hns j Hj HRj). by apply stuck_pc.
Qed.
End Live.
