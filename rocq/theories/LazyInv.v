(** * Invariants of lazy_pool: no lost job, no lost wake-up, shutdown. *)

From stdpp Require Import prelude list.
From Coq Require Import Lia.
From Verif Require Import PoolCommon LazyModel LazyProofs.

Section Inv.
Context (n nd : nat) (dom : nat -> nat).
Notation worker := (worker n nd dom).
Notation step := (step n nd dom).
Notation reach := (reach n nd dom).
Notation cinv := (cinv n dom).

(** ** Local classification of a worker's state, with its epoch [e] *)

(** Between prepare_wait and sleep, after the second look at the queue. *)
Definition late (p : wpc) (k : nat) : Prop :=
  match p with WStop k' | WSub k' | WAct k' | WWait k' => k' = k | _ => False end.
Definition late2 (p : wpc) (k : nat) : Prop :=
  match p with WSub k' | WAct k' | WWait k' | WBlocked k' => k' = k | _ => False end.
Definition exiting (p : wpc) : Prop :=
  match p with XCancel | XNote | XWake | XSub | XStop | XArrive | XLatch | XDone => True | _ => False end.
Definition noted (p : wpc) : Prop :=
  match p with XWake | XSub | XStop | XArrive | XLatch | XDone => True | _ => False end.
Definition woke (p : wpc) : Prop :=
  match p with XSub | XStop | XArrive | XLatch | XDone => True | _ => False end.

(** The destructor has notified / woken domain [d]. *)
Definition dnoted (d : nat) (p : dpc) : Prop :=
  match p with DIdle => False | DNote i => d < i | DWake i => d <= i | DJoin | DDone => True end.
Definition dwoke (d : nat) (p : dpc) : Prop :=
  match p with DIdle => False | DNote i => d < i | DWake i => d < i | DJoin | DDone => True end.

Definition fl1 (d : nat) (s : st) : Prop := (exists u, u < n /\ dom u = d /\ noted (pc s u)) \/ dnoted d (dt s).
Definition fl2 (d : nat) (s : st) : Prop := (exists u, u < n /\ dom u = d /\ woke (pc s u)) \/ dwoke d (dt s).

Record finv (s : st) : Prop := FInv {
  fi_stop : (exists u, u < n /\ exiting (pc s u)) \/ dt s <> DIdle -> stop s = true;
  fi_1 : forall d, d < nd -> fl1 d s -> forall v k, v < n -> dom v = d -> late2 (pc s v) k -> k <> epoch s d;
  fi_2 : forall d, d < nd -> fl2 d s -> forall v k, v < n -> dom v = d -> pc s v <> WBlocked k
}.

Definition jinv (s : st) : Prop :=
  forall w, w < n -> q s w <> [] ->
    (forall k, late (pc s w) k -> k <> epoch s (dom w) \/ exists a, ag s a = APushed w) /\
    (forall k, pc s w = WBlocked k ->
       (exists a, ag s a = APushed w) \/ (k <> epoch s (dom w) /\ exists a, ag s a = AWake (dom w))).

(** ** Job invariant *)

Lemma late_key p k : late p k -> keyof p = Some k.
Proof. destruct p; simpl; try done; intros ->; done. Qed.
Lemma late2_key p k : late2 p k -> keyof p = Some k.
Proof. destruct p; simpl; try done; intros ->; done. Qed.

(** A change of one pc. *)
Lemma jinv_pc w p' s s' :
  pc s' = fset w p' (pc s) -> epoch s' = epoch s -> ag s' = ag s ->
  (forall u, u <> w -> q s' u = q s u) -> (q s' w = [] \/ q s' w = q s w) ->
  (q s' w <> [] -> forall k, late p' k -> late (pc s w) k \/ pc s w = WBlocked k) ->
  (q s' w <> [] -> forall k, p' = WBlocked k -> pc s w = WWait k /\ epoch s (dom w) = k) ->
  jinv s -> jinv s'.
Proof.
  intros Hpc He Ha Hq Hqw H1 H2 I u Hu Hne. rewrite Hpc, He, Ha. unfold fset. case_decide as E.
  - subst u. destruct Hqw as [Hqw|Hqw]; [by rewrite Hqw in Hne|]. rewrite Hqw in *. destruct (I w Hu Hne) as [I1 I2].
    split.
    + intros k Hk. destruct (H1 Hne k Hk) as [Hl|Hb]; [eauto|]. destruct (I2 k Hb) as [?|[? ?]]; auto.
    + intros k Hk. destruct (H2 Hne k Hk) as [Hp Hek]. destruct (I1 k) as [?|?]; [by rewrite Hp|congruence|by left].
  - rewrite Hq in Hne by done. by apply I.
Qed.

(** Waking and notifying. *)
Lemma jinv_epoch d s : cinv s -> jinv s -> jinv (set_epoch d (S (epoch s d)) s).
Proof.
  intros C I w Hw Hne. simpl in *. destruct (I w Hw Hne) as [I1 I2]. split.
  - intros k Hk. pose proof (ci_key _ _ _ C w k Hw (late_key _ _ Hk)). unfold fset. case_decide as E.
    + left. rewrite E in *. lia.
    + eauto.
  - intros k Hk. assert (k <= epoch s (dom w)) as Hle by (apply (ci_key _ _ _ C w k Hw); by rewrite Hk).
    destruct (I2 k Hk) as [?|[Hke Ha]]; [by left|right]. split; [|done]. unfold fset. case_decide as E; [|done]. rewrite E in *. lia.
Qed.

Lemma jinv_wake_all d s : jinv s -> jinv (wake_all dom d s).
Proof.
  intros I w Hw Hne. simpl in *. destruct (I w Hw Hne) as [I1 I2]. case_decide as E; [|done]. split.
  - intros k Hk. destruct (pc s w) eqn:Hp; simpl in *; try done; try (by apply I1). subst. destruct (I2 k eq_refl) as [?|[? _]]; auto.
  - intros k Hk. destruct (pc s w); done.
Qed.

Lemma wake_one_cases d t s s' : wake_one n dom d t s = Some s' ->
  (exists t k, t < n /\ dom t = d /\ pc s t = WBlocked k /\ s' = set_pc t (WWait k) s) \/
  (s' = s /\ forall u k, u < n -> dom u = d -> pc s u <> WBlocked k).
Proof.
  unfold wake_one. destruct t as [t|].
  - destruct (pc s t) eqn:Hp; try done. case_decide as E; [|done]. intros [= <-]. left. exists t, k. destruct E. done.
  - destruct (existsb _ _) eqn:Hx; [done|]. intros [= <-]. right. split; [done|]. intros u k Hu Hd Hp.
    assert (existsb (fun u => is_blocked (pc s u) && bool_decide (dom u = d)) (seq 0 n) = true); [|congruence].
    apply existsb_exists. exists u. split; [apply in_seq; lia|]. rewrite Hp, bool_decide_true; done.
Qed.

Lemma jinv_wake_one d t s s' : wake_one n dom d t s = Some s' -> jinv s -> jinv s'.
Proof.
  intros Hw I. apply wake_one_cases in Hw as [(u & k & Hu & Hd & Hp & ->)|[-> _]]; [|done].
  eapply (jinv_pc u (WWait k) s); simpl; auto.
  - intros _ k' ->. by right.
  - done.
Qed.

Lemma jinv_init : jinv init. Proof. intros w _ H. done. Qed.

Lemma worker_jinv w c s s' tr : w < n -> cinv s -> jinv s -> worker w c s = Next s' tr -> jinv s'.
Proof.
  intros Hw C I Hs. unfold LazyModel.worker, ret, notify, unregister, thief_sub in Hs.
  destruct (pc s w) eqn:Hp.
  all: try (repeat case_match; try done; simplify_eq; (eapply (jinv_pc w _ s); simpl;
    [reflexivity|reflexivity|reflexivity|by intros; rewrite ?fset_ne|rewrite ?fset_eq; auto| | |done]);
    rewrite ?Hp, ?fset_eq; simpl; intros; try done; simplify_eq; auto; fail).
  all: try (injection Hs as <- <-; eapply (jinv_pc w _ (set_epoch _ _ s)); simpl;
    [reflexivity|reflexivity|reflexivity|intros; unfold fset; repeat case_decide; congruence|auto|..|by apply jinv_epoch]; rewrite ?Hp; repeat case_match; simpl; try done; intros; simplify_eq; by auto).
  1,2: (destruct (wake_one _ _ _ _ _) as [s1|] eqn:Hwk; [|done]; injection Hs as <- <-; eapply (jinv_pc w _ s1); simpl;
    [reflexivity|reflexivity|reflexivity|auto|auto|done|done|by eapply jinv_wake_one]).
  injection Hs as <- <-. eapply (jinv_pc w _ (wake_all dom (dom w) s)); simpl;
    [reflexivity|reflexivity|reflexivity|auto|auto|done|done|by apply jinv_wake_all].
Qed.

Lemma step_jinv l s s' tr : cinv s -> jinv s -> step l s = Next s' tr -> jinv s'.
Proof.
  intros C I Hs. destruct l as [w c|a w j| |w]; simpl in Hs.
  - case_decide; [|done]. by eapply worker_jinv.
  - unfold agent, ret, notify in Hs. destruct (ag s a) as [|w'|d] eqn:Ha.
    + case_decide; [|done]. injection Hs as <- <-. intros u Hu Hne. simpl in *. destruct (decide (u = w)) as [->|Huw].
      * split; [intros k _; right|intros k _; left]; exists a; by rewrite fset_eq.
      * rewrite fset_ne in Hne by done. destruct (I u Hu Hne) as [I1 I2].
        assert (forall b x, x <> AIdle -> ag s b = x -> fset a (APushed w) (ag s) b = x) as Hb.
        { intros b x Hx Hb. rewrite fset_ne; [done|]. intros ->. congruence. }
        split.
        -- intros k Hk. destruct (I1 k Hk) as [?|[b Hx]]; [by left|right; exists b]. by apply Hb.
        -- intros k Hk. destruct (I2 k Hk) as [[b Hx]|[? [b Hx]]]; [left; exists b; by apply Hb|right; split; [done|exists b; by apply Hb]].
    + injection Hs as <- <-. intros u Hu Hne. simpl in *. destruct (I u Hu Hne) as [I1 I2].
      destruct (decide (dom u = dom w')) as [Ed|Ed].
      * split.
        -- intros k Hk. left. pose proof (ci_key _ _ _ C u k Hu (late_key _ _ Hk)). rewrite <- Ed, fset_eq. lia.
        -- intros k Hk. right. assert (k <= epoch s (dom u)) as Hle by (apply (ci_key _ _ _ C u k Hu); by rewrite Hk).
           split; [rewrite <- Ed, fset_eq; lia|]. exists a. rewrite fset_eq, <- Ed.
           assert (0 < waiters s (dom u)) by (apply (reg_pos n dom u s Hu C); by rewrite Hk).
           rewrite bool_decide_false by lia. done.
      * assert (w' <> u) as Hne' by congruence.
        assert (forall b, b <> a -> forall x, ag s b = x -> fset a (if negb (bool_decide (waiters s (dom w') = 0)) then AWake (dom w') else AIdle) (ag s) b = x) as Hb.
        { intros b Hb x Hx. by rewrite fset_ne. }
        rewrite fset_ne by done. split.
        -- intros k Hk. destruct (I1 k Hk) as [?|[b Hx]]; [by left|right; exists b]. apply Hb; [congruence|done].
        -- intros k Hk. destruct (I2 k Hk) as [[b Hx]|[? [b Hx]]]; [left; exists b; apply Hb; [congruence|done]|].
           right; split; [done|exists b; apply Hb; [congruence|done]].
    + injection Hs as <- <-. pose proof (jinv_wake_all d s I) as I'. intros u Hu Hne. destruct (I' u Hu Hne) as [I1 I2]. simpl in *.
      split.
      * intros k Hk. destruct (I1 k Hk) as [?|[b Hx]]; [by left|right; exists b]. rewrite fset_ne; [done|congruence].
      * intros k Hk. destruct (I2 k Hk) as [[b Hx]|[? [b Hx]]]; [left; exists b; rewrite fset_ne; [done|congruence]|].
        right. split; [done|]. exists b. rewrite fset_ne; [done|]. intros ->. rewrite Ha in Hx. injection Hx as ->.
        rewrite decide_True in Hk by done. destruct (pc s u); done.
  - unfold destructor, ret, notify in Hs. destruct (dt s).
    + injection Hs as <- <-. done.
    + case_decide; injection Hs as <- <-; [|done]. exact (jinv_epoch d s C I).
    + injection Hs as <- <-. exact (jinv_wake_all d s I).
    + case_match; [|done]. injection Hs as <- <-. done.
    + done.
  - case_decide; [|done]. unfold spurious, ret in Hs. destruct (pc s w) eqn:Hp; try done. injection Hs as <- <-.
    eapply (jinv_pc w _ s); simpl; auto. intros _ k' ->. by right. done.
Qed.

(** ** Shutdown invariant *)

Definition F1 (d : nat) (s : st) : Prop := forall v k, v < n -> dom v = d -> late2 (pc s v) k -> k <> epoch s d.
Definition F2 (d : nat) (s : st) : Prop := forall v k, v < n -> dom v = d -> pc s v <> WBlocked k.

Lemma noted_exiting p : noted p -> exiting p. Proof. by destruct p. Qed.
Lemma woke_noted p : woke p -> noted p. Proof. by destruct p. Qed.
Lemma dwoke_dnoted d p : dwoke d p -> dnoted d p. Proof. destruct p; simpl; lia. Qed.
Lemma fl1_stop d s : finv s -> fl1 d s -> stop s = true.
Proof.
  intros I [(u & Hu & _ & Hp)|Hd]; apply (fi_stop s I).
  - left. exists u. split; [done|]. by apply noted_exiting.
  - right. intros E. by rewrite E in Hd.
Qed.
Lemma fl2_fl1 d s : fl2 d s -> fl1 d s.
Proof.
  intros [(u & Hu & Hd & Hp)|Hd]; [left|right]; [|by apply dwoke_dnoted]. exists u. split_and!; [done..|by apply woke_noted].
Qed.

Lemma finv_pc w p' s s' :
  w < n -> pc s' = fset w p' (pc s) -> epoch s' = epoch s -> dt s' = dt s -> (stop s = true -> stop s' = true) ->
  (exiting p' -> exiting (pc s w) \/ stop s' = true) ->
  (noted p' -> noted (pc s w) \/ F1 (dom w) s') ->
  (woke p' -> woke (pc s w) \/ F2 (dom w) s') ->
  (forall k, late2 p' k -> late2 (pc s w) k \/ stop s = false) ->
  (forall k, p' = WBlocked k -> pc s w = WBlocked k \/ (pc s w = WWait k /\ epoch s (dom w) = k)) ->
  finv s -> finv s'.
Proof.
  intros Hw Hpc He Hdt Hst H1 H2 H3 H4 H5 I. split.
  - intros [(u & Hu & Hx)|Hd].
    + rewrite Hpc in Hx. unfold fset in Hx. case_decide as E.
      * subst u. destruct (H1 Hx) as [?|?]; [|done]. apply Hst, (fi_stop s I). left. eauto.
      * apply Hst, (fi_stop s I). left. eauto.
    + rewrite Hdt in Hd. apply Hst, (fi_stop s I). by right.
  - intros d Hdn Hfl.
    assert (fl1 d s \/ F1 d s') as [Hf|Hf]; [|clear Hfl|by apply Hf].
    { destruct Hfl as [(u & Hu & Hd & Hx)|Hd]; [|left; right; by rewrite <- Hdt].
      rewrite Hpc in Hx. unfold fset in Hx. case_decide as E; [subst u|left; left; eauto].
      destruct (H2 Hx) as [?|?]; [left; left; eauto|right; by rewrite <- Hd]. }
    intros v k Hv Hd Hl. rewrite He. rewrite Hpc in Hl. unfold fset in Hl. case_decide as E; [subst v|by eapply (fi_1 s I)].
    destruct (H4 k Hl) as [Hl'|Hs0]; [by eapply (fi_1 s I)|]. rewrite (fl1_stop d s I Hf) in Hs0. done.
  - intros d Hdn Hfl.
    assert (fl2 d s \/ F2 d s') as [Hf|Hf]; [|clear Hfl|by apply Hf].
    { destruct Hfl as [(u & Hu & Hd & Hx)|Hd]; [|left; right; by rewrite <- Hdt].
      rewrite Hpc in Hx. unfold fset in Hx. case_decide as E; [subst u|left; left; eauto].
      destruct (H3 Hx) as [?|?]; [left; left; eauto|right; by rewrite <- Hd]. }
    intros v k Hv Hd Hl. rewrite Hpc in Hl. unfold fset in Hl. case_decide as E; [subst v|by eapply (fi_2 s I d)].
    destruct (H5 k Hl) as [Hl'|[Hl' Hek]]; [by eapply (fi_2 s I d)|].
    refine (fi_1 s I d Hdn (fl2_fl1 d s Hf) w k Hw Hd _ _); [by rewrite Hl'|]. congruence.
Qed.

Lemma F1_epoch d s : cinv s -> F1 d (set_epoch d (S (epoch s d)) s).
Proof.
  intros C v k Hv Hd Hl. simpl in *. rewrite fset_eq. pose proof (ci_key _ _ _ C v k Hv (late2_key _ _ Hl)). rewrite Hd in *. lia.
Qed.
Lemma F2_waiters d s : cinv s -> waiters s d = 0 -> F2 d s.
Proof.
  intros C Hw v k Hv Hd Hp. assert (0 < waiters s (dom v)); [|by rewrite Hd in *; lia].
  apply (reg_pos n dom v s Hv C). by rewrite Hp.
Qed.
Lemma F2_wake_all d s : F2 d (wake_all dom d s).
Proof. intros v k Hv Hd Hp. simpl in Hp. rewrite decide_True in Hp by done. by destruct (pc s v). Qed.

Lemma finv_epoch d s : cinv s -> finv s -> finv (set_epoch d (S (epoch s d)) s).
Proof.
  intros C [I1 I2 I3]. split; simpl; [done| |done]. intros d' Hd' Hfl v k Hv Hd Hl. unfold fset. case_decide as E.
  - subst d'. pose proof (F1_epoch d s C v k Hv E Hl) as H. simpl in H. by rewrite fset_eq in H.
  - by eapply (I2 d').
Qed.
Lemma finv_wake_all d s : finv s -> finv (wake_all dom d s).
Proof.
  intros [I1 I2 I3].
  assert (forall u (P : wpc -> Prop), P (pc (wake_all dom d s) u) -> P (pc s u) \/ exists k, pc s u = WBlocked k /\ P (WWait k)) as Hx.
  { intros u P. simpl. case_decide; [|by left]. destruct (pc s u); simpl; eauto. }
  assert (forall d', fl1 d' (wake_all dom d s) -> fl1 d' s) as H1.
  { intros d' [(u & Hu & Hd & Hp)|]; [left|by right]. apply Hx in Hp as [?|(k & ? & [])]. eauto. }
  assert (forall d', fl2 d' (wake_all dom d s) -> fl2 d' s) as H2.
  { intros d' [(u & Hu & Hd & Hp)|]; [left|by right]. apply Hx in Hp as [?|(k & ? & [])]. eauto. }
  split.
  - intros [(u & Hu & Hp)|Hd]; apply I1; [left|by right]. apply Hx in Hp as [?|(k & ? & [])]. eauto.
  - intros d' Hd' Hfl v k Hv Hd Hl. apply (Hx v (fun p => late2 p k)) in Hl as [Hl|(k' & Hb & Hl)]; simpl; [by eapply (I2 d'); eauto|].
    eapply (I2 d'); eauto. rewrite Hb. simpl in *. done.
  - intros d' Hd' Hfl v k Hv Hd Hl. apply (Hx v (fun p => p = WBlocked k)) in Hl as [Hl|(k' & Hb & Hl)]; [|done]. by eapply (I3 d'); eauto.
Qed.
Lemma finv_wake_one d t s s' : wake_one n dom d t s = Some s' -> finv s -> finv s'.
Proof.
  intros Hw I. apply wake_one_cases in Hw as [(u & k & Hu & Hd & Hp & ->)|[-> _]]; [|done].
  eapply (finv_pc u (WWait k) s); simpl; try done. intros k' ->. left. by rewrite Hp.
Qed.

Lemma finv_init : finv init.
Proof.
  split; simpl.
  - intros [(u & _ & [])|]; done.
  - intros d _ [(u & _ & _ & [])|[]].
  - intros d _ [(u & _ & _ & [])|[]].
Qed.

Lemma worker_finv w c s s' tr : w < n -> cinv s -> finv s -> worker w c s = Next s' tr -> finv s'.
Proof.
  intros Hw C I Hs. unfold LazyModel.worker, ret, notify, unregister, thief_sub in Hs.
  destruct (pc s w) eqn:Hp.
  all: try (repeat case_match; try done; simplify_eq; (eapply (finv_pc w _ s); [done|reflexivity|..|done]);
    rewrite ?Hp; simpl; intros; try done; simplify_eq; auto; fail).
  all: try (injection Hs as <- <-; (eapply (finv_pc w _ (set_epoch _ _ s)); [done|reflexivity|..|by apply finv_epoch]);
    simpl; rewrite ?Hp; repeat case_match; simpl; intros; try done; simplify_eq; auto; fail).
  - destruct (wake_one _ _ _ _ _) as [s1|] eqn:Hwk; [|done]; injection Hs as <- <-. 
    eapply (finv_pc w _ s1); [done|reflexivity|done..|by eapply finv_wake_one].
  - destruct (wake_one _ _ _ _ _) as [s1|] eqn:Hwk; [|done]; injection Hs as <- <-. 
    eapply (finv_pc w _ s1); [done|reflexivity|done..|by eapply finv_wake_one].
  - (* XNote *)
    injection Hs as <- <-. eapply (finv_pc w _ (set_epoch _ _ s)); [done|reflexivity|done|done|done|..|by apply finv_epoch].
    + intros _. left. simpl. by rewrite Hp.
    + intros _. right. intros v k Hv Hd Hl. simpl in *. unfold fset in Hl. case_decide; [by repeat case_match|].
      pose proof (F1_epoch (dom w) s C v k Hv Hd Hl). done.
    + intros Hwk. right. case_bool_decide as Hz; [|done]. intros v k Hv Hd Hpv. simpl in Hpv. unfold fset in Hpv. case_decide; [done|].
      by eapply (F2_waiters (dom w) s).
    + intros k. by repeat case_match.
    + intros k. by repeat case_match.
  - (* XWake *)
    injection Hs as <- <-. eapply (finv_pc w _ (wake_all dom (dom w) s)); [done|reflexivity|done|done|done|..|by apply finv_wake_all].
    + intros _. left. simpl. case_decide; by rewrite Hp.
    + intros _. left. simpl. case_decide; by rewrite Hp.
    + intros _. right. intros v k Hv Hd Hpv. simpl in Hpv. unfold fset in Hpv. case_decide; [done|].
      by eapply (F2_wake_all (dom w) s).
    + done.
    + done.
Qed.

Lemma step_finv l s s' tr : cinv s -> finv s -> step l s = Next s' tr -> finv s'.
Proof.
  intros C I Hs. destruct l as [w c|a w j| |w]; simpl in Hs.
  - case_decide; [|done]. by eapply worker_finv.
  - unfold agent, ret, notify in Hs. destruct (ag s a) as [|w'|d] eqn:Ha.
    + case_decide; [|done]. injection Hs as <- <-. by destruct I.
    + injection Hs as <- <-. by destruct (finv_epoch (dom w') s C I).
    + injection Hs as <- <-. by destruct (finv_wake_all d s I).
  - unfold destructor, ret, notify in Hs. destruct (dt s) eqn:Hdt.
    + injection Hs as <- <-. destruct I as [I1 I2 I3]. split; simpl; [done|..].
      * intros d Hd [Hx|Hx]; [|simpl in Hx; lia]. apply I2; [done|by left].
      * intros d Hd [Hx|Hx]; [|simpl in Hx; lia]. apply I3; [done|by left].
    + case_decide as Hdn.
      * injection Hs as <- <-. pose proof (F1_epoch d s C) as Hf1. destruct (finv_epoch d s C I) as [I1 I2 I3]. split; simpl.
        -- intros _. apply I1. right. simpl. by rewrite Hdt.
        -- intros d' Hd' Hfl. destruct (decide (d' = d)) as [->|Hne]; [exact Hf1|]. apply I2; [done|].
           destruct Hfl as [?|Hfl]; [by left|right]. simpl in *. rewrite Hdt. case_bool_decide; simpl in *; lia.
        -- intros d' Hd' Hfl. case_bool_decide as Hz; simpl in *.
           ++ destruct (decide (d' = d)) as [->|Hne]; [by apply (F2_waiters d s C)|]. apply I3; [done|].
              destruct Hfl as [?|Hfl]; [by left|right]. simpl in *. rewrite Hdt. simpl. lia.
           ++ apply I3; [done|]. destruct Hfl as [?|Hfl]; [by left|right]. simpl in *. rewrite Hdt. simpl. lia.
      * injection Hs as <- <-. destruct I as [I1 I2 I3]. split; simpl.
        -- intros _. apply I1. right. by rewrite Hdt.
        -- intros d' Hd' _. apply I2; [done|]. right. rewrite Hdt. simpl. lia.
        -- intros d' Hd' _. apply I3; [done|]. right. rewrite Hdt. simpl. lia.
    + injection Hs as <- <-. pose proof (F2_wake_all d s) as Hf2. destruct (finv_wake_all d s I) as [I1 I2 I3]. split; simpl.
      * intros _. apply I1. right. simpl. by rewrite Hdt.
      * intros d' Hd' Hfl. apply I2; [done|]. destruct Hfl as [?|Hfl]; [by left|right]. simpl in *. rewrite Hdt. simpl. lia.
      * intros d' Hd' Hfl. destruct (decide (d' = d)) as [->|Hne]; [exact Hf2|]. apply I3; [done|].
        destruct Hfl as [?|Hfl]; [by left|right]. simpl in *. rewrite Hdt. simpl. lia.
    + case_match; [|done]. injection Hs as <- <-. destruct I as [I1 I2 I3]. split; simpl.
      * intros _. apply I1. right. by rewrite Hdt.
      * intros d' Hd' _. apply I2; [done|]. right. by rewrite Hdt.
      * intros d' Hd' _. apply I3; [done|]. right. by rewrite Hdt.
    + done.
  - case_decide; [|done]. unfold spurious, ret in Hs. destruct (pc s w) eqn:Hp; try done. injection Hs as <- <-.
    eapply (finv_pc w _ s); simpl; try done. intros k' ->. left. by rewrite Hp.
Qed.
End Inv.
