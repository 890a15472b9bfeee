(** * lazy_pool with the memory orderings of the code: invariants. *)

From stdpp Require Import prelude list.
From Coq Require Import Lia.
From Verif Require Import PoolCommon PoolFair PoolSpec LazyModel LazySpec LazyProofs LazyInv LazyLive LazyHist LazyWeakModel.

Section Weak.
Context (n nd : nat) (dom : nat -> nat).
Notation worker := (worker n nd dom).
Notation step := (step n nd dom).
Notation wstep := (wstep n nd dom).
Notation wreach := (wreach n nd dom).
Notation rmw := (rmw nd dom).
Notation loads := (loads nd).
Notation cinv := (cinv n dom).
Notation finv := (finv n nd dom).
Notation jinv := (jinv n dom).
Notation fl1 := (fl1 n dom).

(** ** A step is a load or a step of the interleaving model *)

Inductive wcase (sc : bool) (s : ws) (s' : ws) (tr : list pev) : Prop :=
| WLoad w x i : w < n -> loads w (base s) = Some x -> tv s (TidW w) x <= i -> i <= clock s x -> (sc = true -> i = clock s x) ->
    base s' = loaded w (vals s x i) (base s) -> clock s' = clock s -> vals s' = vals s -> mview s' = mview s ->
    (forall y, tv s (TidW w) y <= tv s' (TidW w) y) -> i <= tv s' (TidW w) x -> (forall u, u <> TidW w -> tv s' u = tv s u) -> tr = [] -> wcase sc s s' tr
| WOther l b : (forall w c, l = LWorker w c -> loads w (base s) = None) -> step l (base s) = Next b tr ->
    s' = record (rmw l (base s)) b s -> wcase sc s s' tr.

Lemma wstep_cases sc wl s s' tr : wstep sc wl s = Next s' tr -> wcase sc s s' tr.
Proof.
  destruct wl as [l i]. unfold LazyWeakModel.wstep.
  assert (forall o, (forall w c, l = LWorker w c -> loads w (base s) = None) ->
    o = match step l (base s) with Next b tr => Next (record (rmw l (base s)) b s) tr | Undef => Undef | Blocked => Blocked end ->
    o = Next s' tr -> wcase sc s s' tr) as Ho.
  { intros o Hn -> Hs. destruct (step l (base s)) as [b t| |] eqn:E; try done. injection Hs as <- <-. by eapply WOther. }
  destruct l as [w c|a w j| |w]; try (by intros Hs; eapply Ho; [|reflexivity|exact Hs]).
  destruct (loads w (base s)) as [x|] eqn:El.
  - case_decide as Hd; [|done]. destruct Hd as (Hw & H1 & H2 & H3). intros [= <- <-].
    eapply (WLoad sc s _ _ w x i); try done; simpl.
    + intros y. rewrite decide_True by done. unfold vjoin, vset. case_decide; [subst|]; lia.
    + rewrite decide_True by done. unfold vjoin, vset. rewrite decide_True by done. lia.
    + intros u Hu. by rewrite decide_False.
  - intros Hs. eapply Ho; [|reflexivity|exact Hs]. intros w' c' [= <- <-]. done.
Qed.

(** ** Loads only move the program counter, within its class *)

Lemma loaded_pc w v x s : loads w s = Some x -> exists p, loaded w v s = set_pc w p s /\
  thiefst p = thiefst (pc s w) /\ regst p = regst (pc s w) /\ activest p = activest (pc s w) /\ arrst p = arrst (pc s w) /\
  (forall k, keyof p = Some k -> keyof (pc s w) = Some k) /\ (forall k, late p k -> late (pc s w) k) /\ (forall k, p <> WBlocked k) /\
  lheld p = lheld (pc s w) /\ ~ noted p /\
  (forall k, late2 p k -> late2 (pc s w) k \/ (pc s w = WStop k /\ x = LStop /\ v = 0)) /\
  (exiting p -> x = LStop /\ v <> 0) /\
  (forall k, p <> WPop2 k) /\ (forall k, p <> WStop k) /\ p <> XDone.
Proof.
  unfold LazyWeakModel.loads, loaded. destruct (pc s w); try done; [..|case_decide; [|done]]; intros [= <-]; case_decide;
    (eexists; split; [reflexivity|]; simpl; split_and!; try done; try tauto).
  intros k' ->. right. done.
Qed.

Lemma loaded_cinv w v x s : w < n -> loads w s = Some x -> cinv s -> cinv (loaded w v s).
Proof.
  intros Hw Hl C. destruct (loaded_pc w v x s Hl) as (p & -> & H1 & H2 & H3 & H4 & H5 & _).
  eapply (cinv_pc n dom w p s); [done|done|..|done]; simpl; rewrite ?H1, ?H2, ?H3, ?H4; auto.
Qed.
Lemma loaded_jinv w v x s : w < n -> loads w s = Some x -> jinv s -> jinv (loaded w v s).
Proof.
  intros Hw Hl J. destruct (loaded_pc w v x s Hl) as (p & -> & _ & _ & _ & _ & _ & H6 & H7 & _).
  eapply (jinv_pc n dom w p s); simpl; auto. intros _ k ->. by destruct (H7 k).
Qed.

(** ** Facts about the steps of the interleaving model *)

Lemma worker_noted w c s s' tr : worker w c s = Next s' tr -> noted (pc s' w) -> noted (pc s w) \/ pc s w = XNote.
Proof.
  intros Hs. unfold LazyModel.worker, ret, notify, unregister, thief_sub in Hs. destruct (pc s w) eqn:Hp; try (intros _; by left); try (intros _; by right).
  all: try (destruct (wake_one _ _ _ _ _) as [s1|] eqn:Hwk; [|done]; injection Hs as <- <-; simpl; rewrite fset_eq; done).
  all: repeat case_match; try done; simplify_eq; simpl; rewrite fset_eq; done.
Qed.
Lemma worker_exiting w c s s' tr : worker w c s = Next s' tr -> loads w s = None -> exiting (pc s' w) -> exiting (pc s w).
Proof.
  intros Hs Hl. unfold LazyModel.worker, ret, notify, unregister, thief_sub in Hs. unfold LazyWeakModel.loads in Hl. destruct (pc s w) eqn:Hp; try done.
  all: try (destruct (wake_one _ _ _ _ _) as [s1|] eqn:Hwk; [|done]; injection Hs as <- <-; simpl; rewrite fset_eq; done).
  all: repeat case_match; try done; simplify_eq; simpl; rewrite fset_eq; done.
Qed.
Lemma worker_looks w c s s' tr k : worker w c s = Next s' tr -> pc s' w = WPop2 k \/ pc s' w = WStop k ->
  (pc s w = WPrep /\ k = epoch s (dom w) /\ epoch s' = epoch s) \/ (pc s w = WPop2 k /\ epoch s' = epoch s).
Proof.
  intros Hs. unfold LazyModel.worker, ret, notify, unregister, thief_sub in Hs. destruct (pc s w) eqn:Hp.
  all: try (destruct (wake_one _ _ _ _ _) as [s1|] eqn:Hwk; [|done]; injection Hs as <- <-; simpl; rewrite fset_eq; by intros [?|?]).
  all: repeat case_match; try done; simplify_eq; simpl; rewrite ?fset_eq; intros [E|E]; simplify_eq; auto.
Qed.

Definition w_ok (l : lab) : Prop := match l with LWorker w _ => w < n | _ => True end.

(** The step announces the end to domain [d]. *)
Definition notes (d : nat) (l : lab) (s : st) : Prop :=
  match l with
  | LWorker w _ => pc s w = XNote /\ dom w = d
  | LDtor => dt s = DNote d
  | _ => False
  end.

Lemma worker_dt w c s s' tr : worker w c s = Next s' tr -> dt s' = dt s.
Proof.
  intros Hs. unfold LazyModel.worker, ret, notify, unregister, thief_sub in Hs. destruct (pc s w) eqn:Hp.
  all: try (destruct (wake_one _ _ _ _ _) as [s1|] eqn:Hwk; [|done]; injection Hs as <- <-; simpl; by apply wake_one_classes in Hwk as (_ & _ & _ & _ & _ & _ & _ & _ & _ & ->)).
  all: repeat case_match; try done; simplify_eq; done.
Qed.

Lemma step_fl1 l s s' tr d : d < nd -> step l s = Next s' tr -> fl1 d s' -> fl1 d s \/ notes d l s.
Proof.
  intros Hd Hs Hf.
  assert (forall u, u < n -> dom u = d -> noted (pc s' u) -> noted (pc s u) \/ (exists c, l = LWorker u c)) as Hu.
  { intros u Hu Hud Hp. assert ((exists c, l = LWorker u c) \/ notw u l) as [?|Hn]; [|by right|].
    { destruct l as [v c| | |]; simpl; auto. destruct (decide (v = u)) as [->|]; eauto. }
    destruct (other_pc n nd dom u l s s' tr Hs Hn) as [E|(k & _ & E)]; rewrite E in Hp; [by left|done]. }
  destruct Hf as [(u & Hun & Hud & Hp)|Hp].
  - destruct (Hu u Hun Hud Hp) as [?|[c ->]]; [by left; left; eauto|]. simpl in Hs. rewrite decide_True in Hs by done.
    destruct (worker_noted u c s s' tr Hs Hp) as [?|E]; [by left; left; eauto|]. right. done.
  - assert (l = LDtor \/ l <> LDtor) as [->|Hne] by (destruct l; auto; by right).
    + simpl in Hs |- *. unfold destructor, ret, notify in Hs. destruct (dt s) as [|i|i| |] eqn:E; simplify_eq/=.
      * lia.
      * case_decide; simplify_eq/=; [|by left; right; rewrite E; simpl; lia].
        destruct (decide (d = i)) as [->|]; [by right|]. left; right. rewrite E. simpl. case_match; simpl in Hp; lia.
      * left; right. rewrite E. simpl. lia.
      * case_match; simplify_eq. left; right. by rewrite E.
    + left; right. by rewrite <- (other_dt n nd dom l s s' tr Hs Hne).
Qed.

Lemma step_epoch l s s' tr d : step l s = Next s' tr -> epoch s d <= epoch s' d /\ (d < nd -> notes d l s -> epoch s d < epoch s' d).
Proof.
  assert (forall e v, (fset e (S v) (epoch s)) d = (if decide (d = e) then S v else epoch s d)) as Hf by done.
  intros Hs. destruct l as [u c|a u j| |u]; simpl in Hs |- *.
  - case_decide; [|done]. unfold LazyModel.worker, ret, notify, unregister, thief_sub in Hs. destruct (pc s u) eqn:Hp.
    all: try (destruct (wake_one _ _ _ _ _) as [s1|] eqn:Hwk; [|done]; injection Hs as <- <-; simpl; apply wake_one_classes in Hwk as (_ & _ & _ & _ & _ & -> & _); split; [lia|by intros _ [? _]]).
    all: repeat case_match; try done; simplify_eq; simpl; rewrite ?Hf; try destruct (decide (d = _)); subst; split; try lia; try (intros _ [? ?]; congruence).
  - unfold agent, ret, notify in Hs. repeat case_match; try done; simplify_eq; simpl; rewrite ?Hf; try destruct (decide (d = _)); subst; split; try lia; done.
  - unfold destructor, ret, notify in Hs. destruct (dt s) as [|i|i| |] eqn:E; repeat case_match; try done; simplify_eq; simpl; rewrite ?Hf; try destruct (decide (d = _)); subst; split; try lia; try done; intros ? [= ->]; done.
  - unfold spurious, ret in Hs. repeat case_match; try done; simplify_eq; simpl. split; [lia|done].
Qed.

(** A test_and_set sets the flag. *)
Lemma rmw_stop l s s' tr : step l s = Next s' tr -> forall t a r, rmw l s = Some (t, LStop, a, r) -> stop s' = true.
Proof.
  intros Hs t a r Hr. destruct l as [u c|v u j| |u]; simpl in Hs, Hr; [|by repeat case_match|..|done].
  - case_decide; [|done]. destruct (pc s u) eqn:Hp; simplify_eq. unfold LazyModel.worker in Hs. rewrite Hp in Hs. by simplify_eq.
  - unfold destructor in Hs. destruct (dt s) eqn:Hd; simplify_eq; [done|by case_decide].
Qed.

(** ** What the threads must have seen of the stop flag *)

Record vinv (s : ws) : Prop := VInv {
  vi_0 : vals s LStop 0 = 0;
  vi_1 : forall i, 1 <= i -> i <= clock s LStop -> vals s LStop i = 1;
  vi_stop : 1 <= clock s LStop -> stop (base s) = true;
  vi_exit : forall w, w < n -> exiting (pc (base s) w) -> 1 <= tv s (TidW w) LStop;
  vi_dtor : dt (base s) <> DIdle -> 1 <= tv s TidD LStop;
  vi_event : forall d, d < nd -> fl1 d (base s) -> 1 <= mview s (LEvent d) (clock s (LEvent d)) LStop;
  vi_key : forall w k, w < n -> dom w < nd -> pc (base s) w = WPop2 k \/ pc (base s) w = WStop k -> fl1 (dom w) (base s) ->
    k <> epoch (base s) (dom w) \/ 1 <= tv s (TidW w) LStop
}.

Lemma vinv_init : vinv winit.
Proof.
  split; simpl; try done; try lia.
  - intros d _ [(u & _ & _ & [])|[]].
  - intros w k _ _ [?|?]; done.
Qed.

Lemma record_tv_stop r b s t : 1 <= tv s t LStop -> 1 <= tv (record r b s) t LStop.
Proof.
  intros H. destruct r as [[[[t' x] a] rl]|]; [|done]. simpl. case_decide; [subst|done]. unfold vset. case_decide; [lia|].
  destruct a; [unfold vjoin; lia|done].
Qed.

Lemma record_event r b s d : 1 <= mview s (LEvent d) (clock s (LEvent d)) LStop ->
  1 <= mview (record r b s) (LEvent d) (clock (record r b s) (LEvent d)) LStop.
Proof.
  intros H. destruct r as [[[[t x] a] rl]|]; [|done]. simpl. destruct (decide (LEvent d = x)) as [<-|Hne].
  - rewrite decide_True by done. unfold vjoin. lia.
  - rewrite decide_False by (intros [? ?]; done). done.
Qed.
Lemma record_event_new t d b s : 1 <= tv s t LStop ->
  1 <= mview (record (Some (t, LEvent d, true, true)) b s) (LEvent d) (clock (record (Some (t, LEvent d, true, true)) b s) (LEvent d)) LStop.
Proof.
  intros H. simpl. destruct (decide (LEvent d = LEvent d)) as [_|]; [|done]. rewrite decide_True by done. unfold vjoin at 1. unfold vset.
  destruct (decide (LStop = LEvent d)); [done|]. unfold vjoin. lia.
Qed.

Lemma step_vinv sc wl s s' tr : cinv (base s) -> vinv s -> wstep sc wl s = Next s' tr -> vinv s'.
Proof.
  intros C V Hs. apply wstep_cases in Hs as [w x i Hw Hl H1 H2 H3 Hb Hc Hv Hm Ht Hi Ho ->|l b Hn Hs ->].
  - (* a load *)
    destruct (loaded_pc w (vals s x i) x (base s) Hl) as (p & Ep & _ & _ & _ & _ & _ & _ & _ & _ & Hno & _ & Hex & Hp2 & Hst & _).
    assert (base s' = set_pc w p (base s)) as Eb by (by rewrite Hb, Ep).
    assert (forall d, fl1 d (base s') -> fl1 d (base s)) as Hf.
    { intros d. rewrite Eb. intros [(u & Hu & Hd & Hx)|Hx]; [|by right]. simpl in Hx. unfold fset in Hx. case_decide; [done|]. left. eauto. }
    assert (forall u, 1 <= tv s u LStop -> 1 <= tv s' u LStop) as Htv.
    { intros u Hu. destruct (decide (u = TidW w)) as [->|Hne]; [specialize (Ht LStop); lia|by rewrite Ho]. }
    split; rewrite ?Hv, ?Hc, ?Hm.
    + apply (vi_0 s V).
    + apply (vi_1 s V).
    + rewrite Eb. apply (vi_stop s V).
    + intros u Hu Hx. rewrite Eb in Hx. simpl in Hx. unfold fset in Hx. case_decide as E; [|apply Htv; by apply (vi_exit s V)].
      subst u. destruct (Hex Hx) as [-> Hv0]. destruct (decide (i = 0)) as [->|Hi0]; [by rewrite (vi_0 s V) in Hv0|]. lia.
    + intros Hd. rewrite Eb in Hd. apply Htv. by apply (vi_dtor s V).
    + intros d Hd Hx. apply (vi_event s V); auto.
    + intros u k Hu Hdu Hx Hfl. rewrite Eb in Hx |- *. simpl in Hx |- *. unfold fset in Hx. case_decide as E; [destruct Hx as [Hx|Hx]; [by destruct (Hp2 k)|by destruct (Hst k)]|].
      destruct (vi_key s V u k Hu Hdu Hx (Hf _ Hfl)) as [?|?]; auto.
  - (* other steps *)
    assert (base (record (rmw l (base s)) b s) = b) as Eb by (by destruct (rmw l (base s)) as [[[[? ?] ?] ?]|]).
    assert (forall d, d < nd -> fl1 d b -> fl1 d (base s) \/ notes d l (base s)) as Hf by (intros d Hd; by apply (step_fl1 l _ _ tr)).
    assert (forall d, d < nd -> w_ok l -> notes d l (base s) -> exists t, rmw l (base s) = Some (t, LEvent d, true, true) /\ 1 <= tv s t LStop) as Hnt.
    { intros d Hd Hok Hnt. destruct l as [w c|a w j| |w]; try done; simpl in Hnt |- *.
      - destruct Hnt as [E <-]. exists (TidW w). rewrite E. split; [done|]. apply (vi_exit s V); [done|]. by rewrite E.
      - exists TidD. rewrite Hnt, decide_True by done. split; [done|]. apply (vi_dtor s V). by rewrite Hnt. }
    assert (w_ok l) as Hok by (destruct l; simpl in *; try done; by case_decide).
    assert (stop (base s) = true -> stop b = true) as Hmono by (intros E; apply (step_stop n nd dom l _ _ tr Hs); by left).
    split; rewrite ?Eb.
    + destruct (rmw l (base s)) as [[[[t x] a] rl]|]; simpl; [rewrite decide_False by (intros [? ?]; done)|]; apply (vi_0 s V).
    + intros i Hi. pose proof (rmw_stop l _ _ tr Hs) as Hst. destruct (rmw l (base s)) as [[[[t x] a] rl]|]; simpl; [|by apply (vi_1 s V)].
      destruct (decide (LStop = x)) as [<-|Hne].
      * destruct (decide (LStop = LStop)) as [_|]; [|done]. intros Hi'. case_decide as E; [unfold newest; by rewrite (Hst _ _ _ eq_refl)|]. apply (vi_1 s V); [done|]. destruct (decide (i = S (clock s LStop))) as [->|]; [by destruct E|lia].
      * destruct (decide (LStop = x)); [done|]. intros Hi'. rewrite decide_False by (intros [? ?]; done). by apply (vi_1 s V).
    + pose proof (rmw_stop l _ _ tr Hs) as Hst. destruct (rmw l (base s)) as [[[[t x] a] rl]|]; simpl; [|intros Hc; by apply Hmono, (vi_stop s V)].
      case_decide as E; [subst x; intros _; by apply (Hst _ _ _ eq_refl)|]. intros Hc. by apply Hmono, (vi_stop s V).
    + intros u Hu Hx. apply record_tv_stop, (vi_exit s V); [done|].
      assert ((exists c, l = LWorker u c) \/ notw u l) as [[c ->]|Hnw].
      { destruct l as [v c| | |]; simpl; auto. destruct (decide (v = u)) as [->|]; eauto. }
      * simpl in Hs. rewrite decide_True in Hs by done. by eapply worker_exiting; [exact Hs|by eapply Hn|].
      * destruct (other_pc n nd dom u l _ _ tr Hs Hnw) as [<-|(k & _ & E)]; [done|by rewrite E in Hx].
    + intros Hd. assert (l = LDtor \/ l <> LDtor) as [->|Hne] by (destruct l; auto; by right).
      * assert (dt (base s) = DIdle \/ dt (base s) <> DIdle) as [E|E] by (destruct (dt (base s)); auto).
        -- simpl. rewrite E. simpl. unfold vset. repeat (case_decide; try done); lia.
        -- apply record_tv_stop. by apply (vi_dtor s V).
      * apply record_tv_stop. apply (vi_dtor s V). by rewrite <- (other_dt n nd dom l _ _ tr Hs Hne).
    + intros d Hd Hx. destruct (Hf d Hd Hx) as [Hy|Hy]; [by apply record_event, (vi_event s V)|].
      destruct (Hnt d Hd Hok Hy) as (t & -> & Ht). by apply record_event_new.
    + intros u k Hu Hdu Hx Hfl.
      assert ((exists c, l = LWorker u c) \/ notw u l) as [[c ->]|Hnw].
      { destruct l as [v c| | |]; simpl; auto. destruct (decide (v = u)) as [->|]; eauto. }
      * simpl in Hs. rewrite decide_True in Hs by done. destruct (worker_looks u c _ _ tr k Hs Hx) as [(E & -> & Ee)|(E & Ee)].
        -- right. destruct (Hf _ Hdu Hfl) as [Hy|[Hy _]]; [|congruence]. pose proof (vi_event s V _ Hdu Hy) as Hev.
           simpl. rewrite E. simpl. rewrite decide_True by done. unfold vset. rewrite decide_False by done. unfold vjoin. lia.
        -- destruct (Hf _ Hdu Hfl) as [Hy|[Hy _]]; [|congruence]. rewrite Ee.
           destruct (vi_key s V u k Hu Hdu (or_introl E) Hy) as [?|?]; [by left|right; by apply record_tv_stop].
      * destruct (other_pc n nd dom u l _ _ tr Hs Hnw) as [Ep|(k' & _ & E)]; [|rewrite E in Hx; by destruct Hx].
        rewrite Ep in Hx. assert (k <= epoch (base s) (dom u)) as Hk by (apply (ci_key _ _ _ C u k Hu); by destruct Hx as [->| ->]).
        destruct (step_epoch l _ _ tr (dom u) Hs) as [He1 He2].
        destruct (Hf _ Hdu Hfl) as [Hy|Hy]; [|left; specialize (He2 Hdu Hy); lia].
        destruct (vi_key s V u k Hu Hdu Hx Hy) as [?|?]; [left; lia|right; by apply record_tv_stop].
Qed.

(** ** The invariants of LazyInv.v *)

(** Who reads an unset flag after his domain has been told to stop does not sleep. *)
Lemma loaded_finv s s' w x i : cinv (base s) -> vinv s -> finv (base s) ->
  w < n -> loads w (base s) = Some x -> tv s (TidW w) x <= i -> i <= clock s x ->
  base s' = loaded w (vals s x i) (base s) -> finv (base s').
Proof.
  intros C V F Hw Hl H1 H2 ->.
  destruct (loaded_pc w (vals s x i) x (base s) Hl) as (p & -> & _ & _ & _ & _ & _ & _ & Hnb & _ & Hno & Hl2 & Hex & _).
  assert (forall d, fl1 d (set_pc w p (base s)) -> fl1 d (base s)) as Hf.
  { intros d [(u & Hu & Hd & Hx)|Hx]; [|by right]. simpl in Hx. unfold fset in Hx. case_decide; [done|]. left. eauto. }
  assert (forall d, LazyInv.fl2 n dom d (set_pc w p (base s)) -> LazyInv.fl2 n dom d (base s)) as Hf2.
  { intros d [(u & Hu & Hd & Hx)|Hx]; [|by right]. simpl in Hx. unfold fset in Hx. case_decide; [by apply woke_noted in Hx|]. left. eauto. }
  split.
  - intros [(u & Hu & Hx)|Hx]; simpl in *; [|by apply (fi_stop _ _ _ _ F); right]. unfold fset in Hx. case_decide as E; [|apply (fi_stop _ _ _ _ F); left; eauto].
    destruct (Hex Hx) as [-> Hv]. apply (vi_stop s V). destruct (decide (i = 0)) as [->|]; [by rewrite (vi_0 s V) in Hv|lia].
  - intros d Hd Hfl v k Hv Hvd Hk. simpl in *. unfold fset in Hk. case_decide as E; [|by eapply (fi_1 _ _ _ _ F); eauto]. subst v.
    destruct (Hl2 k Hk) as [?|(E & -> & Hv0)]; [by eapply (fi_1 _ _ _ _ F); eauto|].
    rewrite <- Hvd in *. destruct (vi_key s V w k Hw Hd (or_intror E) (Hf _ Hfl)) as [?|?]; [done|].
    rewrite (vi_1 s V) in Hv0 by lia. done.
  - intros d Hd Hfl v k Hv Hvd Hk. simpl in *. unfold fset in Hk. case_decide as E; [by destruct (Hnb k)|]. by eapply (fi_2 _ _ _ _ F d); eauto.
Qed.

Theorem wreach_all sc s h : wreach sc s h -> cinv (base s) /\ finv (base s) /\ jinv (base s) /\ vinv s /\ hinv (base s) h.
Proof.
  induction 1 as [|s h l s' tr Hr (C & F & J & V & H) Hs].
  - split_and!; [apply cinv_init|apply finv_init|apply jinv_init|apply vinv_init|apply reach_hinv with n nd dom; constructor].
  - pose proof (step_vinv sc l s s' tr C V Hs) as V'. apply wstep_cases in Hs as [w x i Hw Hl H1 H2 H3 Hb _ _ _ _ _ _ ->|l' b _ Hs ->].
    + split_and!; [rewrite Hb; by eapply loaded_cinv|by eapply loaded_finv|rewrite Hb; by eapply loaded_jinv|done|].
      simpl. rewrite Hb. destruct (loaded_pc w (vals s x i) x (base s) Hl) as (p & -> & _ & _ & _ & _ & _ & _ & _ & Hh & _).
      destruct H as [I1 I2]. split; [|done]. intros u. simpl. rewrite I1. unfold fset. case_decide; [subst; by rewrite Hh|done].
    + assert (base (record (rmw l' (base s)) b s) = b) as -> by (by destruct (rmw l' (base s)) as [[[[? ?] ?] ?]|]).
      split_and!; [by eapply step_cinv|by eapply step_finv|by eapply step_jinv|done|by eapply step_hinv].
Qed.

Lemma wreach_defined sc s h l : wreach sc s h -> wstep sc l s <> Undef.
Proof.
  intros Hr. destruct (wreach_all sc s h Hr) as (C & _). destruct l as [l i]. unfold LazyWeakModel.wstep.
  pose proof (step_defined n nd dom l (base s) C) as Hd. destruct l as [w c|a w j| |w]; repeat case_match; congruence.
Qed.
(** ** Loads of newest values: the interleaving model *)

Definition loadable (x : loc) : Prop := match x with LThief _ | LActive | LStop => True | _ => False end.

(** Every write to a loaded location is recorded. *)
Lemma step_newest l s s' tr x : step l s = Next s' tr -> loadable x ->
  newest x s' = newest x s \/ exists t a r, rmw l s = Some (t, x, a, r).
Proof.
  intros Hs Hx. destruct l as [u c|v u j| |u]; simpl in Hs.
  - case_decide; [|done]. simpl. unfold LazyModel.worker, ret, notify, unregister, thief_sub in Hs. destruct (pc s u) eqn:Hp.
    all: try (destruct (wake_one _ _ _ _ _) as [s1|] eqn:Hwk; [|done]; injection Hs as <- <-; left;
      apply wake_one_classes in Hwk as (_ & E1 & _ & E2 & _ & _ & E3 & _); destruct x; simpl; by rewrite ?E1, ?E2, ?E3).
    all: repeat case_match; try done; simplify_eq; try (left; by destruct x).
    all: destruct x as [d| | | |]; simpl; auto; try (by right; eauto).
    all: destruct (decide (d = dom u)) as [->|]; [right; eauto|left; by rewrite fset_ne].
  - left. unfold agent, ret, notify in Hs. repeat case_match; try done; simplify_eq; by destruct x.
  - simpl. unfold destructor, ret, notify in Hs. destruct (dt s) eqn:Hd; [|left; repeat case_match; try done; simplify_eq; by destruct x..].
    injection Hs as <- <-. destruct x; simpl; auto. right; eauto.
  - left. unfold spurious, ret in Hs. repeat case_match; try done; simplify_eq; by destruct x.
Qed.

Lemma loaded_newest w c x s : w < n -> loads w s = Some x -> step (LWorker w c) s = Next (loaded w (newest x s) s) [].
Proof.
  intros Hw. unfold LazyWeakModel.loads, loaded. simpl. rewrite decide_True by done. unfold LazyModel.worker, ret.
  destruct (pc s w); try done; [..|case_decide; [|done]]; intros [= <-]; simpl; try done. by destruct (stop s).
Qed.

Lemma loads_loadable w x s : loads w s = Some x -> loadable x.
Proof. unfold LazyWeakModel.loads. repeat case_match; intros; by simplify_eq. Qed.

(** Messages carry the values; nobody has seen messages of the future. *)
Record ninv (s : ws) : Prop := NInv {
  ni_val : forall x, loadable x -> vals s x (clock s x) = newest x (base s);
  ni_tv : forall t x, tv s t x <= clock s x;
  ni_mv : forall y i x, mview s y i x <= clock s x
}.

Lemma loaded_same w v x y s : loads w s = Some x -> newest y (loaded w v s) = newest y s.
Proof. intros Hl. destruct (loaded_pc w v x s Hl) as (p & -> & _). by destruct y. Qed.

Lemma record_ninv l b tr s : ninv s -> step l (base s) = Next b tr -> ninv (record (rmw l (base s)) b s).
Proof.
  intros [I1 I2 I3] Hs. pose proof (fun x => step_newest l _ _ tr x Hs) as Hn. destruct (rmw l (base s)) as [[[[t x] a] r]|] eqn:Er.
  - assert (forall y, clock s y <= (if decide (y = x) then S (clock s x) else clock s y)) as Hc by (intros y; case_decide; [subst; lia|done]).
    assert (forall y, (if a then vjoin (tv s t) (mview s x (clock s x)) else tv s t) y <= clock s y) as Ha.
    { intros y. specialize (I2 t y). specialize (I3 x (clock s x) y). destruct a; [unfold vjoin; lia|lia]. }
    split; simpl.
    + intros y Hy. destruct (decide (y = x)) as [->|Hne]; [by rewrite decide_True by done|].
      rewrite decide_False by (intros [? ?]; done). destruct (Hn y Hy) as [->|(t' & a' & r' & [= ? ? ? ?])]; [by apply I1|done].
    + intros u y. pose proof (Hc y). pose proof (I2 u y). pose proof (Ha y). destruct (decide (u = t)); [|lia]. unfold vset. destruct (decide (y = x)); lia.
    + intros y i z. pose proof (Hc z). destruct (decide (y = x /\ i = S (clock s x))); [|pose proof (I3 y i z); lia]. pose proof (I3 x (clock s x) z) as Hm.
      pose proof (Ha z) as Haz. unfold vjoin at 1. destruct r; unfold vset, vbot; destruct (decide (z = x)); subst; lia.
  - split; simpl; [|done..]. intros y Hy. destruct (Hn y Hy) as [->|(? & ? & ? & ?)]; [by apply I1|done].
Qed.

Lemma wstep_ninv sc wl s s' tr : ninv s -> wstep sc wl s = Next s' tr -> ninv s'.
Proof.
  destruct wl as [l i]. unfold LazyWeakModel.wstep. intros N Hs.
  assert (forall o, o = match step l (base s) with Next b tr => Next (record (rmw l (base s)) b s) tr | Undef => Undef | Blocked => Blocked end ->
    o = Next s' tr -> ninv s') as Ho.
  { intros o -> Ho. destruct (step l (base s)) as [b t| |] eqn:E; try done. injection Ho as <- <-. by eapply record_ninv. }
  destruct l as [w c|a w j| |w]; try (by eapply Ho; [reflexivity|exact Hs]).
  destruct (loads w (base s)) as [x|] eqn:El; [|by eapply Ho; [reflexivity|exact Hs]].
  case_decide as Hd; [|done]. destruct Hd as (Hw & H1 & H2 & H3). injection Hs as <- <-. destruct N as [I1 I2 I3]. split; simpl.
  - intros y Hy. rewrite (loaded_same w _ x) by done. by apply I1.
  - intros t y. case_decide; [|done]. subst t. pose proof (I2 (TidW w) y). pose proof (I3 x i y). unfold vjoin, vset. case_decide; [subst|]; lia.
  - done.
Qed.
Lemma wreach_ninv sc s h : wreach sc s h -> ninv s.
Proof.
  induction 1 as [|s h l s' tr Hr IH Hs]; [|by eapply wstep_ninv]. split; simpl; try done. by intros [].
Qed.

(** If loads return the newest values then the executions are those of LazyModel.v. *)
Lemma wreach_sc s h : wreach true s h -> reach n nd dom (base s) h.
Proof.
  induction 1 as [|s h l s' tr Hr IH Hs]; [constructor|]. pose proof (wreach_ninv true s h Hr) as N.
  apply wstep_cases in Hs as [w x i Hw Hl H1 H2 H3 Hb _ _ _ _ _ _ ->|l' b _ Hs ->].
  - rewrite Hb, (H3 eq_refl), (ni_val s N) by (by eapply loads_loadable). eapply (reach_step _ _ _ _ h (LWorker w (Choice false None)) _ [] IH).
    by apply loaded_newest.
  - assert (base (record (rmw l' (base s)) b s) = b) as -> by (by destruct (rmw l' (base s)) as [[[[? ?] ?] ?]|]). by econstructor.
Qed.

(** All executions of LazyModel.v are executions here. *)
Lemma reach_weak sc s h : reach n nd dom s h -> exists w, wreach sc w h /\ base w = s.
Proof.
  induction 1 as [|s h l s' tr Hr (w & Hw & <-) Hs]; [exists winit; split; [constructor|done]|].
  pose proof (wreach_ninv sc w h Hw) as N.
  assert ((exists u c x, l = LWorker u c /\ loads u (base w) = Some x) \/ (forall i, wstep sc (WLab l i) w = Next (record (rmw l (base w)) s' w) tr)) as [(u & c & x & -> & El)|Hx].
  { unfold LazyWeakModel.wstep. rewrite Hs. destruct l as [u c| | |]; auto. destruct (loads u (base w)) eqn:El; eauto 10. }
  - assert (u < n) as Hu by (simpl in Hs; by case_decide). rewrite (loaded_newest u c x _ Hu El) in Hs. injection Hs as <- <-.
    eexists. split; [eapply (wreach_step _ _ _ _ _ _ (WLab (LWorker u c) (clock w x)) _ [] Hw)|].
    + unfold LazyWeakModel.wstep. rewrite El, decide_True; [reflexivity|]. split_and!; [done|apply (ni_tv w N)|done|done].
    + simpl. by rewrite (ni_val w N) by (by eapply loads_loadable).
  - eexists. split; [eapply wreach_step; [exact Hw|apply (Hx 0)]|]. by destruct (rmw l (base w)) as [[[[? ?] ?] ?]|].
Qed.

Lemma step_left l s s' tr : step l s = Next s' tr -> dt s' = DDone -> (dt s = DDone -> forall w, w < n -> pc s w = XDone) ->
  forall w, w < n -> pc s' w = XDone.
Proof.
  intros Hs Hd IH w Hw. assert (l = LDtor \/ l <> LDtor) as [->|Hx] by (destruct l; auto; by right).
  - simpl in Hs. unfold destructor, ret, notify in Hs. destruct (dt s) eqn:E; simpl in Hs.
    + injection Hs as <- _. done.
    + case_decide; injection Hs as <- _; [simpl in Hd; by case_match|done].
    + injection Hs as <- _. done.
    + destruct (forallb _ _) eqn:Ef; [|done]. injection Hs as <- _. rewrite forallb_forall in Ef. simpl.
      specialize (Ef w ltac:(apply in_seq; lia)). by destruct (pc s w).
    + done.
  - assert (dt s = DDone) as E by (by rewrite <- (other_dt n nd dom l _ _ _ Hs Hx)). specialize (IH E w Hw).
    assert ((exists c, l = LWorker w c) \/ notw w l) as [[c ->]|Hn].
    { destruct l as [v c| | |]; simpl; auto. destruct (decide (v = w)) as [->|]; eauto. }
    + simpl in Hs. rewrite decide_True in Hs by done. unfold LazyModel.worker in Hs. by rewrite IH in Hs.
    + destruct (other_pc n nd dom w _ _ _ _ Hs Hn) as [E'|(k & E' & _)]; congruence.
Qed.
Lemma wreach_left sc s h : wreach sc s h -> dt (base s) = DDone -> forall w, w < n -> pc (base s) w = XDone.
Proof.
  induction 1 as [|s h l s' tr Hr IH Hs]; [done|]. intros Hd w Hw.
  apply wstep_cases in Hs as [u x i Hu Hl H1 H2 H3 Hb _ _ _ _ _ _ ->|l' b _ Hs ->].
  - rewrite Hb in Hd |- *. destruct (loaded_pc u (vals s x i) x (base s) Hl) as (p & E & _). rewrite E in *. simpl in *.
    specialize (IH Hd). unfold fset. case_decide as Ewu; [|by apply IH]. subst w. unfold LazyWeakModel.loads in Hl. by rewrite (IH u Hu) in Hl.
  - assert (base (record (rmw l' (base s)) b s) = b) as Eb by (by destruct (rmw l' (base s)) as [[[[? ?] ?] ?]|]). rewrite Eb in *.
    exact (step_left l' (base s) b tr Hs Hd IH w Hw).
Qed.
End Weak.
