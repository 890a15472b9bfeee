(** The runtime on the real deques is simulated by the runtime on atomic deques. *)

From stdpp Require Import prelude gmap list.
From Coq Require Import NArith ZArith Lia.
From Verif Require Import RuntimeModel RuntimeSpec RuntimeInv RuntimeSafe RuntimeHist3 FineModel FineSpec FineProofs.
From Verif Require DequeModel DequeSpec DequeProofs DequeLin FineDeque.
Local Open Scope N_scope.

Notation Idle := DequeSpec.Idle.
Notation Called := DequeSpec.Called.
Notation Done := DequeSpec.Done.
Notation DPush := DequeModel.DPush.
Notation DPop := DequeModel.DPop.
Notation DSteal := DequeModel.DSteal.
Notation RSome := DequeModel.RSome.
Notation REmpty := DequeModel.REmpty.
Notation RUnit := DequeModel.RUnit.
Notation RThrow := DequeModel.RThrow.
Notation TIdle := DequeModel.TIdle.
Notation OIdle := DequeModel.OIdle.
Notation in_phase := DequeSpec.in_phase.
Notation contents := DequeSpec.contents.
Notation thf := (fun q : deque => DequeModel.d_thf q).

(** What a pop has taken but not returned yet. *)
Definition pend (p : DequeSpec.phase N) : list N :=
  match p with Done DPop (RSome v) => [v] | _ => [] end.
(** The operation the owner is inside of is the one the runtime wants. *)
Definition doing (p : DequeSpec.phase N) (o : dop) : Prop :=
  match p with
  | Called (DPush f) => o = DoPush f
  | Called DPop | Done DPop _ => o = DoPop
  | Called DSteal | Done DSteal _ => False
  | _ => True
  end.
Definition owns (Q : nat -> list N) (H : list (DequeModel.dev N)) (i : nat) (o : dop) : Prop :=
  exists p c, in_phase None H p /\ contents H c /\ Q i = pend p ++ rev c /\
    (p = Done DPop REmpty -> c = []) /\ doing p o.

Record sim (nw k : nat) (af : bool) (x : fine) (h : history) (s : state) (Q : nat -> list N)
    (H : nat -> list (DequeModel.dev N)) : Prop := {
  m_reach : reach nw af s h;
  m_state : s = with_deques Q (rt x);
  m_hist : forall i, DequeModel.reach k (dq x i) (H i);
  m_own : forall i, owns Q (H i) i (next_op i (rt x));
  m_thf : forall i v, thf (dq x v) i <> TIdle -> from x i = Some v;
  m_from : forall i v, from x i = Some v -> i <> v /\ (v < length (s_workers (rt x)))%nat /\
    DequeModel.d_own (dq x i) = OIdle /\ thf (dq x v) i <> TIdle /\
    exists w, s_workers (rt x) !! i = Some w /\ w_batch w = [] /\
      (DequeProofs.thf_phase (thf (dq x v) i) = Called DSteal -> w_pc w = PIdle)
}.

Lemma next_op_wd i Q r : next_op i (with_deques Q r) = next_op i r.
Proof. unfold next_op. rewrite wd_lookup. by destruct (s_workers r !! i). Qed.
Lemma next_op_hide i r : next_op i (hide r) = next_op i r.
Proof. unfold next_op, hide. cbn. rewrite list_lookup_fmap. by destruct (s_workers r !! i). Qed.
Lemma next_op_show i j l r : next_op i (show j l r) = next_op i r.
Proof.
  unfold next_op, show. cbn. destruct (decide (j = i)) as [->|Hne].
  - rewrite list_lookup_alter. by destruct (s_workers r !! i).
  - by rewrite list_lookup_alter_ne.
Qed.

Lemma doing_mono p o o' : doing p o -> (o <> NoOp -> o' = o) -> doing p o'.
Proof.
  intros D E. destruct p as [|[]|[]]; cbn in *; subst; try done; by rewrite E.
Qed.

Lemma sim_step nw k af x h s Q H i l r' tr d' H' Q' :
  sim nw k af x h s Q H -> from x i = None -> allowed nw af l ->
  step l s = Next (with_deques Q' r') tr -> calm i s (step l s) ->
  (forall j, j <> i -> Q' j = Q j /\ d' j = dq x j /\ H' j = H j) ->
  DequeModel.reach k (d' i) (H' i) -> thf (d' i) = thf (dq x i) ->
  owns Q' (H' i) i (next_op i r') ->
  sim nw k af (Fine (hide r') d' (from x)) (rev tr ++ h) (with_deques Q' r') Q' H'.
Proof.
  intros M Hfrom Hal Hs Hc Hother Hq Hthf Hown. pose proof M as [HR Es HH HO HT HF].
  destruct (reach_inv _ _ _ _ HR) as (G & I).
  destruct (Hc _ _ Hs) as (Hlen & Hqu & _).
  assert (Hw : forall j w, j <> i -> s_workers (rt x) !! j = Some w ->
    exists w', s_workers r' !! j = Some w' /\ w_pc w' = w_pc w /\ w_batch w' = w_batch w).
  { intros j w Hne Hj. destruct (Hqu j (set_deque (Q j) w) Hne) as (w' & Hw' & E1 & E2).
    - by rewrite Es, wd_lookup, Hj.
    - rewrite wd_lookup in Hw'. destruct (s_workers r' !! j) as [w1|]; [|done]. injection Hw' as <-. by exists w1. }
  assert (Hthf' : forall v, thf (d' v) = thf (dq x v)).
  { intros v. destruct (decide (v = i)) as [->|Hne]; [done|]. by destruct (Hother v Hne) as (_ & -> & _). }
  assert (Hlen' : length (s_workers r') = length (s_workers (rt x))).
  { rewrite Es in Hlen. cbn in Hlen. by rewrite !imap_length in Hlen. }
  split; cbn [rt dq from].
  - by eapply reach_step.
  - by rewrite wd_hide.
  - intros j. destruct (decide (j = i)) as [->|Hne]; [done|]. destruct (Hother j Hne) as (_ & -> & ->). done.
  - intros j. rewrite next_op_hide. destruct (decide (j = i)) as [->|Hne]; [done|].
    destruct (Hother j Hne) as (EQ & _ & ->). destruct (HO j) as (p & c & Hp & Hcn & Hqj & He & Hd).
    exists p, c. rewrite EQ. split_and!; try done. eapply doing_mono; [done|]. intros Hop.
    rewrite <- (next_op_wd j Q'), <- (next_op_wd j Q (rt x)), <- Es.
    eapply (calm_next_op nw G i s _ tr (step l s) j I Hs Hc Hne).
    + destruct (decide (j < length (s_workers s))%nat) as [|Hge]; [done|]. exfalso. apply Hop.
      unfold next_op. rewrite lookup_ge_None_2; [done|]. rewrite Es in Hge. cbn in Hge. rewrite imap_length in Hge. lia.
    + by rewrite Es, next_op_wd.
  - intros j v. rewrite Hthf'. apply HT.
  - intros j v Hj. assert (Hne : j <> i) by (intros ->; congruence).
    destruct (HF j v Hj) as (H1 & H2 & H3 & H4 & w & H5 & H6 & H7).
    destruct (Hw j w Hne H5) as (w' & Hw' & E1 & E2).
    split; [done|]. split; [cbn; rewrite fmap_length; lia|]. split; [by destruct (Hother j Hne) as (_ & -> & _)|].
    rewrite Hthf'. split; [done|]. exists (set_deque [] w'). cbn. rewrite list_lookup_fmap, Hw'. cbn. rewrite E1, E2. done.
Qed.

(** A step of the owner's operation that changes nothing but the deque. *)
Lemma sim_silent nw k af x h s Q H i q' h' :
  sim nw k af x h s Q H -> from x i = None -> DequeModel.reach k q' h' -> thf q' = thf (dq x i) ->
  owns Q h' i (next_op i (rt x)) ->
  sim nw k af (Fine (rt x) (set_at i q' (dq x)) (from x)) h s Q (set_at i h' H).
Proof.
  intros [HR Es HH HO HT HF] Hfrom Hq Hthf Hown.
  assert (Hthf' : forall v, thf (set_at i q' (dq x) v) = thf (dq x v)).
  { intros v. destruct (decide (v = i)) as [->|Hne]; [by rewrite set_at_eq|by rewrite set_at_ne]. }
  split; cbn [rt dq from].
  - done.
  - done.
  - intros j. destruct (decide (j = i)) as [->|Hne]; [by rewrite !set_at_eq|by rewrite !set_at_ne].
  - intros j. destruct (decide (j = i)) as [->|Hne]; [by rewrite set_at_eq|by rewrite set_at_ne].
  - intros j v. rewrite Hthf'. apply HT.
  - intros j v Hj. rewrite Hthf'. assert (Hne : j <> i) by (intros ->; congruence). rewrite set_at_ne by done. by apply HF.
Qed.

Lemma reach_no_undef nw af s h l : reach nw af s h -> allowed nw af l -> step l s <> Undef.
Proof. intros HR. by eapply reach_safe. Qed.

(** The runtime's step, taken together with a step of the deque of [i]. *)
Lemma sim_after nw k af x h s Q H i l y d' H' Q' :
  sim nw k af x h s Q H -> from x i = None -> allowed nw af l ->
  step l s = res_map (with_deques Q') y -> calm i s (step l s) ->
  (forall j, j <> i -> Q' j = Q j /\ d' j = dq x j /\ H' j = H j) ->
  DequeModel.reach k (d' i) (H' i) -> thf (d' i) = thf (dq x i) ->
  (forall r' tr, y = Next r' tr -> owns Q' (H' i) i (next_op i r')) ->
  after y d' (from x) <> FUndef /\
  forall x' tr, after y d' (from x) = FNext x' tr ->
    exists s', sim nw k af x' (rev tr ++ h) s' Q' H' /\ step l s = Next s' tr.
Proof.
  intros M Hfrom Hal Hs Hc Hother Hq Hthf Hown. pose proof (m_reach _ _ _ _ _ _ _ _ M) as HR.
  destruct y as [r' tr| |]; cbn [after res_map] in *.
  - split; [done|]. intros x' tr' [= <- <-]. exists (with_deques Q' r').
    split; [eapply sim_step; eauto|done].
  - done.
  - by destruct (reach_no_undef _ _ _ _ _ HR Hal).
Qed.

Lemma seen_agree k q h c : DequeModel.reach k q h -> DequeModel.d_own q = OIdle -> contents h c -> (seen q = [] <-> c = []).
Proof.
  intros Hr Ho Hc. pose proof (FineDeque.idle_empty _ _ _ _ Hr Ho Hc) as E. unfold seen.
  destruct (DequeModel.is_empty _ _).
  - split; [|done]. intros _. by apply E.
  - split; [done|]. intros ->. by destruct E as (_ & E); specialize (E eq_refl).
Qed.

Lemma show_lookup i l r w : s_workers r !! i = Some w -> s_workers (show i l r) !! i = Some (set_deque l w).
Proof. intros H. cbn. by rewrite list_lookup_alter, H. Qed.

Lemma next_op_lt i r : next_op i r <> NoOp -> exists w, s_workers r !! i = Some w.
Proof. unfold next_op. destruct (s_workers r !! i); [eauto|done]. Qed.

Lemma wstep_none i fail r : s_workers r !! i = None -> wstep i fail r = Blocked.
Proof. unfold wstep. by intros ->. Qed.

(** The runtime has not seen the result of the operation yet. *)
Definition pending (p : DequeSpec.phase N) : Prop :=
  match p with Idle | Done (DPush _) _ => False | _ => True end.

(** The runtime's step that a step of the deque [q] by its owner brings about: whether an allocation
    fails in it; [None] if there is no step of the runtime. *)
Definition adv_op (op : option N) (fail : bool) (q : deque) : option bool :=
  match DequeModel.owner op fail q with
  | DequeModel.Next _ [DequeModel.ELin _ (DequeModel.DPush _) DequeModel.RThrow] => Some true
  | DequeModel.Next _ [DequeModel.ELin _ (DequeModel.DPush _) _] => Some false
  | DequeModel.Next _ [DequeModel.ERet _ (DequeModel.RSome _)] => Some fail
  | DequeModel.Next _ [DequeModel.ERet _ DequeModel.REmpty] => Some fail
  | _ => None
  end.

(** A step of worker [i] on its own deque is a step of the runtime on atomic deques if it ends the
    operation for the runtime, and otherwise none. *)
Definition op_moved (nw k : nat) (af : bool) (x' : fine) (h : history) (s : state) (tr : list event)
    (i : nat) (fail : bool) (p : DequeSpec.phase N) (a : option bool) : Prop :=
  exists s' Q1 H1 p', sim nw k af x' (rev tr ++ h) s' Q1 H1 /\ in_phase None (H1 i) p' /\
    ((s' = s /\ tr = [] /\ (p = Idle \/ pending p -> pending p') /\ a = None) \/
     (pending p /\ ~ pending p' /\ exists fl, (fl = true -> fail = true) /\ step (LWork i fl) s = Next s' tr /\ a = Some fl)).

(** A step of worker [i] on its own deque. *)
Lemma sim_op nw k af x h s Q H i op fail p :
  sim nw k af x h s Q H -> from x i = None -> (fail = true -> af = true) -> in_phase None (H i) p ->
  (DequeModel.d_own (dq x i) = OIdle ->
     match op with Some f => next_op i (rt x) = DoPush f | None => next_op i (rt x) = DoPop end) ->
  op_step i op fail x <> FUndef /\
  forall x' tr, op_step i op fail x = FNext x' tr -> op_moved nw k af x' h s tr i fail p (adv_op op fail (dq x i)).
Proof.
  intros M Hfrom Hfail Hp0 Hop. pose proof M as [HR Es HH HO HT HF].
  unfold op_step, adv_op. destruct (DequeModel.owner op fail (dq x i)) as [q ev|] eqn:E; cycle 1.
  { by destruct (FineDeque.no_undef _ _ _ (HH i) op fail) as (? & _). }
  destruct (HO i) as (p1 & c & Hp & Hc & EQ & Hem & Hd). pose proof (DequeLin.in_phase_fun _ _ _ Hp _ Hp0) as ->. clear Hp0.
  destruct (FineDeque.own_step_hist _ _ _ _ _ _ _ _ _ (HH i) E Hp Hc) as (Hr' & Et & Hev & H1 & H2 & H3 & H4).
  assert (Hsil : forall p', owns Q (rev ev ++ H i) i (next_op i (rt x)) ->
    in_phase None (rev ev ++ H i) p' -> (p = Idle \/ pending p -> pending p') ->
    forall x' tr, FNext (Fine (rt x) (set_at i q (dq x)) (from x)) [] = FNext x' tr ->
    op_moved nw k af x' h s tr i fail p None).
  { intros p' Ho Hp' Hpend x' tr [= <- <-]. exists s, Q, (set_at i (rev ev ++ H i) H), p'.
    split; [by eapply sim_silent|]. rewrite set_at_eq. split; [done|by left]. }
  destruct Hev as [(-> & Hpi)|[(o & -> & -> & ->)|[(o & r & c' & -> & -> & Hseq & Hc')|(o & r & -> & ->)]]].
  - (* inside the operation *)
    split; [done|]. apply (Hsil p); [exists p, c; split_and!; done|done|by intros [|]].
  - (* the call *)
    split; [by destruct op|].
    assert (Hidle : DequeModel.d_own (dq x i) = OIdle) by by eapply FineDeque.own_idle.
    specialize (Hop Hidle). apply (Hsil (Called (match op with Some v => DPush v | None => DPop end))); [|by apply H1|done].
    exists (Called (match op with Some v => DPush v | None => DPop end)), c.
    split_and!; [by apply H1|by apply H4|by destruct op|by destruct op|by destruct op].
  - (* the linearization point *)
    specialize (H2 _ _ eq_refl).
    destruct o as [f| |]; cbn in Hd; [..|done].
    + destruct (next_op_lt i (rt x)) as (w & Hw); [by rewrite Hd|].
      assert (Hsh : s_workers (show i [] (rt x)) !! i = Some (set_deque [] w)) by by apply show_lookup.
      assert (HP : exists (fl : bool) (Q' : nat -> list N), r = (if fl then RThrow else RUnit) /\ Q' = (if fl then Q else set_at i (f :: Q i) Q) /\
        Q' i = rev c' /\ (fl = true -> fail = true)).
      { destruct r; try by inversion Hseq.
        - exists false, (set_at i (f :: Q i) Q). split_and!; try done. rewrite set_at_eq, EQ.
          inversion Hseq; subst. by rewrite rev_unit.
        - exists true, Q. split_and!; try done. { rewrite EQ. by inversion Hseq. }
          intros _. revert E. clear. unfold DequeModel.owner, DequeModel.with_cur. intros E.
          destruct (DequeModel.d_own (dq x i)); repeat case_match; try done. }
      destruct HP as (fl & Q' & -> & EQ' & EQi & Hfl).
      assert (Hstep : step (LWork i fl) s = res_map (with_deques Q') (wstep i fl (show i [] (rt x)))).
      { cbn [step]. rewrite Es, <- (wd_show Q i []). destruct fl; subst Q'.
        - assert (Hr : forall r, wstep i true (with_deques Q r) = wstep i true (with_deques Q r)) by done.
          (* the step that throws does not look at the deque *)
          unfold wstep at 1 2. rewrite wd_lookup, Hsh. cbn [fmap option_fmap option_map].
          pose proof Hd as Hd2. unfold next_op in Hd2. rewrite Hw in Hd2.
          cbn [set_deque w_pc w_batch w_stk w_inbox w_deque]. destruct (w_pc w) eqn:Hpc; try done.
          replace (s_frames (with_deques Q (show i [] (rt x)))) with (s_frames (rt x)) by done.
          replace (s_frames (show i [] (rt x))) with (s_frames (rt x)) by done.
          destruct (s_frames (rt x) !! f0) as [fr|]; [|done]. destruct (f_rp fr); try done. destruct t; try done.
        - eapply wstep_push; [done|]. by rewrite next_op_show. }
      assert (Hal : allowed nw af (LWork i fl)) by (cbn; intros ->; auto).
      assert (Hgoal : after (wstep i fl (show i [] (rt x))) (set_at i q (dq x)) (from x) <> FUndef /\
        forall x' tr, after (wstep i fl (show i [] (rt x))) (set_at i q (dq x)) (from x) = FNext x' tr ->
        op_moved nw k af x' h s tr i fail (Called (DPush f)) (Some fl)).
      { edestruct (sim_after nw k af x h s Q H i (LWork i fl) _ (set_at i q (dq x)) (set_at i (rev [DequeModel.ELin None (DPush f) (if fl then RThrow else RUnit)] ++ H i) H) Q' M Hfrom Hal Hstep)
          as (Z1 & Z2).
        - apply calm_wstep.
        - intros j Hne. rewrite !set_at_ne by done. subst Q'. destruct fl; [done|]. by rewrite set_at_ne.
        - by rewrite !set_at_eq.
        - by rewrite set_at_eq.
        - intros r' tr _. rewrite set_at_eq. eexists _, c'. split_and!; [exact H2|exact Hc'|done|by destruct fl|by destruct fl].
        - split; [exact Z1|]. intros x' tr Ex. destruct (Z2 x' tr Ex) as (s' & Hs' & Hst). eexists s', _, _, _.
          split; [exact Hs'|]. rewrite set_at_eq. split; [exact H2|]. right. split; [done|]. split; [by intros []|]. by exists fl. }
      by destruct fl.
    + split; [done|]. apply (Hsil (Done DPop r)); [|done|done]. exists (Done DPop r), c'.
      split_and!; [done|done| |by intros [= ->]; inversion Hseq|done].
      rewrite EQ. inversion Hseq; subst; cbn; by rewrite ?rev_unit.
  - (* the return *)
    specialize (H3 _ eq_refl). assert (Hc' := H4 ltac:(done)).
    destruct o as [f| |]; cbn in Hd.
    + (* push *)
      assert (Hx : r = RUnit \/ r = RThrow).
      { destruct (FineDeque.done_result _ _ _ Hp _ _ _ Hc eq_refl) as (c1 & c2 & Hs). inversion Hs; auto. }
      split; [by destruct Hx as [-> | ->]|].
      assert (Ho : owns Q (rev [DequeModel.ERet None r] ++ H i) i (next_op i (rt x))).
      { exists Idle, c. split_and!; try done. }
      destruct Hx as [-> | ->]; (apply (Hsil Idle); [done|done|by intros [|]]).
    + (* pop *)
      destruct (next_op_lt i (rt x)) as (w & Hw); [by rewrite Hd|].
      assert (Hx : (exists v, r = RSome v) \/ r = REmpty).
      { destruct (FineDeque.done_result _ _ _ Hp _ _ _ Hc eq_refl) as (c1 & c2 & Hs). inversion Hs; eauto. }
      assert (Hq0 : seen q = [] <-> c = []).
      { eapply seen_agree; [done| |done]. by eapply FineDeque.own_idle. }
      set (l := match r with RSome v => [v] | _ => [] end).
      assert (Hl : l = firstn 1 (Q i)).
      { rewrite EQ. destruct Hx as [(v & ->)| ->]; cbn; [done|]. by rewrite (Hem eq_refl). }
      assert (Hstep : step (LWork i fail) s = res_map (with_deques (rest Q i)) (wstep i fail (show i l (rt x)))).
      { cbn [step]. rewrite Es, <- (wd_show Q i l). eapply wstep_pop; [by apply show_lookup|by rewrite next_op_show|done]. }
      assert (Hgoal : after (wstep i fail (show i l (rt x))) (set_at i q (dq x)) (from x) <> FUndef /\
        forall x' tr, after (wstep i fail (show i l (rt x))) (set_at i q (dq x)) (from x) = FNext x' tr ->
        op_moved nw k af x' h s tr i fail (Done DPop r) (Some fail)).
      { edestruct (sim_after nw k af x h s Q H i (LWork i fail) _ (set_at i q (dq x)) (set_at i (rev [DequeModel.ERet None r] ++ H i) H) (rest Q i) M Hfrom Hfail Hstep)
          as (Z1 & Z2).
        - apply calm_wstep.
        - intros j Hne. unfold rest. by rewrite !set_at_ne by done.
        - by rewrite !set_at_eq.
        - by rewrite set_at_eq.
        - intros r' tr _. rewrite set_at_eq. exists Idle, c. split_and!; try done.
          unfold rest. rewrite set_at_eq, EQ. destruct Hx as [(v & ->)| ->]; cbn; [done|]. by rewrite (Hem eq_refl).
        - split; [exact Z1|]. intros x' tr Ex. destruct (Z2 x' tr Ex) as (s' & Hs' & Hst). eexists s', _, _, _.
          split; [exact Hs'|]. rewrite set_at_eq. split; [exact H3|]. right. split; [done|]. split; [by intros []|]. by exists fail. }
      destruct Hx as [(v & ->)| ->]; [done|]. rewrite (proj2 Hq0 (Hem eq_refl)). done.
    + done.
Qed.

Lemma set_at_same {A} i (f : nat -> A) x j : x = f i -> set_at i x f j = f j.
Proof. intros ->. unfold set_at. case_decide; by subst. Qed.

(** A step of the machine is a step of the runtime on atomic deques, with a label that satisfies
    [L], or none. *)
Definition moved (nw k : nat) (af : bool) (x' : fine) (h : history) (s : state) (tr : list event) (L : label -> Prop) : Prop :=
  exists s' Q1 H1, sim nw k af x' (rev tr ++ h) s' Q1 H1 /\
    ((s' = s /\ tr = []) \/ exists l, L l /\ allowed nw af l /\ step l s = Next s' tr).

Lemma op_moved_moved nw k af x' h s tr i fail p a :
  (fail = true -> af = true) -> op_moved nw k af x' h s tr i fail p a ->
  moved nw k af x' h s tr (fun l => exists fl, l = LWork i fl /\ (fl = true -> fail = true)).
Proof.
  intros Hf (s' & Q1 & H1 & p' & Hs & _ & Hx). exists s', Q1, H1. split; [done|].
  destruct Hx as [(-> & -> & _)|(_ & _ & fl & Hfl & Hst & _)]; [by left|]. right. exists (LWork i fl).
  split; [by exists fl|]. split; [cbn; auto|done].
Qed.
Lemma moved_mono nw k af x' h s tr (L L' : label -> Prop) :
  (forall l, L l -> L' l) -> moved nw k af x' h s tr L -> moved nw k af x' h s tr L'.
Proof.
  intros HL (s' & Q1 & H1 & Hs & Hx). exists s', Q1, H1. split; [done|]. destruct Hx as [|(l & ? & ?)]; [by left|]. right. eauto.
Qed.

(** A step of worker [i] without a deque operation. *)
Lemma sim_plain nw k af x h s Q H i fail :
  sim nw k af x h s Q H -> from x i = None -> (fail = true -> af = true) ->
  DequeModel.d_own (dq x i) = OIdle ->
  next_op i (rt x) = NoOp \/ (fail = true /\ exists f, next_op i (rt x) = DoPush f) ->
  after (wstep i fail (show i (seen (dq x i)) (rt x))) (dq x) (from x) <> FUndef /\
  forall x' tr, after (wstep i fail (show i (seen (dq x i)) (rt x))) (dq x) (from x) = FNext x' tr ->
  exists s' Q1 H1, sim nw k af x' (rev tr ++ h) s' Q1 H1 /\ step (LWork i fail) s = Next s' tr.
Proof.
  intros M Hfrom Hfail Ho Hop. pose proof M as [HR Es HH HO HT HF].
  destruct (HO i) as (p & c & Hp & Hc & EQ & Hem & Hd).
  pose proof (proj1 (FineDeque.own_idle _ _ _ _ (HH i) Hp) Ho) as ->.
  destruct (s_workers (rt x) !! i) as [w|] eqn:Hw; cycle 1.
  { rewrite wstep_none; [done|]. cbn. by rewrite list_lookup_alter, Hw. }
  assert (Hstep : step (LWork i fail) s = res_map (with_deques Q) (wstep i fail (show i (seen (dq x i)) (rt x)))).
  { cbn [step]. rewrite Es, <- (wd_show Q i (seen (dq x i))).
    eapply wstep_plain; [by apply show_lookup| |by rewrite next_op_show].
    unfold agree. cbn [set_deque w_deque]. rewrite (seen_agree _ _ _ _ (HH i) Ho Hc), EQ. cbn [pend app].
    destruct c as [|a c]; [done|]. cbn [rev]. split; [|done]. by destruct (rev c). }
  edestruct (sim_after nw k af x h s Q H i (LWork i fail) _ (dq x) H Q M Hfrom Hfail Hstep) as (Z1 & Z2).
  - apply calm_wstep.
  - done.
  - apply HH.
  - done.
  - intros r' tr _. exists Idle, c. split_and!; done.
  - split; [exact Z1|]. intros x' tr Ex. destruct (Z2 x' tr Ex) as (s' & Hs' & Hst). by exists s', Q, H.
Qed.

(** A step of worker [i], not stealing. *)
Lemma sim_own_step nw k af x h s Q H i fail :
  sim nw k af x h s Q H -> from x i = None -> (fail = true -> af = true) ->
  own_step i fail x <> FUndef /\
  forall x' tr, own_step i fail x = FNext x' tr -> moved nw k af x' h s tr (fun l => exists fl, l = LWork i fl /\ (fl = true -> fail = true)).
Proof.
  intros M Hfrom Hfail. pose proof M as [HR Es HH HO HT HF].
  assert (Hplain : DequeModel.d_own (dq x i) = OIdle ->
    next_op i (rt x) = NoOp \/ (fail = true /\ exists f, next_op i (rt x) = DoPush f) ->
    after (wstep i fail (show i (seen (dq x i)) (rt x))) (dq x) (from x) <> FUndef /\
    forall x' tr, after (wstep i fail (show i (seen (dq x i)) (rt x))) (dq x) (from x) = FNext x' tr ->
    moved nw k af x' h s tr (fun l => exists fl, l = LWork i fl /\ (fl = true -> fail = true))).
  { intros Ho Hop. destruct (sim_plain _ _ _ _ _ _ _ _ _ _ M Hfrom Hfail Ho Hop) as (Z1 & Z2). split; [exact Z1|].
    intros x' tr Ex. destruct (Z2 x' tr Ex) as (s' & Q1 & H1 & Hs' & Hst). exists s', Q1, H1.
    split; [done|]. right. exists (LWork i fail). split; [by exists fail|done]. }
  assert (Hop : forall op fl, (fl = true -> fail = true) -> (DequeModel.d_own (dq x i) = OIdle ->
       match op with Some f => next_op i (rt x) = DoPush f | None => next_op i (rt x) = DoPop end) ->
    op_step i op fl x <> FUndef /\ forall x' tr, op_step i op fl x = FNext x' tr ->
    moved nw k af x' h s tr (fun l => exists fl, l = LWork i fl /\ (fl = true -> fail = true))).
  { intros op fl Hfl Hop. destruct (HO i) as (p & c & Hp & _).
    destruct (sim_op nw k af x h s Q H i op fl p M Hfrom ltac:(auto) Hp Hop) as (Hx & Hy). split; [done|].
    intros x' tr Ex. eapply moved_mono; [|eapply op_moved_moved; [|by apply Hy]]; [|by auto].
    intros l (fl' & -> & ?). exists fl'. auto. }
  unfold own_step. destruct (DequeModel.d_own (dq x i)) eqn:Ho;
    try (apply Hop; [done|done]).
  destruct (next_op i (rt x)) as [|f|] eqn:Hnx.
  - apply Hplain; [done|by left].
  - destruct fail.
    + apply Hplain; [done|]. right. eauto.
    + by apply Hop.
  - by apply Hop.
Qed.

Lemma got_wd Q i v f w wv r :
  s_workers r !! i = Some w -> s_workers r !! v = Some wv -> i <> v ->
  forall l, with_deques (set_at v l Q) (got i f r)
  = put_worker i (set_pc (PStolen f) (set_deque (Q i) w)) (put_worker v (set_deque l (set_deque (Q v) wv)) (with_deques Q r)).
Proof.
  intros Hi Hv Hne l. unfold with_deques, got, put_worker. cbn. f_equal. apply list_eq. intros j.
  rewrite list_lookup_imap.
  pose proof (lookup_lt_Some _ _ _ Hi) as Li. pose proof (lookup_lt_Some _ _ _ Hv) as Lv.
  destruct (decide (j = i)) as [->|Hji].
  - rewrite list_lookup_alter, Hi. cbn. rewrite list_lookup_insert by (by rewrite insert_length, imap_length).
    by rewrite set_at_ne.
  - rewrite list_lookup_alter_ne by done. rewrite list_lookup_insert_ne by done.
    destruct (decide (j = v)) as [->|Hjv].
    + rewrite list_lookup_insert by by rewrite imap_length. rewrite Hv. cbn. by rewrite set_at_eq.
    + rewrite list_lookup_insert_ne by done. rewrite list_lookup_imap. destruct (s_workers r !! j); [|done].
      cbn. by rewrite set_at_ne.
Qed.

Lemma next_op_got i j f r w : s_workers r !! i = Some w -> w_pc w = PIdle -> next_op j (got i f r) = next_op j r.
Proof.
  intros Hi Hpc. unfold next_op, got. cbn. destruct (decide (i = j)) as [<-|Hne].
  - rewrite list_lookup_alter, Hi. cbn. by rewrite Hpc.
  - by rewrite list_lookup_alter_ne.
Qed.

(** The state of a simulation just before the first step of a steal is that of [x] with [from i]
    already set; hence [HT], [HF] are asked of the others only. *)
Lemma sim_steal nw k af x h s Q H i v :
  reach nw af s h -> s = with_deques Q (rt x) ->
  (forall j, DequeModel.reach k (dq x j) (H j)) -> (forall j, owns Q (H j) j (next_op j (rt x))) ->
  (forall j u, thf (dq x u) j <> TIdle -> from x j = Some u) ->
  (forall j u, from x j = Some u -> j <> i -> j <> u /\ (u < length (s_workers (rt x)))%nat /\
    DequeModel.d_own (dq x j) = OIdle /\ thf (dq x u) j <> TIdle /\
    exists w, s_workers (rt x) !! j = Some w /\ w_batch w = [] /\
      (DequeProofs.thf_phase (thf (dq x u) j) = Called DSteal -> w_pc w = PIdle)) ->
  from x i = Some v -> i <> v -> (v < length (s_workers (rt x)))%nat -> DequeModel.d_own (dq x i) = OIdle ->
  (exists w, s_workers (rt x) !! i = Some w /\ w_batch w = [] /\
      (thf (dq x v) i = TIdle \/ DequeProofs.thf_phase (thf (dq x v) i) = Called DSteal -> w_pc w = PIdle)) ->
  steal_step i v x <> FUndef /\
  forall x' tr, steal_step i v x = FNext x' tr -> moved nw k af x' h s tr (fun l => l = LSteal i v).
Proof.
  intros HR Es HH HO HT HF Hfrom Hiv Hv Hidle (w & Hw & Hb & Hpc).
  unfold steal_step. destruct (DequeModel.thief i (dq x v)) as [q ev|] eqn:E; cycle 1.
  { by destruct (FineDeque.no_undef _ _ _ (HH v) None false) as (_ & Hx); destruct (Hx i). }
  destruct (HO v) as (p & c & Hp & Hc & EQ & Hem & Hd).
  destruct (FineDeque.thief_step_hist _ _ _ _ _ _ _ _ (HH v) E Hp Hc) as (Hr' & Eo & Et & Hp' & Hev).
  assert (Hthf : forall j u, j <> i -> thf (set_at v q (dq x) u) j = thf (dq x u) j).
  { intros j u Hne. destruct (decide (u = v)) as [->|Hn]; [rewrite set_at_eq; by apply Et|by rewrite set_at_ne]. }
  assert (Hown : forall j, DequeModel.d_own (set_at v q (dq x) j) = DequeModel.d_own (dq x j)).
  { intros j. destruct (decide (j = v)) as [->|Hn]; [by rewrite set_at_eq|by rewrite set_at_ne]. }
  assert (Hthi : forall u, u <> v -> thf (dq x u) i = TIdle).
  { intros u Hu. destruct (thf (dq x u) i) eqn:Ei; try done; exfalso; apply Hu;
      (assert (Hs : from x i = Some u) by (apply HT; by rewrite Ei)); congruence. }
  (* the deque's step changes neither the runtime's state nor the contents *)
  assert (Hsil : forall fr' , (fr' = from x /\ thf q i <> TIdle /\ (DequeProofs.thf_phase (thf q i) = Called DSteal -> w_pc w = PIdle) \/
                               fr' = set_at i None (from x) /\ thf q i = TIdle) ->
    contents (rev ev ++ H v) c ->
    sim nw k af (Fine (rt x) (set_at v q (dq x)) fr') h s Q (set_at v (rev ev ++ H v) H)).
  { intros fr' Hfr Hc'. split; cbn [rt dq from]; [done|done|..].
    - intros j. destruct (decide (j = v)) as [->|Hn]; [by rewrite !set_at_eq|by rewrite !set_at_ne].
    - intros j. destruct (decide (j = v)) as [->|Hn]; [|by rewrite set_at_ne].
      rewrite set_at_eq. exists p, c. split_and!; done.
    - intros j u Hj. destruct (decide (j = i)) as [->|Hne].
      + destruct (decide (u = v)) as [->|Hu].
        * rewrite set_at_eq in Hj. destruct Hfr as [(-> & _)|(_ & Eq)]; [done|by rewrite Eq in Hj].
        * rewrite set_at_ne in Hj by done. by rewrite Hthi in Hj.
      + rewrite Hthf in Hj by done. destruct Hfr as [(-> & _)|(-> & _)]; [by apply HT|]. rewrite set_at_ne by done. by apply HT.
    - intros j u Hj. rewrite Hown. destruct (decide (j = i)) as [->|Hne].
      + destruct Hfr as [(-> & Hq & Hq2)|(-> & _)]; [|by rewrite set_at_eq in Hj].
        assert (u = v) as -> by congruence. rewrite set_at_eq. split_and!; try done. exists w. done.
      + rewrite Hthf by done. apply HF; [|done]. destruct Hfr as [(-> & _)|(-> & _)]; [done|]. by rewrite set_at_ne in Hj. }
  destruct Hev as [(-> & Hc' & Ha & Hb')|[(-> & Hc' & Ha & Hb')|[(r & c' & -> & Hc' & Hseq & Ha & Hb')|(r & -> & Hc' & Ha & Hb')]]].
  - split; [done|]. intros x' tr [= <- <-]. exists s, Q, (set_at v (rev [] ++ H v) H). split; [|by left]. apply Hsil; [|done].
    left. split_and!; [done|by intros X; rewrite X in Hb'|auto].
  - split; [done|]. intros x' tr [= <- <-]. eexists s, Q, _. split; [|by left]. apply Hsil; [|exact Hc'].
    left. split_and!; [done|by intros X; rewrite X in Hb'|auto].
  - assert (Hsame : (forall f, r <> RSome f) -> c' = c).
    { intros X. inversion Hseq; subst; try done. by destruct (X v0). }
    assert (Hres : (forall f, r <> RSome f) \/ exists f, r = RSome f) by (destruct r; eauto; left; done).
    destruct Hres as [Hno|(f & ->)].
    { specialize (Hsame Hno). subst c'.
      assert (Hx : sim nw k af (Fine (rt x) (set_at v q (dq x)) (from x)) h s Q (set_at v (rev [DequeModel.ELin (Some i) DSteal r] ++ H v) H)).
      { apply Hsil; [|done]. left. rewrite Hb'. done. }
      destruct r; (split; [done|]); intros x' tr Ex; try (injection Ex as <- <-; eexists s, Q, _; split; [exact Hx|by left]; fail).
      by destruct (Hno v0). }
    split; [done|]. intros x' tr [= <- <-]. clear Hsame.
    assert (Hpi : w_pc w = PIdle) by auto.
    assert (c = f :: c') as -> by by inversion Hseq. cbn [rev] in EQ.
    destruct (lookup_lt_is_Some_2 _ _ Hv) as (wv & Hwv).
    assert (Hstep : step (LSteal i v) s = Next (with_deques (set_at v (pend p ++ rev c') Q) (got i f (rt x))) []).
    { cbn [step]. unfold steal. rewrite Es, !wd_lookup, Hw, Hwv. cbn [fmap option_fmap option_map].
      rewrite decide_False by done. cbn [set_deque w_pc w_batch w_deque]. rewrite Hpi, Hb, EQ, app_assoc, last_snoc.
      rewrite removelast_last. erewrite got_wd; [|done|done|done]. unfold set_deque. cbn. done. }
    exists (with_deques (set_at v (pend p ++ rev c') Q) (got i f (rt x))), (set_at v (pend p ++ rev c') Q),
      (set_at v (rev [DequeModel.ELin (Some i) DSteal (RSome f)] ++ H v) H).
    split; [|right; by exists (LSteal i v)]. split; cbn [rt dq from].
    + apply (reach_step nw af s h (LSteal i v) _ []); done.
    + done.
    + intros j. destruct (decide (j = v)) as [->|Hn]; [by rewrite !set_at_eq|by rewrite !set_at_ne].
    + intros j. rewrite (next_op_got _ _ _ _ w) by done. destruct (decide (j = v)) as [->|Hn].
      * rewrite set_at_eq. exists p, c'. split_and!; try done; [by rewrite set_at_eq|]. intros Ep. by specialize (Hem Ep).
      * rewrite set_at_ne by done. destruct (HO j) as (p1 & c1 & X1 & X2 & X3 & X4 & X5). exists p1, c1.
        by rewrite set_at_ne.
    + intros j u Hj. destruct (decide (j = i)) as [->|Hne].
      * destruct (decide (u = v)) as [->|Hu]; [done|]. rewrite set_at_ne in Hj by done. by rewrite Hthi in Hj.
      * rewrite Hthf in Hj by done. by apply HT.
    + intros j u Hj. rewrite Hown. destruct (decide (j = i)) as [->|Hne].
      * assert (u = v) as -> by congruence. rewrite set_at_eq. split_and!; try done.
        -- cbn. by rewrite alter_length.
        -- by rewrite Hb'.
        -- eexists. cbn. rewrite list_lookup_alter, Hw. cbn. split; [done|]. split; [done|]. by rewrite Hb'.
      * rewrite Hthf by done. destruct (HF j u Hj Hne) as (X1 & X2 & X3 & X4 & wj & X5). split_and!; try done.
        -- cbn. by rewrite alter_length.
        -- exists wj. cbn. rewrite list_lookup_alter_ne by done. done.
  - split; [done|]. intros x' tr [= <- <-]. eexists s, Q, _. split; [|by left]. apply Hsil; [|exact Hc']. right. done.
Qed.

Lemma sim_stale nw k af x h s Q H i :
  sim nw k af x h s Q H ->
  fstep (FStale i) x <> FUndef /\
  forall x' tr, fstep (FStale i) x = FNext x' tr ->
    exists s', sim nw k af x' (rev tr ++ h) s' Q H /\ step (LStale i) s = Next s' tr.
Proof.
  intros M. pose proof M as [HR Es HH HO HT HF]. cbn [fstep].
  destruct (from x i) eqn:Hf; [done|]. destruct (DequeModel.d_own (dq x i)) eqn:Ho; try done.
  edestruct (sim_after nw k af x h s Q H i (LStale i) (stale i (rt x)) (dq x) H Q M Hf I) as (Z1 & Z2).
  - cbn [step]. rewrite Es. apply stale_c.
  - apply calm_stale.
  - done.
  - apply HH.
  - done.
  - intros r' tr _. destruct (HO i) as (p & c & Hp & Hc & EQ & Hem & Hd). exists p, c.
    pose proof (proj1 (FineDeque.own_idle _ _ _ _ (HH i) Hp) Ho) as ->. split_and!; done.
  - split; [done|]. intros x' tr Ex. by apply Z2.
Qed.

Lemma sim_fstep nw k af x h s Q H l :
  sim nw k af x h s Q H -> fallowed nw af l ->
  fstep l x <> FUndef /\
  forall x' tr, fstep l x = FNext x' tr ->
    moved nw k af x' h s tr (fun l' =>
      match l with
      | FWork i fail => (exists fl, l' = LWork i fl /\ (fl = true -> fail = true)) \/ exists v, l' = LSteal i v
      | FTake i => l' = LTake i
      | FSteal i v => l' = LSteal i v
      | FSpawn d t => l' = LSpawn d t
      | FStale i => l' = LStale i
      end).
Proof.
  intros M Hal. pose proof M as [HR Es HH HO HT HF].
  assert (Hlook : forall i, looking i x = true -> from x i = None /\ DequeModel.d_own (dq x i) = OIdle /\
    exists w, s_workers (rt x) !! i = Some w /\ w_pc w = PIdle /\ w_batch w = []).
  { intros i. unfold looking. repeat case_match; try done. eauto 10. }
  destruct l as [i fail|i|i v|d t|i]; cbn [fstep].
  - destruct (from x i) as [v|] eqn:Hf.
    + destruct (HF i v Hf) as (X1 & X2 & X3 & X4 & w & X5 & X6 & X7).
      edestruct (sim_steal nw k af x h s Q H i v) as (Z1 & Z2); try done.
      * intros j u Hj _. by apply HF.
      * exists w. split_and!; try done. intros [|]; [done|auto].
      * split; [done|]. intros x' tr Ex. eapply moved_mono; [|by apply Z2]. cbn. intros l ->. eauto.
    + edestruct sim_own_step as (Z1 & Z2); [done..|]. split; [done|].
      intros x' tr Ex. eapply moved_mono; [|by apply Z2]. cbn. eauto.
  - destruct (looking i x) eqn:El; [|done]. destruct (Hlook i El) as (Hf & Ho & w & Hw & Hpc & Hb).
    edestruct (sim_after nw k af x h s Q H i (LTake i) (take i (rt x)) (dq x) H Q M Hf I) as (Z1 & Z2).
    + cbn [step]. rewrite Es. apply take_c.
    + apply calm_take.
    + done.
    + apply HH.
    + done.
    + intros r' tr _. destruct (HO i) as (p & c & Hp & Hc & EQ & Hem & Hd). exists p, c.
      pose proof (proj1 (FineDeque.own_idle _ _ _ _ (HH i) Hp) Ho) as ->. split_and!; done.
    + split; [done|]. intros x' tr Ex. destruct (Z2 x' tr Ex) as (s' & Hs' & Hst). exists s', Q, H.
      split; [done|]. right. by exists (LTake i).
  - case_decide as Hne; [done|]. destruct (s_workers (rt x) !! v) as [wv|] eqn:Hv; [|done].
    destruct (looking i x) eqn:El; [|done]. destruct (Hlook i El) as (Hf & Ho & w & Hw & Hpc & Hb).
    eapply (sim_steal nw k af (Fine (rt x) (dq x) (set_at i (Some v) (from x))) h s Q H i v); cbn [rt dq from]; try done.
    + intros j u Hj. pose proof (HT j u Hj). rewrite set_at_ne; [done|]. intros ->. congruence.
    + intros j u Hj Hji. rewrite set_at_ne in Hj by done. by apply HF.
    + by rewrite set_at_eq.
    + by eapply lookup_lt_Some.
    + exists w. done.
  - assert (Hf : from x (length (s_workers s)) = None).
    { destruct (from x (length (s_workers s))) as [v|] eqn:E; [|done].
      destruct (HF _ _ E) as (_ & _ & _ & _ & w & Hw & _). apply lookup_lt_Some in Hw. rewrite Es in Hw. cbn in Hw.
      rewrite imap_length in Hw. lia. }
    edestruct (sim_after nw k af x h s Q H (length (s_workers s)) (LSpawn d t) (spawn d t (rt x)) (dq x) H Q M Hf Hal) as (Z1 & Z2).
    + cbn [step]. rewrite Es. apply spawn_c.
    + apply calm_spawn.
    + done.
    + apply HH.
    + done.
    + intros r' tr Er. destruct (HO (length (s_workers s))) as (p & c & Hp & Hc & EQ & Hem & Hd). exists p, c.
      split_and!; try done. eapply doing_mono; [exact Hd|]. intros X. exfalso. apply X. unfold next_op.
      rewrite lookup_ge_None_2; [done|]. rewrite Es. cbn. by rewrite imap_length.
    + split; [done|]. intros x' tr Ex. destruct (Z2 x' tr Ex) as (s' & Hs' & Hst). exists s', Q, H.
      split; [done|]. right. by exists (LSpawn d t).
  - destruct (sim_stale _ _ _ _ _ _ _ _ i M) as (Z1 & Z2). split; [done|]. intros x' tr Ex.
    destruct (Z2 x' tr Ex) as (s' & Hs' & Hst). exists s', Q, H. split; [done|]. right. by exists (LStale i).
Qed.

Lemma sim_init nw k af : sim nw k af (finit nw k) [] (init nw) (fun _ => []) (fun _ => []).
Proof.
  split; cbn [rt dq from finit].
  - constructor.
  - unfold with_deques, init. cbn. f_equal. apply list_eq. intros j. rewrite list_lookup_imap, !list_lookup_fmap.
    by destruct (seq 0 nw !! j).
  - intros i. constructor.
  - intros i. exists Idle, []. split_and!; try done; constructor.
  - done.
  - done.
Qed.

Theorem freach_sim nw k af x h : freach nw k af x h -> exists s Q H, sim nw k af x h s Q H.
Proof.
  induction 1 as [|x h l x' tr Hr (s & Q & H & M) Hal Hs].
  - eexists _, _, _. apply sim_init.
  - destruct (sim_fstep _ _ _ _ _ _ _ _ _ M Hal) as (_ & Hx).
    destruct (Hx _ _ Hs) as (s' & Q' & H' & M' & _). eauto.
Qed.

(** ** Agreement *)

Lemma idle_stored k q h c :
  DequeModel.reach k q h -> DequeModel.d_own q = OIdle -> contents h c -> stored q = map Some c.
Proof.
  intros Hr Ho Hc. destruct (DequeLin.reach_phase _ _ _ Hr None) as (p & Hp).
  pose proof (proj1 (FineDeque.own_idle _ _ _ _ Hr Hp) Ho) as ->.
  pose proof (DequeLin.idle_hi _ _ _ Hr Hp) as Ehi.
  destruct (DequeProofs.reach_inv _ _ _ Hr) as [(r & Hb & _ & _ & _ & _ & _ & _ & c0 & Hc0 & Hlen & Hld) _ _ _].
  pose proof (DequeLin.contents_fun _ _ Hc0 _ Hc) as ->. rewrite Ehi in Hlen.
  unfold stored. rewrite Hb. rewrite <- Hlen, Nat2Z.id. apply list_eq. intros j.
  rewrite !list_lookup_fmap. destruct (decide (j < length c)%nat) as [Hj|Hj].
  - rewrite lookup_seq_lt by done. destruct (lookup_lt_is_Some_2 _ _ Hj) as (a & Ha). rewrite Ha. cbn.
    f_equal. by apply Hld.
  - rewrite lookup_seq_ge by lia. rewrite lookup_ge_None_2 by lia. done.
Qed.

Lemma sim_agrees nw k af x h s Q H : sim nw k af x h s Q H -> agrees x s.
Proof.
  intros [HR -> HH HO HT HF]. split; try done.
  - cbn. apply Forall2_same_length_lookup_2; [by rewrite imap_length|]. intros j w w' Hj Hj'.
    rewrite list_lookup_imap, Hj in Hj'. injection Hj' as <-. done.
  - intros i w Hi Ho. rewrite wd_lookup in Hi. destruct (s_workers (rt x) !! i) as [w0|]; [|done]. injection Hi as <-.
    cbn. destruct (HO i) as (p & c & Hp & Hc & EQ & _). unfold between in Ho.
    pose proof (proj1 (FineDeque.own_idle _ _ _ _ (HH i) Hp) Ho) as ->. rewrite EQ. cbn. rewrite rev_involutive.
    by eapply idle_stored.
Qed.
