(** * Every transition keeps the relation between statuses and the history. *)

From stdpp Require Import prelude gmap list.
From Coq Require Import NArith Lia.
From Verif Require Import RuntimeModel RuntimeSpec RuntimeInv RuntimeStep RuntimeStep2 RuntimeStep3
  RuntimeStep4 RuntimeStep5 RuntimeStep6 RuntimeStep7 RuntimeSafe RuntimeHist RuntimeHist2 RuntimeHist3.
Local Open Scope N_scope.

(** ** Shapes of transitions *)

Lemma join_resume_shape i w f fr k s tr s' tr' :
  join_resume i w f fr k s tr = Next s' tr' ->
  exists fr' r, s' = put_worker i (set_pc (PRun f) w) (put_frame f (set_rp (RRun (k (f_cells fr) r)) fr') s) /\
    tr' = tr ++ [EvJoin f (f_cells fr) r].
Proof.
  unfold join_resume. case_decide; [|done]. destruct (same_stacklet _ _ _ _) as [[]|]; try done.
  destruct (unsafe_rethrow fr) as [(r & fr')|]; [|done]. intros E. injection E as <- <-. eauto.
Qed.

Lemma call_resume_shape seen i w f fr m st k s tr s' tr' :
  call_resume seen i w f fr m st k s tr = Next s' tr' ->
  exists fr' t, s' = put_worker i (set_pc (PRun f) w) (put_frame f (set_rp (RRun t) fr') s) /\
    exists tr0, tr' = tr ++ tr0 /\ (tr0 = [] \/ exists e, tr0 = [EvEager f e]).
Proof.
  unfold call_resume, unsafe_rethrow. intros E.
  repeat (first [case_decide | match type of E with context [match ?x with _ => _ end] => destruct x end]);
    try done; injection E as <- <-; eexists _, _; (split; [reflexivity|]); eexists; (split; [reflexivity|]); eauto.
Qed.

Lemma fork_resume_shape seen i w f fr m st k pre s s' tr :
  fork_resume seen i w f fr m st k pre s = Next s' tr ->
  exists fr' t, s' = put_frame f (set_rp (RRun t) fr') s /\
    (tr = [] \/ (tr = [EvSync f (fres_last (f_cells fr))] /\ f_steals fr = pre) \/ exists e, tr = [EvEager f e]).
Proof.
  unfold fork_resume, unsafe_rethrow. intros E.
  repeat (first [case_decide | match type of E with context [match ?x with _ => _ end] => destruct x end]);
    try done; injection E as <- <-; eexists _, _; (split; [reflexivity|]); eauto 6.
Qed.

Definition rps (s s' : state) (f : N) : Prop :=
  forall q fr', s_frames s' !! q = Some fr' -> q <> f ->
    exists fr, s_frames s !! q = Some fr /\ f_rp fr' = f_rp fr.

Section c.
Context (af : bool) (nw : nat) (G : ghost) (s : state) (h : list event) (i : nat) (w : worker).
Hypothesis I : inv nw G s.
Hypothesis H : hist af s h.
Hypothesis V : vok s h.
Hypothesis T : stat s h.
Hypothesis Hi : s_workers s !! i = Some w.

Definition good3 (r : res) : Prop :=
  forall s' tr, r = Next s' tr -> forall G', inv nw G' s' -> stat s' (rev tr ++ h).

Ltac to_good3 :=
  match goal with
  | |- forall G', inv _ G' ?s' -> stat _ (rev ?tr ++ _) =>
    cut (good3 (Next s' tr)); [intros X; exact (X _ _ eq_refl)|]
  end.

Lemma pcs_ins s' w1 : s_workers s' = <[i := w1]> (s_workers s) -> pcs s' = <[i := w_pc w1]> (pcs s).
Proof using. intros E. unfold pcs. rewrite E. apply list_fmap_insert. Qed.

(** A child that is recorded in the history and alive has the right parent. *)
Lemma kid_par p c st frc :
  (c, st) ∈ kids_in p h -> s_frames s !! c = Some frc -> par (f_kind frc) = Some p.
Proof using H.
  intros (j & Hj)%elem_of_list_lookup Hc. destruct (g_kids _ _ _ H p j c st Hj) as (_ & Hp & _).
  pose proof (k_kind _ _ _ _ (g_frames _ _ _ H c frc Hc)) as K.
  destruct (f_kind frc) as [|q j' st'|q j' st'] eqn:E; cbn.
  - congruence.
  - destruct (g_kids _ _ _ H q j' c st' K) as (_ & Hq & _). congruence.
  - destruct (g_kids _ _ _ H q j' c st' K) as (_ & Hq & _). congruence.
Qed.

Lemma kids_gone p :
  nforks p (shape_of (s_frames s)) = 0 -> ncalls p (shape_of (s_frames s)) = 0 ->
  forall c st, (c, st) ∈ kids_in p h -> status_in c h = Some Gone.
Proof using H T.
  intros H1 H2 c st Hc. pose proof Hc as (j & Hj)%elem_of_list_lookup.
  destruct (g_kids _ _ _ H p j c st Hj) as (Hlt & _ & _).
  destruct (s_frames s !! c) as [frc|] eqn:E; [|by apply (t_dead _ _ T)].
  exfalso. pose proof (kid_par p c st frc Hc E) as Hp.
  eapply kid_count; [by apply shape_lookup|exact Hp|done|done].
Qed.

Lemma descendants_gone p :
  nforks p (shape_of (s_frames s)) = 0 -> ncalls p (shape_of (s_frames s)) = 0 ->
  forall c, descendant h p c -> status_in c h = Some Gone.
Proof using I H T.
  intros H1 H2 c Hd. assert (X : c < s_nextf s /\ s_frames s !! c = None).
  { induction Hd as [c st Hc|d c st Hd (IH1 & IH2) Hc];
      pose proof Hc as (j & Hj)%elem_of_list_lookup;
      destruct (g_kids _ _ _ H _ j c st Hj) as (Hlt & _ & _); (split; [done|]);
      destruct (s_frames s !! c) as [frc|] eqn:E; try done; exfalso;
      pose proof (kid_par _ c st frc Hc E) as Hp.
    - eapply kid_count; [by apply shape_lookup|exact Hp|done|done].
    - destruct (inv_parent _ _ _ _ _ _ _ I (shape_lookup _ _ _ E) Hp). congruence. }
  destruct X. by apply (t_dead _ _ T).
Qed.

Lemma c_same w1 s' tr :
  s_workers s' = <[i := w1]> (s_workers s) -> pcrun (w_pc w1) = pcrun (w_pc w) ->
  same_dom s s' -> (forall q fr', s_frames s' !! q = Some fr' -> pcrun (w_pc w) <> Some q ->
    exists fr, s_frames s !! q = Some fr /\ f_rp fr' = f_rp fr) ->
  Forall neutral (rev tr) -> evs2 (rev tr ++ h) -> good3 (Next s' tr).
Proof using I T Hi.
  intros E1 E2 E3 E4 E5 E6 s1 tr1 E G' I'. injection E as <- <-.
  eapply (stat_same nw G G' s s' h); try done; [by apply pcs_lookup|by apply pcs_ins].
Qed.

Lemma dom_id s' : s_frames s' = s_frames s -> s_nextf s' = s_nextf s -> same_dom s s'.
Proof using. intros E1 E2. split; [done|]. intros f. by rewrite E1. Qed.
Lemma dom_put s' f fr' fr : s_frames s' = <[f := fr']> (s_frames s) -> s_frames s !! f = Some fr ->
  s_nextf s' = s_nextf s -> same_dom s s'.
Proof using. intros E1 E2 E3. split; [done|]. intros q. rewrite E1. intros X. apply lookup_insert_None in X. tauto. Qed.
Lemma rps_id s' f : s_frames s' = s_frames s -> rps s s' f.
Proof using. intros E q fr'. rewrite E. eauto. Qed.
Lemma rps_put s' f fr' : s_frames s' = <[f := fr']> (s_frames s) -> rps s s' f.
Proof using. intros E q frq Hq Hne. rewrite E, lookup_insert_ne in Hq by done. eauto. Qed.

(** Only workers change, nothing is resumed or suspended. *)
Lemma c_idle w1 s' :
  s_workers s' = <[i := w1]> (s_workers s) -> s_frames s' = s_frames s -> s_nextf s' = s_nextf s ->
  pcrun (w_pc w1) = pcrun (w_pc w) -> good3 (Next s' []).
Proof using I T Hi.
  intros E1 E2 E3 E4. eapply c_same; try done.
  - by apply dom_id.
  - intros q fr'. rewrite E2. eauto.
  - constructor.
  - apply T.
Qed.

(** Resumption *)
Lemma resume_ev f fr :
  s_frames s !! f = Some fr -> (forall j, ~ runs s j f) ->
  match f_rp fr with
  | RRun _ | RFork _ _ _ _ => True
  | RSwitched d _ => d = i
  | RJoin _ => nforks f (shape_of (s_frames s)) = 0 /\ ncalls f (shape_of (s_frames s)) = 0
  | _ => False
  end -> ev2 (EvResume i f) h.
Proof using H T.
  intros Hf Hno Hr. pose proof (t_sus _ _ T f fr Hf Hno) as X. unfold susp_ok in X. cbn.
  destruct (f_rp fr); try done.
  - by rewrite X.
  - destruct X as (c & st' & -> & _). done.
  - rewrite X. destruct Hr. by apply kids_gone.
  - rewrite X. done.
Qed.

Lemma c_resume w1 s' f fr tr :
  s_workers s' = <[i := w1]> (s_workers s) -> pcrun (w_pc w) = None -> pcrun (w_pc w1) = Some f ->
  same_dom s s' -> rps s s' f ->
  s_frames s !! f = Some fr -> (forall j, ~ runs s j f) ->
  match f_rp fr with
  | RRun _ | RFork _ _ _ _ => True
  | RSwitched d _ => d = i
  | RJoin _ => nforks f (shape_of (s_frames s)) = 0 /\ ncalls f (shape_of (s_frames s)) = 0
  | _ => False
  end ->
  Forall neutral (rev tr) -> (ev2 (EvResume i f) h -> evs2 (EvResume i f :: h) -> evs2 (rev tr ++ EvResume i f :: h)) ->
  good3 (Next s' (EvResume i f :: tr)).
Proof using I H V T Hi.
  intros E1 E2 E3 E4 E5 Hf Hno Hr Hn HE s1 tr1 E G' I'. injection E as <- <-.
  cbn [rev]. rewrite <- app_assoc. cbn [app].
  pose proof (resume_ev f fr Hf Hno Hr) as X.
  eapply (stat_resume nw G G' s s' h); try done; [by apply pcs_lookup|by apply pcs_ins|done..|].
  apply HE; [done|]. split; [done|apply T].
Qed.

Lemma c_submitted f rest :
  w_pc w = PIdle -> w_batch w = f :: rest -> good3 (resume_submitted i w f rest s).
Proof using I H V T Hi.
  intros Hpc Hb. unfold resume_submitted. destruct (s_frames s !! f) as [fr|] eqn:Hf; [|done].
  destruct (w_deque w); [|done]. destruct (stk s (w_stk w)); [|done]. set (w1 := if decide _ then _ else _).
  assert (Hx : w_pc w1 = PRun f) by (unfold w1; by case_decide).
  destruct (i_wrk _ _ _ I i w Hi) as ((W & _) & _). destruct (W f) as (fr1 & Hf1 & Hr1).
  { rewrite Hb. set_solver. }
  assert (fr1 = fr) as -> by congruence.
  apply (c_resume w1 _ f fr []); try done.
  - by rewrite Hpc.
  - by rewrite Hx.
  - by apply rps_id.
  - eapply nobody; eauto. right. exists i, w. left. split; [done|]. unfold wtok. rewrite Hb. cbn. rewrite eqn_refl. lia.
  - destruct (f_rp fr); try done.
  - constructor.
Qed.

Lemma c_steal_frame f fr w1 :
  s_frames s !! f = Some fr -> 1 <= wpend f w -> pcrun (w_pc w) = None -> w_pc w1 = PRun f ->
  good3 (Next (put_worker i w1 (put_frame f (set_steals (u16inc (f_steals fr)) fr) s)) [EvResume i f]).
Proof using I H V T Hi.
  intros Hf Hp Hpc Hpc1.
  destruct (steal_bound nw G s I f fr Hf) as (B1 & B2 & B3 & B4).
  { pose proof (sumw_ge (wpend f) _ _ _ Hi). lia. }
  destruct B4 as (m' & st' & k' & pre' & Er & Es).
  apply (c_resume w1 _ f fr []); try done.
  - by rewrite Hpc1.
  - by eapply dom_put.
  - by eapply rps_put.
  - eapply nobody; eauto. right. exists i, w. unfold wpend in Hp.
    destruct (w_pc w) as [|g|g|p|p| |g|b|] eqn:E; cbn in Hpc; try done.
    2: { destruct (decide (g = f)) as [->|]; [right; done|]. left. split; [done|]. unfold wtok. rewrite E. cbn.
         rewrite eqn_ne in Hp by done. lia. }
    all: left; (split; [done|]); unfold wtok; rewrite E; cbn; lia.
  - by rewrite Er.
  - constructor.
Qed.

Lemma c_stolen f : w_pc w = PStolen f -> good3 (resume_stolen i w f s).
Proof using I H V T Hi.
  intros Hpc. unfold resume_stolen. destruct (s_frames s !! f) as [fr|] eqn:Hf; [|done].
  destruct (w_deque w); [|done]. destruct (stk s (w_stk w)); [|done].
  apply c_steal_frame; try done; [|by rewrite Hpc]. unfold wpend. rewrite Hpc. rewrite eqn_refl. lia.
Qed.

Lemma c_to_idle w1 s1 :
  s_frames s1 = s_frames s -> s_nextf s1 = s_nextf s -> pcrun (w_pc w) = None ->
  (s_workers s1 = s_workers s \/ exists w2, s_workers s1 = <[i := w2]> (s_workers s)) ->
  good3 (to_idle i w1 s1 []).
Proof using I T Hi.
  intros E1 E2 E3 E4. unfold to_idle. destruct (w_deque w1); [|done]. destruct (stk s1 (w_stk w1)); [|done].
  apply (c_idle (set_pc PIdle w1)); try done. cbn.
  destruct E4 as [-> |(w2 & ->)]; [done|]. by rewrite list_insert_insert.
Qed.

Lemma c_self_steal : w_pc w = PSelf -> good3 (self_steal i w s).
Proof using I H V T Hi.
  intros Hpc. unfold self_steal. destruct (w_deque w) as [|q d] eqn:Ed.
  - apply c_to_idle; try done; [by rewrite Hpc|by left].
  - destruct (s_frames s !! q) as [frq|] eqn:Hq; [|done]. apply c_steal_frame; try done; [|by rewrite Hpc].
    unfold wpend. rewrite Ed. cbn. rewrite eqn_refl. lia.
Qed.

Lemma c_final p : w_pc w = PFinal p -> good3 (wstep i false s).
Proof using I H V T Hi.
  intros Hpc. unfold wstep. rewrite Hi, Hpc. destruct (w_deque w) as [|q d] eqn:Ed.
  - apply (c_idle (set_pc (PSub p) w)); try done. by rewrite Hpc.
  - case_decide; [|done]. subst q.
    assert (Hpd : 1 <= wpend p w) by (unfold wpend; rewrite Ed; cbn; rewrite eqn_refl; lia).
    pose proof (wpend_le_wtok p w).
    destruct (tok_live _ _ _ p _ _ I Hi) as (fr & Hf); [lia|].
    destruct (steal_bound nw G s I p fr Hf) as (B1 & B2 & B3 & B4).
    { pose proof (sumw_ge (wpend p) _ _ _ Hi). lia. }
    destruct B4 as (m' & st' & k' & pre' & Er & Es).
    apply (c_resume (set_pc (PRun p) (set_deque d w)) _ p fr []); try done.
    + by rewrite Hpc.
    + by apply rps_id.
    + eapply nobody; eauto. right. exists i, w. left. split; [done|]. unfold wtok. rewrite Hpc, Ed. cbn. rewrite eqn_refl. lia.
    + by rewrite Er.
    + constructor.
Qed.

Lemma c_loserel : w_pc w = PLoseRel -> good3 (wstep i false s).
Proof using I H V T Hi.
  intros Hpc. unfold wstep. rewrite Hi, Hpc. apply c_to_idle; try done; [by rewrite Hpc|]. right. eexists. done.
Qed.

Lemma c_swrel b : w_pc w = PSwRel b -> good3 (wstep i false s).
Proof using I H V T Hi.
  intros Hpc. unfold wstep. rewrite Hi, Hpc. cbn zeta. destruct (stk _ _); [|done].
  apply (c_idle (set_pc PSelf (if b then set_wstk (s_nexts s) w else w))); try (by destruct b).
  by rewrite Hpc.
Qed.

Lemma c_take : good3 (take i s).
Proof using I T Hi.
  unfold take. rewrite Hi. destruct (w_pc w) eqn:Hpc; try done. destruct (w_batch w); [|done].
  destruct (w_inbox w) as [|f l]; [done|]. by eapply c_idle.
Qed.

(** ** The running task *)

Section run.
Context (f : N) (fr : frame).
Hypothesis Hf : s_frames s !! f = Some fr.
Hypothesis Hrun : pcrun (w_pc w) = Some f.

Lemma run_status : status_in f h = Some (Running i).
Proof using T Hi Hrun. apply (t_run _ _ T). exists (w_pc w). split; [by apply pcs_lookup|done]. Qed.

(** One frame, or also its parent's, changes. *)
Lemma c_local s' tr :
  s_workers s' = s_workers s -> s_nextf s' = s_nextf s ->
  (exists fr', s_frames s' = <[f := fr']> (s_frames s) \/
    exists p frp frp', s_frames s !! p = Some frp /\ f_rp frp' = f_rp frp /\
      s_frames s' = <[p := frp']> (<[f := fr']> (s_frames s))) ->
  Forall neutral (rev tr) -> evs2 (rev tr ++ h) -> good3 (Next s' tr).
Proof using I T Hi Hf Hrun.
  intros E1 E2 (fr' & E3) E4 E5. apply (c_same w); try done.
  - rewrite E1. symmetry. by apply list_insert_id.
  - destruct E3 as [E3|(p & frp & frp' & Hp & Hr & E3)]; [by eapply dom_put|].
    split; [done|]. intros q. rewrite E3. intros X. apply lookup_insert_None in X as (X & _).
    apply lookup_insert_None in X. tauto.
  - intros q frq. rewrite Hrun. intros Hq Hne. destruct E3 as [E3|(p & frp & frp' & Hp & Hr & E3)]; rewrite E3 in Hq.
    + rewrite lookup_insert_ne in Hq by congruence. eauto.
    + destruct (decide (q = p)) as [->|].
      * rewrite lookup_insert in Hq. injection Hq as <-. eauto.
      * rewrite lookup_insert_ne in Hq by done. rewrite lookup_insert_ne in Hq by congruence. eauto.
Qed.

Lemma c_join_resume k w2 fr2 s2 :
  nforks f (shape_of (s_frames s)) = 0 -> ncalls f (shape_of (s_frames s)) = 0 ->
  (s_frames s2 = s_frames s \/ exists fr3, s_frames s2 = <[f := fr3]> (s_frames s)) ->
  (s_workers s2 = s_workers s \/ exists w3, s_workers s2 = <[i := w3]> (s_workers s)) ->
  s_nextf s2 = s_nextf s ->
  good3 (join_resume i w2 f fr2 k s2 []).
Proof using I H V T Hi Hf Hrun.
  intros Hnf Hnc EF EW En s' tr E. destruct (join_resume_shape _ _ _ _ _ _ _ _ _ E) as (fr' & r & -> & ->). to_good3.
  assert (HF : forall x, <[f := x]> (s_frames s2) = <[f := x]> (s_frames s)).
  { intros x. destruct EF as [-> |(fr3 & ->)]; [done|]. by rewrite insert_insert. }
  assert (HW : forall x, <[i := x]> (s_workers s2) = <[i := x]> (s_workers s)).
  { intros x. destruct EW as [-> |(w3 & ->)]; [done|]. by rewrite list_insert_insert. }
  apply (c_same (set_pc (PRun f) w2) _ [EvJoin f (f_cells fr2) r]); try done.
  - cbn. apply HW.
  - eapply dom_put; [cbn; apply HF|done|done].
  - intros q frq Hq Hne. cbn in Hq. rewrite HF in Hq. rewrite lookup_insert_ne in Hq by congruence. eauto.
  - repeat constructor.
  - cbn. split_and!; [eexists; apply run_status|by apply kids_gone|apply T].
Qed.

Lemma c_take_join k fr1 :
  nforks f (shape_of (s_frames s)) = 0 -> ncalls f (shape_of (s_frames s)) = 0 ->
  good3 (take_stack_join_resume i w f fr1 k s []).
Proof using I H V T Hi Hf Hrun.
  intros Hnf Hnc. unfold take_stack_join_resume. case_decide; [done|].
  destruct (stk s (w_stk w)); [|done]. apply c_join_resume; try done; right; eauto.
Qed.

Lemma c_join_suspend : w_pc w = PJSusp f -> good3 (join_suspend i w f fr s).
Proof using I H V T Hi Hf Hrun.
  intros Hpc. unfold join_suspend. destruct (f_rp fr) as [[]| | | | | | |] eqn:Hr; try done.
  destruct (pend_run _ _ _ _ _ f I Hi (or_intror Hpc)) as (fr0 & Hf0 & P1 & P2).
  assert (fr0 = fr) as -> by congruence. clear Hf0.
  pose proof (i_node _ _ _ I f fr Hf) as N. rewrite P1, P2 in N.
  destruct (node_run _ _ _ _ _ _ _ _ _ N (or_introl Hr)) as (N1 & _ & N2 & _ & N3 & N4 & N5).
  destruct (decide (f_steals fr = u16max - f_joins fr)) as [Hw|Hw].
  - apply c_take_join; lia.
  - intros s' tr E G' I'. injection E as <- <-. cbn [rev app].
    eapply (stat_suspend nw G G' s _ h i (w_pc w) PSelf f); try done.
    + by apply pcs_lookup.
    + by apply (pcs_ins _ (set_pc PSelf w)).
    + by eapply dom_put.
    + by eapply rps_put.
    + left. split; [done|]. intros fr'. cbn. rewrite lookup_insert. intros [= <-]. by eexists.
Qed.

Lemma c_switch d k :
  good3 (match same_stacklet s f fr w, s_workers s !! d with
      | Some same, Some _ =>
        if decide (same = bool_decide (f_steals fr = 0)) then
          let s1 := put_worker i (set_pc (PSwRel same) w) (put_frame f (set_rp (RSwitched d k) fr) s) in
          match s_workers s1 !! d with
          | Some wd => Next (put_worker d (set_inbox (w_inbox wd ++ [f]) wd) s1) [EvSwitch f d]
          | None => Undef
          end
        else Undef
      | _, _ => Undef
      end).
Proof using I H V T Hi Hf Hrun.
  destruct (same_stacklet s f fr w) as [same|]; [|done].
  destruct (s_workers s !! d) as [v|] eqn:Hd; [|done]. case_decide; [|done]. cbn zeta.
  set (s1 := put_worker i (set_pc (PSwRel same) w) (put_frame f (set_rp (RSwitched d k) fr) s)).
  destruct (s_workers s1 !! d) as [wd|] eqn:Hd1; [|done].
  intros s' tr E G' I'. injection E as <- <-. cbn [rev app].
  eapply (stat_suspend nw G G' s _ h i (w_pc w) (PSwRel same) f); try done.
  - by apply pcs_lookup.
  - change (PSwRel same) with (w_pc (set_pc (PSwRel same) w)).
    rewrite <- (pcs_ins s1 (set_pc (PSwRel same) w)) by done. unfold pcs. cbn.
    rewrite list_fmap_insert. apply list_insert_id. rewrite list_lookup_fmap. cbn in Hd1. by rewrite Hd1.
  - by eapply dom_put.
  - by eapply rps_put.
  - right. exists d. split; [done|]. intros fr'. cbn. rewrite lookup_insert. intros [= <-]. by eexists.
Qed.

Lemma c_child (fk st : bool) c rp' kd cs' :
  (if fk then exists m st k pre, rp' = RFork m st k pre else exists m st k, rp' = RCall m st k) ->
  forall w1, pcrun (w_pc w1) = Some (s_nextf s) ->
  good3 (Next (put_worker i w1 (spawn_child w kd c (put_frame f (set_cells cs' (set_rp rp' fr)) s)))
     [if fk then EvFork f (s_nextf s) st c else EvCall f (s_nextf s) st c; EvResume i (s_nextf s)]).
Proof using I H V T Hi Hf Hrun.
  intros Hrp w1 Hw1 s' tr E G' I'. injection E as <- <-. cbn [rev app].
  assert (Hne : s_nextf s <> f).
  { intros E. rewrite (i_fresh _ _ _ I) in Hf by lia. done. }
  eapply (stat_child nw G G' s _ h i (w_pc w) (w_pc w1) f (s_nextf s) st c); try done.
  - by apply pcs_lookup.
  - by apply (pcs_ins _ w1).
  - intros q. cbn. intros X. apply lookup_insert_None in X as (X & _). apply lookup_insert_None in X. tauto.
  - intros q frq. cbn. intros Hq H1 H2. rewrite !lookup_insert_ne in Hq by done. eauto.
  - destruct fk; [left|right]; (split; [done|]); intros fr'; cbn; rewrite lookup_insert_ne by done;
      rewrite lookup_insert; intros [= <-]; done.
Qed.

End run.

Section prun.
Context (f : N) (fr : frame).
Hypothesis Hf : s_frames s !! f = Some fr.
Hypothesis Hpc : w_pc w = PRun f.

Lemma prun : pcrun (w_pc w) = Some f.
Proof using Hpc. by rewrite Hpc. Qed.

Lemma c_put fr' tr : Forall neutral (rev tr) -> evs2 (rev tr ++ h) -> good3 (Next (put_frame f fr' s) tr).
Proof using I T Hi Hf Hpc. intros. eapply (c_local f fr Hf prun); try done. eauto. Qed.

Lemma run_st : exists x, status_in f h = Some (Running x).
Proof using T Hi Hpc. exists i. apply run_status, prun. Qed.

Lemma c_deliver o : good3 (deliver f fr o s).
Proof using I T Hi Hf Hpc.
  assert (E : evs2 (rev [EvEnd f o] ++ h)) by (cbn; split; [apply run_st|apply T]).
  assert (En : Forall neutral (rev [EvEnd f o])) by repeat constructor.
  unfold deliver. destruct (f_kind fr) as [|p j st|p j st] eqn:Ek.
  - eapply (c_local f fr Hf prun); try done. eauto.
  - destruct (s_frames s !! p) as [frp|] eqn:Hp; [|done].
    destruct o as [v|e]; [|destruct st; [|destruct (f_eflag frp)]]; eapply (c_local f fr Hf prun); try done; eexists;
      first [by left | right; eexists p, frp, _; split_and!; cycle 2; [reflexivity|done|done]].
  - destruct (s_frames s !! p) as [frp|] eqn:Hp; [|done].
    destruct o as [v|e]; [|destruct st; [|destruct (f_eflag frp)]]; eapply (c_local f fr Hf prun); try done; eexists;
      first [by left | right; eexists p, frp, _; split_and!; cycle 2; [reflexivity|done|done]].
Qed.

Lemma c_capture e : good3 (capture f fr e s).
Proof using I T Hi Hf Hpc.
  assert (X1 : evs2 (rev [] ++ h)) by apply T.
  assert (X0 : Forall neutral (rev [])) by constructor.
  unfold capture. destruct (f_kind fr) as [|p j st|p j st] eqn:Ek; [done|..].
  - destruct (s_frames s !! p) as [frp|] eqn:Hp; [|done]. eapply (c_local f fr Hf prun); try done.
    eexists; right; eexists p, frp, _; split_and!; cycle 2; [reflexivity|done|done].
  - destruct (s_frames s !! p) as [frp|] eqn:Hp; [|done]. eapply (c_local f fr Hf prun); try done.
    eexists; right; eexists p, frp, _; split_and!; cycle 2; [reflexivity|done|done].
Qed.

Lemma c_fork_resume seen m st k pre :
  f_rp fr = RFork m st k pre -> good3 (fork_resume seen i w f fr m st k pre s).
Proof using I H V T Hi Hf Hpc.
  intros Hr s' tr E. destruct (fork_resume_shape _ _ _ _ _ _ _ _ _ _ _ _ E) as (fr' & t & -> & Htr). to_good3.
  eapply (c_put _ tr).
  - destruct Htr as [-> |[(-> & _)|(e & ->)]]; repeat constructor.
  - destruct Htr as [-> |[(-> & Hs)|(e & ->)]].
    + apply T.
    + cbn. split_and!; [apply run_st| |apply T].
      specialize (V i w Hi). unfold wv in V. rewrite Hpc in V.
      destruct (V fr m st k pre Hf Hr Hs) as (c & st' & Hl & (o & Ho)). exists c, st', o. split_and!; try done.
      rewrite (k_cells _ _ _ _ (g_frames _ _ _ H f fr Hf)). unfold fres_last, results_in.
      rewrite fmap_last, Hl. cbn. by rewrite Ho.
    + cbn. split; [apply run_st|apply T].
Qed.

Lemma c_signal :
  f_rp fr = RFinal -> good3 (Next (put_sem f (sem s f + 1) (put_frame f (set_rp RSignalled fr) s)) [EvSignal f]).
Proof using I H V T Hi Hf Hpc.
  intros Hr. eapply (c_local f fr Hf prun); try done; [eauto|repeat constructor|].
  cbn. split_and!; [apply run_st| |apply T].
  pose proof (i_node _ _ _ I f fr Hf) as (_ & N2 & _ & _ & N5). rewrite Hr in *.
  apply descendants_gone; lia.
Qed.

Lemma c_destroy s1 w1 s' :
  destroy w f fr s = Some s1 -> s_workers s' = <[i := w1]> (s_workers s) -> pcrun (w_pc w1) = None ->
  s_frames s' = s_frames s1 -> s_nextf s' = s_nextf s1 ->
  good3 (Next s' [EvDestroy f]).
Proof using I H V T Hi Hf Hpc.
  intros Hd E1 E2 E3 E4. unfold destroy in Hd.
  case_decide; [|done]. destruct (stk s (w_stk w)) as [|g l]; [done|]. case_decide; [|done].
  subst g. injection Hd as <-. cbn in E3, E4.
  intros s2 tr E G' I'. injection E as <- <-.
  eapply (stat_destroy nw G G' s s' h [] i (w_pc w) (w_pc w1) f); try done.
  - by apply pcs_lookup.
  - by apply pcs_ins.
  - apply prun.
  - intros q. rewrite E3. intros [->|X]%lookup_delete_None; eauto.
  - rewrite E3. apply lookup_delete.
  - by left.
  - intros q frq. rewrite E3. intros (_ & Hq)%lookup_delete_Some _. eauto.
  - cbn. split; [apply run_st|apply T].
Qed.

Lemma c_root_destroy : good3 (root_destroy i w f fr s).
Proof using I H V T Hi Hf Hpc.
  unfold root_destroy. destruct (destroy w f fr s) as [s1|] eqn:Ed; [|done]. unfold to_idle.
  destruct (w_deque w); [|done]. destruct (stk s1 (w_stk w)); [|done].
  apply (c_destroy s1 (set_pc PIdle w)); try done.
  unfold destroy in Ed. case_decide; [|done]. destruct (stk s (w_stk w)); [done|]. case_decide; [|done].
  injection Ed as <-. done.
Qed.

Lemma c_finish_call seen p j st0 s1 frp m st k :
  f_kind fr = KCall p j st0 ->
  destroy w f fr s = Some s1 -> s_frames s1 !! p = Some frp -> f_rp frp = RCall m st k ->
  good3 (call_resume seen i w p frp m st k s1 [EvDestroy f; EvResume i p]).
Proof using I H V T Hi Hf Hpc.
  intros Hk Hd Hp Hrp. unfold destroy in Hd.
  case_decide; [|done]. destruct (stk s (w_stk w)) as [|g l]; [done|]. case_decide; [|done].
  subst g. injection Hd as <-. cbn in Hp.
  apply lookup_delete_Some in Hp as (Hne & Hp).
  intros s' tr E G' I'.
  destruct (call_resume_shape _ _ _ _ _ _ _ _ _ _ _ _ E) as (fr' & t & -> & tr0 & -> & Htr).
  pose proof (g_frames _ _ _ H f fr Hf) as K.
  pose proof (g_frames _ _ _ H p frp Hp) as Kp.
  assert (Hno : forall j, ~ runs s j p).
  { eapply nobody; eauto. left. by rewrite Hrp. }
  pose proof (t_sus _ _ T p frp Hp Hno) as Hs. rewrite Hrp in Hs. destruct Hs as (c & st' & Hs & Hl).
  assert (Hsh := shape_lookup _ _ _ Hf).
  assert (Hpar : par (f_kind fr) = Some p) by (by rewrite Hk).
  destruct (i_kid _ _ _ I f _ _ p frp Hsh Hpar Hp) as (Kid & _). rewrite Hk in Kid.
  destruct Kid as (Kid1 & _). cbn in Kid1.
  assert (c = f) as ->.
  { pose proof (k_kind _ _ _ _ K) as Hkj. rewrite Hk in Hkj.
    rewrite last_lookup in Hl. rewrite (k_cells _ _ _ _ Kp) in Kid1.
    unfold results_in in Kid1. rewrite map_length in Kid1. rewrite <- Kid1 in Hl. cbn in Hl. congruence. }
  rewrite rev_app_distr. cbn [rev app]. rewrite <- app_assoc.
  change (rev tr0 ++ [EvResume i p; EvDestroy f] ++ h) with (rev tr0 ++ [EvResume i p] ++ EvDestroy f :: h).
  rewrite app_assoc.
  assert (Hn : Forall neutral (rev tr0)).
  { destruct Htr as [-> |(e & ->)]; repeat constructor. }
  eapply (stat_destroy nw G G' s _ h _ i (w_pc w) (PRun p) f); try done.
  - by apply pcs_lookup.
  - by apply (pcs_ins _ (set_pc (PRun p) w)).
  - apply prun.
  - intros q. cbn. intros (X & _)%lookup_insert_None. apply lookup_delete_None in X as [->|X]; eauto.
  - cbn. rewrite lookup_insert_ne by done. apply lookup_delete.
  - right. exists p, (rev tr0). split_and!; try done.
  - intros q frq. cbn. intros Hq Hqp. rewrite lookup_insert_ne in Hq by congruence.
    apply lookup_delete_Some in Hq as (_ & Hq). eauto.
  - assert (X : evs2 (EvResume i p :: EvDestroy f :: h)).
    { cbn. rewrite decide_False by done. rewrite Hs. rewrite decide_True by done.
      split_and!; [done|apply run_st|apply T]. }
    rewrite <- app_assoc. destruct Htr as [-> |(e & ->)]; [exact X|]. cbn [rev app]. split; [|exact X].
    cbn. rewrite decide_True by done. eauto.
Qed.

Lemma c_finish seen : f_rp fr = RFinal -> good3 (finish seen i w f fr s).
Proof using I H V T Hi Hf Hpc.
  intros Hr. unfold finish. case_decide; [|done]. destruct (f_kind fr) as [|p j st|p j st] eqn:Ek.
  - by apply c_signal.
  - destruct (destroy w f fr s) as [s1|] eqn:Ed; [|done].
    destruct (s_frames s1 !! p) as [frp|] eqn:Hp; [|done].
    destruct (f_rp frp) eqn:Hrp; try done. by eapply c_finish_call.
  - destruct (destroy w f fr s) as [s1|] eqn:Ed; [|done].
    apply (c_destroy s1 (set_pc (PFinal p) w)); try done.
    unfold destroy in Ed. case_decide; [|done]. destruct (stk s (w_stk w)); [done|]. case_decide; [|done].
    injection Ed as <-. done.
Qed.

Lemma c_run_task fail t :
  f_rp fr = RRun t -> good3 (run_task i fail w f fr t s).
Proof using I H V T Hi Hf Hpc.
  intros Hr. unfold run_task.
  assert (X0 : Forall neutral (rev [])) by constructor.
  assert (X1 : evs2 (rev [] ++ h)) by apply T.
  destruct t as [v|e|m st c k|m st c k|k|sk d k|e k|k].
  - apply c_deliver.
  - apply c_deliver.
  - destruct fail; [by apply c_put|]. cbn zeta.
    apply (c_child f fr Hf prun true st c (RFork m st k (f_steals fr)) (KFork f (length (f_cells fr)) st)); eauto 6.
  - destruct fail; [by apply c_put|]. cbn zeta.
    apply (c_child f fr Hf prun false st c (RCall m st k) (KCall f (length (f_cells fr)) st)); eauto.
  - destruct (run_facts nw G s i w I Hi f fr Hf Hpc) as (P1 & P2 & N & S1 & S2 & L & D1 & D2).
    destruct (node_run _ _ _ _ _ _ _ _ _ N (or_introl Hr)) as (N1 & _ & N2 & _ & N3 & N4 & N5).
    destruct (decide (f_steals fr = 0)) as [Hz|Hz].
    + destruct (unstolen_childless _ _ _ _ _ _ _ N eq_refl Hz) as (M1 & M2 & M3 & M4).
      apply (c_join_resume f fr Hf prun); try done; by left.
    + destruct (decide (f_steals fr = u16max - f_joins fr)) as [Hw|Hw].
      * apply (c_take_join f fr Hf prun); lia.
      * apply (c_idle (set_pc (PJSusp f) w)); try done. by rewrite Hpc.
  - destruct (sk && bool_decide (d = i)); [by apply c_put|]. by apply (c_switch f fr Hf prun).
  - apply c_put; [repeat constructor|]. cbn. split; [apply run_st|apply T].
  - by apply c_put.
Qed.

End prun.

Lemma c_sub p : w_pc w = PSub p -> good3 (final_sub i w p s).
Proof using I H V T Hi.
  intros Hpc. unfold final_sub. destruct (s_frames s !! p) as [fr|] eqn:Hp; [|done].
  destruct (same_stacklet s p fr w) as [same|]; [|done].
  pose proof (i_node _ _ _ I p fr Hp) as N. pose proof N as (N1 & N2 & N3 & N4 & N5).
  assert (Hsw : wsub p w = 1) by (unfold wsub; by rewrite Hpc, eqn_refl).
  pose proof (sumw_ge (wsub p) _ _ _ Hi) as Hge. rewrite Hsw in Hge.
  assert (HX : forall w1 s', s_workers s' = <[i := w1]> (s_workers s) -> pcrun (w_pc w1) = None ->
    s_frames s' = <[p := set_joins (u16sub (f_joins fr) 1) fr]> (s_frames s) -> s_nextf s' = s_nextf s ->
    good3 (Next s' [])).
  { intros w1 s' E1 E2 E3 E4. eapply c_same; try done.
    - by rewrite Hpc.
    - by eapply dom_put.
    - intros q frq Hq _. rewrite E3 in Hq. destruct (decide (q = p)) as [->|].
      + rewrite lookup_insert in Hq. injection Hq as <-. eauto.
      + rewrite lookup_insert_ne in Hq by done. eauto.
    - constructor.
    - apply T. }
  destruct (decide (f_joins fr = 1)) as [E1|E1].
  - destruct (f_rp fr) as [t|m st k pre|m st k|k|d t|e| |] eqn:Hr; try done.
    destruct (if same then [] else stk s (w_stk w)); [|done].
    destruct N5 as (N5 & N6 & _).
    intros s' tr E. destruct (join_resume_shape _ _ _ _ _ _ _ _ _ E) as (fr' & r & -> & ->). to_good3.
    assert (Hnf : nforks p (shape_of (s_frames s)) = 0) by lia.
    apply (c_resume (set_pc (PRun p) (set_wstk (f_stk fr) w)) _ p fr [EvJoin p (f_cells fr) r]); try done.
    + cbn. by rewrite list_insert_insert.
    + by rewrite Hpc.
    + eapply dom_put; [cbn; apply insert_insert|done|done].
    + eapply rps_put. cbn. apply insert_insert.
    + eapply nobody; eauto. left. by rewrite Hr.
    + by rewrite Hr.
    + repeat constructor.
    + intros _ X. cbn [rev app]. split; [|exact X]. cbn. rewrite decide_True by done. split; [eauto|].
      intros c st Hc. destruct (decide (p = c)) as [<-|].
      * exfalso. pose proof (kid_par p p st fr Hc Hp) as Hpp.
        destruct (i_kid _ _ _ I p _ _ p fr (shape_lookup _ _ _ Hp) Hpp Hp) as (_ & ?). lia.
      * by eapply (kids_gone p).
  - destruct same.
    + by apply (HX (set_pc PLoseRel w)).
    + unfold to_idle. destruct (w_deque w); [|done]. destruct (stk _ _); [|done].
      by apply (HX (set_pc PIdle w)).
Qed.

Lemma c_wstep fail : good3 (wstep i fail s).
Proof using I H V T Hi.
  unfold wstep. rewrite Hi. destruct (w_pc w) as [|f|f|p|p| |f|b|] eqn:Hpc.
  - destruct (w_batch w) as [|f rest] eqn:Eb; [done|]. by apply c_submitted.
  - by apply c_stolen.
  - destruct (s_frames s !! f) as [fr|] eqn:Hf; [|done].
    destruct (f_rp fr) as [t|m st k pre|m st k|k|d t|e| |] eqn:Hr; try done.
    + by eapply c_run_task.
    + by eapply c_fork_resume.
    + eapply c_put; try done; [constructor|apply T].
    + by eapply c_capture.
    + by eapply c_finish.
    + by apply c_root_destroy.
  - pose proof (c_final p Hpc) as X. unfold wstep in X. by rewrite Hi, Hpc in X.
  - by apply c_sub.
  - pose proof (c_loserel Hpc) as X. unfold wstep in X. by rewrite Hi, Hpc in X.
  - destruct (s_frames s !! f) as [fr|] eqn:Hf; [|done]. eapply c_join_suspend; try done. by rewrite Hpc.
  - pose proof (c_swrel b Hpc) as X. unfold wstep in X. by rewrite Hi, Hpc in X.
  - by apply c_self_steal.
Qed.

Lemma c_steal v : good3 (steal i v s).
Proof using I T Hi.
  unfold steal. rewrite Hi.
  destruct (s_workers s !! v) as [wv'|] eqn:Hv; [|done]. case_decide as Hne; [done|].
  destruct (w_pc w) eqn:Hpc; try done. destruct (w_batch w); [|done].
  destruct (last (w_deque wv')) as [f|] eqn:El; [|done]. intros s' tr E G' I'. injection E as <- <-. cbn [rev app].
  apply (stat_same nw G G' s _ h [] i PIdle (PStolen f)); try done.
  - rewrite <- Hpc. by apply pcs_lookup.
  - unfold pcs. cbn. rewrite !list_fmap_insert. cbn. f_equal. apply list_insert_id.
    rewrite list_lookup_fmap, Hv. done.
  - intros q fr' Hq _. eauto.
  - apply T.
Qed.

Lemma c_spawn t : good3 (spawn i t s).
Proof using I T Hi.
  unfold spawn. rewrite Hi. intros s' tr E G' I'. injection E as <- <-. cbn [rev app].
  eapply (stat_spawn nw G G' s _ h _ (new_frame KRoot t (s_nexts s)) t i (w_pc w)); try done.
  - by apply pcs_lookup.
  - unfold pcs. cbn. rewrite list_fmap_insert. apply list_insert_id. by rewrite list_lookup_fmap, Hi.
Qed.

End c.

Lemma reach_stat af nw s h : reach nw af s h -> stat s h.
Proof.
  induction 1 as [|s h l s' tr HR IH Ha E].
  - split; cbn; try done.
    + intros i f (p & Hp & Hr). exfalso. unfold pcs in Hp. rewrite list_lookup_fmap in Hp.
      destruct (s_workers (init nw) !! i) as [w|] eqn:Hi; [|done].
      destruct (init_worker _ _ _ Hi) as (-> & _). cbn in Hp. injection Hp as <-. done.
    + intros f Hf. lia.
  - destruct (reach_inv _ _ _ _ HR) as (G & I). destruct (reach_hist _ _ _ _ HR) as (H & V).
    destruct (reach_inv _ _ _ _ (reach_step _ _ _ _ _ _ _ HR Ha E)) as (G' & I').
    destruct l as [i fail|i|i|i v|d t]; cbn in E.
    + destruct (s_workers s !! i) as [w|] eqn:Hi.
      * by eapply (c_wstep af nw G s h i w I H V IH Hi fail).
      * unfold wstep in E. by rewrite Hi in E.
    + destruct (stale_inv _ _ _ _ E) as (w & f & fr & Hi & Hpc & Hf & [(k & Hr & Hz & -> & ->)|[(m & st & k & pre & Hr & E')|(p & j & st & Hr & Hk & E')]]).
      * assert (X : good3 nw h (Next (put_worker i (set_pc (PJSusp f) w) s) [])); [|by eapply X].
        eapply (c_idle nw G s h i w I IH Hi (set_pc (PJSusp f) w)); try done. by rewrite Hpc.
      * assert (X : good3 nw h (fork_resume false i w f fr m st k pre s)); [by eapply c_fork_resume|by eapply X].
      * assert (X : good3 nw h (finish false i w f fr s)); [by eapply c_finish|by eapply X].
    + destruct (s_workers s !! i) as [w|] eqn:Hi.
      * by eapply (c_take nw G s h i w I IH Hi).
      * unfold take in E. by rewrite Hi in E.
    + destruct (s_workers s !! i) as [w|] eqn:Hi.
      * by eapply (c_steal nw G s h i w I IH Hi).
      * unfold steal in E. by rewrite Hi in E.
    + destruct (s_workers s !! d) as [w|] eqn:Hi.
      * by eapply (c_spawn nw G s h d w I IH Hi).
      * unfold spawn in E. by rewrite Hi in E.
Qed.
