(** * The relation between states and histories is preserved. *)

From stdpp Require Import prelude gmap list.
From Coq Require Import NArith Lia.
From Verif Require Import RuntimeModel RuntimeSpec RuntimeInv RuntimeStep RuntimeStep2 RuntimeStep3
  RuntimeStep4 RuntimeStep5 RuntimeStep6 RuntimeStep7 RuntimeSafe RuntimeHist.
Local Open Scope N_scope.

(** The newest child of [p] has ended. *)
Definition last_ended (h : list event) (p : N) : Prop :=
  exists c st, last (kids_in p h) = Some (c, st) /\ ended h c.

(** A worker about to pop its deque has just ended the newest child of the
    parent; a task resumed from a fork without having been stolen has no
    running child. *)
Definition wv (F : gmap N frame) (h : list event) (w : worker) : Prop :=
  match w_pc w with
  | PFinal p => w_deque w <> [] -> last_ended h p
  | PRun f => forall fr m st k pre, F !! f = Some fr -> f_rp fr = RFork m st k pre ->
      f_steals fr = pre -> last_ended h f
  | _ => True
  end.

Definition vok (s : state) (h : list event) : Prop :=
  forall i w, s_workers s !! i = Some w -> wv (s_frames s) h w.

Lemma ended_mono tr h c : ended h c -> ended (tr ++ h) c.
Proof.
  intros Hc. induction tr as [|e tr IH]; [done|]. destruct IH as (o & Ho).
  destruct e; cbn; try (by exists o). unfold ended. cbn. case_decide; eauto.
Qed.

Lemma last_ended_mono tr h p :
  kids_in p (tr ++ h) = kids_in p h -> last_ended h p -> last_ended (tr ++ h) p.
Proof.
  intros E (c & st & H1 & H2). exists c, st. rewrite E. split; [done|]. by apply ended_mono.
Qed.

Lemma last_cell af h f α :
  res_ok af h f α -> last_ended h f ->
  fres_last (results_in f h) = fres_last (rcells α (kids_in f h)).
Proof.
  intros Hr (c & st & Hl & o & Ho). unfold fres_last, results_in, rcells.
  rewrite !fmap_last, Hl. cbn. rewrite Ho. f_equal.
  specialize (Hr c st). rewrite Ho in Hr. rewrite Hr; [done|]. by apply last_Some_elem_of.
Qed.

Section h2.
Context (af : bool).

Definition good2 (r : res) (h : list event) : Prop :=
  forall s' tr, r = Next s' tr -> hist af s' (rev tr ++ h) /\ vok s' (rev tr ++ h).

(** Events that say nothing about tasks, children and outcomes. *)
Lemma vok_sil s h tr : vok s h -> Forall silent tr -> vok s (tr ++ h).
Proof.
  intros V Hs i w Hw. pose proof (silent_app tr h Hs) as (_ & _ & A3 & _).
  specialize (V i w Hw). unfold wv in *. destruct (w_pc w); try done.
  - intros fr m st k pre H1 H2 H3. apply last_ended_mono; [done|]. by eapply V.
  - intros H1. apply last_ended_mono; [done|]. auto.
Qed.
Lemma good2_sil s h tr : good2 (Next s []) h -> Forall silent tr -> good2 (Next s tr) h.
Proof.
  intros X Hs s' tr' E. injection E as <- <-. destruct (X s [] eq_refl) as (X1 & X2). cbn in X1, X2.
  assert (Hs' : Forall silent (rev tr)).
  { apply Forall_forall. intros e He. rewrite Forall_forall in Hs. apply Hs.
    apply elem_of_list_In. apply elem_of_list_In in He. by apply in_rev. }
  split; [by apply hist_sil|by apply vok_sil].
Qed.

(** A completed rethrow: the exceptions are gone and no child is left. *)
Lemma hist_rethrow s s' h f fr (e' : option exn) ev fr' t' :
  hist af s h -> s_frames s !! f = Some fr -> over (f_rp fr) = false ->
  (forall c frc, s_frames s !! c = Some frc -> par (f_kind frc) = Some f -> False) ->
  s_frames s' = <[f := fr']> (s_frames s) ->
  s_nextf s' = s_nextf s -> s_res s' = s_res s -> s_sem s' = s_sem s ->
  f_kind fr' = f_kind fr -> f_cells fr' = f_cells fr ->
  f_eflag fr' = false -> f_eptr fr' = None -> f_rp fr' = RRun t' ->
  (ev = EvJoin f (f_cells fr) e' /\ join_ret (pending_in f h) e' \/
   exists e, ev = EvEager f e /\ e ∈ pending_in f h) ->
  (forall o, srun af (f_cells fr) ∅ t' o.1 o.2 -> cont af (f_rp fr) (f_cells fr) (pending_in f h) o) ->
  hist af s' (ev :: h).
Proof.
  intros H Hf O1 Hno EF En Er Es E1 E2 E3 E4 E5 Hev Href.
  pose proof (kids_ended af s h f H Hno) as Hke.
  pose proof (g_frames _ _ _ H f fr Hf) as K.
  assert (Hfo : outcome_in f h = None).
  { destruct (outcome_in f h) eqn:E; [|done]. exfalso.
    destruct (k_over _ _ _ _ K) as (_ & X). rewrite X in O1; [done|]. by eexists. }
  assert (Hp : pending_in f (ev :: h) = ∅).
  { destruct Hev as [(-> & _)|(e & -> & _)]; cbn; by rewrite decide_True. }
  eapply (hist_loc af s s' h (ev :: h) f fr fr'); try done.
  - by rewrite E5.
  - intros c. destruct Hev as [(-> & _)|(e & -> & _)]; done.
  - intros c. destruct Hev as [(-> & _)|(e & -> & _)]; done.
  - intros c. destruct Hev as [(-> & _)|(e & -> & _)]; done.
  - intros c. destruct Hev as [(-> & _)|(e & -> & _)]; done.
  - intros c. destruct Hev as [(-> & _)|(e & -> & _)]; done.
  - intros c Hc. destruct Hev as [(-> & _)|(e & -> & _)]; cbn; by rewrite decide_False.
  - cbn. split; [|apply (g_evs _ _ _ H)].
    destruct Hev as [(-> & Hj)|(e & -> & He)]; cbn; split_and!; try done.
    apply (k_cells _ _ _ _ K).
  - by right.
  - rewrite Hp, E3. done.
  - by rewrite E4.
  - intros α o Hres. cbn zeta. rewrite Hp, E5. rewrite rexn_ended by done. cbn.
    replace (∅ ∪ ∅ : gset exn) with (∅ : gset exn) by set_solver.
    replace (pending_in f h ∪ ∅) with (pending_in f h) by set_solver.
    rewrite (rcells_ended af h f α Hres Hke). rewrite <- (k_cells _ _ _ _ K). apply Href.
Qed.

Section cases.
Context (nw : nat) (G : ghost) (s : state) (h : list event) (i : nat) (w : worker).
Hypothesis (I : inv nw G s) (H : hist af s h) (V : vok s h) (Hi : s_workers s !! i = Some w).

Lemma v_others s' tr :
  (forall j w', j <> i -> s_workers s' !! j = Some w' ->
    exists w0, s_workers s !! j = Some w0 /\ w_pc w' = w_pc w0 /\ w_deque w' = w_deque w0) ->
  (forall q m st k pre fr', wtok q w = 0 -> s_frames s' !! q = Some fr' -> f_rp fr' = RFork m st k pre ->
    exists fr, s_frames s !! q = Some fr /\ f_rp fr = RFork m st k pre /\ f_steals fr = f_steals fr') ->
  (forall q, wtok q w = 0 -> kids_in q (rev tr ++ h) = kids_in q h) ->
  (forall w', s_workers s' !! i = Some w' -> wv (s_frames s') (rev tr ++ h) w') ->
  vok s' (rev tr ++ h).
Proof using I V Hi.
  intros H1 H2 H3 H4 j w' Hj. destruct (decide (j = i)) as [->|Hne]; [by apply H4|].
  destruct (H1 j w' Hne Hj) as (w0 & Hj0 & Epc & Ed). specialize (V j w0 Hj0).
  assert (Hno : forall q, 0 < wtok q w0 -> wtok q w = 0).
  { intros q Hq. destruct (tok_live _ _ _ q _ _ I Hj0 Hq) as (frq & Hfq).
    by eapply (tok_other _ _ _ q frq j i w0 w I). }
  unfold wv in *. rewrite Epc, Ed. destruct (w_pc w0) as [|f|f|p|p| |f|b|] eqn:E; try done.
  - intros fr m st k pre Hf Hr Hs.
    assert (Hz : wtok f w = 0). { apply Hno. unfold wtok. rewrite E. cbn. rewrite eqn_refl. lia. }
    destruct (H2 f m st k pre fr Hz Hf Hr) as (fr0 & Hf0 & Hr0 & Hs0).
    apply last_ended_mono; [by apply H3|]. eapply V; eauto. congruence.
  - intros Hd. apply last_ended_mono; [|by apply V]. apply H3, Hno.
    destruct (i_wrk _ _ _ I j w0 Hj0) as ((_ & W) & _). rewrite E in W. destruct W as ((x & L) & _).
    destruct (w_deque w0) as [|d D] eqn:Ed0; [done|]. cbn in L. destruct L as (? & ? & ? & L & _).
    injection L as -> _ _. unfold wtok. rewrite Ed0. cbn. rewrite eqn_refl. lia.
Qed.

(** Changes to the workers that keep everything else. *)
Lemma w_insert_others (ws : list worker) w1 j w' :
  j <> i -> <[i := w1]> ws !! j = Some w' -> ws !! j = Some w'.
Proof. intros Hne Hj. by rewrite list_lookup_insert_ne in Hj by done. Qed.

Lemma w_insert_self (ws : list worker) w1 w' :
  <[i := w1]> ws !! i = Some w' -> w' = w1.
Proof. intros Hj. apply list_lookup_insert_Some in Hj. naive_solver. Qed.

Lemma no_child f :
  nforks f (shape_of (s_frames s)) = 0 -> ncalls f (shape_of (s_frames s)) = 0 ->
  forall c frc, s_frames s !! c = Some frc -> par (f_kind frc) = Some f -> False.
Proof using.
  intros H1 H2 c frc Hc Hp. eapply kid_count; [by apply shape_lookup|exact Hp|done|done].
Qed.


(** States in which only counters, stacks and workers changed. *)
Lemma h_core s' tr :
  (forall f, core <$> s_frames s' !! f = core <$> s_frames s !! f) ->
  s_nextf s' = s_nextf s -> s_res s' = s_res s -> s_sem s' = s_sem s ->
  Forall silent tr -> hist af s' (rev tr ++ h).
Proof using H.
  intros E1 E2 E3 E4 Hs. apply hist_sil; [by eapply hist_core|].
  apply Forall_forall. intros e He. rewrite Forall_forall in Hs. apply Hs.
  apply elem_of_list_In. apply elem_of_list_In in He. by apply in_rev.
Qed.

Lemma core_upd f fr fr' :
  s_frames s !! f = Some fr -> core fr' = core fr ->
  forall q, core <$> <[f := fr']> (s_frames s) !! q = core <$> s_frames s !! q.
Proof using.
  intros Hf E q. destruct (decide (q = f)) as [->|].
  - rewrite lookup_insert, Hf. cbn. by rewrite E.
  - by rewrite lookup_insert_ne.
Qed.

Definition calm (p : pc) : Prop := match p with PRun _ | PFinal _ => False | _ => True end.

(** The frames of tasks that worker [i] does not hold stay suspended forks. *)
Lemma v_calm s' tr w1 :
  s_workers s' = <[i := w1]> (s_workers s) -> calm (w_pc w1) ->
  s_frames s' = s_frames s -> Forall silent tr -> vok s' (rev tr ++ h).
Proof using I V Hi.
  intros E1 E2 E3 Hs. apply v_others.
  - intros j w' Hne Hj. rewrite E1 in Hj. apply w_insert_others in Hj; [eauto|done].
  - intros q m st k pre fr' _. rewrite E3. eauto.
  - intros q _. assert (Hs' : Forall silent (rev tr)).
    { apply Forall_forall. intros e He. rewrite Forall_forall in Hs. apply Hs.
      apply elem_of_list_In. apply elem_of_list_In in He. by apply in_rev. }
    destruct (silent_app (rev tr) h Hs') as (_ & _ & X & _). apply X.
  - intros w' Hw. rewrite E1 in Hw. apply w_insert_self in Hw as ->. unfold wv.
    destruct (w_pc w1); done.
Qed.

Lemma h_submitted f rest :
  w_pc w = PIdle -> w_batch w = f :: rest -> good2 (resume_submitted i w f rest s) h.
Proof using I H V Hi.
  intros Hpc Hb s' tr E. unfold resume_submitted in E.
  destruct (s_frames s !! f) as [fr|] eqn:Hf; [|done].
  destruct (w_deque w); [|done]. destruct (stk s (w_stk w)); [|done]. injection E as <- <-.
  split.
  - apply h_core; try done. repeat constructor.
  - apply v_others; try done.
    + intros j w' Hne Hj. apply w_insert_others in Hj; [eauto|done].
    + intros q m st k pre fr' _ Hq Hr. eauto.
    + intros w' Hw. apply w_insert_self in Hw as ->. cbn.
      assert (Hx : w_pc (if decide (f_steals fr = 0) then set_wstk (f_stk fr) (set_batch rest (set_pc (PRun f) w)) else set_batch rest (set_pc (PRun f) w)) = PRun f)
        by (by case_decide). unfold wv. rewrite Hx.
      intros fr0 m st k pre Hf0 Hr Hs. exfalso.
      destruct (i_wrk _ _ _ I i w Hi) as ((W & _) & _). destruct (W f) as (fr1 & Hf1 & Hr1).
      { rewrite Hb. set_solver. }
      assert (fr1 = fr0) as -> by congruence. by rewrite Hr in Hr1.
Qed.

Lemma h_steal_frame f fr d w1 :
  s_frames s !! f = Some fr -> 1 <= wpend f w -> w_pc w1 = PRun f ->
  good2 (Next (put_worker i w1 (put_frame f (set_steals (u16inc (f_steals fr)) fr) s)) [EvResume d f]) h.
Proof using I H V Hi.
  intros Hf Hp Hpc1 s' tr E. injection E as <- <-.
  destruct (steal_bound nw G s I f fr Hf) as (B1 & B2 & B3 & B4).
  { pose proof (sumw_ge (wpend f) _ _ _ Hi). lia. }
  split.
  - apply h_core; try done; [|repeat constructor]. by apply core_upd with fr.
  - apply v_others; try done.
    + intros j w' Hne Hj. apply w_insert_others in Hj; [eauto|done].
    + intros q m st k pre fr' Hz Hq Hr. cbn in Hq. rewrite lookup_insert_ne in Hq; [eauto|].
      intros <-. pose proof (wpend_le_wtok f w). lia.
    + intros w' Hw. apply w_insert_self in Hw as ->. unfold wv. rewrite Hpc1.
      intros fr0 m st k pre Hf0 Hr Hs. exfalso. cbn in Hf0. rewrite lookup_insert in Hf0. injection Hf0 as <-.
      destruct B4 as (m' & st' & k' & pre' & Er & Es). cbn in Hr, Hs. rewrite Er in Hr. injection Hr as <- <- <- <-. lia.
Qed.

Lemma h_stolen f : w_pc w = PStolen f -> good2 (resume_stolen i w f s) h.
Proof using I H V Hi.
  intros Hpc. unfold resume_stolen. destruct (s_frames s !! f) as [fr|] eqn:Hf; [|done].
  destruct (w_deque w); [|done]. destruct (stk s (w_stk w)); [|done].
  apply h_steal_frame; try done. unfold wpend. rewrite Hpc. rewrite eqn_refl. lia.
Qed.

Lemma h_idle w1 s1 tr :
  s_frames s1 = s_frames s -> s_nextf s1 = s_nextf s -> s_res s1 = s_res s -> s_sem s1 = s_sem s ->
  (s_workers s1 = s_workers s \/ exists w2, s_workers s1 = <[i := w2]> (s_workers s)) ->
  Forall silent tr -> good2 (to_idle i w1 s1 tr) h.
Proof using I H V Hi.
  intros E1 E2 E3 E4 E5 Hs s' tr' E. unfold to_idle in E.
  destruct (w_deque w1); [|done]. destruct (stk s1 (w_stk w1)); [|done]. injection E as <- <-.
  split.
  - apply h_core; try done. intros f. cbn. by rewrite E1.
  - apply v_calm with (set_pc PIdle w1); try done. cbn.
    destruct E5 as [-> |(w2 & ->)]; [done|]. by rewrite list_insert_insert.
Qed.

Lemma h_self_steal : w_pc w = PSelf -> good2 (self_steal i w s) h.
Proof using I H V Hi.
  intros Hpc. unfold self_steal. destruct (w_deque w) as [|q d] eqn:Ed.
  - apply h_idle; try done. by left.
  - destruct (s_frames s !! q) as [frq|] eqn:Hq; [|done]. apply h_steal_frame; try done.
    unfold wpend. rewrite Ed. cbn. rewrite eqn_refl. lia.
Qed.

Lemma h_loserel :
  good2 (let w' := set_wstk (s_nexts s) w in to_idle i w' (put_worker i w' (bump_s s)) []) h.
Proof using I H V Hi. cbn zeta. apply h_idle; try done. right. eauto. Qed.

Lemma h_swrel (b : bool) :
  good2 (let w' := if b then set_wstk (s_nexts s) w else w in
      let s' := if b then bump_s s else s in
      match stk s' (w_stk w') with
      | [] => Next (put_worker i (set_pc PSelf w') s') []
      | _ => Undef
      end) h.
Proof using I H V Hi.
  intros s' tr E. cbn zeta in E. destruct (stk _ _); [|done]. injection E as <- <-. split.
  - destruct b; by apply h_core.
  - destruct b; by eapply v_calm.
Qed.

Lemma h_take : good2 (take i s) h.
Proof using I H V Hi.
  intros s' tr E. unfold take in E. rewrite Hi in E.
  destruct (w_pc w) eqn:Epc; try done. destruct (w_batch w); [|done]. destruct (w_inbox w); [done|].
  injection E as <- <-. split; [by apply h_core|].
  eapply v_calm; try done. cbn. by rewrite Epc.
Qed.

Lemma h_final p :
  w_pc w = PFinal p ->
  good2 (match w_deque w with
      | q :: d =>
        if decide (q = p) then
          Next (put_worker i (set_pc (PRun p) (set_deque d w)) s) [EvResume i p]
        else Undef
      | [] => Next (put_worker i (set_pc (PSub p) w) s) []
      end) h.
Proof using I H V Hi.
  intros Hpc s' tr E. destruct (w_deque w) as [|q d] eqn:Ed.
  - injection E as <- <-. split; [by apply h_core|]. by eapply v_calm.
  - case_decide; [|done]. subst q. injection E as <- <-. split.
    + apply h_core; try done. repeat constructor.
    + apply v_others; try done.
      * intros j w' Hne Hj. apply w_insert_others in Hj; [eauto|done].
      * intros q m st k pre fr' _ Hq Hr. eauto.
      * intros w' Hw. apply w_insert_self in Hw as ->. cbn. intros fr m st k pre _ _ _.
        specialize (V i w Hi). unfold wv in V. rewrite Hpc, Ed in V. apply V. done.
Qed.

(** ** A running task *)

Section run.
Context (f : N) (fr : frame).
Hypothesis (Hf : s_frames s !! f = Some fr).

(** Only the frame of one task, and cells, exceptions of others change. *)
Lemma v_run s' tr w1 :
  s_workers s' = <[i := w1]> (s_workers s) ->
  (calm (w_pc w1) \/ w_pc w1 = PRun f) ->
  (forall fr', s_frames s' !! f = Some fr' -> forall m st k pre, f_rp fr' <> RFork m st k pre) ->
  (forall q fr' m st k pre, q <> f -> s_frames s' !! q = Some fr' -> f_rp fr' = RFork m st k pre ->
    exists fr0, s_frames s !! q = Some fr0 /\ f_rp fr0 = RFork m st k pre /\ f_steals fr0 = f_steals fr') ->
  (forall q, kids_in q (rev tr ++ h) = kids_in q h) ->
  vok s' (rev tr ++ h).
Proof using I V Hi.
  intros E1 E2 E5 E3 E4. apply v_others.
  - intros j w' Hne Hj. rewrite E1 in Hj. apply w_insert_others in Hj; [eauto|done].
  - intros q m st k pre fr' _ Hq Hr. destruct (decide (q = f)) as [->|]; [|by eapply E3].
    exfalso. eapply E5; eauto.
  - auto.
  - intros w' Hw. rewrite E1 in Hw. apply w_insert_self in Hw as ->. unfold wv.
    destruct E2 as [E2|E2].
    + destruct (w_pc w1); done.
    + rewrite E2. intros fr0 m st k pre Hf0 Hr. exfalso. eapply E5; eauto.
Qed.

Lemma others_1 fr' :
  forall q fr1 m st k pre, q <> f -> <[f := fr']> (s_frames s) !! q = Some fr1 -> f_rp fr1 = RFork m st k pre ->
    exists fr0, s_frames s !! q = Some fr0 /\ f_rp fr0 = RFork m st k pre /\ f_steals fr0 = f_steals fr1.
Proof using. intros q fr1 m st k pre Hne Hq Hr. rewrite lookup_insert_ne in Hq by done. eauto. Qed.

Section prun.
Hypothesis (Hpc : w_pc w = PRun f).

Lemma tok_run : 0 < wtok f w.
Proof using Hpc. unfold wtok. rewrite Hpc. cbn. rewrite eqn_refl. lia. Qed.

(** A local step of the body without any event about [f]. *)
Lemma h_local rp' w1 s' :
  s_frames s' = <[f := set_rp rp' fr]> (s_frames s) ->
  s_workers s' = <[i := w1]> (s_workers s) ->
  s_nextf s' = s_nextf s -> s_res s' = s_res s -> s_sem s' = s_sem s ->
  over (f_rp fr) = false -> over rp' = false ->
  (calm (w_pc w1) \/ w_pc w1 = PRun f) -> (forall m st k pre, rp' <> RFork m st k pre) ->
  (forall α o, res_ok af h f α ->
    cont af rp' (rcells α (kids_in f h)) (pending_in f h ∪ rexn h α (kids_in f h)) o ->
    cont af (f_rp fr) (rcells α (kids_in f h)) (pending_in f h ∪ rexn h α (kids_in f h)) o) ->
  hist af s' h /\ vok s' h.
Proof using I H V Hi Hf Hpc.
  intros EF EW En Er Es O1 O2 Hw Hrp Href. split.
  - destruct (g_frames _ _ _ H f fr Hf).
    eapply (hist_loc af s s' h h f fr (set_rp rp' fr)); try done.
    + apply (g_evs _ _ _ H).
    + by left.
  - apply (v_run s' [] w1); try done.
    + intros fr' Hfr'. rewrite EF, lookup_insert in Hfr'. by injection Hfr' as <-.
    + rewrite EF. apply others_1.
Qed.

Lemma h_put rp' :
  over (f_rp fr) = false -> over rp' = false -> (forall m st k pre, rp' <> RFork m st k pre) ->
  (forall α o, res_ok af h f α ->
    cont af rp' (rcells α (kids_in f h)) (pending_in f h ∪ rexn h α (kids_in f h)) o ->
    cont af (f_rp fr) (rcells α (kids_in f h)) (pending_in f h ∪ rexn h α (kids_in f h)) o) ->
  good2 (Next (put_frame f (set_rp rp' fr) s) []) h.
Proof using I H V Hi Hf Hpc.
  intros O1 O2 Hr Href s' tr E. injection E as <- <-.
  apply (h_local rp' w); try done; [cbn; by apply insert_same|by right].
Qed.

Lemma h_deliver t o :
  f_rp fr = RRun t -> (exists v, t = Ret v /\ o = OVal v) \/ (exists e, t = Throw e /\ o = OExc e) ->
  good2 (deliver f fr o s) h.
Proof using I H V Hi Hf Hpc.
  intros Hr Ht s' tr E.
  destruct (run_facts nw G s i w I Hi f fr Hf Hpc) as (P1 & P2 & N & S1 & S2 & L & D1 & D2).
  destruct (node_run _ _ _ _ _ _ _ _ _ N (or_introl Hr)) as (N1 & _ & N2 & _ & N3 & N4 & N5).
  assert (Hsr : f_steals fr = 0 /\ f_eflag fr = false).
  { eapply scope_ret; [exact N5|]. destruct Ht as [(v & -> & _)|(e & -> & _)]; eauto. }
  destruct Hsr as (Hz & Hfl).
  destruct (unstolen_childless _ _ _ _ _ _ _ N eq_refl Hz) as (M1 & M2 & M3 & M4).
  pose proof (no_child f M1 M2) as Hno.
  assert (Hex : exists t, f_rp fr = RRun t /\ forall cs, srun af cs ∅ t o []).
  { exists t. split; [done|]. intros cs. destruct Ht as [(v & -> & ->)|(e & -> & ->)]; constructor. }
  assert (Hsh := shape_lookup _ _ _ Hf).
  assert (HX : forall p, par (f_kind fr) = Some p -> exists frp, s_frames s !! p = Some frp /\ p <> f).
  { intros p Hp. destruct (inv_parent _ _ _ _ _ _ _ I Hsh Hp) as (frp & Hfp). exists frp. split; [done|].
    destruct (i_kid _ _ _ I f _ _ p frp Hsh Hp Hfp). lia. }
  (* what happens to the parent *)
  assert (HP : forall p j st frp frp' rp', (f_kind fr = KCall p j st \/ f_kind fr = KFork p j st) ->
    s_frames s !! p = Some frp -> p <> f ->
    over rp' = true -> rp' <> RSignalled ->
    s_frames s' = <[p := frp']> (<[f := set_rp rp' fr]> (s_frames s)) -> s_workers s' = s_workers s ->
    s_nextf s' = s_nextf s -> s_res s' = s_res s -> s_sem s' = s_sem s ->
    f_kind frp' = f_kind frp -> f_rp frp' = f_rp frp -> f_steals frp' = f_steals frp ->
    f_cells frp' = match cell_of st o with CUnset => f_cells frp | cl => <[j := cl]> (f_cells frp) end ->
    f_eptr frp' = f_eptr frp ->
    f_eflag frp' = (match o, st with OExc _, false => true | _, _ => f_eflag frp end) ->
    (forall e, rp' = RCapture e -> o = OExc e /\ st = false) ->
    hist af s' (EvEnd f o :: h) /\ vok s' (rev [EvEnd f o] ++ h)).
  { intros p j st frp frp' rp' Hk Hp Hne O2 O3 EF EW En Er Es Q1 Q2 Q3 Q4 Q5 Q6 Q7. split.
    - eapply (hist_end af s s' h f fr (set_rp rp' fr) o); try done.
      destruct Hk as [-> | ->]; (split; [done|]); exists frp, frp'; split_and!; try done.
    - apply (v_run s' [EvEnd f o] w); try done; [rewrite EW; by apply insert_same|by right|..].
      + intros fr' Hfr'. rewrite EF, lookup_insert_ne, lookup_insert in Hfr' by done.
        injection Hfr' as <-. cbn. by destruct rp'.
      + intros q fr1 m st' k pre Hq Hq1 Hrq. rewrite EF in Hq1. destruct (decide (q = p)) as [->|Hqp].
        * rewrite lookup_insert in Hq1. injection Hq1 as <-. exists frp. split_and!; try done. congruence.
        * rewrite !lookup_insert_ne in Hq1 by done. eauto. }
  unfold deliver in E. destruct (f_kind fr) as [|p j st|p j st] eqn:Ek.
  - injection E as <- <-. split.
    + eapply (hist_end af s _ h f fr (set_rp RFinal fr) o); try done. by rewrite Ek.
    + apply (v_run _ [EvEnd f o] w); try done; [cbn; by apply insert_same|by right|..].
      * intros fr' Hfr'. cbn in Hfr'. rewrite lookup_insert in Hfr'. by injection Hfr' as <-.
      * apply others_1.
  - destruct (HX p eq_refl) as (frp & Hp & Hne). rewrite Hp in E. destruct o as [v|e].
    + injection E as <- <-. eapply (HP p j st frp _ RFinal); try done; eauto.
    + destruct st.
      * injection E as <- <-. eapply (HP p j true frp _ RFinal); try done; eauto.
      * destruct (f_eflag frp) eqn:Efl; injection E as <- <-.
        -- eapply (HP p j false frp frp RFinal); try done; eauto.
           cbn. symmetry. apply insert_id. by rewrite lookup_insert_ne.
        -- eapply (HP p j false frp _ (RCapture e)); try done; eauto. intros e' [= <-]. done.
  - destruct (HX p eq_refl) as (frp & Hp & Hne). rewrite Hp in E. destruct o as [v|e].
    + injection E as <- <-. eapply (HP p j st frp _ RFinal); try done; eauto.
    + destruct st.
      * injection E as <- <-. eapply (HP p j true frp _ RFinal); try done; eauto.
      * destruct (f_eflag frp) eqn:Efl; injection E as <- <-.
        -- eapply (HP p j false frp frp RFinal); try done; eauto.
           cbn. symmetry. apply insert_id. by rewrite lookup_insert_ne.
        -- eapply (HP p j false frp _ (RCapture e)); try done; eauto. intros e' [= <-]. done.
Qed.

Lemma h_capture e : f_rp fr = RCapture e -> good2 (capture f fr e s) h.
Proof using I H V Hi Hf Hpc.
  intros Hr s' tr E. unfold capture in E.
  assert (Hsh := shape_lookup _ _ _ Hf).
  pose proof (k_capt _ _ _ _ (g_frames _ _ _ H f fr Hf) e) as Hcap.
  assert (HP : forall p frp, par (f_kind fr) = Some p -> s_frames s !! p = Some frp ->
    good2 (Next (put_frame p (set_exc (f_eflag frp) (Some e) frp) (put_frame f (set_rp RFinal fr) s)) []) h).
  { intros p frp Hpar Hp. destruct (i_kid _ _ _ I f _ _ p frp Hsh Hpar Hp) as (_ & Hlt).
    assert (Hne : p <> f) by lia. intros s1 tr1 E1. injection E1 as <- <-. split.
    - cbn [rev app]. eapply (hist_frames af s _ h); try done.
      + intros q fr'. cbn. intros Hq. destruct (decide (q = p)) as [->|Hqp].
        { rewrite lookup_insert in Hq. injection Hq as <-. exists frp. split_and!; try done; eauto 10. }
        rewrite lookup_insert_ne in Hq by done. destruct (decide (q = f)) as [->|Hqf].
        * rewrite lookup_insert in Hq. injection Hq as <-. exists fr. split_and!; try done; eauto.
        * rewrite lookup_insert_ne in Hq by done. exists fr'. split_and!; try done; eauto.
      + intros q. cbn. rewrite !lookup_insert_None. naive_solver.
    - apply (v_run _ [] w); try done; [cbn; by apply insert_same|by right|..].
      + intros fr' Hfr'. cbn in Hfr'.
        rewrite lookup_insert_ne, lookup_insert in Hfr' by done. by injection Hfr' as <-.
      + intros q fr1 m st k pre Hq Hq1 Hrq. cbn in Hq1. destruct (decide (q = p)) as [->|Hqp].
        * rewrite lookup_insert in Hq1. injection Hq1 as <-. eauto.
        * rewrite !lookup_insert_ne in Hq1 by done. eauto. }
  destruct (f_kind fr) as [|p j st|p j st] eqn:Ek; [done|..];
    (destruct (s_frames s !! p) as [frp|] eqn:Hp; [|done]; eapply HP; eauto).
Qed.

Lemma h_stash e k :
  f_rp fr = RRun (Stash e k) ->
  good2 (Next (put_frame f (set_rp (RRun k) (self_capture e fr)) s) [EvStash f e]) h.
Proof using I H V Hi Hf Hpc.
  intros Hr s' tr E. injection E as <- <-.
  pose proof (g_frames _ _ _ H f fr Hf) as K.
  assert (Hfo : outcome_in f h = None).
  { destruct (outcome_in f h) eqn:E; [|done]. exfalso.
    destruct (k_over _ _ _ _ K) as (_ & X). rewrite Hr in X. discriminate X. by eexists. }
  split.
  - cbn [rev app].
    eapply (hist_loc af s _ h _ f fr (set_rp (RRun k) (self_capture e fr))); try done.
    + rewrite Hr. done.
    + unfold self_capture. by destruct (f_eflag fr).
    + unfold self_capture. by destruct (f_eflag fr).
    + intros c Hc. cbn. by rewrite decide_False.
    + cbn. split; [done|]. apply (g_evs _ _ _ H).
    + left. cbn. rewrite decide_True by done. set_solver.
    + cbn. rewrite decide_True by done. split; [set_solver|]. intros _. unfold self_capture.
      by destruct (f_eflag fr) eqn:Efl.
    + intros e'. cbn. rewrite decide_True by done. unfold self_capture. destruct (f_eflag fr) eqn:Efl; cbn.
      * intros He. pose proof (k_eptr _ _ _ _ K e' He). set_solver.
      * intros [= <-]. set_solver.
    + intros α o Hres. cbn zeta. rewrite Hr. cbn. rewrite decide_True by done. intros Hc. constructor.
      replace (pending_in f h ∪ rexn h α (kids_in f h) ∪ {[e]}) with
        (pending_in f h ∪ {[e]} ∪ rexn h α (kids_in f h)) by set_solver. done.
  - apply (v_run _ [EvStash f e] w); try done; [cbn; by apply insert_same|by right|..].
    + intros fr' Hfr'. cbn in Hfr'. rewrite lookup_insert in Hfr'. by injection Hfr' as <-.
    + apply others_1.
Qed.

(** ** Forks and calls *)

Lemma h_child (fork : bool) rp' st c kd w1 :
  (exists t, f_rp fr = RRun t) -> over rp' = false ->
  kd = (if fork then KFork else KCall) f (length (f_cells fr)) st ->
  w_pc w1 = PRun (s_nextf s) ->
  (forall cs X oc o, eval af c oc ->
    cont af rp' (cs ++ [cell_of st oc]) (X ∪ exn_of st oc) o ->
    cont af (f_rp fr) cs X (o.1, (c, oc) :: o.2)) ->
  good2 (Next (put_worker i w1
     (spawn_child w kd c (put_frame f (set_cells (f_cells fr ++ [CUnset]) (set_rp rp' fr)) s)))
     [if fork then EvFork f (s_nextf s) st c else EvCall f (s_nextf s) st c; EvResume i (s_nextf s)]) h.
Proof using I H V Hi Hf Hpc.
  intros (t & Ht) O2 Ekd Hw1 Href s' tr E. injection E as <- <-.
  assert (Hfn : f <> s_nextf s).
  { intros ->. rewrite (i_fresh _ _ _ I) in Hf; [done|lia]. }
  split.
  - apply (hist_sil af _ _ [EvResume i (s_nextf s)]); [|repeat constructor].
    eapply (hist_new af s _ h _ f fr (set_cells (f_cells fr ++ [CUnset]) (set_rp rp' fr)) (s_nextf s)
      (new_frame kd c (w_stk w)) st c); try done.
    + by rewrite Ht.
    + unfold child_of. cbn. rewrite Ekd. destruct fork; eauto.
    + cbn. destruct fork; eauto.
  - apply v_others; try done.
    + intros j w' Hne Hj. cbn in Hj. apply w_insert_others in Hj; [eauto|done].
    + intros q m st' k pre fr' Hz Hq Hrq. cbn in Hq. destruct (decide (q = s_nextf s)) as [->|Hqn].
      { rewrite lookup_insert in Hq. injection Hq as <-. done. }
      rewrite lookup_insert_ne in Hq by done. destruct (decide (q = f)) as [->|Hqf].
      { pose proof tok_run. lia. }
      rewrite lookup_insert_ne in Hq by done. eauto.
    + intros q Hz. assert (q <> f) by (intros ->; pose proof tok_run; lia).
      destruct fork; cbn; by rewrite decide_False.
    + intros w' Hw. cbn in Hw. apply w_insert_self in Hw as ->. unfold wv. rewrite Hw1.
      intros fr0 m st' k pre Hq Hrq. cbn in Hq. rewrite lookup_insert in Hq. by injection Hq as <-.
Qed.

(** ** Joins *)

Lemma fr_last_app cs c : fres_last (cs ++ [c]) = c.
Proof using. unfold fres_last. by rewrite last_snoc. Qed.

(** fork_awaitable::await_resume *)
Lemma h_fork_resume seen m st k pre :
  f_rp fr = RFork m st k pre -> good2 (fork_resume seen i w f fr m st k pre s) h.
Proof using I H V Hi Hf Hpc.
  intros Hr. unfold fork_resume.
  destruct (run_facts nw G s i w I Hi f fr Hf Hpc) as (_ & _ & N & _).
  pose proof (g_frames _ _ _ H f fr Hf) as K.
  assert (HA : good2 (Next (put_frame f (set_rp (RRun (k FAsync)) fr) s) []) h).
  { apply h_put; try done; [by rewrite Hr|]. intros α o _ Hc. rewrite Hr. cbn.
    exists FAsync, (pending_in f h ∪ rexn h α (kids_in f h)). split; [constructor|done]. }
  assert (HL : f_steals fr = pre -> last_ended h f).
  { intros Hp. specialize (V i w Hi). unfold wv in V. rewrite Hpc in V. by eapply V. }
  assert (HD : f_steals fr = pre -> m <> FNone ->
     good2 (Next (put_frame f (set_rp (RRun (k (FDone (fres_last (f_cells fr))))) fr) s) [EvSync f (fres_last (f_cells fr))]) h).
  { intros Hp Hm. apply good2_sil; [|repeat constructor]. apply h_put; try done; [by rewrite Hr|]. intros α o Hres Hc. rewrite Hr. cbn.
    exists (FDone (fres_last (f_cells fr))), (pending_in f h ∪ rexn h α (kids_in f h)). split; [|done].
    rewrite (k_cells _ _ _ _ K), (last_cell af h f α Hres (HL Hp)). by constructor. }
  assert (HB : f_steals fr = pre -> m <> FNone -> st = true -> f_eflag fr = true ->
     good2 (Next (put_frame f (set_rp (RRun (k (FExn EBeforeJoin))) fr) s) []) h).
  { intros Hp Hm Hst Hfl. apply h_put; try done; [by rewrite Hr|]. intros α o Hres Hc. rewrite Hr. cbn.
    eexists _, _. split; [|exact Hc]. constructor; try done.
    apply (k_flag _ _ _ _ K) in Hfl. set_solver. }
  assert (HE : forall e, f_steals fr = 0 -> m <> FNone -> st = true -> f_eptr fr = Some e -> f_eflag fr = true ->
     good2 (Next (put_frame f (set_rp (RRun (k (FExn e))) (set_exc false None fr)) s) [EvEager f e]) h).
  { intros e Hz Hm Hst He Hfl s' tr E. injection E as <- <-.
    destruct (unstolen_childless _ _ _ _ _ _ _ N eq_refl Hz) as (N1 & N2 & _).
    pose proof (k_eptr _ _ _ _ K e He) as Hin.
    split.
    - cbn [rev app]. eapply (hist_rethrow s _ h f fr None (EvEager f e) _ (k (FExn e))); try done.
      + by rewrite Hr.
      + by apply no_child.
      + right. eauto.
      + intros o Hc. rewrite Hr. cbn. eexists _, _. split; [|exact Hc]. by constructor.
    - apply (v_run _ [EvEager f e] w); try done; [cbn; by apply insert_same|by right|..].
      + intros fr' Hfr'. cbn in Hfr'. rewrite lookup_insert in Hfr'. by injection Hfr' as <-.
      + apply others_1. }
  assert (HR : f_steals fr = 0 -> f_steals fr = pre -> m <> FNone -> st = true ->
    good2 (match unsafe_rethrow fr with
      | Some (Some e, fr') => Next (put_frame f (set_rp (RRun (k (FExn e))) fr') s) [EvEager f e]
      | Some (None, fr') => Next (put_frame f (set_rp (RRun (k (FDone (fres_last (f_cells fr))))) fr') s) [EvSync f (fres_last (f_cells fr))]
      | None => Undef
      end) h).
  { intros Hz Hp Hm Hst.
    destruct (unstolen_childless _ _ _ _ _ _ _ N eq_refl Hz) as (N1 & N2 & _).
    destruct (rethrow_defined nw G s I f fr Hf N1 N2) as [(E1 & E2 & ->)|(e & E1 & E2 & ->)]; [by apply HD|by apply HE]. }
  destruct m; [apply HA| |].
  - destruct (decide (f_steals fr = pre)) as [Hp|]; [|apply HA].
    destruct st; [|by apply HD]. destruct (decide (f_steals fr = 0)) as [Hz|Hz]; [by apply HR|].
    destruct (f_eflag fr) eqn:Efl, seen; cbn [andb]; first [by apply HB|by apply HD].
  - destruct (decide (f_steals fr = pre)) as [Hp|]; [|apply HA].
    destruct st; [|by apply HD]. destruct (decide (f_steals fr = 0)) as [Hz|Hz]; [by apply HR|done].
Qed.

Lemma h_signal :
  f_rp fr = RFinal -> f_kind fr = KRoot ->
  good2 (Next (put_sem f (sem s f + 1) (put_frame f (set_rp RSignalled fr) s)) [EvSignal f]) h.
Proof using I H V Hi Hf Hpc.
  intros Hr Hk s' tr E. injection E as <- <-. split.
  - eapply (hist_sig af s _ h f fr (set_rp RSignalled fr)); try done.
  - apply (v_run _ [EvSignal f] w); try done; [cbn; by apply insert_same|by right|..].
    + intros fr' Hfr'. cbn in Hfr'. rewrite lookup_insert in Hfr'. by injection Hfr' as <-.
    + apply others_1.
Qed.

Lemma h_root_destroy :
  f_rp fr = RSignalled -> f_kind fr = KRoot -> good2 (root_destroy i w f fr s) h.
Proof using I H V Hi Hf Hpc.
  intros Hr Hk s' tr E. unfold root_destroy, destroy in E.
  case_decide; [|done]. destruct (stk s (w_stk w)) as [|g l]; [done|]. case_decide; [|done].
  subst g. unfold to_idle in E. destruct (w_deque w); [|done].
  destruct (stk _ _); [|done]. injection E as <- <-.
  split.
  - apply (hist_sil af _ _ [EvDestroy f]); [|repeat constructor].
    eapply (hist_del af s _ h f fr); try done; by rewrite Hr.
  - apply (v_run _ [EvDestroy f] (set_pc PIdle w)); try done.
    + by left.
    + cbn. intros fr'. by rewrite lookup_delete.
    + cbn. intros q fr' m st k pre Hq Hq1 Hrq. rewrite lookup_delete_ne in Hq1 by done. eauto.
Qed.

Lemma h_finish_fork p j st0 s1 :
  f_rp fr = RFinal -> f_kind fr = KFork p j st0 ->
  destroy w f fr s = Some s1 ->
  good2 (Next (put_worker i (set_pc (PFinal p) w) s1) [EvDestroy f]) h.
Proof using I H V Hi Hf Hpc.
  intros Hr Hk Hd s' tr E. injection E as <- <-. unfold destroy in Hd.
  case_decide; [|done]. destruct (stk s (w_stk w)) as [|g l]; [done|]. case_decide; [|done].
  subst g. injection Hd as <-.
  pose proof (g_frames _ _ _ H f fr Hf) as K.
  destruct (run_facts nw G s i w I Hi f fr Hf Hpc) as (_ & _ & _ & _ & _ & L & _).
  split.
  - apply (hist_sil af _ _ [EvDestroy f]); [|repeat constructor].
    eapply (hist_del af s _ h f fr); try done; rewrite Hr, ?Hk; done.
  - apply v_others; try done.
    + intros j' w' Hne Hj. cbn in Hj. apply w_insert_others in Hj; [eauto|done].
    + intros q m st k pre fr' Hz Hq Hrq. cbn in Hq. rewrite lookup_delete_Some in Hq. destruct Hq. eauto.
    + intros w' Hw. cbn in Hw. apply w_insert_self in Hw as ->. unfold wv. cbn. intros Hdq.
      destruct (w_deque w) as [|d D] eqn:Ed; [done|]. cbn in L.
      destruct L as (j' & x & frd & Ea & Hd & L1 & L2 & L3).
      pose proof (i_ghost _ _ _ I f _ _ (shape_lookup _ _ _ Hf)) as HG. rewrite Hk in HG.
      rewrite HG in Ea. injection Ea as <- <- <-.
      apply (last_ended_mono [EvDestroy f]); [done|].
      pose proof (k_kind _ _ _ _ K) as Hkj. rewrite Hk in Hkj.
      exists f, st0. split; [|apply (k_over _ _ _ _ K); by rewrite Hr].
      rewrite last_lookup. rewrite (k_cells _ _ _ _ (g_frames _ _ _ H p frd Hd)) in L2.
      unfold results_in in L2. rewrite map_length in L2. rewrite <- L2. cbn. done.
Qed.

Lemma h_finish_call seen p j st0 s1 frp m st k :
  f_rp fr = RFinal -> f_kind fr = KCall p j st0 ->
  destroy w f fr s = Some s1 -> s_frames s1 !! p = Some frp -> f_rp frp = RCall m st k ->
  good2 (call_resume seen i w p frp m st k s1 [EvDestroy f; EvResume i p]) h.
Proof using I H V Hi Hf Hpc.
  intros Hr Hk Hd Hp Hrp. unfold destroy in Hd.
  case_decide; [|done]. destruct (stk s (w_stk w)) as [|g l]; [done|]. case_decide; [|done].
  subst g. injection Hd as <-. cbn in Hp.
  apply lookup_delete_Some in Hp as (Hne & Hp).
  set (s1 := put_stack (w_stk w) l (del_frame f s)).
  pose proof (g_frames _ _ _ H f fr Hf) as K.
  pose proof (g_frames _ _ _ H p frp Hp) as Kp.
  set (tr0 := [EvDestroy f; EvResume i p]). set (h1 := rev tr0 ++ h).
  assert (H1 : hist af s1 h1).
  { apply (hist_sil af _ _ (rev tr0)); [|repeat constructor].
    eapply (hist_del af s _ h f fr); try done; rewrite Hr, ?Hk; done. }
  assert (Hp1 : s_frames s1 !! p = Some frp) by (cbn; by rewrite lookup_delete_ne).
  pose proof (g_frames _ _ _ H1 p frp Hp1) as Kp1.
  assert (Hsh := shape_lookup _ _ _ Hf).
  assert (Hpar : par (f_kind fr) = Some p) by (by rewrite Hk).
  destruct (i_kid _ _ _ I f _ _ p frp Hsh Hpar Hp) as (Kid & _). rewrite Hk in Kid.
  destruct Kid as (Kid1 & Kid2 & Kid3). cbn in Kid1, Kid2.
  assert (HL : last_ended h1 p).
  { apply (last_ended_mono (rev tr0)); [done|].
    pose proof (k_kind _ _ _ _ K) as Hkj. rewrite Hk in Hkj.
    exists f, st0. split; [|apply (k_over _ _ _ _ K); by rewrite Hr].
    rewrite last_lookup. rewrite (k_cells _ _ _ _ Kp) in Kid1.
    unfold results_in in Kid1. rewrite map_length in Kid1. rewrite <- Kid1. cbn. done. }
  pose proof (i_node _ _ _ I p frp Hp) as (N1 & N2 & N3 & N4 & N5). rewrite Hrp in *.
  destruct N5 as (N5 & N6 & _).
  assert (Hno : f_steals frp = 0 ->
    forall c frc, s_frames s1 !! c = Some frc -> par (f_kind frc) = Some p -> False).
  { intros Hz c frc Hc Hpc'. cbn in Hc. apply lookup_delete_Some in Hc as (Hcf & Hc).
    assert (Hnf : nforks p (shape_of (s_frames s)) = 0) by lia.
    pose proof (shape_lookup _ _ _ Hc) as Hshc.
    destruct (f_kind frc) as [|q j' st'|q j' st'] eqn:Ek; cbn in Hpc'; try done; injection Hpc' as ->.
    - rewrite Hk in Hsh.
      assert (X : 2 <= cntm (is_call p) (shape_of (s_frames s))).
      { eapply (cntm_two (is_call p)); [exact Hsh| |exact Hshc| |exact Hcf];
          unfold is_call; cbn; by rewrite bool_decide_eq_true_2. }
      unfold ncalls in N2. lia.
    - pose proof (cntm_zero (is_fork p) _ _ _ Hshc Hnf) as X. unfold is_fork in X. cbn in X.
      by rewrite bool_decide_eq_true_2 in X. }
  assert (HV : forall fr' tr1, (forall m' st' k' pre', f_rp fr' <> RFork m' st' k' pre') ->
     (forall q, kids_in q (rev (tr0 ++ tr1) ++ h) = kids_in q h) ->
     vok (put_worker i (set_pc (PRun p) w) (put_frame p fr' s1)) (rev (tr0 ++ tr1) ++ h)).
  { intros fr' tr1 Hr' Hkids. apply v_others; try done.
    - intros j' w' Hne' Hj. cbn in Hj. apply w_insert_others in Hj; [eauto|done].
    - intros q m' st' k' pre fr1 Hz Hq Hrq. cbn in Hq. destruct (decide (q = p)) as [->|Hqp].
      + rewrite lookup_insert in Hq. injection Hq as <-. exfalso. by eapply Hr'.
      + rewrite lookup_insert_ne in Hq by done. apply lookup_delete_Some in Hq as (_ & Hq). eauto.
    - intros w' Hw. cbn in Hw. apply w_insert_self in Hw as ->. unfold wv. cbn.
      intros fr1 m' st' k' pre Hq Hrq. rewrite lookup_insert in Hq. injection Hq as <-. exfalso. by eapply Hr'. }
  assert (HX : forall r, (forall α o, res_ok af h1 p α ->
      cont af (RRun (k r)) (rcells α (kids_in p h1)) (pending_in p h1 ∪ rexn h1 α (kids_in p h1)) o ->
      cont af (f_rp frp) (rcells α (kids_in p h1)) (pending_in p h1 ∪ rexn h1 α (kids_in p h1)) o) ->
    good2 (Next (put_worker i (set_pc (PRun p) w) (put_frame p (set_rp (RRun (k r)) frp) s1)) (tr0 ++ [])) h).
  { intros r Href s' tr E. injection E as <- <-. split; [|by apply HV].
    change (hist af (put_worker i (set_pc (PRun p) w) (put_frame p (set_rp (RRun (k r)) frp) s1)) h1). destruct Kp1.
    eapply (hist_loc af s1 _ h1 h1 p frp (set_rp (RRun (k r)) frp)); try done.
    - by rewrite Hrp.
    - apply (g_evs _ _ _ H1).
    - by left. }
  assert (HD : good2 (Next (put_worker i (set_pc (PRun p) w) (put_frame p (set_rp (RRun (k (CDone (fres_last (f_cells frp))))) frp) s1)) (tr0 ++ [])) h).
  { apply HX. intros α o Hres Hc. rewrite Hrp. cbn [cont]. eexists _, _. split; [|exact Hc].
    rewrite (k_cells _ _ _ _ Kp1), (last_cell af h1 p α Hres HL). constructor. }
  assert (HB : m <> MNone -> st = true -> f_eflag frp = true ->
    good2 (Next (put_worker i (set_pc (PRun p) w) (put_frame p (set_rp (RRun (k (CExn EBeforeJoin))) frp) s1)) (tr0 ++ [])) h).
  { intros Hm Hst Hfl. apply HX. intros α o Hres Hc. rewrite Hrp. cbn [cont]. eexists _, _. split; [|exact Hc].
    constructor; try done. apply (k_flag _ _ _ _ Kp1) in Hfl. set_solver. }
  assert (HE : forall e, f_steals frp = 0 -> m <> MNone -> st = true -> f_eptr frp = Some e -> f_eflag frp = true ->
    good2 (Next (put_worker i (set_pc (PRun p) w) (put_frame p (set_rp (RRun (k (CExn e))) (set_exc false None frp)) s1)) (tr0 ++ [EvEager p e])) h).
  { intros e Hz Hm Hst He Hfl s' tr E. injection E as <- <-. split; [|by apply HV].
    pose proof (k_eptr _ _ _ _ Kp1 e He) as Hin.
    change (hist af (put_worker i (set_pc (PRun p) w) (put_frame p (set_rp (RRun (k (CExn e))) (set_exc false None frp)) s1)) (EvEager p e :: h1)).
    eapply (hist_rethrow s1 _ h1 p frp None (EvEager p e) _ (k (CExn e))); try done.
    - by rewrite Hrp.
    - by apply Hno.
    - right. eauto.
    - intros o Hc. rewrite Hrp. cbn. eexists _, _. split; [|exact Hc]. by constructor. }
  assert (HR : f_steals frp = 0 -> m <> MNone -> st = true ->
    good2 (match unsafe_rethrow frp with
      | Some (Some e, fr') => Next (put_worker i (set_pc (PRun p) w) (put_frame p (set_rp (RRun (k (CExn e))) fr') s1)) (tr0 ++ [EvEager p e])
      | Some (None, fr') => Next (put_worker i (set_pc (PRun p) w) (put_frame p (set_rp (RRun (k (CDone (fres_last (f_cells frp))))) fr') s1)) (tr0 ++ [])
      | None => Undef
      end) h).
  { intros Hz Hm Hst. unfold unsafe_rethrow. destruct (f_eflag frp) eqn:Efl; [|apply HD].
    destruct (f_eptr frp) as [e|] eqn:Ee; [|done]. by apply HE. }
  unfold call_resume. destruct m, st; try apply HD.
  - destruct (decide (f_steals frp = 0)) as [Hz|Hz]; [by apply HR|].
    destruct (f_eflag frp) eqn:Efl, seen; cbn [andb]; first [by apply HB|by apply HD].
  - destruct (decide (f_steals frp = 0)) as [Hz|Hz]; [by apply HR|done].
Qed.

Lemma h_finish seen : f_rp fr = RFinal -> good2 (finish seen i w f fr s) h.
Proof using I H V Hi Hf Hpc.
  intros Hr. unfold finish. case_decide; [|done]. destruct (f_kind fr) as [|p j st|p j st] eqn:Ek.
  - by apply h_signal.
  - destruct (destroy w f fr s) as [s1|] eqn:Ed; [|done].
    destruct (s_frames s1 !! p) as [frp|] eqn:Hp; [|done].
    destruct (f_rp frp) eqn:Hrp; try done. by eapply h_finish_call.
  - destruct (destroy w f fr s) as [s1|] eqn:Ed; [|done]. by eapply h_finish_fork.
Qed.

End prun.

(** ** Joins *)

Lemma h_join_resume k w2 fr2 s2 tr :
  (f_rp fr = RRun (Join k) \/ f_rp fr = RJoin k) ->
  nforks f (shape_of (s_frames s)) = 0 -> ncalls f (shape_of (s_frames s)) = 0 ->
  core fr2 = core (set_rp (f_rp fr2) fr) ->
  (s_frames s2 = s_frames s \/ exists fr3, s_frames s2 = <[f := fr3]> (s_frames s)) ->
  (s_workers s2 = s_workers s \/ exists w3, s_workers s2 = <[i := w3]> (s_workers s)) ->
  s_nextf s2 = s_nextf s -> s_res s2 = s_res s -> s_sem s2 = s_sem s ->
  Forall silent tr ->
  good2 (join_resume i w2 f fr2 k s2 tr) h.
Proof using I H V Hi Hf.
  intros Hr Hnf Hnc Ec EF EW En Er Es Hs s' tr' E. unfold join_resume in E.
  case_decide; [|done]. destruct (same_stacklet _ _ _ _) as [[]|]; try done.
  injection Ec as C1 C3 C4 C5.
  assert (HF : forall fr', <[f := fr']> (s_frames s2) = <[f := fr']> (s_frames s)).
  { intros fr'. destruct EF as [-> |(fr3 & ->)]; [done|]. by rewrite insert_insert. }
  assert (HW : forall w', <[i := w']> (s_workers s2) = <[i := w']> (s_workers s)).
  { intros w'. destruct EW as [-> |(w3 & ->)]; [done|]. by rewrite list_insert_insert. }
  assert (Hs' : Forall silent (rev tr)).
  { apply Forall_forall. intros e He. rewrite Forall_forall in Hs. apply Hs.
    apply elem_of_list_In. apply elem_of_list_In in He. by apply in_rev. }
  pose proof (silent_app (rev tr) h Hs') as (A1 & A2 & A3 & A4 & A5 & A6).
  assert (H1 : hist af s (rev tr ++ h)) by (by apply hist_sil).
  pose proof (g_frames _ _ _ H1 f fr Hf) as K.
  assert (HX : forall r fr3, core fr3 = (f_kind fr, f_rp fr2, false, None, f_cells fr) ->
    join_ret (pending_in f h) r ->
    good2 (Next (put_worker i (set_pc (PRun f) w2) (put_frame f (set_rp (RRun (k (f_cells fr2) r)) fr3) s2))
      (tr ++ [EvJoin f (f_cells fr2) r])) h).
  { intros r fr3 Ec3 Hj s1 tr1 E1. injection E1 as <- <-. injection Ec3 as D1 D2 D3 D4 D5.
    rewrite rev_app_distr. cbn [rev app]. rewrite C5. split.
    - eapply (hist_rethrow s _ (rev tr ++ h) f fr r (EvJoin f (f_cells fr) r) (set_rp (RRun (k (f_cells fr) r)) fr3) (k (f_cells fr) r)); try done.
      + destruct Hr as [-> | ->]; done.
      + by apply no_child.
      + cbn. apply HF.
      + left. split; [done|]. by rewrite A5.
      + intros o Hc. rewrite A5. destruct Hr as [-> | ->]; cbn; econstructor; eauto.
    - assert (vok (put_worker i (set_pc (PRun f) w2) (put_frame f (set_rp (RRun (k (f_cells fr) r)) fr3) s2))
         (rev (tr ++ [EvJoin f (f_cells fr) r]) ++ h)) as X; [|rewrite rev_app_distr in X; done].
      apply (v_run _ _ (set_pc (PRun f) w2)).
      + cbn. apply HW.
      + by right.
      + intros fr' Hfr'. cbn in Hfr'. rewrite lookup_insert in Hfr'. by injection Hfr' as <-.
      + cbn. rewrite HF. apply others_1.
      + intros q. rewrite rev_app_distr. cbn. apply A3. }
  unfold unsafe_rethrow in E. rewrite C3 in E. cbn in E. rewrite C4 in E. cbn in E.
  destruct (f_eflag fr) eqn:Efl.
  - destruct (f_eptr fr) as [e|] eqn:Ee; [|done]. eapply HX; [|by constructor; rewrite <- A5; apply (k_eptr _ _ _ _ K)|exact E].
    unfold core. cbn. rewrite C1, C5. done.
  - eapply HX; [| |exact E].
    + unfold core. rewrite C1, C5, C3, C4. cbn. f_equal. f_equal.
      destruct (f_eptr fr) as [e|] eqn:Ee; [|done]. exfalso.
      pose proof (k_eptr _ _ _ _ K e Ee) as Hin. destruct (k_flag _ _ _ _ K) as (_ & X).
      rewrite X in Efl; [done|]. set_solver.
    + constructor. destruct (decide (pending_in f h = ∅)) as [|Hn]; [done|]. exfalso.
      rewrite <- A5 in Hn. apply (k_flag _ _ _ _ K) in Hn. congruence.
Qed.

Lemma h_take_join k fr1 tr :
  f_rp fr = RRun (Join k) ->
  nforks f (shape_of (s_frames s)) = 0 -> ncalls f (shape_of (s_frames s)) = 0 ->
  core fr1 = core fr -> Forall silent tr ->
  good2 (take_stack_join_resume i w f fr1 k s tr) h.
Proof using I H V Hi Hf.
  intros Hr Hnf Hnc Ec Hs. unfold take_stack_join_resume. case_decide; [done|].
  destruct (stk s (w_stk w)); [|done]. apply h_join_resume; try done; eauto.
  injection Ec as C1 C2 C3 C4 C5. unfold core. cbn. by rewrite C1, C3, C4, C5.
Qed.

Lemma h_join k :
  w_pc w = PRun f -> f_rp fr = RRun (Join k) ->
  good2 (if decide (f_steals fr = 0) then join_resume i w f fr k s []
    else if decide (f_steals fr = u16max - f_joins fr) then take_stack_join_resume i w f fr k s []
    else Next (put_worker i (set_pc (PJSusp f) w) s) []) h.
Proof using I H V Hi Hf.
  intros Hpc Hr.
  destruct (run_facts nw G s i w I Hi f fr Hf Hpc) as (P1 & P2 & N & S1 & S2 & L & D1 & D2).
  destruct (node_run _ _ _ _ _ _ _ _ _ N (or_introl Hr)) as (N1 & _ & N2 & _ & N3 & N4 & N5).
  destruct (decide (f_steals fr = 0)) as [Hz|Hz].
  - destruct (unstolen_childless _ _ _ _ _ _ _ N eq_refl Hz) as (M1 & M2 & M3 & M4).
    apply h_join_resume; try done; eauto.
  - destruct (decide (f_steals fr = u16max - f_joins fr)) as [Hw|Hw].
    + apply h_take_join; try done; lia.
    + intros s' tr E. injection E as <- <-. split; [by apply h_core|]. by eapply v_calm.
Qed.

Lemma h_join_suspend : w_pc w = PJSusp f -> good2 (join_suspend i w f fr s) h.
Proof using I H V Hi Hf.
  intros Hpc. unfold join_suspend. destruct (f_rp fr) as [[]| | | | | | |] eqn:Hr; try done.
  destruct (pend_run _ _ _ _ _ f I Hi (or_intror Hpc)) as (fr0 & Hf0 & P1 & P2).
  assert (fr0 = fr) as -> by congruence. clear Hf0.
  pose proof (i_node _ _ _ I f fr Hf) as N. rewrite P1, P2 in N.
  destruct (node_run _ _ _ _ _ _ _ _ _ N (or_introl Hr)) as (N1 & _ & N2 & _ & N3 & N4 & N5).
  destruct (decide (f_steals fr = u16max - f_joins fr)) as [Hw|Hw].
  - apply h_take_join; try done; lia.
  - apply good2_sil; [|repeat constructor]. intros s' tr E. injection E as <- <-. cbn [rev app].
    pose proof (g_frames _ _ _ H f fr Hf) as K. destruct K. split.
    + set (fr' := set_rp _ _). eapply (hist_loc af s _ h h f fr fr'); try done.
      * by rewrite Hr.
      * apply (g_evs _ _ _ H).
      * by left.
      * intros α o _. rewrite Hr. done.
    + apply (v_run _ [] (set_pc PSelf w)); try done.
      * by left.
      * intros fr' Hfr'. cbn in Hfr'. rewrite lookup_insert in Hfr'. by injection Hfr' as <-.
      * apply others_1.
Qed.

Lemma h_sub : w_pc w = PSub f -> good2 (final_sub i w f s) h.
Proof using I H V Hi Hf.
  intros Hpc. unfold final_sub. rewrite Hf.
  destruct (same_stacklet s f fr w) as [same|]; [|done].
  pose proof (i_node _ _ _ I f fr Hf) as N. pose proof N as (N1 & N2 & N3 & N4 & N5).
  assert (Hsw : wsub f w = 1) by (unfold wsub; by rewrite Hpc, eqn_refl).
  pose proof (sumw_ge (wsub f) _ _ _ Hi) as Hge. rewrite Hsw in Hge.
  assert (HV : forall s' w1 n, s_frames s' = <[f := set_joins n fr]> (s_frames s) ->
    s_workers s' = <[i := w1]> (s_workers s) -> calm (w_pc w1) -> vok s' (rev [] ++ h)).
  { intros s' w1 n EF EW Hc. apply v_others; try done.
    - intros j w' Hne Hj. rewrite EW in Hj. apply w_insert_others in Hj; [eauto|done].
    - intros q m st k pre fr' _ Hq Hrq. rewrite EF in Hq. destruct (decide (q = f)) as [->|].
      + rewrite lookup_insert in Hq. injection Hq as <-. eauto.
      + rewrite lookup_insert_ne in Hq by done. eauto.
    - intros w' Hw. rewrite EW in Hw. apply w_insert_self in Hw as ->. unfold wv.
      destruct (w_pc w1); done. }
  destruct (decide (f_joins fr = 1)) as [E1|E1].
  - destruct (f_rp fr) as [t|m st k pre|m st k|k|d t|e| |] eqn:Hr; try done.
    destruct (if same then [] else stk s (w_stk w)); [|done].
    destruct N5 as (N5 & N6 & _).
    apply h_join_resume; try done; eauto; try lia. repeat constructor.
  - destruct same.
    + intros s' tr E. injection E as <- <-. split.
      * apply h_core; try done. by apply core_upd with fr.
      * by eapply HV.
    + intros s' tr E. unfold to_idle in E. destruct (w_deque w); [|done].
      destruct (stk _ _); [|done]. injection E as <- <-. split.
      * apply h_core; try done. by apply core_upd with fr.
      * by eapply HV.
Qed.

Lemma h_switch sk d k :
  w_pc w = PRun f -> f_rp fr = RRun (Switch sk d k) ->
  good2 (match same_stacklet s f fr w, s_workers s !! d with
      | Some same, Some _ =>
        if decide (same = bool_decide (f_steals fr = 0)) then
          let s1 := put_worker i (set_pc (PSwRel same) w) (put_frame f (set_rp (RSwitched d k) fr) s) in
          match s_workers s1 !! d with
          | Some wd => Next (put_worker d (set_inbox (w_inbox wd ++ [f]) wd) s1) [EvSwitch f d]
          | None => Undef
          end
        else Undef
      | _, _ => Undef
      end) h.
Proof using I H V Hi Hf.
  intros Hpc Hr. destruct (same_stacklet s f fr w) as [same|]; [|done].
  destruct (s_workers s !! d) as [v|] eqn:Hd; [|done]. case_decide; [|done]. cbn zeta.
  set (s1 := put_worker i (set_pc (PSwRel same) w) (put_frame f (set_rp (RSwitched d k) fr) s)).
  assert (X : hist af s1 h /\ vok s1 h).
  { apply (h_local Hpc (RSwitched d k) (set_pc (PSwRel same) w)); try done.
    - by rewrite Hr.
    - by left.
    - intros α o _. rewrite Hr. cbn. by constructor. }
  destruct X as (X1 & X2).
  destruct (s_workers s1 !! d) as [wd|] eqn:Hd1; [|done].
  apply good2_sil; [|repeat constructor]. intros s' tr E. injection E as <- <-. cbn [rev app]. split.
  - by eapply hist_core.
  - intros j w' Hj. cbn in Hj. destruct (decide (j = d)) as [->|Hjd].
    + apply list_lookup_insert_Some in Hj as [(_ & <- & _)|(Hn & _)]; [|done].
      specialize (X2 d wd Hd1). unfold wv in *. cbn. done.
    + rewrite list_lookup_insert_ne in Hj by done. apply (X2 j w' Hj).
Qed.

Lemma h_run_task fail t :
  w_pc w = PRun f -> f_rp fr = RRun t -> (fail = true -> af = true) ->
  good2 (run_task i fail w f fr t s) h.
Proof using I H V Hi Hf.
  intros Hpc Hr Haf. unfold run_task. destruct t as [v|e|m st c k|m st c k|k|sk d k|e k|k].
  - eapply h_deliver; eauto 10.
  - eapply h_deliver; eauto 10.
  - destruct fail.
    + apply h_put; try done; [by rewrite Hr|]. intros α o _ Hc. rewrite Hr. cbn. apply ru_fork_fail; auto.
    + apply (h_child Hpc true (RFork m st k (f_steals fr)) st c); eauto.
      intros cs X oc o Hev. rewrite Hr. cbn. rewrite fr_last_app. intros (r & X' & Hfr & Hx).
      eapply ru_fork; eauto.
  - destruct fail.
    + apply h_put; try done; [by rewrite Hr|]. intros α o _ Hc. rewrite Hr. cbn. apply ru_call_fail; auto.
    + apply (h_child Hpc false (RCall m st k) st c); eauto.
      intros cs X oc o Hev. rewrite Hr. cbn. rewrite fr_last_app. intros (r & X' & Hfr & Hx).
      eapply ru_call; eauto.
  - by apply h_join.
  - destruct (sk && bool_decide (d = i)).
    + apply h_put; try done; [by rewrite Hr|]. intros α o _ Hc. rewrite Hr. cbn. by constructor.
    + by eapply h_switch.
  - by apply h_stash.
  - apply h_put; try done; [by rewrite Hr|]. intros α o _ Hc. rewrite Hr. cbn. by econstructor.
Qed.

End run.

Lemma h_wstep fail : (fail = true -> af = true) -> good2 (wstep i fail s) h.
Proof using I H V Hi.
  intros Haf. unfold wstep. rewrite Hi. destruct (w_pc w) as [|f|f|p|p| |f|b|] eqn:Hpc.
  - destruct (w_batch w) as [|f rest] eqn:Eb; [done|]. by apply h_submitted.
  - by apply h_stolen.
  - destruct (s_frames s !! f) as [fr|] eqn:Hf; [|done].
    destruct (f_rp fr) as [t|m st k pre|m st k|k|d t|e| |] eqn:Hr; try done.
    + by eapply h_run_task.
    + by eapply h_fork_resume.
    + eapply h_put; try done; [by rewrite Hr|]. intros α o _ Hc. by rewrite Hr.
    + by eapply h_capture.
    + by eapply h_finish.
    + apply h_root_destroy; try done.
      pose proof (i_node _ _ _ I f fr Hf) as (_ & _ & _ & _ & N). rewrite Hr in N. apply N.
  - by apply h_final.
  - intros s' tr E.
    assert (Hp : exists fr, s_frames s !! p = Some fr).
    { unfold final_sub in E. destruct (s_frames s !! p); [eauto|done]. }
    destruct Hp as (fr & Hf). by eapply (h_sub p fr).
  - apply h_loserel.
  - destruct (s_frames s !! f) as [fr|] eqn:Hf; [|done]. by eapply h_join_suspend.
  - apply h_swrel.
  - by apply h_self_steal.
Qed.

Lemma h_steal v : good2 (steal i v s) h.
Proof using I H V Hi.
  intros s' tr E. unfold steal in E. rewrite Hi in E.
  destruct (s_workers s !! v) as [wv'|] eqn:Hv; [|done]. case_decide as Hne; [done|].
  destruct (w_pc w) eqn:Hpc; try done. destruct (w_batch w); [|done].
  destruct (last (w_deque wv')) as [f|] eqn:El; [|done]. injection E as <- <-. cbn [rev app]. split.
  - by eapply hist_core.
  - intros j w' Hj. cbn in Hj. destruct (decide (j = i)) as [->|Hji].
    + apply w_insert_self in Hj as ->. done.
    + rewrite list_lookup_insert_ne in Hj by done. destruct (decide (j = v)) as [->|Hjv].
      * apply list_lookup_insert_Some in Hj as [(_ & <- & _)|(Hn & _)]; [|done].
        specialize (V v wv' Hv). unfold wv in *. cbn. destruct (w_pc wv'); try done.
        intros Hd. apply V. intros E. by rewrite E in El.
      * rewrite list_lookup_insert_ne in Hj by done. apply (V j w' Hj).
Qed.

Lemma h_spawn t : good2 (spawn i t s) h.
Proof using I H V Hi.
  intros s' tr E. unfold spawn in E. rewrite Hi in E. injection E as <- <-. cbn [rev app].
  assert (Hn : s_frames s !! s_nextf s = None) by (apply (i_fresh _ _ _ I); lia).
  split.
  - eapply (hist_root af s _ h (s_nextf s) (new_frame KRoot t (s_nexts s))); try done.
  - intros j w' Hj. cbn in Hj.
    assert (Hw : exists w0, s_workers s !! j = Some w0 /\ w_pc w' = w_pc w0 /\ w_deque w' = w_deque w0).
    { apply list_lookup_insert_Some in Hj as [(<- & <- & _)|(Hn' & Hj)]; eauto. }
    destruct Hw as (w0 & Hj0 & E1 & E2). specialize (V j w0 Hj0). unfold wv in *. cbn. rewrite E1, E2.
    destruct (w_pc w0) as [|f|f|p|p| |f|b|] eqn:Hpc; try done.
    + intros fr m st k pre Hf Hr Hs. apply (last_ended_mono [EvSpawn (s_nextf s) t]); [done|].
      rewrite lookup_insert_ne in Hf; [by eapply V|]. intros <-.
      destruct (tok_live _ _ _ (s_nextf s) _ _ I Hj0) as (fr0 & Hfr0); [|congruence].
      unfold wtok. rewrite Hpc. cbn. rewrite eqn_refl. lia.
Qed.

End cases.

Lemma h_step nw G s h l s' tr :
  inv nw G s -> hist af s h -> vok s h -> allowed nw af l -> step l s = Next s' tr ->
  hist af s' (rev tr ++ h) /\ vok s' (rev tr ++ h).
Proof.
  intros I H V Ha E. destruct l as [i fail|i|i|i v|d t]; cbn in E.
  - destruct (s_workers s !! i) as [w|] eqn:Hi.
    + by eapply (h_wstep nw G s h i w I H V Hi fail Ha).
    + unfold wstep in E. by rewrite Hi in E.
  - destruct (stale_inv _ _ _ _ E) as (w & f & fr & Hi & Hpc & Hf & [(k & Hr & Hz & -> & ->)|[(m & st & k & pre & Hr & E')|(p & j & st & Hr & Hk & E')]]).
    + split; [by apply (h_core s h H)|]. by eapply (v_calm nw G s h i w I V Hi).
    + by eapply (h_fork_resume nw G s h i w I H V Hi f fr Hf Hpc false m st k pre Hr).
    + by eapply (h_finish nw G s h i w I H V Hi f fr Hf Hpc false Hr).
  - destruct (s_workers s !! i) as [w|] eqn:Hi.
    + by eapply (h_take nw G s h i w I H V Hi).
    + unfold take in E. by rewrite Hi in E.
  - destruct (s_workers s !! i) as [w|] eqn:Hi.
    + by eapply (h_steal nw G s h i w I H V Hi).
    + unfold steal in E. by rewrite Hi in E.
  - destruct (s_workers s !! d) as [w|] eqn:Hi.
    + by eapply (h_spawn nw G s h d w I H V Hi).
    + unfold spawn in E. by rewrite Hi in E.
Qed.

(** Every reachable state is related to its history. *)
Lemma reach_hist nw s h : reach nw af s h -> hist af s h /\ vok s h.
Proof.
  induction 1 as [|s h l s' tr HR (IH1 & IH2) Ha E].
  - split; [apply hist_init|]. intros i w Hw. cbn in Hw. apply list_lookup_fmap_inv in Hw as (x & -> & _). done.
  - destruct (reach_inv _ _ _ _ HR) as (G & I). by eapply h_step.
Qed.

End h2.
