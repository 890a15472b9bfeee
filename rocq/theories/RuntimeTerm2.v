(** * Every step of the runtime makes progress. *)

From stdpp Require Import prelude gmap list.
From Coq Require Import NArith Lia Wellfounded Relation_Operators.
From Verif Require Import RuntimeModel RuntimeSpec RuntimeInv RuntimeStep RuntimeStep2 RuntimeStep3
  RuntimeStep4 RuntimeStep5 RuntimeStep6 RuntimeStep7 RuntimeSafe RuntimeHist RuntimeHist2
  RuntimeHist3 RuntimeHist4 RuntimeThms RuntimeTermSpec RuntimeTermOrder RuntimeTerm.
Local Open Scope N_scope.

Lemma rank_put s s' i w w1 :
  s_workers s !! i = Some w -> s_workers s' = <[i := w1]> (s_workers s) -> wr w1 < wr w -> rank s' < rank s.
Proof.
  intros Hi E Hlt. unfold rank. rewrite E. pose proof (sumw_insert wr _ _ _ w1 Hi). lia.
Qed.

Lemma rp_put (F : gmap N frame) f fr fr' :
  F !! f = Some fr -> f_rp fr' = f_rp fr -> forall g, f_rp <$> <[f := fr']> F !! g = f_rp <$> F !! g.
Proof.
  intros Hf E g. destruct (decide (g = f)) as [->|].
  - rewrite lookup_insert, Hf. cbn. by rewrite E.
  - by rewrite lookup_insert_ne.
Qed.

Lemma rp_set (F : gmap N frame) f fr' rp' :
  f_rp fr' = rp' -> forall g, f_rp <$> <[f := fr']> F !! g = if decide (f = g) then Some rp' else f_rp <$> F !! g.
Proof. intros E g. case_decide; subst; [by rewrite lookup_insert|by rewrite lookup_insert_ne]. Qed.

Section t2.
Context (af : bool) (nw : nat) (M : gmap N node) (s : state) (h : list event) (i : nat) (w : worker).
Hypothesis HR : reach nw af s h.
Hypothesis HT : ti af M s h.
Hypothesis Hi : s_workers s !! i = Some w.

Definition good4 (r : res) : Prop :=
  forall s' tr, r = Next s' tr -> evs_ok af (rev tr ++ h) -> fine af M s s' (rev tr ++ h).

(** Workers only. *)
Lemma d_put s' tr w1 :
  s_workers s' = <[i := w1]> (s_workers s) -> wr w1 < wr w ->
  (forall g, f_rp <$> s_frames s' !! g = f_rp <$> s_frames s !! g) ->
  (forall e, e ∈ tr -> forall g, ~ touches g e) ->
  good4 (Next s' tr).
Proof using Hi HT.
  intros EW Hlt EF Ht s1 tr1 E Hok. injection E as <- <-. apply fine_rank; try done.
  - intros e g He. apply Ht. apply elem_of_list_In. apply elem_of_list_In in He. by apply in_rev.
  - by eapply rank_put.
Qed.

Ltac no_touch := let e := fresh in let He := fresh in intros e He g; repeat (apply elem_of_cons in He as [->|He]; [cbn; tauto|]); by apply elem_of_nil in He.

Lemma d_idle w1 s1 tr :
  (s_workers s1 = s_workers s \/ exists w3, s_workers s1 = <[i := w3]> (s_workers s)) ->
  wr (set_pc PIdle w1) < wr w ->
  (forall g, f_rp <$> s_frames s1 !! g = f_rp <$> s_frames s !! g) ->
  (forall e, e ∈ tr -> forall g, ~ touches g e) ->
  good4 (to_idle i w1 s1 tr).
Proof using Hi HT.
  intros EW Hlt EF Ht. unfold to_idle. destruct (w_deque w1); [|done]. destruct (stk _ _); [|done].
  apply (d_put _ _ (set_pc PIdle w1)); try done. cbn. destruct EW as [-> |(w3 & ->)]; [done|].
  by rewrite list_insert_insert.
Qed.

Lemma d_submitted f rest : w_pc w = PIdle -> w_batch w = f :: rest -> good4 (resume_submitted i w f rest s).
Proof using Hi HT.
  intros Hpc Hb. unfold resume_submitted. destruct (s_frames s !! f) as [fr|]; [|done].
  destruct (w_deque w) eqn:Ed; [|done]. destruct (stk _ _); [|done].
  eapply d_put; [reflexivity| |done|no_touch].
  unfold wr. rewrite Hb, Hpc. cbn [length]. case_decide; cbn; rewrite Ed; cbn; lia.
Qed.

Lemma d_stolen f : w_pc w = PStolen f -> good4 (resume_stolen i w f s).
Proof using Hi HT.
  intros Hpc. unfold resume_stolen. destruct (s_frames s !! f) as [fr|] eqn:Hf; [|done].
  destruct (w_deque w) eqn:Ed; [|done]. destruct (stk _ _); [|done].
  eapply d_put; [reflexivity| | |no_touch].
  - unfold wr. rewrite Hpc. cbn. lia.
  - cbn. by eapply rp_put.
Qed.

Lemma d_self_steal : w_pc w = PSelf -> good4 (self_steal i w s).
Proof using Hi HT.
  intros Hpc. unfold self_steal. destruct (w_deque w) as [|q d] eqn:Ed.
  - apply d_idle; [by left| |done|no_touch]. unfold wr. rewrite Hpc. cbn. rewrite Ed. lia.
  - destruct (s_frames s !! q) as [fr|] eqn:Hf; [|done]. eapply d_put; [reflexivity| | |no_touch].
    + unfold wr. rewrite Hpc, Ed. cbn [w_pc w_deque w_inbox w_batch set_pc set_deque length pcr]. lia.
    + cbn. by eapply rp_put.
Qed.

Lemma d_take : good4 (take i s).
Proof using Hi HT.
  unfold take. rewrite Hi. destruct (w_pc w) eqn:Hpc; try done. destruct (w_batch w) eqn:Hb; [|done].
  destruct (w_inbox w) as [|f l] eqn:Hin; [done|]. eapply d_put; [reflexivity| |done|no_touch].
  unfold wr. rewrite Hpc, Hb, Hin. cbn [w_pc w_deque w_inbox w_batch set_pc set_inbox set_batch length pcr].
  rewrite Hpc. cbn [pcr]. lia.
Qed.

Lemma d_final p : w_pc w = PFinal p -> good4 (match w_deque w with
      | q :: d =>
        if decide (q = p) then
          Next (put_worker i (set_pc (PRun p) (set_deque d w)) s) [EvResume i p]
        else Undef
      | [] => Next (put_worker i (set_pc (PSub p) w) s) []
      end).
Proof using Hi HT.
  intros Hpc. destruct (w_deque w) as [|q d] eqn:Ed.
  - eapply d_put; [reflexivity| |done|no_touch]. unfold wr. rewrite Hpc. cbn. lia.
  - case_decide; [|done]. eapply d_put; [reflexivity| |done|no_touch].
    unfold wr. rewrite Hpc, Ed. cbn [w_pc w_deque w_inbox w_batch set_pc set_deque length pcr]. lia.
Qed.

Lemma d_loserel : w_pc w = PLoseRel ->
  good4 (let w' := set_wstk (s_nexts s) w in to_idle i w' (put_worker i w' (bump_s s)) []).
Proof using Hi HT.
  intros Hpc. apply d_idle; [cbn; eauto| |done|no_touch]. unfold wr. rewrite Hpc. cbn. lia.
Qed.

Lemma d_swrel (b : bool) : w_pc w = PSwRel b ->
  good4 (let w' := if b then set_wstk (s_nexts s) w else w in
      let s' := if b then bump_s s else s in
      match stk s' (w_stk w') with
      | [] => Next (put_worker i (set_pc PSelf w') s') []
      | _ => Undef
      end).
Proof using Hi HT.
  intros Hpc. cbn zeta. destruct (stk _ _); [|done]. eapply (d_put _ _ (set_pc PSelf (if b then set_wstk (s_nexts s) w else w))).
  - by destruct b.
  - unfold wr. rewrite Hpc. destruct b; cbn; lia.
  - by destruct b.
  - no_touch.
Qed.

(** A running task. *)
Section f.
Context (f : N) (fr : frame).
Hypothesis Hf : s_frames s !! f = Some fr.

Lemma d_one s' tr rp' :
  (forall g, f_rp <$> s_frames s' !! g = if decide (f = g) then Some rp' else f_rp <$> s_frames s !! g) ->
  (forall e, e ∈ tr -> forall g, g <> f -> ~ touches g e) ->
  (forall X L, env af h f X L -> evs_ok af (rev tr ++ h) -> exists X' L', nless af (rp', X', L') (f_rp fr, X, L) /\ env af (rev tr ++ h) f X' L') ->
  good4 (Next s' tr).
Proof using Hf HT.
  intros EF Ht HN s1 tr1 E Hok. injection E as <- <-. eapply (fine_one af M s s' h); try done.
  - intros e g He Hne. eapply Ht; [|done]. apply elem_of_list_In. apply elem_of_list_In in He. by apply in_rev.
  - intros X L _ HE. by apply HN.
Qed.

Lemma d_join_resume k w2 fr2 s2 tr :
  (f_rp fr = RRun (Join k) \/ f_rp fr = RJoin k) ->
  (s_frames s2 = s_frames s \/ exists fr3, s_frames s2 = <[f := fr3]> (s_frames s)) ->
  Forall silent tr ->
  good4 (join_resume i w2 f fr2 k s2 tr).
Proof using Hf HT.
  intros Hr EF Hs s' tr' E. destruct (join_resume_shape _ _ _ _ _ _ _ _ _ E) as (fr' & r & -> & ->).
  assert (Hs' : Forall silent (rev tr)).
  { apply Forall_forall. intros e He. rewrite Forall_forall in Hs. apply Hs.
    apply elem_of_list_In. apply elem_of_list_In in He. by apply in_rev. }
  pose proof (silent_app (rev tr) h Hs') as (A1 & A2 & A3 & A4 & A5 & A6).
  eapply (d_one _ (tr ++ [EvJoin f (f_cells fr2) r]) (RRun (k (f_cells fr2) r))); [| | |reflexivity].
  - intros g. cbn. rewrite <- (rp_set (s_frames s) f (set_rp (RRun (k (f_cells fr2) r)) fr')) by done.
    destruct EF as [-> |(fr3 & ->)]; [done|]. by rewrite insert_insert.
  - intros e He g Hne. apply elem_of_app in He as [He| ->%elem_of_list_singleton]; [|cbn; tauto].
    rewrite Forall_forall in Hs. apply Hs in He. destruct e; cbn in *; tauto.
  - intros X L HE Hok. rewrite rev_app_distr in Hok |- *. cbn [rev app] in *. destruct Hok as (He & Hok).
    destruct He as (_ & Hend & Hcs & Hjr).
    assert (HE1 : env af (rev tr ++ h) f X L).
    { apply env_evs; [done| |done]. intros e He. rewrite Forall_forall in Hs'. apply Hs' in He. destruct e; cbn in *; tauto. }
    exists (fun _ => False), (map eq (f_cells fr2)). split.
    + constructor; [destruct Hr as [-> | ->]; auto| |].
      * rewrite Hcs. by eapply results_env.
      * intros e ->. inversion Hjr; subst. by eapply e_pend.
    + eapply (env_joined af (rev tr ++ h)).
      * rewrite Hcs. done.
      * done.
      * intros c st Hc. destruct (Hend c st Hc) as (o & Ho). by exists o.
      * cbn. by rewrite decide_True.
Qed.

Lemma d_take_join k fr1 tr :
  f_rp fr = RRun (Join k) -> Forall silent tr ->
  good4 (take_stack_join_resume i w f fr1 k s tr).
Proof using Hf HT.
  intros Hr Hs. unfold take_stack_join_resume. case_decide; [done|].
  destruct (stk s (w_stk w)); [|done]. apply d_join_resume; cbn; eauto.
Qed.

Lemma d_join_suspend : good4 (join_suspend i w f fr s).
Proof using Hf HT.
  unfold join_suspend. destruct (f_rp fr) as [[]| | | | | | |] eqn:Hr; try done.
  case_decide; [by apply d_take_join|].
  eapply d_one; [cbn; by apply rp_set|no_touch|]. intros X L HE Hok. exists X, L. rewrite Hr.
  split; [constructor|]. apply (env_ev af (EvWait f)); [by destruct Hok|cbn; tauto|done].
Qed.

Lemma d_deliver t o :
  f_rp fr = RRun t -> (t = match o with OVal v => Ret v | OExc e => Throw e end) -> good4 (deliver f fr o s).
Proof using Hf HT HR.
  intros Hr Ht. destruct (reach_inv _ _ _ _ HR) as (G & I).
  assert (HB : forall s' rp', 
    (forall g, f_rp <$> s_frames s' !! g = if decide (f = g) then Some rp' else f_rp <$> s_frames s !! g) ->
    (rp' = RFinal \/ exists e, o = OExc e /\ rp' = RCapture e) -> good4 (Next s' [EvEnd f o])).
  { intros s' rp' EF Hrp. eapply d_one; [exact EF|no_touch|]. intros X L HE (He & Hok).
    exists X, L. split; [|apply env_ev; [done|cbn; tauto|done]]. rewrite Hr, Ht.
    destruct Hrp as [-> |(e & -> & ->)]; [destruct o|]; constructor. }
  assert (HP : forall p frp frp' fr', s_frames s !! p = Some frp -> p <> f -> f_rp frp' = f_rp frp ->
    forall g, f_rp <$> <[p := frp']> (<[f := fr']> (s_frames s)) !! g = if decide (f = g) then Some (f_rp fr') else f_rp <$> s_frames s !! g).
  { intros p frp frp' fr' Hp Hne E g. rewrite (rp_put _ p frp frp'); [by apply rp_set| |done].
    by rewrite lookup_insert_ne. }
  assert (HC : forall p j st, f_kind fr = KCall p j st \/ f_kind fr = KFork p j st -> good4
    (match s_frames s !! p with
    | None => Undef
    | Some frp =>
      match o, st with
      | OVal v, _ =>
        Next (put_frame p (set_cells (<[j := CVal v]> (f_cells frp)) frp) (put_frame f (set_rp RFinal fr) s)) [EvEnd f o]
      | OExc e, true =>
        Next (put_frame p (set_cells (<[j := CExc e]> (f_cells frp)) frp) (put_frame f (set_rp RFinal fr) s)) [EvEnd f o]
      | OExc e, false =>
        if f_eflag frp then Next (put_frame f (set_rp RFinal fr) s) [EvEnd f o]
        else Next (put_frame p (set_exc true (f_eptr frp) frp)
                    (put_frame f (set_rp (RCapture e) fr) s)) [EvEnd f o]
      end
    end)).
  { intros p j st Hk. destruct (s_frames s !! p) as [frp|] eqn:Hp; [|done].
    assert (Hne : p <> f).
    { intros ->. destruct (i_kid _ _ _ I f _ _ f fr (shape_lookup _ _ _ Hf)) as (_ & Hlt); [|done|lia].
      destruct Hk as [-> | ->]; done. }
    destruct o as [v|e].
    - eapply HB; [cbn; by eapply HP|by left].
    - destruct st.
      + eapply HB; [cbn; by eapply HP|by left].
      + destruct (f_eflag frp).
        * eapply HB; [cbn; by apply rp_set|by left].
        * eapply HB; [|right; eauto]. cbn. rewrite <- insert_commute by done. intros g.
          rewrite (rp_set _ f (set_rp (RCapture e) fr) (RCapture e)) by done. case_decide; [done|].
          by apply (rp_put _ p frp). }
  unfold deliver. destruct (f_kind fr) as [|p j st|p j st] eqn:Ek.
  - eapply HB; [cbn; by apply rp_set|by left].
  - apply HC. auto.
  - apply HC. auto.
Qed.

Lemma d_capture e : f_rp fr = RCapture e -> good4 (capture f fr e s).
Proof using Hf HT HR.
  intros Hr. destruct (reach_inv _ _ _ _ HR) as (G & I).
  unfold capture. assert (HC : forall p, par (f_kind fr) = Some p -> good4
    match s_frames s !! p with
    | None => Undef
    | Some frp => Next (put_frame p (set_exc (f_eflag frp) (Some e) frp) (put_frame f (set_rp RFinal fr) s)) []
    end).
  { intros p Hk. destruct (s_frames s !! p) as [frp|] eqn:Hp; [|done].
    assert (Hne : p <> f).
    { intros ->. destruct (i_kid _ _ _ I f _ _ f fr (shape_lookup _ _ _ Hf)) as (_ & Hlt); [done|done|lia]. }
    eapply (d_one _ [] RFinal); [|no_touch|].
    - intros g. cbn. rewrite (rp_put _ p frp); [by apply rp_set|by rewrite lookup_insert_ne|done].
    - intros X L HE Hok. exists X, L. rewrite Hr. split; [constructor|done]. }
  destruct (f_kind fr) eqn:Ek; [done|by apply HC..].
Qed.

Lemma d_local rp' fr' tr :
  f_rp fr' = rp' ->
  (forall e, e ∈ tr -> forall g, ~ touches g e) ->
  (forall X L, nless af (rp', X, L) (f_rp fr, X, L)) -> good4 (Next (put_frame f fr' s) tr).
Proof using Hf HT.
  intros Hr Ht HN. eapply d_one; [cbn; by apply rp_set|by intros; apply Ht|].
  intros X L HE Hok. exists X, L. split; [done|]. apply env_evs; [done| |done].
  intros e He. apply Ht. apply elem_of_list_In. apply elem_of_list_In in He. by apply in_rev.
Qed.

Lemma d_fork_resume seen m st k pre :
  w_pc w = PRun f -> f_rp fr = RFork m st k pre -> good4 (fork_resume seen i w f fr m st k pre s).
Proof using Hf HT HR Hi.
  intros Hpc Hr. destruct (reach_hist _ _ _ _ HR) as (H & V).
  pose proof (g_frames _ _ _ H f fr Hf) as K.
  assert (HA : good4 (Next (put_frame f (set_rp (RRun (k FAsync)) fr) s) [])).
  { eapply d_local; [done|no_touch|]. intros. rewrite Hr. constructor. }
  assert (HL : f_steals fr = pre -> last_ended h f).
  { intros Hp. specialize (V i w Hi). unfold wv in V. rewrite Hpc in V. by eapply V. }
  assert (HD : f_steals fr = pre -> m <> FNone ->
     good4 (Next (put_frame f (set_rp (RRun (k (FDone (fres_last (f_cells fr))))) fr) s) [EvSync f (fres_last (f_cells fr))])).
  { intros Hp Hm. eapply d_one; [cbn; by apply rp_set|no_touch|]. intros X L HE Hok.
    destruct (env_last _ _ _ _ _ HE (HL Hp)) as (L0 & P & -> & HP & HE').
    rewrite (k_cells _ _ _ _ K), Hr. eexists X, _. split; [by constructor|].
    apply (env_ev af (EvSync f _)); [by destruct Hok|cbn; tauto|done]. }
  assert (HB : m <> FNone -> f_eflag fr = true ->
     good4 (Next (put_frame f (set_rp (RRun (k (FExn EBeforeJoin))) fr) s) [])).
  { intros Hm Hfl. eapply d_one; [cbn; by apply rp_set|no_touch|]. intros X L HE Hok. exists X, L. split; [|done].
    apply (k_flag _ _ _ _ K) in Hfl. apply set_choose_L in Hfl as (e & He). rewrite Hr.
    eapply nl_fbefore; [done|]. by eapply e_pend. }
  assert (HE : forall e, m <> FNone -> f_eptr fr = Some e ->
     good4 (Next (put_frame f (set_rp (RRun (k (FExn e))) (set_exc false None fr)) s) [EvEager f e])).
  { intros e Hm He. eapply d_one; [cbn; by apply rp_set|no_touch|]. intros X L HE (Hev & Hok). exists X, L.
    split; [|apply env_ev; [done|cbn; tauto|done]]. rewrite Hr. apply nl_fexn; [done|]. eapply e_pend; [done|]. by eapply k_eptr. }
  assert (HRR : f_steals fr = pre -> m <> FNone ->
    good4 (match unsafe_rethrow fr with
      | Some (Some e, fr') => Next (put_frame f (set_rp (RRun (k (FExn e))) fr') s) [EvEager f e]
      | Some (None, fr') => Next (put_frame f (set_rp (RRun (k (FDone (fres_last (f_cells fr))))) fr') s) [EvSync f (fres_last (f_cells fr))]
      | None => Undef
      end)).
  { intros Hp Hm. unfold unsafe_rethrow. destruct (f_eflag fr); [|by apply HD].
    destruct (f_eptr fr) eqn:Ee; [|done]. by apply HE. }
  unfold fork_resume. destruct m; [apply HA| |].
  - destruct (decide (f_steals fr = pre)) as [Hp|]; [|apply HA].
    destruct st; [|by apply HD]. destruct (decide (f_steals fr = 0)) as [Hz|Hz]; [by apply HRR|].
    destruct (f_eflag fr) eqn:Efl, seen; cbn [andb]; first [by apply HB|by apply HD].
  - destruct (decide (f_steals fr = pre)) as [Hp|]; [|apply HA].
    destruct st; [|by apply HD]. destruct (decide (f_steals fr = 0)) as [Hz|Hz]; [by apply HRR|done].
Qed.

Lemma d_child (fk : bool) rp' st c kd w1 :
  let e := if fk then EvFork f (s_nextf s) st c else EvCall f (s_nextf s) st c in
  (forall X L, nless af (rp', fun e => X e \/ may_throw af st c e, L ++ [may_leave af st c]) (f_rp fr, X, L) /\
     nless af (RRun c, fun _ => False, []) (f_rp fr, X, L)) ->
  good4 (Next (put_worker i w1
    (spawn_child w kd c (put_frame f (set_cells (f_cells fr ++ [CUnset]) (set_rp rp' fr)) s))) [e; EvResume i (s_nextf s)]).
Proof using Hf HT HR Hi.
  intros e HN s' tr E Hok. injection E as <- <-. destruct (reach_hist _ _ _ _ HR) as (H & V).
  destruct (g_new _ _ _ H (s_nextf s)) as (Hn1 & Hn2 & Hn3 & Hn4 & Hn5 & Hn6 & _); [lia|].
  assert (Hfc : f <> s_nextf s) by congruence.
  cbn [rev app] in *. destruct Hok as (_ & Hok).
  change (EvResume i (s_nextf s) :: e :: h) with ([EvResume i (s_nextf s); e] ++ h).
  eapply (fine_child af M s _ h _ HT) with (X' := fun X e => X e \/ may_throw af st c e) (L' := fun L => L ++ [may_leave af st c]) (c := s_nextf s).
  - cbn. done.
  - exact Hf.
  - done.
  - intros g. cbn. destruct (decide (s_nextf s = g)) as [<-|]; [by rewrite lookup_insert|].
    rewrite lookup_insert_ne by done. by apply rp_set.
  - intros e' g He Hne. apply elem_of_cons in He as [->|He]; [cbn; tauto|]. apply elem_of_list_singleton in He as ->.
    unfold e. destruct fk; cbn; congruence.
  - intros X L _ HE. destruct (HN X L). split_and!; [done|done|].
    apply (env_ev af (EvResume i (s_nextf s))); [done|cbn; tauto|]. by apply env_child.
  - apply env_fresh; unfold e; destruct fk; cbn; rewrite ?decide_False; done.
Qed.

Lemma d_switch sk d k :
  f_rp fr = RRun (Switch sk d k) ->
  good4 (if sk && bool_decide (d = i) then Next (put_frame f (set_rp (RRun k) fr) s) []
    else
      match same_stacklet s f fr w, s_workers s !! d with
      | Some same, Some _ =>
        if decide (same = bool_decide (f_steals fr = 0)) then
          let s1 := put_worker i (set_pc (PSwRel same) w) (put_frame f (set_rp (RSwitched d k) fr) s) in
          match s_workers s1 !! d with
          | Some wd => Next (put_worker d (set_inbox (w_inbox wd ++ [f]) wd) s1) [EvSwitch f d]
          | None => Undef
          end
        else Undef
      | _, _ => Undef
      end).
Proof using Hf HT.
  intros Hr. destruct (sk && bool_decide (d = i)).
  { eapply d_local; [done|no_touch|]. intros. rewrite Hr. constructor. }
  destruct (same_stacklet s f fr w) as [same|]; [|done]. destruct (s_workers s !! d); [|done].
  case_decide; [|done]. cbn zeta. destruct (s_workers _ !! d) as [wd|]; [|done].
  eapply d_one; [cbn; by apply rp_set|no_touch|]. intros X L HE Hok. exists X, L. rewrite Hr.
  split; [constructor|]. apply (env_ev af (EvSwitch f d)); [by destruct Hok|cbn; tauto|done].
Qed.

Lemma d_run_task fail t :
  f_rp fr = RRun t -> w_pc w = PRun f -> (fail = true -> af = true) -> good4 (run_task i fail w f fr t s).
Proof using Hf HT HR Hi.
  intros Hr Hpc Hfail. destruct t as [v|e|m st c k|m st c k|k|sk d k|e k|k]; cbn [run_task].
  - by eapply d_deliver.
  - by eapply d_deliver.
  - destruct fail.
    + eapply d_local; [done|no_touch|]. intros. rewrite Hr. constructor. auto.
    + apply (d_child true). intros. rewrite Hr. split; constructor.
  - destruct fail.
    + eapply d_local; [done|no_touch|]. intros. rewrite Hr. constructor. auto.
    + apply (d_child false). intros. rewrite Hr. split; constructor.
  - case_decide; [by apply d_join_resume; auto|]. case_decide; [by apply d_take_join|].
    eapply d_put; [reflexivity| |done|no_touch]. unfold wr. rewrite Hpc. cbn. lia.
  - by apply d_switch.
  - eapply d_one; [cbn; by apply rp_set| |].
    + intros e' ->%elem_of_list_singleton g Hne. cbn. congruence.
    + intros X L HE Hok. eexists _, L. rewrite Hr. split; [constructor|]. by apply env_stash.
  - eapply d_local; [done|no_touch|]. intros. rewrite Hr. constructor.
Qed.

Lemma destroy_frames s1 : destroy w f fr s = Some s1 -> s_frames s1 = delete f (s_frames s).
Proof.
  unfold destroy. case_decide; [|done]. destruct (stk _ _); [done|]. case_decide; [|done].
  intros E. by injection E as <-.
Qed.

Lemma d_del s' tr :
  s_frames s' = delete f (s_frames s) -> (forall e, e ∈ tr -> forall g, ~ touches g e) -> good4 (Next s' tr).
Proof using Hf HT.
  intros EF Ht s1 tr1 E Hok. injection E as <- <-. eapply (fine_del af M s s' h); try done.
  - intros g. rewrite EF. case_decide; subst; [by rewrite lookup_delete|by rewrite lookup_delete_ne].
  - intros e g He. apply Ht. apply elem_of_list_In. apply elem_of_list_In in He. by apply in_rev.
Qed.

Lemma d_finish_call seen p j st0 s1 frp m st k :
  f_rp fr = RFinal -> f_kind fr = KCall p j st0 ->
  destroy w f fr s = Some s1 -> s_frames s1 !! p = Some frp -> f_rp frp = RCall m st k ->
  good4 (call_resume seen i w p frp m st k s1 [EvDestroy f; EvResume i p]).
Proof using Hf HT HR Hi.
  intros Hr Hk Hd Hp Hrp. apply destroy_frames in Hd.
  rewrite Hd in Hp. apply lookup_delete_Some in Hp as (Hne & Hp).
  destruct (reach_hist _ _ _ _ HR) as (H & V). destruct (reach_inv _ _ _ _ HR) as (G & I).
  pose proof (g_frames _ _ _ H f fr Hf) as K. pose proof (g_frames _ _ _ H p frp Hp) as Kp.
  destruct (i_kid _ _ _ I f _ _ p frp (shape_lookup _ _ _ Hf)) as (Kid & _); [by rewrite Hk|done|]. rewrite Hk in Kid.
  destruct Kid as (Kid1 & Kid2 & Kid3). cbn in Kid1, Kid2.
  set (tr0 := [EvDestroy f; EvResume i p]).
  assert (HL : last_ended h p).
  { pose proof (k_kind _ _ _ _ K) as Hkj. rewrite Hk in Hkj.
    exists f, st0. split; [|apply (k_over _ _ _ _ K); by rewrite Hr].
    rewrite last_lookup. rewrite (k_cells _ _ _ _ Kp) in Kid1.
    unfold results_in in Kid1. rewrite map_length in Kid1. rewrite <- Kid1. cbn. done. }
  assert (HX : forall t fr' tr1, (tr1 = [] \/ exists e, tr1 = [EvEager p e]) ->
    (forall X L, env af h p X L -> exists X' L', nless af (RRun t, X', L') (f_rp frp, X, L) /\ env af h p X' L') ->
    good4 (Next (put_worker i (set_pc (PRun p) w) (put_frame p (set_rp (RRun t) fr') s1)) (tr0 ++ tr1))).
  { intros t fr' tr1 Htr HN s' tr E Hok. injection E as <- <-.
    assert (Hnt : forall e, e ∈ rev (tr0 ++ tr1) -> forall g, ~ touches g e).
    { intros e He g. apply elem_of_list_In, in_rev, elem_of_list_In in He. unfold tr0 in He.
      destruct Htr as [-> |(e0 & ->)]; cbn in He;
        repeat (apply elem_of_cons in He as [->|He]; [cbn; tauto|]); by apply elem_of_nil in He. }
    eapply (fine_del_one af M s _ h _ f fr p frp (RRun t)); try done.
    - intros g. cbn. rewrite Hd. rewrite (rp_set _ p (set_rp (RRun t) fr') (RRun t)) by done.
      case_decide; [done|]. case_decide; subst; [by rewrite lookup_delete|by rewrite lookup_delete_ne].
    - intros e g He _. by apply Hnt.
    - intros X L _ HE. destruct (HN X L HE) as (X' & L' & Hn & HE'). exists X', L'. split; [done|].
      apply env_evs; [done| |done]. intros e He. by apply Hnt. }
  assert (HD : forall fr', good4 (Next (put_worker i (set_pc (PRun p) w) (put_frame p (set_rp (RRun (k (CDone (fres_last (f_cells frp))))) fr') s1)) (tr0 ++ []))).
  { intros fr'. apply HX; [by left|]. intros X L HE.
    destruct (env_last _ _ _ _ _ HE HL) as (L0 & P & -> & HP & HE').
    rewrite (k_cells _ _ _ _ Kp), Hrp. eexists X, _. split; [by constructor|done]. }
  assert (HB : m <> MNone -> f_eflag frp = true ->
    good4 (Next (put_worker i (set_pc (PRun p) w) (put_frame p (set_rp (RRun (k (CExn EBeforeJoin))) frp) s1)) (tr0 ++ []))).
  { intros Hm Hfl. apply HX; [by left|]. intros X L HE. exists X, L. split; [|done].
    apply (k_flag _ _ _ _ Kp) in Hfl. apply set_choose_L in Hfl as (e & He). rewrite Hrp.
    eapply nl_cbefore; [done|]. by eapply e_pend. }
  assert (HE : forall e, m <> MNone -> f_eptr frp = Some e ->
    good4 (Next (put_worker i (set_pc (PRun p) w) (put_frame p (set_rp (RRun (k (CExn e))) (set_exc false None frp)) s1)) (tr0 ++ [EvEager p e]))).
  { intros e Hm He. apply HX; [right; eauto|]. intros X L HE. exists X, L. split; [|done].
    rewrite Hrp. apply nl_cexn; [done|]. eapply e_pend; [done|]. by eapply k_eptr. }
  assert (HRR : m <> MNone ->
    good4 (match unsafe_rethrow frp with
      | Some (Some e, fr') => Next (put_worker i (set_pc (PRun p) w) (put_frame p (set_rp (RRun (k (CExn e))) fr') s1)) (tr0 ++ [EvEager p e])
      | Some (None, fr') => Next (put_worker i (set_pc (PRun p) w) (put_frame p (set_rp (RRun (k (CDone (fres_last (f_cells frp))))) fr') s1)) (tr0 ++ [])
      | None => Undef
      end)).
  { intros Hm. unfold unsafe_rethrow. destruct (f_eflag frp) eqn:Efl; [|apply HD].
    destruct (f_eptr frp) as [e|] eqn:Ee; [|done]. by apply HE. }
  unfold call_resume. destruct m, st; try apply HD.
  - destruct (decide (f_steals frp = 0)) as [Hz|Hz]; [by apply HRR|].
    destruct (f_eflag frp) eqn:Efl, seen; cbn [andb]; first [by apply HB|by apply HD].
  - destruct (decide (f_steals frp = 0)) as [Hz|Hz]; [by apply HRR|done].
Qed.

Lemma d_finish seen : f_rp fr = RFinal -> good4 (finish seen i w f fr s).
Proof using Hf HT HR Hi.
  intros Hr. unfold finish. case_decide; [|done]. destruct (f_kind fr) as [|p j st|p j st] eqn:Ek.
  - eapply d_one; [cbn; by apply rp_set|no_touch|]. intros X L HE (He & _). exists X, L. rewrite Hr.
    split; [constructor|]. apply env_ev; [done|cbn; tauto|done].
  - destruct (destroy w f fr s) as [s1|] eqn:Ed; [|done].
    destruct (s_frames s1 !! p) as [frp|] eqn:Hp; [|done].
    destruct (f_rp frp) eqn:Hrp; try done. by eapply d_finish_call.
  - destruct (destroy w f fr s) as [s1|] eqn:Ed; [|done]. apply destroy_frames in Ed.
    apply d_del; [done|no_touch].
Qed.

Lemma d_root_destroy : good4 (root_destroy i w f fr s).
Proof using Hf HT.
  unfold root_destroy. destruct (destroy w f fr s) as [s1|] eqn:Ed; [|done]. apply destroy_frames in Ed.
  unfold to_idle. destruct (w_deque w); [|done]. destruct (stk _ _); [|done]. apply d_del; [done|no_touch].
Qed.

End f.

Lemma d_sub p : w_pc w = PSub p -> good4 (final_sub i w p s).
Proof using HT Hi.
  intros Hpc. unfold final_sub. destruct (s_frames s !! p) as [frp|] eqn:Hp; [|done].
  destruct (same_stacklet s p frp w) as [same|]; [|done]. cbn zeta. case_decide.
  - destruct (f_rp frp) eqn:Hrp; try done. destruct (if same then _ else _); [|done].
    eapply d_join_resume; [exact Hp|by right|right; cbn; eauto|repeat constructor].
  - destruct same.
    + eapply d_put; [reflexivity| | |no_touch].
      * unfold wr. rewrite Hpc. cbn. lia.
      * cbn. by eapply rp_put.
    + apply d_idle; [by left| | |no_touch].
      * unfold wr. rewrite Hpc. cbn. lia.
      * cbn. by eapply rp_put.
Qed.

Lemma d_wstep fail : (fail = true -> af = true) -> good4 (wstep i fail s).
Proof using HT Hi HR.
  intros Hfail. unfold wstep. rewrite Hi. destruct (w_pc w) eqn:Hpc.
  - destruct (w_batch w) eqn:Hb; [done|]. by apply d_submitted.
  - by apply d_stolen.
  - destruct (s_frames s !! f) as [fr|] eqn:Hf; [|done]. destruct (f_rp fr) eqn:Hr; try done.
    + by apply d_run_task.
    + by apply d_fork_resume.
    + eapply d_local; [exact Hf|done|no_touch|]. intros. rewrite Hr. constructor.
    + by apply d_capture.
    + by apply d_finish.
    + by apply d_root_destroy.
  - by apply d_final.
  - by apply d_sub.
  - by apply d_loserel.
  - destruct (s_frames s !! f) as [fr|] eqn:Hf; [|done]. by apply d_join_suspend.
  - by apply d_swrel.
  - by apply d_self_steal.
Qed.

Lemma d_steal v : good4 (steal i v s).
Proof using HT Hi.
  unfold steal. rewrite Hi. destruct (s_workers s !! v) as [wv|] eqn:Hv; [|done].
  case_decide as Hne; [done|]. destruct (w_pc w) eqn:Hpc; try done. destruct (w_batch w) eqn:Hb; [|done].
  destruct (last (w_deque wv)) as [f|] eqn:Hl; [|done].
  intros s' tr E Hok. injection E as <- <-. cbn [rev app] in *. apply (fine_rank af M s _ h []); try done.
  - by intros e g ?%elem_of_nil.
  - unfold rank. cbn. rewrite list_insert_commute by done.
    set (wv' := set_deque (removelast (w_deque wv)) wv). set (w' := set_pc (PStolen f) w).
    pose proof (sumw_insert wr (<[i := w']> (s_workers s)) v wv wv') as H1. rewrite list_lookup_insert_ne in H1 by done.
    specialize (H1 Hv). pose proof (sumw_insert wr (s_workers s) i w w' Hi) as H2.
    assert (wr wv = wr wv' + 7).
    { unfold wr, wv'. cbn [w_pc w_deque w_inbox w_batch set_deque].
      apply last_app_split in Hl. rewrite Hl at 1. rewrite app_length. cbn [length]. lia. }
    assert (wr w' = wr w + 6).
    { unfold wr, w'. cbn [w_pc w_deque w_inbox w_batch set_pc pcr]. rewrite Hpc. cbn [pcr]. lia. }
    lia.
Qed.

End t2.

Lemma ti_step af nw M s h l s' tr :
  reach nw af s h -> ti af M s h -> allowed nw af l -> (forall d t, l <> LSpawn d t) ->
  step l s = Next s' tr -> fine af M s s' (rev tr ++ h).
Proof.
  intros HR HT HA Hl E. pose proof (reach_step _ _ _ _ _ _ _ HR HA E) as HR'.
  destruct (reach_hist _ _ _ _ HR') as (H' & _). pose proof (g_evs _ _ _ H') as Hok.
  destruct l as [i fail|i|i|i v|d t]; cbn [step] in E; [| | | |by destruct (Hl d t)].
  - destruct (s_workers s !! i) as [w|] eqn:Hi; [|unfold wstep in E; by rewrite Hi in E].
    by eapply (d_wstep af nw M s h i w HR HT Hi fail).
  - destruct (stale_inv _ _ _ _ E) as (w & f & fr & Hi & Hpc & Hf & [(k & Hr & Hz & -> & ->)|[(m & st & k & pre & Hr & E')|(p & j & st & Hr & Hk & E')]]).
    + assert (X : good4 af M s h (Next (put_worker i (set_pc (PJSusp f) w) s) [])); [|by eapply X].
      eapply d_put; [exact HT|exact Hi|reflexivity| |done|intros e He; by apply elem_of_nil in He].
      unfold wr. rewrite Hpc. cbn. lia.
    + assert (X : good4 af M s h (fork_resume false i w f fr m st k pre s)); [by eapply d_fork_resume|by eapply X].
    + assert (X : good4 af M s h (finish false i w f fr s)); [by eapply d_finish|by eapply X].
  - destruct (s_workers s !! i) as [w|] eqn:Hi; [|unfold take in E; by rewrite Hi in E].
    by eapply (d_take af M s h i w HT Hi).
  - destruct (s_workers s !! i) as [w|] eqn:Hi; [|unfold steal in E; by rewrite Hi in E].
    by eapply (d_steal af M s h i w HT Hi v).
Qed.
