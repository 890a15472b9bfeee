(** * Every execution keeps the invariant of SyncInv.v, and none has a data race. *)

From stdpp Require Import prelude gmap list relations.
From Coq Require Import NArith Lia.
From Verif Require Import RuntimeModel RuntimeSpec RuntimeInv RuntimeStep RuntimeStep3 RuntimeSafe SyncSpec SyncModel
  SyncViews SyncInv SyncTrans SyncAccess SyncStep SyncStep2 SyncMove SyncJoin SyncMove2 SyncMove3 SyncEnd SyncNew.
Local Open Scope N_scope.

Definition quiet (evs : list event) : Prop := filter (fun e => opening e = true) evs = [].

Lemma join_resume_quiet i w f fr k s tr s' evs :
  join_resume i w f fr k s tr = Next s' evs -> quiet tr -> quiet evs.
Proof.
  intros H Q. unfold join_resume in H. repeat case_match; try done. simplify_eq.
  unfold quiet in *. by rewrite filter_app, Q.
Qed.

Lemma take_resume_quiet i w f fr k s tr s' evs :
  take_stack_join_resume i w f fr k s tr = Next s' evs -> quiet tr -> quiet evs.
Proof. intros H. unfold take_stack_join_resume in H. repeat case_match; try done. by eapply join_resume_quiet. Qed.

Lemma call_resume_quiet seen i w f fr m st k s tr s' evs :
  call_resume seen i w f fr m st k s tr = Next s' evs -> quiet tr -> quiet evs.
Proof.
  intros H Q. unfold quiet in *. unfold call_resume in H.
  repeat case_match; try done; simplify_eq; by rewrite filter_app, Q.
Qed.

Lemma fork_resume_quiet seen i w f fr m st k pre s s' evs :
  fork_resume seen i w f fr m st k pre s = Next s' evs -> quiet evs.
Proof. intros H. unfold fork_resume in H. repeat case_match; try done; by simplify_eq. Qed.

Lemma deliver_quiet f fr o s s' evs : deliver f fr o s = Next s' evs -> quiet evs.
Proof. intros H. unfold deliver in H. repeat case_match; try done; by simplify_eq. Qed.

Lemma capture_quiet f fr e s s' evs : capture f fr e s = Next s' evs -> quiet evs.
Proof. intros H. unfold capture in H. repeat case_match; try done; by simplify_eq. Qed.

Lemma to_idle_quiet i w s tr s' evs : to_idle i w s tr = Next s' evs -> quiet tr -> quiet evs.
Proof. intros H. unfold to_idle in H. repeat case_match; try done; by simplify_eq. Qed.

Lemma finish_quiet seen i w f fr s s' evs : finish seen i w f fr s = Next s' evs -> quiet evs.
Proof.
  intros H. unfold finish in H. repeat case_match; try done; try (by simplify_eq).
  by eapply call_resume_quiet.
Qed.

Lemma goal_quiet s' g t al evs :
  quiet evs -> goal s' g t al ->
  goal s' g t ((Note <$> filter (fun e => opening e = true) evs) ++ al ++ (Note <$> filter (fun e => opening e = false) evs)).
Proof. intros Q H. rewrite Q. by apply goal_notes. Qed.

Theorem step_goal nw G G' s l s' evs g :
  inv nw G s -> extra s -> inv nw G' s' -> J None s g -> step l s = Next s' evs ->
  J None s' (vrun g (step_trace l s evs)) /\ all_safe g (step_trace l s evs) /\ extra s'.
Proof.
  intros I0 E I' HJ H. destruct l as [i fail|i|i|i v|d t0]; cbn [step] in H; unfold step_trace; cbn [actor acts].
  - fold (tag (TW i)). match goal with |- J _ _ (vrun _ ?x) /\ _ => change x with (tag (TW i) ((Note <$> filter (fun e => opening e = true) evs) ++
      work_acts i fail s ++ (Note <$> filter (fun e => opening e = false) evs))) end.
    match goal with |- J _ _ (vrun _ (tag _ ?al)) /\ _ => change (goal s' g (TW i) al) end.
    unfold wstep in H. unfold work_acts. destruct (s_workers s !! i) as [w|] eqn:Hi; [|done].
    destruct (w_pc w) as [|f|f|p|p| |f|b|] eqn:Hpc.
    + destruct (w_batch w) as [|f rest] eqn:Hb; [done|]. unfold resume_submitted in H.
      destruct (s_frames s !! f) as [fr|] eqn:Hf; [|done]. destruct (w_deque w) eqn:Hd; [|done].
      destruct (stk s (w_stk w)) eqn:Hst; [|done]. injection H as <- <-. apply goal_quiet; [done|].
      eapply s_submitted; [exact I0|exact E|exact I'|exact HJ|exact Hi|exact Hpc|exact Hb|exact Hf|exact Hst|done].
    + unfold resume_stolen in H. destruct (s_frames s !! f) as [fr|] eqn:Hf; [|done]. destruct (w_deque w) eqn:Hd; [|done].
      destruct (stk s (w_stk w)) eqn:Hst; [|done]. injection H as <- <-. apply goal_quiet; [done|].
      eapply s_stolen; [exact I0|exact E|exact I'|exact HJ|exact Hi|exact Hpc|exact Hf|done].
    + destruct (s_frames s !! f) as [fr|] eqn:Hf; [|done].
      destruct (f_rp fr) as [t|m st k pre|m st k|k|d t|e| |] eqn:Hr; try done.
      * assert (Hns : f_rp fr <> RSignalled) by congruence.
        destruct t as [v|e|m st c k|m st c k|k|sk d k|e k|k]; cbn [run_task run_acts] in H |- *.
        -- apply goal_quiet; [by eapply deliver_quiet|]. eapply s_deliver; [exact I0|exact E|exact Hi|exact Hpc|exact Hf|exact HJ|by eexists|exact H].
        -- apply goal_quiet; [by eapply deliver_quiet|]. eapply s_deliver; [exact I0|exact E|exact Hi|exact Hpc|exact Hf|exact HJ|by eexists|exact H].
        -- destruct fail.
           ++ injection H as <- <-. apply goal_quiet; [done|]. eapply s_fail; [exact I0|exact E|exact Hi|exact Hpc|exact Hf|exact HJ|exact Hns|done].
           ++ injection H as <- <-. rewrite app_assoc. apply goal_notes.
              eapply s_fork; [exact I0|exact E|exact Hi|exact Hpc|exact Hf|by eexists|exact HJ|exact I'|done].
        -- destruct fail.
           ++ injection H as <- <-. apply goal_quiet; [done|]. eapply s_fail; [exact I0|exact E|exact Hi|exact Hpc|exact Hf|exact HJ|exact Hns|done].
           ++ injection H as <- <-. rewrite app_assoc. apply goal_notes.
              eapply s_call; [exact I0|exact E|exact Hi|exact Hpc|exact Hf|by eexists|exact HJ|done].
        -- destruct (decide (f_steals fr = 0)) as [Hz|Hz].
           ++ apply goal_quiet; [by eapply join_resume_quiet|]. eapply s_join_ready; [exact I0|exact E|exact Hi|exact Hpc|exact Hf|exact HJ|exact Hr|exact Hz|exact H].
           ++ destruct (decide (f_steals fr = u16max - f_joins fr)) as [He|He].
              ** apply goal_quiet; [by eapply take_resume_quiet|].
                 eapply s_join_take; [exact I0|exact E|exact I'|exact HJ|exact Hi|exact Hpc|exact Hf|exact Hr|exact Hz|exact He|exact H].
              ** injection H as <- <-. apply goal_quiet; [done|]. eapply s_wait; [exact I0|exact E|exact Hi|exact Hpc|exact Hf|exact HJ|exact Hr|done].
        -- destruct (sk && bool_decide (d = i)) eqn:Hsk.
           ++ injection H as <- <-. apply goal_quiet; [done|]. eapply s_code; [exact I0|exact E|exact Hi|exact Hpc|exact Hf|exact HJ|exact Hns|done].
           ++ destruct (same_stacklet s f fr w) as [same|] eqn:Hsame; [|done].
              destruct (s_workers s !! d) eqn:Hd; [|done]. destruct (decide _); [|done].
              match type of H with match ?x with _ => _ end = _ => destruct x as [wd|] eqn:Hwd end; [|done].
              injection H as <- <-. apply goal_quiet; [done|].
              eapply s_switch; [exact I0|exact E|exact I'|exact HJ|exact Hi|exact Hpc|exact Hf|exact Hr|exact Hsame|exact Hwd|done].
        -- injection H as <- <-. apply goal_quiet; [done|]. eapply s_stash; [exact I0|exact E|exact Hi|exact Hpc|exact Hf|exact HJ|exact Hr|exact I'|done].
        -- injection H as <- <-. apply goal_quiet; [done|]. eapply s_code; [exact I0|exact E|exact Hi|exact Hpc|exact Hf|exact HJ|exact Hns|done].
      * apply goal_quiet; [by eapply fork_resume_quiet|]. eapply s_fork_resume; [exact I0|exact E|exact Hi|exact Hpc|exact Hf|exact HJ|exact Hr|exact H].
      * injection H as <- <-. apply goal_quiet; [done|]. eapply s_code; [..|done]; try done. congruence.
      * apply goal_quiet; [by eapply capture_quiet|]. eapply s_capture; [exact I0|exact E|exact Hi|exact Hpc|exact Hf|exact HJ|exact Hr|exact H].
      * apply goal_quiet; [by eapply finish_quiet|]. destruct (f_kind fr) as [|p j st|p j st] eqn:Hk.
        -- eapply s_finish_root; [exact I0|exact E|exact Hi|exact Hpc|exact Hf|exact HJ|exact Hr|exact Hk|exact H].
        -- eapply s_finish_call; [exact I0|exact E|exact Hi|exact Hpc|exact Hf|exact HJ|exact I'|exact Hr|exact Hk|exact H].
        -- eapply s_finish_fork; [exact I0|exact E|exact Hi|exact Hpc|exact Hf|exact HJ|exact Hr|exact Hk|exact H].
      * apply goal_quiet; [|eapply s_root_destroy; [exact I0|exact E|exact Hi|exact Hpc|exact Hf|exact HJ|exact Hr|exact H]]. unfold root_destroy in H. destruct (destroy _ _ _ _); [|done].
        by eapply to_idle_quiet.
    + destruct (w_deque w) as [|q d] eqn:Hd.
      * injection H as <- <-. apply goal_quiet; [done|]. rewrite app_nil_r, <- Hd.
        eapply s_final_miss; [exact I0|exact E|exact I'|exact HJ|exact Hi|exact Hpc|done].
      * destruct (decide (q = p)) as [->|]; [|done]. injection H as <- <-. apply goal_quiet; [done|]. rewrite <- Hd.
        eapply s_final_hit; [exact I0|exact E|exact I'|exact HJ|exact Hi|exact Hpc|exact Hd|done].
    + apply goal_quiet.
      * unfold final_sub in H. repeat case_match; try done; simplify_eq; try done; first [eapply join_resume_quiet; [exact H|done]|eapply to_idle_quiet; [exact H|done]].
      * eapply s_final_sub; [exact I0|exact E|exact I'|exact HJ|exact Hi|exact Hpc|exact H].
    + unfold to_idle in H. cbn in H. destruct (w_deque w); [|done]. destruct (stk _ _); [|done].
      injection H as <- <-. apply goal_quiet; [done|].
      eapply (s_newstk nw G G' s _ I0 E I' g HJ i w Hi (set_pc PIdle (set_wstk (s_nexts s) w)));
        try done; try (unfold eff, final_of; by rewrite Hpc).
      * intros p fr [(H & _)|(H & _)]; done.
      * unfold put_worker. cbn. f_equal. by rewrite list_insert_insert.
    + destruct (s_frames s !! f) as [fr|] eqn:Hf; [|done]. apply goal_quiet.
      * unfold join_suspend in H. repeat case_match; try done; simplify_eq; try done. by eapply take_resume_quiet.
      * eapply s_join_suspend; [exact I0|exact E|exact I'|exact HJ|exact Hi|exact Hpc|exact Hf|exact H].
    + destruct b; cbn in H.
      * destruct (stk _ _); [|done]. injection H as <- <-. apply goal_quiet; [done|].
        eapply (s_newstk nw G G' s _ I0 E I' g HJ i w Hi (set_pc PSelf (set_wstk (s_nexts s) w)));
          try done; try (unfold eff, final_of; by rewrite Hpc).
        intros p fr [(H & _)|(H & _)]; done.
      * destruct (stk _ _); [|done]. injection H as <- <-. apply goal_quiet; [done|].
        destruct (updw s i w (set_pc PSelf w) g) as (X1 & X2); [by eapply inv_stkl|done|done|done| | |by apply goal_end].
        -- repeat split; cbn; rewrite ?Hpc; try done; unfold eff, final_of; by rewrite Hpc.
        -- intros p fr _ [(H & _)|(H & _)]; done.
    + unfold self_steal in H. destruct (w_deque w) as [|q d] eqn:Hd.
      * unfold to_idle in H. rewrite Hd in H. destruct (stk _ _); [|done]. injection H as <- <-. apply goal_quiet; [done|].
        rewrite app_nil_r, <- Hd. eapply s_self_miss; [exact I0|exact E|exact I'|exact HJ|exact Hi|exact Hpc|done].
      * destruct (s_frames s !! q) as [fr|] eqn:Hf; [|done]. injection H as <- <-. apply goal_quiet; [done|]. rewrite <- Hd.
        eapply s_self_hit; [exact I0|exact E|exact I'|exact HJ|exact Hi|exact Hpc|exact Hd|exact Hf|done].
  - destruct (stale_inv _ _ _ _ H) as (w & f & fr & Hi & Hpc & Hf & [(k & Hr & Hz & -> & ->)|[(m & st & k & pre & Hr & H')|(p & j & st & Hr & Hk & H')]]);
      rewrite Hi, Hpc, Hf; unfold stale_acts; rewrite Hr.
    + refine (goal_quiet _ g (TW i) [Code f; Read (LFrame f); Load (OJoin f) false] [] eq_refl _).
      eapply s_wait; [exact I0|exact E|exact Hi|exact Hpc|exact Hf|exact HJ|exact Hr|done].
    + apply goal_quiet; [by eapply fork_resume_quiet|]. eapply s_fork_resume; [exact I0|exact E|exact Hi|exact Hpc|exact Hf|exact HJ|exact Hr|exact H'].
    + apply goal_quiet; [by eapply finish_quiet|]. eapply s_finish_call; [exact I0|exact E|exact Hi|exact Hpc|exact Hf|exact HJ|exact I'|exact Hr|exact Hk|exact H'].
  - unfold take in H. destruct (s_workers s !! i) as [w|] eqn:Hi; [|done].
    destruct (w_pc w) eqn:Hpc; try done. destruct (w_batch w) eqn:Hb; [|done]. destruct (w_inbox w) as [|f l] eqn:Hin; [done|].
    injection H as <- <-. refine (goal_quiet _ g (TW i) (take_acts i (f :: l)) [] eq_refl _). rewrite <- Hin in I' |- *.
    eapply s_take; [exact I0|exact E|exact I'|exact HJ|exact Hi|exact Hpc|exact Hb|done].
  - unfold steal in H. destruct (s_workers s !! i) as [w|] eqn:Hi; [|done]. destruct (s_workers s !! v) as [wv|] eqn:Hv; [|done].
    destruct (decide (i = v)) as [|Hne]; [done|]. destruct (w_pc w) eqn:Hpc; try done. destruct (w_batch w) eqn:Hb; [|done].
    destruct (last (w_deque wv)) as [f|] eqn:Hl; [|done].
    injection H as <- <-. refine (goal_quiet _ g (TW i) (steal_acts v) [] eq_refl _).
    eapply s_steal; [exact I0|exact E|exact I'|exact HJ|exact Hi|exact Hne|exact Hv|exact Hpc|exact Hl|done].
  - unfold spawn in H. destruct (s_workers s !! d) as [wd|] eqn:Hd; [|done]. injection H as <- <-.
    match goal with |- J _ _ (vrun _ ?x) /\ _ => change x with (tag (TX (s_nextf s)) ((Note (EvSpawn (s_nextf s) t0) :: spawn_acts d s) ++
      (Note <$> filter (fun e => opening e = false) [EvSpawn (s_nextf s) t0]))) end.
    match goal with |- J _ ?s' (vrun _ (tag _ ?al)) /\ _ => change (goal s' g (TX (s_nextf s)) al) end.
    apply goal_notes. by eapply s_spawn.
Qed.

Lemma init_workers n i w : s_workers (init n) !! i = Some w -> w = mkWorker PIdle [] [] [] (N.of_nat i).
Proof.
  cbn. rewrite list_lookup_fmap. intros H. destruct (seq 0 n !! i) as [j|] eqn:Hj; [|done].
  apply lookup_seq in Hj as (-> & _). by injection H as <-.
Qed.

Lemma init_J n : J None (init n) v0 /\ extra (init n).
Proof.
  split.
  - constructor; cbn; try done.
  - constructor; cbn; try done.
Qed.

Theorem execution_inv nw af s tr :
  execution nw af s tr ->
  (exists G, inv nw G s) /\ extra s /\ J None s (vrun v0 tr) /\ all_safe v0 tr.
Proof.
  induction 1 as [|s tr l s' evs He ((G & I0) & E & HJ & Hs) Ha Hst|s tr r He ((G & I0) & E & HJ & Hs) Hr].
  - destruct (init_J nw). split_and!; try done. eexists. apply init_inv.
  - pose proof (step_good _ _ _ _ _ I0 Ha) as X. rewrite Hst in X. destruct X as (G' & I').
    destruct (step_goal _ _ _ _ _ _ _ _ I0 E I' HJ Hst) as (X1 & X2 & X3).
    rewrite vrun_app, all_safe_app. split_and!; eauto.
  - destruct (s_get s E _ r HJ Hr) as (X1 & X2). rewrite vrun_app, all_safe_app. split_and!; eauto.
Qed.

Theorem execution_no_race nw af s tr i j : execution nw af s tr -> ~ race tr i j.
Proof. intros H. apply safe_no_race. by destruct (execution_inv _ _ _ _ H) as (_ & _ & _ & ?). Qed.
