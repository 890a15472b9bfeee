(** * Steps of a running task that create and destroy nothing. *)

From stdpp Require Import prelude gmap list relations.
From Coq Require Import NArith Lia.
From Verif Require Import RuntimeModel RuntimeSpec RuntimeInv RuntimeStep RuntimeStep3 SyncSpec SyncModel SyncViews
  SyncInv SyncTrans SyncAccess SyncStep.
Local Open Scope N_scope.

Ltac oks := repeat (apply Forall_cons; split); try (apply Forall_nil; exact I).

Lemma Forall_map_acts {A} (P : action -> Prop) (h : A -> action) l :
  (forall x, x ∈ l -> P (h x)) -> Forall P (map h l).
Proof. intros H. apply Forall_forall. intros a Ha. apply elem_of_list_fmap in Ha as (x & -> & Hx). auto. Qed.

Lemma J_res s f o g : stkl s -> J None s g -> J None (put_res f o s) g.
Proof.
  intros HS HJ. eapply (J_local s); [done|done|done|done|done|..].
  - intros r Hr0. by left.
  - intros i. cbn. by destruct (s_workers s !! i).
  - intros q q' Hq. exists q'. split_and!; [done|apply fcompat_refl|done|]. by destruct (f_rp q').
  - done.
  - intros i w w' p q q' Hi Hi' Hq Hq' Hl. cbn in Hi', Hq'. by simplify_eq.
Qed.

Lemma extra_res s f o : extra s -> extra (put_res f o s).
Proof. intros [E1 E2 E3]. constructor; [apply E1|apply E2|apply E3]. Qed.

Section run.
  Context (nw : nat) (G : ghost) (s : state) (I0 : inv nw G s) (E : extra s).
  Context (i : nat) (w : worker) (f : N) (fr : frame).
  Context (Hi : s_workers s !! i = Some w) (Hpc : w_pc w = PRun f) (Hf : s_frames s !! f = Some fr).

  Lemma run_held : held s i f.
  Proof. eapply held_run; [done|by rewrite Hpc]. Qed.

  Lemma run_excl : f_steals fr = 0 -> excl s i f.
  Proof.
    intros Hs. destruct (running _ _ _ _ _ _ I0 Hi Hpc) as (fr0 & Hf0 & P1 & P2 & N0 & _). simplify_eq.
    destruct (unstolen_childless _ _ _ _ _ _ _ N0 eq_refl Hs) as (N1 & N2 & N3 & N4).
    split_and!; [apply run_held|done..|]. exists fr. split_and!; [done|done|]. intros k Hr.
    destruct N0 as (N0 & _). by rewrite Hr in N0.
  Qed.

  Lemma run_rp : match f_rp fr with RJoin _ | RCall _ _ _ => False | _ => True end.
  Proof.
    destruct (running _ _ _ _ _ _ I0 Hi Hpc) as (fr0 & Hf0 & P1 & P2 & (N0 & _) & _). simplify_eq.
    by destruct (f_rp fr).
  Qed.

  Lemma ok_code nb : f_rp fr <> RSignalled -> okay nb s (TW i) (Code f).
  Proof.
    intros Hr. eapply okay_frame; [done|done|apply run_held|done|]. intros h [= <-]. eauto.
  Qed.

  Lemma ok_rethrow nb : f_steals fr = 0 -> Forall (okay nb s (TW i)) (rethrow_acts f fr).
  Proof.
    intros Hs. pose proof (run_excl Hs) as Hx.
    assert (Hsh : shared f (LAt (OFlag f))) by (right; right; by left).
    assert (Hse : shared f (LExn f)) by (right; right; right; by left).
    unfold rethrow_acts. oks.
    - eapply okay_own; [done|done|right; right; exact Hsh|done|done].
    - destruct (f_eflag fr); oks.
      + eapply okay_own; [done|done|right; right; exact Hse|done|done].
      + eapply okay_own; [done|done|right; right; exact Hsh|done|done].
  Qed.

  Lemma ok_flag nb acq : okay nb s (TW i) (Load (OFlag f) acq).
  Proof. eapply okay_share_held; [done|apply run_held|done|right; eauto|done]. Qed.

  (* the running task goes on *)
  Lemma upd_run g fr' :
    J None s g -> f_kind fr' = f_kind fr -> f_joins fr' = f_joins fr -> length (f_cells fr') = length (f_cells fr) ->
    match f_rp fr' with RRun _ | RFinal => True | _ => False end -> f_rp fr <> RSignalled ->
    (f_eflag fr' = false -> f_eflag fr = false \/ f_steals fr = 0) ->
    J None (put_frame f fr' s) g /\ extra (put_frame f fr' s).
  Proof.
    intros HJ E1 E2 E3 E4 E5 E6. pose proof run_rp as Hrp.
    eapply upd; [by eapply inv_stkl|done|done|done|..].
    - constructor; [done|lia|..].
      + intros H. destruct (E6 H) as [?|Hs]; [by left|right]. pose proof (run_excl Hs) as Hx. split.
        * intros c frc Hc Hp. pose proof Hx as (_ & N1 & N2 & _).
          assert (exists q, s_frames s !! c = Some q /\ f_kind q = f_kind frc) as (q & Hq & Eq).
          { unfold put_frame in Hc. cbn in Hc. destruct (decide (c = f)) as [->|Hne].
            - rewrite lookup_insert in Hc. simplify_eq. eauto.
            - rewrite lookup_insert_ne in Hc by done. eauto. }
          rewrite <- Eq in Hp. by apply (no_kid s f c q N1 N2 Hq).
        * intros m Hp. eapply kn_wrk; [exact Hi|]. left. split; [rewrite Hpc; by left|].
          by eapply excl_cur.
      + intros e H. by rewrite H in E4.
      + intros _. done.
    - done.
    - by destruct (f_rp fr).
    - intros m st k pre H. by rewrite H in E4.
    - done.
    - done.
  Qed.

  Lemma s_code g t s' : J None s g -> f_rp fr <> RSignalled -> s' = put_frame f (set_rp (RRun t) fr) s ->
    goal s' g (TW i) [Code f].
  Proof.
    intros HJ Hr ->. apply (goal_pre None s _ g (TW i) [Code f] []); [done| |].
    - oks. by apply ok_code.
    - intros g' HJ'. destruct (upd_run g' (set_rp (RRun t) fr)) as (X1 & X2); try done; try (by left).
  Qed.

  Lemma s_fail g t s' : J None s g -> f_rp fr <> RSignalled -> s' = put_frame f (set_rp (RRun t) fr) s ->
    goal s' g (TW i) [Code f; Write (LStk (w_stk w)); Code f].
  Proof.
    intros HJ Hr ->. rewrite <- (app_nil_r [_; _; _]). apply (goal_pre None s); [done| |].
    - oks; [by apply ok_code| |by apply ok_code]. eapply okay_stk; [done|done|by unfold eff; rewrite Hpc|done].
    - intros g' HJ'. destruct (upd_run g' (set_rp (RRun t) fr)) as (X1 & X2); try done; try (by left).
  Qed.

  (* a fork returns *)
  Lemma ok_last_cell nb : (exists m st k, f_rp fr = RFork m st k (f_steals fr)) ->
    Forall (okay nb s (TW i)) (last_cell_acts f fr).
  Proof.
    intros H. unfold last_cell_acts. destruct (length (f_cells fr)) as [|n] eqn:En; oks.
    eapply (okay_last _ _ _ I0 E nb i w f fr n); [done|done|done| |done|done]. right. done.
  Qed.

  Lemma s_fork_resume seen g m st k pre s' evs :
    J None s g -> f_rp fr = RFork m st k pre -> fork_resume seen i w f fr m st k pre s = Next s' evs ->
    goal s' g (TW i) (fork_resume_acts seen f fr m st pre).
  Proof.
    intros HJ Hr Hs.
    assert (Hns : f_rp fr <> RSignalled) by (by rewrite Hr).
    assert (Hupd : forall r g', J None s g' -> J None (put_frame f (set_rp (RRun r) fr) s) g' /\
      extra (put_frame f (set_rp (RRun r) fr) s)).
    { intros r g' HJ'. apply upd_run; try done. by left. }
    assert (Hupd2 : forall r e g', J None s g' -> f_steals fr = 0 ->
      J None (put_frame f (set_rp (RRun r) (set_exc false e fr)) s) g' /\
      extra (put_frame f (set_rp (RRun r) (set_exc false e fr)) s)).
    { intros r e g' HJ' H0. apply upd_run; try done. by right. }
    rewrite <- (app_nil_r (fork_resume_acts _ _ _ _ _ _)). apply (goal_pre None s); [done| |].
    - unfold fork_resume_acts, fork_resume in *. apply Forall_app. split; [|oks; by apply ok_code].
      destruct m; [by oks|..].
      + oks.
        * eapply okay_frame; [done|done|apply run_held|done|done].
        * destruct (decide (f_steals fr = pre)) as [Hp|]; [|oks]. apply Forall_app. split.
          -- destruct st; [|oks]. destruct (decide (f_steals fr = 0)) as [H0|]; [by apply ok_rethrow|oks; apply ok_flag].
          -- apply ok_last_cell. rewrite Hp. eauto.
      + oks.
        * eapply okay_frame; [done|done|apply run_held|done|done].
        * destruct (decide (f_steals fr = pre)) as [Hp|]; [|oks]. apply Forall_app. split.
          -- destruct st; [|oks]. destruct (decide (f_steals fr = 0)) as [H0|]; [by apply ok_rethrow|done].
          -- apply ok_last_cell. rewrite Hp. eauto.
    - intros g' HJ'. unfold fork_resume, unsafe_rethrow in Hs.
      repeat case_match; simplify_eq; apply goal_end; try oks; try (eapply Hupd; eassumption); try (eapply Hupd2; eassumption).
  Qed.

  (* join, nothing stolen *)
  Lemma s_join_ready g k s' evs :
    J None s g -> f_rp fr = RRun (Join k) -> f_steals fr = 0 -> join_resume i w f fr k s [] = Next s' evs ->
    goal s' g (TW i) ([Code f; Read (LFrame f)] ++ join_resume_acts f fr).
  Proof.
    intros HJ Hr H0 Hs. assert (Hns : f_rp fr <> RSignalled) by (by rewrite Hr).
    pose proof (run_excl H0) as Hx.
    rewrite <- (app_nil_r (_ ++ _)). apply (goal_pre None s); [done| |].
    - apply Forall_app. split; [oks; [by apply ok_code|eapply okay_frame; [done|done|apply run_held|done|done]]|].
      unfold join_resume_acts. apply Forall_app. split; [by apply ok_rethrow|]. apply Forall_app. split; [|oks; by apply ok_code].
      apply Forall_map_acts. intros l Hl. unfold cells in Hl. apply elem_of_list_fmap in Hl as (j & -> & _).
      eapply okay_own; [done|done| |done|done].
      right; right. right; right; right; right. eauto.
    - intros g' HJ'. unfold join_resume, unsafe_rethrow in Hs.
      assert (Hupd : forall r fr', f_kind fr' = f_kind fr -> f_joins fr' = f_joins fr -> f_cells fr' = f_cells fr ->
        goal (put_worker i (set_pc (PRun f) w) (put_frame f (set_rp (RRun r) fr') s)) g' (TW i) []).
      { intros r fr' E1 E2 E3. destruct (upd_run g' (set_rp (RRun r) fr')) as (X1 & X2); try done; try (by right); try (cbn; by rewrite E3).
        destruct (updw (put_frame f (set_rp (RRun r) fr') s) i w (set_pc (PRun f) w) g') as (Y1 & Y2); try done.
        - intros x q l Hl. destruct (stk_live nw G s x q l I0 Hl) as (q' & Hq'). unfold live. cbn.
          destruct (decide (q = f)) as [->|Hne]; [rewrite lookup_insert; eauto|rewrite lookup_insert_ne by done; eauto].
        - unfold wsim, final_of, eff. cbn. by rewrite Hpc.
        - intros p q Hq. unfold lastc. cbn. rewrite Hpc. done. }
      repeat case_match; simplify_eq; apply Hupd; done.
  Qed.

  (* the body ends *)
  Lemma upd_par g s1 p frp frp' :
    stkl s1 -> J None s1 g -> extra s1 -> s_frames s1 !! p = Some frp ->
    f_kind frp' = f_kind frp -> f_rp frp' = f_rp frp -> f_steals frp' = f_steals frp -> f_joins frp' = f_joins frp ->
    length (f_cells frp') = length (f_cells frp) -> (f_eflag frp' = false -> f_eflag frp = false) ->
    J None (put_frame p frp' s1) g /\ extra (put_frame p frp' s1).
  Proof.
    intros HS HJ HE Hp E1 E2 E3 E4 E5 E6. eapply upd; [done|done|done|done|..]; try done.
    - constructor; [done|lia|..].
      + intros H. left. auto.
      + intros e H. left. rewrite E2 in H. eauto.
      + by rewrite E2.
    - rewrite E2. by destruct (f_rp frp).
    - by rewrite E2.
  Qed.

  Lemma put_stkl s1 q qr : stkl s1 -> stkl (put_frame q qr s1).
  Proof.
    intros HS x y l Hl. destruct (HS x y l Hl) as (z & Hz). unfold live. cbn.
    destruct (decide (y = q)) as [->|Hne]; [rewrite lookup_insert; eauto|rewrite lookup_insert_ne by done; eauto].
  Qed.

  Lemma kid_lt c frc p : s_frames s !! c = Some frc -> par (f_kind frc) = Some p -> p < c.
  Proof.
    intros Hc Hp. destruct (parent_live _ _ _ I0 _ _ _ Hc Hp) as (frp & Hfp).
    destruct (i_kid _ _ _ I0 c (f_kind frc) (f_stk frc) p frp) as (_ & ?); [by apply shape_lookup|done|done|done].
  Qed.

  Lemma s_deliver g o s' evs :
    J None s g -> (exists t, f_rp fr = RRun t) -> deliver f fr o s = Next s' evs ->
    goal s' g (TW i) (deliver_acts f fr o).
  Proof.
    intros HJ (t & Hr) Hs. assert (Hns : f_rp fr <> RSignalled) by (by rewrite Hr).
    pose proof run_held as Hh.
    rewrite <- (app_nil_r (deliver_acts _ _ _)). apply (goal_pre None s); [done| |].
    - unfold deliver_acts. oks; [by apply ok_code|].
      destruct (f_kind fr) as [|p j st|p j st] eqn:Ek.
      + oks; [|by apply ok_code]. eapply okay_res; done.
      + assert (X : okay None s (TW i) (Write (LCell p j))) by (eapply okay_cell; [done|done|done|done|by rewrite Ek|done]).
        assert (Y : okay None s (TW i) (Rmw (OFlag p) true true)).
        { eapply okay_share_kid; [done|done|done|by rewrite Ek|done|right; eauto|done]. }
        assert (Z : okay None s (TW i) (Read (LHdr f))).
        { eapply okay_share_held; [done|done|done|by left|done]. }
        destruct o, st; oks; try done; by apply ok_code.
      + assert (X : okay None s (TW i) (Write (LCell p j))) by (eapply okay_cell; [done|done|done|done|by rewrite Ek|done]).
        assert (Y : okay None s (TW i) (Rmw (OFlag p) true true)).
        { eapply okay_share_kid; [done|done|done|by rewrite Ek|done|right; eauto|done]. }
        assert (Z : okay None s (TW i) (Read (LHdr f))).
        { eapply okay_share_held; [done|done|done|by left|done]. }
        destruct o, st; oks; try done; by apply ok_code.
    - intros g' HJ'. unfold deliver in Hs.
      destruct (upd_run g' (set_rp RFinal fr)) as (X1 & X2); try done; try (by left).
      assert (HP : forall p frp frp' j st, (f_kind fr = KCall p j st \/ f_kind fr = KFork p j st) ->
        s_frames s !! p = Some frp ->
        f_kind frp' = f_kind frp -> f_rp frp' = f_rp frp -> f_steals frp' = f_steals frp -> f_joins frp' = f_joins frp ->
        length (f_cells frp') = length (f_cells frp) -> (f_eflag frp' = false -> f_eflag frp = false) ->
        goal (put_frame p frp' (put_frame f (set_rp RFinal fr) s)) g' (TW i) []).
      { intros p frp frp' j st Hk Hp. assert (p < f) by (eapply kid_lt; [exact Hf|]; by destruct Hk as [-> | ->]).
        intros. destruct (upd_par g' (put_frame f (set_rp RFinal fr) s) p frp frp') as (Y1 & Y2); try done.
        - apply put_stkl. by eapply inv_stkl.
        - cbn. rewrite lookup_insert_ne by lia. done. }
      assert (HC : forall p frp e j, (f_kind fr = KCall p j false \/ f_kind fr = KFork p j false) ->
        s_frames s !! p = Some frp -> f_eflag frp = false ->
        goal (put_frame p (set_exc true (f_eptr frp) frp) (put_frame f (set_rp (RCapture e) fr) s)) g' (TW i) []).
      { intros p frp e j Hk Hp He. assert (Hpar : par (f_kind fr) = Some p) by (by destruct Hk as [-> | ->]).
        assert (p < f) by (by eapply kid_lt).
        assert (stkl s) by (by eapply inv_stkl).
        destruct (upd s f fr (set_rp (RCapture e) fr) g') as (Z1 & Z2); try done.
        - constructor; [done|done|by left| |done]. intros e' _. right. eauto 10.
        - by rewrite Hr.
        - destruct (upd_par g' (put_frame f (set_rp (RCapture e) fr) s) p frp (set_exc true (f_eptr frp) frp)) as (Y1 & Y2); try done.
          + by apply put_stkl.
          + cbn. rewrite lookup_insert_ne by lia. done. }
      destruct (f_kind fr) as [|p j st|p j st] eqn:Ek.
      + simplify_eq. apply goal_end; [|..|oks].
        * apply J_res; [|done]. apply put_stkl. by eapply inv_stkl.
        * by apply extra_res.
      + destruct (s_frames s !! p) as [frp|] eqn:Hp; [|done].
        destruct o as [v|e]; [|destruct st].
        * simplify_eq. eapply (HP p frp _ j st); try done; [by left|cbn; by rewrite insert_length].
        * simplify_eq. eapply (HP p frp _ j true); try done; [by left|cbn; by rewrite insert_length].
        * destruct (f_eflag frp) eqn:Ef; simplify_eq.
          -- apply goal_end; [done|done|oks].
          -- eapply HC; [by left|done|done].
      + destruct (s_frames s !! p) as [frp|] eqn:Hp; [|done].
        destruct o as [v|e]; [|destruct st].
        * simplify_eq. eapply (HP p frp _ j st); try done; [by right|cbn; by rewrite insert_length].
        * simplify_eq. eapply (HP p frp _ j true); try done; [by right|cbn; by rewrite insert_length].
        * destruct (f_eflag frp) eqn:Ef; simplify_eq.
          -- apply goal_end; [done|done|oks].
          -- eapply HC; [by right|done|done].
  Qed.
End run.

Section run2.
  Context (nw : nat) (G : ghost) (s : state) (I0 : inv nw G s) (E : extra s).
  Context (i : nat) (w : worker) (f : N) (fr : frame).
  Context (Hi : s_workers s !! i = Some w) (Hpc : w_pc w = PRun f) (Hf : s_frames s !! f = Some fr).

  Lemma s_capture g e s' evs :
    J None s g -> f_rp fr = RCapture e -> capture f fr e s = Next s' evs ->
    goal s' g (TW i) (capture_acts f fr).
  Proof.
    intros HJ Hr Hs. assert (Hns : f_rp fr <> RSignalled) by (by rewrite Hr).
    assert (Hh : held s i f) by (eapply run_held; done).
    rewrite <- (app_nil_r (capture_acts _ _)). apply (goal_pre None s); [done| |].
    - assert (Z : okay None s (TW i) (Read (LHdr f))).
      { eapply okay_share_held; [done|done|done|by left|done]. }
      unfold capture_acts. destruct (f_kind fr) as [|p j st|p j st] eqn:Ek; oks; try done;
        (eapply okay_capt; [done|done|done|by rewrite Ek|done|done]).
    - intros g' HJ'. unfold capture in Hs.
      destruct (upd_run nw G s I0 E i w f fr Hi Hpc Hf g' (set_rp RFinal fr)) as (X1 & X2); try done; try (by left).
      assert (HP : forall p, par (f_kind fr) = Some p -> forall frp, s_frames s !! p = Some frp ->
        goal (put_frame p (set_exc (f_eflag frp) (Some e) frp) (put_frame f (set_rp RFinal fr) s)) g' (TW i) []).
      { intros p Hk frp Hp. assert (p < f) by (by eapply kid_lt).
        destruct (upd_par g' (put_frame f (set_rp RFinal fr) s) p frp (set_exc (f_eflag frp) (Some e) frp)) as (Y1 & Y2); try done.
        - apply put_stkl. by eapply inv_stkl.
        - cbn. rewrite lookup_insert_ne by lia. done. }
      destruct (f_kind fr) as [|p j st|p j st] eqn:Ek; [done|..];
        (destruct (s_frames s !! p) as [frp|] eqn:Hp; [|done]; simplify_eq; by apply (HP p)).
  Qed.

  Lemma s_wait g s' k acq :
    J None s g -> f_rp fr = RRun (Join k) -> s' = put_worker i (set_pc (PJSusp f) w) s ->
    goal s' g (TW i) [Code f; Read (LFrame f); Load (OJoin f) acq].
  Proof.
    intros HJ Hr ->. assert (Hns : f_rp fr <> RSignalled) by (by rewrite Hr).
    assert (Hh : held s i f) by (eapply run_held; done).
    rewrite <- (app_nil_r [_; _; _]). apply (goal_pre None s); [done| |].
    - oks.
      + by eapply ok_code.
      + eapply okay_frame; [done|done|done|done|done].
      + eapply okay_share_held; [done|done|done|right; eauto|done].
    - intros g' HJ'. destruct (updw s i w (set_pc (PJSusp f) w) g') as (Y1 & Y2); try done.
      + by eapply inv_stkl.
      + unfold wsim, final_of, eff. cbn. by rewrite Hpc.
      + intros p q Hq [(H & _)|(H & _)]; done.
  Qed.

  Lemma s_stash g G' e k s' :
    J None s g -> f_rp fr = RRun (Stash e k) -> inv nw G' s' ->
    s' = put_frame f (set_rp (RRun k) (self_capture e fr)) s ->
    goal s' g (TW i) (Code f :: stash_acts f fr ++ [Code f]).
  Proof.
    intros HJ Hr I' Es. assert (Hns : f_rp fr <> RSignalled) by (by rewrite Hr).
    assert (Hh : held s i f) by (eapply run_held; done).
    assert (Hcd : okay None s (TW i) (Code f)) by (by eapply ok_code).
    assert (Hfl : okay None s (TW i) (Rmw (OFlag f) true true)).
    { eapply okay_share_held; [done|done|done|right; eauto|done]. }
    assert (Hupd : forall g', J None s g' -> J None s' g' /\ extra s').
    { intros g' HJ'. subst s'. eapply upd_run; try done; unfold self_capture; destruct (f_eflag fr) eqn:Ef; try done;
        cbn; rewrite ?Ef; done. }
    unfold stash_acts. destruct (f_eflag fr) eqn:Ef.
    - rewrite <- (app_nil_r (_ :: _)). apply (goal_pre None s); [done|cbn; by oks|].
      intros g' HJ'. destruct (Hupd _ HJ') as (X1 & X2). apply goal_end; [done|done|oks].
    - change (goal s' g (TW i) ([Code f; Rmw (OFlag f) true true] ++ [Write (LExn f); Code f])).
      apply (goal_pre None s); [done|by oks|]. intros g' HJ'. destruct (Hupd _ HJ') as (X1 & X2).
      assert (Hf' : s_frames s' !! f = Some (set_rp (RRun k) (set_exc true (Some e) fr))).
      { subst s'. unfold self_capture. rewrite Ef. apply lookup_insert. }
      assert (Hi' : s_workers s' !! i = Some w) by (by subst s').
      assert (Hh' : held s' i f) by (eapply run_held; done).
      assert (S1 : safe g' (TW i, Write (LExn f))).
      { intros l w0 a m w' a' A B _ _. cbn in A. injection A as <- _ _.
        eapply held_cur; [exact I0|exact Hh|].
        refine (j_req _ _ _ HJ' _ _ _ (KF f) _ (rq_exn _ _ _ _ _ Hf Ef) B). }
      assert (Hz : ncapt f (s_frames s') = 0).
      { pose proof (i_node _ _ _ I' _ _ Hf') as (_ & _ & N3 & _). cbn [f_eptr f_eflag set_rp set_exc b2n] in N3. lia. }
      assert (P1 : perm None s' g' (TW i) (Write (LExn f))).
      { constructor; try done.
        - intros l w0 a k0 A R. cbn in A. injection A as <- <- <-.
          inversion R as [| |f' fr' ? ? ? Hf0 Hsh|? ? ? ? ? ? Hct|? ? ? ? ? ? ? ? Hct|? ? ? ? ? ? ? ? Hct|
            | |f' fr' ? ? Hf0 He|c frc p frp ? ? Hc Hp Hfp He|c frc p e0 ? ? Hc Hp He| | | | | | |]; subst.
          + destruct Hsh as [H|[H|[H|[H|(j & H)]]]]; try done. injection H as ->. by apply grant_heldp.
          + destruct Hct as [(? & _)|([?|?] & _)]; done.
          + destruct Hct as [(? & _)|([?|?] & _)]; done.
          + destruct Hct as [(? & _)|([?|?] & _)]; done.
          + rewrite Hf' in Hf0. injection Hf0 as <-. done.
          + rewrite Hf' in Hfp. injection Hfp as <-. done.
          + exfalso.
            pose proof (cntm_zero (is_capt f) _ _ _ Hc Hz) as X. unfold is_capt in X. rewrite He in X.
            by case_bool_decide.
        - intros l w0 a f0 A Hl Hn. cbn in A. injection A as <- _ _. injection Hl as <-.
          pose proof (live_lt nw G' s' I' f _ Hf'). lia.
        - intros l w0 a A (i0 & Hfree). cbn in A. injection A as <- _ _. by destruct Hfree as [?|[?|?]]. }
      destruct (J_step _ _ _ _ _ X1 P1) as [].
      pose proof (J_step _ _ _ _ _ X1 P1) as X3.
      destruct (goal_end s' (vstep g' (TW i, Write (LExn f))) (TW i) [Code f] X3 X2) as (Y1 & Y2 & Y3).
      { oks. eapply ok_code; [exact I'|done|exact Hi'|done|exact Hf'|done]. }
      split_and!; [exact Y1|split; [exact S1|exact Y2]|done].
  Qed.
End run2.
