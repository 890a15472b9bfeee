(** * The order of user code: the theorems, by induction on executions. *)

From stdpp Require Import prelude gmap list relations.
From Coq Require Import NArith Lia.
From Verif Require Import RuntimeModel RuntimeSpec RuntimeInv RuntimeStep RuntimeStep3 RuntimeSafe SyncSpec SyncModel
  SyncViews SyncInv SyncTrans SyncAccess SyncStep SyncStep2 SyncMove SyncJoin SyncMove2 SyncMove3 SyncEnd SyncNew SyncMain
  SyncOrder SyncOrder2.
Local Open Scope N_scope.

(** ** One step *)

Section step.
  Context (nw : nat) (af : bool) (s s' : state) (tr : trace) (l : label) (evs : list event).
  Context (He : execution nw af s tr) (Ha : allowed nw af l) (Hst : step l s = Next s' evs).
  Local Notation st := (step_trace l s evs).
  Local Notation tr' := (tr ++ step_trace l s evs).

  Lemma ex0 : ex nw s tr.
  Proof. by eapply execution_ex. Qed.
  Lemma ex1 : ex nw s' tr'.
  Proof. eapply execution_ex. by eapply ex_step. Qed.

  Lemma old_gpa c p b : gpa (vrun v0 tr') c p b -> c < s_nextf s -> gpa (vrun v0 tr) c p b.
  Proof. intros Hg Hlt. destruct (gpa_step _ _ _ _ _ _ _ _ Hst Hg) as [?|(-> & _)]; [done|lia]. Qed.

  Lemma gpa_lt c p b : gpa (vrun v0 tr) c p b -> c < s_nextf s /\ p < s_nextf s.
  Proof. intros Hg. by destruct (j_gpa _ _ _ (x_J _ _ _ ex0) _ _ _ Hg) as (? & [?|?] & _). Qed.

  Lemma old_tree d c : tree (vrun v0 tr') d c -> d < s_nextf s -> tree (vrun v0 tr) d c.
  Proof.
    induction 1 as [d|d q c (b & H) _ IH]; intros Hlt; [apply rtc_refl|].
    apply old_gpa in H; [|done]. destruct (gpa_lt _ _ _ H). eapply rtc_l; [by exists b|by apply IH].
  Qed.

  Lemma new_tree d c : tree (vrun v0 tr) d c -> tree (vrun v0 tr') d c.
  Proof.
    induction 1 as [d|d q c (b & H) _ IH]; [apply rtc_refl|]. eapply rtc_l; [|exact IH]. exists b.
    rewrite vrun_app. by apply gpa_mono.
  Qed.

  Lemma live_back q : live s' q -> q < s_nextf s -> live s q.
  Proof. intros (fr & H) Hlt. destruct (step_sub _ _ _ _ Hst) as (_ & X & _). destruct (X _ _ H) as [?| ->]; [done|lia]. Qed.

  Lemma live_id q : live s q -> q < s_nextf s.
  Proof. intros (fr & H). destruct (x_inv _ _ _ ex0) as (G & I0). by eapply live_lt. Qed.

  Lemma cod_id q m t : tr !! m = Some (t, Code q) -> q < s_nextf s.
  Proof. intros H. eapply (j_cod _ _ _ (x_J _ _ _ ex0)). apply cod_at. eauto. Qed.

  Lemma split_at k x : st !! k = Some x -> exists l2, tr' = (tr ++ firstn k st) ++ x :: l2 /\ length (tr ++ firstn k st) = (length tr + k)%nat.
  Proof.
    intros H. exists (drop (S k) st). split.
    - rewrite <- app_assoc. f_equal. by rewrite <- (take_drop_middle _ _ _ H) at 1.
    - rewrite app_length, take_length_le; [done|]. apply lookup_lt_Some in H. lia.
  Qed.

  Lemma at_hb k t a m : st !! k = Some (t, a) -> cur (vrun v0 (tr ++ firstn k st)) t m -> hb tr' m (length tr + k).
  Proof.
    intros H Hc. destruct (split_at _ _ H) as (l2 & E & <-). rewrite E. by apply (cur_hb _ (t, a)).
  Qed.

  Lemma before k t m : cur (vrun v0 tr) t m -> cur (vrun v0 (tr ++ firstn k st)) t m.
  Proof. intros H. rewrite vrun_app. by apply cur_mono. Qed.

  Lemma after k t m : (forall j x, (k <= j)%nat -> st !! j = Some x -> mute x) -> (m < length tr)%nat ->
    cur (vrun v0 tr') t m -> cur (vrun v0 (tr ++ firstn k st)) t m.
  Proof.
    intros Hm Hlt H. rewrite <- (take_drop k st), app_assoc, vrun_app in H. eapply cur_mute; [| |exact H].
    - apply Forall_lookup. intros j x Hj. rewrite lookup_drop in Hj. apply (Hm (k + j)%nat x); [lia|done].
    - rewrite vrun_now, app_length. cbn. lia.
  Qed.

  (** What the thread that runs user code of [q] knows. *)
  Lemma code_at k t q : st !! k = Some (t, Code q) ->
    exists i, t = TW i /\ (exists fr, s_frames s !! q = Some fr /\ f_rp fr <> RSignalled) /\
      ((held s i q /\ forall m, know s (vrun v0 tr) q m -> hb tr' m (length tr + k)) \/
       (held s' i q /\ (forall m, know s' (vrun v0 tr') q m -> (m < length tr)%nat -> hb tr' m (length tr + k)) /\
        forall k' t' q', st !! k' = Some (t', Code q') -> q' = q)).
  Proof.
    intros Hk. destruct (x_inv _ _ _ ex0) as (G & I0). destruct (x_inv _ _ _ ex1) as (G' & I').
    pose proof (st_actor _ _ _ _ _ _ Hk) as ->. pose proof (st_code _ _ _ _ _ _ Hk) as Hq.
    destruct (code_step _ _ _ _ _ _ _ I0 I' Hst) as [H|(i & q0 & pre & fr & Hac & Hacts & Hpre & Hh & Hf & Hr)].
    - destruct (H _ Hq) as (i & fr & Hac & Hh & Hf & Hr). exists i. split; [done|]. split; [eauto|]. left. split; [done|].
      intros m Hm. eapply at_hb; [exact Hk|]. apply before. rewrite Hac. eapply held_cur; [exact I0|exact Hh|exact Hm].
    - assert (Huniq : forall q', Code q' ∈ acts l s -> q' = q0).
      { intros q' Hq'. apply codes_in in Hq'. rewrite Hacts, codes_app, Hpre in Hq'. cbn in Hq'. by apply elem_of_list_singleton in Hq'. }
      apply Huniq in Hq as ->. exists i. split; [done|]. split; [eauto|]. right. split; [done|].
      assert (Hqt : quiet evs).
      { destruct (open_step _ _ _ _ Hst) as [?|O]; [done|]. exfalso. destruct O as (e & a1 & a2 & a3 & rest & _ & E1 & E2).
        destruct E2 as [(x & _ & E2 & _)|(p & j & sx & x & _ & _ & _ & -> & _)]; [congruence|].
        rewrite Hacts in E1. destruct pre as [|b pre]; [done|]. cbn in E1. injection E1 as -> _. cbn in Hpre. done. }
      destruct (st_last l s evs pre q0 Hqt Hacts) as (Hl1 & Hl2).
      assert (Hkp : k = length pre).
      { destruct (decide (length pre < k)%nat) as [D|D]; [destruct (Hl2 _ _ D Hk); simplify_eq|].
        destruct (decide (k = length pre)); [done|exfalso].
        unfold step_trace in Hk. rewrite Hqt, Hacts in Hk. cbn [fmap list_fmap app] in Hk. rewrite <- app_assoc, fmap_app in Hk.
        rewrite lookup_app_l in Hk by (rewrite fmap_length; lia). rewrite list_lookup_fmap in Hk.
        destruct (pre !! k) as [a|] eqn:Hpk; [|done]. simplify_eq/=. apply elem_of_list_lookup_2, codes_in in Hpk.
        rewrite Hpre in Hpk. by apply elem_of_nil in Hpk. }
      split.
      + intros m Hm Hlt. eapply at_hb; [exact Hk|]. rewrite Hac. apply after; [|done|eapply held_cur; [exact I'|exact Hh|exact Hm]].
        intros j x Hj Hx. destruct (decide (j = k)) as [->|Hne]; [rewrite Hk in Hx; by simplify_eq|].
        destruct (Hl2 j x) as (e & ->); [lia|done|done].
      + intros k' t' q' Hk'. apply Huniq. by eapply st_code.
  Qed.
End step.

(** ** Calls *)

Definition call_ok (s : state) (tr : trace) : Prop :=
  forall n t p c sx x, tr !! n = Some (t, Note (EvCall p c sx x)) ->
    (live s c -> forall j u, tr !! j = Some (u, Code p) -> (j <= S n)%nat) /\
    (forall d m u j v, d = c \/ below tr d c -> tr !! m = Some (u, Code d) ->
       tr !! j = Some (v, Code p) -> (S n < j)%nat -> hb tr m j).

Lemma below_r tr d c : d = c \/ below tr d c -> tree (vrun v0 tr) d c.
Proof. intros [-> |H]; [apply rtc_refl|by apply below_tree]. Qed.

Lemma get_note tr r n t e : (tr ++ get_trace r) !! n = Some (t, Note e) -> tr !! n = Some (t, Note e).
Proof.
  intros H. apply lookup_app_Some in H as [?|(_ & H)]; [done|]. unfold get_trace in H.
  destruct (n - length tr)%nat as [|[|[|k]]]; done.
Qed.
Lemma get_code tr r n t q : (tr ++ get_trace r) !! n = Some (t, Code q) -> tr !! n = Some (t, Code q).
Proof.
  intros H. apply lookup_app_Some in H as [?|(_ & H)]; [done|]. unfold get_trace in H.
  destruct (n - length tr)%nat as [|[|[|k]]]; done.
Qed.
Lemma get_below tr r d c : below (tr ++ get_trace r) d c -> below tr d c.
Proof.
  assert (HP : forall c p, parent (tr ++ get_trace r) c p -> parent tr c p).
  { intros c0 p (n & t & a & Hn & Hc). exists n, t, a. split; [|done].
    destruct Hc as [(sx & x & ->)|(sx & x & ->)]; by apply get_note in Hn. }
  induction 1 as [d c H|d q c H _ IH]; [by apply tc_once, HP|eapply tc_l; [by apply HP|done]].
Qed.

Lemma execution_call nw af s tr : execution nw af s tr -> call_ok s tr.
Proof.
  induction 1 as [|s tr l s' evs He IH Ha Hst|s tr r He IH Hr].
  - intros n t p c sx x H. by rewrite lookup_nil in H.
  - pose proof (ex0 nw af s tr He) as X0. pose proof (ex1 nw af s s' tr l evs He Ha Hst) as X1.
    destruct (x_inv _ _ _ X0) as (G & I0). destruct (x_inv _ _ _ X1) as (G' & I').
    intros n t p c sx x Hn.
    assert (Hg1 : gpa (vrun v0 (tr ++ step_trace l s evs)) c p true).
    { apply gpa_at. eauto. }
    apply lookup_app_Some in Hn as [Hn|(Hge & Hn)].
    + assert (Hg : gpa (vrun v0 tr) c p true).
      { apply gpa_at. eauto. }
      destruct (gpa_lt nw af s tr He _ _ _ Hg) as (Hc & Hp).
      destruct (IH _ _ _ _ _ _ Hn) as (IH1 & IH2). split.
      * intros Hl j u Hj. apply lookup_app_Some in Hj as [Hj|(_ & Hj)].
        -- eapply IH1; [by eapply live_back|exact Hj].
        -- exfalso. destruct (code_at nw af s s' tr l evs He Ha Hst _ _ _ Hj) as (i & _ & _ & [(Hh & _)|(Hh & _)]).
           ++ eapply (call_dead nw G s tr I0 X0); [exact Hh|exact Hg|by eapply live_back].
           ++ eapply (call_dead nw G' s' _ I' X1); [exact Hh|exact Hg1|exact Hl].
      * intros d m u j v Hd Hm Hj Hlt. apply below_r in Hd.
        apply lookup_app_Some in Hm as [Hm|(Hgm & Hm)]; apply lookup_app_Some in Hj as [Hj|(Hgj & Hj)].
        -- apply hb_pre. eapply IH2; [|exact Hm|exact Hj|done]. apply tree_below. eapply old_tree; [exact He|exact Hst|exact Hd|].
           eapply cod_id; [exact He|exact Hm].
        -- assert (Hd0 : tree (vrun v0 tr) d c).
           { eapply old_tree; [exact He|exact Hst|exact Hd|]. eapply cod_id; [exact He|exact Hm]. }
           assert (Hco : cod (vrun v0 tr) d m) by (apply cod_at; eauto).
           destruct (code_at nw af s s' tr l evs He Ha Hst _ _ _ Hj) as (i & _ & (frp & Hfp & _) & [(Hh & Hk)|(Hh & Hk & _)]).
           ++ replace j with (length tr + (j - length tr))%nat by lia. apply Hk.
              assert (Hne : near s (vrun v0 tr) d p true).
              { eapply (tree_near_top nw G s tr I0 X0); [exact Hd0|exact Hg| |by exists frp].
                eapply (call_dead nw G s tr I0 X0); [exact Hh|exact Hg]. }
              apply (j_near _ _ _ (x_J _ _ _ X0) _ _ _ _ Hne Hco).
           ++ replace j with (length tr + (j - length tr))%nat by lia. apply Hk; [|by eapply lookup_lt_Some].
              assert (Hne : near s' (vrun v0 (tr ++ step_trace l s evs)) d p true).
              { eapply (tree_near_top nw G' s' _ I' X1); [exact Hd|exact Hg1| |].
                - eapply (call_dead nw G' s' _ I' X1); [exact Hh|exact Hg1].
                - destruct (held_live _ _ _ I' _ _ Hh) as (fr & ?). by exists fr. }
              apply (j_near _ _ _ (x_J _ _ _ X1) _ _ _ _ Hne). apply cod_at. exists u. by apply lookup_app_l_Some.
        -- exfalso. destruct (code_at nw af s s' tr l evs He Ha Hst _ _ _ Hm) as (i & _ & (frd & Hfd & _) & _).
           assert (Hld : live s d) by (by exists frd).
           assert (Hd0 : tree (vrun v0 tr) d c).
           { eapply old_tree; [exact He|exact Hst|exact Hd|]. by eapply live_id. }
           assert (Hlc : live s c) by (eapply (tree_live nw G s tr I0 X0); [exact Hd0|exact Hld]).
           pose proof (IH1 Hlc _ _ Hj). lia.
        -- exfalso. destruct (code_at nw af s s' tr l evs He Ha Hst _ _ _ Hm) as (i & _ & (frd & Hfd & _) & _).
           assert (Hld : live s d) by (by exists frd).
           assert (Hd0 : tree (vrun v0 tr) d c).
           { eapply old_tree; [exact He|exact Hst|exact Hd|]. by eapply live_id. }
           assert (Hlc : live s c) by (eapply (tree_live nw G s tr I0 X0); [exact Hd0|exact Hld]).
           destruct (code_at nw af s s' tr l evs He Ha Hst _ _ _ Hj) as (i' & _ & _ & [(Hh & _)|(_ & _ & Hu)]).
           ++ by eapply (call_dead nw G s tr I0 X0); [exact Hh|exact Hg|].
           ++ apply Hu in Hm as ->. pose proof (tree_le nw s tr X0 _ _ Hd0). pose proof (x_ord _ _ _ X0 _ _ _ Hg). lia.
    + destruct (st_birth _ _ _ _ Hst _ _ _ p c Hn) as (Hk & -> & Hlp & H1 & Hcd & _); [right; eauto|].
      assert (Hj0 : forall j u, (tr ++ step_trace l s evs) !! j = Some (u, Code p) -> (j <= S n)%nat).
      { intros j u Hj. apply lookup_app_Some in Hj as [Hj|(Hgj & Hj)]; [apply lookup_lt_Some in Hj; lia|].
        apply Hcd in Hj. lia. }
      split; [intros _; exact Hj0|]. intros d m u j v _ _ Hj Hlt. apply Hj0 in Hj. lia.
  - intros n t p c sx x Hn. apply get_note in Hn. destruct (IH _ _ _ _ _ _ Hn) as (IH1 & IH2). split.
    + intros Hl j u Hj. apply get_code in Hj. by eapply IH1.
    + intros d m u j v Hd Hm Hj Hlt. apply get_code in Hm. apply get_code in Hj. apply hb_pre. eapply IH2; [|exact Hm|exact Hj|done].
      destruct Hd as [->|Hd]; [by left|right]. by eapply get_below.
Qed.

(** ** Joins *)

Definition join_ok (s : state) (tr : trace) : Prop :=
  forall n t p cs e, tr !! n = Some (t, Note (EvJoin p cs e)) ->
    (forall d, below (firstn n tr) d p -> d < s_nextf s /\ ~ live s d) /\
    exists k, (k < n)%nat /\ tr !! k = Some (t, Code p) /\
      (forall j x, (k < j < n)%nat -> tr !! j = Some x -> exists e', x = (t, Note e')) /\
      forall d m u, below (firstn n tr) d p -> tr !! m = Some (u, Code d) -> hb tr m k.

Lemma below_take n tr d p : below (firstn n tr) d p -> below tr d p.
Proof.
  assert (HP : forall c p, parent (firstn n tr) c p -> parent tr c p).
  { intros c0 p0 (k & t & a & Hn & Hc). exists k, t, a. split; [|done]. apply lookup_take_Some in Hn as (? & _). done. }
  induction 1 as [d c H|d q c H _ IH]; [by apply tc_once, HP|eapply tc_l; [by apply HP|done]].
Qed.

Lemma below_ne nw s tr d p : ex nw s tr -> below tr d p -> p < d.
Proof.
  intros X. induction 1 as [d p H|d q p H _ IH]; apply parent_gpar in H as (b & H); apply (x_ord _ _ _ X) in H; [done|lia].
Qed.

Lemma execution_join nw af s tr : execution nw af s tr -> join_ok s tr.
Proof.
  induction 1 as [|s tr l s' evs He IH Ha Hst|s tr r He IH Hr].
  - intros n t p cs e H. by rewrite lookup_nil in H.
  - pose proof (ex0 nw af s tr He) as X0. pose proof (ex1 nw af s s' tr l evs He Ha Hst) as X1.
    destruct (x_inv _ _ _ X0) as (G & I0). destruct (x_inv _ _ _ X1) as (G' & I').
    destruct (step_sub _ _ _ _ Hst) as (Hnx & _). intros n t p cs e Hn.
    apply lookup_app_Some in Hn as [Hn|(Hge & Hn)].
    + pose proof (lookup_lt_Some _ _ _ Hn) as Hnl. rewrite take_app_le by lia.
      destruct (IH _ _ _ _ _ Hn) as (IH1 & k & Hk & Hkc & Hbt & IH2). split.
      * intros d Hd. destruct (IH1 _ Hd) as (D1 & D2). split; [lia|]. intros Hl. apply D2. by eapply live_back.
      * exists k. split_and!; [done|by apply lookup_app_l_Some| |].
        -- intros j x Hj Hx. rewrite lookup_app_l in Hx by lia. by eapply Hbt.
        -- intros d m u Hd Hm. apply lookup_app_Some in Hm as [Hm|(Hgm & Hm)]; [apply hb_pre; by eapply IH2|].
           exfalso. destruct (code_at nw af s s' tr l evs He Ha Hst _ _ _ Hm) as (i & _ & (frd & Hfd & _) & _).
           apply (IH1 _ Hd). by exists frd.
    + pose proof (st_note _ _ _ _ _ _ Hn) as Hev. pose proof (st_actor _ _ _ _ _ _ Hn) as Ht.
      destruct (join_step _ _ _ _ _ _ _ Hst Hev) as (i & w' & fr' & pre & Hac & Hw' & Hpc' & Hf' & Hz & Hacts).
      assert (Hqt : quiet evs).
      { destruct (open_step _ _ _ _ Hst) as [?|O]; [done|]. exfalso. destruct O as (e0 & a1 & a2 & a3 & rest & _ & E1 & E2).
        destruct E2 as [(x & _ & E2 & _)|(q & j & sx & x & _ & _ & _ & -> & E2)]; [congruence|].
        rewrite Hacts in E1, E2. destruct pre as [|b pre]; [done|]. cbn in E1. injection E1 as -> _.
        rewrite codes_app in E2. apply (f_equal length) in E2. rewrite app_length in E2. cbn in E2. lia. }
      destruct (st_last l s evs pre p Hqt Hacts) as (Hl1 & Hl2).
      assert (Hlt : (length pre < n - length tr)%nat).
      { destruct (decide (length pre < n - length tr)%nat) as [?|D]; [done|exfalso].
        unfold step_trace in Hn. rewrite Hqt, Hacts in Hn. cbn [fmap list_fmap app] in Hn.
        rewrite fmap_app in Hn. rewrite lookup_app_l in Hn by (rewrite fmap_length, app_length; cbn; lia).
        rewrite list_lookup_fmap, <- Hacts in Hn. destruct (acts l s !! _) as [a|] eqn:E; [|done]. simplify_eq/=.
        pose proof (plain_acts l s) as P. rewrite Forall_forall in P. apply elem_of_list_lookup_2 in E. by apply P in E. }
      assert (Hexc : excl s' i p) by (eapply excl_run; [exact I'|exact Hw'|exact Hpc'|exact Hf'|exact Hz]).
      assert (Hnear : forall d, below (firstn n (tr ++ step_trace l s evs)) d p ->
        d < s_nextf s' /\ s_frames s' !! d = None /\ exists b, near s' (vrun v0 (tr ++ step_trace l s evs)) d p b).
      { intros d Hd. apply below_take in Hd. pose proof (below_ne _ _ _ _ _ X1 Hd) as Hne. split.
        - apply tc_nsteps in Hd as (k & Hk & Hd). inversion Hd as [|? ? q ? Hp _]; subst; [lia|].
          apply parent_gpar in Hp as (b & Hp). by destruct (j_gpa _ _ _ (x_J _ _ _ X1) _ _ _ Hp) as (_ & [?|?] & _).
        - destruct Hexc as (_ & Z1 & Z2 & _).
          destruct (tree_near nw G' s' I' _ d p fr' (x_J _ _ _ X1) Hf' Z1 Z2) as [->|?]; [by apply below_tree|lia|done]. }
      split.
      * intros d Hd. destruct (Hnear _ Hd) as (D1 & D2 & _). split; [done|]. intros (fr & ?). congruence.
      * exists (length tr + length pre)%nat. split_and!; [lia| | |].
        -- rewrite lookup_app_r by lia. replace (_ + _ - _)%nat with (length pre) by lia. by rewrite Ht.
        -- intros j x Hj Hx. rewrite lookup_app_r in Hx by lia. rewrite Ht. eapply Hl2; [|exact Hx]. lia.
        -- intros d m u Hd Hm. destruct (Hnear _ Hd) as (_ & _ & b & Hb).
           apply below_take in Hd. pose proof (below_ne _ _ _ _ _ X1 Hd) as Hne.
           apply lookup_app_Some in Hm as [Hm|(Hgm & Hm)].
           ++ eapply at_hb; [exact Hl1|]. rewrite Hac. apply after.
              ** intros j x Hj Hx. destruct (decide (j = length pre)) as [->|Hnj]; [rewrite Hl1 in Hx; by simplify_eq|].
                 destruct (Hl2 j x) as (e' & ->); [lia|done|done].
              ** by eapply lookup_lt_Some.
              ** eapply excl_cur; [exact I'|exact Hexc|].
                 assert (Hco : cod (vrun v0 (tr ++ step_trace l s evs)) d m).
                 { apply cod_at. exists u. by apply lookup_app_l_Some. }
                 pose proof (j_near _ _ _ (x_J _ _ _ X1) _ _ _ _ Hb Hco) as Hkn. destruct b; [by left|done].
           ++ assert (Hml : (m - length tr < length pre)%nat).
              { destruct (decide (m - length tr = length pre)%nat) as [E|E]; [rewrite E, Hl1 in Hm; simplify_eq; lia|].
                destruct (decide (length pre < m - length tr)%nat) as [D|D]; [|lia].
                destruct (Hl2 _ _ D Hm) as (e' & ?). simplify_eq. }
              apply tc_once. left. split; [lia|]. exists (actor l s), (Code d), (Code p). split.
              ** rewrite lookup_app_r by lia. by rewrite (st_actor _ _ _ _ _ _ Hm) in Hm.
              ** rewrite lookup_app_r by lia. by replace (_ + _ - _)%nat with (length pre) by lia.
  - intros n t p cs e Hn. apply get_note in Hn. pose proof (lookup_lt_Some _ _ _ Hn) as Hnl. rewrite take_app_le by lia.
    destruct (IH _ _ _ _ _ Hn) as (IH1 & k & Hk & Hkc & Hbt & IH2). split; [done|].
    exists k. split_and!; [done|by apply lookup_app_l_Some| |].
    + intros j x Hj Hx. rewrite lookup_app_l in Hx by lia. by eapply Hbt.
    + intros d m u Hd Hm. apply get_code in Hm. apply hb_pre. by eapply IH2.
Qed.

(** ** The result *)

Definition res_ok (s : state) (tr : trace) : Prop :=
  forall n r, tr !! n = Some (TX r, Read (LRes r)) ->
    0 < sem s r /\ forall d m u, d = r \/ below tr d r -> tr !! m = Some (u, Code d) -> hb tr m n.

Lemma execution_res nw af s tr : execution nw af s tr -> res_ok s tr.
Proof.
  induction 1 as [|s tr l s' evs He IH Ha Hst|s tr r0 He IH Hr].
  - intros n r H. by rewrite lookup_nil in H.
  - pose proof (ex0 nw af s tr He) as X0. destruct (x_inv _ _ _ X0) as (G & I0).
    destruct (step_sub _ _ _ _ Hst) as (_ & _ & Hsem). intros n r Hn.
    apply lookup_app_Some in Hn as [Hn|(Hge & Hn)].
    + destruct (IH _ _ Hn) as (IH1 & IH2). split; [specialize (Hsem r); lia|].
      intros d m u Hd Hm. apply below_r in Hd. apply lookup_app_Some in Hm as [Hm|(Hgm & Hm)].
      * apply hb_pre. eapply IH2; [|exact Hm]. apply tree_below. eapply old_tree; [exact He|exact Hst|exact Hd|].
        eapply cod_id; [exact He|exact Hm].
      * exfalso. destruct (code_at nw af s s' tr l evs He Ha Hst _ _ _ Hm) as (i & _ & (frd & Hfd & Hrd) & _).
        assert (Hld : live s d) by (by exists frd).
        assert (Hd0 : tree (vrun v0 tr) d r).
        { eapply old_tree; [exact He|exact Hst|exact Hd|]. by eapply live_id. }
        assert (Hlr : live s r) by (eapply (tree_live nw G s tr I0 X0); [exact Hd0|exact Hld]).
        destruct Hlr as (frr & Hfr). destruct (e_sem _ (x_ext _ _ _ X0) _ IH1) as (_ & Hsg). pose proof (Hsg _ Hfr) as Hrr.
        pose proof (i_node _ _ _ I0 _ _ Hfr) as (_ & N2 & _ & _ & N5). rewrite Hrr in N2, N5.
        destruct (tree_near nw G s I0 _ d r frr (x_J _ _ _ X0) Hfr) as [->|(? & _)]; [lia|lia|done| |congruence]. congruence.
    + exfalso. pose proof (st_actor _ _ _ _ _ _ Hn) as Hac. unfold step_trace in Hn. rewrite list_lookup_fmap in Hn.
      destruct (_ !! (n - length tr)%nat) as [a|] eqn:Hk; [|done]. simplify_eq/=. apply elem_of_list_lookup_2 in Hk.
      rewrite !elem_of_app in Hk. destruct l as [i fail|i|i|i v|d t0]; try done. cbn [acts] in Hk. destruct Hk as [Hk|[Hk|Hk]].
      * by apply elem_of_list_fmap in Hk as (? & ? & _).
      * unfold spawn_acts, create_acts, submit_acts in Hk. cbn [app] in Hk. rewrite !elem_of_cons, elem_of_nil in Hk.
        repeat (destruct Hk as [Hk|Hk]; [done|]). done.
      * by apply elem_of_list_fmap in Hk as (? & ? & _).
  - pose proof (execution_ex _ _ _ _ He) as X0. intros n r Hn.
    apply lookup_app_Some in Hn as [Hn|(Hge & Hn)].
    + destruct (IH _ _ Hn) as (IH1 & IH2). split; [done|].
      intros d m u Hd Hm. apply get_code in Hm. apply hb_pre. eapply IH2; [|exact Hm].
      destruct Hd as [->|Hd]; [by left|right]. by eapply get_below.
    + unfold get_trace in Hn. destruct (n - length tr)%nat as [|[|[|k]]] eqn:En; try done. cbn in Hn. injection Hn as <-.
      split; [done|]. intros d m u Hd Hm. apply get_code in Hm.
      assert (Hms : msg (vrun v0 tr) (OSem r0) m).
      { eapply (j_done _ _ _ (x_J _ _ _ X0)); [exact Hr| |apply cod_at; eauto]. apply below_r.
        destruct Hd as [->|Hd]; [by left|right]. by eapply get_below. }
      replace n with (length (tr ++ [(TX r0, Rmw (OSem r0) true false)])) by (rewrite app_length; cbn; lia).
      replace (tr ++ get_trace r0) with ((tr ++ [(TX r0, Rmw (OSem r0) true false)]) ++ (TX r0, Read (LRes r0)) :: [(TX r0, Write (LRes r0))])
        by (by rewrite <- app_assoc).
      apply (cur_hb _ (TX r0, Read (LRes r0))). rewrite vrun_app. cbn. right. split; [done|]. right. cbn. done.
Qed.

(** ** Beginnings *)

Lemma execution_start nw af s tr n t a c :
  execution nw af s tr -> tr !! n = Some (t, a) ->
  (exists x, a = Note (EvSpawn c x)) \/ (exists p, creates p c a) ->
  tr !! (n + 4)%nat = Some (t, Write (LFrame c)) /\
  (forall j u, tr !! j = Some (u, Code c) -> (n + 4 < j)%nat) /\
  (forall x, a = Note (EvSpawn c x) -> t = TX c) /\
  (forall p, creates p c a -> tr !! S n = Some (t, Code p)).
Proof.
  induction 1 as [|s tr l s' evs He IH Ha Hst|s tr r0 He IH Hr]; intros Hn Hc.
  - by rewrite lookup_nil in Hn.
  - pose proof (ex0 nw af s tr He) as X0. pose proof (ex1 nw af s s' tr l evs He Ha Hst) as X1.
    apply lookup_app_Some in Hn as [Hn|(Hge & Hn)].
    + destruct (IH Hn Hc) as (H1 & H2 & H3 & H4). split_and!.
      * by apply lookup_app_l_Some.
      * intros j u Hj. apply lookup_app_Some in Hj as [Hj|(Hgj & Hj)]; [by eapply H2|]. apply lookup_lt_Some in H1. lia.
      * done.
      * intros p Hp. apply lookup_app_l_Some. by apply H4.
    + destruct (open_step _ _ _ _ Hst) as [Q|O].
      { exfalso. destruct Hc as [(x & ->)|(p & [(sx & x & ->)|(sx & x & ->)])]; by pose proof (st_quiet _ _ _ _ _ _ Q Hn). }
      destruct (st_open l s evs O) as (H4 & Hx & Ho).
      assert (Hk : (n - length tr = 0)%nat).
      { destruct Hc as [(x & ->)|(p & [(sx & x & ->)|(sx & x & ->)])]; by eapply Ho. }
      assert (n = length tr) as -> by lia. rewrite Nat.sub_diag in Hn. pose proof (st_actor _ _ _ _ _ _ Hn) as ->.
      assert (Hcn : c = s_nextf s).
      { destruct Hx as [(x & _ & H0 & _)|(p & i & sx & x & e & _ & _ & He' & H0 & _)]; rewrite H0 in Hn; simplify_eq.
        - by destruct Hc as [(? & ?)|(? & [(? & ? & ?)|(? & ? & ?)])]; simplify_eq.
        - by destruct Hc as [(? & ?)|(? & [(? & ? & ?)|(? & ? & ?)])], He'; simplify_eq. }
      subst c. split_and!.
      * rewrite lookup_app_r by lia. by replace (_ + 4 - _)%nat with 4%nat by lia.
      * intros j u Hj. apply lookup_app_Some in Hj as [Hj|(Hgj & Hj)].
        { pose proof (cod_id nw af s tr He _ _ _ Hj). lia. }
        exfalso. destruct (code_at nw af s s' tr l evs He Ha Hst _ _ _ Hj) as (i & _ & (fr & Hf & _) & _).
        pose proof (live_id nw af s tr He (s_nextf s)) as Hli. assert (s_nextf s < s_nextf s) by (apply Hli; by exists fr). lia.
      * intros x ->. destruct Hx as [(y & -> & _)|(p & i & sx & y & e & _ & _ & He' & H0 & _)]; [done|].
        rewrite H0 in Hn. by destruct He'; simplify_eq.
      * intros p Hp. destruct (st_birth _ _ _ _ Hst _ _ _ p (s_nextf s) Hn Hp) as (_ & _ & _ & H1 & _).
        rewrite lookup_app_r by lia. by replace (S (length tr) - length tr)%nat with 1%nat by lia.
  - apply lookup_app_Some in Hn as [Hn|(Hge & Hn)].
    + destruct (IH Hn Hc) as (H1 & H2 & H3 & H4). split_and!.
      * by apply lookup_app_l_Some.
      * intros j u Hj. apply get_code in Hj. by eapply H2.
      * done.
      * intros p Hp. apply lookup_app_l_Some. by apply H4.
    + exfalso. unfold get_trace in Hn.
      destruct (n - length tr)%nat as [|[|[|k]]], Hc as [(? & ->)|(? & [(? & ? & ->)|(? & ? & ->)])]; done.
Qed.
