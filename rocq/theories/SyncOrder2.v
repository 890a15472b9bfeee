(** * The order of user code along executions. *)

From stdpp Require Import prelude gmap list relations.
From Coq Require Import NArith Lia.
From Verif Require Import RuntimeModel RuntimeSpec RuntimeInv RuntimeStep RuntimeStep3 RuntimeSafe SyncSpec SyncModel
  SyncViews SyncInv SyncTrans SyncAccess SyncStep SyncStep2 SyncMove SyncJoin SyncMove2 SyncMove3 SyncEnd SyncNew SyncMain
  SyncOrder.
Local Open Scope N_scope.

(** ** Views and positions *)

Lemma vrun_now g tr : now (vrun g tr) = (now g + length tr)%nat.
Proof. revert g. induction tr as [|x tr IH]; intros g; cbn; [lia|]. rewrite IH. cbn. lia. Qed.

Lemma cur_mono g tr t m : cur g t m -> cur (vrun g tr) t m.
Proof. revert g. induction tr as [|x tr IH]; intros g H; cbn; [done|]. apply IH. by left. Qed.

Lemma cur_hb tr1 x tr2 m : cur (vrun v0 tr1) x.1 m -> hb (tr1 ++ x :: tr2) m (length tr1).
Proof.
  intros Hc. pose proof (sound_run [] tr1 v0 sound0) as S. cbn [app] in S.
  destruct (s_cur _ _ S _ _ Hc) as (n & a & Hn & Hh). eapply hbe_po; [by apply hbe_pre|].
  split; [by eapply lookup_lt_Some|]. exists x.1, a, x.2. split.
  - apply lookup_app_l_Some. done.
  - rewrite lookup_app_r by lia. rewrite Nat.sub_diag. by destruct x.
Qed.

(** Actions by which a thread learns nothing. *)
Definition mute (x : thread * action) : Prop :=
  match x.2 with Load _ _ | Rmw _ _ _ | Fence _ _ => False | _ => True end.

Lemma cur_mute g tr t m : Forall mute tr -> (m < now g)%nat -> cur (vrun g tr) t m -> cur g t m.
Proof.
  revert g. induction tr as [|x tr IH]; intros g Hm Hlt H; [done|]. apply Forall_cons in Hm as (Hx & Hm).
  cbn in H. apply IH in H; [|done|cbn; lia]. destruct H as [H|(_ & [->|H])]; [done|lia|]. destruct x as [? []]; done.
Qed.

Lemma gpa_mono g tr c p b : gpa g c p b -> gpa (vrun g tr) c p b.
Proof. revert g. induction tr as [|x tr IH]; intros g H; cbn; [done|]. apply IH. by left. Qed.

Lemma parent_gpar tr c p : parent tr c p <-> gpar (vrun v0 tr) c p.
Proof.
  pose proof (sound_run [] tr v0 sound0) as S. cbn [app] in S. split.
  - intros (n & t & a & Hn & [(st & x & ->)|(st & x & ->)]); [exists false|exists true]; apply (s_gpa _ _ S); eauto.
  - intros (b & H). apply (s_gpa _ _ S) in H as (n & t & st & x & Hn). eexists n, t, _. split; [exact Hn|].
    destruct b; [right|left]; eauto.
Qed.

Lemma below_tree tr d p : below tr d p -> tree (vrun v0 tr) d p.
Proof.
  induction 1 as [d p H|d q p H _ IH]; apply parent_gpar in H; [by apply rtc_once|by eapply rtc_l].
Qed.
Lemma tree_below tr d p : tree (vrun v0 tr) d p -> d = p \/ below tr d p.
Proof.
  intros H. apply rtc_tc in H as [?|H]; [by left|]. right. revert d p H. induction 1 as [d p H|d q p H _ IH];
    apply parent_gpar in H; [by apply tc_once|by eapply tc_l].
Qed.
Lemma cod_at tr d m : cod (vrun v0 tr) d m <-> exists t, tr !! m = Some (t, Code d).
Proof. pose proof (sound_run [] tr v0 sound0) as S. cbn [app] in S. apply (s_cod _ _ S). Qed.
Lemma gpa_at tr c p b : gpa (vrun v0 tr) c p b <-> exists n t st x,
  tr !! n = Some (t, Note (if b then EvCall p c st x else EvFork p c st x)).
Proof. pose proof (sound_run [] tr v0 sound0) as S. cbn [app] in S. apply (s_gpa _ _ S). Qed.

(** ** The trace of a step *)

Section trace.
  Context (l : label) (s s' : state) (evs : list event) (Hst : step l s = Next s' evs).
  Local Notation st := (step_trace l s evs).

  Lemma st_actor k t a : st !! k = Some (t, a) -> t = actor l s.
  Proof. unfold step_trace. rewrite list_lookup_fmap. intros H. destruct (_ !! k); [|done]. by simplify_eq/=. Qed.

  Lemma st_code k t q : st !! k = Some (t, Code q) -> Code q ∈ acts l s.
  Proof.
    unfold step_trace. rewrite list_lookup_fmap. intros H. destruct (_ !! k) as [a|] eqn:Hk; [|done].
    simplify_eq/=. apply elem_of_list_lookup_2 in Hk. rewrite !elem_of_app in Hk. destruct Hk as [Hk|[Hk|Hk]]; [|done|].
    - apply elem_of_list_fmap in Hk as (? & ? & _). done.
    - apply elem_of_list_fmap in Hk as (? & ? & _). done.
  Qed.

  Lemma st_note k t e : st !! k = Some (t, Note e) -> e ∈ evs.
  Proof.
    unfold step_trace. rewrite list_lookup_fmap. intros H. destruct (_ !! k) as [a|] eqn:Hk; [|done].
    simplify_eq/=. apply elem_of_list_lookup_2 in Hk. rewrite !elem_of_app in Hk. destruct Hk as [Hk|[Hk|Hk]].
    - apply elem_of_list_fmap in Hk as (? & [= ->] & H). by apply elem_of_list_filter in H as (_ & ?).
    - pose proof (plain_acts l s) as P. rewrite Forall_forall in P. by apply P in Hk.
    - apply elem_of_list_fmap in Hk as (? & [= ->] & H). by apply elem_of_list_filter in H as (_ & ?).
  Qed.

  (** A step that ends with the user's code of [q]. *)
  Lemma st_last pre q :
    quiet evs -> acts l s = pre ++ [Code q] ->
    st !! length pre = Some (actor l s, Code q) /\
    forall k x, (length pre < k)%nat -> st !! k = Some x -> exists e, x = (actor l s, Note e).
  Proof.
    intros Q Ha. unfold step_trace. rewrite Q, Ha. cbn [fmap list_fmap app]. rewrite <- app_assoc. rewrite fmap_app.
    assert (Hl : length ((fun a : action => (actor l s, a)) <$> pre) = length pre) by apply fmap_length.
    split.
    - rewrite lookup_app_r by lia. rewrite Hl, Nat.sub_diag. done.
    - intros k x Hk H. rewrite lookup_app_r in H by lia. rewrite Hl in H.
      destruct (k - length pre)%nat as [|j] eqn:E; [lia|]. rewrite list_lookup_fmap in H.
      destruct (_ !! S j) as [a|] eqn:Hj; [|done]. cbn [app] in Hj. rewrite lookup_cons_ne_0 in Hj by done. cbn [pred] in Hj.
      apply elem_of_list_lookup_2 in Hj.
      apply elem_of_list_fmap in Hj as (e & -> & _). simplify_eq/=. eauto.
  Qed.

  (** A step that creates a task. *)
  Lemma st_open :
    opens l s evs ->
    st !! 4%nat = Some (actor l s, Write (LFrame (s_nextf s))) /\
    ((exists x, actor l s = TX (s_nextf s) /\ st !! 0%nat = Some (TX (s_nextf s), Note (EvSpawn (s_nextf s) x)) /\
        forall k t q, st !! k <> Some (t, Code q)) \/
     (exists p i sx x e, actor l s = TW i /\ live s p /\
        (e = EvFork p (s_nextf s) sx x \/ e = EvCall p (s_nextf s) sx x) /\
        st !! 0%nat = Some (TW i, Note e) /\ st !! 1%nat = Some (TW i, Code p) /\
        forall k t q, st !! k = Some (t, Code q) -> k = 1%nat)) /\
    forall k t e, st !! k = Some (t, Note e) -> opening e = true -> k = 0%nat.
  Proof.
    intros (e & a1 & a2 & a3 & rest & Ho & Ha & Hc).
    assert (Hcl : forall k (tt : thread) a, (((fun a => (actor l s, a)) <$> acts l s ++
      (Note <$> filter (fun e => opening e = false) evs)) !! k = Some (tt, a)) -> a ∈ acts l s \/ exists e', a = Note e' /\ opening e' = false).
    { intros k tt a H. rewrite list_lookup_fmap in H. destruct (_ !! k) as [b|] eqn:Hk; [|done]. simplify_eq/=.
      apply elem_of_list_lookup_2 in Hk. apply elem_of_app in Hk as [?|Hk]; [by left|]. right.
      apply elem_of_list_fmap in Hk as (e' & -> & He'). apply elem_of_list_filter in He' as (? & _). eauto. }
    assert (Est : st = (actor l s, Note e) :: ((fun a => (actor l s, a)) <$> acts l s ++
      (Note <$> filter (fun e => opening e = false) evs))).
    { unfold step_trace. rewrite Ho. done. }
    split_and!.
    - rewrite Est, Ha. done.
    - destruct Hc as [(x & -> & Hac & Hcd)|(p & i & sx & x & He & Hac & Hl & -> & Hcd)]; [left|right].
      + exists x. split_and!; [done|rewrite Est, Hac; done|]. intros k t q H. apply st_code in H. apply codes_in in H.
        rewrite Hcd in H. by apply elem_of_nil in H.
      + exists p, i, sx, x, e. split_and!; [done|done|done|rewrite Est, Hac; done|rewrite Est, Ha, Hac; done|].
        intros k t q H. rewrite Est in H. destruct k as [|k]; [done|]. rewrite lookup_cons_ne_0 in H by done. cbn [pred] in H.
        rewrite list_lookup_fmap in H. destruct (_ !! k) as [b|] eqn:Hk; [|done]. simplify_eq/=. rewrite Ha in Hk.
        destruct k as [|k]; [done|]. exfalso. cbn [app] in Hk. rewrite lookup_cons_ne_0 in Hk by done. cbn [pred] in Hk.
        assert (Hr : codes (a2 :: a3 :: Write (LFrame (s_nextf s)) :: rest) = []).
        { rewrite Ha in Hcd. cbn in Hcd. by injection Hcd. }
        apply elem_of_list_lookup_2 in Hk. rewrite (app_comm_cons), (app_comm_cons), (app_comm_cons) in Hk.
        apply elem_of_app in Hk as [Hk|Hk].
        * apply codes_in in Hk. rewrite Hr in Hk. by apply elem_of_nil in Hk.
        * by apply elem_of_list_fmap in Hk as (? & ? & _).
    - intros k t e0 H Hop. rewrite Est in H. destruct k as [|k]; [done|].
      rewrite lookup_cons_ne_0 in H by done. apply Hcl in H as [H|(e' & [= ->] & ?)]; [|congruence].
      pose proof (plain_acts l s) as P. rewrite Forall_forall in P. by apply P in H.
  Qed.

  Lemma st_quiet k t e : quiet evs -> st !! k = Some (t, Note e) -> opening e = false.
  Proof.
    intros Q H. apply st_note in H. destruct (opening e) eqn:E; [|done].
    assert (e ∈ filter (fun e => opening e = true) evs) as X by (by apply elem_of_list_filter). rewrite Q in X. by apply elem_of_nil in X.
  Qed.

  Lemma st_birth k t a p c : st !! k = Some (t, a) -> creates p c a ->
    k = 0%nat /\ c = s_nextf s /\ live s p /\ st !! 1%nat = Some (t, Code p) /\
    (forall k' t' q, st !! k' = Some (t', Code q) -> k' = 1%nat) /\ st !! 4%nat = Some (t, Write (LFrame c)).
  Proof.
    intros H Hc. assert (He : exists e, a = Note e /\ opening e = true) by (destruct Hc as [(? & ? & ->)|(? & ? & ->)]; eauto).
    destruct He as (e & -> & Hop). destruct (open_step _ _ _ _ Hst) as [Q|O].
    - pose proof (st_quiet _ _ _ Q H). congruence.
    - destruct (st_open O) as (H4 & Hx & Ho). pose proof (Ho _ _ _ H Hop) as ->. pose proof (st_actor _ _ _ H) as ->.
      destruct Hx as [(x & _ & H0 & _)|(q & i & sx & x & e' & Hac & Hl & He' & H0 & H1 & Hcd)]; rewrite H in H0; simplify_eq.
      + by destruct Hc as [(? & ? & ?)|(? & ? & ?)].
      + assert (q = p /\ c = s_nextf s) as (-> & ->) by (destruct Hc as [(? & ? & ?)|(? & ? & ?)], He'; by simplify_eq).
        rewrite Hac in *. done.
  Qed.
End trace.

(** ** States of executions *)

Record ex (nw : nat) (s : state) (tr : trace) : Prop := {
  x_inv : exists G, inv nw G s;
  x_ext : extra s;
  x_J : J None s (vrun v0 tr);
  x_safe : all_safe v0 tr;
  x_ord : forall c p b, gpa (vrun v0 tr) c p b -> p < c
}.

Lemma gpa_step l s s' evs tr c p b : step l s = Next s' evs ->
  gpa (vrun v0 (tr ++ step_trace l s evs)) c p b -> gpa (vrun v0 tr) c p b \/ (c = s_nextf s /\ live s p).
Proof.
  intros Hs H. apply gpa_at in H as (n & t & sx & x & H). apply lookup_app_Some in H as [H|(_ & H)].
  - left. apply gpa_at. eauto.
  - right. destruct (st_birth _ _ _ _ Hs _ _ _ p c H) as (_ & -> & ? & _); [|done]. destruct b; [right|left]; eauto.
Qed.

Theorem execution_ex nw af s tr : execution nw af s tr -> ex nw s tr.
Proof.
  intros H. destruct (execution_inv _ _ _ _ H) as (H1 & H2 & H3 & H4). constructor; try done.
  clear H1 H2 H3 H4. induction H as [|s tr l s' evs He IH Ha Hst|s tr r He IH Hr].
  - done.
  - intros c p b Hg. destruct (gpa_step _ _ _ _ _ _ _ _ Hst Hg) as [Hg'|(-> & (fr & Hp))]; [by eapply IH|].
    destruct (execution_inv _ _ _ _ He) as ((G & I0) & _). by eapply live_lt.
  - intros c p b Hg. rewrite vrun_app in Hg. cbn in Hg. destruct Hg as [[[Hg|[]]|[]]|[]]. by eapply IH.
Qed.

Section tree.
  Context (nw : nat) (G : ghost) (s : state) (tr : trace) (I0 : inv nw G s) (X : ex nw s tr).
  Local Notation g := (vrun v0 tr).

  Lemma tree_le d c : tree g d c -> c <= d.
  Proof. induction 1 as [d|d q c (b & H) _ IH]; [lia|]. apply (x_ord _ _ _ X) in H. lia. Qed.

  Lemma tree_live d c : tree g d c -> live s d -> live s c.
  Proof.
    induction 1 as [d|d q c (b & H) _ IH]; [done|]. intros (fr & Hd). apply IH.
    destruct (j_gpa _ _ _ (x_J _ _ _ X) _ _ _ H) as (_ & _ & Hp). destruct (Hp _ Hd) as (Hp' & _).
    eapply parent_live; [exact I0|exact Hd|exact Hp'].
  Qed.

  Lemma tree_near_top d c p b : tree g d c -> gpa g c p b -> ~ live s c -> live s p -> near s g d p b.
  Proof.
    intros Ht Hg Hd (frp & Hp). assert (Hdead : forall q, ~ live s q -> s_frames s !! q = None).
    { intros q Hq. destruct (s_frames s !! q) as [fr|] eqn:E; [|done]. destruct Hq. by exists fr. }
    induction Ht as [c|d q c (b' & H) Ht IH].
    - eapply near_one; [by apply Hdead|done|done].
    - assert (Hq : ~ live s q) by (intros Hq; apply Hd; by eapply tree_live).
      eapply near_step; [|exact H|by apply Hdead|by apply IH].
      apply Hdead. intros (fr & Hd0). apply Hq. destruct (j_gpa _ _ _ (x_J _ _ _ X) _ _ _ H) as (_ & _ & Hp0).
      destruct (Hp0 _ Hd0) as (Hp' & _). eapply parent_live; [exact I0|exact Hd0|exact Hp'].
  Qed.

  Lemma call_dead i p c : held s i p -> gpa g c p true -> ~ live s c.
  Proof.
    intros Hh Hg (frc & Hc). destruct (j_gpa _ _ _ (x_J _ _ _ X) _ _ _ Hg) as (_ & _ & Hp). destruct (Hp _ Hc) as (Hp' & Hk).
    destruct (f_kind frc) as [|p' j sx|] eqn:Ek; try done. cbn in Hp'. injection Hp' as ->.
    destruct (held_live _ _ _ I0 _ _ Hh) as (fr & Hf). destruct (i_node _ _ _ I0 _ _ Hf) as (N1 & N2 & _).
    destruct Hh as (w & Hi & Hin). pose proof (sumw_ge (wtok p) _ _ _ Hi) as T.
    assert (0 < wtok p w).
    { unfold wtok. apply elem_of_app in Hin as [Hin|Hin]; apply occ_in in Hin; lia. }
    assert (Hz : ncalls p (shape_of (s_frames s)) = 0) by (destruct (f_rp fr); lia).
    apply shape_lookup in Hc. rewrite Ek in Hc.
    pose proof (cntm_zero (is_call p) _ _ _ Hc Hz) as Y. unfold is_call in Y. cbn in Y. by case_bool_decide.
  Qed.
End tree.
