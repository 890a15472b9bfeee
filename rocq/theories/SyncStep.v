(** * One step of the runtime keeps the invariant of SyncInv.v: the frame of the proof and
    the steps that change only the running task. *)

From stdpp Require Import prelude gmap list relations.
From Coq Require Import NArith Lia.
From Verif Require Import RuntimeModel RuntimeSpec RuntimeInv RuntimeStep SyncSpec SyncModel SyncViews
  SyncInv SyncTrans SyncAccess.
Local Open Scope N_scope.

(** ** The goal of each step *)

Definition goal (s' : state) (g : views) (t : thread) (al : list action) : Prop :=
  J None s' (vrun g (tag t al)) /\ all_safe g (tag t al) /\ extra s'.

Lemma goal_end s' g t al :
  J None s' g -> extra s' -> Forall (okay None s' t) al -> goal s' g t al.
Proof. intros HJ HE H. destruct (run_okay _ _ _ _ _ H HJ). done. Qed.

Lemma goal_pre nb s s' g t a1 a2 :
  J nb s g -> Forall (okay nb s t) a1 ->
  (forall g', J nb s g' -> goal s' g' t a2) -> goal s' g t (a1 ++ a2).
Proof.
  intros HJ H Hg. destruct (run_okay _ _ _ _ _ H HJ) as (J1 & S1).
  destruct (Hg _ J1) as (J2 & S2 & HE). unfold goal, tag in *. rewrite fmap_app, vrun_app, all_safe_app. done.
Qed.

Lemma goal_act nb s s' g t a al :
  J nb s g -> okay nb s t a ->
  (J nb s (vstep g (t, a)) -> goal s' (vstep g (t, a)) t al) -> goal s' g t (a :: al).
Proof.
  intros HJ Ha Hg. destruct (Ha g HJ) as (S1 & P1). destruct (Hg (J_step _ _ _ _ _ HJ P1)) as (J2 & S2 & HE).
  done.
Qed.

Lemma goal_note s' g t al e :
  goal s' g t al -> is_birth (Note e) = None -> goal s' g t (al ++ [Note e]).
Proof.
  intros (HJ & HS & HE) Hb. unfold goal, tag. rewrite fmap_app, vrun_app, all_safe_app.
  fold (tag t al). destruct (okay_quiet None s' t (Note e) eq_refl Hb _ HJ) as (S1 & P1).
  split_and!; [|done| |done].
  - cbn. by apply J_step.
  - cbn. done.
Qed.

Lemma goal_notes s' g t al es :
  goal s' g t al -> goal s' g t (al ++ (Note <$> filter (fun e => opening e = false) es)).
Proof.
  intros H. revert al H. induction es as [|e es IH]; intros al H; [by rewrite app_nil_r|].
  rewrite filter_cons. destruct (decide _) as [Ho|Ho]; [|by apply IH].
  cbn. change (al ++ Note e :: (Note <$> filter (fun e => opening e = false) es)) with
    (al ++ [Note e] ++ (Note <$> filter (fun e => opening e = false) es)). rewrite app_assoc. apply IH.
  apply goal_note; [done|]. by destruct e.
Qed.

(** ** What synchronisation teaches *)

Lemma rmw_rel g t o q m : cur (vstep g (t, Rmw o q true)) t m -> msg (vstep g (t, Rmw o q true)) o m.
Proof. cbn. unfold msg'. cbn. rewrite decide_True by done. tauto. Qed.
Lemma rmw_acq g t o r m : msg g o m -> cur (vstep g (t, Rmw o true r)) t m.
Proof. cbn. unfold cur'. cbn. tauto. Qed.
Lemma load_acq g t o m : msg g o m -> cur (vstep g (t, Load o true)) t m.
Proof. cbn. unfold cur'. cbn. tauto. Qed.
Lemma load_msg g t o o' q : msg (vstep g (t, Load o q)) o' = msg g o'.
Proof. done. Qed.
Lemma fence_rel g t q m : cur (vstep g (t, Fence q true)) t m -> rel (vstep g (t, Fence q true)) t m.
Proof. cbn. unfold rel'. cbn. tauto. Qed.
Lemma fence_acq g t r m : acq g t m -> cur (vstep g (t, Fence true r)) t m.
Proof. cbn. unfold cur'. cbn. tauto. Qed.
Lemma rmw_acqv g t o q r m : msg g o m -> acq (vstep g (t, Rmw o q r)) t m.
Proof. cbn. unfold acq'. cbn. tauto. Qed.

(* a release-RMW followed by an acquire fence *)
Lemma rmw_fence g t o q r r' m :
  (forall m, rel g t m -> cur g t m) ->
  msg (vstep (vstep g (t, Rmw o q r)) (t, Fence true r')) o m ->
  cur (vstep (vstep g (t, Rmw o q r)) (t, Fence true r')) t m.
Proof.
  intros Hr. change (msg (vstep (vstep g (t, Rmw o q r)) (t, Fence true r')) o m) with (msg (vstep g (t, Rmw o q r)) o m).
  cbn [msg vstep]. unfold msg'. cbn [fst snd]. rewrite decide_True by done. intros [H|[(_ & H)|H]].
  - apply fence_acq. by apply rmw_acqv.
  - left. done.
  - left. left. auto.
Qed.

(** ** The state-only part *)

Lemma extra_trans s s' :
  extra s -> s_nextf s <= s_nextf s' ->
  (forall c fr', s_frames s' !! c = Some fr' ->
     (exists fr, s_frames s !! c = Some fr /\ f_kind fr' = f_kind fr) \/
     (c = s_nextf s /\ forall c' frc x, s_frames s !! c' = Some frc -> cellof (f_kind fr') = Some x ->
        cellof (f_kind frc) <> Some x)) ->
  (forall i w p fr n, s_workers s' !! i = Some w -> s_frames s' !! p = Some fr -> lastc w p fr ->
     S n = length (f_cells fr) -> forall c frc, s_frames s' !! c = Some frc -> cellof (f_kind frc) <> Some (p, n)) ->
  (forall r, 0 < sem s' r -> r < s_nextf s' /\ forall fr, s_frames s' !! r = Some fr -> f_rp fr = RSignalled) ->
  extra s'.
Proof.
  intros HE Hn HF HQ HS. constructor; [|done|done].
  intros c fr c' fr' x Hc Hc' Hx Hx'.
  destruct (HF _ _ Hc) as [(f0 & Hc0 & E0)|(-> & N0)], (HF _ _ Hc') as [(f1 & Hc1 & E1)|(-> & N1)]; [| | |done].
  - rewrite E0 in Hx. rewrite E1 in Hx'. by eapply (e_uniq _ HE).
  - rewrite E0 in Hx. by destruct (N1 _ _ _ Hc0 Hx').
  - rewrite E1 in Hx'. by destruct (N0 _ _ _ Hc1 Hx).
Qed.

Lemma extra_local s s' :
  extra s -> s_nextf s <= s_nextf s' ->
  (forall c fr', s_frames s' !! c = Some fr' ->
     exists fr, s_frames s !! c = Some fr /\ f_kind fr' = f_kind fr) ->
  (forall i w' p fr', s_workers s' !! i = Some w' -> s_frames s' !! p = Some fr' -> lastc w' p fr' ->
     exists i w fr, s_workers s !! i = Some w /\ s_frames s !! p = Some fr /\ lastc w p fr /\
       length (f_cells fr') = length (f_cells fr)) ->
  (forall r, 0 < sem s' r -> r < s_nextf s' /\ forall fr, s_frames s' !! r = Some fr -> f_rp fr = RSignalled) ->
  extra s'.
Proof.
  intros HE Hn HF HQ HS. eapply (extra_trans s); [done|done| | |done].
  - intros c fr' Hc. left. eauto.
  - intros i w' p fr' n Hi Hf Hl Hn' c frc' Hc. destruct (HF _ _ Hc) as (frc & Hc0 & ->).
    destruct (HQ _ _ _ _ Hi Hf Hl) as (i0 & w & fr & H1 & H2 & H3 & H4). rewrite H4 in Hn'.
    by eapply (e_quiet _ HE).
Qed.

(** ** Updating one task *)

Definition stkl (s : state) : Prop := forall x f l, stk s x = f :: l -> live s f.

Lemma fcompat_refl s s' g0 g f fr : fcompat s s' g0 g f fr fr.
Proof. constructor; eauto. Qed.

Lemma upd s f fr fr' g :
  stkl s -> J None s g -> extra s -> s_frames s !! f = Some fr ->
  fcompat s (put_frame f fr' s) g g f fr fr' -> f_joins fr' = f_joins fr -> rp_keep (f_rp fr) (f_rp fr') ->
  (forall m st k pre, f_rp fr' = RFork m st k pre -> f_rp fr = f_rp fr' /\ f_steals fr = f_steals fr') ->
  length (f_cells fr') = length (f_cells fr) -> (f_rp fr = RSignalled -> f_rp fr' = RSignalled) ->
  J None (put_frame f fr' s) g /\ extra (put_frame f fr' s).
Proof.
  intros HS HJ HE Hf C Hj Hr Hfk Hlen Hsg. set (s' := put_frame f fr' s) in *.
  assert (L1 : s_frames s' !! f = Some fr') by apply lookup_insert.
  assert (L2 : forall q, q <> f -> s_frames s' !! q = s_frames s !! q) by (intros; by apply lookup_insert_ne).
  assert (HL : forall q, live s q -> live s' q).
  { intros q H. destruct (decide (q = f)) as [->|Hne]; [by exists fr'|]. unfold live. by rewrite L2. }
  assert (Hla : forall w p q q', s_frames s !! p = Some q -> s_frames s' !! p = Some q' -> lastc w p q' ->
     lastc w p q /\ length (f_cells q') = length (f_cells q)).
  { intros w p q q' Hq Hq' Hl. destruct (decide (p = f)) as [->|Hne].
    - simplify_eq. split; [|done]. destruct Hl as [?|(? & m & st & k & H)]; [by left|]. right. split; [done|].
      destruct (Hfk _ _ _ _ H) as (E1 & E2). rewrite E1, E2. eauto.
    - rewrite L2 in Hq' by done. simplify_eq. done. }
  assert (Hsem : forall r, sem s' r = sem s r) by done.
  split.
  - assert (Hst : stkl s) by done. 
    eapply (J_local s s' g); [done|done|done|done|done|..].
    + intros r Hr0. by left.
    + intros i. change (s_workers s') with (s_workers s). by destruct (s_workers s !! i).
    + intros q q' Hq. destruct (decide (q = f)) as [->|Hne].
      * simplify_eq. exists fr. done.
      * rewrite L2 in Hq by done. exists q'. split_and!; [done|apply fcompat_refl|done|]. by destruct (f_rp q').
    + done.
    + intros i w w' p q q' Hi Hi' Hq Hq' Hl. change (s_workers s') with (s_workers s) in Hi'. simplify_eq. eauto.
  - eapply extra_local; [exact HE|done|..].
    + intros q q' Hq. destruct (decide (q = f)) as [->|Hne].
      * simplify_eq. exists fr. split; [done|apply C].
      * rewrite L2 in Hq by done. eauto.
    + intros i w' p q' Hi Hq' Hl. destruct (decide (p = f)) as [->|Hne].
      * exists i, w', fr. destruct (Hla _ _ _ _ Hf Hq' Hl). done.
      * rewrite L2 in Hq' by done. exists i, w', q'. done.
    + intros r Hr0. destruct (e_sem _ HE r Hr0) as (E1 & E2). split; [done|].
      intros q Hq. destruct (decide (r = f)) as [->|Hne].
      * simplify_eq. auto.
      * rewrite L2 in Hq by done. eauto.
Qed.

Lemma updw s i w w' g :
  stkl s -> J None s g -> extra s -> s_workers s !! i = Some w -> wsim w w' ->
  (forall p fr, s_frames s !! p = Some fr -> lastc w' p fr -> lastc w p fr) ->
  J None (put_worker i w' s) g /\ extra (put_worker i w' s).
Proof.
  intros HS HJ HE Hi Hw Hla. set (s' := put_worker i w' s) in *.
  assert (L1 : s_workers s' !! i = Some w') by (apply list_lookup_insert; by eapply lookup_lt_Some).
  assert (L2 : forall q, q <> i -> s_workers s' !! q = s_workers s !! q) by (intros; by apply list_lookup_insert_ne).
  split.
  - eapply (J_local s s' g); [done|done|done|done|done|..].
    + intros r Hr0. by left.
    + intros q. destruct (decide (q = i)) as [->|Hne]; [by rewrite Hi, L1|]. rewrite L2 by done. by destruct (s_workers s !! q).
    + intros q q' Hq. change (s_frames s') with (s_frames s) in Hq. exists q'.
      split_and!; [done|apply fcompat_refl|done|]. by destruct (f_rp q').
    + done.
    + intros j wj wj' p q q' Hj Hj' Hq Hq' Hl. change (s_frames s') with (s_frames s) in Hq'. simplify_eq. split; [|done].
      destruct (decide (j = i)) as [->|Hne]; [simplify_eq; eauto|]. rewrite L2 in Hj' by done. by simplify_eq.
  - eapply extra_local; [exact HE|done|..].
    + intros q q' Hq. change (s_frames s') with (s_frames s) in Hq. eauto.
    + intros j wj' p q' Hj Hq' Hl. change (s_frames s') with (s_frames s) in Hq'.
      destruct (decide (j = i)) as [->|Hne].
      * simplify_eq. exists i, w, q'. eauto.
      * rewrite L2 in Hj by done. exists j, wj', q'. done.
    + apply HE.
Qed.

Lemma inv_stkl nw G s : inv nw G s -> stkl s.
Proof. intros I x f l. by apply (stk_live nw G). Qed.
