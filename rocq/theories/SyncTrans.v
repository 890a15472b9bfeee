(** * Transitions keep the invariant of SyncInv.v: general lemmas. *)

From stdpp Require Import prelude gmap list relations.
From Coq Require Import NArith Lia.
From Verif Require Import RuntimeModel RuntimeSpec RuntimeInv SyncSpec SyncModel SyncViews SyncInv.
Local Open Scope N_scope.

Definition live (s : state) (f : N) : Prop := is_Some (s_frames s !! f).

(** ** Who knows is unique *)

Section unique.
  Context (nw : nat) (G : ghost) (s : state) (I : inv nw G s) (g : views).

  Lemma tok_total f fr : s_frames s !! f = Some fr -> sumw (wtok f) (s_workers s) <= 1.
  Proof. intros H. pose proof (i_node _ _ _ I f fr H) as (N1 & _). destruct (f_rp fr); lia. Qed.

  Lemma wknow_tok i w f m : wknow g i w f m -> 1 <= wtok f w.
  Proof.
    unfold wtok. intros [(H & _)|[(H & _)|(H & _)]]; apply occ_in in H; [rewrite occ_app in H|..]; lia.
  Qed.

  (* a task with a token is known only through it *)
  Lemma know_tok f i w m :
    s_workers s !! i = Some w -> 1 <= wtok f w -> know s g f m -> wknow g i w f m.
  Proof.
    intros Hi Ht Hk. destruct (tok_live _ _ _ f _ _ I Hi) as (fr & Hf); [lia|].
    pose proof (tok_total _ _ Hf) as Hs. pose proof (sumw_ge (wtok f) _ _ _ Hi) as Hge.
    pose proof (i_node _ _ _ I f fr Hf) as (N1 & _).
    inversion Hk as [j w' ? ? Hj Hw|? fr' k ? Hf' Hr|? fr' x y k c frc j st ? Hf' Hr]; subst.
    - destruct (decide (i = j)) as [<-|Hne]; [congruence|].
      pose proof (sumw_ge2 (wtok f) _ _ _ _ _ Hne Hi Hj). apply wknow_tok in Hw. lia.
    - rewrite Hf in Hf'. injection Hf' as <-. rewrite Hr in N1. lia.
    - rewrite Hf in Hf'. injection Hf' as <-. rewrite Hr in N1. lia.
  Qed.

  Lemma know_held f i w m :
    s_workers s !! i = Some w -> f ∈ pc_tok (w_pc w) ++ w_batch w -> know s g f m -> cur g (TW i) m.
  Proof.
    intros Hi Hin Hk. pose proof Hin as H. apply occ_in in H. rewrite occ_app in H.
    assert (Ht : 1 <= wtok f w) by (unfold wtok; lia).
    destruct (tok_live _ _ _ f _ _ I Hi) as (fr & Hf); [lia|].
    pose proof (tok_total _ _ Hf). pose proof (sumw_ge (wtok f) _ _ _ Hi).
    destruct (know_tok _ _ _ _ Hi Ht Hk) as [(_ & ?)|[(X & _)|(X & _)]]; [done|..];
      apply occ_in in X; unfold wtok in *; lia.
  Qed.

  Lemma know_run f i w m :
    s_workers s !! i = Some w -> pc_tok (w_pc w) = [f] -> know s g f m -> cur g (TW i) m.
  Proof. intros Hi Hpc. apply (know_held f i w m Hi). rewrite Hpc. apply elem_of_app. left. by left. Qed.

  Lemma know_deque f i w m :
    s_workers s !! i = Some w -> f ∈ w_deque w -> know s g f m -> rel g (TW i) m /\ msg g (OBot i) m.
  Proof.
    intros Hi Hin Hk. pose proof Hin as H. apply occ_in in H.
    assert (Ht : 1 <= wtok f w) by (unfold wtok; lia).
    destruct (tok_live _ _ _ f _ _ I Hi) as (fr & Hf); [lia|].
    pose proof (tok_total _ _ Hf). pose proof (sumw_ge (wtok f) _ _ _ Hi).
    destruct (know_tok _ _ _ _ Hi Ht Hk) as [(X & _)|[(_ & ?)|(X & _)]]; [|done|];
      apply occ_in in X; try rewrite occ_app in X; unfold wtok in *; lia.
  Qed.

  Lemma know_inbox f i w m :
    s_workers s !! i = Some w -> f ∈ w_inbox w -> know s g f m -> msg g (OInbox i) m.
  Proof.
    intros Hi Hin Hk. pose proof Hin as H. apply occ_in in H.
    assert (Ht : 1 <= wtok f w) by (unfold wtok; lia).
    destruct (tok_live _ _ _ f _ _ I Hi) as (fr & Hf); [lia|].
    pose proof (tok_total _ _ Hf). pose proof (sumw_ge (wtok f) _ _ _ Hi).
    destruct (know_tok _ _ _ _ Hi Ht Hk) as [(X & _)|[(X & _)|(_ & ?)]]; [| |done];
      apply occ_in in X; try rewrite occ_app in X; unfold wtok in *; lia.
  Qed.

  Lemma no_tok f fr i w :
    s_frames s !! f = Some fr -> s_workers s !! i = Some w ->
    match f_rp fr with RCall _ _ _ | RJoin _ => True | _ => False end -> wtok f w = 0.
  Proof.
    intros Hf Hi Hr. pose proof (i_node _ _ _ I f fr Hf) as (N1 & _).
    pose proof (sumw_ge (wtok f) _ _ _ Hi). destruct (f_rp fr); try done; lia.
  Qed.

  Lemma know_join f fr k m :
    s_frames s !! f = Some fr -> f_rp fr = RJoin k -> know s g f m -> msg g (OJoin f) m.
  Proof.
    intros Hf Hr Hk. inversion Hk as [j w' ? ? Hj Hw|? fr' k' ? Hf' Hr'|? fr' x y k' c frc j st ? Hf' Hr']; subst; [|done|congruence].
    apply wknow_tok in Hw. rewrite (no_tok f fr j w') in Hw; [lia|done|done|]. by rewrite Hr.
  Qed.

  Lemma call_uniq f c frc j st c' frc' j' st' fr x y k :
    s_frames s !! f = Some fr -> f_rp fr = RCall x y k ->
    s_frames s !! c = Some frc -> f_kind frc = KCall f j st ->
    s_frames s !! c' = Some frc' -> f_kind frc' = KCall f j' st' -> c = c'.
  Proof.
    intros Hf Hr Hc Hk Hc' Hk'. destruct (decide (c = c')) as [|Hne]; [done|exfalso].
    pose proof (i_node _ _ _ I f fr Hf) as (_ & N2 & _). rewrite Hr in N2.
    apply shape_lookup in Hc, Hc'.
    pose proof (cntm_two (is_call f) _ _ _ _ _ Hc ltac:(unfold is_call; cbn; rewrite Hk; by case_bool_decide)
      Hc' ltac:(unfold is_call; cbn; rewrite Hk'; by case_bool_decide) Hne).
    unfold ncalls in N2. lia.
  Qed.

  Lemma know_call f fr x y k c frc j st m :
    s_frames s !! f = Some fr -> f_rp fr = RCall x y k ->
    s_frames s !! c = Some frc -> f_kind frc = KCall f j st -> know s g f m -> know s g c m.
  Proof.
    intros Hf Hr Hc Hkc Hk. inversion Hk as [i w' ? ? Hj Hw|? fr' k' ? Hf' Hr'|? fr' x' y' k' c' frc' j' st' ? Hf' Hr' Hc' Hkc' Hk']; subst.
    - apply wknow_tok in Hw. rewrite (no_tok f fr i w') in Hw; [lia|done|done|]. by rewrite Hr.
    - congruence.
    - assert (c = c') as <-; [|done].
      by eapply (call_uniq f c frc j st c' frc').
  Qed.

  (* nobody else has a say *)
  Lemma pend_know f fr m :
    s_frames s !! f = Some fr -> nforks f (shape_of (s_frames s)) = 0 ->
    sumw (wsub f) (s_workers s) = 0 -> f_joins fr = u16max -> pend s g f m -> know s g f m.
  Proof.
    intros Hf H1 H2 H3 [H|[(_ & fr' & Hf' & H)|[(c & frc & j & st & Hc & Hk & _)|(i & w & Hi & Hw & _)]]]; [done|congruence| |].
    - pose proof (cntm_zero (is_fork f) _ _ _ (shape_lookup _ _ _ Hc) H1) as X. unfold is_fork in X. cbn in X.
      rewrite Hk in X. by case_bool_decide.
    - pose proof (sumw_ge (wsub f) _ _ _ Hi) as X. unfold wsub, final_of in *.
      destruct (w_pc w); try done; injection Hw as ->; rewrite eqn_refl in X; lia.
  Qed.

  Lemma no_kid f c frc :
    nforks f (shape_of (s_frames s)) = 0 -> ncalls f (shape_of (s_frames s)) = 0 ->
    s_frames s !! c = Some frc -> par (f_kind frc) <> Some f.
  Proof.
    intros H1 H2 Hc Hp. apply shape_lookup in Hc.
    destruct (f_kind frc) eqn:E; try done; cbn in Hp; injection Hp as ->.
    - pose proof (cntm_zero (is_call f) _ _ _ Hc H2) as X. unfold is_call in X. cbn in X. by case_bool_decide.
    - pose proof (cntm_zero (is_fork f) _ _ _ Hc H1) as X. unfold is_fork in X. cbn in X. by case_bool_decide.
  Qed.

  Lemma no_final f i w : sumw (wsub f) (s_workers s) = 0 -> s_workers s !! i = Some w -> final_of w <> Some f.
  Proof.
    intros H Hi Hw. pose proof (sumw_ge (wsub f) _ _ _ Hi) as X. unfold wsub, final_of in *.
    destruct (w_pc w); try done; injection Hw as ->; rewrite eqn_refl in X; lia.
  Qed.

  Lemma parent_live c frc p : s_frames s !! c = Some frc -> par (f_kind frc) = Some p -> live s p.
  Proof. intros H Hp. destruct (inv_parent _ _ _ _ _ _ _ I (shape_lookup _ _ _ H) Hp) as (frp & ?). by exists frp. Qed.
End unique.

(** ** Lifting knowledge *)

Lemma know_lift s s' g0 g :
  (forall i w f m, s_workers s !! i = Some w -> wknow g0 i w f m -> live s' f -> know s' g f m) ->
  (forall f fr k m, s_frames s !! f = Some fr -> f_rp fr = RJoin k -> msg g0 (OJoin f) m ->
     live s' f -> know s' g f m) ->
  (forall f fr x y k c frc j st, s_frames s !! f = Some fr -> f_rp fr = RCall x y k ->
     s_frames s !! c = Some frc -> f_kind frc = KCall f j st -> live s' f ->
     (exists fr' x' y' k' frc', s_frames s' !! f = Some fr' /\ f_rp fr' = RCall x' y' k' /\
        s_frames s' !! c = Some frc' /\ f_kind frc' = f_kind frc) \/
     (forall m, know s g0 c m -> know s' g f m)) ->
  forall f m, know s g0 f m -> live s' f -> know s' g f m.
Proof.
  intros HW HJ HC f m H. induction H as [| |f fr x y k c frc j st m Hf Hr Hc Hk Hkn IH]; intros Hl; [eauto..|].
  destruct (HC f fr x y k c frc j st Hf Hr Hc Hk Hl) as [(fr' & x' & y' & k' & frc' & H1 & H2 & H3 & H4)|H]; [|auto].
  rewrite Hk in H4. eapply (kn_call s' g f fr' x' y' k' c frc' j st); [done..|]. apply IH. by exists frc'.
Qed.

Lemma pend_lift s s' g0 g p m :
  (forall f m, know s g0 f m -> live s' f -> know s' g f m) ->
  live s' p ->
  (forall fr, s_frames s !! p = Some fr -> f_joins fr <> u16max -> msg g0 (OJoin p) m -> pend s' g p m) ->
  (forall c fr j st, s_frames s !! c = Some fr -> f_kind fr = KFork p j st ->
     (exists fr', s_frames s' !! c = Some fr' /\ f_kind fr' = f_kind fr) \/
     (know s g0 c m -> pend s' g p m)) ->
  (forall i w, s_workers s !! i = Some w -> final_of w = Some p -> cur g0 (TW i) m -> pend s' g p m) ->
  pend s g0 p m -> pend s' g p m.
Proof.
  intros TK Hl H1 H2 H3 [H|[(H & fr & Hf & Hj)|[(c & fr & j & st & Hc & Hk & H)|(i & w & Hi & Hw & H)]]].
  - left. auto.
  - eauto.
  - destruct (H2 _ _ _ _ Hc Hk) as [(fr' & Hc' & Hk')|X]; [|auto].
    right; right; left. exists c, fr', j, st. rewrite Hk', Hk. split_and!; [done|done|]. apply TK; [done|by exists fr'].
  - eauto.
Qed.

(** ** The general transition lemma *)

Lemma free_req s l w a k : free l -> ~ req s l w a k.
Proof.
  intros (i & H) R.
  assert (Hs : forall f, ~ shared f l).
  { intros f [-> |[-> |[-> |[-> |(j & ->)]]]]; destruct H as [H|[H|H]]; done. }
  assert (Hc : forall f, ~ ctl f l w a).
  { intros f [(-> & _)|([-> | ->] & _)]; destruct H as [H|[H|H]]; done. }
  destruct R; try (by destruct H as [H|[H|H]]); try (by eapply Hs); by eapply Hc.
Qed.

Record ext (s : state) (g0 g : views) : Prop := {
  x_grow : grow s g0 g;
  x_rel : forall t m, rel g t m -> cur g t m;
  x_acs : forall l m w a, acs g l m w a -> acs g0 l m w a \/ free l;
  x_acs2 : forall l m w a, acs g0 l m w a -> acs g l m w a;
  x_free : forall l m w a, acs g l m w a -> free l -> a = true;
  x_cod : forall f m, cod g f m -> cod g0 f m;
  x_gpa : forall c p b, gpa g c p b <-> gpa g0 c p b
}.

Lemma grow_refl s g : grow s g g.
Proof. constructor; auto. Qed.

Lemma ext_refl nb s g : J nb s g -> ext s g g.
Proof. intros HJ. constructor; [apply grow_refl|apply HJ|auto|auto|apply HJ|auto|done]. Qed.

Definition clean (s s' : state) (g0 g : views) (f : N) : Prop :=
  (forall c fr, s_frames s' !! c = Some fr -> par (f_kind fr) <> Some f) /\
  forall m, pend s g0 f m -> know s' g f m.

Record fcompat (s s' : state) (g0 g : views) (f : N) (fr fr' : frame) : Prop := {
  fc_kind : f_kind fr' = f_kind fr;
  fc_len : (length (f_cells fr) <= length (f_cells fr'))%nat;
  fc_eflag : f_eflag fr' = false -> f_eflag fr = false \/ clean s s' g0 g f;
  fc_capt : forall e, f_rp fr' = RCapture e -> (exists e', f_rp fr = RCapture e') \/
    (exists p frp, par (f_kind fr) = Some p /\ s_frames s !! p = Some frp /\ f_eflag frp = false);
  fc_sig : f_rp fr' <> RSignalled -> f_rp fr <> RSignalled
}.

Record birth (nb : option thread) (s s' : state) (g0 g : views) (f : N) (fr' : frame) : Prop := {
  b_id : s_nextf s <= f;
  b_cur : forall t m, nb = Some t -> cur g0 t m -> know s' g f m;
  b_capt : forall e, f_rp fr' <> RCapture e;
  b_par : forall p m, par (f_kind fr') = Some p -> know s g0 p m -> know s' g f m;
  b_cell : forall p j, cellof (f_kind fr') = Some (p, j) ->
    exists frp, s_frames s !! p = Some frp /\ (length (f_cells frp) <= j)%nat;
  b_eflag : forall p frp', par (f_kind fr') = Some p -> s_frames s' !! p = Some frp' -> f_eflag frp' = false ->
    exists frp, s_frames s !! p = Some frp /\ f_eflag frp = false;
  b_gpa : forall p b, gpa g f p b <-> par (f_kind fr') = Some p /\ kindb (f_kind fr') = b
}.

Lemma par_cell k : par k = fst <$> cellof k.
Proof. by destruct k. Qed.

Lemma J_trans nb s g0 s' g :
  J nb s g0 -> ext s g0 g ->
  s_nextf s <= s_nextf s' -> s_nexts s <= s_nexts s' ->
  (nb = None \/
     (forall l m w a, acs g0 l m w a -> floc l = Some (s_nextf s) -> s_nextf s < s_nextf s') /\
     (forall m w a, acs g0 (LStk (s_nexts s)) m w a -> s_nexts s < s_nexts s') /\
     (forall c p b, gpa g0 c p b -> c < s_nextf s')) ->
  (forall f fr', s_frames s' !! f = Some fr' ->
     (exists fr, s_frames s !! f = Some fr /\ fcompat s s' g0 g f fr fr') \/ birth nb s s' g0 g f fr') ->
  (forall f m, know s g0 f m -> live s' f -> know s' g f m) ->
  (forall f m, pend s g0 f m -> live s' f -> pend s' g f m) ->
  (forall i w' p, s_workers s' !! i = Some w' -> final_of w' = Some p ->
     (exists w, s_workers s !! i = Some w /\ final_of w = Some p) \/
     (exists c frc, s_frames s !! c = Some frc /\ par (f_kind frc) = Some p /\
        forall m, know s g0 c m -> cur g (TW i) m)) ->
  (forall i w' p fr' n m w a, s_workers s' !! i = Some w' -> s_frames s' !! p = Some fr' -> lastc w' p fr' ->
     S n = length (f_cells fr') -> acs g0 (LCell p n) m w a -> cur g (TW i) m) ->
  (forall i w' m w a, s_workers s' !! i = Some w' -> eff w' = true ->
     acs g0 (LStk (w_stk w')) m w a -> cur g (TW i) m) ->
  (forall x f l m w a, stk s' x = f :: l -> detached s' x -> acs g0 (LStk x) m w a -> pend s' g f m) ->
  (forall r, 0 < sem s' r -> 0 < sem s r \/
     (forall m w a, acs g0 (LRes r) m w a -> msg g (OSem r) m) /\
     (forall c m, tree g0 c r -> cod g0 c m -> msg g (OSem r) m)) ->
  (forall c a b m, near s' g0 c a b -> cod g0 c m -> if b then know s' g a m else pend s' g a m) ->
  J None s' g.
Proof.
  intros HJ X Hnf Hns HN HF TK TP HFin HLast HStkw HStkd HSem HNear.
  assert (Hnear : forall c a b, near s' g c a b -> near s' g0 c a b).
  { induction 1 as [c p b fr H1 H2 H3|c p b a b' H1 H2 H3 _ IH].
    - eapply near_one; [done|by apply (x_gpa _ _ _ X)|done].
    - eapply near_step; [done|by apply (x_gpa _ _ _ X)|done|done]. }
  assert (Htree : forall c r, tree g c r -> tree g0 c r).
  { induction 1 as [c|c p r (b & H1) _ IH]; [apply rtc_refl|]. eapply rtc_l; [exists b; by apply (x_gpa _ _ _ X)|done]. }
  assert (Hsub : forall t m, cur g0 t m -> cur g t m) by apply X.
  (* a location of a new task *)
  assert (Hb : forall f fr' l m w a, birth nb s s' g0 g f fr' -> acs g0 l m w a -> floc l = Some f -> know s' g f m).
  { intros f fr' l m w a B A Hl. destruct (j_newf _ _ _ HJ _ _ _ _ _ A Hl (b_id _ _ _ _ _ _ _ B)) as (_ & t & Ht & Hc).
    by eapply (b_cur _ _ _ _ _ _ _ B). }
  assert (Hshl : forall f l, shared f l -> floc l = Some f).
  { intros f l [-> |[-> |[-> |[-> |(j & ->)]]]]; done. }
  assert (Hctl : forall f l w a, ctl f l w a -> floc l = Some f).
  { intros f l w a [(-> & _)|([-> | ->] & _)]; done. }
  assert (HL : forall f fr', s_frames s' !! f = Some fr' -> live s' f) by (intros; by eexists).
  constructor.
  - apply X.
  - intros l w a k m R A. destruct (x_acs _ _ _ X _ _ _ _ A) as [A0|Hfree]; [|by apply free_req in R]. clear A.
    destruct R as [f fr w a Hf|f fr w a Hf|f fr l w a Hf Hsh|f fr l w a Hf Hct|c fr p l w a Hf Hp Hct|i wk p l w a Hi Hw Hct|
      c fr p j w a Hf Hp|f fr j w a Hf Hj|f fr w a Hf He|c fr p frp w a Hf Hp Hfp He|c fr p e w a Hf Hp He|
      i wk p fr n w a Hi Hf Hla Hn|i wk w a Hi He|x f l w a Hs Hd|r fr w a Hf Hk Hr|r w a Hr|r fr w Hf|r w]; cbn [kn].
    + destruct (HF _ _ Hf) as [(fr0 & Hf0 & C)|B]; [|by eapply Hb].
      apply TK; [|by eapply HL]. eapply (j_req _ _ _ HJ _ _ _ (KF f)); [|exact A0]. by eapply rq_frame.
    + destruct (HF _ _ Hf) as [(fr0 & Hf0 & C)|B]; [|by eapply Hb].
      apply TK; [|by eapply HL]. eapply (j_req _ _ _ HJ _ _ _ (KF f)); [|exact A0]. by eapply rq_node.
    + destruct (HF _ _ Hf) as [(fr0 & Hf0 & C)|B]; [|left; eapply Hb; eauto].
      apply TP; [|by eapply HL]. eapply (j_req _ _ _ HJ _ _ _ (KP f)); [|exact A0]. by eapply rq_share.
    + destruct (HF _ _ Hf) as [(fr0 & Hf0 & C)|B]; [|eapply Hb; eauto].
      apply TK; [|by eapply HL]. eapply (j_req _ _ _ HJ _ _ _ (KF f)); [|exact A0]. by eapply rq_own.
    + destruct (HF _ _ Hf) as [(fr0 & Hf0 & C)|B].
      * apply TK; [|by eapply HL]. eapply (j_req _ _ _ HJ _ _ _ (KF c)); [|exact A0].
        rewrite (fc_kind _ _ _ _ _ _ _ C) in Hp. by eapply rq_kid.
      * rewrite par_cell in Hp. destruct (cellof (f_kind fr)) as [[p' j]|] eqn:Ec; [|done]. injection Hp as ->.
        destruct (b_cell _ _ _ _ _ _ _ B _ _ Ec) as (frp & Hfp & _).
        apply (b_par _ _ _ _ _ _ _ B p). { by rewrite par_cell, Ec. }
        eapply (j_req _ _ _ HJ _ _ _ (KF p)); [|exact A0]. by eapply rq_own.
    + destruct (HFin _ _ _ Hi Hw) as [(w0 & Hi0 & Hw0)|(c & frc & Hc & Hp & Hk)].
      * apply Hsub. eapply (j_req _ _ _ HJ _ _ _ (KT (TW i))); [|exact A0]. by eapply rq_fin.
      * apply Hk. eapply (j_req _ _ _ HJ _ _ _ (KF c)); [|exact A0]. by eapply rq_kid.
    + destruct (HF _ _ Hf) as [(fr0 & Hf0 & C)|B].
      * apply TK; [|by eapply HL]. eapply (j_req _ _ _ HJ _ _ _ (KF c)); [|exact A0].
        rewrite (fc_kind _ _ _ _ _ _ _ C) in Hp. by eapply rq_cell.
      * destruct (b_cell _ _ _ _ _ _ _ B _ _ Hp) as (frp & Hfp & Hj).
        apply (b_par _ _ _ _ _ _ _ B p). { by rewrite par_cell, Hp. }
        eapply (j_req _ _ _ HJ _ _ _ (KF p)); [|exact A0]. by eapply rq_newcell.
    + destruct (HF _ _ Hf) as [(fr0 & Hf0 & C)|B]; [|by eapply Hb].
      apply TK; [|by eapply HL]. eapply (j_req _ _ _ HJ _ _ _ (KF f)); [|exact A0]. eapply rq_newcell; [done|].
      pose proof (fc_len _ _ _ _ _ _ _ C). lia.
    + destruct (HF _ _ Hf) as [(fr0 & Hf0 & C)|B]; [|by eapply Hb].
      destruct (fc_eflag _ _ _ _ _ _ _ C He) as [He0|(_ & Hc)].
      * apply TK; [|by eapply HL]. eapply (j_req _ _ _ HJ _ _ _ (KF f)); [|exact A0]. by eapply rq_exn.
      * apply Hc. eapply (j_req _ _ _ HJ _ _ _ (KP f)); [|exact A0]. eapply rq_share; [done|].
        right; right; right; by left.
    + destruct (HF _ _ Hf) as [(fr0 & Hf0 & C)|B].
      * destruct (HF _ _ Hfp) as [(frp0 & Hfp0 & Cp)|B].
        -- destruct (fc_eflag _ _ _ _ _ _ _ Cp He) as [He0|(Hc & _)]; [|by apply Hc in Hf].
           apply TK; [|by eapply HL]. eapply (j_req _ _ _ HJ _ _ _ (KF c)); [|exact A0].
           rewrite (fc_kind _ _ _ _ _ _ _ C) in Hp. by eapply rq_exnk.
        -- exfalso. rewrite (fc_kind _ _ _ _ _ _ _ C) in Hp.
           pose proof (j_gpa2 _ _ _ HJ _ _ _ Hf0 Hp) as Hg. apply (j_gpa _ _ _ HJ) in Hg as (Hg & _).
           pose proof (b_id _ _ _ _ _ _ _ B). lia.
      * destruct (b_eflag _ _ _ _ _ _ _ B _ _ Hp Hfp He) as (frp0 & Hfp0 & He0).
        apply (b_par _ _ _ _ _ _ _ B p); [done|].
        eapply (j_req _ _ _ HJ _ _ _ (KF p)); [|exact A0]. by eapply rq_exn.
    + destruct (HF _ _ Hf) as [(fr0 & Hf0 & C)|B]; [|by apply (b_capt _ _ _ _ _ _ _ B) in He].
      rewrite (fc_kind _ _ _ _ _ _ _ C) in Hp.
      apply TK; [|by eapply HL]. eapply (j_req _ _ _ HJ _ _ _ (KF c)); [|exact A0].
      destruct (fc_capt _ _ _ _ _ _ _ C _ He) as [(e' & He')|(p' & frp & Hp' & Hfp & Hef)]; [by eapply rq_capt|].
      rewrite Hp in Hp'. injection Hp' as <-. by eapply rq_exnk.
    + by eapply HLast.
    + by eapply HStkw.
    + by eapply HStkd.
    + destruct (HF _ _ Hf) as [(fr0 & Hf0 & C)|B]; [|by eapply Hb].
      apply TK; [|by eapply HL]. eapply (j_req _ _ _ HJ _ _ _ (KF r)); [|exact A0].
      rewrite (fc_kind _ _ _ _ _ _ _ C) in Hk. eapply rq_res; [done|done|]. by eapply fc_sig.
    + destruct (HSem _ Hr) as [Hr0|(H & _)]; [|left; by eapply H].
      destruct (j_req _ _ _ HJ _ _ _ (KS r) _ (rq_sem _ _ _ _ Hr0) A0) as [H|H]; [left; by apply X|right; auto].
    + destruct (HF _ _ Hf) as [(fr0 & Hf0 & C)|B]; [|by eapply Hb].
      apply TK; [|by eapply HL]. eapply (j_req _ _ _ HJ _ _ _ (KF r)); [|exact A0]. by eapply rq_semk.
    + apply Hsub. eapply (j_req _ _ _ HJ _ _ _ (KT (TX r))); [|exact A0]. by eapply rq_semc.
  - intros c a b m H1 H2. apply (HNear c); [auto|]. by apply X.
  - intros c r m Hs Ht Hc. apply Htree in Ht. apply (x_cod _ _ _ X) in Hc.
    destruct (HSem _ Hs) as [Hr0|(_ & H)]; [|by eapply H].
    apply X; [done|]. by eapply (j_done _ _ _ HJ).
  - intros f m Hc. apply (x_cod _ _ _ X) in Hc. destruct (j_cod _ _ _ HJ _ _ Hc) as (H1 & H2). split; [lia|].
    by apply X.
  - intros l m w a f A Hl Hf. destruct (x_acs _ _ _ X _ _ _ _ A) as [A0|(i & [-> |[-> | ->]])]; try done.
    destruct (j_newf _ _ _ HJ _ _ _ _ _ A0 Hl) as (-> & t & Hnb & _); [lia|].
    destruct HN as [->|(H & _)]; [done|]. specialize (H _ _ _ _ A0 Hl). lia.
  - intros x m w a A Hx. destruct (x_acs _ _ _ X _ _ _ _ A) as [A0|(i & [H|[H|H]])]; try done.
    destruct (j_news _ _ _ HJ _ _ _ _ A0) as (-> & t & Hnb & _); [lia|].
    destruct HN as [->|(_ & H & _)]; [done|]. specialize (H _ _ _ A0). lia.
  - intros c p b Hg. pose proof Hg as Hg0. apply (x_gpa _ _ _ X) in Hg0.
    destruct (j_gpa _ _ _ HJ _ _ _ Hg0) as (H1 & H2 & H3). split; [lia|]. split.
    + left. destruct HN as [->|(_ & _ & H)]; [destruct H2 as [?|?]; [lia|done]|by eapply H].
    + intros fr Hf. destruct (HF _ _ Hf) as [(fr0 & Hf0 & C)|B].
      * rewrite (fc_kind _ _ _ _ _ _ _ C). auto.
      * by apply (b_gpa _ _ _ _ _ _ _ B).
  - intros c fr p Hf Hp. destruct (HF _ _ Hf) as [(fr0 & Hf0 & C)|B].
    + rewrite (fc_kind _ _ _ _ _ _ _ C) in Hp |- *. apply (x_gpa _ _ _ X). by eapply HJ.
    + by apply (b_gpa _ _ _ _ _ _ _ B).
  - apply X.
Qed.

(** ** Steps that create and destroy nothing *)

Lemma near_dom s s' g c a b :
  (forall f, live s f <-> live s' f) -> near s' g c a b -> near s g c a b.
Proof.
  intros D. assert (DN : forall f, s_frames s' !! f = None -> s_frames s !! f = None).
  { intros f. specialize (D f). unfold live in D. destruct (s_frames s !! f), (s_frames s' !! f); try done.
    intros _. destruct D as (D & _). destruct D; [eauto|done]. }
  induction 1 as [c p b fr H1 H2 H3|c p b a b' H1 H2 H3 _ IH].
  - assert (live s p) as (frp & Hp) by (apply D; by exists fr). eapply near_one; eauto.
  - eapply near_step; eauto.
Qed.

Lemma near_live s g c a b : near s g c a b -> live s a.
Proof. induction 1 as [c p b fr H1 H2 H3|]; [by exists fr|done]. Qed.

Lemma stk_live nw G s x f l : inv nw G s -> stk s x = f :: l -> live s f.
Proof.
  intros I H. destruct (so_dom _ _ _ (i_stk _ _ _ I) f x) as (k & Hk); [rewrite H; by left|].
  apply shape_lookup_inv in Hk as (fr & ? & _). by exists fr.
Qed.

Definition wsim (w w' : worker) : Prop :=
  pc_tok (w_pc w') = pc_tok (w_pc w) /\ w_deque w' = w_deque w /\ w_inbox w' = w_inbox w /\
  w_batch w' = w_batch w /\ final_of w' = final_of w /\ eff w' = eff w /\ w_stk w' = w_stk w.

Lemma wsim_refl w : wsim w w.
Proof. done. Qed.

Lemma wsim_know g i w w' f m : wsim w w' -> wknow g i w f m -> wknow g i w' f m.
Proof. intros (E1 & E2 & E3 & E4 & _). unfold wknow. by rewrite E1, E2, E3, E4. Qed.

Definition rp_keep (r r' : rpoint) : Prop :=
  match r with
  | RJoin k => r' = RJoin k
  | RCall x y k => r' = RCall x y k
  | _ => True
  end.

Lemma J_local s s' g :
  (forall x f l, stk s x = f :: l -> live s f) -> J None s g ->
  (forall x, stk s' x = stk s x) -> s_nextf s' = s_nextf s -> s_nexts s' = s_nexts s ->
  (forall r, 0 < sem s' r -> 0 < sem s r \/
     (forall m w a, acs g (LRes r) m w a -> msg g (OSem r) m) /\
     (forall c m, tree g c r -> cod g c m -> msg g (OSem r) m)) ->
  (forall i, match s_workers s !! i, s_workers s' !! i with
             | Some w, Some w' => wsim w w'
             | None, None => True
             | _, _ => False end) ->
  (forall f fr', s_frames s' !! f = Some fr' -> exists fr, s_frames s !! f = Some fr /\
     fcompat s s' g g f fr fr' /\ f_joins fr' = f_joins fr /\ rp_keep (f_rp fr) (f_rp fr')) ->
  (forall f, live s f -> live s' f) ->
  (forall i w w' p fr fr', s_workers s !! i = Some w -> s_workers s' !! i = Some w' ->
     s_frames s !! p = Some fr -> s_frames s' !! p = Some fr' -> lastc w' p fr' ->
     lastc w p fr /\ length (f_cells fr') = length (f_cells fr)) ->
  J None s' g.
Proof.
  intros I HJ Hst Hnf Hns Hsem Hw HF Hlv Hla.
  assert (W1 : forall i w, s_workers s !! i = Some w -> exists w', s_workers s' !! i = Some w' /\ wsim w w').
  { intros i w E. specialize (Hw i). rewrite E in Hw. destruct (s_workers s' !! i); [eauto|done]. }
  assert (W2 : forall i w', s_workers s' !! i = Some w' -> exists w, s_workers s !! i = Some w /\ wsim w w').
  { intros i w' E. specialize (Hw i). rewrite E in Hw. destruct (s_workers s !! i); [eauto|done]. }
  assert (D : forall f, live s f <-> live s' f).
  { intros f. split; [auto|]. intros (fr' & H). destruct (HF _ _ H) as (fr & ? & _). by exists fr. }
  assert (TK : forall f m, know s g f m -> live s' f -> know s' g f m).
  { apply know_lift.
    - intros i w f m Hi Hk _. destruct (W1 _ _ Hi) as (w' & Hi' & Hs). eapply kn_wrk; [done|]. by eapply wsim_know.
    - intros f fr k m Hf Hr Hm (fr' & Hf'). destruct (HF _ _ Hf') as (fr0 & Hf0 & _ & _ & Hk). simplify_eq.
      rewrite Hr in Hk. by eapply kn_join.
    - intros f fr x y k c frc j st Hf Hr Hc Hk (fr' & Hf'). left.
      destruct (HF _ _ Hf') as (fr0 & Hf0 & _ & _ & Hkp). simplify_eq. rewrite Hr in Hkp.
      destruct (Hlv c) as (frc' & Hc'); [by exists frc|]. destruct (HF _ _ Hc') as (frc0 & Hc0 & C & _). simplify_eq.
      exists fr', x, y, k, frc'. split_and!; try done. by apply C. }
  assert (TP : forall f m, pend s g f m -> live s' f -> pend s' g f m).
  { intros f m Hp Hl. revert Hp. apply pend_lift; [done|done|..].
    - intros fr Hf Hj Hm. right; left. split; [done|]. destruct Hl as (fr' & Hf').
      destruct (HF _ _ Hf') as (fr0 & Hf0 & _ & Hk & _). simplify_eq. exists fr'. by rewrite Hk.
    - intros c fr j st Hc Hk. left. destruct (Hlv c) as (frc' & Hc'); [by exists fr|].
      destruct (HF _ _ Hc') as (frc0 & Hc0 & C & _). simplify_eq. exists frc'. split; [done|]. by apply C.
    - intros i w Hi Hfi Hc. destruct (W1 _ _ Hi) as (w' & Hi' & Hs). right; right; right. exists i, w'.
      split_and!; [done| |done]. destruct Hs as (_ & _ & _ & _ & -> & _). done. }
  eapply (J_trans None s g s' g); [done|by eapply ext_refl|lia|lia|by left|..]; try done.
  - intros f fr' Hf'. left. destruct (HF _ _ Hf') as (fr & Hf & C & _). eauto.
  - intros i w' p Hi' Hfi. left. destruct (W2 _ _ Hi') as (w & Hi & Hs). exists w. split; [done|].
    destruct Hs as (_ & _ & _ & _ & <- & _). done.
  - intros i w' p fr' n m w a Hi' Hf' Hl Hn A. destruct (W2 _ _ Hi') as (wk & Hi & Hs).
    destruct (HF _ _ Hf') as (fr & Hf & _). destruct (Hla _ _ _ _ _ _ Hi Hi' Hf Hf' Hl) as (Hl0 & En).
    rewrite En in Hn. refine (j_req _ _ _ HJ _ _ _ (KT (TW i)) _ (rq_last _ _ _ _ _ _ _ _ Hi Hf Hl0 Hn) A).
  - intros i w' m w a Hi' He A. destruct (W2 _ _ Hi') as (wk & Hi & Hs).
    destruct Hs as (_ & _ & _ & _ & _ & E1 & E2). rewrite E1 in He. rewrite E2 in A.
    refine (j_req _ _ _ HJ _ _ _ (KT (TW i)) _ (rq_stkw _ _ _ _ _ Hi He) A).
  - intros x f l m w a Hx Hd A. rewrite Hst in Hx.
    assert (Hd0 : detached s x).
    { intros i wk Hi He. destruct (W1 _ _ Hi) as (w' & Hi' & (_ & _ & _ & _ & _ & E1 & E2)).
      rewrite <- E2. apply (Hd i w' Hi'). by rewrite E1. }
    pose proof (j_req _ _ _ HJ _ _ _ (KP f) _ (rq_stkd _ _ _ _ _ _ Hx Hd0) A) as Hp. cbn in Hp.
    apply TP; [done|]. apply Hlv. by eapply I.
  - intros c a b m Hn Hc. apply (near_dom s) in Hn; [|done].
    pose proof (j_near _ _ _ HJ _ _ _ _ Hn Hc) as X.
    pose proof (near_live _ _ _ _ _ Hn). destruct b; auto.
Qed.
