(** * The memory bound: proofs for C69. *)

From stdpp Require Import prelude gmap list.
From Coq Require Import NArith Lia.
From Verif Require Import RuntimeModel RuntimeSpec RuntimeInv RuntimeSafe RuntimeHist RuntimeHist2
  RuntimeHist3 RuntimeHist4 RuntimeThms SpaceSpec.
Local Open Scope N_scope.

(** ** Every leaf is held by a worker or waits in a queue *)

(** The task a worker is about to touch. *)
Definition hold (w : worker) : option N :=
  match w_pc w with
  | PStolen f | PRun f | PJSusp f | PFinal f | PSub f => Some f
  | PSelf | PSwRel _ => head (w_deque w)
  | PIdle | PLoseRel => None
  end.

Definition childless (s : state) (f : N) : Prop :=
  forall c frc, s_frames s !! c = Some frc -> par (f_kind frc) <> Some f.

Lemma ghost_child nw G s c frc d j x :
  inv nw G s -> s_frames s !! c = Some frc -> G c = Some (d, j, x) -> ~ childless s d.
Proof.
  intros I. revert frc. induction c as [c IH] using (well_founded_induction N.lt_wf_0).
  intros frc Hc HG Hno. pose proof (shape_lookup _ _ _ Hc) as Hs.
  pose proof (i_ghost _ _ _ I _ _ _ Hs) as Hg.
  destruct (f_kind frc) as [|p i st|p i st] eqn:Ek; cbn in Hg.
  - congruence.
  - destruct (inv_parent _ _ _ _ _ _ p I Hs eq_refl) as (frp & Hp).
    destruct (i_kid _ _ _ I _ _ _ p _ Hs eq_refl Hp) as (_ & Hlt).
    eapply (IH p Hlt frp Hp); [congruence|done].
  - rewrite HG in Hg. injection Hg as -> -> ->. eapply Hno; [exact Hc|]. by rewrite Ek.
Qed.

Lemma links_parents nw G s c frc D d :
  inv nw G s -> s_frames s !! c = Some frc -> links (s_frames s) G (G c) D -> d ∈ D -> ~ childless s d.
Proof.
  intros I. revert c frc. induction D as [|a D IH]; intros c frc Hc HL Hd; [inversion Hd|].
  destruct HL as (i & x & fr & E & Ha & _ & _ & HL).
  apply elem_of_cons in Hd as [->|Hd]; [|exact (IH a fr Ha HL Hd)].
  exact (ghost_child nw G s c frc a i x I Hc E).
Qed.

Lemma links_tail nw G s a D d D' :
  inv nw G s -> links (s_frames s) G a (d :: D) -> D' ∈ D -> ~ childless s D'.
Proof.
  intros I (i & x & fr & E & Ha & _ & _ & HL) Hd. exact (links_parents nw G s d fr D D' I Ha HL Hd).
Qed.

(** A leaf is held by a worker, or waits in a submission list. *)
Lemma leaf_held nw G s f fr :
  inv nw G s -> s_frames s !! f = Some fr -> childless s f ->
  exists i w, s_workers s !! i = Some w /\
    (hold w = Some f \/ f ∈ w_inbox w ++ w_batch w).
Proof.
  intros I Hf Hno. pose proof (i_node _ _ _ I f fr Hf) as (N1 & N2 & _ & _ & N5).
  assert (Hnf : nforks f (shape_of (s_frames s)) = 0).
  { destruct (decide (0 < nforks f (shape_of (s_frames s)))) as [Hp|]; [|lia]. exfalso.
    apply cntm_ex in Hp as (c & (k' & x) & Hc & Hk). unfold is_fork in Hk. cbn in Hk.
    destruct k' as [|p' i' st'|p' i' st']; try done. apply bool_decide_eq_true in Hk as ->.
    apply shape_lookup_inv in Hc as (frc & Hc & E). eapply Hno; [exact Hc|].
    injection E as E1 E2. by rewrite <- E1. }
  assert (Hnc : ncalls f (shape_of (s_frames s)) = 0).
  { destruct (decide (0 < ncalls f (shape_of (s_frames s)))) as [Hp|]; [|lia]. exfalso.
    apply cntm_ex in Hp as (c & (k' & x) & Hc & Hk). unfold is_call in Hk. cbn in Hk.
    destruct k' as [|p' i' st'|p' i' st']; try done. apply bool_decide_eq_true in Hk as ->.
    apply shape_lookup_inv in Hc as (frc & Hc & E). eapply Hno; [exact Hc|].
    injection E as E1 E2. by rewrite <- E1. }
  assert (Hd : 0 < sumw (wtok f) (s_workers s) \/ 0 < sumw (wsub f) (s_workers s)).
  { destruct (f_rp fr); lia. }
  destruct Hd as [Hd|Hd].
  - apply sumw_ex in Hd as (i & w & Hi & Hw). exists i, w. split; [done|].
    unfold wtok in Hw.
    destruct (decide (f ∈ w_inbox w ++ w_batch w)) as [Hb|Hb]; [by right|left].
    apply occ_notin in Hb. rewrite occ_app in Hb.
    destruct (decide (0 < occ f (pc_tok (w_pc w)))) as [Hp|Hp].
    { unfold hold, pc_tok in *. apply occ_in in Hp.
      destruct (w_pc w); try (inversion Hp; fail); apply elem_of_list_singleton in Hp as ->; done. }
    assert (Hq : f ∈ w_deque w) by (apply occ_in; lia).
    destruct (i_wrk _ _ _ I i w Hi) as ((_ & W) & _). unfold hold.
    assert (Htl : forall a, links (s_frames s) G a (w_deque w) -> head (w_deque w) = Some f).
    { intros a HL. destruct (w_deque w) as [|d D]; [inversion Hq|].
      apply elem_of_cons in Hq as [->|Hq]; [done|]. exfalso. by eapply links_tail. }
    destruct (w_pc w) as [|g|g|p|p| |g|b|] eqn:Epc.
    + destruct W as (E & _). rewrite E in Hq. inversion Hq.
    + destruct W as (E & _). rewrite E in Hq. inversion Hq.
    + destruct W as (frg & Hg & _ & _ & HL & _). exfalso. by eapply links_parents.
    + destruct W as ((j & HL) & _). specialize (Htl _ HL).
      destruct (w_deque w) as [|d D]; [inversion Hq|]. cbn in Htl. injection Htl as ->.
      destruct HL as (? & ? & ? & E & _). congruence.
    + destruct W as (E & _). rewrite E in Hq. inversion Hq.
    + rewrite W in Hq. inversion Hq.
    + destruct W as (frg & k & Hg & _ & _ & _ & HL). exfalso. by eapply links_parents.
    + destruct W as ((a & HL) & _). by eapply Htl.
    + destruct W as ((a & HL) & _). by eapply Htl.
  - apply sumw_ex in Hd as (i & w & Hi & Hw). exists i, w. split; [done|]. left.
    unfold wsub in Hw. unfold hold. destruct (w_pc w); try lia; unfold eqn in Hw; case_decide; try lia; by subst.
Qed.

(** ** The frames that exist and the history *)

Lemma runs_dec s f : (exists i, runs s i f) \/ (forall i, ~ runs s i f).
Proof.
  unfold runs. induction (pcs s) as [|p ps IH].
  - right. intros i (p & Hp & _). done.
  - destruct (decide (pcrun p = Some f)) as [E|E].
    + left. exists 0%nat, p. done.
    + destruct IH as [(i & q & Hq & Eq)|IH].
      * left. exists (S i), q. done.
      * right. intros [|i] (q & Hq & Eq); [cbn in Hq; congruence|]. apply (IH i). eauto.
Qed.

Lemma exists_frame nw af s h f :
  reach nw af s h -> exists_in h f = true <-> exists fr, s_frames s !! f = Some fr.
Proof.
  intros HR. pose proof (reach_stat af nw s h HR) as T. destruct (reach_inv _ _ _ _ HR) as (G & I).
  unfold exists_in. split.
  - intros E. destruct (s_frames s !! f) as [fr|] eqn:Hf; [eauto|]. exfalso.
    destruct (decide (f < s_nextf s)) as [Hl|Hl].
    + by rewrite (t_dead _ _ T f Hl Hf) in E.
    + by rewrite (t_new _ _ T f ltac:(lia)) in E.
  - intros (fr & Hf). destruct (runs_dec s f) as [(i & Hr)|Hr].
    + by rewrite (t_run _ _ T i f Hr).
    + pose proof (t_sus _ _ T f fr Hf Hr) as Hs. unfold susp_ok in Hs.
      destruct (f_rp fr); try done.
      all: try (by rewrite Hs).
      all: destruct Hs as (c & st' & E & _); by rewrite E.
Qed.

Lemma waits_frame nw af s h i w f :
  reach nw af s h -> s_workers s !! i = Some w -> f ∈ w_inbox w ++ w_batch w -> waits_in h f = true.
Proof.
  intros HR Hi Hin. pose proof (reach_stat af nw s h HR) as T. destruct (reach_inv _ _ _ _ HR) as (G & I).
  destruct (i_wrk _ _ _ I i w Hi) as ((W & _) & _). destruct (W f Hin) as (fr & Hf & Hrp).
  assert (Hr : forall j, ~ runs s j f).
  { eapply nobody; [done|exact Hf|]. right. exists i, w. left. split; [done|].
    apply occ_in in Hin. rewrite occ_app in Hin. unfold wtok. lia. }
  pose proof (t_sus _ _ T f fr Hf Hr) as Hs. unfold waits_in, susp_ok in *.
  destruct (f_rp fr); try done; by rewrite Hs.
Qed.

Lemma tasks_body h f t : (f, t) ∈ tasks_in h -> body_in f h <> None.
Proof.
  induction h as [|e h IH]; [by intros H%elem_of_nil|]. destruct e; cbn; intros H; auto;
    (apply elem_of_cons in H as [E|H]; [injection E as <- <-; by rewrite decide_True|]; case_decide; auto).
Qed.

Lemma body_tasks h f t : body_in f h = Some t -> (f, t) ∈ tasks_in h.
Proof.
  induction h as [|e h IH]; [done|]. destruct e; cbn; auto; case_decide; intros E;
    try (injection E as <-; subst; by left); right; auto.
Qed.

Lemma tasks_nodup af h : evs_ok af h -> NoDup (map fst (tasks_in h)).
Proof.
  induction h as [|e h IH]; [constructor|]. intros [He Hok]. specialize (IH Hok).
  destruct e; cbn in *; try done; constructor; try done;
    intros ((f', t') & E & Hin)%elem_of_list_fmap; cbn in E; subst f';
    apply tasks_body in Hin; try (by destruct He); destruct He as (_ & He & _); done.
Qed.

Lemma tasks_unique af h f t : evs_ok af h -> (f, t) ∈ tasks_in h -> body_in f h = Some t.
Proof.
  intros Hok Hin. destruct (body_in f h) as [t'|] eqn:E; [|by apply tasks_body in Hin].
  apply body_tasks in E. pose proof (tasks_nodup af h Hok) as Hnd.
  f_equal. revert Hin E Hnd. induction (tasks_in h) as [|(g, u) l IH]; [by intros H%elem_of_nil|].
  intros H1 H2 Hnd. cbn in Hnd. apply NoDup_cons in Hnd as (Hn & Hnd).
  assert (Hx : forall u', (g, u') ∈ l -> False).
  { intros u' Hu. apply Hn. apply elem_of_list_fmap. by exists (g, u'). }
  apply elem_of_cons in H1 as [E1|H1]; apply elem_of_cons in H2 as [E2|H2].
  - congruence.
  - injection E1 as -> ->. by destruct (Hx t').
  - injection E2 as -> ->. by destruct (Hx t).
  - auto.
Qed.

Lemma in_keep {A} (P : A -> bool) l x : x ∈ keep P l <-> x ∈ l /\ P x = true.
Proof. rewrite !elem_of_list_In. apply filter_In. Qed.

Lemma keep_nodup {A B} (P : A -> bool) (g : A -> B) l : NoDup (map g l) -> NoDup (map g (keep P l)).
Proof.
  induction l as [|a l IH]; [done|]. cbn. intros (Hn & Hnd)%NoDup_cons.
  destruct (P a); cbn; [|auto]. apply NoDup_cons. split; [|auto].
  intros (x & E & Hx)%elem_of_list_fmap. apply Hn. apply elem_of_list_fmap. exists x.
  apply in_keep in Hx as (Hx & _). done.
Qed.

(** A list without duplicates is not longer than one that contains it. *)
Lemma pigeon (l l' : list N) : NoDup l -> l ⊆ l' -> (length l <= length l')%nat.
Proof. intros Hn Hs. apply submseteq_length, NoDup_submseteq; [done|]. intros x. apply Hs. Qed.

Lemma holders_length s : (length (omap hold (s_workers s)) <= length (s_workers s))%nat.
Proof. induction (s_workers s) as [|w ws IH]; cbn; [lia|]. destruct (hold w); cbn; lia. Qed.

Lemma leaves_bound nw af s h (l : list N) :
  reach nw af s h -> NoDup l ->
  (forall f, f ∈ l -> (exists fr, s_frames s !! f = Some fr) /\ childless s f) ->
  (length l <= nw + length (waiting_tasks h))%nat.
Proof.
  intros HR Hn Hl. destruct (reach_inv _ _ _ _ HR) as (G & I).
  destruct (reach_hist af nw s h HR) as (H & _).
  assert (Hs : l ⊆ omap hold (s_workers s) ++ map fst (waiting_tasks h)).
  { intros f Hf. destruct (Hl f Hf) as ((fr & Hfr) & Hno).
    destruct (leaf_held nw G s f fr I Hfr Hno) as (i & w & Hi & [Hh|Hq]).
    - apply elem_of_app. left. apply elem_of_list_omap. exists w. split; [|done].
      by eapply elem_of_list_lookup_2.
    - apply elem_of_app. right. pose proof (waits_frame nw af s h i w f HR Hi Hq) as Hw.
      assert (Hlt : f < s_nextf s).
      { destruct (decide (f < s_nextf s)); [done|]. rewrite (i_fresh _ _ _ I f) in Hfr; [done|lia]. }
      destruct (g_old _ _ _ H f Hlt) as (t & Ht).
      apply elem_of_list_fmap. exists (f, t). split; [done|]. apply in_keep. split; [|done].
      by apply body_tasks. }
  pose proof (pigeon _ _ Hn Hs) as Hp. rewrite app_length, map_length in Hp.
  pose proof (holders_length s) as Hh. rewrite (i_len _ _ _ I) in Hh. lia.
Qed.

Lemma kid_frame nw af s h c frc p :
  reach nw af s h -> s_frames s !! c = Some frc -> par (f_kind frc) = Some p ->
  exists st, (c, st) ∈ kids_in p h.
Proof.
  intros HR Hc Hp. destruct (reach_hist af nw s h HR) as (H & _).
  pose proof (k_kind _ _ _ _ (g_frames _ _ _ H c frc Hc)) as Hk.
  destruct (f_kind frc) as [|q j st|q j st]; try done; cbn in Hp; injection Hp as ->;
    exists st; by eapply elem_of_list_lookup_2.
Qed.

Lemma leaf_childless nw af s h f : reach nw af s h -> leaf_in h f = true -> childless s f.
Proof.
  intros HR Hl c frc Hc Hp. destruct (kid_frame _ _ _ _ _ _ _ HR Hc Hp) as (st & Hin).
  unfold leaf_in in Hl. rewrite forallb_forall in Hl. apply elem_of_list_In in Hin.
  specialize (Hl _ Hin). cbn in Hl.
  assert (exists_in h c = true) by (eapply exists_frame; [done|eauto]). by rewrite H in Hl.
Qed.

Theorem leaf_tasks_bound nw af s h :
  reach nw af s h -> count (leaf_tasks h) <= N.of_nat nw + count (waiting_tasks h).
Proof.
  intros HR. destruct (reach_hist af nw s h HR) as (H & _).
  pose proof (tasks_nodup af h (g_evs _ _ _ H)) as Hn.
  assert (Hb : (length (map fst (leaf_tasks h)) <= nw + length (waiting_tasks h))%nat).
  { eapply leaves_bound; [done| |].
    - unfold leaf_tasks, live_tasks. by do 2 apply keep_nodup.
    - intros f ((f', t) & -> & Hin)%elem_of_list_fmap. cbn.
      apply in_keep in Hin as (Hin & Hlf). apply in_keep in Hin as (Hin & Hex). cbn in *.
      split; [by eapply exists_frame|by eapply leaf_childless]. }
  rewrite map_length in Hb. unfold count. lia.
Qed.

(** ** The rest of a task needs no more than the task *)

Section space.
Context (sz : task -> N).

Definition fits_rp (n : N) (rp : rpoint) : Prop :=
  match rp with
  | RRun t | RSwitched _ t => fits sz n t
  | RFork _ _ k _ => forall r, fits sz n (k r)
  | RCall _ _ k => forall r, fits sz n (k r)
  | RJoin k => forall cs r, fits sz n (k cs r)
  | RCapture _ | RFinal | RSignalled => True
  end.

(** Frame [fr'] of [f] after a step: a frame that existed before, or a new one. *)
Definition older (s : state) (f : N) (fr' : frame) : Prop :=
  exists fr, s_frames s !! f = Some fr /\ f_kind fr' = f_kind fr /\
    forall n, fits_rp n (f_rp fr) -> fits_rp n (f_rp fr').
Definition born (l : label) (s : state) (f : N) (fr' : frame) (tr : list event) : Prop :=
  f = s_nextf s /\ exists t, f_rp fr' = RRun t /\ (forall h, body_in f (rev tr ++ h) = Some t) /\
    ((par (f_kind fr') = None /\ exists d, l = LSpawn d t) \/
     exists p frp, par (f_kind fr') = Some p /\ s_frames s !! p = Some frp /\
       forall n, fits_rp n (f_rp frp) -> exists n', sz t + n' <= n /\ fits sz n' t).
Definition evolves (l : label) (s : state) (r : res) : Prop :=
  forall s' tr, r = Next s' tr ->
    (forall f fr', s_frames s' !! f = Some fr' -> older s f fr' \/ born l s f fr' tr) /\
    (forall f h, f <> s_nextf s -> body_in f (rev tr ++ h) = body_in f h).

Lemma older_refl s f fr : s_frames s !! f = Some fr -> older s f fr.
Proof. intros H. exists fr. done. Qed.

Ltac lookups :=
  repeat match goal with
  | H : <[_ := _]> _ !! _ = Some _ |- _ => apply lookup_insert_Some in H as [(<- & <-)|(? & H)]
  | H : delete _ _ !! _ = Some _ |- _ => apply lookup_delete_Some in H as (? & H)
  end.
Ltac fit :=
  intros n Hfit; repeat match goal with E : f_rp _ = _ |- _ => rewrite E in Hfit; clear E end;
  cbn in Hfit |- *; try done; try (inversion Hfit; subst; auto; fail); auto.
Ltac old1 :=
  left; first [by apply older_refl | eexists; split_and!; [eassumption|reflexivity|fit]].
Ltac bodies := intros ? ? ?; cbn; try done; try (rewrite decide_False by congruence; done).
Ltac solve_ev :=
  intros s' tr E; injection E as <- <-; split; [|bodies];
  intros g frg Hg; cbn in Hg; lookups; old1.

Lemma rethrow_kind fr o fr' : unsafe_rethrow fr = Some (o, fr') -> f_kind fr' = f_kind fr.
Proof. unfold unsafe_rethrow. intros E. repeat case_match; try done; by injection E as <- <-. Qed.

Lemma ev_join_resume l i w f fr fr0 k s s1 tr0 :
  s_frames s !! f = Some fr0 -> s_frames s1 = <[f := fr]> (s_frames s) \/ (s_frames s1 = s_frames s /\ fr = fr0) ->
  f_kind fr = f_kind fr0 -> Forall silent tr0 ->
  (forall n, fits_rp n (f_rp fr0) -> forall cs r, fits sz n (k cs r)) ->
  evolves l s (join_resume i w f fr k s1 tr0).
Proof.
  intros Hf Hs Hk Htr Hfit s' tr E. unfold join_resume in E. case_decide; [|done].
  destruct (same_stacklet _ _ _ _) as [[]|]; try done.
  destruct (unsafe_rethrow fr) as [(o & f0)|] eqn:Er; [|done]. apply rethrow_kind in Er.
  injection E as <- <-. split; cycle 1.
  { intros g h Hg. rewrite rev_app_distr. cbn.
    destruct (silent_app (rev tr0) h) as (_ & X & _); [by apply Forall_rev|apply X]. }
  intros g frg Hg; cbn in Hg; destruct Hs as [Hs|(Hs & ->)]; rewrite Hs in Hg; lookups.
  all: try (left; by apply older_refl).
  all: left; exists fr0; split_and!; [done|change (f_kind f0 = f_kind fr0); congruence|cbn; intros n Hn; by apply Hfit].
Qed.

Lemma ev_put_worker l s j w1 s1 tr : evolves l s (Next s1 tr) -> evolves l s (Next (put_worker j w1 s1) tr).
Proof. intros X s' tr' E. injection E as <- <-. exact (X s1 tr eq_refl). Qed.

Lemma ev_idle l s i w s1 tr : evolves l s (Next s1 tr) -> evolves l s (to_idle i w s1 tr).
Proof. intros X. unfold to_idle. repeat case_match; try (intros ? ? E; done). by apply ev_put_worker. Qed.

Lemma ev_undef l s : evolves l s Undef.
Proof. intros ? ? E. done. Qed.
Lemma ev_blocked l s : evolves l s Blocked.
Proof. intros ? ? E. done. Qed.

Lemma ev_call_resume seen l i w p frp m st k s s1 f fr tr0 :
  s_frames s !! p = Some frp -> f_rp frp = RCall m st k ->
  s_frames s1 = delete f (s_frames s) -> s_frames s !! f = Some fr -> Forall silent tr0 ->
  evolves l s (call_resume seen i w p frp m st k s1 tr0).
Proof.
  intros Hp Erp Hs Hf Htr s' tr E.
  assert (X : exists frp' t tr1, s' = put_worker i (set_pc (PRun p) w) (put_frame p (set_rp (RRun t) frp') s1) /\
    tr = tr0 ++ tr1 /\ (tr1 = [] \/ exists e, tr1 = [EvEager p e]) /\ f_kind frp' = f_kind frp /\ exists r, t = k r).
  { unfold call_resume in E. destruct (unsafe_rethrow frp) as [(o & f0)|] eqn:Er; [apply rethrow_kind in Er|];
      repeat (first [case_decide | match type of E with context [match ?x with _ => _ end] => destruct x eqn:? end]);
      try done; injection E as <- <-; eexists _, _, _; (split; [reflexivity|]); (split; [reflexivity|]); eauto 6. }
  destruct X as (frp' & t & tr1 & -> & -> & Htr1 & Hk & r & ->). split; cycle 1.
  { intros g h Hg. rewrite rev_app_distr, <- app_assoc.
    assert (Y : forall h', body_in g (rev tr1 ++ h') = body_in g h') by (by destruct Htr1 as [->|(e & ->)]).
    rewrite Y. destruct (silent_app (rev tr0) h) as (_ & X & _); [by apply Forall_rev|apply X]. }
  intros g frg Hg. cbn in Hg. rewrite Hs in Hg. lookups; [|left; by apply older_refl].
  left. exists frp. split_and!; [done|done|]. intros n. rewrite Erp. cbn. auto.
Qed.

Lemma ev_fork_resume seen l i w f fr m st k pre s :
  s_frames s !! f = Some fr -> f_rp fr = RFork m st k pre ->
  evolves l s (fork_resume seen i w f fr m st k pre s).
Proof.
  intros Hf Erp s' tr E.
  assert (X : exists fr' t, s' = put_frame f (set_rp (RRun t) fr') s /\
    (tr = [] \/ (exists c, tr = [EvSync f c]) \/ exists e, tr = [EvEager f e]) /\ f_kind fr' = f_kind fr /\ exists r, t = k r).
  { unfold fork_resume in E. destruct (unsafe_rethrow fr) as [(o & f0)|] eqn:Er; [apply rethrow_kind in Er|];
      repeat (first [case_decide | match type of E with context [match ?x with _ => _ end] => destruct x eqn:? end]);
      try done; injection E as <- <-; eexists _, _; (split; [reflexivity|]); eauto 8. }
  destruct X as (fr' & t & -> & Htr & Hk & r & ->). split; cycle 1.
  { intros g h Hg. by destruct Htr as [->|[(c & ->)|(e & ->)]]. }
  intros g frg Hg. cbn in Hg. lookups; [|left; by apply older_refl].
  left. exists fr. split_and!; [done|done|]. intros n. rewrite Erp. cbn. auto.
Qed.

Lemma ev_child l i fk w f fr st c (kd : kind) fr1 w1 s m st' :
  s_frames s !! f = Some fr -> s_frames s !! s_nextf s = None ->
  f_kind fr1 = f_kind fr -> par kd = Some f ->
  (forall n, fits_rp n (f_rp fr) -> fits_rp n (f_rp fr1)) ->
  (forall n, fits_rp n (f_rp fr) -> exists n', sz c + n' <= n /\ fits sz n' c) ->
  m = s_nextf s ->
  evolves l s (Next (put_worker i w1 (spawn_child w kd c (put_frame f fr1 s)))
    [(if fk : bool then EvFork f m st c else EvCall f m st' c); EvResume i m]).
Proof.
  intros Hf Hn Hk Hkd H1 H2 -> s' tr E. injection E as <- <-. split; cycle 1.
  { intros g h Hg. destruct fk; cbn; by rewrite decide_False by done. }
  intros g frg Hg. cbn in Hg. lookups.
  - right. split; [done|]. exists c. split_and!; [done|intros h; destruct fk; cbn; by rewrite decide_True|].
    right. exists f, fr. done.
  - left. by exists fr.
  - left. by apply older_refl.
Qed.

Lemma destroy_frames w f fr s s1 : destroy w f fr s = Some s1 -> s_frames s1 = delete f (s_frames s).
Proof. unfold destroy. intros E. repeat case_match; try done. by injection E as <-. Qed.

Lemma ev_deliver l s f fr t o :
  s_frames s !! f = Some fr -> f_rp fr = RRun t -> evolves l s (deliver f fr o s).
Proof.
  intros Hf Erp. unfold deliver.
  repeat (first [case_decide | match goal with |- context [match ?x with _ => _ end] => destruct x eqn:? end]);
    try apply ev_undef; solve_ev.
Qed.

Lemma ev_capture l s f fr e :
  s_frames s !! f = Some fr -> evolves l s (capture f fr e s).
Proof.
  intros Hf. unfold capture.
  repeat (first [case_decide | match goal with |- context [match ?x with _ => _ end] => destruct x eqn:? end]);
    try apply ev_undef; solve_ev.
Qed.

Lemma ev_finish seen l i w f fr s :
  s_frames s !! f = Some fr -> evolves l s (finish seen i w f fr s).
Proof.
  intros Hf. unfold finish. case_decide; [|apply ev_undef].
  destruct (f_kind fr) as [|p j st|p j st] eqn:Ek.
  - solve_ev.
  - destruct (destroy w f fr s) as [s1|] eqn:Ed; [|apply ev_undef]. apply destroy_frames in Ed.
    destruct (s_frames s1 !! p) as [frp|] eqn:Hp; [|apply ev_undef].
    destruct (f_rp frp) eqn:Erp; try apply ev_undef.
    rewrite Ed in Hp. apply lookup_delete_Some in Hp as (_ & Hp).
    eapply ev_call_resume; eauto. repeat constructor.
  - destruct (destroy w f fr s) as [s1|] eqn:Ed; [|apply ev_undef]. apply destroy_frames in Ed.
    apply ev_put_worker. intros s' tr E. injection E as <- <-. split; [|bodies].
    intros g frg Hg. rewrite Ed in Hg. lookups. left. by apply older_refl.
Qed.

Lemma ev_take_join l i w f fr fr0 k s tr0 :
  s_frames s !! f = Some fr0 -> f_kind fr = f_kind fr0 -> Forall silent tr0 ->
  (forall n, fits_rp n (f_rp fr0) -> forall cs r, fits sz n (k cs r)) ->
  evolves l s (take_stack_join_resume i w f fr k s tr0).
Proof.
  intros Hf Hk Htr Hfit. unfold take_stack_join_resume. case_decide; [apply ev_undef|].
  destruct (stk _ _); [|apply ev_undef].
  eapply ev_join_resume; [exact Hf|left; reflexivity|exact Hk|done|done].
Qed.

Lemma ev_run_task l i fail w f fr t s :
  s_frames s !! f = Some fr -> f_rp fr = RRun t -> s_frames s !! s_nextf s = None ->
  evolves l s (run_task i fail w f fr t s).
Proof.
  intros Hf Erp Hn. unfold run_task. destruct t as [v|e|m st c k|m st c k|k|sk d k|e k|k].
  - by eapply ev_deliver.
  - by eapply ev_deliver.
  - destruct fail; [solve_ev|].
    eapply (ev_child l i true w f fr st c); try done.
    all: intros n; rewrite Erp; cbn; intros Hfit; inversion Hfit; subst; eauto.
  - destruct fail; [solve_ev|].
    eapply (ev_child l i false w f fr st c); try done.
    all: intros n; rewrite Erp; cbn; intros Hfit; inversion Hfit; subst; eauto.
  - assert (Hj : forall n, fits_rp n (f_rp fr) -> forall cs r, fits sz n (k cs r)).
    { intros n. rewrite Erp. cbn. intros Hfit. by inversion Hfit. }
    case_decide; [eapply ev_join_resume; [exact Hf|by right|done|constructor|done]|].
    case_decide; [by eapply ev_take_join|]. solve_ev.
  - destruct (sk && _); [solve_ev|].
    destruct (same_stacklet _ _ _ _); [|apply ev_undef]. destruct (s_workers s !! d); [|apply ev_undef].
    case_decide; [|apply ev_undef]. destruct (s_workers _ !! d); [|apply ev_undef]. solve_ev.
  - intros s' tr E; injection E as <- <-; split; [|bodies].
    intros g frg Hg. cbn in Hg. lookups; [|left; by apply older_refl].
    left. exists fr. split_and!; [done|by unfold self_capture; destruct (f_eflag fr)|].
    intros n. rewrite Erp. cbn. intros Hfit. by inversion Hfit.
  - solve_ev.
Qed.

Lemma ev_wstep l i fail s :
  s_frames s !! s_nextf s = None -> evolves l s (wstep i fail s).
Proof.
  intros Hn. unfold wstep. destruct (s_workers s !! i) as [w|]; [|apply ev_blocked].
  destruct (w_pc w) as [|f|f|p|p| |f|b|].
  - destruct (w_batch w); [apply ev_blocked|]. unfold resume_submitted.
    repeat (first [match goal with |- context [match ?x with _ => _ end] => destruct x eqn:? end]);
      try apply ev_undef; solve_ev.
  - unfold resume_stolen.
    repeat (first [match goal with |- context [match ?x with _ => _ end] => destruct x eqn:? end]);
      try apply ev_undef; solve_ev.
  - destruct (s_frames s !! f) as [fr|] eqn:Hf; [|apply ev_undef].
    destruct (f_rp fr) eqn:Erp; try apply ev_undef.
    + by apply ev_run_task.
    + by apply ev_fork_resume.
    + solve_ev.
    + by apply ev_capture.
    + by apply ev_finish.
    + unfold root_destroy. destruct (destroy w f fr s) as [s1|] eqn:Ed; [|apply ev_undef].
      apply destroy_frames in Ed. apply ev_idle. intros s' tr E. injection E as <- <-. split; [|bodies].
      intros g frg Hg. rewrite Ed in Hg. lookups. left. by apply older_refl.
  - destruct (w_deque w) as [|q d]; [solve_ev|]. case_decide; [solve_ev|apply ev_undef].
  - unfold final_sub. destruct (s_frames s !! p) as [frp|] eqn:Hp; [|apply ev_undef].
    destruct (same_stacklet _ _ _ _) as [same|]; [|apply ev_undef]. case_decide.
    + destruct (f_rp frp) eqn:Erp; try apply ev_undef. destruct (if same then _ else _); [|apply ev_undef].
      eapply ev_join_resume; [exact Hp|left; reflexivity|done|repeat constructor|].
      intros n. by rewrite Erp.
    + destruct same; [solve_ev|]. apply ev_idle. solve_ev.
  - apply ev_idle. solve_ev.
  - destruct (s_frames s !! f) as [fr|] eqn:Hf; [|apply ev_undef]. unfold join_suspend.
    destruct (f_rp fr) eqn:Erp; try apply ev_undef. destruct t; try apply ev_undef.
    assert (Hj : forall n, fits_rp n (f_rp fr) -> forall cs r, fits sz n (k cs r)).
    { intros n. rewrite Erp. cbn. intros Hfit. by inversion Hfit. }
    case_decide; [by eapply ev_take_join|].
    intros s' tr E; injection E as <- <-; split; [|bodies].
    intros g frg Hg. cbn in Hg. lookups; [|left; by apply older_refl].
    left. by exists fr.
  - destruct (stk _ _); [|apply ev_undef]. destruct b; solve_ev.
  - unfold self_steal. destruct (w_deque w) as [|q d]; [apply ev_idle; solve_ev|].
    destruct (s_frames s !! q) as [frq|] eqn:Hq; [|apply ev_undef]. solve_ev.
Qed.

Lemma ev_step l s : s_frames s !! s_nextf s = None -> evolves l s (step l s).
Proof.
  intros Hn. destruct l as [i fail|i|i|i v|d t]; cbn [step].
  - by apply ev_wstep.
  - unfold stale. destruct (s_workers s !! i) as [w|]; [|apply ev_blocked]. destruct (w_pc w) as [|f|f|p|p| |f|b|]; try apply ev_blocked.
    destruct (s_frames s !! f) as [fr|] eqn:Hf; [|apply ev_blocked].
    destruct (f_rp fr) as [t|m st k pre|m st k|k|d t|e| |] eqn:Hr; try apply ev_blocked.
    + destruct t; try apply ev_blocked. destruct (decide _); [apply ev_blocked|]. solve_ev.
    + by apply ev_fork_resume.
    + destruct (f_kind fr); try apply ev_blocked. by apply ev_finish.
  - unfold take. repeat case_match; try apply ev_blocked. solve_ev.
  - unfold steal. repeat case_match; try apply ev_blocked; solve_ev.
  - unfold spawn. destruct (s_workers s !! d); [|apply ev_blocked].
    intros s' tr E; injection E as <- <-; split; [|bodies].
    intros g frg Hg. cbn in Hg. lookups; [|left; by apply older_refl].
    right. split; [done|]. exists t. split_and!; [done|intros h; cbn; by rewrite decide_True|].
    left. split; [done|]. by exists d.
Qed.

(** ** Every path from a root fits in the space of a serial run *)

Definition weight (h : list event) (f : N) : N :=
  match body_in f h with Some t => sz t | None => 0 end.

(** [A f]: what [f] and its ancestors occupy. *)
Definition paths (S1 : N) (s : state) (h : list event) (A : N -> N) : Prop :=
  forall f fr, s_frames s !! f = Some fr ->
    A f = weight h f + match par (f_kind fr) with Some p => A p | None => 0 end /\
    exists n, fits_rp n (f_rp fr) /\ A f + n <= S1.

Lemma paths_step nw G S1 s h l s' tr A :
  inv nw G s -> paths S1 s h A -> step l s = Next s' tr ->
  (forall d t, l = LSpawn d t -> serial_space sz S1 t) ->
  exists A', paths S1 s' (rev tr ++ h) A'.
Proof.
  intros I P E Hl. pose proof (i_fresh _ _ _ I (s_nextf s) ltac:(lia)) as Hn.
  destruct (ev_step l s Hn s' tr E) as (Hf & Hb).
  assert (Hlive : forall f fr, s_frames s !! f = Some fr -> f <> s_nextf s) by congruence.
  assert (Hpar : forall f fr p, s_frames s !! f = Some fr -> par (f_kind fr) = Some p -> p <> s_nextf s).
  { intros f fr p Hfr Hp.
    destruct (inv_parent nw G s f _ _ p I (shape_lookup _ _ _ Hfr) Hp) as (frp & Hfp). by eapply Hlive. }
  assert (Hd : (exists fr', s_frames s' !! s_nextf s = Some fr') \/ ~ exists fr', s_frames s' !! s_nextf s = Some fr').
  { destruct (s_frames s' !! s_nextf s) eqn:E0; [left; eauto|right; by intros (? & ?)]. }
  destruct Hd as [(fr' & Hnew)|Hnone].
  - destruct (Hf _ _ Hnew) as [(fr0 & H0 & _)|(_ & t & Ert & Hbt & Hborn)]; [congruence|].
    pose (a := sz t + match par (f_kind fr') with Some p => A p | None => 0 end).
    exists (fun g => if decide (g = s_nextf s) then a else A g).
    intros f fr Hfr. destruct (Hf f fr Hfr) as [(fr0 & H0 & Hk & Hft)|(-> & _)].
    + rewrite decide_False by (by eapply Hlive). destruct (P f fr0 H0) as (P1 & n & P2 & P3).
      split; [|by exists n; auto]. rewrite P1, Hk. unfold weight. rewrite Hb by (by eapply Hlive).
      destruct (par (f_kind fr0)) as [p|] eqn:Ep; [|done].
      rewrite decide_False by (by eapply Hpar). done.
    + assert (fr = fr') as -> by congruence. rewrite decide_True by done. unfold weight. rewrite Hbt.
      unfold a in *. destruct Hborn as [(Hp & d & El)|(p & frp & Hp & Hfp & Hfit)].
      * rewrite Hp in *. split; [done|]. destruct (Hl d t El) as (n & Hn1 & Hn2). exists n.
        rewrite Ert. split; [done|lia].
      * rewrite Hp in *. rewrite decide_False by (by eapply Hlive). split; [done|].
        destruct (P p frp Hfp) as (_ & n & P2 & P3). destruct (Hfit n P2) as (n' & F1 & F2).
        exists n'. rewrite Ert. split; [done|lia].
  - exists A. intros f fr Hfr. destruct (Hf f fr Hfr) as [(fr0 & H0 & Hk & Hft)|(-> & _)]; cycle 1.
    { exfalso. apply Hnone. eauto. }
    destruct (P f fr0 H0) as (P1 & n & P2 & P3). split; [|by exists n; auto].
    rewrite P1, Hk. unfold weight. by rewrite Hb by (by eapply Hlive).
Qed.

(** ** Adding up *)

Definition weights (h : list event) (l : list N) : N := sum_of (map (weight h) l).

Lemma weights_app h l1 l2 : weights h (l1 ++ l2) = weights h l1 + weights h l2.
Proof. unfold weights, sum_of. induction l1; cbn in *; lia. Qed.

Lemma weights_sub h l1 l2 : l1 ⊆+ l2 -> weights h l1 <= weights h l2.
Proof. unfold weights, sum_of. induction 1; cbn in *; lia. Qed.

(** The ancestors of a task, itself included. *)
Lemma lineage nw G S1 s h A f fr :
  inv nw G s -> paths S1 s h A -> s_frames s !! f = Some fr ->
  exists l : list N, f ∈ l /\ weights h l = A f /\
    forall c frc p, c ∈ l -> s_frames s !! c = Some frc -> par (f_kind frc) = Some p -> p ∈ l.
Proof.
  intros I P. revert fr. induction f as [f IH] using (well_founded_induction N.lt_wf_0). intros fr Hf.
  destruct (P f fr Hf) as (PA & _). pose proof (shape_lookup _ _ _ Hf) as Hs.
  destruct (par (f_kind fr)) as [p|] eqn:Ep.
  - destruct (inv_parent _ _ _ _ _ _ p I Hs Ep) as (frp & Hp).
    destruct (i_kid _ _ _ I _ _ _ p _ Hs Ep Hp) as (_ & Hlt).
    destruct (IH p Hlt frp Hp) as (l & L1 & L2 & L3). exists (f :: l). split_and!; [by left| |].
    + unfold weights, sum_of in *. cbn in *. lia.
    + intros c frc q Hc Hfc Hq. apply elem_of_cons in Hc as [->|Hc]; right; [|by eapply L3].
      assert (q = p) as -> by congruence. done.
  - exists [f]. split_and!; [by left|unfold weights, sum_of; cbn; lia|].
    intros c frc q Hc Hfc Hq. apply elem_of_list_singleton in Hc as ->. congruence.
Qed.

(** Every task has a leaf below it. *)
Lemma leaf_below nw G s f fr :
  inv nw G s -> s_frames s !! f = Some fr ->
  exists g frg, s_frames s !! g = Some frg /\ childless s g /\
    forall l : list N, g ∈ l ->
      (forall c frc p, c ∈ l -> s_frames s !! c = Some frc -> par (f_kind frc) = Some p -> p ∈ l) -> f ∈ l.
Proof.
  intros I. remember (N.to_nat (s_nextf s - f)) as d eqn:Ed. revert f fr Ed.
  induction d as [d IH] using lt_wf_ind. intros f fr Ed Hf.
  assert (Hd : (exists c frc, s_frames s !! c = Some frc /\ par (f_kind frc) = Some f) \/
    ~ exists c frc, s_frames s !! c = Some frc /\ par (f_kind frc) = Some f).
  { destruct (decide (map_Exists (fun _ frc => par (f_kind frc) = Some f) (s_frames s))) as [Hx|Hx].
    - left. destruct Hx as (c & frc & H1 & H2). eauto.
    - right. intros (c & frc & H1 & H2). apply Hx. by exists c, frc. }
  destruct Hd as [Hc|Hc].
  - destruct Hc as (c & frc & Hc & Hp). pose proof (shape_lookup _ _ _ Hc) as Hs.
    destruct (i_kid _ _ _ I _ _ _ f _ Hs Hp Hf) as (_ & Hlt).
    assert (Hcn : c < s_nextf s).
    { destruct (decide (c < s_nextf s)); [done|]. rewrite (i_fresh _ _ _ I c) in Hc; [done|lia]. }
    destruct (IH (N.to_nat (s_nextf s - c)) ltac:(lia) c frc eq_refl Hc) as (g & frg & G1 & G2 & G3).
    exists g, frg. split_and!; [done|done|]. intros l Hl Hcl. eapply Hcl; [by apply G3|exact Hc|done].
  - exists f, fr. split_and!; [done| |done]. intros c frc H1 H2. apply Hc. eauto.
Qed.

Lemma space_weights af h :
  evs_ok af h -> space sz h = weights h (map fst (live_tasks h)).
Proof.
  intros Hok. unfold space, weights. f_equal. rewrite map_map. apply map_ext_in. intros (f, t) Hin. cbn.
  apply elem_of_list_In in Hin. apply in_keep in Hin as (Hin & _). unfold weight.
  by rewrite (tasks_unique af h f t Hok Hin).
Qed.

Lemma chains nw G S1 s h A (L : list N) :
  inv nw G s -> paths S1 s h A -> (forall f, f ∈ L -> exists fr, s_frames s !! f = Some fr) ->
  exists C : list N, weights h C <= N.of_nat (length L) * S1 /\
    (forall f, f ∈ L -> f ∈ C) /\
    forall c frc p, c ∈ C -> s_frames s !! c = Some frc -> par (f_kind frc) = Some p -> p ∈ C.
Proof.
  intros I P. induction L as [|g L IH]; intros HL.
  - exists []. split_and!; [cbn; lia|done|]. intros c frc p Hc. inversion Hc.
  - destruct IH as (C & C1 & C2 & C3); [intros f Hf; apply HL; by right|].
    destruct (HL g) as (fr & Hg); [by left|]. destruct (lineage nw G S1 s h A g fr I P Hg) as (l & L1 & L2 & L3).
    destruct (P g fr Hg) as (_ & n & _ & Hn).
    exists (l ++ C). split_and!.
    + rewrite weights_app. cbn [length]. lia.
    + intros f Hf. apply elem_of_app. apply elem_of_cons in Hf as [->|Hf]; [by left|right; auto].
    + intros c frc p Hc Hfc Hp. apply elem_of_app. apply elem_of_app in Hc as [Hc|Hc]; [left|right]; eauto.
Qed.

Theorem space_bound nw af S1 s h :
  reach nw af s h -> (forall f t, EvSpawn f t ∈ h -> serial_space sz S1 t) ->
  space sz h <= (N.of_nat nw + count (waiting_tasks h)) * S1.
Proof.
  intros HR Hsp.
  assert (HP : exists A, paths S1 s h A).
  { clear -HR Hsp. induction HR as [|s h l s' tr HR IH HA E].
    - exists (fun _ => 0). intros f fr Hf. cbn in Hf. by rewrite lookup_empty in Hf.
    - destruct IH as (A & P).
      { intros f t Hin. eapply Hsp. apply elem_of_app. by right. }
      destruct (reach_inv _ _ _ _ HR) as (G & I). eapply paths_step; eauto.
      intros d t ->. cbn in E. unfold spawn in E. destruct (s_workers s !! d); [|done].
      injection E as <- <-. eapply Hsp. cbn. by left. }
  destruct HP as (A & P). destruct (reach_inv _ _ _ _ HR) as (G & I).
  destruct (reach_hist af nw s h HR) as (H & _). pose proof (g_evs _ _ _ H) as Hok.
  pose proof (tasks_nodup af h Hok) as Hnd.
  rewrite (space_weights af h Hok).
  pose (L := List.filter (fun f => leaf_in h f) (map fst (live_tasks h))).
  assert (HndL : NoDup (map fst (live_tasks h))) by (by apply keep_nodup).
  assert (Hlive : forall f, f ∈ map fst (live_tasks h) <-> exists fr, s_frames s !! f = Some fr).
  { intros f. rewrite <- (exists_frame nw af s h f HR). split.
    - intros ((f', t) & -> & Hin)%elem_of_list_fmap. by apply in_keep in Hin as (_ & Hin).
    - intros Hx. pose proof Hx as Hx'. apply (exists_frame nw af s h f HR) in Hx as (fr & Hf).
      assert (Hlt : f < s_nextf s).
      { destruct (decide (f < s_nextf s)); [done|]. rewrite (i_fresh _ _ _ I f) in Hf; [done|lia]. }
      destruct (g_old _ _ _ H f Hlt) as (t & Ht). apply elem_of_list_fmap. exists (f, t). split; [done|].
      apply in_keep. split; [by apply body_tasks|done]. }
  assert (HL : forall f, f ∈ L <-> (exists fr, s_frames s !! f = Some fr) /\ leaf_in h f = true).
  { intros f. rewrite <- Hlive. unfold L. rewrite elem_of_list_In, filter_In, <- elem_of_list_In. done. }
  assert (Hcl : forall f fr, s_frames s !! f = Some fr -> childless s f -> leaf_in h f = true).
  { intros f fr Hf Hno. unfold leaf_in. apply forallb_forall. intros (c & st) Hin. cbn.
    destruct (exists_in h c) eqn:Ec; [|done]. exfalso.
    apply (exists_frame nw af s h c HR) in Ec as (frc & Hc).
    apply elem_of_list_In in Hin. apply elem_of_list_lookup in Hin as (j & Hj).
    destruct (g_kids _ _ _ H f j c st Hj) as (_ & Hpc & _).
    pose proof (k_kind _ _ _ _ (g_frames _ _ _ H c frc Hc)) as Hk.
    destruct (f_kind frc) as [|q j' st'|q j' st'] eqn:Ek; [congruence| |].
    all: destruct (g_kids _ _ _ H q j' c st' Hk) as (_ & Hpq & _);
      eapply Hno; [exact Hc|]; rewrite Ek; cbn; congruence. }
  destruct (chains nw G S1 s h A L I P) as (C & C1 & C2 & C3).
  { intros f Hf. by apply HL in Hf as (Hf & _). }
  assert (Hsub : weights h (map fst (live_tasks h)) <= weights h C).
  { apply weights_sub, NoDup_submseteq; [done|]. intros f Hf. apply Hlive in Hf as (fr & Hf).
    destruct (leaf_below nw G s f fr I Hf) as (g & frg & Hg & Hgc & Hgl).
    apply Hgl; [|done]. apply C2, HL. split; [eauto|by eapply Hcl]. }
  assert (Hlen : (length L <= nw + length (waiting_tasks h))%nat).
  { eapply leaves_bound; [done| |].
    - unfold L. apply NoDup_ListNoDup, List.NoDup_filter, NoDup_ListNoDup; exact HndL.
    - intros f Hf. apply HL in Hf as (Hf & Hlf). split; [done|by eapply leaf_childless]. }
  unfold count. nia.
Qed.

End space.
