(** * The pool and the runtime agree: busy_pool and unit_pool. *)

From stdpp Require Import prelude gmap list.
From Coq Require Import NArith Lia.
From Verif Require Import PoolCommon BusyModel BusyProofs BusyLive BWholeModel BWholeSpec.
From Verif Require RuntimeModel RuntimeSpec RuntimeTermSpec RuntimeInv RuntimeSafe RuntimeHist4 RuntimeThms WholeModel WholeRt Prop_Term.

Notation rworkers := RuntimeModel.s_workers.
Notation rstep := RuntimeModel.step.
Notation resting := WholeModel.resting.
Notation moving := WholeModel.moving.

Definition busy (p : wpc) : Prop := match p with BRun _ | BDrainRun _ => True | _ => False end.
Global Instance busy_dec p : Decision (busy p). Proof. destruct p; simpl; apply _. Defined.

(** What worker thread [w] does in the pool, and what it does in the runtime. *)
Definition agree (p : wpc) (wk : RuntimeModel.worker) : Prop :=
  ~ busy p -> RuntimeModel.w_pc wk = RuntimeModel.PIdle /\ RuntimeModel.w_batch wk = [].

Section Inv.
Context (n : nat) (unit : bool) (af : bool).

Record winv (x : whole) : Prop := WInv {
  wi_len : length (rworkers (rt x)) = n;
  wi_q : forall w wk, rworkers (rt x) !! w = Some wk -> map N.to_nat (RuntimeModel.w_inbox wk) = q (pool x) w;
  wi_agree : forall w wk, rworkers (rt x) !! w = Some wk -> agree (pc (pool x) w) wk;
  wi_pool : exists h, BusyModel.reach n unit (pool x) h;
  wi_rt : RuntimeSpec.reach n af (rt x) (hist x)
}.

(** ** Steps of the pool *)

Lemma pool_own w c p p' tr : BusyModel.worker n unit w c p = Next p' tr ->
  (forall u, u <> w -> q p' u = q p u /\ pc p' u = pc p u) /\
  match pc p w with
  | BPop | BDrain =>
    match q p w with
    | [] => q p' w = [] /\ ~ busy (pc p' w)
    | js => q p' w = [] /\ busy (pc p' w)
    end
  | BSteal => q p' w = q p w /\ (busy (pc p' w) <-> c = true)
  | _ => q p' w = q p w /\ ~ busy (pc p' w)
  end.
Proof.
  intros Hs. unfold BusyModel.worker in Hs. destruct (pc p w) eqn:Hp.
  all: repeat case_match; try done; simplify_eq; simpl; rewrite ?fset_eq; (split; [intros u Hu; rewrite ?fset_ne by done; done|]); repeat case_match; simplify_eq; simpl; naive_solver.
Qed.

(** ** Steps of the whole *)

Lemma step_inv l x x' : whole_step n unit l x = WNext x' -> exists trp tr,
  pool_part n unit (parts l x).1 (pool x) = Next (pool x') trp /\
  rt_part (parts l x).2 (rt x) = RuntimeModel.Next (rt x') tr /\ hist x' = rev tr ++ hist x.
Proof.
  unfold whole_step.
  destruct (pool_part n unit _ (pool x)) as [p' trp| |] eqn:E0; try done; destruct (rt_part _ (rt x)) as [r' tr| |] eqn:E; try done.
  intros [= <-]. exists trp, tr. done.
Qed.

Lemma parts_allowed l x rl : (parts l x).2 = Some rl -> legal n af l -> RuntimeSpec.allowed n af rl.
Proof.
  intros Hp Hl. destruct l as [w c v fail|d t| | |w]; simpl in Hp, Hl; [|by injection Hp as <-|done|done|by injection Hp as <-].
  destruct (pc (pool x) w); try (destruct (q (pool x) w)); repeat case_match; try discriminate Hp; injection Hp as <-; done.
Qed.

Lemma winv_init : winv (init_whole n).
Proof.
  split; simpl.
  - by rewrite map_length, seq_length.
  - intros w wk Hw. rewrite list_lookup_fmap in Hw. destruct (seq 0 n !! w); simpl in Hw; [|done]. by injection Hw as <-.
  - intros w wk Hw. rewrite list_lookup_fmap in Hw. destruct (seq 0 n !! w); simpl in Hw; [|done]. by injection Hw as <-.
  - exists []. constructor.
  - constructor.
Qed.

Lemma parts_reach l x x' : winv x -> legal n af l -> whole_step n unit l x = WNext x' ->
  (exists h, BusyModel.reach n unit (pool x') h) /\ RuntimeSpec.reach n af (rt x') (hist x') /\ length (rworkers (rt x')) = n.
Proof.
  intros I Hl Hs. apply step_inv in Hs as (trp & tr & H1 & H2 & ->).
  assert (RuntimeSpec.reach n af (rt x') (rev tr ++ hist x)) as HR.
  { destruct (parts l x).2 as [rl|] eqn:Hp; simpl in H2.
    - eapply RuntimeSpec.reach_step; [apply (wi_rt _ I)|by eapply parts_allowed|exact H2].
    - injection H2 as <- <-. apply (wi_rt _ I). }
  split; [|split; [done|]].
  - destruct (wi_pool _ I) as [h Hr]. destruct (parts l x).1 as [pl|]; simpl in H1.
    + eexists. by eapply BusyModel.reach_step.
    + injection H1 as <- <-. by exists h.
  - destruct (RuntimeSafe.reach_inv _ _ _ _ HR) as (G & J). by apply RuntimeInv.i_len in J.
Qed.

Lemma lookup_ins {A} (l : list A) i j (a b : A) : <[i := a]> l !! j = Some b -> (j = i /\ b = a /\ i < length l) \/ (j <> i /\ l !! j = Some b).
Proof. intros H. apply list_lookup_insert_Some in H as [(-> & <- & ?)|[? ?]]; eauto. Qed.

Definition rel (p : st) (r : RuntimeModel.state) : Prop :=
  forall w wk, rworkers r !! w = Some wk -> map N.to_nat (RuntimeModel.w_inbox wk) = q p w /\ agree (pc p w) wk.

Lemma rel_push d j r r' p p' : (exists wd, rworkers r !! d = Some wd /\ rworkers r' = <[d := RuntimeModel.set_inbox (RuntimeModel.w_inbox wd ++ [j]) wd]> (rworkers r)) ->
  q p' = fset d (q p d ++ [N.to_nat j]) (q p) -> pc p' = pc p -> rel p r -> rel p' r'.
Proof.
  intros (wd & Hd & E) Eq Ep H u uk Hu. rewrite E in Hu. rewrite Eq, Ep. apply lookup_ins in Hu as [(-> & -> & _)|[Hne Hu]].
  - destruct (H d wd Hd) as [H1 H2]. rewrite fset_eq. simpl. rewrite map_app, H1. split; [done|]. exact H2.
  - rewrite fset_ne by done. by apply H.
Qed.

Lemma push_q d j p p' tr : BusyModel.step n unit (LPush d j) p = Next p' tr ->
  d < n /\ q p' = fset d (q p d ++ [j]) (q p) /\ pc p' = pc p /\ stop p' = stop p.
Proof. simpl. intros Hs. case_decide; [|done]. by injection Hs as <- <-. Qed.

(** A step of worker [w] while it is busy. *)
Lemma rel_busy w c v fail x x' : rel (pool x) (rt x) -> busy (pc (pool x) w) -> resting (rt x) w = false ->
  whole_step n unit (XWorker w c v fail) x = WNext x' ->
  rel (pool x') (rt x') /\ pc (pool x') = pc (pool x) /\ stop (pool x') = stop (pool x) /\
  (q (pool x') = q (pool x) \/ exists d f, moving (rt x) w = Some (d, f) /\ q (pool x') = fset d (q (pool x) d ++ [N.to_nat f]) (q (pool x))).
Proof.
  intros H Hb Hr Hs. apply step_inv in Hs as (trp & tr & H1 & H2 & _). simpl in H1, H2.
  assert (Hp : parts (XWorker w c v fail) x = (match moving (rt x) w with Some (d, f) => Some (LPush d (N.to_nat f)) | None => None end, Some (RuntimeModel.LWork w fail))).
  { simpl. destruct (pc (pool x) w); try done; by rewrite Hr. }
  simpl in Hp. rewrite Hp in H1, H2. simpl in H1, H2. clear Hp.
  destruct (rworkers (rt x) !! w) as [wk|] eqn:Hw; [|unfold RuntimeModel.wstep in H2; by rewrite Hw in H2].
  destruct (WholeRt.wstep_workers w fail _ _ _ wk Hw H2) as (w' & Ei & E).
  destruct (moving (rt x) w) as [[d f]|] eqn:Em; cbn [pool_part] in H1.
  - destruct E as (wd & Hd & E). destruct (push_q d (N.to_nat f) _ _ _ H1) as (Hdn & Eq & Epc & Est).
    split_and!; [|done|done|right; eauto].
    intros u uk Hu. rewrite E in Hu. rewrite Eq, Epc. apply lookup_ins in Hu as [(-> & -> & _)|[Hne Hu]].
    + rewrite fset_eq. simpl. rewrite map_app. apply lookup_ins in Hd as [(-> & -> & _)|[Hne Hd]].
      * rewrite Ei. destruct (H w wk Hw) as [G1 G2]. rewrite G1. split; [done|]. by intros ?.
      * destruct (H d wd Hd) as [G1 G2]. rewrite G1. split; [done|]. exact G2.
    + rewrite fset_ne by done. apply lookup_ins in Hu as [(-> & -> & _)|[Hne' Hu]]; [|by apply H].
      rewrite Ei. split; [|by intros ?]. by apply H.
  - injection H1 as H1 _. rewrite <- H1. split_and!; [|done|done|by left].
    intros u uk Hu. rewrite E in Hu. apply lookup_ins in Hu as [(-> & -> & _)|[Hne Hu]]; [|by apply H].
    rewrite Ei. split; [|by intros ?]. by apply H.
Qed.

Theorem step_winv l x x' : winv x -> legal n af l -> whole_step n unit l x = WNext x' -> winv x'.
Proof.
  intros I Hl Hs. destruct (parts_reach l x x' I Hl Hs) as (HP & HR & HL).
  assert (rel (pool x') (rt x')) as HX; [|split; [done|intros w wk Hw; by apply HX|intros w wk Hw; by apply HX|done|done]].
  assert (rel (pool x) (rt x)) as H by (intros w wk Hw; split; [by apply (wi_q _ I)|by apply (wi_agree _ I)]).
  destruct l as [w c v fail|d t| | |w].
  - destruct (decide (busy (pc (pool x) w) /\ resting (rt x) w = false)) as [[Hb Hr]|Hnb].
    { by eapply rel_busy. }
    apply step_inv in Hs as (trp & tr & H1 & H2 & _).
    assert ((parts (XWorker w c v fail) x).1 = Some (LWorker w c)) as E.
    { simpl. destruct (pc (pool x) w) eqn:Hpc; try done; destruct (resting (rt x) w) eqn:Hr; try done; by destruct Hnb. }
    rewrite E in H1. simpl in H1. case_decide as Hw; [|done]. destruct (pool_own w c _ _ _ H1) as [Ho Hown].
    intros u uk Hu. destruct (decide (u = w)) as [->|Hne]; cycle 1.
    { destruct (Ho u Hne) as [-> ->].
      assert (exists uk', rworkers (rt x) !! u = Some uk' /\ RuntimeModel.w_inbox uk = RuntimeModel.w_inbox uk' /\
        RuntimeModel.w_pc uk = RuntimeModel.w_pc uk' /\ RuntimeModel.w_batch uk = RuntimeModel.w_batch uk') as (uk' & Hu' & F1 & F2 & F3).
      { destruct (parts (XWorker w c v fail) x).2 as [rl|] eqn:Hp2; simpl in H2; [|injection H2 as H2 _; rewrite <- H2 in Hu; by exists uk].
        simpl in Hp2. destruct (pc (pool x) w) eqn:Hpc; try discriminate Hp2.
        1,4: (destruct (q (pool x) w); [discriminate Hp2|]; injection Hp2 as <-; simpl in H2; unfold RuntimeModel.take in H2;
          repeat case_match; try done; injection H2 as H2 _; rewrite <- H2 in Hu; simpl in Hu; rewrite list_lookup_insert_ne in Hu by done; by exists uk).
        - destruct c; [|discriminate Hp2]. injection Hp2 as <-. simpl in H2. unfold RuntimeModel.steal in H2.
          destruct (rworkers (rt x) !! w) as [wk|] eqn:Hwk; [|done]. destruct (rworkers (rt x) !! v) as [wv|] eqn:Hv; [|done].
          repeat case_match; try done. injection H2 as H2 _. rewrite <- H2 in Hu. simpl in Hu. rewrite list_lookup_insert_ne in Hu by done.
          apply lookup_ins in Hu as [(-> & -> & _)|[Hne' Hu]]; [exists wv|exists uk]; done.
        - destruct (resting (rt x) w) eqn:Hr; [discriminate Hp2|]. by destruct Hnb.
        - destruct (resting (rt x) w) eqn:Hr; [discriminate Hp2|]. by destruct Hnb. }
      destruct (H u uk' Hu') as [G1 G2]. rewrite F1. split; [done|]. unfold agree. rewrite F2, F3. exact G2. }
    simpl in H2. unfold agree.
    destruct (rworkers (rt x) !! w) as [wk|] eqn:Hwk; cycle 1.
    { exfalso. apply lookup_ge_None in Hwk. rewrite (wi_len _ I) in Hwk. lia. }
    destruct (H w wk Hwk) as [Hq Hag]. unfold agree in Hag. simpl in E, Hnb.
    assert (forall P : Prop, (rt_part None (rt x) = RuntimeModel.Next (rt x') tr -> P) -> rt_part None (rt x) = RuntimeModel.Next (rt x') tr -> P) as _ by auto.
    assert (rt_part None (rt x) = RuntimeModel.Next (rt x') tr -> uk = wk) as Hsame.
    { intros E'. simpl in E'. injection E' as E' _. rewrite <- E' in Hu. congruence. }
    destruct (pc (pool x) w) eqn:Hpc; simpl in H2, Hag, Hnb.
    2,5: (destruct (q (pool x) w) as [|j js] eqn:Hqw; destruct Hown as [-> Hb];
       [rewrite (Hsame H2), Hq; split; [done|intros _; exact (Hag (fun F => F))]|];
       simpl in H2; unfold RuntimeModel.take in H2; rewrite Hwk in H2; repeat case_match; try done; injection H2 as H2 _; rewrite <- H2 in Hu; simpl in Hu;
       rewrite list_lookup_insert in Hu by (by eapply lookup_lt_Some); injection Hu as <-; simpl; (split; [done|by intros ?])).
    + destruct Hown as [-> _]. rewrite (Hsame H2), Hq. split; [done|intros _; exact (Hag (fun F => F))].
    + destruct Hown as [-> Hb]. destruct c.
      * simpl in H2. unfold RuntimeModel.steal in H2. rewrite Hwk in H2. destruct (rworkers (rt x) !! v) as [wv|] eqn:Hv; [|done].
        repeat case_match; try done. injection H2 as H2 _. rewrite <- H2 in Hu. simpl in Hu.
        rewrite list_lookup_insert in Hu by (rewrite insert_length; by eapply lookup_lt_Some). injection Hu as <-. simpl. split; [done|]. intros Hnb'. destruct Hnb'. by apply Hb.
      * rewrite (Hsame H2), Hq. split; [done|intros _; exact (Hag (fun F => F))].
    + assert (resting (rt x) w = true) as Hr by (destruct (resting (rt x) w); [done|by destruct Hnb]). rewrite Hr in H2.
      destruct Hown as [-> _]. rewrite (Hsame H2), Hq. split; [done|intros _]. by apply (WholeRt.resting_spec _ _ _ Hwk).
    + assert (resting (rt x) w = true) as Hr by (destruct (resting (rt x) w); [done|by destruct Hnb]). rewrite Hr in H2.
      destruct Hown as [-> _]. rewrite (Hsame H2), Hq. split; [done|intros _]. by apply (WholeRt.resting_spec _ _ _ Hwk).
    + destruct Hown as [-> _]. rewrite (Hsame H2), Hq. split; [done|intros _; exact (Hag (fun F => F))].
    + destruct Hown as [-> _]. rewrite (Hsame H2), Hq. split; [done|intros _; exact (Hag (fun F => F))].
    + destruct Hown as [-> _]. rewrite (Hsame H2), Hq. split; [done|intros _; exact (Hag (fun F => F))].
    + destruct Hown as [-> _]. rewrite (Hsame H2), Hq. split; [done|intros _; exact (Hag (fun F => F))].
  - apply step_inv in Hs as (trp & tr & H1 & H2 & _). simpl in H2. unfold RuntimeModel.spawn in H2. destruct (rworkers (rt x) !! d) as [wd|] eqn:Hd; [|done]. injection H2 as H2 _.
    destruct (push_q d _ _ _ _ H1) as (Hdn & Eq & Epc & _). eapply rel_push; [|exact Eq|exact Epc|exact H]. exists wd. split; [done|]. by rewrite <- H2.
  - apply step_inv in Hs as (trp & tr & H1 & H2 & _). simpl in H1, H2. injection H2 as <- <-. injection H1 as <- _. exact H.
  - apply step_inv in Hs as (trp & tr & H1 & H2 & _). simpl in H1, H2. injection H2 as <- <-. repeat case_match; try done. injection H1 as <- _. exact H.
  - apply step_inv in Hs as (trp & tr & H1 & H2 & _). simpl in H1, H2. injection H1 as <- _.
    destruct (RuntimeInv.stale_workers _ _ _ _ H2) as (wk & wk' & f & Hi & Hpc & Es & E1 & E2 & E3).
    intros u uk Hu. rewrite Es in Hu. apply lookup_ins in Hu as [(-> & -> & _)|[Hne Hu]]; [|by apply H].
    destruct (H w wk Hi) as [G1 G2]. rewrite E1. split; [done|]. intros Hb. destruct (G2 Hb) as [G3 _]. congruence.
Qed.

Lemma wreach_winv x : wreach n unit af x -> winv x.
Proof. induction 1; [apply winv_init|]. by eapply step_winv. Qed.
Lemma dreach_wreach x : dreach n unit af x -> wreach n unit af x.
Proof. induction 1; [constructor|]. by econstructor. Qed.

Lemma step_defined l x : winv x -> legal n af l -> whole_step n unit l x <> WUndef.
Proof.
  intros I Hl. unfold whole_step.
  assert (pool_part n unit (parts l x).1 (pool x) <> Undef) as H1.
  { destruct (parts l x).1 as [[w c|d j| |]|]; simpl; [..|done]; [|by repeat case_match..]. case_decide; [|done]. unfold BusyModel.worker. by repeat case_match. }
  assert (rt_part (parts l x).2 (rt x) <> RuntimeModel.Undef) as H2.
  { destruct (parts l x).2 as [rl|] eqn:Hp; [|done]. simpl. eapply RuntimeSafe.reach_safe; [apply (wi_rt _ I)|by eapply parts_allowed]. }
  by destruct (pool_part n unit (parts l x).1 (pool x)), (rt_part (parts l x).2 (rt x)).
Qed.

(** ** Used as documented: a worker that has left has nothing to do *)

Lemma moving_about x w d f : moving (rt x) w = Some (d, f) -> about_to_move w d x.
Proof.
  unfold moving. destruct (rworkers (rt x) !! w) as [wk|] eqn:Hw; [|done]. destruct (RuntimeModel.w_pc wk) eqn:Hp; try done.
  destruct (RuntimeModel.s_frames (rt x) !! f0) as [fr|] eqn:Hf; simpl; [|done]. destruct (RuntimeModel.f_rp fr) as [t| | | | | | |] eqn:Hr; try done.
  destruct t; try done. case_match; [done|]. intros [= -> ->]. by exists wk, f, fr, skip, t.
Qed.

Definition linv (x : whole) : Prop := forall w, left (pc (pool x) w) -> q (pool x) w = [].

Lemma left_stop x w : winv x -> left (pc (pool x) w) -> stop (pool x) = true.
Proof. intros I Hl. destruct (wi_pool _ I) as [h Hh]. apply (bi_stop _ _ _ _ (reach_binv n unit _ _ Hh) w). by destruct (pc (pool x) w). Qed.

Lemma step_linv l x x' : winv x -> linv x -> legal n af l -> documented l x -> whole_step n unit l x = WNext x' -> linv x'.
Proof.
  intros I L Hl Hd Hs. destruct l as [w c v fail|d t| | |w].
  - destruct (decide (busy (pc (pool x) w) /\ resting (rt x) w = false)) as [[Hb Hr]|Hnb].
    + destruct (rel_busy w c v fail x x') as (_ & Ep & _ & Eq); [|done..|].
      { intros u uk Hu. split; [by apply (wi_q _ I)|by apply (wi_agree _ I)]. }
      intros u Hu. rewrite Ep in Hu. pose proof (left_stop x u I Hu) as Hst. specialize (L u Hu). destruct Eq as [->|(d & f & Hm & ->)]; [done|].
      unfold fset. case_decide as E; [|done]. subst u. exfalso. rewrite (Hd Hst d (moving_about _ _ _ _ Hm)) in Hu. by destruct (pc (pool x) w).
    + apply step_inv in Hs as (trp & tr & H1 & _ & _).
      assert ((parts (XWorker w c v fail) x).1 = Some (LWorker w c)) as E.
      { simpl. destruct (pc (pool x) w) eqn:Hpc; try done; destruct (resting (rt x) w) eqn:Hr; try done; by destruct Hnb. }
      rewrite E in H1. simpl in H1. case_decide as Hw; [|done]. destruct (pool_own w c _ _ _ H1) as [Ho _].
      intros u Hu. destruct (decide (u = w)) as [->|Hne]; [|destruct (Ho u Hne) as [E1 E2]; rewrite E2 in Hu; rewrite E1; by apply L].
      unfold BusyModel.worker in H1. destruct (pc (pool x) w) eqn:Hpc.
      all: try (assert (q (pool x) w = []) as Hq by (apply L; by rewrite Hpc)).
      all: try done; repeat match type of H1 with context [match ?y with _ => _ end] => destruct y eqn:?; try done end; injection H1 as H1 _; rewrite <- H1 in Hu |- *; simpl in *; rewrite ?fset_eq in *; simpl in *; done.
  - apply step_inv in Hs as (trp & tr & H1 & _ & _). simpl in H1. case_decide; [|done]. injection H1 as H1 _. intros u Hu. rewrite <- H1 in Hu. simpl in Hu.
    exfalso. exact (Hd (left_stop x u I Hu)).
  - apply step_inv in Hs as (trp & tr & H1 & _ & _). simpl in H1. injection H1 as H1 _. intros u Hu. rewrite <- H1 in Hu |- *. by apply L.
  - apply step_inv in Hs as (trp & tr & H1 & _ & _). simpl in H1. repeat case_match; try done. injection H1 as H1 _. intros u Hu. rewrite <- H1 in Hu |- *. by apply L.
  - apply step_inv in Hs as (trp & tr & H1 & _ & _). simpl in H1. injection H1 as H1 _. intros u Hu. rewrite <- H1 in Hu |- *. by apply L.
Qed.

Lemma dreach_linv x : dreach n unit af x -> linv x.
Proof. induction 1; [by intros w Hw|]. eapply step_linv; [apply wreach_winv, dreach_wreach; eassumption|done..]. Qed.

(** When all workers have left no task is left. *)
Lemma all_left x : winv x -> linv x -> (forall w, w < n -> left (pc (pool x) w)) -> RuntimeModel.s_frames (rt x) = ∅.
Proof.
  intros I L HL. apply map_eq. intros f. rewrite lookup_empty. destruct (RuntimeModel.s_frames (rt x) !! f) as [fr|] eqn:E; [|done]. exfalso.
  destruct (RuntimeThms.progress n af _ _ f fr (wi_rt _ I) E) as (lb & s' & tr & Hl & Hs).
  assert (RuntimeTermSpec.can_move (rt x)) as Hc by (exists lb, s', tr; destruct lb; simpl in Hl; try done; by subst).
  destruct (WholeRt.can_move_who _ _ _ _ (wi_rt _ I) Hc) as (w & Hw & Hx). specialize (HL w Hw).
  destruct (lookup_lt_is_Some_2 (rworkers (rt x)) w) as [wk Hk]; [by rewrite (wi_len _ I)|]. destruct Hx as [Hr|(wk' & g & Hk' & Hg)].
  - assert (~ busy (pc (pool x) w)) as Hnb by (intros Hb; by destruct (pc (pool x) w)). pose proof (wi_agree _ I w wk Hk Hnb) as Hi.
    apply (WholeRt.resting_spec _ _ _ Hk) in Hi. congruence.
  - rewrite Hk in Hk'. injection Hk' as <-. pose proof (wi_q _ I w wk Hk) as Hq. rewrite (L w HL) in Hq. destruct (RuntimeModel.w_inbox wk); [by apply elem_of_nil in Hg|done].
Qed.
End Inv.
