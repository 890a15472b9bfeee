(** * The pool and the runtime agree. *)

From stdpp Require Import prelude gmap list.
From Coq Require Import NArith Lia.
From Verif Require Import PoolCommon LazyModel LazyProofs LazyInv LazyThief LazyLive LazyLive2 WholeModel WholeSpec.
From Verif Require RuntimeModel RuntimeSpec RuntimeInv RuntimeSafe RuntimeHist4 RuntimeThms WholeRt.

Notation rworkers := RuntimeModel.s_workers.
Notation rstep := RuntimeModel.step.

(** What worker thread [w] does in the pool, and what it does in the runtime. *)
Definition agree (p : wpc) (wk : RuntimeModel.worker) : Prop :=
  match p with
  | TRun _ => True
  | _ =>
    match hof p with
    | None => RuntimeModel.w_pc wk = RuntimeModel.PIdle /\ RuntimeModel.w_batch wk = []
    | Some [] => exists f, RuntimeModel.w_pc wk = RuntimeModel.PStolen f
    | Some h => RuntimeModel.w_pc wk = RuntimeModel.PIdle /\ map N.to_nat (RuntimeModel.w_batch wk) = h
    end
  end.

Lemma agree_hof p p' wk : hof p' = hof p -> (forall h, p <> TRun h) -> agree p wk -> agree p' wk.
Proof. intros E Hn H. destruct p'; try exact I; unfold agree; rewrite E; destruct p; try exact H; by edestruct Hn. Qed.
Lemma agree_same p wk wk' : RuntimeModel.w_pc wk' = RuntimeModel.w_pc wk -> RuntimeModel.w_batch wk' = RuntimeModel.w_batch wk -> agree p wk -> agree p wk'.
Proof. intros E1 E2. destruct p; simpl; rewrite ?E1, ?E2; done. Qed.

Section Inv.
Context (n nd : nat) (dom : nat -> nat) (af : bool).

Record winv (x : whole) : Prop := WInv {
  wi_len : length (rworkers (rt x)) = n;
  wi_q : forall w wk, rworkers (rt x) !! w = Some wk -> map N.to_nat (RuntimeModel.w_inbox wk) = q (pool x) w;
  wi_agree : forall w wk, rworkers (rt x) !! w = Some wk -> agree (pc (pool x) w) wk;
  wi_pool : exists h, LazyModel.reach n nd dom (pool x) h;
  wi_rt : RuntimeSpec.reach n af (rt x) (hist x)
}.

(** ** Steps of the pool *)

(** The worker's own step. *)
Lemma pool_own w c p p' tr : LazyModel.worker n nd dom w c p = Next p' tr ->
  (forall u, u <> w -> q p' u = q p u) /\
  match pc p w with
  | WPop1 | WPop2 _ =>
    match q p w with
    | [] => q p' w = [] /\ hof (pc p' w) = None
    | js => q p' w = [] /\ hof (pc p' w) = Some js
    end
  | WSteal => q p' w = q p w /\ hof (pc p' w) = if c_steal c then Some [] else None
  | TRun _ => q p' w = q p w /\ pc p' w = TEnd
  | _ => q p' w = q p w /\ hof (pc p' w) = hof (pc p w)
  end.
Proof.
  intros Hs. unfold LazyModel.worker, ret, notify, unregister, thief_sub in Hs. destruct (pc p w) eqn:Hp.
  all: try (repeat case_match; try done; simplify_eq; simpl; rewrite ?fset_eq; (split; [intros u Hu; rewrite ?fset_ne by done; done|by repeat case_match])).
  all: destruct (wake_one _ _ _ _ _) as [s1|] eqn:Hwk; [|done]; injection Hs as <- <-; simpl; rewrite fset_eq;
    apply wake_one_classes in Hwk as (_ & _ & _ & _ & _ & _ & _ & Ew & _); rewrite Ew; done.
Qed.

Lemma other_hof w l p p' tr : LazyModel.step n nd dom l p = Next p' tr -> notw w l ->
  hof (pc p' w) = hof (pc p w) /\ ((exists h, pc p w = TRun h) -> pc p' w = pc p w).
Proof.
  intros Hs Hn. destruct (other_pc n nd dom w l p p' tr Hs Hn) as [E|(k & E & E')]; [by rewrite E|].
  rewrite E, E'. split; [done|]. by intros (h & ?).
Qed.

Lemma other_agree w l p p' tr wk : LazyModel.step n nd dom l p = Next p' tr -> notw w l -> agree (pc p w) wk -> agree (pc p' w) wk.
Proof.
  intros Hs Hn H. destruct (other_pc n nd dom w l p p' tr Hs Hn) as [E|(k & E & E')]; [by rewrite E|].
  rewrite E in H. by rewrite E'.
Qed.

(** A step of a thread inside schedule, of the destructor, a spurious wake-up. *)
Definition calm (l : lab) (p : st) : Prop :=
  match l with LAgent a _ _ => ag p a <> AIdle | LDtor | LSpurious _ => True | LWorker _ _ => False end.
Lemma calm_q l p p' tr : LazyModel.step n nd dom l p = Next p' tr -> calm l p -> forall u, q p' u = q p u.
Proof.
  intros Hs Hc u. destruct l as [w c|a w j| |w]; simpl in Hs, Hc; [done|..].
  - unfold agent, ret, notify in Hs. destruct (ag p a); [done|..]; by injection Hs as <- <-.
  - unfold destructor, ret, notify in Hs. destruct (dt p); repeat case_match; try done; by injection Hs as <- <-.
  - case_decide; [|done]. unfold spurious, ret in Hs. destruct (pc p w); try done. by injection Hs as <- <-.
Qed.
Lemma push_q a d j p p' tr : LazyModel.step n nd dom (LAgent a d j) p = Next p' tr -> ag p a = AIdle ->
  d < n /\ q p' = fset d (q p d ++ [j]) (q p) /\ pc p' = pc p.
Proof. simpl. unfold agent. intros Hs Ha. rewrite Ha in Hs. case_decide; [|done]. by injection Hs as <- <-. Qed.

(** ** Steps of the whole *)

Lemma step_inv l x x' : whole_step n nd dom l x = WNext x' -> exists pl rl trp tr,
  parts n l x = Some (pl, rl) /\ pool_part n nd dom pl (pool x) = Next (pool x') trp /\
  rt_part rl (rt x) = RuntimeModel.Next (rt x') tr /\ hist x' = rev tr ++ hist x.
Proof.
  unfold whole_step. destruct (parts n l x) as [[pl rl]|]; [|done].
  destruct (pool_part n nd dom pl (pool x)) as [p' trp| |] eqn:E0; try done; destruct (rt_part rl (rt x)) as [r' tr| |] eqn:E; try done.
  intros [= <-]. exists pl, rl, trp, tr. done.
Qed.

Lemma parts_allowed l x pl rl : parts n l x = Some (pl, Some rl) -> legal n af l -> RuntimeSpec.allowed n af rl.
Proof.
  intros Hp Hl. destruct l as [w c v fail|a d t| |w|w]; simpl in Hp, Hl; [|..|discriminate Hp|discriminate Hp|].
  - destruct (ag (pool x) w); [|discriminate Hp..]. destruct (pc (pool x) w); try (destruct (q (pool x) w)); repeat case_match; try discriminate Hp; injection Hp as <- <-; done.
  - case_decide; [done|]. destruct (ag (pool x) a); [|discriminate Hp..]. by injection Hp as <- <-.
  - repeat case_match; try done. by injection Hp as <- <-.
Qed.

Lemma winv_init : winv (init_whole n).
Proof.
  split; simpl.
  - by rewrite map_length, seq_length.
  - intros w wk Hw. rewrite list_lookup_fmap in Hw. destruct (seq 0 n !! w); simpl in Hw; [|done]. by injection Hw as <-.
  - intros w wk Hw. rewrite list_lookup_fmap in Hw. destruct (seq 0 n !! w); simpl in Hw; [|done]. by injection Hw as <-.
  - exists []. constructor.
  - constructor.
Qed.

Lemma parts_reach l x x' : winv x -> legal n af l -> whole_step n nd dom l x = WNext x' ->
  (exists h, LazyModel.reach n nd dom (pool x') h) /\ RuntimeSpec.reach n af (rt x') (hist x') /\ length (rworkers (rt x')) = n.
Proof.
  intros I Hl Hs. apply step_inv in Hs as (pl & rl & trp & tr & Hp & H1 & H2 & ->).
  assert (RuntimeSpec.reach n af (rt x') (rev tr ++ hist x)) as HR.
  { destruct rl as [rl|]; simpl in H2.
    - eapply RuntimeSpec.reach_step; [apply (wi_rt _ I)|by eapply parts_allowed|exact H2].
    - injection H2 as <- <-. apply (wi_rt _ I). }
  split; [|split; [done|]].
  - destruct (wi_pool _ I) as [h Hr]. destruct pl as [pl|]; simpl in H1.
    + eexists. by eapply LazyModel.reach_step.
    + injection H1 as <- <-. by exists h.
  - destruct (RuntimeSafe.reach_inv _ _ _ _ HR) as (G & J). by apply RuntimeInv.i_len in J.
Qed.

Lemma lookup_ins {A} (l : list A) i j (a b : A) : <[i := a]> l !! j = Some b -> (j = i /\ b = a /\ i < length l) \/ (j <> i /\ l !! j = Some b).
Proof. intros H. apply list_lookup_insert_Some in H as [(-> & <- & ?)|[? ?]]; eauto. Qed.

(** The parts of the invariant that relate the two. *)
Definition rel (p : st) (r : RuntimeModel.state) : Prop :=
  forall w wk, rworkers r !! w = Some wk -> map N.to_nat (RuntimeModel.w_inbox wk) = q p w /\ agree (pc p w) wk.

Lemma rel_pool l p p' tr r : LazyModel.step n nd dom l p = Next p' tr -> calm l p -> rel p r -> rel p' r.
Proof.
  intros Hs Hc H w wk Hw. destruct (H w wk Hw) as [H1 H2]. rewrite (calm_q l p p' tr Hs Hc w). split; [done|].
  eapply (other_agree w l); [exact Hs|by destruct l|done].
Qed.

Lemma rel_worker w c p p' tr r : LazyModel.step n nd dom (LWorker w c) p = Next p' tr -> rel p r ->
  (forall wk, rworkers r !! w = Some wk -> map N.to_nat (RuntimeModel.w_inbox wk) = q p' w /\ agree (pc p' w) wk) -> rel p' r.
Proof.
  intros Hs H Hw u wk Hu. destruct (decide (u = w)) as [->|Hne]; [by apply Hw|]. destruct (H u wk Hu) as [H1 H2].
  assert (LazyModel.worker n nd dom w c p = Next p' tr) as Hs' by (simpl in Hs; by case_decide).
  destruct (pool_own w c p p' tr Hs') as [Hq _]. rewrite Hq by done. split; [done|].
  eapply (other_agree u (LWorker w c)); [exact Hs|simpl; done|done].
Qed.

Lemma rel_work w fail p r r' tr wk : rworkers r !! w = Some wk -> RuntimeModel.wstep w fail r = RuntimeModel.Next r' tr -> moving r w = None ->
  (exists h, pc p w = TRun h) -> rel p r -> rel p r'.
Proof.
  intros Hw Hs Hm [h Hh] H u uk Hu. destruct (WholeRt.wstep_workers w fail r r' tr wk Hw Hs) as (w' & Ei & E).
  rewrite Hm in E. rewrite E in Hu. apply lookup_ins in Hu as [(-> & -> & _)|[Hne Hu]]; [|by apply H].
  rewrite Ei, Hh. split; [|exact Logic.I]. by apply H.
Qed.

Lemma rel_push d j r r' p p' : (exists wd, rworkers r !! d = Some wd /\ rworkers r' = <[d := RuntimeModel.set_inbox (RuntimeModel.w_inbox wd ++ [j]) wd]> (rworkers r)) ->
  q p' = fset d (q p d ++ [N.to_nat j]) (q p) -> pc p' = pc p -> rel p r -> rel p' r'.
Proof.
  intros (wd & Hd & E) Eq Ep H u uk Hu. rewrite E in Hu. rewrite Eq, Ep. apply lookup_ins in Hu as [(-> & -> & _)|[Hne Hu]].
  - destruct (H d wd Hd) as [H1 H2]. rewrite fset_eq. simpl. rewrite map_app, H1. split; [done|].
    by apply (agree_same _ wd).
  - rewrite fset_ne by done. by apply H.
Qed.

Theorem step_winv l x x' : winv x -> legal n af l -> whole_step n nd dom l x = WNext x' -> winv x'.
Proof.
  intros I Hl Hs. destruct (parts_reach l x x' I Hl Hs) as (HP & HR & HL).
  assert (rel (pool x') (rt x')) as HX; [|split; [done|intros w wk Hw; by apply HX|intros w wk Hw; by apply HX|done|done]].
  assert (rel (pool x) (rt x)) as H by (intros w wk Hw; split; [by apply (wi_q _ I)|by apply (wi_agree _ I)]).
  apply step_inv in Hs as (pl & rl & trp & tr & Hp & H1 & H2 & _).
  destruct l as [w c v fail|a d t| |w|w]; simpl in Hp.
  - destruct (ag (pool x) w) eqn:Ha; cycle 1.
    1,2: (injection Hp as <- <-; simpl in H1, H2; injection H2 as <- <-; eapply (rel_pool (LAgent w 0 0)); [exact H1|simpl; by rewrite Ha|done]).
    assert (forall r, pool_part n nd dom (Some (LWorker w c)) (pool x) = Next (pool x') trp -> rt_part None (rt x) = RuntimeModel.Next (rt x') tr ->
      match pc (pool x) w with WPop1 | WPop2 _ => q (pool x) w = [] | WSteal => c_steal c = false | TRun _ => resting (rt x) w = true | _ => True end -> r = rt x' -> rel (pool x') r) as Hplain.
    { intros r E1 E2 Hq ->. simpl in E1, E2. injection E2 as <- <-. eapply rel_worker; [exact E1|done|].
      intros wk Hw. destruct (H w wk Hw) as [Hq1 Hag]. assert (LazyModel.worker n nd dom w c (pool x) = Next (pool x') trp) as E1' by (simpl in E1; by case_decide).
      destruct (pool_own w c _ _ _ E1') as [_ Ho]. rewrite Hq1. destruct (pc (pool x) w) eqn:Hpc.
      all: try (destruct Ho as [-> Ho]; split; [done|]; eapply agree_hof; [exact Ho|done|exact Hag]).
      - rewrite Hq in *. destruct Ho as [-> Ho]. split; [done|]. by eapply (agree_hof WPop1).
      - rewrite Hq in Ho. destruct Ho as [-> Ho]. split; [done|]. by eapply (agree_hof WSteal).
      - rewrite Hq in *. destruct Ho as [-> Ho]. split; [done|]. by eapply (agree_hof (WPop2 k)).
      - destruct Ho as [-> ->]. split; [done|]. simpl. by apply (WholeRt.resting_spec _ _ _ Hw). }
    destruct (pc (pool x) w) eqn:Hpc; try (injection Hp as <- <-; by apply (Hplain _ H1 H2)).
    (* WPop1, WPop2 *)
    1,3: (destruct (q (pool x) w) as [|j js] eqn:Hq; injection Hp as <- <-; [by apply (Hplain _ H1 H2)|]; simpl in H1, H2;
      unfold RuntimeModel.take in H2; destruct (rworkers (rt x) !! w) as [wk|] eqn:Hw; [|done];
      destruct (RuntimeModel.w_pc wk) eqn:E1, (RuntimeModel.w_batch wk) eqn:E2, (RuntimeModel.w_inbox wk) as [|g0 gs] eqn:E3; try done;
      injection H2 as H2 _; destruct (H w wk Hw) as [Hq1 Hag]; rewrite E3, Hq in Hq1;
      assert (LazyModel.worker n nd dom w c (pool x) = Next (pool x') trp) as H1' by (simpl in H1; by case_decide);
      destruct (pool_own w c _ _ _ H1') as [Hqo Ho]; rewrite Hpc, Hq in Ho; destruct Ho as [Eq Eh];
      intros u uk Hu; rewrite <- H2 in Hu; simpl in Hu; apply lookup_ins in Hu as [(-> & -> & _)|[Hne Hu]];
      [rewrite Eq; simpl; split; [done|]; unfold agree; rewrite Eh; simpl; rewrite E1; simpl in Hq1; by destruct (pc (pool x') w)
      |destruct (H u uk Hu) as [G1 G2]; rewrite Hqo by done; split; [done|]; eapply (other_agree u (LWorker w c)); [exact H1|simpl; done|done]]).
    + (* WSteal *)
      destruct (c_steal c) eqn:Ec; injection Hp as <- <-; [|by apply (Hplain _ H1 H2)]. simpl in H2. unfold RuntimeModel.steal in H2.
      destruct (rworkers (rt x) !! w) as [wk|] eqn:Hw; [|done]. destruct (rworkers (rt x) !! v) as [wv|] eqn:Hv; [|done].
      case_decide as Ewv; [done|]. destruct (RuntimeModel.w_pc wk) eqn:E1, (RuntimeModel.w_batch wk) eqn:E2, (last (RuntimeModel.w_deque wv)) as [g0|] eqn:E3; try done.
      injection H2 as H2 _. destruct (H w wk Hw) as [Hq1 Hag].
      assert (LazyModel.worker n nd dom w c (pool x) = Next (pool x') trp) as H1' by (simpl in H1; by case_decide).
      destruct (pool_own w c _ _ _ H1') as [Hqo Ho]. rewrite Hpc, Ec in Ho. destruct Ho as [Eq Eh].
      intros u uk Hu. rewrite <- H2 in Hu. simpl in Hu. apply lookup_ins in Hu as [(-> & -> & _)|[Hne Hu]].
      * rewrite Eq. simpl. split; [done|]. unfold agree. rewrite Eh. simpl. destruct (pc (pool x') w); eauto.
      * assert (exists uk', rworkers (rt x) !! u = Some uk' /\ RuntimeModel.w_inbox uk = RuntimeModel.w_inbox uk' /\
          RuntimeModel.w_pc uk = RuntimeModel.w_pc uk' /\ RuntimeModel.w_batch uk = RuntimeModel.w_batch uk') as (uk' & Hu' & F1 & F2 & F3).
        { apply lookup_ins in Hu as [(-> & -> & _)|[Hne' Hu]]; [exists wv|exists uk]; done. }
        destruct (H u uk' Hu') as [G1 G2]. rewrite F1, Hqo by done. split; [done|]. apply (agree_same _ uk'); [done|done|].
        eapply (other_agree u (LWorker w c)); [exact H1|simpl; done|done].
    + (* TRun *)
      destruct (resting (rt x) w) eqn:Er; injection Hp as <- <-; [by apply (Hplain _ H1 H2)|]. simpl in H2.
      destruct (rworkers (rt x) !! w) as [wk|] eqn:Hw; [|unfold RuntimeModel.wstep in H2; by rewrite Hw in H2].
      destruct (moving (rt x) w) as [[d f]|] eqn:Em; simpl in H1.
      * destruct (WholeRt.wstep_workers w fail _ _ _ wk Hw H2) as (w' & Ei & E). rewrite Em in E. destruct E as (wd & Hd & E).
        destruct (push_q w d (N.to_nat f) _ _ _ H1 Ha) as (Hdn & Eq & Epc).
        intros u uk Hu. rewrite E in Hu. rewrite Eq, Epc. apply lookup_ins in Hu as [(-> & -> & _)|[Hne Hu]].
        -- rewrite fset_eq. simpl. rewrite map_app. apply lookup_ins in Hd as [(-> & -> & _)|[Hne Hd]].
           ++ rewrite Ei. destruct (H w wk Hw) as [G1 G2]. rewrite G1, Hpc. split; [done|exact Logic.I].
           ++ destruct (H d wd Hd) as [G1 G2]. rewrite G1. split; [done|]. by apply (agree_same _ wd).
        -- rewrite fset_ne by done. apply lookup_ins in Hu as [(-> & -> & _)|[Hne' Hu]]; [|by apply H].
           rewrite Ei, Hpc. split; [|exact Logic.I]. by apply H.
      * injection H1 as <- _. by eapply rel_work; eauto.
  - case_decide as Ea; [done|]. destruct (ag (pool x) a) eqn:Ha; injection Hp as <- <-; cycle 1.
    1,2: (simpl in H1, H2; injection H2 as <- <-; eapply (rel_pool (LAgent a 0 0)); [exact H1|simpl; by rewrite Ha|done]).
    simpl in H2. unfold RuntimeModel.spawn in H2. destruct (rworkers (rt x) !! d) as [wd|] eqn:Hd; [|done]. injection H2 as H2 _.
    destruct (push_q a d _ _ _ _ H1 Ha) as (Hdn & Eq & Epc). eapply rel_push; [|exact Eq|exact Epc|exact H]. exists wd. split; [done|]. by rewrite <- H2.
  - injection Hp as <- <-. simpl in H1, H2. injection H2 as <- <-. by eapply (rel_pool LDtor).
  - injection Hp as <- <-. simpl in H1, H2. injection H2 as <- <-. by eapply (rel_pool (LSpurious w)).
  - destruct (ag (pool x) w); [|done..]. destruct (pc (pool x) w) eqn:Hpc; try done. injection Hp as <- <-.
    simpl in H1, H2. injection H1 as <- _.
    destruct (RuntimeInv.stale_workers _ _ _ _ H2) as (wk & wk' & f & Hi & _ & Es & E1 & E2 & E3).
    intros u uk Hu. rewrite Es in Hu. apply lookup_ins in Hu as [(-> & -> & _)|[Hne Hu]]; [|by apply H].
    destruct (H w wk Hi) as [G1 G2]. rewrite E1, Hpc. done.
Qed.

Lemma wreach_winv x : wreach n nd dom af x -> winv x.
Proof. induction 1; [apply winv_init|]. by eapply step_winv. Qed.
End Inv.
