(** * Which accesses are ordered after all earlier conflicting ones, and keep the
    invariant of SyncInv.v. *)

From stdpp Require Import prelude gmap list relations.
From Coq Require Import NArith Lia.
From Verif Require Import RuntimeModel RuntimeSpec RuntimeInv SyncSpec SyncModel SyncViews SyncInv SyncTrans.
Local Open Scope N_scope.

Definition tag (t : thread) (l : list action) : trace := (fun a => (t, a)) <$> l.

Definition okay (nb : option thread) (s : state) (t : thread) (a : action) : Prop :=
  forall g, J nb s g -> safe g (t, a) /\ perm nb s g t a.

Lemma run_okay nb s t acts g :
  Forall (okay nb s t) acts -> J nb s g ->
  J nb s (vrun g (tag t acts)) /\ all_safe g (tag t acts).
Proof.
  intros H. revert g. induction H as [|a acts Ha _ IH]; intros g HJ; [done|]. cbn.
  destruct (Ha g HJ) as (S1 & P1). destruct (IH (vstep g (t, a))) as (S2 & P2); [by apply J_step|].
  done.
Qed.

Lemma okay_intro nb s t a l w at' :
  access a = Some (l, w, at') -> keeps s t a ->
  (forall g m w' a', J nb s g -> acs g l m w' a' -> w = true \/ w' = true -> at' = false \/ a' = false ->
     cur g t m) ->
  (forall k, req s l w at' k -> grants s t k) ->
  (forall f, floc l = Some f -> s_nextf s <= f -> f = s_nextf s /\ nb = Some t) ->
  (forall x, l = LStk x -> s_nexts s <= x -> x = s_nexts s /\ nb = Some t) ->
  (forall f g, a = Code f -> J nb s g -> f < s_nextf s /\ (exists fr, s_frames s !! f = Some fr) /\
    forall r, 0 < sem s r -> ~ tree g f r) ->
  (free l -> at' = true) ->
  okay nb s t a.
Proof.
  intros Ha Hk Hs Hr Hf Hx Hc Hfr g HJ. split.
  - intros l' w1 a1 m w2 a2 A. cbn [snd] in A. rewrite Ha in A. injection A as <- <- <-. intros. by eapply Hs.
  - constructor; [done|..].
    + intros l' w1 a1 k A. rewrite Ha in A. injection A as <- <- <-. auto.
    + intros l' w1 a1 f A. rewrite Ha in A. injection A as <- <- <-. auto.
    + intros x w1 a1 A. rewrite Ha in A. injection A as -> <- <-. auto.
    + intros f ->. by apply Hc.
    + intros c p b A. destruct a; done.
    + intros l' w1 a1 A. rewrite Ha in A. injection A as <- <- <-. auto.
Qed.

Lemma okay_quiet nb s t a : access a = None -> is_birth a = None -> okay nb s t a.
Proof.
  intros Ha Hb g HJ. split.
  - intros l' w1 a1 m w2 a2 A. cbn [snd] in A. congruence.
  - constructor.
    + by destruct a.
    + intros l' w1 a1 k A. congruence.
    + intros l' w1 a1 f A. congruence.
    + intros x w1 a1 A. congruence.
    + intros f ->. done.
    + intros c p b A. congruence.
    + intros l' w1 a1 A. congruence.
Qed.

Lemma okay_free nb s t a l w :
  access a = Some (l, w, true) -> free l -> keeps s t a -> okay nb s t a.
Proof.
  intros Ha Hl Hk. apply (okay_intro nb s t a l w true); [done|done|..].
  - intros g m w' a' HJ A _ [?|E]; [done|]. rewrite (j_free _ _ _ HJ _ _ _ _ A Hl) in E. done.
  - intros k R. by apply free_req in R.
  - intros f H. by destruct Hl as (i & [-> |[-> | ->]]).
  - intros x ->. by destruct Hl as (i & [?|[?|?]]).
  - intros f g -> _. done.
  - done.
Qed.

Definition held (s : state) (i : nat) (f : N) : Prop :=
  exists w, s_workers s !! i = Some w /\ f ∈ pc_tok (w_pc w) ++ w_batch w.

Lemma held_run s i w f : s_workers s !! i = Some w -> pc_tok (w_pc w) = [f] -> held s i f.
Proof. intros Hi Hp. exists w. split; [done|]. rewrite Hp. by left. Qed.

Lemma grant_held s i f : held s i f -> grants s (TW i) (KF f).
Proof. intros (w & Hi & Hf) g m Hc. eapply kn_wrk; [done|]. by left. Qed.
Lemma grant_heldp s i f : held s i f -> grants s (TW i) (KP f).
Proof. intros H g m Hc. left. by apply grant_held in H; apply (H g m). Qed.

Section access.
  Context (nw : nat) (G : ghost) (s : state) (I : inv nw G s) (E : extra s) (nb : option thread).

  Lemma live_lt f fr : s_frames s !! f = Some fr -> f < s_nextf s.
  Proof. intros H. destruct (decide (f < s_nextf s)); [done|]. rewrite (i_fresh _ _ _ I f) in H; [done|lia]. Qed.

  Lemma held_cur g i f m : held s i f -> know s g f m -> cur g (TW i) m.
  Proof. intros (w & Hi & Hf) H. by eapply know_held. Qed.

  Lemma held_live i f : held s i f -> exists fr, s_frames s !! f = Some fr.
  Proof.
    intros (w & Hi & Hf). apply occ_in in Hf. rewrite occ_app in Hf.
    eapply (tok_live _ _ _ f); [exact I|exact Hi|]. unfold wtok. lia.
  Qed.

  Lemma final_live i w p : s_workers s !! i = Some w -> final_of w = Some p -> exists fr, s_frames s !! p = Some fr.
  Proof.
    intros Hi Hw. eapply (sub_live _ _ _ p); [exact I|exact Hi|]. unfold wsub, final_of in *.
    destruct (w_pc w); try done; injection Hw as ->; rewrite eqn_refl; lia.
  Qed.

  Lemma held_uniq i j f : held s i f -> held s j f -> i = j.
  Proof.
    intros H1 H2. destruct (decide (i = j)) as [|Hne]; [done|exfalso].
    destruct (held_live _ _ H1) as (fr & Hf). destruct H1 as (w & Hi & Hw), H2 as (w' & Hj & Hw').
    apply occ_in in Hw, Hw'. rewrite occ_app in Hw, Hw'.
    pose proof (tok_other _ _ _ f fr i j w w' I Hf Hi Hj Hne ltac:(unfold wtok; lia)) as X. unfold wtok in X. lia.
  Qed.

  Lemma code_ok g f fr r :
    J nb s g -> s_frames s !! f = Some fr -> f_rp fr <> RSignalled -> 0 < sem s r -> ~ tree g f r.
  Proof.
    intros HJ Hf Hr Hs Ht. destruct (e_sem _ E _ Hs) as (_ & Hsig).
    assert (H : exists frr, s_frames s !! r = Some frr /\
      (f = r \/ exists c frc, s_frames s !! c = Some frc /\ par (f_kind frc) = Some r)).
    { clear Hr. revert fr Hf. induction Ht as [c|c p r (b & H1) _ IH]; intros fr Hf; [eauto|].
      destruct (j_gpa _ _ _ HJ _ _ _ H1) as (_ & _ & Hp). destruct (Hp _ Hf) as (Hp' & _). clear Hp. rename Hp' into Hp.
      destruct (parent_live _ _ _ I _ _ _ Hf Hp) as (frp & Hfp).
      destruct (IH Hs Hsig _ Hfp) as (frr & Hrr & [->|Hk]); [|eauto].
      exists frr. split; [done|]. right. eauto. }
    destruct H as (frr & Hrr & [->|(c & frc & Hc & Hp)]).
    - apply Hr. eauto.
    - specialize (Hsig _ Hrr). pose proof (i_node _ _ _ I _ _ Hrr) as (_ & N2 & _ & _ & N). rewrite Hsig in N2, N.
      eapply (no_kid s); [| |exact Hc|exact Hp]; lia.
  Qed.

  (* accesses by the task itself *)

  Lemma okay_frame i f a w :
    held s i f -> access a = Some (LFrame f, w, false) ->
    (forall h, a = Code h -> exists fr, s_frames s !! h = Some fr /\ f_rp fr <> RSignalled) ->
    okay nb s (TW i) a.
  Proof.
    intros Hh Ha Hc. destruct (held_live _ _ Hh) as (fr & Hf).
    apply (okay_intro nb s _ a (LFrame f) w false); [done|..].
    - destruct a as [| [] | | | | | |]; done.
    - intros g m w' a' HJ A _ _. apply (held_cur _ _ f); [done|].
      apply (j_req _ _ _ HJ _ _ _ (KF f) _ (rq_frame _ _ _ _ _ Hf) A).
    - intros k R. inversion R; subst; try (by apply grant_held).
      all: repeat match goal with
        | H : shared _ _ |- _ => destruct H as [?|[?|[?|[?|(? & ?)]]]]; done
        | H : ctl _ _ _ _ |- _ => destruct H as [(? & _)|([?|?] & _)]; done end.
    - intros h [= <-] Hlt. apply live_lt in Hf. lia.
    - done.
    - intros h g -> HJ. cbn in Ha. injection Ha as -> _. destruct (Hc _ eq_refl) as (fr' & Hf' & Hr).
      split; [by apply live_lt in Hf|]. split; [eauto|]. intros r Hs. by eapply code_ok.
    - intros (j & [?|[?|?]]); done.
  Qed.

  Lemma okay_node i f a w :
    held s i f -> access a = Some (LNode f, w, false) -> okay nb s (TW i) a.
  Proof.
    intros Hh Ha. destruct (held_live _ _ Hh) as (fr & Hf).
    apply (okay_intro nb s _ a (LNode f) w false); [done|..].
    - destruct a as [| [] | | | | | |]; done.
    - intros g m w' a' HJ A _ _. apply (held_cur _ _ f); [done|].
      apply (j_req _ _ _ HJ _ _ _ (KF f) _ (rq_node _ _ _ _ _ Hf) A).
    - intros k R. inversion R; subst; try (by apply grant_held).
      all: repeat match goal with
        | H : shared _ _ |- _ => destruct H as [?|[?|[?|[?|(? & ?)]]]]; done
        | H : ctl _ _ _ _ |- _ => destruct H as [(? & _)|([?|?] & _)]; done end.
    - intros h [= <-] Hlt. apply live_lt in Hf. lia.
    - done.
    - by intros h g -> HJ.
    - intros (j & [?|[?|?]]); done.
  Qed.

  (* reading the header, or an atomic access to the counters of [p], by somebody who knows
     all the writes of [p]'s owner *)
  Definition sharel (p : N) (l : loc) (w at' : bool) : Prop :=
    (l = LHdr p /\ w = false /\ at' = false) \/ ((l = LAt (OJoin p) \/ l = LAt (OFlag p)) /\ at' = true).

  Lemma okay_share t p frp a l w at' k0 :
    s_frames s !! p = Some frp ->
    access a = Some (l, w, at') -> sharel p l w at' -> keeps s t a ->
    (forall l' w' a', ctl p l' w' a' -> req s l' w' a' k0) ->
    (forall g m, J nb s g -> kn s g k0 m -> cur g t m) ->
    grants s t (KP p) ->
    okay nb s t a.
  Proof.
    intros Hp Ha Hl Hk H0 H1 Hg. apply (okay_intro nb s t a l w at'); [done|done|..].
    - intros g m w' a' HJ A Hw Hat. apply H1; [done|]. eapply (j_req _ _ _ HJ); [|exact A]. apply H0.
      destruct Hl as [(-> & -> & ->)|([-> | ->] & ->)].
      + destruct Hw as [|Hw]; [done|]. left. done.
      + destruct Hat as [|Hat]; [done|]. right. auto.
      + destruct Hat as [|Hat]; [done|]. right. auto.
    - intros k R. assert (Hc : forall q, ~ ctl q l w at').
      { intros q [(X1 & X2)|([X1|X1] & X2)]; destruct Hl as [(Y1 & Y2 & Y3)|([Y1|Y1] & Y2)]; congruence. }
      assert (Hs : forall q, shared q l -> q = p).
      { intros q X. destruct Hl as [(-> & -> & ->)|([-> | ->] & ->)];
          destruct X as [X|[X|[X|[X|(j & X)]]]]; congruence. }
      inversion R; subst; try (by exfalso; eapply Hc);
        try (by destruct Hl as [(? & ? & ?)|([? | ?] & ?)]).
      rewrite (Hs _ H2). done.
    - intros f Hf Hlt. apply live_lt in Hp.
      destruct Hl as [(-> & _)|([-> | ->] & _)]; injection Hf as <-; lia.
    - intros x ->. by destruct Hl as [(? & ? & ?)|([? | ?] & ?)].
    - intros f g -> HJ. by destruct Hl as [(? & ? & ?)|([? | ?] & ?)]; simplify_eq/=.
    - intros (j & Hj). destruct Hl as [(-> & _)|([-> | ->] & _)]; destruct Hj as [?|[?|?]]; done.
  Qed.

  Lemma okay_share_held i p a l w at' :
    held s i p -> access a = Some (l, w, at') -> sharel p l w at' -> keeps s (TW i) a -> okay nb s (TW i) a.
  Proof.
    intros Hh Ha Hl Hk. destruct (held_live _ _ Hh) as (fr & Hf).
    eapply (okay_share (TW i) p fr a l w at' (KF p)); [done..| | |by apply grant_heldp].
    - intros l' w' a' Hc. by eapply rq_own.
    - intros g m HJ Hkn. by eapply held_cur.
  Qed.

  Lemma okay_share_final i wk p a l w at' :
    s_workers s !! i = Some wk -> final_of wk = Some p ->
    access a = Some (l, w, at') -> sharel p l w at' -> keeps s (TW i) a -> okay nb s (TW i) a.
  Proof.
    intros Hi Hw Ha Hl Hk. destruct (final_live _ _ _ Hi Hw) as (fr & Hf).
    eapply (okay_share (TW i) p fr a l w at' (KT (TW i))); [done..| |done|].
    - intros l' w' a' Hc. by eapply rq_fin.
    - intros g m Hc. right; right; right. eauto.
  Qed.

  (* whoever holds a child speaks for the parent *)
  Lemma grant_kid i c frc p : held s i c -> s_frames s !! c = Some frc -> par (f_kind frc) = Some p ->
    grants s (TW i) (KP p).
  Proof.
    intros Hh Hc Hp g m Hcur. pose proof (grant_held _ _ _ Hh g m Hcur) as Hk. cbn in Hk.
    destruct (f_kind frc) as [|q j st|q j st] eqn:Ek; [done|..]; injection Hp as ->.
    - destruct (parent_live _ _ _ I c frc p Hc) as (frp & Hfp); [by rewrite Ek|].
      pose proof (i_node _ _ _ I p frp Hfp) as (_ & N2 & _).
      assert (0 < ncalls p (shape_of (s_frames s))).
      { refine (cntm_pos (is_call p) _ c _ (shape_lookup _ _ _ Hc) _). unfold is_call. cbn. rewrite Ek. by case_bool_decide. }
      destruct (f_rp frp) as [| |x y k| | | | |] eqn:Er; try lia.
      left. by eapply (kn_call s g p frp x y k c frc j st).
    - right; right; left. exists c, frc, j, st. done.
  Qed.

  Lemma okay_share_kid i c frc p a l w at' :
    held s i c -> s_frames s !! c = Some frc -> par (f_kind frc) = Some p ->
    access a = Some (l, w, at') -> sharel p l w at' -> keeps s (TW i) a -> okay nb s (TW i) a.
  Proof.
    intros Hh Hc Hp Ha Hl Hk. destruct (parent_live _ _ _ I c frc p Hc Hp) as (frp & Hfp).
    eapply (okay_share (TW i) p frp a l w at' (KF c)); [done..| | |by eapply grant_kid].
    - intros l' w' a' Hct. by eapply rq_kid.
    - intros g m HJ Hkn. by eapply held_cur.
  Qed.

  (* a task that has no children and no pending joins owns everything it has *)
  Definition excl (i : nat) (f : N) : Prop :=
    held s i f /\ nforks f (shape_of (s_frames s)) = 0 /\ ncalls f (shape_of (s_frames s)) = 0 /\
    sumw (wsub f) (s_workers s) = 0 /\
    exists fr, s_frames s !! f = Some fr /\ f_joins fr = u16max /\ forall k, f_rp fr <> RJoin k.

  Lemma excl_cur i f g m : excl i f -> pend s g f m -> cur g (TW i) m.
  Proof.
    intros (Hh & H1 & H2 & H3 & fr & Hf & H4 & H5) Hp. eapply held_cur; [done|]. by eapply pend_know.
  Qed.

  Definition ownl (f : N) (l : loc) : Prop :=
    l = LFrame f \/ l = LNode f \/ shared f l.

  Lemma okay_own i f a l w :
    excl i f -> ownl f l -> access a = Some (l, w, false) -> (forall h, a <> Code h) -> okay nb s (TW i) a.
  Proof.
    intros Hx Hl Ha Hcode. pose proof Hx as (Hh & H1 & H2 & H3 & fr & Hf & H4 & H5).
    assert (Hff : floc l = Some f).
    { by destruct Hl as [-> |[-> |[-> |[-> |[-> |[-> |(j & ->)]]]]]]. }
    assert (Hct : forall q w' a', ctl q l w' a' -> q = f).
    { intros q w' a' [(-> & _)|([-> | ->] & _)]; by injection Hff. }
    apply (okay_intro nb s _ a l w false); [done|..].
    - destruct a as [|[| | | | | | |[]]| | | | | |]; try done; injection Ha as <-.
      + by destruct Hl as [?|[?|[?|[?|[?|[?|(j & ?)]]]]]].
      + by destruct Hl as [?|[?|[?|[?|[?|[?|(j & ?)]]]]]].
      + by destruct Hl as [?|[?|[?|[?|[?|[?|(j & ?)]]]]]].
      + cbn in Hff. injection Hff as ->. intros fr' Hf'. by simplify_eq.
      + by destruct Hl as [?|[?|[?|[?|[?|[?|(j & ?)]]]]]].
    - intros g m w' a' HJ A _ _. destruct Hl as [-> |[-> |Hsh]].
      + apply (held_cur _ _ f); [done|]. apply (j_req _ _ _ HJ _ _ _ (KF f) _ (rq_frame _ _ _ _ _ Hf) A).
      + apply (held_cur _ _ f); [done|]. apply (j_req _ _ _ HJ _ _ _ (KF f) _ (rq_node _ _ _ _ _ Hf) A).
      + apply (excl_cur _ f); [done|]. apply (j_req _ _ _ HJ _ _ _ (KP f) _ (rq_share _ _ _ _ _ _ Hf Hsh) A).
    - intros k R.
      assert (Hshf : forall q, shared q l -> q = f).
      { intros q [-> |[-> |[-> |[-> |(j & ->)]]]]; by injection Hff. }
      destruct R as [f' fr' w a' Hf'|f' fr' w a' Hf'|f' fr' l w a' Hf' Hsh|f' fr' l w a' Hf' Hc|c fr' p l w a' Hf' Hp Hc|j wk p l w a' Hi Hw Hc|
        c fr' p j w a' Hf' Hp|f' fr' j w a' Hf' Hj|f' fr' w a' Hf' He|c fr' p frp w a' Hf' Hp Hfp He|c fr' p e w a' Hf' Hp He|
        j wk p fr' n w a' Hi Hf' Hla Hn|j wk w a' Hi He|x f' l w a' Hs Hd|r fr' w a' Hf' Hk Hr|r w a' Hr|r fr' w Hf'|r w].
      + injection Hff as ->. by apply grant_held.
      + injection Hff as ->. by apply grant_held.
      + rewrite (Hshf _ Hsh). by apply grant_heldp.
      + rewrite (Hct _ _ _ Hc). by apply grant_held.
      + rewrite (Hct _ _ _ Hc) in Hp. exfalso. by apply (no_kid s f c fr' H1 H2 Hf').
      + rewrite (Hct _ _ _ Hc) in Hw. exfalso. by apply (no_final s f j wk H3 Hi).
      + injection Hff as ->. exfalso. eapply (no_kid s f c fr'); [done|done|done|]. by rewrite par_cell, Hp.
      + injection Hff as ->. by apply grant_held.
      + injection Hff as ->. by apply grant_held.
      + injection Hff as ->. exfalso. by apply (no_kid s f c fr' H1 H2 Hf').
      + injection Hff as ->. exfalso. by apply (no_kid s f c fr' H1 H2 Hf').
      + injection Hff as ->. destruct Hla as [(Hpc & d & Hd)|(Hpc & _)].
        * exfalso. eapply (no_final s f); [done|exact Hi|]. unfold final_of. by rewrite Hpc.
        * assert (j = i) as ->; [|by intros g m].
          eapply (held_uniq _ _ f); [|done]. eapply held_run; [done|]. by rewrite Hpc.
      + done.
      + by destruct Hl as [?|[?|[?|[?|[?|[?|(j & ?)]]]]]].
      + by destruct Hl as [?|[?|[?|[?|[?|[?|(j & ?)]]]]]].
      + by destruct Hl as [?|[?|[?|[?|[?|[?|(j & ?)]]]]]].
      + by destruct Hl as [?|[?|[?|[?|[?|[?|(j & ?)]]]]]].
      + by destruct Hl as [?|[?|[?|[?|[?|[?|(j & ?)]]]]]].
    - intros h Hfl Hlt. rewrite Hff in Hfl. injection Hfl as <-. apply live_lt in Hf. lia.
    - intros x ->. done.
    - intros h g ->. by destruct (Hcode h).
    - intros (j & [-> |[-> | ->]]); done.
  Qed.

  (* stacks *)
  Lemma okay_stk i wk a w :
    s_workers s !! i = Some wk -> eff wk = true -> access a = Some (LStk (w_stk wk), w, false) ->
    okay nb s (TW i) a.
  Proof.
    intros Hi He Ha. apply (okay_intro nb s _ a (LStk (w_stk wk)) w false); [done|..].
    - destruct a as [| [] | | | | | |]; done.
    - intros g m w' a' HJ A _ _. apply (j_req _ _ _ HJ _ _ _ (KT (TW i)) _ (rq_stkw _ _ _ _ _ Hi He) A).
    - intros k R. inversion R as [| |? ? ? ? ? ? Hsh|? ? ? ? ? ? Hc|? ? ? ? ? ? ? ? Hc|? ? ? ? ? ? ? ? Hc|
        | | | | | |j wk' ? ? Hj Hej Hx|x f l' ? ? Hs Hd Hx| | | |]; subst.
      + by destruct Hsh as [?|[?|[?|[?|(? & ?)]]]].
      + by destruct Hc as [(? & _)|([?|?] & _)].
      + by destruct Hc as [(? & _)|([?|?] & _)].
      + by destruct Hc as [(? & _)|([?|?] & _)].
      + assert (i = j) as <-; [|by intros g m]. destruct (decide (i = j)) as [|Hne]; [done|].
        by destruct (i_own _ _ _ I i j wk wk').
      + by destruct (Hd i wk Hi He).
    - done.
    - intros x [= <-] Hlt. destruct (i_wrk _ _ _ I _ _ Hi) as (_ & ?). lia.
    - by intros f g ->.
    - intros (j & [?|[?|?]]); done.
  Qed.

  Lemma okay_newstk t a w :
    nb = Some t -> access a = Some (LStk (s_nexts s), w, false) -> okay nb s t a.
  Proof.
    intros Hnb Ha. apply (okay_intro nb s _ a (LStk (s_nexts s)) w false); [done|..].
    - destruct a as [| [] | | | | | |]; done.
    - intros g m w' a' HJ A _ _. destruct (j_news _ _ _ HJ _ _ _ _ A) as (_ & t' & Ht & Hc); [lia|]. congruence.
    - intros k R. inversion R as [| |? ? ? ? ? ? Hsh|? ? ? ? ? ? Hc|? ? ? ? ? ? ? ? Hc|? ? ? ? ? ? ? ? Hc|
        | | | | | |j wk' ? ? Hj Hej Hx|x f l' ? ? Hs Hd Hx| | | |]; subst.
      + by destruct Hsh as [?|[?|[?|[?|(? & ?)]]]].
      + by destruct Hc as [(? & _)|([?|?] & _)].
      + by destruct Hc as [(? & _)|([?|?] & _)].
      + by destruct Hc as [(? & _)|([?|?] & _)].
      + destruct (i_wrk _ _ _ I _ _ Hj) as (_ & ?). lia.
      + rewrite (so_fresh _ _ _ (i_stk _ _ _ I)) in Hs; [done|lia].
    - done.
    - intros x [= <-] Hlt. done.
    - by intros f g ->.
    - intros (j & [?|[?|?]]); done.
  Qed.

  (* the task being created *)
  Lemma okay_new t a l w :
    nb = Some t -> access a = Some (l, w, false) -> floc l = Some (s_nextf s) ->
    (l = LAt (OSem (s_nextf s)) -> t = TX (s_nextf s)) -> (forall h, a <> Code h) -> okay nb s t a.
  Proof.
    intros Hnb Ha Hl Hx Hcode.
    assert (Hd : s_frames s !! s_nextf s = None) by (apply (i_fresh _ _ _ I); lia).
    assert (Hct : forall q w' a', ctl q l w' a' -> q = s_nextf s).
    { intros q w' a' [(-> & _)|([-> | ->] & _)]; by injection Hl. }
    assert (Hshf : forall q, shared q l -> q = s_nextf s).
    { intros q [-> |[-> |[-> |[-> |(j & ->)]]]]; by injection Hl. }
    apply (okay_intro nb s _ a l w false); [done|..].
    - destruct a as [|[| | | | | | |[]]| | | | | |]; try done; injection Ha as <-; try done; injection Hl as ->.
      + intros fr' Hf'. congruence.
      + cbn. destruct (decide (0 < sem s (s_nextf s))) as [Hz|Hz]; [|lia]. destruct (e_sem _ E _ Hz). lia.
    - intros g m w' a' HJ A _ _. destruct (j_newf _ _ _ HJ _ _ _ _ _ A Hl) as (_ & t' & Ht & Hc); [lia|]. congruence.
    - intros k R.
      destruct R as [f' fr' w a' Hf'|f' fr' w a' Hf'|f' fr' l w a' Hf' Hsh|f' fr' l w a' Hf' Hc|c fr' p l w a' Hf' Hp Hc|j wk p l w a' Hi Hw Hc|
        c fr' p j w a' Hf' Hp|f' fr' j w a' Hf' Hj|f' fr' w a' Hf' He|c fr' p frp w a' Hf' Hp Hfp He|c fr' p e w a' Hf' Hp He|
        j wk p fr' n w a' Hi Hf' Hla Hn|j wk w a' Hi He|x f' l w a' Hs Hd'|r fr' w a' Hf' Hk Hr|r w a' Hr|r fr' w Hf'|r w].
      + cbn in Hl; injection Hl as ->; congruence.
      + cbn in Hl; injection Hl as ->; congruence.
      + apply Hshf in Hsh as ->. congruence.
      + apply Hct in Hc as ->. congruence.
      + apply Hct in Hc as ->. destruct (parent_live _ _ _ I _ _ _ Hf' Hp) as (frp & ?). congruence.
      + apply Hct in Hc as ->. destruct (final_live _ _ _ Hi Hw) as (frp & ?). congruence.
      + cbn in Hl; injection Hl as ->. destruct (parent_live _ _ _ I c fr' (s_nextf s) Hf') as (frp & ?); [|congruence]. by rewrite par_cell, Hp.
      + cbn in Hl; injection Hl as ->; congruence.
      + cbn in Hl; injection Hl as ->; congruence.
      + cbn in Hl; injection Hl as ->; congruence.
      + cbn in Hl; injection Hl as ->. destruct (parent_live _ _ _ I _ _ _ Hf' Hp) as (frp & ?). congruence.
      + cbn in Hl; injection Hl as ->; congruence.
      + done.
      + done.
      + cbn in Hl; injection Hl as ->; congruence.
      + cbn in Hl; injection Hl as ->. destruct (e_sem _ E _ Hr). lia.
      + cbn in Hl; injection Hl as ->; congruence.
      + cbn in Hl; injection Hl as ->. rewrite (Hx eq_refl). by intros g m.
    - intros h Hfl Hlt. rewrite Hl in Hfl. by injection Hfl as <-.
    - intros x ->. done.
    - intros h g ->. by destruct (Hcode h).
    - intros (j & [-> |[-> | ->]]); done.
  Qed.

  (* the result variable of the next child *)
  Lemma okay_newcell i f fr w a :
    held s i f -> s_frames s !! f = Some fr -> access a = Some (LCell f (length (f_cells fr)), w, false) ->
    okay nb s (TW i) a.
  Proof.
    intros Hh Hf Ha. apply (okay_intro nb s _ a (LCell f (length (f_cells fr))) w false); [done|..].
    - destruct a as [| [] | | | | | |]; done.
    - intros g m w' a' HJ A _ _. apply (held_cur _ _ f); [done|].
      refine (j_req _ _ _ HJ _ _ _ (KF f) _ (rq_newcell _ _ _ _ _ _ Hf _) A). lia.
    - intros k R. inversion R as [| |f' fr' ? ? ? Hf' Hsh|? ? ? ? ? ? Hc|? ? ? ? ? ? ? ? Hc|? ? ? ? ? ? ? ? Hc|
        c fr' p j ? ? Hf' Hp|f' fr' j ? ? Hf' Hj| | | |j wk p fr' n ? ? Hi Hf' Hla Hn|j wk' ? ? Hj Hej Hx|x f' l' ? ? Hs Hd Hx| | | |]; subst.
      + destruct Hsh as [?|[?|[?|[?|(? & ?)]]]]; simplify_eq. by apply grant_heldp.
      + by destruct Hc as [(? & _)|([?|?] & _)].
      + by destruct Hc as [(? & _)|([?|?] & _)].
      + by destruct Hc as [(? & _)|([?|?] & _)].
      + exfalso. destruct (i_kid _ _ _ I c (f_kind fr') (f_stk fr') f fr) as (K & _); [by apply shape_lookup| |done|].
        * by rewrite par_cell, Hp.
        * unfold kid_ok in K. cbn in K. destruct (f_kind fr'); try done; cbn in Hp; simplify_eq; lia.
      + by apply grant_held.
      + simplify_eq. lia.
    - intros h [= <-] Hlt. apply live_lt in Hf. lia.
    - done.
    - by intros h g ->.
    - intros (j & [?|[?|?]]); done.
  Qed.

  (* the result variable of a child, by the child *)
  Lemma okay_cell i c frc p j w a :
    held s i c -> s_frames s !! c = Some frc -> cellof (f_kind frc) = Some (p, j) ->
    access a = Some (LCell p j, w, false) -> okay nb s (TW i) a.
  Proof.
    intros Hh Hc Hk Ha.
    assert (Hpar : par (f_kind frc) = Some p) by (by rewrite par_cell, Hk).
    destruct (parent_live _ _ _ I c frc p Hc Hpar) as (frp & Hfp).
    apply (okay_intro nb s _ a (LCell p j) w false); [done|..].
    - destruct a as [| [] | | | | | |]; done.
    - intros g m w' a' HJ A _ _. apply (held_cur _ _ c); [done|].
      refine (j_req _ _ _ HJ _ _ _ (KF c) _ (rq_cell _ _ _ _ _ _ _ Hc Hk) A).
    - intros k R. inversion R as [| |f' fr' ? ? ? Hf' Hsh|? ? ? ? ? ? Hct|? ? ? ? ? ? ? ? Hct|? ? ? ? ? ? ? ? Hct|
        c' fr' p' j' ? ? Hf' Hp|f' fr' j' ? ? Hf' Hj| | | |j' wk p' fr' n ? ? Hi Hf' Hla Hn|j' wk' ? ? Hj Hej Hx|x f' l' ? ? Hs Hd Hx| | | |]; subst.
      + destruct Hsh as [?|[?|[?|[?|(? & ?)]]]]; simplify_eq. by eapply grant_kid.
      + by destruct Hct as [(? & _)|([?|?] & _)].
      + by destruct Hct as [(? & _)|([?|?] & _)].
      + by destruct Hct as [(? & _)|([?|?] & _)].
      + rewrite <- (e_uniq _ E c frc c' fr' (p, j) Hc Hf' Hk Hp). by apply grant_held.
      + exfalso. assert (fr' = frp) as -> by congruence. destruct (i_kid _ _ _ I c (f_kind frc) (f_stk frc) p frp) as (K & _); [by apply shape_lookup|done|done|].
        unfold kid_ok in K. cbn in K. destruct (f_kind frc); try done; cbn in Hk; simplify_eq; lia.
      + exfalso. by eapply (e_quiet _ E _ _ _ _ _ Hi Hf' Hla Hn c frc).
    - intros h [= <-] Hlt. apply live_lt in Hfp. lia.
    - done.
    - by intros h g ->.
    - intros (j' & [?|[?|?]]); done.
  Qed.

  (* the result variable of the last child, by the parent *)
  Lemma okay_last i wk f fr n w a :
    s_workers s !! i = Some wk -> w_pc wk = PRun f -> s_frames s !! f = Some fr -> lastc wk f fr ->
    S n = length (f_cells fr) -> access a = Some (LCell f n, w, false) -> okay nb s (TW i) a.
  Proof.
    intros Hi Hpc Hf Hla Hn Ha.
    assert (Hh : held s i f) by (eapply held_run; [done|by rewrite Hpc]).
    apply (okay_intro nb s _ a (LCell f n) w false); [done|..].
    - destruct a as [| [] | | | | | |]; done.
    - intros g m w' a' HJ A _ _.
      refine (j_req _ _ _ HJ _ _ _ (KT (TW i)) _ (rq_last _ _ _ _ _ _ _ _ Hi Hf Hla Hn) A).
    - intros k R. inversion R as [| |f' fr' ? ? ? Hf' Hsh|? ? ? ? ? ? Hct|? ? ? ? ? ? ? ? Hct|? ? ? ? ? ? ? ? Hct|
        c' fr' p' j' ? ? Hf' Hp|f' fr' j' ? ? Hf' Hj| | | |j' wk' p' fr' n' ? ? Hi' Hf' Hla' Hn'|j' wk' ? ? Hj Hej Hx|x f' l' ? ? Hs Hd Hx| | | |]; subst.
      + destruct Hsh as [?|[?|[?|[?|(? & ?)]]]]; simplify_eq. by eapply grant_heldp.
      + by destruct Hct as [(? & _)|([?|?] & _)].
      + by destruct Hct as [(? & _)|([?|?] & _)].
      + by destruct Hct as [(? & _)|([?|?] & _)].
      + exfalso. by eapply (e_quiet _ E _ _ _ _ _ Hi Hf Hla Hn c' fr').
      + simplify_eq. lia.
      + assert (i = j') as <-; [|by intros g m]. destruct (decide (i = j')) as [|Hne]; [done|].
        pose proof (tok_other _ _ _ f fr i j' wk wk' I Hf Hi Hi' Hne) as X. unfold wtok in X. rewrite Hpc in X.
        cbn in X. rewrite eqn_refl in X. specialize (X ltac:(lia)).
        destruct Hla' as [(Hpc' & d & Hd)|(Hpc' & _)].
        * rewrite Hd in X. cbn in X. rewrite eqn_refl in X. lia.
        * rewrite Hpc' in X. cbn in X. rewrite eqn_refl in X. lia.
    - intros h [= <-] Hlt. apply live_lt in Hf. lia.
    - done.
    - by intros h g ->.
    - intros (j' & [?|[?|?]]); done.
  Qed.

  (* storing an exception in the parent *)
  Lemma okay_capt i c frc p e a :
    held s i c -> s_frames s !! c = Some frc -> par (f_kind frc) = Some p -> f_rp frc = RCapture e ->
    access a = Some (LExn p, true, false) -> okay nb s (TW i) a.
  Proof.
    intros Hh Hc Hpar He Ha. destruct (parent_live _ _ _ I c frc p Hc Hpar) as (frp & Hfp).
    pose proof (i_node _ _ _ I p frp Hfp) as (_ & _ & N3 & _).
    assert (Hcp : is_capt p frc = true) by (unfold is_capt; rewrite He; by case_bool_decide).
    assert (Hef : f_eflag frp = true).
    { pose proof (cntm_pos (is_capt p) _ _ _ Hc Hcp) as X. unfold ncapt in N3. destruct (f_eflag frp); [done|]. cbn in N3. lia. }
    apply (okay_intro nb s _ a (LExn p) true false); [done|..].
    - destruct a as [| [] | | | | | |]; done.
    - intros g m w' a' HJ A _ _. apply (held_cur _ _ c); [done|].
      refine (j_req _ _ _ HJ _ _ _ (KF c) _ (rq_capt _ _ _ _ _ _ _ Hc Hpar He) A).
    - intros k R. inversion R as [| |f' fr' ? ? ? Hf' Hsh|? ? ? ? ? ? Hct|? ? ? ? ? ? ? ? Hct|? ? ? ? ? ? ? ? Hct|
        | |f' fr' ? ? Hf' Hex|c' fr' p' frp' ? ? Hf' Hp' Hfp' Hex|c' fr' p' e' ? ? Hf' Hp' He'|j' wk' p' fr' n' ? ? Hi' Hf' Hla' Hn'|j' wk' ? ? Hj Hej Hx|x f' l' ? ? Hs Hd Hx| | | |]; subst.
      + destruct Hsh as [?|[?|[?|[?|(? & ?)]]]]; simplify_eq. by eapply grant_kid.
      + by destruct Hct as [(? & _)|([?|?] & _)].
      + by destruct Hct as [(? & _)|([?|?] & _)].
      + by destruct Hct as [(? & _)|([?|?] & _)].
      + simplify_eq. congruence.
      + simplify_eq. congruence.
      + assert (c' = c) as ->; [|by apply grant_held]. destruct (decide (c' = c)) as [|Hne]; [done|].
        assert (Hcp' : is_capt p fr' = true) by (unfold is_capt; rewrite He'; by case_bool_decide).
        pose proof (cntm_two (is_capt p) _ _ _ _ _ Hf' Hcp' Hc Hcp Hne). unfold ncapt in N3. rewrite Hef in N3. cbn in N3. lia.
    - intros h [= <-] Hlt. apply live_lt in Hfp. lia.
    - done.
    - by intros h g ->.
    - intros (j' & [?|[?|?]]); done.
  Qed.

  (* the result and the semaphore of a root *)
  Lemma okay_res i r fr w a :
    held s i r -> s_frames s !! r = Some fr -> f_kind fr = KRoot -> f_rp fr <> RSignalled ->
    access a = Some (LRes r, w, false) -> okay nb s (TW i) a.
  Proof.
    intros Hh Hf Hk Hr Ha. apply (okay_intro nb s _ a (LRes r) w false); [done|..].
    - destruct a as [| [] | | | | | |]; done.
    - intros g m w' a' HJ A _ _. apply (held_cur _ _ r); [done|].
      refine (j_req _ _ _ HJ _ _ _ (KF r) _ (rq_res _ _ _ _ _ Hf Hk Hr) A).
    - intros k R. inversion R as [| |f' fr' ? ? ? Hf' Hsh|? ? ? ? ? ? Hct|? ? ? ? ? ? ? ? Hct|? ? ? ? ? ? ? ? Hct|
        | | | | | | | | |r' ? ? Hs| |]; subst.
      + by destruct Hsh as [?|[?|[?|[?|(? & ?)]]]].
      + by destruct Hct as [(? & _)|([?|?] & _)].
      + by destruct Hct as [(? & _)|([?|?] & _)].
      + by destruct Hct as [(? & _)|([?|?] & _)].
      + by apply grant_held.
      + exfalso. apply Hr. destruct (e_sem _ E _ Hs) as (_ & X). by apply X.
    - intros h [= <-] Hlt. apply live_lt in Hf. lia.
    - done.
    - by intros h g ->.
    - intros (j' & [?|[?|?]]); done.
  Qed.

  Lemma okay_sem t r a w k0 :
    r < s_nextf s -> access a = Some (LAt (OSem r), w, true) ->
    (forall w', req s (LAt (OSem r)) w' false k0) -> (forall g m, kn s g k0 m -> cur g t m) ->
    keeps s t a -> okay nb s t a.
  Proof.
    intros Hr Ha H0 H1 Hk. apply (okay_intro nb s _ a (LAt (OSem r)) w true); [done|done|..].
    - intros g m w' a' HJ A _ [?| ->]; [done|]. apply H1. eapply (j_req _ _ _ HJ); [|exact A]. apply H0.
    - intros k R. inversion R as [| |f' fr' ? ? ? Hf' Hsh|? ? ? ? ? ? Hct|? ? ? ? ? ? ? ? Hct|? ? ? ? ? ? ? ? Hct|
        | | | | | | | | | | |]; subst.
      + by destruct Hsh as [?|[?|[?|[?|(? & ?)]]]].
      + by destruct Hct as [(? & _)|([?|?] & _)].
      + by destruct Hct as [(? & _)|([?|?] & _)].
      + by destruct Hct as [(? & _)|([?|?] & _)].
    - intros h [= <-] Hlt. lia.
    - done.
    - by intros h g ->.
    - intros (j' & [?|[?|?]]); done.
  Qed.
End access.
