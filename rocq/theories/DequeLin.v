(** * The deque: linearizability and conservation of items. *)

From stdpp Require Import prelude gmap list.
From Coq Require Import ZArith Lia.
From Verif Require Import DequeModel DequeSpec DequeProofs.
Local Open Scope Z_scope.

Section lin.
Context {V : Type}.
Implicit Types (r : ring V) (s : deque V) (h : list (dev V)) (q : list V).

Lemma seq_op_fun (op : dop V) x q q1 q2 : seq_op op x q q1 -> seq_op op x q q2 -> q1 = q2.
Proof.
  intros H1 H2. inversion H1; subst; inversion H2; subst; try done.
  match goal with H : _ ++ [_] = _ ++ [_] |- _ => by apply app_inj_tail in H as [-> _] end.
Qed.

Lemma contents_fun h q : contents h q -> forall q', contents h q' -> q = q'.
Proof.
  induction 1 as [|w op x h q1 q2 H1 IH Hop|w op h q1 H1 IH|w x h q1 H1 IH]; intros q' H'; inversion H'; subst; eauto.
  match goal with H : contents h _ |- _ => apply IH in H; subst end.
  by eapply seq_op_fun.
Qed.

Lemma in_phase_fun w h p : in_phase w h p -> forall p', in_phase w h p' -> p = p'.
Proof.
  induction 1; intros p' H'; inversion H'; subst; try done; eauto.
Qed.

(** ** Conservation *)

Lemma pushed_taken h q : contents h q -> Permutation (pushed h) (taken h ++ q).
Proof.
  induction 1 as [|w op x h q1 q2 H1 IH Hop|w op h q1 H1 IH|w x h q1 H1 IH]; [done| |done|done].
  destruct Hop; simpl; rewrite IH; try done.
  - rewrite (assoc_L (++)). by rewrite (comm (++) _ [v]).
  - rewrite (assoc_L (++)). by rewrite (comm (++) _ [v]).
  - by rewrite Permutation_middle.
Qed.

(** Values handed out by an operation that has happened but not returned. *)
Definition in_hand (p : phase V) : list V :=
  match p with Done _ (RSome v) => [v] | _ => [] end.

Lemma returned_taken_aux h : forall ws : list (option nat), NoDup ws ->
  (forall w, exists p, in_phase w h p) ->
  exists ps, Forall2 (fun w p => in_phase w h p) ws ps /\
    (returned h ++ concat (in_hand <$> ps)) ⊆+ taken h.
Proof.
  induction h as [|e h IH]; intros ws Hnd Hph.
  - assert (forall w : option nat, in_phase w ([] : list (dev V)) Idle) as Hi by constructor.
    exists ((fun _ => Idle) <$> ws). split.
    + clear Hnd. induction ws; constructor; eauto.
    + simpl. clear Hnd. induction ws; simpl; [done|]. done.
  - assert (forall w, exists p, in_phase w h p) as Hph'.
    { intros w. destruct (Hph w) as [p Hp]. inversion Hp; subst; eauto. }
    set (w0 := match e with ECall w _ | ELin w _ _ | ERet w _ => w end).
    assert (forall ws' ps, w0 ∉ ws' -> Forall2 (fun w p => in_phase w h p) ws' ps -> Forall2 (fun w p => in_phase w (e :: h) p) ws' ps) as Hmono.
    { intros ws' ps Hn HF. induction HF as [|w p ws' ps Hp HF IHF]; constructor; [|apply IHF; set_solver].
      assert (w0 <> w) by set_solver. unfold w0 in *. destruct e; by constructor. }
    assert (exists ws', NoDup ws' /\ w0 ∉ ws' /\ forall ps0 p0, in_phase w0 (e :: h) p0 -> Forall2 (fun w p => in_phase w (e :: h) p) ws' ps0 ->
              exists ps, Forall2 (fun w p => in_phase w (e :: h) p) ws ps /\ (concat (in_hand <$> ps) ⊆+ in_hand p0 ++ concat (in_hand <$> ps0))) as (ws' & Hnd' & Hw0 & Hcomb).
    { destruct (decide (w0 ∈ ws)) as [Hin|Hnin].
      - apply elem_of_list_split in Hin as (l1 & l2 & ->). exists (l1 ++ l2).
        apply NoDup_app in Hnd as (Hn1 & Hn2 & Hn3). apply list.NoDup_cons in Hn3 as [Hn3 Hn4].
        split_and!.
        + apply NoDup_app. split_and!; set_solver.
        + set_solver.
        + intros ps0 p0 Hp0 HF. apply Forall2_app_inv_l in HF as (p1 & p2 & HF1 & HF2 & ->).
          exists (p1 ++ p0 :: p2). split; [by apply Forall2_app; [|constructor]|].
          rewrite !fmap_app, !concat_app. simpl.
          apply Permutation_submseteq. rewrite !(assoc_L (++)). by rewrite (comm (++) _ (in_hand p0)).
      - exists ws. split_and!; [done|done|]. intros ps0 p0 Hp0 HF. exists ps0. split; [done|].
        by apply submseteq_inserts_l. }
    destruct (Hph w0) as [p0 Hp0].
    destruct e as [w op|w op x|w x]; simpl in w0; subst w0.
    + (* call *)
      destruct (IH ws' Hnd' Hph') as (ps & HF & Hsub).
      destruct (Hcomb ps p0 Hp0 (Hmono _ _ Hw0 HF)) as (ps2 & HF2 & Hs2). exists ps2. split; [done|].
      inversion Hp0; subst; [|done]. simpl in *.
      etrans; [apply submseteq_app; [done|exact Hs2]|done].
    + destruct (IH ws' Hnd' Hph') as (ps & HF & Hsub).
      destruct (Hcomb ps p0 Hp0 (Hmono _ _ Hw0 HF)) as (ps2 & HF2 & Hs2). exists ps2. split; [done|].
      inversion Hp0; subst; [|done].
      etrans; [apply submseteq_app; [done|exact Hs2]|]. simpl.
      destruct x; simpl; try done.
      rewrite (comm (++)). simpl. apply submseteq_skip. by rewrite (comm (++)).
    + (* return *)
      destruct (IH (w :: ws')) as (ps & HF & Hsub); [by apply list.NoDup_cons|done|].
      apply Forall2_cons_inv_l in HF as (p & ps' & Hp & HF & ->).
      destruct (Hcomb ps' p0 Hp0 (Hmono _ _ Hw0 HF)) as (ps2 & HF2 & Hs2). exists ps2. split; [done|].
      inversion Hp0; subst; [|done]. simpl in Hs2.
      match goal with H : in_phase w h (Done _ x) |- _ => pose proof (in_phase_fun _ _ _ Hp _ H) as -> end.
      etrans; [apply submseteq_app; [done|exact Hs2]|].
      etrans; [|exact Hsub]. simpl. destruct x; simpl; try done.
      by rewrite Permutation_middle.
Qed.

Lemma returned_taken h : (forall w, exists p, in_phase w h p) -> returned h ⊆+ taken h.
Proof.
  intros Hph. destruct (returned_taken_aux h [] (NoDup_nil_2) Hph) as (ps & HF & Hs).
  apply Forall2_nil_inv_l in HF as ->. simpl in Hs. by rewrite app_nil_r in Hs.
Qed.

(** Only the owner pushes, so every successful push was called. *)
Lemma pushed_called h p : in_phase None h p ->
  (forall e, e ∈ h -> match e with ELin (Some _) (DPush _) _ => False | _ => True end) ->
  match p with Called (DPush v) => v :: pushed h | _ => pushed h end ⊆+ push_calls h.
Proof.
  induction 1 as [|op h H IH|op x h H IH|op x h H IH|w op h p Hw H IH|w op x h p Hw H IH|w x h p Hw H IH]; intros Hall; simpl.
  - done.
  - assert (forall e, e ∈ h -> match e with ELin (Some _) (DPush _) _ => False | _ => True end) as Ha by set_solver.
    specialize (IH Ha). simpl in IH. destruct op; [by apply submseteq_skip|done|done].
  - assert (forall e, e ∈ h -> match e with ELin (Some _) (DPush _) _ => False | _ => True end) as Ha by set_solver.
    specialize (IH Ha). simpl in IH. destruct op; [|done|done].
    destruct x; try done; (etrans; [|exact IH]); by apply submseteq_cons.
  - apply IH. set_solver.
  - assert (forall e, e ∈ h -> match e with ELin (Some _) (DPush _) _ => False | _ => True end) as Ha by set_solver.
    specialize (IH Ha). destruct op; [|done..].
    etrans; [exact IH|]. by apply submseteq_cons.
  - assert (forall e, e ∈ h -> match e with ELin (Some _) (DPush _) _ => False | _ => True end) as Ha by set_solver.
    specialize (IH Ha). destruct w; [|done]. destruct op; [|done..].
    specialize (Hall (ELin (Some n) (DPush v) x)). simpl in Hall. exfalso. apply Hall. set_solver.
  - apply IH. set_solver.
Qed.

Lemma allowed_ev k s h : reach k s h ->
  forall e, e ∈ h -> match e with ECall w op | ELin w op _ => allowed w op | ERet _ _ => True end.
Proof.
  induction 1 as [|s h l s' tr Hr IH Hs]; [set_solver|]. intros e He.
  apply elem_of_app in He as [He|He]; [|by apply IH].
  apply elem_of_list_In, in_rev, elem_of_list_In in He.
  destruct l as [op fail|i]; simpl in Hs.
  - unfold owner, with_cur in Hs.
    repeat case_match; try done; injection Hs as <- <-; set_solver.
  - unfold thief in Hs. repeat case_match; try done; injection Hs as <- <-; set_solver.
Qed.

(** ** Linearizability

    Only a steal that reports "empty" while the owner is about to take the last
    item needs care: whoever takes that item later is linearized before it.  Since
    it is not known who that will be, a linearization is kept for each candidate. *)

Definition ev_who (e : dev V) : option nat :=
  match e with ECall w _ | ELin w _ _ | ERet w _ => w end.

Lemma in_phase_cons_other w e h p : ev_who e <> w -> in_phase w h p -> in_phase w (e :: h) p.
Proof. intros. destruct e; by constructor. Qed.
Lemma in_phase_uncons_other w e h p : ev_who e <> w -> in_phase w (e :: h) p -> in_phase w h p.
Proof. intros Hw H. inversion H; subst; simpl in *; done. Qed.

(** [h'] has the same calls and returns, and the same phases except for [x], which
    has already taken [v]. *)
Definition like (x : option (option nat * V)) h h' : Prop :=
  calls_returns h' = calls_returns h /\
  forall w p, in_phase w h p ->
    match x with
    | Some (w', v) =>
      if decide (w = w') then exists op, p = Called op /\ (op = DPop \/ op = DSteal) /\ in_phase w h' (Done op (RSome v))
      else in_phase w h' p
    | None => in_phase w h' p
    end.

Definition like_w (x : option (option nat * V)) (w : option nat) : Prop :=
  match x with Some (w', _) => w <> w' | None => True end.

Lemma like_cons x h h' e :
  like x h h' -> like_w x (ev_who e) -> like x (e :: h) (e :: h').
Proof.
  intros [Hc Hp] Hx. split.
  - destruct e; simpl; [by rewrite Hc|done|by rewrite Hc].
  - intros w p Hw. destruct (decide (ev_who e = w)) as [E|Hne].
    + assert (forall p', in_phase w h p' -> in_phase w h' p') as Hsame.
      { intros p' H. specialize (Hp w p' H). destruct x as [[w' v]|]; [|done].
        simpl in Hx. rewrite decide_False in Hp by congruence. done. }
      assert (in_phase w (e :: h') p) as Hgoal.
      { inversion Hw; subst; try done; econstructor; eauto. }
      destruct x as [[w' v]|]; [|done]. simpl in Hx. by rewrite decide_False by congruence.
    + apply in_phase_uncons_other in Hw; [|done]. specialize (Hp w p Hw).
      destruct x as [[w' v]|]; [|by apply in_phase_cons_other].
      case_decide; [|by apply in_phase_cons_other].
      destruct Hp as (op & Ep & Ho & Hd). exists op. split_and!; [done|done|by apply in_phase_cons_other].
Qed.

(** [w] takes the item [v]: from a linearization in which it has already. *)
Lemma like_won w v h h' op :
  like (Some (w, v)) h h' -> in_phase w h (Called op) -> like None (ELin w op (RSome v) :: h) h'.
Proof.
  intros [Hc Hp] Hw. split; [done|]. intros w' p Hw'. destruct (decide (w' = w)) as [->|Hne].
  - inversion Hw'; subst; [|done]. specialize (Hp w _ Hw). rewrite decide_True in Hp by done.
    destruct Hp as (op' & [= <-] & _ & Hd). done.
  - apply in_phase_uncons_other in Hw'; [|done]. specialize (Hp w' p Hw').
    by rewrite decide_False in Hp by done.
Qed.

(** [w] is made to take the item [v] now. *)
Lemma like_take w v h h' op :
  like None h h' -> in_phase w h (Called op) -> (op = DPop \/ op = DSteal) ->
  like (Some (w, v)) h (ELin w op (RSome v) :: h').
Proof.
  intros [Hc Hp] Hw Ho. split; [done|]. intros w' p Hw'. case_decide as E.
  - subst w'. exists op. split_and!; [by eapply in_phase_fun|done|]. constructor. by apply Hp.
  - apply in_phase_cons_other; [done|]. by apply Hp.
Qed.

(** The candidates for the last item. *)
Definition cand s (w : option nat) : Prop :=
  match w with
  | None => match d_own s with OPopTop _ | OPopCas _ _ => True | _ => False end
  | Some i => match d_thf s i with TBuf t | TSlot t _ | TCas t _ => t = d_top s | _ => False end
  end.

Definition op_of (w : option nat) : dop V := match w with None => DPop | Some _ => DSteal end.

Lemma cand_phase k s h w : inv k s h -> cand s w -> in_phase w h (Called (op_of w)).
Proof.
  intros [(r & _ & _ & _ & _ & _ & Htr & _) _ _ Hph] Hc. destruct w as [i|]; simpl in *.
  - specialize (Hph i). by destruct (d_thf s i).
  - unfold own_tr, own_phase in Htr. by destruct (d_own s).
Qed.

Definition sinv s h : Prop :=
  (exists h' q, contents h q /\ like None h h' /\ strict h' q) \/
  (exists v, contents h [v] /\ d_bot s <= d_top s /\ hi s = d_top s + 1 /\ cand s None /\
     forall w, cand s w -> exists h', like (Some (w, v)) h h' /\ strict h' []).

(** Events other than an "empty" steal, in the simple case. *)
Lemma sinv_simple s h e q q' :
  contents (e :: h) q' -> contents h q ->
  (forall w, e = ELin w DSteal REmpty -> q = []) ->
  (exists h', like None h h' /\ strict h' q) ->
  exists h' q, contents (e :: h) q /\ like None (e :: h) h' /\ strict h' q.
Proof.
  intros Hc Hq Hne (h' & Hl & Hs). exists (e :: h'), q'. split_and!; [done|by apply like_cons|].
  inversion Hc; subst; match goal with H : contents h ?x |- _ => assert (x = q) as -> by (by eapply contents_fun) end.
  - econstructor; [done|done|]. intros -> ->. by eapply Hne.
  - by constructor.
  - by constructor.
Qed.

Theorem reach_sinv k s h : reach k s h -> sinv s h.
Proof.
  induction 1 as [|s h l s' tr Hr IH Hs].
  { left. exists [], []. split_and!; [constructor|by split|constructor]. }
  pose proof (reach_inv k s h Hr) as Hinv.
  assert (inv k s' (rev tr ++ h)) as Hinv' by (apply reach_inv; by econstructor).
  pose proof Hinv as [(r & Hbr & Hok & Hcap & Hsz & Hown & Htr & Hthf & q & Hq & Hlen & Hval) Htop Hcur Hph].
  destruct Hinv' as [(_ & _ & _ & _ & _ & _ & _ & _ & q' & Hq' & Hlen' & _) _ _ _].
  destruct IH as [(h' & q0 & Hq0 & Hl & Hst)|(v & Hv & Hb & Hhi & Hco & Hc)].
  - (* simple *)
    pose proof (contents_fun _ _ Hq _ Hq0) as <-. clear Hq0.
    assert (tr = [] \/ exists e, tr = [e]) as Htrl.
    { destruct l as [op fail|i]; simpl in Hs.
      - unfold owner, with_cur in Hs. repeat case_match; try done; injection Hs as <- <-; eauto.
      - unfold thief in Hs. repeat case_match; try done; injection Hs as <- <-; eauto. }
    destruct Htrl as [->|[e ->]]; simpl in *.
    { left. pose proof (contents_fun _ _ Hq _ Hq') as <-. eauto. }
    assert ((forall w, e = ELin w DSteal REmpty -> q = []) \/
            exists i, e = ELin (Some i) DSteal REmpty /\ q <> []) as [Hne|(i & -> & Hqne)].
    { destruct e as [| w [] [] |]; eauto. all: try by left.
      destruct q; [by left|]. right. destruct w as [i|]; [eauto|].
      assert (reach k s' (ELin None DSteal REmpty :: h)) as Hr' by by apply (reach_step k s h l s' [_]).
      pose proof (allowed_ev _ _ _ Hr' (ELin None DSteal REmpty) ltac:(set_solver)) as Hbad. done. }
    + left. eapply sinv_simple; eauto.
    + (* "empty" although there is an item *)
      right. destruct l as [op fail|j]; simpl in Hs.
      { unfold owner, with_cur in Hs. repeat case_match; try done. }
      unfold thief in Hs. specialize (Hthf j). unfold thf_ok in Hthf.
      destruct (d_thf s j) as [| |t|t|t b|t x|x] eqn:Et; repeat case_match; try done; try congruence.
      injection Hs as <- ->.
      destruct q as [|v q]; [done|]. simpl in Hlen.
      assert (exists b, (d_own s = OPopTop b \/ (exists t0, d_own s = OPopCas b t0)) /\ b = d_bot s /\ hi s = d_bot s + 1 /\ d_top s = d_bot s /\ q = []) as (b & Hob & -> & Hhi & Htb & ->).
      { unfold hi, own_ok in *. destruct (d_own s) as [|v0 b|v0 b t0|v0 b t0 rn|v0 b t0|v0 b|x|b|b|b t0|b ok|b|] eqn:Eo; try lia.
        - exists b. split_and!; [by left|lia|lia|lia|]. destruct q; [done|simpl in *; lia].
        - exists b. split_and!; [eauto|lia|lia|lia|]. destruct q; [done|simpl in *; lia]. }
      assert (forall w, cand (set_thf i (TRet REmpty) s) w -> cand s w /\ w <> Some i) as Hcand.
      { intros [i'|]; simpl; [|done]. destruct (decide (i' = i)) as [->|]; [done|].
        intros Hi. split; [done|congruence]. }
      exists v. split_and!; simpl.
      * econstructor; [done|constructor].
      * lia.
      * unfold hi in *; simpl. lia.
      * by destruct Hob as [->|[t0 ->]].
      * intros w Hw. apply Hcand in Hw as [Hw Hwi].
        exists (ELin (Some i) DSteal REmpty :: ELin w (op_of w) (RSome v) :: h'). split.
        -- apply like_cons; [|simpl; congruence].
           apply like_take; [done|by eapply cand_phase|destruct w; simpl; auto].
        -- econstructor; [|constructor|done]. econstructor; [done| |by destruct w].
           destruct w; simpl; [constructor|]. apply (seq_pop v []).
  - (* an "empty" steal was reported although [v] is still there *)
    pose proof (contents_fun _ _ Hq _ Hv) as ->. clear Hv. simpl in Hlen.
    assert (forall e, contents (e :: h) [v] -> like_w (Some (None, v)) (ev_who e) ->
      d_bot s' = d_bot s -> d_top s' = d_top s -> hi s' = hi s -> cand s' None ->
      (forall w, cand s' w -> cand s w /\ ev_who e <> w) ->
      (forall w op x, e = ELin w op x -> op = DSteal /\ (x = REmpty \/ x = RLost)) ->
      sinv s' (e :: h)) as Hext.
    { intros e He Hwe Eb Et Eh Hcn Hw Hop. right. exists v. rewrite Eb, Et, Eh. split_and!; try done.
      intros w Hcw. destruct (Hw w Hcw) as [Hcw' Hne]. destruct (Hc w Hcw') as (h' & Hl & Hst).
      exists (e :: h'). split; [by apply like_cons|].
      destruct e as [|w' op x|]; [by constructor| |by constructor].
      destruct (Hop _ _ _ eq_refl) as [-> [-> | ->]]; (econstructor; [done|constructor|done]). }
    assert (d_bot s' = d_bot s -> d_top s' = d_top s -> hi s' = hi s -> cand s' None ->
      (forall w, cand s' w -> cand s w) -> sinv s' h) as Hnone.
    { intros Eb Et Eh Hcn Hw. right. exists v. rewrite Eb, Et, Eh. split_and!; try done.
      intros w Hcw. by apply Hc, Hw. }
    assert (forall w, cand s w -> cand s w) by done.
    destruct l as [op fail|i]; simpl in Hs.
    + unfold owner, with_cur in Hs. rewrite Hbr in Hs. simpl in Hco. unfold hi, own_ok in *.
      destruct (d_own s) as [|v0 b|v0 b t0|v0 b t0 rn|v0 b t0|v0 b|x|b|b|b t0|b ok|b|] eqn:Eo; try done.
      * rewrite decide_True, decide_True in Hs by lia. injection Hs as <- <-. simpl.
        apply Hnone; simpl; try done. intros [i|]; simpl; [done|]. by rewrite Eo.
      * destruct Hown as (-> & -> & Ht). rewrite decide_True in Hs by lia.
        destruct (r_load r (d_bot s)) as [v'|] eqn:Ev; [|done].
        injection Hs as <- <-. simpl. left.
        assert (v' = v) as ->.
        { pose proof (Hval O v eq_refl) as E. replace (d_top s + Z.of_nat 0) with (d_bot s) in E by lia. congruence. }
        destruct (Hc None) as (h' & Hl & Hst); [simpl; by rewrite Eo|].
        exists h', []. split_and!; [econstructor; [done|apply (seq_pop v [])]| |done].
        apply like_won; [done|]. unfold own_tr, own_phase in Htr. by rewrite Eo in Htr.
    + assert (forall p, (match p with TBuf t | TSlot t _ | TCas t _ => t = d_top s -> cand s (Some i) | _ => True end) ->
        forall w, cand (set_thf i p s) w -> cand s w) as Hcs.
      { intros p Hp [j|]; simpl; [|done]. destruct (decide (j = i)) as [->|]; [|done].
        destruct p; simpl; try done. }
      assert (forall p, (match p with TBuf t | TSlot t _ | TCas t _ => False | _ => True end) ->
        forall w, cand (set_thf i p s) w -> cand s w /\ Some i <> w) as Hcs2.
      { intros p Hp [j|]; simpl; [|done]. destruct (decide (j = i)) as [->|].
        - by destruct p.
        - intros. split; [done|congruence]. }
      specialize (Hthf i). unfold thief in Hs. unfold thf_ok in Hthf.
      destruct (d_thf s i) as [| |t|t|t b|t x|x] eqn:Et; simpl in Hs.
      * injection Hs as <- <-. simpl. apply Hext; simpl; try done; [by constructor|]. by apply Hcs2.
      * injection Hs as <- <-. simpl. apply Hnone; try done. by apply Hcs.
      * case_decide as Hlt.
        -- injection Hs as <- <-. simpl. apply Hnone; try done. apply Hcs. intros ->. lia.
        -- injection Hs as <- <-. simpl. apply Hext; simpl; try done.
           ++ econstructor; [done|constructor].
           ++ by apply Hcs2.
           ++ intros ??? [= <- <- <-]; auto.
      * injection Hs as <- <-. simpl. apply Hnone; try done. apply Hcs. simpl. by rewrite Et.
      * destruct (d_bufs s !! b); [|done]. case_decide; [|done].
        injection Hs as <- <-. simpl. apply Hnone; try done. apply Hcs. simpl. by rewrite Et.
      * case_decide as E.
        -- destruct x as [v'|]; [|done]. injection Hs as <- <-. simpl. left.
           destruct (Hc (Some i)) as (h' & Hl & Hst); [simpl; by rewrite Et|].
           inversion Hq'; subst. match goal with H : contents h _ |- _ => pose proof (contents_fun _ _ Hq _ H) as <- end.
           match goal with H : seq_op _ _ _ _ |- _ => inversion H; subst end.
           exists h', []. split_and!; [done| |done].
           apply like_won; [done|]. specialize (Hph i). by rewrite Et in Hph.
        -- injection Hs as <- <-. simpl. apply Hext; simpl; try done.
           ++ econstructor; [done|constructor].
           ++ by apply Hcs2.
           ++ intros ??? [= <- <- <-]; auto.
      * injection Hs as <- <-. simpl. apply Hext; simpl; try done; [by constructor|]. by apply Hcs2.
Qed.

Theorem reach_linearizable k s h : reach k s h -> linearizable h.
Proof.
  intros Hr. pose proof (reach_inv _ _ _ Hr) as Hinv.
  assert (forall w, exists p, in_phase w h p) as Hph.
  { destruct Hinv as [(r & _ & _ & _ & _ & _ & Htr & _) _ _ Hph]. intros [i|]; [eauto|].
    unfold own_tr in Htr. destruct (d_own s); eauto. destruct Htr; eauto. }
  destruct (reach_sinv _ _ _ Hr) as [(h' & q & Hq & [Hl1 Hl2] & Hst)|(v & Hv & Hb & Hhi & Hco & Hc)].
  - exists h', q. split_and!; try done. intros w. destruct (Hph w) as [p Hp]. eauto.
  - destruct (Hc None Hco) as (h' & [Hl1 Hl2] & Hst). exists h', []. split_and!; try done.
    intros w. destruct (Hph w) as [p Hp]. specialize (Hl2 w p Hp). case_decide; [|eauto].
    destruct Hl2 as (op & _ & _ & Hd). eauto.
Qed.


(** ** Where events come from *)

Lemma step_events l s s' tr : dstep_of l s = Next s' tr -> tr = [] \/ exists e, tr = [e].
Proof.
  destruct l as [op fail|i]; simpl; intros Hs.
  - unfold owner, with_cur in Hs. repeat case_match; try done; injection Hs as <- <-; eauto.
  - unfold thief in Hs. repeat case_match; try done; injection Hs as <- <-; eauto.
Qed.

Lemma reach_ev k s h : reach k s h -> forall h1 e h2, h = h1 ++ e :: h2 ->
  exists s0 l s1, reach k s0 h2 /\ dstep_of l s0 = Next s1 [e].
Proof.
  induction 1 as [|s h l s' tr Hr IH Hs]; intros h1 e h2 E; [by destruct h1|].
  destruct (step_events _ _ _ _ Hs) as [->|[e' ->]]; simpl in E.
  - eauto.
  - destruct h1 as [|e1 h1]; simpl in E.
    + injection E as -> ->. eauto.
    + injection E as -> E. eauto.
Qed.

Lemma reach_contents k s h : reach k s h -> exists q, contents h q /\ Z.of_nat (length q) = hi s - d_top s.
Proof.
  intros Hr. destruct (reach_inv _ _ _ Hr) as [(r & _ & _ & _ & _ & _ & _ & _ & q & Hq & Hlen & _) _ _ _]. eauto.
Qed.

Lemma reach_phase k s h : reach k s h -> forall w, exists p, in_phase w h p.
Proof.
  intros Hr. destruct (reach_inv _ _ _ Hr) as [(r & _ & _ & _ & _ & _ & Htr & _) _ _ Hph]. intros [i|]; [eauto|].
  unfold own_tr in Htr. destruct (d_own s); eauto. destruct Htr; eauto.
Qed.

Lemma idle_hi k s h : reach k s h -> in_phase None h Idle -> hi s = d_bot s.
Proof.
  intros Hr Hi. destruct (reach_inv _ _ _ Hr) as [(r & _ & _ & _ & _ & Hown & Htr & _) _ _ _].
  unfold own_tr, own_phase, own_ok, hi in *.
  destruct (d_own s) as [|v b|v b t|v b t rn|v b t|v b|x|b|b|b t|b [|]|b|]; try done;
    try by (pose proof (in_phase_fun _ _ _ Htr _ Hi)).
  destruct Hown as (-> & _ & Hv). destruct Hv as (_ & v & Hv); [done|]. rewrite Hv in Htr.
  by pose proof (in_phase_fun _ _ _ Htr _ Hi).
Qed.

(** ** Capacity *)

Lemma top_taken k s h : reach k s h -> d_top s <= Z.of_nat (length (taken h)).
Proof.
  induction 1 as [|s h l s' tr Hr IH Hs]; [done|].
  destruct l as [op fail|i]; simpl in Hs.
  - unfold owner, with_cur in Hs. repeat case_match; try done; injection Hs as <- <-; simpl; lia.
  - unfold thief in Hs. repeat case_match; try done; injection Hs as <- <-; simpl; lia.
Qed.

Lemma hi_pushed k s h : reach k s h -> hi s <= Z.of_nat (length (pushed h)).
Proof.
  intros Hr. destruct (reach_contents _ _ _ Hr) as (q & Hq & Hlen).
  pose proof (pushed_taken _ _ Hq) as HP. apply Permutation_length in HP. rewrite app_length in HP.
  pose proof (top_taken _ _ _ Hr). lia.
Qed.

Lemma pushed_mono tr h : (length (pushed h) <= length (pushed (tr ++ h)))%nat.
Proof. induction tr as [|[|? [] []|] tr IH]; simpl; lia. Qed.

Lemma cap_bound k s h : reach k s h ->
  forall r, d_bufs s !! d_cur s = Some r ->
  r_cap r <= Z.max (2 ^ Z.of_nat k) (2 * Z.of_nat (length (pushed h))) /\
  (forall v b t r', d_own s = OPushPub v b t r' -> r_cap r' <= 2 * Z.of_nat (length (pushed h))).
Proof.
  induction 1 as [|s h l s' tr Hr IH Hs]; intros r Hcur.
  { simpl in Hcur. injection Hcur as <-. simpl. split; [lia|done]. }
  pose proof (hi_pushed _ _ _ Hr) as Hhi.
  pose proof (pushed_mono (rev tr) h) as Hmono.
  destruct (reach_inv _ _ _ Hr) as [(r0 & Hr0 & Hok & Hcap & Hsz & Hown & _ & _ & _) Htop Hc _].
  destruct (IH _ Hr0) as [IH1 IH2].
  destruct l as [op fail|i]; simpl in Hs.
  - unfold owner, with_cur in Hs. rewrite Hr0 in Hs. unfold own_ok, hi in *.
    destruct (d_own s) as [|v b|v b t|v b t rn|v b t|v b|x|b|b|b t|b ok|b|] eqn:Eo;
      repeat case_match; try done; injection Hs as <- <-; simpl in *.
    all: try by (rewrite Hr0 in Hcur; injection Hcur as <-; split; [lia|done]).
    + rewrite Hr0 in Hcur; injection Hcur as <-. split; [lia|]. intros ???? [= <- <- <- <-].
      destruct (resize_spec r0 b t) as (_ & -> & _); [done|lia|lia|]. lia.
    + rewrite lookup_app_r in Hcur by lia. rewrite Nat.sub_diag in Hcur. injection Hcur as <-.
      specialize (IH2 _ _ _ _ eq_refl). split; [lia|done].
    + rewrite list_lookup_insert in Hcur by lia. injection Hcur as <-. simpl. split; [lia|done].
  - unfold thief in Hs. repeat case_match; try done; injection Hs as <- <-; simpl in *;
      rewrite Hr0 in Hcur; injection Hcur as <-; (split; [lia|]); intros; (etrans; [by eapply IH2|lia]).
Qed.

(** ** Running a schedule *)

Fixpoint drun (ls : list (dlab V)) (s : deque V) h : option (deque V * list (dev V)) :=
  match ls with
  | [] => Some (s, h)
  | l :: ls' => match dstep_of l s with Next s' tr => drun ls' s' (rev tr ++ h) | Undef => None end
  end.

Lemma drun_reach k ls : forall s h, reach k s h ->
  match drun ls s h with Some (s', h') => reach k s' h' | None => True end.
Proof.
  induction ls as [|l ls IH]; intros s h Hr; simpl; [done|].
  destruct (dstep_of l s) as [s' tr|] eqn:E; [|done]. apply IH. by econstructor.
Qed.

End lin.
