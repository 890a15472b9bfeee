(** * Consequences of the runtime's invariants. *)

From stdpp Require Import prelude gmap list.
From Coq Require Import NArith Lia.
From Verif Require Import RuntimeModel RuntimeSpec RuntimeInv RuntimeStep RuntimeStep2 RuntimeStep3
  RuntimeStep4 RuntimeStep5 RuntimeStep6 RuntimeStep7 RuntimeSafe RuntimeHist RuntimeHist2
  RuntimeHist3 RuntimeHist4.
Local Open Scope N_scope.

(** ** Events in the middle of a history *)

Lemma evs_ok_at af h1 e h0 : evs_ok af (h1 ++ e :: h0) -> ev_ok af e h0 /\ evs_ok af h0.
Proof. induction h1; cbn; [done|]. intros [_ H]. auto. Qed.
Lemma evs2_at h1 e h0 : evs2 (h1 ++ e :: h0) -> ev2 e h0 /\ evs2 h0.
Proof. induction h1; cbn; [done|]. intros [_ H]. auto. Qed.

Lemma reach_ev nw af s h1 e h0 :
  reach nw af s (h1 ++ e :: h0) -> ev_ok af e h0 /\ ev2 e h0 /\ evs_ok af h0.
Proof.
  intros HR. destruct (reach_hist _ _ _ _ HR) as (H & _). pose proof (reach_stat _ _ _ _ HR) as T.
  destruct (evs_ok_at _ _ _ _ (g_evs _ _ _ H)). destruct (evs2_at _ _ _ (t_evs _ _ T)). done.
Qed.

Lemma results_lookup f h j c st o :
  kids_in f h !! j = Some (c, st) -> outcome_in c h = Some o ->
  results_in f h !! j = Some (cell_of st o).
Proof. intros Hj Ho. unfold results_in. rewrite list_lookup_fmap, Hj. cbn. by rewrite Ho. Qed.

Lemma results_length f h : length (results_in f h) = length (kids_in f h).
Proof. unfold results_in. by rewrite map_length. Qed.

(** ** Pending exceptions *)

Lemma parent_body c h x : parent_in c h = Some x -> body_in c h <> None.
Proof.
  induction h as [|e h IH]; [done|]. destruct e; cbn; try done; case_decide; try done; auto.
Qed.

Lemma pending_from af f h e :
  evs_ok af h -> e ∈ pending_in f h ->
  (exists c, parent_in c h = Some (f, false) /\ outcome_in c h = Some (OExc e)) \/ EvStash f e ∈ h.
Proof.
  induction h as [|ev h IH]; intros Hok Hin; [set_solver|]. destruct Hok as [Hev Hok].
  assert (G1 : e ∈ pending_in f h ->
    (exists c, parent_in c h = Some (f, false) /\ outcome_in c h = Some (OExc e)) \/ EvStash f e ∈ ev :: h).
  { intros Hi. destruct (IH Hok Hi) as [?|?]; [by left|right; by right]. }
  destruct ev; cbn in Hin |- *; try (by apply G1).
  - destruct (G1 Hin) as [(c' & Hp & Ho)|]; [left|by right]. exists c'. split; [|done].
    rewrite decide_False; [done|]. intros ->. destruct Hev as (_ & Hb & _).
    by eapply parent_body.
  - destruct (G1 Hin) as [(c' & Hp & Ho)|]; [left|by right]. exists c'. split; [|done].
    rewrite decide_False; [done|]. intros ->. destruct Hev as (_ & Hb & _).
    by eapply parent_body.
  - rename f0 into c. destruct Hev as (Hnone & _).
    assert (G2 : e ∈ pending_in f h ->
      (exists c0, parent_in c0 h = Some (f, false) /\ (if decide (c = c0) then Some o else outcome_in c0 h) = Some (OExc e))
      \/ EvStash f e ∈ EvEnd c o :: h).
    { intros Hi. destruct (G1 Hi) as [(c' & Hp & Ho)|]; [left|by right]. exists c'. split; [done|].
      rewrite decide_False; [done|]. intros ->. congruence. }
    destruct o as [v|e0]; [by apply G2|]. case_decide as E; [|by apply G2].
    apply elem_of_union in Hin as [Hi|Hi]; [by apply G2|]. left. exists c. split; [done|].
    rewrite decide_True by done. by apply elem_of_singleton in Hi as ->.
  - case_decide as E; [|by apply G1]. apply elem_of_union in Hin as [Hi|Hi]; [by apply G1|].
    apply elem_of_singleton in Hi as ->. subst. right. by left.
  - case_decide; [set_solver|]. by apply G1.
  - case_decide; [set_solver|]. by apply G1.
Qed.

(** ** Progress *)

Lemma step_next nw af s h l :
  reach nw af s h -> allowed nw af l -> step l s <> Blocked -> exists s' tr, step l s = Next s' tr.
Proof.
  intros HR HA Hb. pose proof (reach_safe _ _ _ _ l HR HA). destruct (step l s) eqn:E; eauto; done.
Qed.

(** The map has a largest key. *)
Lemma max_key {A} (M : gmap N A) f a :
  M !! f = Some a -> exists g b, M !! g = Some b /\ forall k, g < k -> M !! k = None.
Proof.
  revert f a. induction M as [|g b M Hg IH] using map_ind; intros f a Hf; [done|].
  destruct (decide (M = ∅)) as [->|Hne].
  - exists g, b. rewrite lookup_insert. split; [done|]. intros k Hk.
    rewrite lookup_insert_ne by lia. apply lookup_empty.
  - apply map_choose in Hne as (g' & b' & Hg'). destruct (IH _ _ Hg') as (m & bm & Hm & Hmax).
    destruct (decide (m < g)).
    + exists g, b. rewrite lookup_insert. split; [done|]. intros k Hk.
      rewrite lookup_insert_ne by lia. apply Hmax. lia.
    + exists m, bm. rewrite lookup_insert_ne by congruence. split; [done|].
      intros k Hk. rewrite lookup_insert_ne by lia. auto.
Qed.

(** Nobody has anything to do. *)
Definition quiet (s : state) : Prop :=
  forall i w, s_workers s !! i = Some w -> w_pc w = PIdle /\ w_batch w = [] /\ w_inbox w = [] /\ w_deque w = [].

Lemma sumw_zero g ws : (forall i w, ws !! i = Some w -> g w = 0) -> sumw g ws = 0.
Proof.
  intros H. destruct (decide (0 < sumw g ws)) as [Hp|]; [|lia].
  apply sumw_ex in Hp as (i & w & Hi & Hw). rewrite (H i w Hi) in Hw. lia.
Qed.

Lemma quiet_empty nw G s : inv nw G s -> quiet s -> forall f, s_frames s !! f = None.
Proof.
  intros I Q f. destruct (s_frames s !! f) as [fr|] eqn:Hf; [|done]. exfalso.
  destruct (max_key _ _ _ Hf) as (g & frg & Hg & Hmax).
  assert (Ht : sumw (wtok g) (s_workers s) = 0).
  { apply sumw_zero. intros i w Hi. destruct (Q i w Hi) as (E1 & E2 & E3 & E4).
    unfold wtok. by rewrite E1, E2, E3, E4. }
  assert (Hs : sumw (wsub g) (s_workers s) = 0).
  { apply sumw_zero. intros i w Hi. destruct (Q i w Hi) as (E1 & E2 & E3 & E4).
    unfold wsub. by rewrite E1. }
  pose proof (i_node _ _ _ I g frg Hg) as N. rewrite Ht, Hs in N. destruct N as (N1 & N2 & _ & _ & N5).
  assert (Hkid : forall c k x, shape_of (s_frames s) !! c = Some (k, x) -> par k = Some g -> False).
  { intros c k x Hc Hp. destruct (i_kid _ _ _ I _ _ _ _ _ Hc Hp Hg) as (_ & Hlt).
    apply Hmax in Hlt. apply shape_none in Hlt. congruence. }
  destruct (f_rp frg) eqn:Erp; try lia.
  - assert (Hn : 0 < ncalls g (shape_of (s_frames s))) by lia.
    apply cntm_ex in Hn as (c & (k' & x) & Hc & Hk). unfold is_call in Hk. cbn in Hk.
    destruct k' as [|p' i' st'|p' i' st']; try done. apply bool_decide_eq_true in Hk as ->.
    by eapply Hkid.
  - assert (Hn : 0 < nforks g (shape_of (s_frames s))) by lia.
    apply cntm_ex in Hn as (c & (k' & x) & Hc & Hk). unfold is_fork in Hk. cbn in Hk.
    destruct k' as [|p' i' st'|p' i' st']; try done. apply bool_decide_eq_true in Hk as ->.
    by eapply Hkid.
Qed.

(** Decisions other than submitting new work. *)
Definition internal (l : label) : Prop := match l with LSpawn _ _ => False | LWork _ fail => fail = false | _ => True end.

Lemma internal_allowed nw af l : internal l -> allowed nw af l.
Proof. destruct l; cbn; try done. by intros ->. Qed.

Definition busy (w : worker) : bool :=
  match w_pc w, w_batch w, w_inbox w with PIdle, [], [] => false | _, _, _ => true end.
Lemma busy_false w : busy w = false -> w_pc w = PIdle /\ w_batch w = [] /\ w_inbox w = [].
Proof. unfold busy. by repeat case_match. Qed.

Lemma wstep_blocked i fail s w :
  s_workers s !! i = Some w -> wstep i fail s = Blocked -> w_pc w = PIdle /\ w_batch w = [].
Proof.
  intros Hi. unfold wstep. rewrite Hi.
  unfold run_task, deliver, fork_resume, capture, finish, root_destroy, resume_submitted, resume_stolen,
    final_sub, self_steal, join_suspend, take_stack_join_resume, join_resume, call_resume, to_idle.
  cbn zeta. by repeat case_match.
Qed.

Global Instance blocked_dec r : Decision (r = Blocked).
Proof. destruct r; [right|left|right]; done. Defined.

Lemma progress nw af s h f fr :
  reach nw af s h -> s_frames s !! f = Some fr ->
  exists l s' tr, internal l /\ step l s = Next s' tr.
Proof.
  intros HR Hf. destruct (reach_inv _ _ _ _ HR) as (G & I).
  destruct (decide (Exists (fun w => busy w = true) (s_workers s))) as [He|Hno].
  - apply Exists_exists in He as (w & Hin & Hw). apply elem_of_list_lookup in Hin as (i & Hi).
    destruct (decide (wstep i false s = Blocked)) as [Eb|Eb].
    + destruct (wstep_blocked _ _ _ _ Hi Eb) as (E1 & E2). unfold busy in Hw. rewrite E1, E2 in Hw.
      destruct (w_inbox w) as [|g l] eqn:Ei; [done|].
      exists (LTake i). destruct (step_next nw af s h (LTake i) HR) as (s' & tr & E); [done| |by exists s', tr].
      cbn. unfold take. by rewrite Hi, E1, E2, Ei.
    + exists (LWork i false).
      destruct (step_next nw af s h (LWork i false) HR) as (s' & tr & E); [done|done|by exists s', tr].
  - exfalso. assert (Q : quiet s).
    { intros i w Hi.
      destruct (busy w) eqn:E; [|apply busy_false in E as (E1 & E2 & E3)]; cycle 1.
      - destruct (i_wrk _ _ _ I i w Hi) as ((_ & W) & _). rewrite E1 in W. destruct W. done.
      - exfalso. apply Hno. apply Exists_exists. exists w. split; [by apply elem_of_list_lookup_2 in Hi|done]. }
    by rewrite (quiet_empty _ _ _ I Q f) in Hf.
Qed.

(** ** Determinism *)

Lemma exec_pure_nothrow cs t o :
  exec false cs ∅ t o -> forall b, pure b t -> b = false -> exists v, o = OVal v.
Proof.
  intros H. remember false as af eqn:Eaf. remember ∅ as X eqn:EX. revert Eaf EX.
  induction H as [|cs e|cs X m st c k oc r X' o Hc IHc Hr Hk IHk|cs X m st c k o Haf|
    cs X m st c k oc r X' o Hc IHc Hr Hk IHk|cs X m st c k o Haf|cs X k r o Hj Hk IHk|cs X sk d k o Hk IHk|
    cs X e k o|cs X w k o]; intros Eaf EX b Hp Hb; subst.
  - eauto.
  - inversion Hp.
  - inversion Hp as [| |b' st' c' k' Hpc Hpk| | |]; subst.
    inversion Hr; subst; try done.
    assert (E : ∅ ∪ exn_of st oc = ∅).
    { destruct st; [destruct oc; set_solver|].
      destruct (IHc eq_refl eq_refl false Hpc eq_refl) as (v & ->). set_solver. }
    eapply IHk; eauto.
  - done.
  - inversion Hp as [| | |b' m' st' c' k' Hpc Hpk| |]; subst.
    assert (E : ∅ ∪ exn_of st oc = ∅).
    { destruct st; [destruct oc; set_solver|].
      destruct (IHc eq_refl eq_refl false Hpc eq_refl) as (v & ->). set_solver. }
    rewrite E in Hr. inversion Hr; subst; [|set_solver|done]. eapply IHk; eauto.
  - done.
  - inversion Hp as [| | | |b' k' Hpk|]; subst. inversion Hj; subst; [|set_solver]. eapply IHk; eauto.
  - inversion Hp as [| | | | |b' sk' d' k' Hpk]; subst. eapply IHk; eauto.
  - inversion Hp.
  - inversion Hp.
Qed.

Lemma exec_pure_det cs t o1 :
  exec false cs ∅ t o1 -> forall b o2, pure b t -> exec false cs ∅ t o2 -> o1 = o2.
Proof.
  intros H. remember false as af eqn:Eaf. remember ∅ as X eqn:EX. revert Eaf EX.
  induction H as [|cs e|cs X m st c k oc r X' o Hc IHc Hr Hk IHk|cs X m st c k o Haf|
    cs X m st c k oc r X' o Hc IHc Hr Hk IHk|cs X m st c k o Haf|cs X k r o Hj Hk IHk|cs X sk d k o Hk IHk|
    cs X e k o|cs X w k o]; intros Eaf EX b o2 Hp H2; subst.
  - by inversion H2.
  - by inversion H2.
  - inversion Hp as [| |b' st' c' k' Hpc Hpk| | |]; subst.
    inversion H2 as [| |cs2 X2 m2 st2 c2 k2 oc2 r2 X2' o2' Hc2 Hr2 Hk2|? ? ? ? ? ? ? Haf2| | | | | |]; subst; [|done].
    assert (oc = oc2) as <- by (eapply IHc; eauto).
    inversion Hr; subst; try done. inversion Hr2; subst; try done.
    assert (E : ∅ ∪ exn_of st oc = ∅).
    { destruct st; [destruct oc; set_solver|].
      destruct (exec_pure_nothrow _ _ _ Hc false Hpc eq_refl) as (v & ->). set_solver. }
    rewrite E in *. eapply IHk; eauto.
  - done.
  - inversion Hp as [| | |b' m' st' c' k' Hpc Hpk| |]; subst.
    inversion H2 as [| | | |cs2 X2 m2 st2 c2 k2 oc2 r2 X2' o2' Hc2 Hr2 Hk2|? ? ? ? ? ? ? Haf2| | | |]; subst; [|done].
    assert (oc = oc2) as <- by (eapply IHc; eauto).
    assert (E : ∅ ∪ exn_of st oc = ∅).
    { destruct st; [destruct oc; set_solver|].
      destruct (exec_pure_nothrow _ _ _ Hc false Hpc eq_refl) as (v & ->). set_solver. }
    rewrite E in *. inversion Hr; subst; [|set_solver|done]. inversion Hr2; subst; [|set_solver|done].
    eapply IHk; eauto.
  - done.
  - inversion Hp as [| | | |b' k' Hpk|]; subst. inversion Hj; subst; [|set_solver].
    inversion H2 as [| | | | | |? ? ? ? ? Hj2 Hk2| | |]; subst. inversion Hj2; subst; [|set_solver].
    eapply IHk; eauto.
  - inversion Hp as [| | | | |b' sk' d' k' Hpk]; subst. inversion H2; subst. eapply IHk; eauto.
  - inversion Hp.
  - inversion Hp.
Qed.

(** ** The result of a call *)

Lemma call_result nw af s h p frp st k l s' tr i :
  reach nw af s h -> allowed nw af l -> step l s = Next s' tr ->
  s_frames s !! p = Some frp -> f_rp frp = RCall MNone st k -> EvResume i p ∈ tr ->
  exists c oc frp', status_in p h = Some (AtCall c) /\ outcome_in c h = Some oc /\
    s_frames s' !! p = Some frp' /\ f_rp frp' = RRun (k (CDone (cell_of st oc))) /\
    (f_eflag frp', f_eptr frp') = (f_eflag frp, f_eptr frp).
Proof.
  intros HR HA Hst Hp Hrp Hin.
  destruct (reach_inv _ _ _ _ HR) as (G & I). destruct (reach_hist _ _ _ _ HR) as (H & _).
  pose proof (reach_stat _ _ _ _ HR) as T.
  pose proof (i_node _ _ _ I p frp Hp) as (Ntk & Nc & _). rewrite Hrp in Ntk, Nc.
  assert (Htok : forall j w, s_workers s !! j = Some w -> wtok p w = 0).
  { intros j w Hj. pose proof (sumw_ge (wtok p) _ _ _ Hj). lia. }
  assert (Hfresh : p <> s_nextf s).
  { intros E. rewrite (i_fresh _ _ _ I p) in Hp; [done|lia]. }
  assert (Hno : forall j w q, s_workers s !! j = Some w -> q = p ->
    q ∈ pc_tok (w_pc w) \/ q ∈ w_deque w \/ q ∈ w_inbox w \/ q ∈ w_batch w -> False).
  { intros j w q Hj -> Hq. specialize (Htok j w Hj). unfold wtok in Htok.
    destruct Hq as [Hq|[Hq|[Hq|Hq]]]; apply occ_in in Hq; lia. }
  assert (Hsus : susp_ok h p (f_rp frp)).
  { apply (t_sus _ _ T p frp Hp). eapply nobody; eauto. left. by rewrite Hrp. }
  rewrite Hrp in Hsus. cbn in Hsus. destruct Hsus as (c & stc & Hs & Hl).
  assert (HX : forall seen w f fr, s_frames s !! f = Some fr -> f_rp fr = RFinal -> forall j, finish seen j w f fr s = Next s' tr ->
    exists c oc frp', status_in p h = Some (AtCall c) /\ outcome_in c h = Some oc /\
      s_frames s' !! p = Some frp' /\ f_rp frp' = RRun (k (CDone (cell_of st oc))) /\
      (f_eflag frp', f_eptr frp') = (f_eflag frp, f_eptr frp)).
  {
    clear Hst. intros seen w f fr Hf Er j Hst. unfold finish in Hst. case_decide as Hfin; [|done].
      destruct (f_kind fr) as [|q ji stf|q ji stf] eqn:Ek.
    - injection Hst as <- <-. set_solver.
    - destruct (destroy w f fr s) as [s1|] eqn:Ed; [|done].
      assert (HF1 : s_frames s1 = delete f (s_frames s)).
      { unfold destroy in Ed. repeat case_match; try done; injection Ed as <-; done. }
      destruct (s_frames s1 !! q) as [frq|] eqn:Hq; [|done].
      destruct (f_rp frq) as [| |m0 st0 k0| | | | |] eqn:Erq; try done.
      assert (Eq : q = p).
      { unfold call_resume in Hst. cbn zeta in Hst. clear -Hst Hin.
        repeat case_match; try done; injection Hst as <- <-; cbn in Hin; set_solver. }
      subst q. rewrite HF1 in Hq. apply lookup_delete_Some in Hq as (_ & Hq). rewrite Hp in Hq. injection Hq as <-.
      rewrite Hrp in Erq. injection Erq as <- <- <-.
      unfold call_resume in Hst. cbn zeta in Hst.
      destruct (i_kid _ _ _ I f _ _ p frp (shape_lookup _ _ _ Hf)) as (Hkid & _); [by rewrite Ek|done|].
      unfold kid_ok in Hkid. cbn in Hkid. rewrite Ek, Hrp in Hkid. destruct Hkid as (Hlen & _ & <-).
      pose proof (g_frames _ _ _ H f fr Hf) as Fk. pose proof (g_frames _ _ _ H p frp Hp) as Fp.
      pose proof (k_kind _ _ _ _ Fk) as Hkk. rewrite Ek in Hkk.
      pose proof (k_cells _ _ _ _ Fp) as Hcells.
      assert (Hlk : last (kids_in p h) = Some (f, stf)).
      { rewrite last_lookup. rewrite Hcells, results_length in Hlen. by rewrite <- Hlen. }
      rewrite Hl in Hlk. injection Hlk as -> ->.
      destruct (proj1 (k_over _ _ _ _ Fk)) as (oc & Hoc); [by rewrite Er|].
      assert (Hcl : fres_last (f_cells frp) = cell_of stf oc).
      { unfold fres_last. rewrite last_lookup, <- Hlen, Hcells. cbn [pred].
        by rewrite (results_lookup _ _ _ _ _ _ Hkk Hoc). }
      rewrite Hcl in Hst. injection Hst as <- <-.
      exists f, oc. cbn. rewrite lookup_insert. eexists. split_and!; [done|done|reflexivity|done|done].
    - destruct (destroy w f fr s) as [s1|] eqn:Ed; [|done]. injection Hst as <- <-. set_solver. }
  destruct l as [j fail|j|j|j v|d t]; cbn [step] in Hst.
  2:{ destruct (stale_inv _ _ _ _ Hst) as (w & f & fr & Hi & Hpc & Hf & [(k1 & Hr & Hz & -> & ->)|[(m & st1 & k1 & pre & Hr & E')|(p1 & j1 & st1 & Hr & Hk & E')]]).
      - set_solver.
      - exfalso. unfold fork_resume in E'. cbn zeta in E'. repeat case_match; try done; injection E' as <- <-; set_solver.
      - exact (HX _ _ _ _ Hf Hr _ E'). }
  2:{ unfold take in Hst. repeat case_match; try done. injection Hst as <- <-. set_solver. }
  2:{ unfold steal in Hst. repeat case_match; try done. injection Hst as <- <-. set_solver. }
  2:{ unfold spawn in Hst. repeat case_match; try done. injection Hst as <- <-. set_solver. }
  unfold wstep in Hst. destruct (s_workers s !! j) as [w|] eqn:Hj; [|done].
  destruct (w_pc w) as [|f|f|q|q| |f|b|] eqn:Epc.
  - destruct (w_batch w) as [|f rest] eqn:Eb; [done|]. unfold resume_submitted in Hst.
    repeat case_match; try done; injection Hst as <- <-; apply elem_of_list_singleton in Hin; injection Hin as -> ->;
      exfalso; eapply (Hno _ _ f Hj eq_refl); rewrite Eb; right; right; right; by left.
  - unfold resume_stolen in Hst. repeat case_match; try done. injection Hst as <- <-.
    apply elem_of_list_singleton in Hin; injection Hin as -> ->.
    exfalso; eapply (Hno _ _ f Hj eq_refl). left. rewrite Epc. by left.
  - destruct (s_frames s !! f) as [fr|] eqn:Hf; [|done].
    destruct (f_rp fr) as [t|m0 st0 k0 pre|m0 st0 k0|k0|d k0|e| |] eqn:Er; try done.
    + unfold run_task in Hst.
      assert (Hd : forall o, deliver f fr o s = Next s' tr -> False).
      { intros o Hd. unfold deliver in Hd. repeat case_match; try done; injection Hd as <- <-;
          apply elem_of_list_singleton in Hin; done. }
      destruct t; try (by exfalso; eapply Hd).
      * destruct fail; injection Hst as <- <-; [set_solver|].
        apply elem_of_cons in Hin as [Hin|Hin%elem_of_list_singleton]; [done|]. injection Hin as -> E. done.
      * destruct fail; injection Hst as <- <-; [set_solver|].
        apply elem_of_cons in Hin as [Hin|Hin%elem_of_list_singleton]; [done|]. injection Hin as -> E. done.
      * exfalso. unfold take_stack_join_resume, join_resume in Hst. cbn zeta in Hst.
        repeat case_match; try done; injection Hst as <- <-; cbn in Hin; set_solver.
      * exfalso. repeat case_match; try done; injection Hst as <- <-; cbn in Hin; set_solver.
      * injection Hst as <- <-. set_solver.
      * injection Hst as <- <-. set_solver.
    + exfalso. unfold fork_resume in Hst. cbn zeta in Hst.
      repeat case_match; try done; injection Hst as <- <-; set_solver.
    + injection Hst as <- <-. set_solver.
    + exfalso. unfold capture in Hst. repeat case_match; try done; injection Hst as <- <-; set_solver.
    + exact (HX _ _ _ _ Hf Er _ Hst).
    + exfalso. unfold root_destroy, to_idle in Hst. repeat case_match; try done; injection Hst as <- <-; set_solver.
  - destruct (w_deque w) as [|q' dq] eqn:Ed; [injection Hst as <- <-; set_solver|].
    case_decide; [|done]. injection Hst as <- <-. apply elem_of_list_singleton in Hin; injection Hin as -> ->. subst.
    exfalso; eapply (Hno _ _ q Hj eq_refl). rewrite Ed. right; left; by left.
  - exfalso. unfold final_sub in Hst. destruct (s_frames s !! q) as [frq|] eqn:Hq; [|done].
    destruct (same_stacklet s q frq w) as [same|]; [|done]. cbn zeta in Hst. case_decide.
    + destruct (f_rp frq) eqn:Erq; try done. case_match; [|done]. unfold join_resume in Hst.
      repeat case_match; try done; injection Hst as <- <-;
        (apply elem_of_cons in Hin as [Hin|Hin]; [|set_solver]); injection Hin as -> ->; congruence.
    + unfold to_idle in Hst. repeat case_match; try done; injection Hst as <- <-; set_solver.
  - exfalso. unfold to_idle in Hst. cbn zeta in Hst. repeat case_match; try done; injection Hst as <- <-; set_solver.
  - exfalso. unfold join_suspend, take_stack_join_resume, join_resume in Hst. cbn zeta in Hst.
    repeat case_match; try done; injection Hst as <- <-; cbn in Hin; set_solver.
  - exfalso. cbn zeta in Hst. repeat case_match; try done; injection Hst as <- <-; set_solver.
  - unfold self_steal in Hst. destruct (w_deque w) as [|q' dq] eqn:Ed.
    + exfalso. unfold to_idle in Hst. repeat case_match; try done; injection Hst as <- <-; set_solver.
    + destruct (s_frames s !! q'); [|done]. injection Hst as <- <-.
      apply elem_of_list_singleton in Hin; injection Hin as -> ->.
      exfalso; eapply (Hno _ _ q' Hj eq_refl). rewrite Ed. right; left; by left.
Qed.
