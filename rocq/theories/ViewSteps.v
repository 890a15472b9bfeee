(** * The deque on the memory model of C++: every step keeps the invariant. *)

From stdpp Require Import prelude gmap list.
From Coq Require Import ZArith Lia.
From Verif Require Import DequeModel DequeSpec DequeProofs ViewModel ViewProofs.
Import ViewModel ViewProofs.
Local Open Scope Z_scope.

Section proofs.
Context {V : Type}.
Implicit Types (r : buf V) (s : vm V) (h : list (dev V)) (q : list V).

(** The orderings that are needed; the store to m_buf need not be a release store while there is only the first
    ring buffer. *)
Definition good (o : orders) s : Prop :=
  o_push o = true /\ o_pop o = true /\ o_steal o = true /\ o_acq o = true /\ (o_buf o = true \/ length (m_bufs s) = 1%nat).

Definition items_ok s r q : Prop :=
  Z.of_nat (length q) = hi s - m_top s /\ forall (j : nat) v, q !! j = Some v -> r_load (newest r) (m_top s + Z.of_nat j) = Some v.

(** ** Steps of the owner that change neither memory nor the items *)

Lemma own_quiet s s' h tr :
  inv s h ->
  m_thf s' = m_thf s -> m_view s' = m_view s -> m_top s' = m_top s -> m_bot s' = m_bot s ->
  m_sc s' = m_sc s -> m_bufs s' = m_bufs s -> m_cur s' = m_cur s -> m_rel s' = m_rel s -> hi s' = hi s ->
  m_otop s <= m_otop s' <= m_top s ->
  Forall (fun x => match x with ECall w' _ | ELin w' _ _ | ERet w' _ => w' = None end) tr ->
  (forall r q, last (m_bufs s) = Some r -> ring_ok (newest r) -> hi s - m_otop s <= b_cap r -> own_ok s r -> own_tr s r h ->
     items_ok s r q -> contents h q -> own_ok s' r /\ own_tr s' r (rev tr ++ h) /\ contents (rev tr ++ h) q) ->
  inv s' (rev tr ++ h).
Proof.
  intros HI Et Ev Etop Eb Esc Ef Ec Er Eh Ho Htr Hown.
  assert (Hk : forall j, keeps s s' j). { intros j. apply keeps_same; [done|by rewrite Ec|]. rewrite Etop, Eh. lia. }
  pose proof (i_tops _ _ HI) as (T1 & _ & _ & T4). pose proof (i_top _ _ HI) as Htop.
  apply (own_step s s' h _ []); try done.
  - by rewrite app_nil_r.
  - rewrite Esc. lia.
  - by rewrite Esc.
  - by rewrite Ef.
  - intros b w Hin. by apply elem_of_nil in Hin.
  - by rewrite Er.
  - intros b w Hin. by apply elem_of_nil in Hin.
  - rewrite Eh, Er. intros j Hj. eapply knows_keeps; [apply Hk|]. by apply (i_rel _ _ HI).
  - destruct (i_cur _ _ HI) as (r & Hr & Hok & Hcap & Hown0 & Htr0 & q & Hq & Hl & Hv).
    destruct (Hown r q Hr Hok Hcap Hown0 Htr0 (conj Hl Hv) Hq) as (H1 & H2 & H3).
    exists r. rewrite Ef, Eh, Etop. split_and!; [done|done|lia|done|done|]. exists q. done.
  - rewrite Eh. lia.
  - intros i p Hp. apply in_phase_app_other; [done|]. apply Forall_rev. eapply Forall_impl; [exact Htr|].
    intros [w' ?|w' ? ?|w' ?]; by intros ->.
Qed.

Lemma bot_now_put (b : Z) s : bot_now (put_bot b s) = b.
Proof. unfold bot_now. cbn. by rewrite last_snoc. Qed.

Lemma items_last s r q b v :
  items_ok s r q -> m_top s <= b -> hi s = b + 1 -> r_load (newest r) b = Some v ->
  exists q', q = q' ++ [v] /\ Z.of_nat (length q') = b - m_top s.
Proof.
  intros (Hl & Hv) Ht Hh Hb. destruct q as [|x q' _] using rev_ind; [cbn in Hl; lia|].
  rewrite app_length in Hl. cbn in Hl. exists q'. assert (Hlq : Z.of_nat (length q') = b - m_top s) by lia. split; [|done].
  specialize (Hv (length q') x). rewrite list_lookup_middle in Hv by done. specialize (Hv eq_refl).
  replace (m_top s + Z.of_nat (length q')) with b in Hv by lia. congruence.
Qed.

(** ** Steps of the owner *)

Definition keeps_inv (o : orders) h (x : vstep V) : Prop :=
  match x with VNext s' tr => good o s' -> inv s' (rev tr ++ h) | VBlocked => True | VUndef => False end.

Ltac quiet HI Eo := eapply own_quiet; [exact HI|done|done|done|done|done|done|done|done|unfold hi; cbn; rewrite ?Eo; try done|cbn; try lia|by repeat constructor|].

Lemma pushtop_ok h s v b n : inv s h -> m_own s = OwPushTop v b ->
  m_otop s <= n <= m_top s -> inv (set_own (OwPushBuf v b n) (set_otop n s)) h.
Proof.
  intros HI Eo Hn. change h with (rev [] ++ h). quiet HI Eo.
  intros r q Hr Hok Hcap Hown Htr Hit Hq. unfold own_ok, own_tr, own_phase in *. cbn. rewrite Eo in *. done.
Qed.

Lemma owner_ok o op fail n s h : inv s h -> keeps_inv o h (owner o op fail n s).
Proof.
  intros HI. pose proof (i_cur _ _ HI) as Hcur. pose proof (i_top _ _ HI) as Htop. pose proof (i_tops _ _ HI) as (T1 & T2 & T3 & T4).
  unfold owner, with_cur, keeps_inv.
  destruct Hcur as (r & Hr & Hok & Hcap & Hown & Htr & q & Hq & Hl & Hv). rewrite Hr.
  assert (Hit : items_ok s r q) by done.
  unfold own_ok in Hown. unfold own_tr, own_phase in Htr.
  assert (Hhi : hi s = match m_own s with OwPopFence b | OwPopTop b | OwPopCas b | OwPopRestore b _ => b + 1 | _ => bot_now s end) by done.
  destruct (m_own s) as [|v b|v b t|v b t|v b|v b|v b|x|b|b|b|b|b ok|b|] eqn:Eo.
  - (* idle *)
    destruct op as [v|]; intros _; quiet HI Eo; intros r0 q0 _ _ _ _ _ _ Hq0; (split_and!; [done|unfold own_tr; cbn; by constructor|by constructor]).
  - (* 384 *)
    case_decide as Hn; [|done]. intros _. eapply pushtop_ok; done.
  - (* 385-387 *)
    case_decide as Hc; [destruct fail|]; intros _; quiet HI Eo; intros r0 q0 Hr0 _ _ _ _ _ Hq0;
      rewrite Hr in Hr0; injection Hr0 as <-.
    + split_and!; [done| |econstructor; [done|constructor]]. unfold own_tr; cbn. exists v. by constructor.
    + split_and!; [done|done|done].
    + split_and!; [|done|done]. unfold own_ok. cbn. destruct Hown as (-> & ->). split; [done|]. cbn. lia.
  - (* 389-395 *)
    destruct Hown as (-> & ->). rewrite Hhi in *.
    rewrite decide_True by lia. intros Hg.
    destruct (resize_spec (newest r) (bot_now s) (m_otop s)) as (R1 & R2 & R3); [done|lia|cbn; lia|].
    assert (Hob : o_buf o = true).
    { destruct Hg as (_ & _ & _ & _ & [Hg|Hg]); [done|]. cbn in Hg. rewrite app_length in Hg. cbn in Hg.
      destruct (m_bufs s); [done|]. cbn in Hg. lia. }
    rewrite Hob in *. set (s1 := set_bufs (m_bufs s ++ [b_resize r (bot_now s) (m_otop s)]) s) in *.
    set (s' := set_own (OwPushStore v (bot_now s)) (set_cur (length (m_bufs s)) (oview s1) s1)) in *.
    assert (Hr' : last (m_bufs s') = Some (b_resize r (bot_now s) (m_otop s))) by (cbn; by rewrite last_snoc).
    assert (Hk : forall j, m_top s <= j -> keeps s s' j).
    { intros j Hj x (r0 & Hr0 & Hj0 & Hx). rewrite Hr in Hr0. injection Hr0 as <-. rewrite Hhi in Hj0.
      assert (Hx' : r_load (newest (b_resize r (bot_now s) (m_otop s))) j = Some x).
      { rewrite newest_resize, R3; [done|lia]. }
      split.
      - exists (b_resize r (bot_now s) (m_otop s)). done.
      - intros w Hw c r0 m Hc Hle Hm. change (m_bufs s') with (m_bufs s ++ [b_resize r (bot_now s) (m_otop s)]) in Hc.
        apply lookup_app_Some in Hc as [Hc|(Hge & Hc)].
        + apply (Hw c r0 m); [done|done|]. cbn in Hm. rewrite decide_False in Hm; [done|]. apply lookup_lt_Some in Hc. lia.
        + apply list_lookup_singleton_Some in Hc as (Hc0 & <-). assert (c = length (m_bufs s)) as -> by lia.
          cbn in Hm. rewrite decide_True in Hm by done. cbn in Hm. rewrite list_lookup_middle in Hm by done.
          fold (hist (b_resize r (bot_now s) (m_otop s)) j) in Hm.
          assert (m = length (hist (b_resize r (bot_now s) (m_otop s)) j)) as -> by lia. by rewrite msg_newest. }
    apply (own_step s s' h _ []); try done.
    + by rewrite app_nil_r.
    + cbn. rewrite app_length. lia.
    + intros b w Hin. by apply elem_of_nil in Hin.
    + intros b w Hin. by apply elem_of_nil in Hin.
    + intros j Hj. eapply knows_keeps; [apply Hk; lia|]. apply (i_rel _ _ HI). rewrite Hhi. exact Hj.
    + exists (b_resize r (bot_now s) (m_otop s)). rewrite newest_resize. split_and!; [done|done| | | |].
      * change (b_cap (b_resize r (bot_now s) (m_otop s))) with (r_cap (resize (newest r) (bot_now s) (m_otop s))).
        rewrite R2. cbn. unfold hi. cbn. change (bot_now s') with (bot_now s). pose proof (ring_cap_pos _ Hok) as Hp. cbn in Hp. lia.
      * unfold own_ok. cbn [m_own s']. split; [done|].
        change (b_cap (b_resize r (bot_now s) (m_otop s))) with (r_cap (resize (newest r) (bot_now s) (m_otop s))).
        rewrite R2. cbn. pose proof (ring_cap_pos _ Hok) as Hp. cbn in Hp. lia.
      * done.
      * exists q. split_and!; [done|done|]. intros j x Hj. pose proof (lookup_lt_Some _ _ _ Hj).
        change (m_top s') with (m_top s). rewrite R3; [by apply Hv|lia].
    + change (m_otop s') with (m_otop s). lia.
    + change (hi s') with (bot_now s). lia.
  - (* 400 *)
    destruct Hown as (-> & Hc). rewrite Hhi in *. rewrite decide_True by lia. intros _.
    set (b := bot_now s) in *.
    set (s' := set_own (OwPushFence v b) (set_bufs (<[pred (length (m_bufs s)) := b_store r b v]> (m_bufs s)) s)).
    assert (Hlast := last_pred _ _ Hr).
    assert (Hlt : (pred (length (m_bufs s)) < length (m_bufs s))%nat) by by eapply lookup_lt_Some.
    assert (Hr' : last (m_bufs s') = Some (b_store r b v)).
    { cbn. rewrite last_lookup, insert_length. by apply list_lookup_insert. }
    assert (Hne : forall j, m_top s <= j < b -> hist (b_store r b v) j = hist r j).
    { intros j Hj. apply hist_store_ne; [done|lia|lia]. }
    assert (Hk : forall j, m_top s <= j -> keeps s s' j).
    { intros j Hj x (r0 & Hr0 & Hj0 & Hx). rewrite Hr in Hr0. injection Hr0 as <-. rewrite Hhi in Hj0.
      split.
      - exists (b_store r b v). split_and!; [done|cbn; lia|exact (proj2 Hj0)|]. rewrite load_newest, Hne, <- load_newest; [done|lia].
      - intros w Hw c r0 m Hc' Hle Hm. change (m_bufs s') with (<[pred (length (m_bufs s)):=b_store r b v]> (m_bufs s)) in Hc'.
        destruct (decide (c = pred (length (m_bufs s)))) as [->|E].
        + rewrite list_lookup_insert in Hc' by done. injection Hc' as <-. specialize (Hw _ r m Hlast Hle).
          unfold msg in *. rewrite Hne in * by lia. apply Hw. exact Hm.
        + rewrite list_lookup_insert_ne in Hc' by done. by apply (Hw c r0 m). }
    apply (own_step s s' h _ []); try done.
    + by rewrite app_nil_r.
    + cbn. by rewrite insert_length.
    + intros b' w Hin. by apply elem_of_nil in Hin.
    + intros b' w Hin. by apply elem_of_nil in Hin.
    + intros j Hj. eapply knows_keeps; [apply Hk; lia|]. apply (i_rel _ _ HI). rewrite Hhi. exact Hj.
    + exists (b_store r b v). rewrite newest_store. split_and!; [done|done|exact Hcap| |done|].
      * unfold own_ok. cbn [m_own s']. split_and!; [done| |exact Hc]. rewrite newest_store. apply load_store_eq.
      * exists q. split_and!; [done|done|]. intros j x Hj. pose proof (lookup_lt_Some _ _ _ Hj). rewrite <- newest_store.
        change (m_top s') with (m_top s). rewrite load_newest, Hne, <- load_newest by lia. by apply Hv.
    + change (m_otop s') with (m_otop s). lia.
    + change (hi s') with b. lia.
  - (* 402 *)
    intros Hg. destruct Hg as (-> & _). destruct Hown as (-> & Hb & Hc).
    set (s' := set_own (OwPushBot v (bot_now s)) (set_rel (oview s) s)).
    assert (Hk : forall j, keeps s s' j). { intros j. apply keeps_same; [done|done|]. unfold hi. cbn. rewrite Eo. done. }
    apply (own_step s s' h _ []); try done.
    + by rewrite app_nil_r.
    + intros b' w Hin. by apply elem_of_nil in Hin.
    + cbn. lia.
    + intros b' w Hin. by apply elem_of_nil in Hin.
    + intros j Hj. eapply knows_keeps; [apply Hk|]. change (m_rel s') with (oview s).
      apply (oview_knows s h); [apply HI|]. rewrite Hhi. exact Hj.
    + exists r. split_and!; [done|done| | |done|by exists q; rewrite Hhi in Hl].
      * rewrite Hhi in Hcap. exact Hcap.
      * split_and!; [done|done|done|]. apply (known_same s); [done|done|]. by eapply known_oview.
    + change (m_otop s') with (m_otop s). lia.
    + change (hi s') with (bot_now s). lia.
  - (* 403 *)
    intros _. destruct Hown as (-> & Hb & Hc & Hkn). set (b := bot_now s) in *.
    set (s' := set_own (OwPushRet RUnit) (put_bot (b + 1) s)).
    assert (Hh' : hi s' = b + 1) by apply bot_now_put.
    assert (Hk : forall j, keeps s s' j). { intros j. apply keeps_same; [done|done|]. rewrite Hh', Hhi. cbn. lia. }
    assert (Hr' : forall j, m_top s <= j < b + 1 -> knows s' (m_rel s) j).
    { intros j Hj. destruct (decide (j = b)) as [->|E].
      - exists v. split; [|by apply (known_same s)]. exists r. rewrite Hh'. split_and!; [done|cbn; lia|lia|done].
      - eapply knows_keeps; [apply Hk|]. apply (i_rel _ _ HI). lia. }
    apply (own_step s s' h _ [(b + 1, m_rel s)]); try done.
    + intros b' w [= -> ->]%elem_of_list_singleton. done.
    + intros b' w [= -> ->]%elem_of_list_singleton j Hj Hj'. apply Hr'. lia.
    + rewrite Hh'. exact Hr'.
    + exists r. rewrite Hh'. split_and!; [done|done|cbn; lia|done| |].
      * exists v. by constructor.
      * exists (q ++ [v]). split_and!.
        -- econstructor; [done|constructor].
        -- rewrite app_length. cbn. lia.
        -- intros j x Hj. apply lookup_app_Some in Hj as [Hj|(Hge & Hj)]; [by apply Hv|].
           apply list_lookup_singleton_Some in Hj as (Hj0 & <-). cbn.
           by replace (m_top s + Z.of_nat j) with b by lia.
    + change (m_otop s') with (m_otop s). lia.
    + lia.
    + intros i p Hp. by constructor.
  - (* return of push *)
    intros _. quiet HI Eo. intros r0 q0 _ _ _ _ _ _ Hq0. split_and!; [done| |by constructor].
    destruct Htr as (v & Htr). unfold own_tr. cbn. by econstructor.
  - (* 414 *)
    intros _. subst b.
    set (s' := set_own (OwPopFence (bot_now s - 1)) (put_bot (bot_now s - 1) s)).
    assert (Hh' : hi s' = hi s) by (rewrite Hhi; unfold hi; cbn; lia).
    assert (Hk : forall j, keeps s s' j). { intros j. apply keeps_same; [done|done|]. rewrite Hh'. done. }
    assert (Hr' : forall j, m_top s <= j < hi s -> knows s' (m_rel s) j).
    { intros j Hj. eapply knows_keeps; [apply Hk|]. by apply (i_rel _ _ HI). }
    apply (own_step s s' h _ [(bot_now s - 1, m_rel s)]); try done.
    + intros b' w [= -> ->]%elem_of_list_singleton. done.
    + intros b' w [= -> ->]%elem_of_list_singleton j Hj Hj'. apply Hr'. lia.
    + rewrite Hh'. exact Hr'.
    + exists r. rewrite Hh'. split_and!; [done|done|done| |done|by exists q].
      unfold own_ok. cbn [m_own s' set_own]. symmetry. apply bot_now_put.
    + change (m_otop s') with (m_otop s). lia.
    + lia.
  - (* 416 *)
    intros (_ & -> & _). subst b. set (s' := set_own (OwPopTop (bot_now s)) (owner_sc s)).
    assert (Hh' : hi s' = hi s) by (rewrite Hhi; done).
    assert (Hk : forall j, keeps s s' j). { intros j. apply keeps_same; [done|done|]. rewrite Hh'. done. }
    assert (Hot : m_otop s' = Z.max (m_otop s) (v_top (m_sc s))) by done.
    apply (own_step s s' h _ []); try done.
    + by rewrite app_nil_r.
    + cbn. lia.
    + cbn. lia.
    + intros b' w Hin. by apply elem_of_nil in Hin.
    + cbn. lia.
    + intros b' w Hin. by apply elem_of_nil in Hin.
    + intros j Hj. rewrite Hh' in Hj. eapply knows_keeps; [apply Hk|]. cbn.
      eapply knows_further; [apply further_join_l|]. by apply (oview_knows s h); [apply HI|].
    + exists r. rewrite Hh'. split_and!; [done|done|lia| |done|by exists q].
      unfold own_ok. cbn [m_own s' set_own]. split_and!.
      * done.
      * cbn. lia.
      * rewrite Hot. change (m_top s') with (m_top s). pose proof (i_prev _ _ HI). lia.
      * intros i t Hw. left. rewrite Hot. change (m_thf s') with (m_thf s) in Hw. pose proof (i_thf _ _ HI i) as Hi. unfold thf_ok in Hi.
        destruct (m_thf s i); inversion Hw; subst; lia.
    + rewrite Hot. lia.
    + lia.
  - (* 418 *)
    destruct Hown as (-> & Hsc & Hpre & Hfi). set (b := bot_now s) in *.
    case_decide as Hn; [|done]. set (t := Z.of_nat n) in *. case_decide as Hle; [case_decide as Heq|].
    + (* the last item *)
      intros _. quiet HI Eo. intros r0 q0 _ _ _ _ _ _ Hq0. split_and!; [|done|done].
      unfold own_ok. cbn. split_and!; [done|done|lia|lia].
    + (* take *)
      assert (Hmb : m_top s <= b). { destruct (decide (m_top s = b + 1)); [|lia]. specialize (Hpre e). lia. }
      destruct (cur_item s h b) as (v & r0 & Hr0 & _ & Hb); [apply HI|lia|]. rewrite Hr in Hr0. injection Hr0 as <-.
      rewrite Hb. intros _. destruct (items_last s r q b v Hit Hmb Hhi Hb) as (q' & -> & Hlq).
      set (s' := set_own (OwPopRet b) (set_otop t s)).
      assert (Hh' : hi s' = b) by done.
      assert (Hlastm : forall m b' w, m_bot s !! m = Some (b', w) -> (v_bot (m_sc s) <= m)%nat -> b' = b).
      { intros m b' w Hm Hmle. pose proof (lookup_lt_Some _ _ _ Hm). assert (m = pred (length (m_bot s))) as -> by lia.
        unfold b, bot_now. by rewrite last_lookup, Hm. }
      assert (Hk : forall j, j < b -> keeps s s' j). { intros j Hj. apply keeps_same; [done|done|]. rewrite Hh'. cbn. lia. }
      constructor.
      * exists r. rewrite Hh'. split_and!; [done|done|cbn; lia| | |].
        -- unfold own_ok. cbn [m_own s' set_own]. split; [lia|]. by exists v.
        -- unfold own_tr, own_phase. cbn [m_own s' set_own]. rewrite Hb. by constructor.
        -- exists q'. split_and!; [econstructor; [done|constructor]|exact Hlq|]. intros j x Hj. apply Hv. by apply lookup_app_l_Some.
      * rewrite Hh'. cbn. lia.
      * cbn. pose proof (i_prev _ _ HI). lia.
      * intros j m b' w Hj Hm Hmle Hlt. pose proof (Hlastm _ _ _ Hm Hmle) as ->. eapply knows_keeps; [by apply Hk|].
        eapply (i_msgs _ _ HI); done.
      * rewrite Hh'. intros j Hj. eapply knows_keeps; [apply Hk; lia|]. apply (i_rel _ _ HI). cbn in Hj. lia.
      * intros i. apply (thf_mono s s' [] i (i_thf _ _ HI i)); try done.
        -- by rewrite app_nil_r.
        -- intros _ Hw. destruct (decide (m_top s < b)) as [Hlt|Hge]; [left; by apply Hk|]. right.
           destruct (Hfi i _ Hw) as [Hx|Hx]; [lia|]. split_and!; [done|done|]. fold b. lia.
        -- intros _ b' w Hin. by apply elem_of_nil in Hin.
      * done.
      * intros i. constructor; [done|apply HI].
    + (* empty *)
      intros _. assert (m_top s = b + 1) by lia. quiet HI Eo. intros r0 q0 _ _ _ _ _ Hit0 Hq0. split_and!.
      * unfold own_ok. cbn. done.
      * unfold own_tr. cbn. by constructor.
      * destruct Hit0 as (Hl0 & _). destruct q0; [|cbn in Hl0; lia]. econstructor; [done|constructor].
  - (* 424 *)
    destruct Hown as (-> & Hsc & Hb0). set (b := bot_now s) in *. case_decide as Heq.
    + destruct (cur_item s h b) as (v & r0 & Hr0 & _ & Hb); [apply HI|lia|]. rewrite Hr in Hr0. injection Hr0 as <-.
      rewrite Hb. intros _. destruct (items_last s r q b v Hit ltac:(lia) Hhi Hb) as (q' & -> & Hlq).
      destruct q' as [|]; [|cbn in Hlq; lia].
      set (s' := set_own (OwPopRestore b true) (set_otop (b + 1) (set_top (b + 1) s))).
      assert (Hh' : hi s' = b + 1) by done.
      constructor.
      * exists r. rewrite Hh'. split_and!; [done|done|cbn; pose proof (ring_cap_pos _ Hok) as Hp; cbn in Hp; lia| | |].
        -- unfold own_ok. cbn [m_own s' set_own]. split_and!; [done|done|]. intros _. split; [lia|]. by exists v.
        -- unfold own_tr, own_phase. cbn [m_own s' set_own]. rewrite Hb. by constructor.
        -- exists []. split_and!; [eapply contents_lin; [done|]; apply (seq_pop v [])|cbn; lia|done].
      * rewrite Hh'. cbn. lia.
      * cbn. lia.
      * intros j m b' w Hj Hm Hmle Hlt. exfalso. cbn in Hj, Hm, Hmle. pose proof (lookup_lt_Some _ _ _ Hm).
        assert (m = pred (length (m_bot s))) as -> by lia. assert (b' = b); [|lia].
        unfold b, bot_now. by rewrite last_lookup, Hm.
      * rewrite Hh'. cbn. intros. lia.
      * intros i. apply (thf_mono s s' [] i (i_thf _ _ HI i)); try done.
        -- cbn. lia.
        -- by rewrite app_nil_r.
        -- cbn. lia.
        -- cbn. lia.
      * cbn. split_and!; [lia| | |lia].
        -- intros i. specialize (T2 i). lia.
        -- intros b' w Hin. specialize (T3 b' w Hin). lia.
      * intros i. constructor; [done|apply HI].
    + intros _. assert (m_top s = b + 1) by lia. quiet HI Eo. intros r0 q0 _ _ _ _ _ Hit0 Hq0. split_and!.
      * unfold own_ok. cbn. done.
      * unfold own_tr. cbn. by constructor.
      * destruct Hit0 as (Hl0 & _). destruct q0; [|cbn in Hl0; lia]. econstructor; [done|constructor].
  - (* 426, 429, 435 *)
    intros _. destruct Hown as (-> & Htb & Hok'). set (b := bot_now s) in *.
    set (s' := set_own (if ok then OwPopRet b else OwPopNone) (put_bot (b + 1) s)).
    assert (Hh' : hi s' = b + 1) by (unfold hi; destruct ok; cbn [m_own s' set_own]; apply bot_now_put).
    assert (Hk : forall j, keeps s s' j). { intros j. apply keeps_same; [done|done|]. rewrite Hh', Hhi. cbn. lia. }
    apply (own_step s s' h _ [(b + 1, m_rel s)]); try done.
    + intros b' w [= -> ->]%elem_of_list_singleton. done.
    + intros b' w [= -> ->]%elem_of_list_singleton j Hj Hj'. lia.
    + rewrite Hh'. intros. lia.
    + exists r. rewrite Hh'. split_and!; [done|done|cbn; lia| | |].
      * unfold own_ok. destruct ok; cbn [m_own s' set_own]; [|done]. by apply Hok'.
      * unfold own_tr, own_phase. by destruct ok.
      * exists q. split_and!; [done|cbn; lia|done].
    + cbn. lia.
    + lia.
  - (* 433 *)
    destruct Hown as (Hb0 & v & Hb). rewrite decide_True, Hb by lia. intros _. rewrite Hb in Htr. quiet HI Eo.
    intros r0 q0 _ _ _ _ _ _ Hq0. split_and!; [done| |by constructor]. unfold own_tr. cbn. by econstructor.
  - (* 427, 436 *)
    intros _. quiet HI Eo. intros r0 q0 _ _ _ _ _ _ Hq0. split_and!; [done| |by constructor]. unfold own_tr. cbn. by econstructor.
Qed.

(** ** Steps of a thief *)

Lemma thf_frame s s' h tr i :
  inv s h ->
  m_bot s' = m_bot s -> m_bufs s' = m_bufs s -> m_cur s' = m_cur s -> m_otop s' = m_otop s -> m_rel s' = m_rel s -> m_own s' = m_own s ->
  m_top s <= m_top s' <= hi s -> v_top (m_sc s) <= v_top (m_sc s') <= m_top s' -> (v_bot (m_sc s) <= v_bot (m_sc s'))%nat ->
  (forall j, j <> i -> m_thf s' j = m_thf s j /\ m_view s' j = m_view s j) ->
  v_top (m_view s' i) <= m_top s' -> m_top s' - 1 <= Z.max (v_top (m_sc s')) (m_otop s) ->
  (forall b ok, m_own s = OwPopRestore b ok -> m_top s' = m_top s) ->
  (forall b, m_own s = OwPopTop b -> (m_top s' = b + 1 -> b <= m_otop s) /\
     forall t, wants (m_thf s' i) = Some t -> t <= m_otop s \/ (length (m_bot s) <= S (v_bot (m_view s' i)))%nat) ->
  thf_ok s' i -> in_phase (Some i) (rev tr ++ h) (thf_phase (m_thf s' i)) ->
  Forall (fun x => match x with ECall w' _ | ELin w' _ _ | ERet w' _ => w' = Some i end) tr ->
  (forall r q, last (m_bufs s) = Some r -> items_ok s r q -> contents h q -> exists q', contents (rev tr ++ h) q' /\ items_ok s' r q') ->
  inv s' (rev tr ++ h).
Proof.
  intros HI Eb Ef Ec Eot Er Eo Ht Hsct Hscb Hne Hvi Hprev Hrest Hptop Hi Hpi Htr Hcont.
  assert (Ebn : bot_now s' = bot_now s) by (unfold bot_now; by rewrite Eb).
  assert (Eh : hi s' = hi s) by (unfold hi; by rewrite Eo, Ebn).
  assert (Hk : forall j, m_top s' <= j -> keeps s s' j).
  { intros j Hj. apply keeps_same; [done|by rewrite Ec|]. rewrite Eh. lia. }
  pose proof (i_tops _ _ HI) as (T1 & T2 & T3 & T4). pose proof (i_top _ _ HI) as Htop.
  assert (Hoth : forall w, w <> Some i -> Forall (fun x : dev V => match x with ECall w' _ | ELin w' _ _ | ERet w' _ => w' <> w end) (rev tr)).
  { intros w Hw. apply Forall_rev. eapply Forall_impl; [exact Htr|]. intros [w' ?|w' ? ?|w' ?]; by intros ->. }
  constructor.
  - destruct (i_cur _ _ HI) as (r & Hr & Hok & Hcap & Hown & Htr0 & q & Hq & Hl & Hv).
    destruct (Hcont r q Hr (conj Hl Hv) Hq) as (q' & Hq' & Hl' & Hv').
    exists r. rewrite Ef, Eh, Eot. split_and!; [done|done|done| | |exists q'; split_and!; [done|by rewrite <- Eh|done]].
    + unfold own_ok in *. rewrite Eo, Ebn, Eot, Eb, Er. destruct (m_own s) as [|v b|v b t|v b t|v b|v b|v b|x|b|b|b|b|b ok|b|] eqn:E; try done.
      * destruct Hown as (H1 & H2 & H3 & H4). split_and!; [done|done|done|]. apply (known_same s); [done|by rewrite Ec|done].
      * destruct Hown as (H1 & H2 & H3 & H4). destruct (Hptop b eq_refl) as (H5 & H6). split_and!; [done|lia|done|].
        intros j t. destruct (decide (j = i)) as [->|Hj]; [apply H6|]. destruct (Hne j Hj) as (-> & ->). apply H4.
      * destruct Hown as (H1 & H2 & H3). split_and!; [done|lia|lia|lia].
      * by rewrite (Hrest b ok eq_refl).
    + unfold own_tr, own_phase in *. rewrite Eo. destruct (m_own s); try (apply in_phase_app_other; [exact Htr0|by apply Hoth]).
      destruct Htr0 as (v & Htr0). exists v. apply in_phase_app_other; [exact Htr0|by apply Hoth].
  - rewrite Eh, Eot. lia.
  - by rewrite Eot.
  - rewrite Eb. intros j m b w Hj Hm Hle Hlt. eapply knows_keeps; [by apply Hk|]. apply (i_msgs _ _ HI j m b w); [lia|done|lia|done].
  - rewrite Eh, Er. intros j Hj. eapply knows_keeps; [apply Hk; lia|]. apply (i_rel _ _ HI). lia.
  - intros j. destruct (decide (j = i)) as [->|Hj]; [done|]. destruct (Hne j Hj) as (E1 & E2).
    apply (thf_mono s s' [] j (i_thf _ _ HI j)); try done.
    + lia.
    + by rewrite app_nil_r.
    + lia.
    + by rewrite Ef.
    + intros E _. left. apply Hk. lia.
    + intros _ b' w Hin. by apply elem_of_nil in Hin.
  - rewrite Eb, Er. split_and!; [lia| | |lia].
    + intros j. destruct (decide (j = i)) as [->|Hj]; [done|]. destruct (Hne j Hj) as (_ & ->). specialize (T2 j). lia.
    + intros b w Hin. specialize (T3 b w Hin). lia.
  - intros j. destruct (decide (j = i)) as [->|Hj]; [done|]. destruct (Hne j Hj) as (-> & _).
    apply in_phase_app_other; [apply HI|]. apply Hoth. congruence.
Qed.

(** A step that changes nothing but the view and the program counter of the thief. *)
Lemma thf_local s h tr i v p :
  inv s h -> v_top v <= m_top s -> (v_bot (m_view s i) <= v_bot v)%nat ->
  (forall t, wants p = Some t -> wants (m_thf s i) = Some t) ->
  thf_ok (set_thf i v p s) i -> in_phase (Some i) (rev tr ++ h) (thf_phase p) ->
  Forall (fun x => match x with ECall w' _ | ELin w' _ _ | ERet w' _ => w' = Some i end) tr ->
  (forall q, contents h q -> contents (rev tr ++ h) q) ->
  inv (set_thf i v p s) (rev tr ++ h).
Proof.
  intros HI Hvt Hvb Hw Hok Hph Htr Hq. pose proof (i_top _ _ HI) as Htop. pose proof (i_tops _ _ HI) as (T1 & T2 & T3 & T4).
  eapply (thf_frame s _ h tr i HI); try done; cbn; rewrite ?decide_True by done.
  - lia.
  - intros j Hj. by rewrite !decide_False.
  - done.
  - apply HI.
  - intros b Eo. destruct (i_cur _ _ HI) as (r & _ & _ & _ & Hown & _). unfold own_ok in Hown. rewrite Eo in Hown.
    destruct Hown as (H1 & H2 & H3 & H4). split; [done|]. intros t Ht. destruct (H4 i t (Hw t Ht)) as [?|?]; [by left|right; lia].
  - done.
  - intros r q Hr Hit Hc. exists q. split; [by apply Hq|]. exact Hit.
Qed.

Lemma thf_ok_eq s i v p : thf_ok (set_thf i v p s) i =
  match p with
  | ThIdle | ThTop | ThRet _ => True
  | ThFence t => 0 <= t <= m_top s /\ t <= v_top v
  | ThBot t =>
    0 <= t <= m_top s /\ t <= v_top (m_sc s) /\
    (t = m_top s -> forall m b w, m_bot s !! m = Some (b, w) -> (v_bot v <= m)%nat -> t < b -> knows s w t)
  | ThBuf t =>
    0 <= t <= m_top s /\ t <= v_top (m_sc s) /\ (t = m_top s -> (exists b w, m_bot s !! v_bot v = Some (b, w) /\ t < b) /\ knows s v t)
  | ThSlot t c =>
    0 <= t <= m_top s /\ t <= v_top (m_sc s) /\ (t = m_top s -> (exists b w, m_bot s !! v_bot v = Some (b, w) /\ t < b) /\ knows s v t) /\
    (v_cur v <= c < length (m_bufs s))%nat
  | ThCas t x =>
    0 <= t <= m_top s /\ t <= v_top (m_sc s) /\
    (t = m_top s -> (exists b w, m_bot s !! v_bot v = Some (b, w) /\ t < b) /\ exists a, item s t a /\ x = Some a)
  end.
Proof. unfold thf_ok, saw. cbn. by rewrite !decide_True. Qed.

Lemma thief_ok o i n s h : inv s h -> keeps_inv o h (thief o i n s).
Proof.
  intros HI. pose proof (i_thf _ _ HI i) as Hi. pose proof (i_phs _ _ HI i) as Hp.
  pose proof (i_top _ _ HI) as Htop. pose proof (i_tops _ _ HI) as (T1 & T2 & T3 & T4). pose proof (T2 i) as Tv.
  unfold thief, keeps_inv. unfold thf_ok in Hi.
  destruct (m_thf s i) as [| |t|t|t|t c|t x|x] eqn:Et; cbn [thf_phase] in Hp.
  - intros _. apply thf_local; [done|done|done|done|by rewrite thf_ok_eq|by constructor|by repeat constructor|by constructor].
  - case_decide as Hn; [|done]. intros _.
    apply thf_local; [done|cbn; lia|done|done| |done|by constructor|done]. rewrite thf_ok_eq. cbn. lia.
  - destruct Hi as (H1 & H2).
    destruct (o_steal o) eqn:Eos; [|intros (_ & _ & Hg & _); congruence]. intros _.
    set (v' := v_join (m_view s i) (m_sc s)).
    assert (Hkn : t = m_top s -> forall m b w, m_bot s !! m = Some (b, w) -> (v_bot v' <= m)%nat -> t < b ->
      knows (set_sc v' s) w t).
    { intros -> m b w Hm Hle Hlt. eapply knows_keeps; [by apply (keeps_same s)|]. cbn in Hle. apply (i_msgs _ _ HI _ m b w); [done|done|lia|done]. }
    eapply (thf_frame s _ h [] i HI); try done; cbn; rewrite ?decide_True by done.
    + lia.
    + lia.
    + lia.
    + intros j Hj. by rewrite !decide_False.
    + cbn. lia.
    + pose proof (i_prev _ _ HI). lia.
    + intros b Eo. destruct (i_cur _ _ HI) as (r & _ & _ & _ & Hown & _). unfold own_ok in Hown. rewrite Eo in Hown.
      destruct Hown as (G1 & G2 & G3 & G4). split; [done|]. intros t' _. right. cbn. lia.
    + rewrite thf_ok_eq. cbn [m_top m_sc m_bot set_sc]. split_and!; [lia|lia|cbn; lia|exact Hkn].
    + exact Hp.
    + intros r q Hr Hit Hc. by exists q.
  - destruct Hi as (H1 & H2 & H3). destruct (m_bot s !! n) as [[b w]|] eqn:Em; [|done]. case_decide as Hle; [|done].
    set (v' := set_vbot n (if o_acq o then v_join (m_view s i) w else m_view s i)).
    assert (Hvt : v_top v' <= m_top s).
    { cbn. destruct (o_acq o); cbn; [|done]. specialize (T3 b w). rewrite elem_of_list_lookup in T3. specialize (T3 (ex_intro _ _ Em)). lia. }
    case_decide as Hb; intros Hg.
    + destruct Hg as (_ & _ & _ & Hg & _). cbn in v'.
      apply thf_local; [done|done|done|by intros ? [= ->]; rewrite Et| |done|by constructor|done].
      rewrite thf_ok_eq. split_and!; [lia|lia|done|]. intros E. split; [by exists b, w|].
      eapply knows_further; [|apply (H3 E n b w); done]. unfold v'. rewrite Hg. split; cbn; intros; lia.
    + apply thf_local; [done|done|done|done|by rewrite thf_ok_eq|by constructor|by repeat constructor|].
      intros q Hq. econstructor; [exact Hq|constructor].
  - destruct Hi as (H1 & H2 & H3). case_decide as Hn; [|done]. intros _.
    apply thf_local; [done|done|done|by intros ? [= ->]; rewrite Et| |done|by constructor|done].
    rewrite thf_ok_eq. split_and!; [lia|lia|done| |cbn; lia|lia]. intros E. destruct (H3 E) as (Hs & Hk). split; [done|].
    eapply knows_further; [|exact Hk]. split; cbn; intros; lia.
  - destruct Hi as (H1 & H2 & H3 & H4). destruct (lookup_lt_is_Some_2 (m_bufs s) c) as (r & Hr); [lia|]. rewrite Hr, decide_True by lia.
    case_decide as Hn; [|done]. intros _.
    apply thf_local; [done|done|done|by intros ? [= ->]; rewrite Et| |done|by constructor|done].
    rewrite thf_ok_eq. split_and!; [lia|lia|done|]. intros E. destruct (H3 E) as (Hs & a & Ha & Hk). split; [done|].
    exists a. split; [done|]. apply (Hk c r n); [done|lia|exact Hn].
  - destruct Hi as (H1 & H2 & H3). case_decide as Heq.
    + destruct (H3 (eq_sym Heq)) as ((b & w & Hb & Hlt) & a & Ha & ->). intros _. subst t.
      destruct Ha as (r & Hr & Hta & Hla).
      eapply (thf_frame s _ h [_] i HI); try done; cbn; rewrite ?decide_True by done.
      * lia.
      * lia.
      * intros j Hj. by rewrite !decide_False.
      * cbn. lia.
      * lia.
      * intros b' ok Eo. exfalso. destruct (i_cur _ _ HI) as (r' & _ & _ & _ & Hown & _). unfold own_ok in Hown. rewrite Eo in Hown.
        unfold hi in Hta. rewrite Eo in Hta. lia.
      * intros b' Eo. destruct (i_cur _ _ HI) as (r' & _ & _ & _ & Hown & _). unfold own_ok in Hown. rewrite Eo in Hown.
        destruct Hown as (G1 & G2 & G3 & G4). split; [|done]. intros E.
        destruct (G4 i (m_top s)) as [G5|G5]; [by rewrite Et|lia|]. exfalso.
        pose proof (lookup_lt_Some _ _ _ Hb). assert (Ev : v_bot (m_view s i) = pred (length (m_bot s))) by lia.
        rewrite Ev in Hb. assert (b = bot_now s); [|lia]. unfold bot_now. by rewrite last_lookup, Hb.
      * unfold thf_ok. cbn. by rewrite decide_True.
      * by constructor.
      * by repeat constructor.
      * intros r' q Hr' (Hl & Hv) Hq. rewrite Hr in Hr'. injection Hr' as <-.
        destruct q as [|a' q]; [cbn in Hl; lia|]. pose proof (Hv 0%nat a' eq_refl) as Ha'.
        replace (m_top s + Z.of_nat 0) with (m_top s) in Ha' by lia. rewrite Hla in Ha'. injection Ha' as <-.
        exists q. split; [econstructor; [exact Hq|constructor]|]. split.
        -- cbn in Hl. unfold hi in *. cbn. change (bot_now _) with (bot_now s). lia.
        -- intros j x Hj. specialize (Hv (S j) x Hj). cbn. by replace (m_top s + 1 + Z.of_nat j) with (m_top s + Z.of_nat (S j)) by lia.
    + intros _. apply thf_local; [done|done|done|done|by rewrite thf_ok_eq|by constructor|by repeat constructor|].
      intros q Hq. econstructor; [exact Hq|constructor].
  - intros _. apply thf_local; [done|done|done|done|by rewrite thf_ok_eq|by econstructor|by repeat constructor|by constructor].
Qed.

(** ** Executions *)

Lemma inv_init k : inv (vinit (2 ^ Z.of_nat k) : vm V) [].
Proof.
  constructor; try done.
  - exists (Buf (2 ^ Z.of_nat k) ∅). unfold hi, own_ok, own_tr, own_phase, bot_now. cbn. split_and!; try done.
    + by exists k.
    + pose proof (Z.pow_pos_nonneg 2 (Z.of_nat k)). lia.
    + constructor.
    + exists []. split_and!; [constructor|done|done].
  - intros j [|[|m]] b w Hj Hm Hle Hlt; cbn in *; [|done|done]. injection Hm as <- <-. lia.
  - unfold hi, bot_now. cbn. intros. lia.
  - cbn. split_and!; try done. intros b w [= -> ->]%elem_of_list_singleton. done.
  - intros i. constructor.
Qed.

Lemma bufs_step o l s s' tr : vstep_of o l s = VNext s' tr -> (length (m_bufs s) <= length (m_bufs s'))%nat.
Proof.
  destruct l as [op fail n|i n]; cbn [vstep_of].
  - unfold owner, with_cur. destruct (m_own s); repeat (case_match || case_decide); intros [= <- <-]; cbn; rewrite ?app_length, ?insert_length; try lia.
  - unfold thief. destruct (m_thf s i); repeat (case_match || case_decide); intros [= <- <-]; cbn; lia.
Qed.

Lemma bufs_pos o k s h : vreach o k s h -> (1 <= length (m_bufs s))%nat.
Proof. induction 1 as [|s h l s' tr Hr IH Hs]; [cbn; lia|]. pose proof (bufs_step _ _ _ _ _ Hs). lia. Qed.

Lemma good_back o k s h l s' tr : vreach o k s h -> vstep_of o l s = VNext s' tr -> good o s' -> good o s.
Proof.
  intros Hr Hs (H1 & H2 & H3 & H4 & H5). split_and!; try done. destruct H5 as [H5|H5]; [by left|right].
  pose proof (bufs_pos _ _ _ _ Hr). pose proof (bufs_step _ _ _ _ _ Hs). lia.
Qed.

Lemma step_keeps o l s h : inv s h -> keeps_inv o h (vstep_of o l s).
Proof. destruct l; [apply owner_ok|apply thief_ok]. Qed.

Theorem vreach_inv o k s h : vreach o k s h -> good o s -> inv s h.
Proof.
  induction 1 as [|s h l s' tr Hr IH Hs]; intros Hg; [apply inv_init|].
  specialize (IH (good_back _ _ _ _ _ _ _ Hr Hs Hg)). pose proof (step_keeps o l s h IH) as Hk. rewrite Hs in Hk. by apply Hk.
Qed.

Theorem vreach_defined o k s h l : vreach o k s h -> good o s -> vstep_of o l s <> VUndef.
Proof. intros Hr Hg E. pose proof (step_keeps o l s h (vreach_inv _ _ _ _ Hr Hg)) as Hk. by rewrite E in Hk. Qed.

(** ** Traces *)

Lemma vreach_allowed o k s h : vreach o k s h ->
  forall e, e ∈ h -> match e with ECall w op | ELin w op _ => allowed w op | ERet _ _ => True end.
Proof.
  induction 1 as [|s h a s' tr Hr IH Hs]; [set_solver|]. intros e He.
  apply elem_of_app in He as [He|He]; [|by apply IH].
  apply elem_of_list_In, in_rev, elem_of_list_In in He.
  destruct a as [op fail n|i n]; cbn [vstep_of] in Hs.
  - unfold owner, with_cur in Hs. repeat case_match; try done; injection Hs as <- <-; simplify_eq; set_solver.
  - unfold thief in Hs. repeat case_match; try done; injection Hs as <- <-; simplify_eq; set_solver.
Qed.

Lemma vstep_events o s (a : vlab V) s' tr : vstep_of o a s = VNext s' tr -> tr = [] \/ exists e, tr = [e].
Proof.
  destruct a as [op fail n|i n]; cbn [vstep_of]; intros Hs.
  - unfold owner, with_cur in Hs. repeat case_match; try done; injection Hs as <- <-; eauto.
  - unfold thief in Hs. repeat case_match; try done; injection Hs as <- <-; eauto.
Qed.

Lemma vreach_ev o k s h : vreach o k s h -> good o s -> forall h1 e h2, h = h1 ++ e :: h2 ->
  exists s0 a s1, vreach o k s0 h2 /\ good o s1 /\ vstep_of o a s0 = VNext s1 [e].
Proof.
  induction 1 as [|s h a s' tr Hr IH Hs]; intros Hp h1 e h2 E; [by destruct h1|].
  pose proof (good_back _ _ _ _ _ _ _ Hr Hs Hp) as Hp0.
  destruct (vstep_events _ _ _ _ _ Hs) as [->|(e' & ->)]; cbn in E.
  - by apply (IH Hp0 h1 e h2).
  - destruct h1 as [|e1 h1]; cbn in E; injection E as -> ->; [by exists s, a, s'|]. by apply (IH Hp0 h1 e h2).
Qed.

Lemma inv_contents s h : inv s h -> exists q, contents h q.
Proof. intros HI. destruct (i_cur _ _ HI) as (r & _ & _ & _ & _ & _ & q & Hq & _). eauto. Qed.

Lemma inv_phase s h : inv s h -> forall w, exists p, in_phase w h p.
Proof.
  intros HI [i|]; [eexists; apply (i_phs _ _ HI i)|]. destruct (i_cur _ _ HI) as (r & _ & _ & _ & _ & Htr & _).
  unfold own_tr in Htr. destruct (m_own s); eauto. destruct Htr; eauto.
Qed.

(** Running a schedule. *)
Fixpoint vrun (o : orders) (ls : list (vlab V)) s h : option (vm V * list (dev V)) :=
  match ls with
  | [] => Some (s, h)
  | l :: ls' => match vstep_of o l s with VNext s' tr => vrun o ls' s' (rev tr ++ h) | _ => None end
  end.
Lemma vrun_reach o k ls : forall s h, vreach o k s h ->
  match vrun o ls s h with Some (s', h') => vreach o k s' h' | None => True end.
Proof.
  induction ls as [|l ls IH]; intros s h Hr; [done|]. cbn [vrun]. destruct (vstep_of o l s) eqn:E; try done.
  apply IH. by econstructor.
Qed.

End proofs.
