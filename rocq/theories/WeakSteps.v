(** * The deque on a machine with store buffers: every step keeps the invariant. *)

From stdpp Require Import prelude gmap list.
From Coq Require Import ZArith Lia.
From Verif Require Import DequeModel DequeSpec DequeProofs WeakModel WeakSpec WeakProofs.
Local Open Scope Z_scope.

Section proofs.
Context {V : Type}.
Notation pending := (write V * bool)%type.
Notation mem := (Z * nat * list (ring V))%type.
Implicit Types (r : ring V) (s : deque V) (h : list (dev V)) (l : list pending) (m : mem) (x : wm V) (w : write V).

(** ** What the invariant says about memory *)

Lemma w_lens k x h : winv k x h -> length (x_bufs x) = length (d_bufs (x_view x)).
Proof. intros H. pose proof (stores_len (x_pend x) (x_bot x, x_cur x, x_bufs x)) as E. by rewrite (w_mem _ _ _ H) in E. Qed.
Lemma w_caps k x h c : winv k x h -> cap_in (x_bufs x) c = cap_in (d_bufs (x_view x)) c.
Proof. intros H. pose proof (stores_cap (x_pend x) (x_bot x, x_cur x, x_bufs x) c) as E. by rewrite (w_mem _ _ _ H) in E. Qed.
Lemma w_cur_le k x h : winv k x h -> (x_cur x <= d_cur (x_view x))%nat.
Proof.
  intros H. pose proof (chain_cur _ _ _ (x_bot x) (x_bufs x) (w_chain _ _ _ H)) as Hc.
  by rewrite (w_mem _ _ _ H) in Hc.
Qed.
Lemma w_mrings k x h : winv k x h -> Forall ring_ok (x_bufs x).
Proof.
  intros H. apply Forall_lookup. intros c r Hc. pose proof (w_caps k x h c H) as E. unfold cap_in in E. rewrite Hc in E.
  destruct (d_bufs (x_view x) !! c) as [r'|] eqn:E'.
  - pose proof (w_rings _ _ _ H) as Hr. rewrite Forall_lookup in Hr. destruct (Hr _ _ E') as (k' & Hk). exists k'. congruence.
  - apply lookup_lt_Some in Hc. rewrite (w_lens k x h H) in Hc. apply lookup_ge_None in E'. lia.
Qed.

(** ** A store reaches memory *)

Lemma commit_keeps k x h n x' tr : winv k x h -> commit n x = WNext x' tr -> winv k x' h /\ tr = [].
Proof.
  intros H. unfold commit. destruct (x_pend x !! n) as [[w f]|] eqn:En; [|done].
  destruct (may_commit _ _ _ _) eqn:Em; [|done].
  pose proof (take_drop_middle _ _ _ En) as Ep. set (l1 := take n (x_pend x)) in *. set (l2 := drop (S n) (x_pend x)) in *.
  assert (Ed : delete n (x_pend x) = l1 ++ l2) by apply delete_take_drop.
  assert (Hends : own_w (x_view x) (x_pend x) -> own_w (x_view x) (l1 ++ l2)).
  { assert (He : ends (x_pend x) -> ends (l1 ++ l2)).
    { rewrite <- Ep. intros [E|(l' & z & f' & E)]; [by destruct l1|].
      destruct l2 as [|y l2' _] using rev_ind.
      - apply app_inj_tail in E as (E1 & E2). injection E2 as -> ->. rewrite app_nil_r.
        rewrite <- Ep in *. pose proof (w_bots _ _ _ H) as Hb. rewrite <- Ep in Hb.
        left. by eapply commit_bot.
      - right. rewrite app_comm_cons, app_assoc in E. apply app_inj_tail in E as (E1 & ->).
        exists (l1 ++ l2'), z, f'. by rewrite app_assoc. }
    unfold own_w. destruct (d_own (x_view x)); try done; try (intros E; rewrite E in Ep; by destruct l1).
    intros (A & B). auto. }
  assert (Hcurs : forall c f, (WCur c, f) ∈ l1 ++ l2 -> f = true).
  { intros c f' Hin. eapply (w_curs _ _ _ H c). rewrite <- Ep. set_solver. }
  assert (Hslots : forall c j v f, (WSlot c j v, f) ∈ l1 ++ l2 -> (c < length (d_bufs (x_view x)))%nat).
  { intros c j v f' Hin. eapply (w_slots _ _ _ H c j v f'). rewrite <- Ep. set_solver. }
  pose proof (w_bots _ _ _ H) as Hb. rewrite <- Ep in Hb.
  pose proof (w_chain _ _ _ H) as Hc. rewrite <- Ep in Hc.
  pose proof (w_mem _ _ _ H) as Hm. rewrite <- Ep in Hm.
  pose proof (w_bot _ _ _ H) as Hs. rewrite <- Ep in Hs.
  pose proof (w_thf _ _ _ H) as Ht. rewrite <- Ep in Ht.
  destruct w as [z|c|c j v]; cbn [store].
  - (* m_bottom *)
    assert (El : l1 = []) by by eapply commit_bot. rewrite El in *. cbn [app] in *.
    intros [= <- <-]. split; [|done]. rewrite Ed. destruct Hc as (Hc1 & Hc2). destruct Hb as (_ & Hb).
    split; cbn [x_view x_bot x_cur x_bufs x_pend]; [apply H|done|done|done| |apply H|done|done|done|apply H|apply Hends, H].
    intros i t Hi. specialize (Ht i t Hi). by apply (sees_drop _ _ [] _ l2) in Ht.
  - (* m_buf *)
    assert (f = true) as ->. { eapply (w_curs _ _ _ H c). rewrite <- Ep. set_solver. }
    assert (El : l1 = []) by by destruct l1. rewrite El in *. cbn [app] in *.
    intros [= <- <-]. split; [|done]. rewrite Ed. destruct Hc as (Hc1 & Hc2).
    split; cbn [x_view x_bot x_cur x_bufs x_pend]; [apply H|done| |done| | | |done|done|apply H|apply Hends, H].
    + apply (sees_drop _ _ [] _ l2) in Hs; [|done]. eapply sees_le; [exact Hs|lia|lia].
    + intros i t Hi. specialize (Ht i t Hi). apply (sees_drop _ _ [] _ l2) in Ht; [|done]. eapply sees_le; [exact Ht|lia|lia].
    + intros i t b Hi. pose proof (w_held _ _ _ H i t b Hi). lia.
    + by apply bots_mono.
  - (* a slot *)
    intros [= <- <-]. split; [|done]. rewrite Ed.
    assert (Hsame : Forall (fun y : pending => same_loc (x_bufs x) y.1 (WSlot c j v) = false) l1).
    { destruct l1 as [|y l1']; [constructor|]. cbn [may_commit] in Em. apply andb_prop in Em as (_ & Em).
      eapply Forall_impl; [exact (proj1 (forallb_True _ _) (Is_true_eq_left _ Em))|].
      intros y' Hy'. cbn in Hy'. by destruct (same_loc _ _ _). }
    split; cbn [x_view x_bot x_cur x_bufs x_pend]; [apply H| | | | |apply H| |done|done|apply H|apply Hends, H].
    + rewrite stores_app in Hm |- *. cbn [stores fold_left fst] in Hm. rewrite <- Hm. f_equal.
      rewrite <- (stores_comm (WSlot c j v) l1 (x_bot x, x_cur x, x_bufs x)) by done. done.
    + by apply (sees_drop _ _ l1 _ l2) in Hs.
    + by eapply chain_drop_slot.
    + intros i t Hi. specialize (Ht i t Hi). by apply (sees_drop _ _ l1 _ l2) in Ht.
    + eapply bots_drop; [exact Hb|done].
Qed.

(** ** A thief's step *)

Lemma thief_frame k x h s' h' i :
  winv k x h -> inv k s' h' -> d_bot s' = d_bot (x_view x) -> d_bufs s' = d_bufs (x_view x) ->
  d_cur s' = d_cur (x_view x) -> d_own s' = d_own (x_view x) -> d_top (x_view x) <= d_top s' ->
  (forall j, j <> i -> d_thf s' j = d_thf (x_view x) j) ->
  (forall t, d_thf s' i = TBuf t \/ (exists b, d_thf s' i = TSlot t b) -> sees (x_view x) (x_cur x) (x_pend x) (t + 1)) ->
  (forall t b, d_thf s' i = TSlot t b -> (b <= x_cur x)%nat) ->
  winv k (WM s' (x_bot x) (x_cur x) (x_bufs x) (x_pend x)) h'.
Proof.
  intros H Hinv Eb Ef Ec Eo Ht Hne Hs Hh.
  assert (Ehi : hi s' = hi (x_view x)) by (unfold hi; by rewrite Eo, Eb).
  assert (HS : forall c0 z l, sees (x_view x) c0 l z -> sees s' c0 l z).
  { intros c0 z l Hl. eapply sees_mono; [exact Hl|done|done|done|]. rewrite Ehi. done. }
  split; cbn [x_view x_bot x_cur x_bufs x_pend]; try apply H.
  - done.
  - rewrite (w_mem _ _ _ H). congruence.
  - apply HS, H.
  - eapply chain_mono; [apply H|done|done].
  - intros j t Hj. apply HS. destruct (decide (j = i)) as [->|E]; [by apply Hs|]. rewrite Hne in Hj by done. by apply (w_thf _ _ _ H j).
  - intros j t b Hj. destruct (decide (j = i)) as [->|E]; [by eapply Hh|]. rewrite Hne in Hj by done. by eapply (w_held _ _ _ H j).
  - rewrite Ef. apply H.
  - rewrite Ef. apply H.
  - unfold own_w. rewrite Eo. apply H.
Qed.

Lemma deque_eta s : Deque (d_top s) (d_bot s) (d_bufs s) (d_cur s) (d_own s) (d_thf s) = s.
Proof. by destruct s. Qed.

Lemma thief_keeps k x h i : winv k x h -> exists x' tr, thief_w i x = WNext x' tr /\ winv k x' (rev tr ++ h).
Proof.
  intros H. pose proof (w_inv _ _ _ H) as HI.
  destruct (thief_ok k (x_view x) h i HI) as (s0 & tr0 & Hs0 & HI0).
  pose proof HI as [(r & Hr & Hok & Hcap & Hsz & Hown & Htr & Hthf & q & Hq & Hlen & Hval) Htop Hcur Hph].
  pose proof (Hthf i) as Hi. pose proof (Hph i) as Hpi.
  unfold thief_w. unfold thief, memory in *. cbn [d_thf d_top d_bot d_bufs d_cur d_own] in *.
  unfold thf_ok in Hi. destruct (d_thf (x_view x) i) as [| |t|t|t b|t v|v] eqn:Et; cbn [thf_phase] in Hpi.
  - injection Hs0 as <- <-. eexists _, _; split; [reflexivity|].
    eapply (thief_frame k x h _ _ i H HI0); try done; cbn.
    + intros j Hj. by rewrite decide_False.
    + rewrite decide_True by done. by intros ? [|(? & ?)].
    + by rewrite decide_True.
  - injection Hs0 as <- <-. eexists _, _; split; [reflexivity|].
    eapply (thief_frame k x h _ _ i H HI0); try done; cbn.
    + intros j Hj. by rewrite decide_False.
    + rewrite decide_True by done. by intros ? [|(? & ?)].
    + by rewrite decide_True.
  - clear Hs0 HI0. case_decide as Hb; (eexists _, _; split; [reflexivity|]).
    + eapply (thief_frame k x h (set_thf i (TBuf t) (x_view x)) _ i H); try done; cbn.
      * eapply (thief_local k (x_view x) h r q i _ []); try done.
        unfold thf_ok. rewrite thf_set_eq. cbn. destruct Hi as [H1 H2]. split_and!; [lia|lia|done|].
        intros E. destruct (w_bot _ _ _ H t) as (Hh & _); [lia|]. exact Hh.
      * intros j Hj. by rewrite decide_False.
      * rewrite decide_True by done. intros t' [[= <-]|(? & ?)]; [|done].
        eapply sees_le; [apply (w_bot _ _ _ H)|done|lia].
      * by rewrite decide_True.
    + eapply (thief_frame k x h (set_thf i (TRet REmpty) (x_view x)) _ i H); try done; cbn.
      * eapply (thief_local k (x_view x) h r q i _ [_]); try done.
        -- econstructor; [done|constructor].
        -- by apply Forall_singleton.
        -- by constructor.
        -- unfold thf_ok. by rewrite thf_set_eq.
      * intros j Hj. by rewrite decide_False.
      * rewrite decide_True by done. by intros ? [|(? & ?)].
      * by rewrite decide_True.
  - clear Hs0 HI0. eexists _, _; split; [reflexivity|].
    pose proof (w_thf _ _ _ H i t (or_introl Et)) as Hs. pose proof (w_cur_le _ _ _ H) as Hc.
    eapply (thief_frame k x h (set_thf i (TSlot t (x_cur x)) (x_view x)) _ i H); try done; cbn.
    + eapply (thief_local k (x_view x) h r q i _ []); try done.
      unfold thf_ok. rewrite thf_set_eq. cbn. destruct Hi as (H1 & H2 & H3). split_and!; [lia|lia|done|].
      destruct (lookup_lt_is_Some_2 (d_bufs (x_view x)) (x_cur x)) as (r' & Hr'); [lia|]. exists r'. split; [done|].
      intros E. split; [by apply H3|]. destruct (Hs t) as (_ & HB & _); [lia|].
      specialize (HB (x_cur x) ltac:(lia)). unfold load_in in HB. by rewrite Hr', Hr in HB.
    + intros j Hj. by rewrite decide_False.
    + rewrite decide_True by done. intros t' [|(? & [= <- _])]; done.
    + rewrite decide_True by done. intros t' b [= _ <-]. done.
  - clear Hs0 HI0. destruct Hi as (H1 & H2 & rb & Hrb & H3).
    pose proof (w_thf _ _ _ H i t (or_intror (ex_intro _ b Et))) as Hs. pose proof (w_held _ _ _ H i t b Et) as Hc.
    destruct (lookup_lt_is_Some_2 (x_bufs x) b) as (rm & Hrm).
    { rewrite (w_lens _ _ _ H). by eapply lookup_lt_Some. }
    rewrite Hrm, decide_True by lia. eexists _, _; split; [reflexivity|].
    eapply (thief_frame k x h (set_thf i (TCas t (r_load rm t)) (x_view x)) _ i H); try done; cbn.
    + eapply (thief_local k (x_view x) h r q i _ []); try done.
      unfold thf_ok. rewrite thf_set_eq. cbn. split_and!; [lia|lia|done|]. intros E.
      destruct (H3 E) as (H4 & H5). split; [done|]. rewrite <- H5.
      destruct (Hs t) as (_ & _ & HO); [lia|].
      pose proof (spared (x_pend x) (x_bot x) (x_cur x) (x_bufs x) (x_view x) b t (w_mrings _ _ _ H)
        (fun c => w_caps k x h c H)) as HL. rewrite (w_mem _ _ _ H) in HL. unfold load_in in HL. cbn in HL.
      rewrite Hrm, Hrb in HL. symmetry. apply HL; [|done].
      intros f Hf. pose proof (chain_gt _ _ _ _ _ (w_chain _ _ _ H) Hf). lia.
    + intros j Hj. by rewrite decide_False.
    + rewrite decide_True by done. by intros ? [|(? & ?)].
    + by rewrite decide_True.
  - case_decide as E.
    + destruct v as [v|]; [|done]. injection Hs0 as <- <-. eexists _, _; split; [reflexivity|].
      eapply (thief_frame k x h _ _ i H HI0); try done; cbn.
      * lia.
      * intros j Hj. by rewrite decide_False.
      * rewrite decide_True by done. by intros ? [|(? & ?)].
      * by rewrite decide_True.
    + injection Hs0 as <- <-. eexists _, _; split; [reflexivity|].
      eapply (thief_frame k x h _ _ i H HI0); try done; cbn.
      * intros j Hj. by rewrite decide_False.
      * rewrite decide_True by done. by intros ? [|(? & ?)].
      * by rewrite decide_True.
  - injection Hs0 as <- <-. eexists _, _; split; [reflexivity|].
    eapply (thief_frame k x h _ _ i H HI0); try done; cbn.
    + intros j Hj. by rewrite decide_False.
    + rewrite decide_True by done. by intros ? [|(? & ?)].
    + by rewrite decide_True.
Qed.

(** ** A step of the owner *)

Lemma owner_frame k x h s' h' alloc new :
  winv k x h -> inv k s' h' -> d_thf s' = d_thf (x_view x) ->
  (forall c0 l z, (c0 <= d_cur (x_view x))%nat -> sees (x_view x) c0 l z -> sees s' c0 (l ++ new) z) ->
  (d_cur (x_view x) <= d_cur s')%nat ->
  stores new (d_bot (x_view x), d_cur (x_view x), d_bufs (x_view x) ++ alloc) = (d_bot s', d_cur s', d_bufs s') ->
  chain s' (d_cur (x_view x)) new ->
  bots true (x_pend x ++ new) -> (forall c f, (WCur c, f) ∈ new -> f = true) ->
  (forall c j v f, (WSlot c j v, f) ∈ new -> (c < length (d_bufs s'))%nat) ->
  Forall ring_ok (d_bufs s') -> own_w s' (x_pend x ++ new) ->
  winv k (WM s' (x_bot x) (x_cur x) (x_bufs x ++ alloc) (x_pend x ++ new)) h'.
Proof.
  intros H Hinv Et HS Hc Hm Hch Hb Hcurs Hsl Hrings Hown. pose proof (w_cur_le _ _ _ H) as Hle.
  split; cbn [x_view x_bot x_cur x_bufs x_pend]; try done.
  - rewrite stores_app, <- Hm. f_equal.
    assert (HA : forall l b c bufs, (forall c' j v f, (WSlot c' j v, f) ∈ l -> (c' < length bufs)%nat) ->
      stores l (b, c, bufs ++ alloc) = let '(b', c', bufs') := stores l (b, c, bufs) in (b', c', bufs' ++ alloc)).
    { intros l. induction l as [|[[z|c0|c0 j v] f] l IH]; intros b c bufs Hl; [done|..]; cbn [stores fold_left fst store].
      - apply IH. intros c' j v f' Hin. eapply Hl. by right.
      - apply IH. intros c' j v f' Hin. eapply Hl. by right.
      - rewrite alter_app_l by (eapply Hl; by left). apply IH. intros c' j' v' f' Hin. rewrite alter_length. eapply Hl. by right. }
    rewrite HA.
    + by rewrite (w_mem _ _ _ H).
    + intros c' j v f Hin. rewrite (w_lens _ _ _ H). by eapply (w_slots _ _ _ H).
  - apply HS; [done|apply H].
  - eapply chain_app; [apply H|done|exact HS|done| |done].
    erewrite (w_mem _ _ _ H). done.
  - intros i t. rewrite Et. intros Hi. apply HS; [done|]. by apply (w_thf _ _ _ H i).
  - rewrite Et. apply H.
  - intros c f [Hin|Hin]%elem_of_app; [by eapply (w_curs _ _ _ H)|by eapply Hcurs].
  - intros c j v f [Hin|Hin]%elem_of_app; [|by eapply Hsl]. pose proof (w_slots _ _ _ H _ _ _ _ Hin).
    pose proof (i_cur _ _ _ Hinv). pose proof (i_cur _ _ _ (w_inv _ _ _ H)). lia.
Qed.

Lemma quiet_frame k x h s' h' :
  winv k x h -> inv k s' h' -> d_thf s' = d_thf (x_view x) -> d_bot s' = d_bot (x_view x) ->
  d_bufs s' = d_bufs (x_view x) -> d_cur s' = d_cur (x_view x) -> d_top (x_view x) <= d_top s' ->
  (hi (x_view x) <= hi s' \/ x_pend x = [] /\ d_bot s' <= hi s') ->
  (forall t, d_top s' = t -> t < hi (x_view x) -> t < hi s') ->
  own_w s' (x_pend x) ->
  winv k (WM s' (x_bot x) (x_cur x) (x_bufs x ++ []) (x_pend x ++ [])) h'.
Proof.
  intros H Hinv Et Eb Ef Ec Ht Hh Hh1 Hown. rewrite !app_nil_r.
  destruct (decide (hi (x_view x) <= hi s')) as [Hle|Hgt].
  - rewrite <- (app_nil_r (x_bufs x)), <- (app_nil_r (x_pend x)).
    eapply owner_frame; try done; rewrite ?app_nil_r; rewrite ?Ef, ?Ec, ?Eb; try apply H; try done.
    + intros c0 l z _ Hs. rewrite app_nil_r. eapply sees_mono; [exact Hs|done|done|done|]. intros; lia.
    + by intros ?? ?%elem_of_nil.
    + by intros ???? ?%elem_of_nil.
  - destruct Hh as [?|(Hp & Hb)]; [done|]. pose proof (w_mem _ _ _ H) as Hm. rewrite Hp in Hm. cbn in Hm. injection Hm as E1 E2 E3.
    split; cbn [x_view x_bot x_cur x_bufs x_pend]; rewrite ?Hp, ?Et, ?Eb, ?Ef, ?Ec; cbn; try done; try (by rewrite ?E1, ?E2, ?E3); try apply H.
    + intros p Hp'. split_and!; [lia| |done]. intros c Hc. f_equal. lia.
    + intros i t Hi p Hp'. split_and!; [|intros c Hc; f_equal; lia|done].
      pose proof (w_thf _ _ _ H i t Hi p) as Hs. destruct Hs as (Hs & _); [lia|].
      assert (t <= d_top (x_view x)).
      { destruct (i_ring _ _ _ (w_inv _ _ _ H)) as (r & _ & _ & _ & _ & _ & _ & Hthf & _).
        specialize (Hthf i). unfold thf_ok in Hthf. destruct Hi as [Hi|(b & Hi)]; rewrite Hi in Hthf; tauto || lia. }
      apply (Hh1 p); [lia|done].
    + by intros ?? ?%elem_of_nil.
    + by intros ???? ?%elem_of_nil.
    + by rewrite Hp in Hown.
Qed.

Lemma owner_keeps p k x h op fail : p_fence p = true ->
  (p_tso p || p_rel p = true \/ forall v b t r, d_own (x_view x) <> OPushPub v b t r) ->
  winv k x h -> waits p x = false ->
  exists x' tr, owner_w p op fail x = WNext x' tr /\ winv k x' (rev tr ++ h).
Proof.
  intros Hp1 Hp2 H Hw. pose proof (w_inv _ _ _ H) as HI.
  destruct (owner_ok k (x_view x) h op fail HI) as (s' & tr & Hs' & HI').
  unfold owner_w. rewrite Hw, Hs'. eexists _, _; split; [reflexivity|].
  pose proof HI as [(r & Hr & Hok & Hcap & Hsz & Hown & _ & _ & _) Htop Hcur _].
  pose proof (w_own _ _ _ H) as Hwo. pose proof (w_rings _ _ _ H) as Hrings.
  unfold own_ok in Hown. unfold own_w in Hwo. unfold waits in Hw. unfold owner, with_cur in Hs'. rewrite Hr in Hs'.
  unfold allocated, issued.
  destruct (d_own (x_view x)) as [|v b|v b t|v b t rn|v b t|v b|u|b|b|b t|b ok|b|] eqn:Eo.
  - destruct op; injection Hs' as <- <-.
    + eapply quiet_frame; try done; try lia; unfold hi, own_w; cbn; rewrite ?Eo; try done; lia.
    + eapply quiet_frame; try done; try lia; unfold hi, own_w; cbn; rewrite ?Eo; try done; lia.
  - injection Hs' as <- <-.
    eapply quiet_frame; try done; try lia; unfold hi, own_w; cbn; rewrite ?Eo; try done; lia.
  - case_decide as Hc; [destruct fail; [|case_decide as Htb; [|done]]|]; injection Hs' as <- <-.
    + eapply quiet_frame; try done; try lia; unfold hi, own_w; cbn; rewrite ?Eo; try done; lia.
    + eapply quiet_frame; try done; try lia; unfold hi, own_w; cbn; rewrite ?Eo; try done; try lia.
      split; [done|]. exists r. split_and!; try done; lia.
    + eapply quiet_frame; try done; try lia; unfold hi, own_w; cbn; rewrite ?Eo; try done; lia.
  - (* publish *)
    assert (Hrel : p_tso p || p_rel p = true) by (destruct Hp2 as [Hp2|Hp2]; [done|by destruct (Hp2 v b t rn)]).
    injection Hs' as <- <-. destruct Hown as (Hb & Ht & Hrn & Hrc & Hbt & Hrl). destruct Hwo as (Hends & r0 & -> & Hr0 & Htb & Hbr0).
    destruct (resize_spec r0 b t Hr0 Htb Hbr0) as (_ & Hc0 & Hl0).
    eapply owner_frame; try done; cbn [d_bot d_cur d_bufs d_thf d_top d_own set_own set_cur set_bufs].
    + intros c0 l z Hc Hs q Hq. cbn in Hq |- *. unfold hi in *. cbn in *. rewrite Eo in *.
      destruct (Hs q) as (A & B & C); [done|]. unfold hi in A. rewrite Eo in A.
      assert (Hnew : load_in (d_bufs (x_view x) ++ [resize r0 b t]) (length (d_bufs (x_view x))) q = r_load r q).
      { unfold load_in. rewrite lookup_app_r, Nat.sub_diag by lia. cbn. apply Hrl. lia. }
      split_and!; [done| |].
      * intros c Hc'. rewrite Hnew. destruct (decide (c = length (d_bufs (x_view x)))) as [->|Hne]; [done|].
        specialize (B c ltac:(lia)). unfold load_in in *. rewrite lookup_app_l by lia. by rewrite B, Hr.
      * apply okl_app.
        -- eapply okl_caps; [|exact C]. unfold cap_in. intros c Hc'. destruct (d_bufs (x_view x) !! c) eqn:E; [|lia].
           by rewrite (lookup_app_l_Some _ _ _ _ E).
        -- assert (HA : forall L, (forall w, w ∈ L -> exists j v, w = WSlot (length (d_bufs (x_view x))) j v /\ t <= j < b) ->
             okl (cap_in (d_bufs (x_view x) ++ [resize r0 b t])) q
               (map (fun w => (w, p_tso p)) L ++ [(WCur (length (d_bufs (x_view x))), p_tso p || p_rel p)])).
           { intros L. induction L as [|w L IH]; intros HL; cbn [map app okl]; [done|].
             destruct (HL w) as (j & v' & -> & Hj); [by left|]. split; [|apply IH; intros w Hin; apply HL; by right].
             unfold cap_in. rewrite lookup_app_r, Nat.sub_diag by lia. cbn. split_and!; [lia|lia|].
             right. exists (p_tso p || p_rel p). apply elem_of_app. right. by left. }
           apply HA. intros w Hin. apply copies_in in Hin as (j & v' & -> & Hj). exists j, v'. split; [done|lia].
    + lia.
    + rewrite stores_app. rewrite (copies_load _ _ _ (resize r0 b t) r0) by (intros j Hj; apply Hl0; lia).
      rewrite Hc0, copies_stores. done.
    + assert (HA : forall L, (forall w, w ∈ L -> exists j v, w = WSlot (length (d_bufs (x_view x))) j v /\ t <= j < b) ->
             chain (set_own (OPushStore v b t) (set_cur (length (d_bufs (x_view x))) (set_bufs (d_bufs (x_view x) ++ [resize r0 b t]) (x_view x)))) (d_cur (x_view x))
               (map (fun w => (w, p_tso p)) L ++ [(WCur (length (d_bufs (x_view x))), p_tso p || p_rel p)])).
      { intros L. induction L as [|w L IH]; intros HL; cbn [map app chain]; [cbn; split; [lia|done]|].
        destruct (HL w) as (j & v' & -> & Hj); [by left|]. apply IH; intros w Hin; apply HL; by right. }
      apply HA. intros w Hin. apply copies_in in Hin as (j & v' & -> & Hj). exists j, v'. split; [done|lia].
    + apply bots_nobot; [apply H|]. intros y [Hy|Hy]%elem_of_app.
      * apply elem_of_list_fmap in Hy as (w & -> & Hin). apply copies_in in Hin as (j & v' & -> & Hj). done.
      * apply elem_of_list_singleton in Hy as ->. done.
    + intros c f [Hy|Hy]%elem_of_app.
      * apply elem_of_list_fmap in Hy as (w & [= <- _] & Hin). apply copies_in in Hin as (j & v' & ? & Hj). done.
      * apply elem_of_list_singleton in Hy as [= -> ->]. done.
    + rewrite app_length. cbn. intros c j v' f [Hy|Hy]%elem_of_app.
      * apply elem_of_list_fmap in Hy as (w & [= <- _] & Hin). apply copies_in in Hin as (j' & v'' & [= -> -> ->] & Hj). lia.
      * by apply elem_of_list_singleton in Hy.
    + apply Forall_app; split; [done|by apply Forall_singleton].
  - (* store *)
    destruct Hown as (Hb & Ht & Hbt). case_decide; [|done]. injection Hs' as <- <-.
    eapply owner_frame; try done; cbn [d_bot d_cur d_bufs d_thf d_top d_own set_own set_cur set_bufs].
    + intros c0 l z Hc Hs q Hq. cbn in Hq |- *. unfold hi in *. cbn in *. rewrite Eo in *.
      destruct (Hs q) as (A & B & C); [done|]. unfold hi in A. rewrite Eo in A.
      assert (Hcaps : forall c, cap_in (<[d_cur (x_view x):=r_store r b v]> (d_bufs (x_view x))) c = cap_in (d_bufs (x_view x)) c).
      { intros c. unfold cap_in. destruct (decide (d_cur (x_view x) = c)) as [<-|Hne].
        - rewrite list_lookup_insert by lia. by rewrite Hr.
        - by rewrite list_lookup_insert_ne. }
      assert (Hld : forall c, load_in (<[d_cur (x_view x):=r_store r b v]> (d_bufs (x_view x))) c q = load_in (d_bufs (x_view x)) c q).
      { intros c. unfold load_in. destruct (decide (d_cur (x_view x) = c)) as [<-|Hne].
        - rewrite list_lookup_insert by lia. rewrite Hr. apply load_store_ne; [done|lia|lia].
        - by rewrite list_lookup_insert_ne. }
      split_and!; [done| |].
      * intros c Hc'. rewrite !Hld. by apply B.
      * apply okl_app.
        -- eapply okl_caps; [|exact C]. auto.
        -- cbn. rewrite Hcaps. unfold cap_in. rewrite Hr. split; [|done]. split_and!; [lia|lia|left; lia].
    + cbn. rewrite app_nil_r. f_equal. apply list_eq. intros c. destruct (decide (d_cur (x_view x) = c)) as [<-|Hne].
      * rewrite list_lookup_alter, Hr, list_lookup_insert by lia. done.
      * by rewrite list_lookup_alter_ne, list_lookup_insert_ne.
    + apply bots_nobot; [apply H|]. intros y Hy. apply elem_of_list_singleton in Hy as ->. done.
    + intros c f Hy. by apply elem_of_list_singleton in Hy.
    + rewrite insert_length. intros c j v' f Hy. apply elem_of_list_singleton in Hy as [= -> -> -> ->]. lia.
    + apply Forall_insert; [done|]. done.
  - (* bottom *)
    destruct Hown as (Hb & Hv & Hbt). injection Hs' as <- <-.
    eapply owner_frame; try done; cbn [d_bot d_cur d_bufs d_thf d_top d_own set_own set_bot]; rewrite ?app_nil_r; try done.
    + intros c0 l z Hc Hs q Hq. cbn in Hq |- *. destruct (Hs q) as (A & B & C); [done|]. unfold hi in *. cbn. rewrite Eo in A.
      split_and!; [lia|done|]. by apply okl_app.
    + cbn. split; [|done]. intros q Hq. unfold hi. cbn in *. split_and!; [lia| |done]. intros c Hc. f_equal. lia.
    + apply bots_snoc_fenced, H.
    + intros c f Hy. by apply elem_of_list_singleton in Hy.
    + intros c j v' f Hy. by apply elem_of_list_singleton in Hy.
    + right. eauto.
  - injection Hs' as <- <-.
    eapply quiet_frame; try done; try lia; unfold hi, own_w; cbn; rewrite ?Eo; try done; lia.
  - (* pop: bottom *)
    subst b. injection Hs' as <- <-.
    eapply owner_frame; try done; cbn [d_bot d_cur d_bufs d_thf d_top d_own set_own set_bot]; rewrite ?app_nil_r; try done.
    + intros c0 l z Hc Hs q Hq. cbn in Hq |- *. destruct (Hs q) as (A & B & C); [done|]. unfold hi in *. cbn. rewrite Eo in A.
      split_and!; [lia|done|]. by apply okl_app.
    + cbn. split; [|done]. intros q Hq. unfold hi. cbn in *. split_and!; [lia| |done]. intros c Hc. f_equal. lia.
    + apply bots_ends; [done|apply H].
    + intros c f Hy. by apply elem_of_list_singleton in Hy.
    + intros c j v' f Hy. by apply elem_of_list_singleton in Hy.
    + right. eauto.
  - (* pop: top *)
    subst b. rewrite Hp1 in Hw. cbn in Hw. apply negb_false_iff, bool_decide_eq_true in Hw. apply nil_length_inv in Hw.
    case_decide as Hle; [case_decide as Heq|].
    + injection Hs' as <- <-.
      eapply quiet_frame; try done; try lia; unfold hi, own_w; cbn; rewrite ?Eo; try done; lia.
    + destruct (r_load r _); [|done]. injection Hs' as <- <-.
      eapply quiet_frame; try done; try lia; unfold hi, own_w; cbn; rewrite ?Eo; try done; try lia.
      right. split; [done|lia].
    + injection Hs' as <- <-.
      eapply quiet_frame; try done; try lia; unfold hi, own_w; cbn; rewrite ?Eo; try done; lia.
  - (* pop: cas *)
    destruct Hown as (-> & -> & Ht). case_decide as Heq.
    + destruct (r_load r _); [|done]. injection Hs' as <- <-.
      eapply quiet_frame; try done; try lia; unfold hi, own_w; cbn; rewrite ?Eo; try done; lia.
    + injection Hs' as <- <-.
      eapply quiet_frame; try done; try lia; unfold hi, own_w; cbn; rewrite ?Eo; try done; lia.
  - (* pop: restore *)
    destruct Hown as (-> & Ht & Hv). injection Hs' as <- <-. subst.
    eapply owner_frame; try done; cbn [d_bot d_cur d_bufs d_thf d_top d_own set_own set_bot]; rewrite ?app_nil_r; try done.
    + intros c0 l z Hc Hs q Hq. cbn in Hq |- *. destruct (Hs q) as (A & B & C); [done|]. unfold hi in *. cbn. rewrite Eo in A. destruct ok; lia.
    + cbn. split; [|done]. intros q Hq. cbn in *. lia.
    + rewrite Hwo. cbn. auto.
    + intros c f Hy. by apply elem_of_list_singleton in Hy.
    + intros c j v' f Hy. by apply elem_of_list_singleton in Hy.
    + unfold own_w. cbn. rewrite Hwo. destruct ok; right; exists []; eauto.
  - destruct (decide (0 <= b)); [|done]. destruct (r_load r b); [|done]. injection Hs' as <- <-.
    eapply quiet_frame; try done; try lia; unfold hi, own_w; cbn; rewrite ?Eo; try done; lia.
  - injection Hs' as <- <-.
    eapply quiet_frame; try done; try lia; unfold hi, own_w; cbn; rewrite ?Eo; try done; lia.
Qed.

(** The stores into a new ring buffer reach memory before the store of its address, or there is no new ring buffer. *)
Definition sound (p : policy) x : Prop :=
  p_fence p = true /\ (p_tso p || p_rel p = true \/ length (d_bufs (x_view x)) = 1%nat).

Theorem wstep_defined p k x h (a : wlab V) : winv k x h -> wstep_of p a x <> WUndef.
Proof.
  intros H. destruct a as [op fail|i|n]; cbn [wstep_of].
  - unfold owner_w. destruct (waits p x); [done|].
    by destruct (owner_ok k (x_view x) h op fail (w_inv _ _ _ H)) as (s' & tr & -> & _).
  - by destruct (thief_keeps k x h i H) as (x' & tr & -> & H').
  - unfold commit. destruct (x_pend x !! n) as [[w f]|]; [|done]. destruct (may_commit _ _ _ _); [|done].
    by destruct (store _ _) as [[b c] bufs].
Qed.

Lemma wstep_bufs p x (a : wlab V) x' tr : wstep_of p a x = WNext x' tr ->
  (length (d_bufs (x_view x)) <= length (d_bufs (x_view x')))%nat /\
  (forall v b t r, d_own (x_view x) = OPushPub v b t r -> (exists op fail, a = WOwner op fail) ->
     length (d_bufs (x_view x')) = S (length (d_bufs (x_view x)))).
Proof.
  destruct a as [op fail|i|n]; cbn [wstep_of].
  - unfold owner_w, owner, with_cur. destruct (waits p x); [done|].
    repeat case_match; try done; intros [= <- <-]; simplify_eq; cbn; rewrite ?app_length, ?insert_length; cbn; split; try lia; try done.
    all: intros; first [congruence|lia].
  - unfold thief_w, thief. repeat case_match; try done; intros [= <- <-]; simplify_eq; cbn; (split; [done|]); intros ???? _ (? & ? & ?); done.
  - unfold commit. repeat case_match; try done. intros [= <- <-]; cbn; (split; [done|]); intros ???? _ (? & ? & ?); done.
Qed.

Theorem wstep_keeps p k x h (a : wlab V) x' tr : sound p x' -> winv k x h -> wstep_of p a x = WNext x' tr -> winv k x' (rev tr ++ h).
Proof.
  intros (Hp1 & Hp2) H Hs. destruct (wstep_bufs _ _ _ _ _ Hs) as (Hl1 & Hl2).
  destruct a as [op fail|i|n]; cbn [wstep_of] in Hs.
  - destruct (waits p x) eqn:Hw; [unfold owner_w in Hs; by rewrite Hw in Hs|].
    destruct (owner_keeps p k x h op fail Hp1) as (x2 & tr2 & E & H'); [|done|done|congruence].
    destruct Hp2 as [?|Hp2]; [by left|right]. intros v b t r Eo.
    pose proof (Hl2 v b t r Eo (ex_intro _ op (ex_intro _ fail eq_refl))).
    pose proof (i_cur _ _ _ (w_inv _ _ _ H)). lia.
  - destruct (thief_keeps k x h i H) as (x2 & tr2 & E & H'). congruence.
  - destruct (commit_keeps k x h n x' tr H Hs) as (H' & ->). done.
Qed.

Lemma wreach_bufs p k x h : wreach p k x h -> (1 <= length (d_bufs (x_view x)))%nat.
Proof.
  induction 1 as [|x h a x' tr Hr IH Hs]; [done|]. destruct (wstep_bufs _ _ _ _ _ Hs). lia.
Qed.

Theorem wreach_inv p k x h : wreach p k x h -> sound p x -> winv k x h.
Proof.
  induction 1 as [|x h a x' tr Hr IH Hs]; intros Hp; [apply winv_init|].
  eapply wstep_keeps; [done| |done]. apply IH. destruct Hp as (Hp1 & Hp2). split; [done|].
  destruct Hp2 as [?|Hp2]; [by left|right]. pose proof (wreach_bufs _ _ _ _ Hr). destruct (wstep_bufs _ _ _ _ _ Hs). lia.
Qed.

(** ** Consequences *)

Lemma wreach_allowed p k x h : wreach p k x h ->
  forall e, e ∈ h -> match e with ECall w op | ELin w op _ => allowed w op | ERet _ _ => True end.
Proof.
  induction 1 as [|x h a x' tr Hr IH Hs]; [set_solver|]. intros e He.
  apply elem_of_app in He as [He|He]; [|by apply IH].
  apply elem_of_list_In, in_rev, elem_of_list_In in He.
  destruct a as [op fail|i|n]; cbn [wstep_of] in Hs.
  - unfold owner_w, owner, with_cur in Hs. repeat case_match; try done; injection Hs as <- <-; simplify_eq; set_solver.
  - unfold thief_w, thief in Hs. repeat case_match; try done; injection Hs as <- <-; simplify_eq; set_solver.
  - unfold commit in Hs. repeat case_match; try done; injection Hs as <- <-; set_solver.
Qed.

Lemma wstep_events p x (a : wlab V) x' tr : wstep_of p a x = WNext x' tr -> tr = [] \/ exists e, tr = [e].
Proof.
  destruct a as [op fail|i|n]; cbn [wstep_of]; intros Hs.
  - unfold owner_w, owner, with_cur in Hs. repeat case_match; try done; injection Hs as <- <-; simplify_eq; eauto.
  - unfold thief_w, thief in Hs. repeat case_match; try done; injection Hs as <- <-; simplify_eq; eauto.
  - unfold commit in Hs. repeat case_match; try done; injection Hs as <- <-; eauto.
Qed.

Lemma sound_before p x (a : wlab V) x' tr : (1 <= length (d_bufs (x_view x)))%nat ->
  wstep_of p a x = WNext x' tr -> sound p x' -> sound p x.
Proof.
  intros Hl Hs (Hp1 & Hp2). split; [done|]. destruct Hp2 as [?|Hp2]; [by left|right]. destruct (wstep_bufs _ _ _ _ _ Hs). lia.
Qed.

Lemma wreach_ev p k x h : wreach p k x h -> sound p x -> forall h1 e h2, h = h1 ++ e :: h2 ->
  exists x0 a x1, wreach p k x0 h2 /\ sound p x1 /\ wstep_of p a x0 = WNext x1 [e].
Proof.
  induction 1 as [|x h a x' tr Hr IH Hs]; intros Hp h1 e h2 E; [by destruct h1|].
  pose proof (sound_before _ _ _ _ _ (wreach_bufs _ _ _ _ Hr) Hs Hp) as Hp'.
  destruct (wstep_events _ _ _ _ _ Hs) as [->|[e' ->]]; simpl in E.
  - eauto.
  - destruct h1 as [|e1 h1]; simpl in E.
    + injection E as -> ->. eauto 10.
    + injection E as -> E. eauto.
Qed.

Lemma winv_contents k x h : winv k x h -> exists q, contents h q /\ Z.of_nat (length q) = hi (x_view x) - d_top (x_view x).
Proof.
  intros H. destruct (w_inv _ _ _ H) as [(r & _ & _ & _ & _ & _ & _ & _ & q & Hq & Hlen & _) _ _ _]. eauto.
Qed.
Lemma winv_phase k x h : winv k x h -> forall w : option nat, exists p, in_phase w h p.
Proof.
  intros H. destruct (w_inv _ _ _ H) as [(r & _ & _ & _ & _ & _ & Htr & _) _ _ Hph]. intros [i|]; [eauto|].
  unfold own_tr in Htr. destruct (d_own (x_view x)); eauto. destruct Htr; eauto.
Qed.

(** The oldest store can always reach memory. *)
Lemma drain p k x h : wreach p k x h -> exists x', wreach p k x' h /\ x_view x' = x_view x /\ x_pend x' = [].
Proof.
  remember (length (x_pend x)) as n eqn:En. revert x En. induction n as [|n IH]; intros x En Hr.
  - exists x. split_and!; [done|done|]. by destruct (x_pend x).
  - destruct (x_pend x) as [|[w f] l] eqn:Ep; [done|]. cbn in En.
    destruct (store w (x_bot x, x_cur x, x_bufs x)) as [[b c] bufs] eqn:Es.
    destruct (IH (WM (x_view x) b c bufs l)) as (x' & Hr' & Hv & Hp'); [cbn; lia| |by exists x'].
    apply (wreach_step p k x h (WCommit 0) _ []); [done|]. cbn [wstep_of]. unfold commit. rewrite Ep. cbn [lookup list_lookup take may_commit].
    by rewrite Es.
Qed.

(** ** How far memory is behind *)

(** Stores to m_bottom in the buffer raise it by at most one each. *)
Fixpoint rises (z : Z) l : Prop :=
  match l with
  | [] => True
  | (WBot z', _) :: l' => z' <= z + 1 /\ rises z' l'
  | _ :: l' => rises z l'
  end.

Lemma rises_app z c bufs l new : rises z l -> rises (stores l (z, c, bufs)).1.1 new -> rises z (l ++ new).
Proof.
  revert z c bufs. induction l as [|[[z'|c'|c' j v] f] l IH]; intros z c bufs; cbn; [done|..].
  - intros (A & B) C. split; [done|]. by eapply IH.
  - intros B C. by eapply IH.
  - intros B C. by eapply IH.
Qed.
Lemma rises_drop z l1 c j v f l2 : rises z (l1 ++ (WSlot c j v, f) :: l2) -> rises z (l1 ++ l2).
Proof.
  revert z. induction l1 as [|[[z'|c'|c' j' v'] f'] l1 IH]; intros z; cbn; auto. intros (A & B). auto.
Qed.
Lemma rises_le z c bufs l : rises z l -> (stores l (z, c, bufs)).1.1 <= z + Z.of_nat (bottoms l).
Proof.
  revert z c bufs. induction l as [|[[z'|c'|c' j v] f] l IH]; intros z c bufs; cbn [rises stores fold_left fst store bottoms]; [cbn; lia|..].
  - intros (A & B). specialize (IH _ c bufs B). unfold stores in IH. lia.
  - apply IH.
  - apply IH.
Qed.

Lemma wreach_rises p k x h : wreach p k x h -> sound p x -> rises (x_bot x) (x_pend x).
Proof.
  induction 1 as [|x h a x' tr Hr IH Hs]; intros Hp; [done|].
  pose proof (sound_before _ _ _ _ _ (wreach_bufs _ _ _ _ Hr) Hs Hp) as Hp'. specialize (IH Hp').
  pose proof (wreach_inv _ _ _ _ Hr Hp') as H.
  destruct a as [op fail|i|n]; cbn [wstep_of] in Hs.
  - unfold owner_w in Hs. destruct (waits p x); [done|]. destruct (owner _ _ _); [|done]. injection Hs as <- <-. cbn.
    eapply (rises_app _ (x_cur x) (x_bufs x)); [done|]. rewrite (w_mem _ _ _ H). cbn.
    destruct (i_ring _ _ _ (w_inv _ _ _ H)) as (r & _ & _ & _ & _ & Hown & _). unfold own_ok in Hown.
    unfold issued. destruct (d_own (x_view x)) as [|v b|v b t|v b t rn|v b t|v b|u|b|b|b t|b ok|b|]; cbn; try done; try (split; [lia|done]).
    assert (HA : forall L : list (write V), (forall w, w ∈ L -> exists c j v, w = WSlot c j v) ->
      rises (d_bot (x_view x)) (map (fun w => (w, p_tso p)) L ++ [(WCur (length (d_bufs (x_view x))), p_tso p || p_rel p)])).
    { clear. intros L. induction L as [|w L IH]; intros HL; [done|]. destruct (HL w) as (c & j & v & ->); [by left|]. apply IH. set_solver. }
    apply HA. intros w Hin. apply copies_in in Hin as (j & v' & -> & _). eauto.
  - unfold thief_w in Hs. destruct (thief _ _); [|done]. by injection Hs as <- <-.
  - unfold commit in Hs. destruct (x_pend x !! n) as [[w f]|] eqn:En; [|done]. destruct (may_commit _ _ _ _) eqn:Em; [|done].
    pose proof (take_drop_middle _ _ _ En) as Ep. rewrite delete_take_drop in Hs.
    pose proof (w_bots _ _ _ H) as Hb. rewrite <- Ep in Hb, IH. pose proof (w_curs _ _ _ H) as Hcu. rewrite <- Ep in Hcu.
    destruct w as [z|c|c j v]; cbn in Hs; injection Hs as <- <-; cbn.
    + assert (Hl : take n (x_pend x) = []) by by eapply commit_bot. rewrite Hl in *. cbn in *. tauto.
    + assert (f = true) as -> by (eapply (Hcu c); set_solver). assert (Hl : take n (x_pend x) = []) by by destruct (take n (x_pend x)).
      rewrite Hl in *. exact IH.
    + by eapply rises_drop.
Qed.

(** ** Running a schedule *)

Fixpoint wrun (p : policy) (ls : list (wlab V)) x h : option (wm V * list (dev V)) :=
  match ls with
  | [] => Some (x, h)
  | a :: ls' => match wstep_of p a x with WNext x' tr => wrun p ls' x' (rev tr ++ h) | _ => None end
  end.

Lemma wrun_reach p k ls : forall x h, wreach p k x h ->
  match wrun p ls x h with Some (x', h') => wreach p k x' h' | None => True end.
Proof.
  induction ls as [|a ls IH]; intros x h Hr; simpl; [done|].
  destruct (wstep_of p a x) as [x' tr| |] eqn:E; [|done|done]. apply IH. by econstructor.
Qed.

End proofs.
