(** * The deque on the memory model of C++: invariant. *)

From stdpp Require Import prelude gmap list.
From Coq Require Import ZArith Lia.
From Verif Require Import DequeModel DequeSpec DequeProofs ViewModel.
Import ViewModel.
Local Open Scope Z_scope.

Section proofs.
Context {V : Type}.
Implicit Types (r : buf V) (s : vm V) (h : list (dev V)) (q : list V).

(** ** Ring buffers *)

Lemma load_newest r j : r_load (newest r) j = last (hist r j).
Proof.
  unfold r_load, newest, hist, phys, slot. cbn. rewrite lookup_omap.
  destruct (b_hist r !! Z.land j (b_cap r - 1)); done.
Qed.

Lemma msg_newest r j : msg r j (length (hist r j)) = r_load (newest r) j.
Proof.
  rewrite load_newest. unfold msg. destruct (hist r j) as [|v l] eqn:E; [done|].
  rewrite last_lookup. done.
Qed.

Lemma newest_store r j v : newest (b_store r j v) = r_store (newest r) j v.
Proof.
  unfold newest, b_store, r_store, slot, phys. cbn. f_equal. apply map_eq. intros i.
  rewrite lookup_omap. destruct (decide (i = Z.land j (b_cap r - 1))) as [->|Hne].
  - rewrite !lookup_insert. cbn. by rewrite last_snoc.
  - rewrite !lookup_insert_ne by done. by rewrite lookup_omap.
Qed.

Lemma newest_resize r b t : newest (b_resize r b t) = resize (newest r) b t.
Proof.
  unfold newest at 1, b_resize. cbn. destruct (resize (newest r) b t) as [c a] eqn:E. cbn. f_equal.
  apply map_eq. intros i. rewrite lookup_omap, lookup_fmap. by destruct (a !! i).
Qed.

Lemma hist_store_ne r b j v : ring_ok (newest r) -> b <> j -> Z.abs (b - j) < b_cap r -> hist (b_store r b v) j = hist r j.
Proof.
  intros Hok Hne Hd. unfold hist, b_store, phys. cbn. rewrite lookup_insert_ne; [done|].
  intros E. apply Hne. apply (slot_inj (newest r)); done.
Qed.

(** ** The invariant *)

(** One past the newest item. *)
Definition hi s : Z :=
  match m_own s with
  | OwPopFence b | OwPopTop b | OwPopCas b | OwPopRestore b _ => b + 1
  | _ => bot_now s
  end.

(** [v] is the item with index [j]. *)
Definition item s (j : Z) (v : V) : Prop :=
  exists r, last (m_bufs s) = Some r /\ m_top s <= j < hi s /\ r_load (newest r) j = Some v.

(** Whoever has the view [w], and loads the slot of index [j] of a buffer it may get
    hold of, finds [v]. *)
Definition known s (w : view) (j : Z) (v : V) : Prop :=
  forall c r m, m_bufs s !! c = Some r -> (v_cur w <= c)%nat ->
    (v_slot w c (phys r j) `max` v_slot (m_cur s c) c (phys r j) <= m <= length (hist r j))%nat -> msg r j m = Some v.

Definition knows s (w : view) (j : Z) : Prop := exists v, item s j v /\ known s w j v.

(** A view is further than another, as far as m_buf and the slots are concerned. *)
Definition further (w w' : view) : Prop := (v_cur w <= v_cur w')%nat /\ forall c p, (v_slot w c p <= v_slot w' c p)%nat.

Lemma known_further s w w' j v : further w w' -> known s w j v -> known s w' j v.
Proof. intros (H1 & H2) Hk c r m Hc Hle Hm. apply (Hk c r m); [done|lia|]. specialize (H2 c (phys r j)). lia. Qed.
Lemma knows_further s w w' j : further w w' -> knows s w j -> knows s w' j.
Proof. intros Hf (v & Hi & Hk). exists v. split; [done|]. by eapply known_further. Qed.

Lemma further_refl w : further w w.
Proof. split; [done|]. intros. lia. Qed.
Lemma further_join_l w w' : further w (v_join w w').
Proof. split; cbn; intros; lia. Qed.
Lemma further_join_r w w' : further w' (v_join w w').
Proof. split; cbn; intros; lia. Qed.

Lemma last_pred {A} (l : list A) x : last l = Some x -> l !! pred (length l) = Some x.
Proof. by rewrite last_lookup. Qed.

(** The owner knows all items. *)
Lemma known_oview s j v r : last (m_bufs s) = Some r -> r_load (newest r) j = Some v -> known s (oview s) j v.
Proof.
  intros Hr Hj c r' m Hc Hle Hm. cbn in Hle, Hm. apply last_pred in Hr.
  assert (c = pred (length (m_bufs s))) as ->. { apply lookup_lt_Some in Hc. lia. }
  rewrite Hr in Hc. injection Hc as <-. rewrite Hr in Hm. fold (hist r j) in Hm.
  assert (m = length (hist r j)) as -> by lia. by rewrite msg_newest.
Qed.

(** Items of [s] are items of [s'], and who knows them in [s] does in [s']. *)
Definition keeps s s' (j : Z) : Prop := forall v, item s j v -> item s' j v /\ forall w, known s w j v -> known s' w j v.

Lemma knows_keeps s s' w j : keeps s s' j -> knows s w j -> knows s' w j.
Proof. intros Hk (v & Hi & Hw). destruct (Hk v Hi) as (Hi' & Hw'). exists v. split; [done|]. by apply Hw'. Qed.

Lemma keeps_same s s' j :
  m_bufs s' = m_bufs s -> (forall c, m_cur s' c = m_cur s c) -> (m_top s <= j < hi s -> m_top s' <= j < hi s') -> keeps s s' j.
Proof.
  intros Hb Hc Hj v (r & Hr & Hj' & Hl). split.
  - exists r. rewrite Hb. split_and!; [done|lia|lia|done].
  - intros w Hk c r' m. rewrite Hb, Hc. apply Hk.
Qed.
Lemma known_same s s' w j v : m_bufs s' = m_bufs s -> (forall c, m_cur s' c = m_cur s c) -> known s w j v -> known s' w j v.
Proof. intros Hb Hc Hk c r' m. rewrite Hb, Hc. apply Hk. Qed.

(** The index a thief wants, after its fence. *)
Definition wants (p : tpc V) : option Z :=
  match p with ThBot t | ThBuf t | ThSlot t _ | ThCas t _ => Some t | _ => None end.

Definition own_ok s r : Prop :=
  match m_own s with
  | OwIdle | OwPushRet _ | OwPopNone => True
  | OwPushTop v b => b = bot_now s
  | OwPushBuf v b t => b = bot_now s /\ t = m_otop s
  | OwPushGrow v b t => b = bot_now s /\ t = m_otop s
  | OwPushStore v b => b = bot_now s /\ b - m_otop s + 1 <= b_cap r
  | OwPushFence v b => b = bot_now s /\ r_load (newest r) b = Some v /\ b - m_otop s + 1 <= b_cap r
  | OwPushBot v b => b = bot_now s /\ r_load (newest r) b = Some v /\ b - m_otop s + 1 <= b_cap r /\ known s (m_rel s) b v
  | OwPopStore b => b = bot_now s - 1
  | OwPopFence b => b = bot_now s
  | OwPopTop b =>
    b = bot_now s /\ (length (m_bot s) <= S (v_bot (m_sc s)))%nat /\ (m_top s = b + 1 -> b <= m_otop s) /\
    forall i t, wants (m_thf s i) = Some t -> t <= m_otop s \/ (length (m_bot s) <= S (v_bot (m_view s i)))%nat
  | OwPopCas b => b = bot_now s /\ (length (m_bot s) <= S (v_bot (m_sc s)))%nat /\ 0 <= b <= m_otop s
  | OwPopRestore b ok => b = bot_now s /\ m_top s = b + 1 /\ (ok = true -> 0 <= b /\ exists v, r_load (newest r) b = Some v)
  | OwPopRet b => 0 <= b /\ exists v, r_load (newest r) b = Some v
  end.

Definition own_phase s r : phase V :=
  match m_own s with
  | OwIdle => Idle
  | OwPushTop v _ | OwPushBuf v _ _ | OwPushGrow v _ _ | OwPushStore v _ | OwPushFence v _ | OwPushBot v _ => Called (DPush v)
  | OwPushRet _ => Idle
  | OwPopStore _ | OwPopFence _ | OwPopTop _ | OwPopCas _ => Called DPop
  | OwPopRestore b true | OwPopRet b =>
    match r_load (newest r) b with Some v => Done DPop (RSome v) | None => Idle end
  | OwPopRestore _ false | OwPopNone => Done DPop REmpty
  end.
Definition own_tr s r h : Prop :=
  match m_own s with
  | OwPushRet x => exists v, in_phase None h (Done (DPush v) x)
  | _ => in_phase None h (own_phase s r)
  end.

(** The store to m_bottom the thief has read says that there is an item. *)
Definition saw s (i : nat) (t : Z) : Prop := exists b w, m_bot s !! v_bot (m_view s i) = Some (b, w) /\ t < b.

Definition thf_ok s (i : nat) : Prop :=
  match m_thf s i with
  | ThIdle | ThTop | ThRet _ => True
  | ThFence t => 0 <= t <= m_top s /\ t <= v_top (m_view s i)
  | ThBot t =>
    0 <= t <= m_top s /\ t <= v_top (m_sc s) /\
    (t = m_top s -> forall m b w, m_bot s !! m = Some (b, w) -> (v_bot (m_view s i) <= m)%nat -> t < b -> knows s w t)
  | ThBuf t =>
    0 <= t <= m_top s /\ t <= v_top (m_sc s) /\ (t = m_top s -> saw s i t /\ knows s (m_view s i) t)
  | ThSlot t c =>
    0 <= t <= m_top s /\ t <= v_top (m_sc s) /\ (t = m_top s -> saw s i t /\ knows s (m_view s i) t) /\
    (v_cur (m_view s i) <= c < length (m_bufs s))%nat
  | ThCas t x =>
    0 <= t <= m_top s /\ t <= v_top (m_sc s) /\ (t = m_top s -> saw s i t /\ exists v, item s t v /\ x = Some v)
  end.

Definition thf_phase (p : tpc V) : phase V :=
  match p with ThIdle => Idle | ThRet x => Done DSteal x | _ => Called DSteal end.

(** The ring buffer in use, the owner, and the items. *)
Definition cur_ok s h : Prop :=
  exists r, last (m_bufs s) = Some r /\ ring_ok (newest r) /\ hi s - m_otop s <= b_cap r /\
    own_ok s r /\ own_tr s r h /\
    exists q, contents h q /\ Z.of_nat (length q) = hi s - m_top s /\
      forall (j : nat) v, q !! j = Some v -> r_load (newest r) (m_top s + Z.of_nat j) = Some v.

Record inv s h : Prop := {
  i_cur : cur_ok s h;
  i_top : 0 <= m_otop s <= m_top s /\ m_top s <= hi s;
  i_prev : m_top s - 1 <= Z.max (v_top (m_sc s)) (m_otop s);
  i_msgs : forall j m b w, m_top s <= j -> m_bot s !! m = Some (b, w) -> (v_bot (m_sc s) <= m)%nat -> j < b -> knows s w j;
  i_rel : forall j, m_top s <= j < hi s -> knows s (m_rel s) j;
  i_thf : forall i, thf_ok s i;
  i_tops : v_top (m_sc s) <= m_top s /\ (forall i, v_top (m_view s i) <= m_top s) /\
           (forall b w, (b, w) ∈ m_bot s -> v_top w <= m_top s) /\ v_top (m_rel s) <= m_top s;
  i_phs : forall i, in_phase (Some i) h (thf_phase (m_thf s i))
}.

(** The item with an index in range. *)
Lemma cur_item s h j : cur_ok s h -> m_top s <= j < hi s -> exists v, item s j v.
Proof.
  intros (r & Hr & _ & _ & _ & _ & q & _ & Hl & Hq) Hj.
  destruct (lookup_lt_is_Some_2 q (Z.to_nat (j - m_top s))) as (v & Hv); [lia|]. exists v, r. split_and!; [done|lia|lia|].
  specialize (Hq _ _ Hv). by replace (m_top s + Z.of_nat (Z.to_nat (j - m_top s))) with j in Hq by lia.
Qed.

Lemma oview_knows s h j : cur_ok s h -> m_top s <= j < hi s -> knows s (oview s) j.
Proof.
  intros Hc Hj. destruct (cur_item _ _ _ Hc Hj) as (v & Hv). exists v. split; [done|].
  destruct Hv as (r & Hr & _ & Hl). by eapply known_oview.
Qed.

Lemma thf_mono s s' l i :
  thf_ok s i -> m_thf s' i = m_thf s i -> m_view s' i = m_view s i -> m_top s <= m_top s' ->
  m_bot s' = m_bot s ++ l -> v_top (m_sc s) <= v_top (m_sc s') -> (length (m_bufs s) <= length (m_bufs s'))%nat ->
  (m_top s' = m_top s -> wants (m_thf s i) = Some (m_top s) ->
     keeps s s' (m_top s) \/ (l = [] /\ (length (m_bot s) <= S (v_bot (m_view s i)))%nat /\ bot_now s <= m_top s)) ->
  (m_top s' = m_top s -> forall b w, (b, w) ∈ l -> m_top s < b -> knows s' w (m_top s)) ->
  thf_ok s' i.
Proof.
  unfold thf_ok. intros H Et Ev Ht Hb Hsc Hlen Hk Hnew. rewrite Et, Ev.
  assert (Hsaw : forall t, saw s i t -> saw s' i t).
  { intros t (b & w & Hl & Hlt). exists b, w. rewrite Ev, Hb. split; [|done]. by apply lookup_app_l_Some. }
  assert (Hno : (length (m_bot s) <= S (v_bot (m_view s i)))%nat -> bot_now s <= m_top s ->
                forall m b w, m_bot s !! m = Some (b, w) -> (v_bot (m_view s i) <= m)%nat -> m_top s < b -> False).
  { intros H1 H2 m b w Hm Hle Hlt. pose proof (lookup_lt_Some _ _ _ Hm).
    assert (m = pred (length (m_bot s))) as -> by lia. unfold bot_now in H2. rewrite last_lookup, Hm in H2. lia. }
  assert (Hno2 : (length (m_bot s) <= S (v_bot (m_view s i)))%nat -> bot_now s <= m_top s -> saw s i (m_top s) -> False).
  { intros H1 H2 (b & w & Hm & Hlt). by eapply (Hno H1 H2 _ b w Hm). }
  destruct (m_thf s i) as [| |t|t|t|t c|t x|x]; try done.
  - destruct H as (H1 & H2). split; [lia|done].
  - destruct H as (H1 & H2 & H3). split_and!; try lia. intros Heq m b w Hm Hle Hlt.
    assert (t = m_top s) as -> by lia. assert (He : m_top s' = m_top s) by lia. rewrite Hb in Hm.
    apply lookup_app_Some in Hm as [Hm|(Hge & Hm)].
    + destruct (Hk He eq_refl) as [Hkeep|(_ & Hx & Hy)].
      * eapply knows_keeps; [done|]. by eapply H3.
      * exfalso. by eapply Hno.
    + apply (Hnew He b w); [by eapply elem_of_list_lookup_2|done].
  - destruct H as (H1 & H2 & H3). split_and!; try lia. intros Heq.
    assert (t = m_top s) as -> by lia. assert (He : m_top s' = m_top s) by lia. destruct (H3 eq_refl) as (Hs & Hkn).
    destruct (Hk He eq_refl) as [Hkeep|(_ & Hx & Hy)]; [|exfalso; by eapply Hno2].
    split; [by apply Hsaw|by eapply knows_keeps].
  - destruct H as (H1 & H2 & H3 & H4). split_and!; try lia. intros Heq.
    assert (t = m_top s) as -> by lia. assert (He : m_top s' = m_top s) by lia. destruct (H3 eq_refl) as (Hs & Hkn).
    destruct (Hk He eq_refl) as [Hkeep|(_ & Hx & Hy)]; [|exfalso; by eapply Hno2].
    split; [by apply Hsaw|by eapply knows_keeps].
  - destruct H as (H1 & H2 & H3). split_and!; try lia. intros Heq.
    assert (t = m_top s) as -> by lia. assert (He : m_top s' = m_top s) by lia. destruct (H3 eq_refl) as (Hs & v & Hi & Hx).
    destruct (Hk He eq_refl) as [Hkeep|(_ & Hx' & Hy)]; [|exfalso; by eapply Hno2].
    split; [by apply Hsaw|]. exists v. split; [|done]. by apply Hkeep.
Qed.

(** A step of the owner that keeps all items. *)
Lemma own_step s s' h h' l :
  inv s h ->
  m_thf s' = m_thf s -> m_view s' = m_view s -> m_top s' = m_top s -> m_bot s' = m_bot s ++ l ->
  v_top (m_sc s) <= v_top (m_sc s') <= m_top s -> (v_bot (m_sc s) <= v_bot (m_sc s'))%nat -> (length (m_bufs s) <= length (m_bufs s'))%nat ->
  (forall b w, (b, w) ∈ l -> v_top w <= m_top s) -> v_top (m_rel s') <= m_top s ->
  (forall j, m_top s <= j -> keeps s s' j) ->
  (forall b w, (b, w) ∈ l -> forall j, m_top s <= j -> j < b -> knows s' w j) ->
  (forall j, m_top s <= j < hi s' -> knows s' (m_rel s') j) ->
  cur_ok s' h' ->
  m_otop s <= m_otop s' <= m_top s -> m_top s <= hi s' ->
  (forall i p, in_phase (Some i) h p -> in_phase (Some i) h' p) ->
  inv s' h'.
Proof.
  intros [Hcur Htop Hprev Hmsgs Hrel Hthf Htops Hphs] Et Ev Etop Eb Hsct Hscb Hlen Hlt Hrt Hkeep Hnew Hrel' Hcur' Ho Hh Hph.
  constructor.
  - done.
  - rewrite Etop. lia.
  - rewrite Etop. lia.
  - rewrite Etop, Eb. intros j m b w Hj Hm Hle Hlt'. apply lookup_app_Some in Hm as [Hm|(Hge & Hm)].
    + eapply knows_keeps; [by apply Hkeep|]. apply (Hmsgs j m b w); [done|done|lia|done].
    + apply (Hnew b w); [by eapply elem_of_list_lookup_2|done|done].
  - rewrite Etop. done.
  - intros i. apply (thf_mono s s' l i (Hthf i)); [by rewrite Et|by rewrite Ev|lia|done|lia|done| |].
    + intros _ _. left. by apply Hkeep.
    + intros _ b w Hin Hlt'. apply (Hnew b w); [done|lia|done].
  - rewrite Etop, Ev, Eb. destruct Htops as (_ & T2 & T3 & _). split_and!; [lia|done| |done].
    intros b w [Hin|Hin]%elem_of_app; [by eapply T3|by eapply Hlt].
  - intros i. rewrite Et. by apply Hph.
Qed.
End proofs.
