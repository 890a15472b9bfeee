(** * Proofs about the segmented stacks of StackModel.v. *)

From Coq Require Import Lia ZifyBool ZifyNat ZifyN.
From stdpp Require Import gmap list numbers.
From Verif Require Import StackModel StackSpec.
Local Open Scope N_scope.
Ltac Zify.zify_post_hook ::= Z.div_mod_to_equations.
Global Arguments N.add : simpl never.
Global Arguments N.sub : simpl never.
Global Arguments N.mul : simpl never.
Global Arguments N.div : simpl never.
Global Arguments N.modulo : simpl never.
Global Arguments N.pow : simpl never.
Global Arguments ext_size : simpl never.

(** ** Arithmetic *)

Lemma mask_down_div k x : mask_down (2 ^ k) x = (x / 2 ^ k) * 2 ^ k.
Proof.
  unfold mask_down. replace (2 ^ k - 1) with (N.ones k) by (rewrite N.ones_equiv; lia).
  rewrite N.ldiff_ones_r, N.shiftl_mul_pow2, N.shiftr_div_pow2. done.
Qed.
Lemma mask16 x : mask_down k_new_align x = (x / 16) * 16.
Proof. exact (mask_down_div 4 x). Qed.
Lemma mask4096 x : mask_down page_size x = (x / 4096) * 4096.
Proof. exact (mask_down_div 12 x). Qed.

Lemma w64_small x : x < 2 ^ 64 -> w64 x = x.
Proof. intros H. unfold w64, two64. apply N.mod_small. done. Qed.

Lemma ext_size_spec size :
  size <= max_request ->
  size <= ext_size size /\ ext_size size < size + 16 /\ ext_size size mod 16 = 0
  /\ ext_size size <= max_request.
Proof.
  intros H. unfold max_request in *. unfold ext_size. rewrite mask16, w64_small.
  2:{ unfold k_new_align. lia. }
  unfold k_new_align. change (2 ^ 64 - 4192) with 18446744073709547424 in *. lia.
Qed.

Lemma round_up_spec size h :
  size <= 2 ^ 64 - 4192 + 48 ->
  exists r, round_up_to_page_size size h = Ret h r /\ size <= r /\ r < size + 4096
            /\ (r + 48) mod 4096 = 0.
Proof.
  intros H. change (2 ^ 64 - 4192 + 48) with 18446744073709547472 in H.
  unfold round_up_to_page_size, m_bind, m_assert, m_ret.
  assert (Hm : round_up_min size = size + 48).
  { unfold round_up_min, malloc_meta_data_size. apply w64_small.
    change (2 ^ 64) with 18446744073709551616. lia. }
  assert (Hr : round_up_rounded size = (size + 48 + 4095) / 4096 * 4096).
  { unfold round_up_rounded. rewrite Hm, mask4096. unfold page_size.
    rewrite w64_small. 2:{ change (2 ^ 64) with 18446744073709551616. lia. }
    f_equal. f_equal. lia. }
  assert (Hq : round_up_request size = (size + 48 + 4095) / 4096 * 4096 - 48).
  { unfold round_up_request. rewrite Hr. unfold malloc_meta_data_size, w64, two64.
    change (2 ^ 64) with 18446744073709551616.
    replace ((size + 48 + 4095) / 4096 * 4096 + 18446744073709551616 - 48)
      with ((size + 48 + 4095) / 4096 * 4096 - 48 + 1 * 18446744073709551616) by lia.
    rewrite N.mod_add by lia. apply N.mod_small. lia. }
  rewrite Hq, Hr, Hm. unfold page_size.
  rewrite (proj2 (N.leb_le _ _)) by lia.
  rewrite (proj2 (N.eqb_eq _ _)) by lia.
  rewrite (proj2 (N.leb_le _ _)) by lia.
  eexists. split; [reflexivity|]. lia.
Qed.

(** ** Well-formed heaps *)

(** Sanity of one block. *)
Definition block_ok (a : N) (s : slet) : Prop :=
  0 < a /\ a mod 16 = 0 /\ lo s = a + sizeof_stacklet /\ lo s <= sp s /\ sp s <= hi s /\ hi s <= addr_limit.

Record heap_ok (h : heap) : Prop := {
  ho_block a s : h !! a = Some s -> block_ok a s;
  ho_disj a b s t : h !! a = Some s -> h !! b = Some t -> a <> b -> hi s <= b \/ hi t <= a
}.

(** Allocations of one stacklet, newest first, between [l] and [sp]. *)
Fixpoint allocs_ok (low : N) (al : list alloc) (top : N) (blk : N) : Prop :=
  match al with
  | [] => top = low
  | x :: r => a_ptr x + ext_size (a_size x) = top /\ a_size x <= max_request /\ a_top x = blk
              /\ allocs_ok low r (a_ptr x) blk
  end.

Definition oldest_nonempty (al : list alloc) : Prop :=
  exists l x, al = l ++ [x] /\ 0 < ext_size (a_size x).

Notation seg := (N * list alloc)%type.

Fixpoint chain (h : heap) (nx : option N) (segs : list seg) : Prop :=
  match segs with
  | [] => False
  | (a, al) :: rest =>
      exists s, h !! a = Some s /\ nxt s = nx /\ allocs_ok (lo s) al (sp s) a /\
      match rest with
      | [] => prev s = None
      | (b, _) :: _ => prev s = Some b /\ oldest_nonempty al /\ chain h (Some a) rest
      end
  end.

Definition head_addr (segs : list seg) : option N := (fst <$> segs) !! 0%nat.

Definition cache_ok (h : heap) (segs : list seg) (cache : option N) : Prop :=
  match cache with
  | None => True
  | Some n => exists s, h !! n = Some s /\ sp s = lo s /\ nxt s = None /\ prev s = head_addr segs
  end.

Definition blocks (segs : list seg) (cache : option N) : list N :=
  (match cache with Some n => [n] | None => [] end) ++ (fst <$> segs).

Definition view (segs : list seg) : list alloc := concat (snd <$> segs).

Record rep (h : heap) (f : N) (segs : list seg) (cache : option N) : Prop := {
  rep_head : head_addr segs = Some f;
  rep_chain : chain h cache segs;
  rep_cache : cache_ok h segs cache;
  rep_nodup : NoDup (blocks segs cache)
}.

Lemma chain_frame h h' nx segs :
  chain h nx segs -> (forall a, a ∈ (fst <$> segs) -> h' !! a = h !! a) -> chain h' nx segs.
Proof.
  revert nx. induction segs as [|[a al] rest IH]; intros nx; [done|].
  cbn [chain]. intros (s & Hs & Hn & Ha & Hr) Hf.
  exists s. split; [rewrite Hf; [done|set_solver]|]. split; [done|]. split; [done|].
  destruct rest as [|[b bl] rest]; [done|].
  destruct Hr as (Hp & Ho & Hc). split; [done|]. split; [done|].
  apply IH; [done|]. intros x Hx. apply Hf. cbn in *. set_solver.
Qed.

Lemma chain_cons_inv h nx segs :
  chain h nx segs -> exists a al rest s, segs = (a, al) :: rest /\ h !! a = Some s /\ nxt s = nx
    /\ allocs_ok (lo s) al (sp s) a /\
      (rest = [] /\ prev s = None \/
       exists b bl rest', rest = (b, bl) :: rest' /\ prev s = Some b /\ oldest_nonempty al /\ chain h (Some a) rest).
Proof.
  destruct segs as [|[a al] rest]; [done|]. cbn [chain].
  intros (s & Hs & Hn & Ha & Hr). exists a, al, rest, s.
  repeat (split; [done|]). destruct rest as [|[b bl] rest]; [left; done|].
  right. exists b, bl, rest. destruct Hr as (?&?&?). done.
Qed.

(** What an operation on one stack may do to the heap. *)
Record upd (h h' : heap) (B B' : list N) : Prop := {
  upd_out a : a ∉ B -> a ∉ B' -> h' !! a = h !! a;
  upd_new a : a ∈ B' -> a ∈ B \/ h !! a = None;
  upd_gone a : is_Some (h' !! a) -> a ∈ B -> a ∈ B'
}.

(** ** Primitive operations *)

Lemma bind_ret {A B} (m : M A) (k : A -> M B) h h' a :
  m h = Ret h' a -> m_bind m k h = k a h'.
Proof. intros H. unfold m_bind. rewrite H. done. Qed.
Lemma bind_thr {A B} (m : M A) (k : A -> M B) h h' :
  m h = Thr h' -> m_bind m k h = Thr h'.
Proof. intros H. unfold m_bind. rewrite H. done. Qed.
Lemma assert_ok b h : b = true -> m_assert b h = Ret h tt.
Proof. intros ->. done. Qed.
Lemma get_ok h a s : h !! a = Some s -> m_get a h = Ret h s.
Proof. intros H. unfold m_get. rewrite H. done. Qed.
Lemma set_ok h a s s' : h !! a = Some s -> m_set a s' h = Ret (<[a := s']> h) tt.
Proof. intros H. unfold m_set. rewrite H. done. Qed.
Ltac mstep := erewrite bind_ret by (first [apply assert_ok; lia | eassumption | reflexivity | apply get_ok; eassumption | eapply set_ok; eassumption]); cbv beta iota.

Lemma is_top_ok h f segs cache :
  rep h f segs cache -> is_top f h = Ret h true.
Proof.
  intros [Hh Hc Hca _]. destruct (chain_cons_inv _ _ _ Hc) as (a & al & rest & s & -> & Hs & Hn & _).
  cbn in Hh. injection Hh as ->. unfold is_top, m_bind, m_get, m_ret. rewrite Hs, Hn.
  destruct cache as [n|]; [|done]. cbn in Hca. destruct Hca as (sn & Hsn & Hsp & Hnn & _).
  rewrite Hsn. unfold slet_empty. rewrite Hsp, N.eqb_refl, Hnn. done.
Qed.

Lemma is_top_two h f s n sn :
  h !! f = Some s -> nxt s = Some n -> h !! n = Some sn -> sp sn = lo sn -> nxt sn = None ->
  is_top f h = Ret h true.
Proof.
  intros H1 H2 H3 H4 H5. unfold is_top, m_bind, m_get, m_ret. rewrite H1, H2, H3.
  unfold slet_empty. rewrite H4, N.eqb_refl, H5. done.
Qed.

Lemma is_top_none h f s :
  h !! f = Some s -> nxt s = None -> is_top f h = Ret h true.
Proof. intros H1 H2. unfold is_top, m_bind, m_get, m_ret. rewrite H1, H2. done. Qed.

Lemma forallb_map_to_list (h : heap) (P : N * slet -> bool) :
  forallb P (map_to_list h) = true -> forall a s, h !! a = Some s -> P (a, s) = true.
Proof.
  intros H a s Hs. rewrite forallb_forall in H. apply H.
  apply elem_of_list_In, elem_of_map_to_list. done.
Qed.

Lemma fits_spec h a r :
  fits h a r = true ->
  0 < a /\ a mod 16 = 0 /\ a + r <= addr_limit /\
  forall b s, h !! b = Some s -> a + r <= b \/ hi s <= a.
Proof.
  unfold fits. rewrite !andb_true_iff. intros (((H1 & H2) & H3) & H4).
  split; [lia|]. split; [lia|]. split; [lia|].
  intros b s Hs. pose proof (forallb_map_to_list _ _ H4 b s Hs) as H. cbn in H.
  unfold disj_block in H. lia.
Qed.

Lemma fits_fresh h a r : heap_ok h -> 48 <= r -> fits h a r = true -> h !! a = None.
Proof.
  intros [Hb Hd] Hr H. apply fits_spec in H as (H1 & H2 & H3 & H4).
  destruct (h !! a) as [s|] eqn:Hs; [|done]. exfalso.
  pose proof (Hb _ _ Hs) as (?&?&?&?&?&?). specialize (H4 _ _ Hs). unfold sizeof_stacklet in *. lia.
Qed.

Lemma heap_ok_insert h a s :
  heap_ok h -> block_ok a s -> (forall b t, h !! b = Some t -> hi s <= b \/ hi t <= a) ->
  heap_ok (<[a := s]> h).
Proof.
  intros [Hb Hd] Hs Hx. split.
  - intros b t. rewrite lookup_insert_Some. intros [[<- <-]|[? Hb']]; eauto.
  - intros b c t u. rewrite !lookup_insert_Some.
    intros [[<- <-]|[Hne Hb']] [[<- <-]|[Hne' Hc]] Hbc; try done; eauto.
    destruct (Hx _ _ Hb'); auto.
Qed.

(** next_stacklet with no predecessor: throws, or adds one fresh empty block. *)
Lemma next_stacklet_root h orc :
  heap_ok h ->
  next_stacklet orc init_size None h = Thr h \/
  exists a s, next_stacklet orc init_size None h = Ret (<[a := s]> h) a /\ h !! a = None
    /\ sp s = lo s /\ prev s = None /\ nxt s = None /\ heap_ok (<[a := s]> h).
Proof.
  intros Hok. unfold next_stacklet. mstep.
  assert (Hw : w64 (init_size + sizeof_stacklet) = 49) by (vm_compute; done).
  rewrite Hw. destruct (round_up_spec 49 h) as (r & Hr & Hr1 & Hr2 & _); [done|].
  mstep. change (w64 (sizeof_stacklet + init_size)) with 49. mstep.
  destruct orc as [a|]; [|left; done].
  unfold malloc. destruct (fits h a r) eqn:Hf.
  2:{ left. unfold m_bind. rewrite Hf. done. }
  erewrite bind_ret by (rewrite Hf; reflexivity).
  right. assert (Hr3 : 48 <= r) by lia. pose proof (fits_fresh _ _ _ Hok Hr3 Hf) as Hfr.
  apply fits_spec in Hf as (H1 & H2 & H3 & H4).
  mstep. mstep. eexists a, _. split; [reflexivity|].
  split; [done|]. split; [done|]. split; [done|]. split; [done|].
  apply heap_ok_insert; [done| |].
  - unfold block_ok; cbn. unfold sizeof_stacklet in *. lia.
  - intros b t Hb. cbn. destruct (H4 _ _ Hb); lia.
Qed.

Lemma heap_ok_delete h a : heap_ok h -> heap_ok (delete a h).
Proof.
  intros [Hb Hd]. split.
  - intros b s [_ H]%lookup_delete_Some. eauto.
  - intros b c s t [_ H]%lookup_delete_Some [_ H']%lookup_delete_Some. eauto.
Qed.

(** Changing the header of a live block without changing its extent. *)
Lemma heap_ok_update h a s s' :
  heap_ok h -> h !! a = Some s -> lo s' = lo s -> hi s' = hi s -> lo s <= sp s' <= hi s ->
  heap_ok (<[a := s']> h).
Proof.
  intros [Hb Hd] Hs H1 H2 H3. split.
  - intros b t. rewrite lookup_insert_Some. intros [[<- <-]|[? Hb']]; [|eauto].
    destruct (Hb _ _ Hs) as (?&?&?&?&?&?). unfold block_ok. rewrite H1, H2. lia.
  - intros b c t u. rewrite !lookup_insert_Some.
    intros [[<- <-]|[Hne Hb']] [[<- <-]|[Hne' Hc]] Hbc; rewrite ?H2; try done; eauto.
Qed.

(** set_next on the top of a stack, for the new value [n]. *)
Definition cut (h : heap) (f : N) (s : slet) (n : option N) : heap :=
  match nxt s with Some c => delete c (<[f := set_nxt s n]> h) | None => <[f := set_nxt s n]> h end.

Lemma set_next_ok h f s n :
  h !! f = Some s ->
  (forall c, nxt s = Some c -> c <> f /\ exists sc, h !! c = Some sc /\ sp sc = lo sc /\ nxt sc = None) ->
  set_next f n h = Ret (cut h f s n) tt.
Proof.
  intros Hs Hc. unfold set_next, cut.
  assert (Ht : is_top f h = Ret h true).
  { destruct (nxt s) as [c|] eqn:Hn.
    - destruct (Hc c eq_refl) as (_ & sc & ? & ? & ?). eapply is_top_two; eauto.
    - eapply is_top_none; eauto. }
  unfold m_bind at 1. rewrite Ht. unfold m_bind, m_assert, m_get, m_set. rewrite Hs, Hs.
  unfold m_free. destruct (nxt s) as [c|]; [|done].
  destruct (Hc c eq_refl) as (Hne & sc & Hsc & _). rewrite lookup_insert_ne by done. rewrite Hsc. done.
Qed.

Lemma cut_heap_ok h f s n : heap_ok h -> h !! f = Some s -> heap_ok (cut h f s n).
Proof.
  intros H Hs. destruct (ho_block _ H _ _ Hs) as (?&?&?&?&?&?).
  assert (heap_ok (<[f := set_nxt s n]> h)). { eapply heap_ok_update; eauto; cbn; lia. }
  unfold cut. destruct (nxt s); [apply heap_ok_delete|]; done.
Qed.

Lemma cut_lookup h f s n b :
  cut h f s n !! b = (if bool_decide (nxt s = Some b) then None
                      else if bool_decide (b = f) then Some (set_nxt s n) else h !! b).
Proof.
  unfold cut. destruct (nxt s) as [c|].
  - destruct (decide (c = b)) as [->|Hne].
    + rewrite bool_decide_eq_true_2 by done. apply lookup_delete.
    + rewrite bool_decide_eq_false_2 by congruence. rewrite lookup_delete_ne by done.
      case_bool_decide; [subst; apply lookup_insert|apply lookup_insert_ne; done].
  - rewrite bool_decide_eq_false_2 by done.
    case_bool_decide; [subst; apply lookup_insert|apply lookup_insert_ne; done].
Qed.


(** ** Facts about [rep] *)

Lemma blocks_cons a al rest cache :
  blocks ((a, al) :: rest) cache = (match cache with Some n => [n] | None => [] end) ++ a :: (fst <$> rest).
Proof. done. Qed.

Lemma chain_live h nx segs a : chain h nx segs -> a ∈ (fst <$> segs) -> is_Some (h !! a).
Proof.
  revert nx. induction segs as [|[b al] rest IH]; intros nx; [done|].
  cbn [chain]. intros (s & Hs & _ & _ & Hr). cbn. rewrite elem_of_cons. intros [->|Hin]; [eauto|].
  destruct rest as [|[c cl] rest]; [set_solver|]. destruct Hr as (_ & _ & Hc). eapply IH; eauto.
Qed.

Lemma rep_live h f segs cache a : rep h f segs cache -> a ∈ blocks segs cache -> is_Some (h !! a).
Proof.
  intros [_ Hc Hca _]. unfold blocks. rewrite elem_of_app. intros [H|H].
  - destruct cache as [n|]; [|set_solver]. apply elem_of_list_singleton in H as ->.
    cbn in Hca. destruct Hca as (s & ? & _). eauto.
  - eapply chain_live; eauto.
Qed.

Lemma rep_frame h h' f segs cache :
  rep h f segs cache -> (forall a, a ∈ blocks segs cache -> h' !! a = h !! a) -> rep h' f segs cache.
Proof.
  intros [Hh Hc Hca Hn] Hf. split; [done| | |done].
  - eapply chain_frame; [done|]. intros a Ha. apply Hf. unfold blocks. set_solver.
  - destruct cache as [n|]; [|done]. cbn in *. destruct Hca as (s & Hs & ?). exists s.
    rewrite Hf; [done|]. unfold blocks. set_solver.
Qed.

Lemma rep_head_inv h f segs cache :
  rep h f segs cache -> exists al rest s, segs = (f, al) :: rest /\ h !! f = Some s /\ nxt s = cache
    /\ allocs_ok (lo s) al (sp s) f /\
      (rest = [] /\ prev s = None \/
       exists b bl rest', rest = (b, bl) :: rest' /\ prev s = Some b /\ oldest_nonempty al /\ chain h (Some f) rest).
Proof.
  intros [Hh Hc _ _]. destruct (chain_cons_inv _ _ _ Hc) as (a & al & rest & s & -> & H).
  cbn in Hh. injection Hh as ->. exists al, rest, s. done.
Qed.

Lemma allocs_ok_le low al top blk x :
  allocs_ok low al top blk -> x ∈ al -> low <= a_ptr x /\ a_ptr x + ext_size (a_size x) <= top.
Proof.
  revert top. induction al as [|y r IH]; intros top; [set_solver|].
  cbn. intros (H1 & _ & _ & H2). rewrite elem_of_cons.
  assert (Hlow : low <= a_ptr y).
  { clear -H2. revert H2. generalize (a_ptr y). induction r as [|z r IH]; cbn; intros t; [lia|].
    intros (? & _ & _ & Hr). apply IH in Hr. lia. }
  intros [->|Hin]; [lia|]. apply IH in H2; [lia|done].
Qed.

Lemma allocs_ok_low low al top blk : allocs_ok low al top blk -> low <= top.
Proof.
  destruct al as [|x r]; cbn; [lia|]. intros H. pose proof (allocs_ok_le low (x :: r) top blk x H) as H'.
  destruct H' as [??]; [set_solver|]. lia.
Qed.

Lemma oldest_nonempty_top low al top blk :
  allocs_ok low al top blk -> oldest_nonempty al -> low < top.
Proof.
  intros H (l & x & -> & Hx). pose proof (allocs_ok_le _ _ _ _ x H) as Hl.
  destruct Hl; [set_solver|]. lia.
Qed.

Lemma chain_head_update h h' nx nx' f al al' rest s s' :
  chain h nx ((f, al) :: rest) -> h !! f = Some s -> h' !! f = Some s' ->
  prev s' = prev s -> nxt s' = nx' -> allocs_ok (lo s') al' (sp s') f ->
  (rest <> [] -> oldest_nonempty al -> oldest_nonempty al') ->
  (forall a, a ∈ (fst <$> rest) -> h' !! a = h !! a) ->
  chain h' nx' ((f, al') :: rest).
Proof.
  cbn [chain]. intros (s0 & Hs0 & Hn & Ha & Hr) Hs Hs' Hp Hn' Ha' Ho Hf.
  rewrite Hs in Hs0. injection Hs0 as <-. exists s'. split; [done|]. split; [done|]. split; [done|].
  destruct rest as [|[b bl] rest]; [congruence|]. destruct Hr as (Hpb & Hob & Hc).
  split; [congruence|]. split; [auto|]. eapply chain_frame; eauto.
Qed.

Lemma cache_ne_head h f segs n : rep h f segs (Some n) -> n <> f.
Proof.
  intros H. destruct (rep_head_inv _ _ _ _ H) as (al & rest & s & -> & _).
  destruct H as [_ _ _ Hn]. rewrite blocks_cons in Hn. cbn in Hn.
  rewrite list.NoDup_cons in Hn. destruct Hn as [Hn _]. set_solver.
Qed.

Lemma rep_cut h f segs cache s n :
  rep h f segs cache -> h !! f = Some s -> set_next f n h = Ret (cut h f s n) tt.
Proof.
  intros Hr Hs. destruct (rep_head_inv _ _ _ _ Hr) as (al & rest & s' & -> & Hs' & Hn & _).
  rewrite Hs in Hs'. injection Hs' as <-.
  apply set_next_ok; [done|]. intros c Hc. assert (cache = Some c) as -> by congruence.
  split; [eapply cache_ne_head; eauto|]. destruct Hr as [_ _ Hca _]. cbn in Hca.
  destruct Hca as (sc & ? & ? & ? & _). eauto.
Qed.

Lemma next_stacklet_some h f segs cache sf orc size :
  heap_ok h -> rep h f segs cache -> h !! f = Some sf -> size <= max_request ->
  next_stacklet orc size (Some f) h = Thr h \/
  exists a s, next_stacklet orc size (Some f) h = Ret (<[a := s]> (cut h f sf (Some a))) a
    /\ h !! a = None /\ sp s = lo s /\ prev s = Some f /\ nxt s = None /\ size <= hi s - lo s
    /\ heap_ok (<[a := s]> (cut h f sf (Some a))).
Proof.
  intros Hok Hrep Hsf Hsz. unfold next_stacklet.
  erewrite bind_ret by (erewrite bind_ret by (eapply is_top_ok; eauto); apply assert_ok; done).
  assert (Hw : w64 (size + sizeof_stacklet) = size + 48).
  { apply w64_small. unfold max_request, sizeof_stacklet in *.
    change (2 ^ 64 - 4192) with 18446744073709547424 in *. change (2 ^ 64) with 18446744073709551616. lia. }
  rewrite (N.add_comm sizeof_stacklet), Hw.
  destruct (round_up_spec (size + 48) h) as (r & Hr & Hr1 & Hr2 & _).
  { unfold max_request in *. lia. }
  mstep. mstep. destruct orc as [a|]; [|left; done].
  unfold malloc. destruct (fits h a r) eqn:Hf.
  2:{ left. unfold m_bind. rewrite Hf. done. }
  erewrite bind_ret by (rewrite Hf; reflexivity).
  right. assert (Hr3 : 48 <= r) by lia. pose proof (fits_fresh _ _ _ Hok Hr3 Hf) as Hfr.
  apply fits_spec in Hf as (H1 & H2 & H3 & H4).
  erewrite bind_ret by (eapply rep_cut; eauto). mstep.
  eexists a, _. split; [reflexivity|].
  split; [done|]. split; [done|]. split; [done|]. split; [done|].
  split. { cbn. unfold sizeof_stacklet. lia. }
  apply heap_ok_insert; [apply cut_heap_ok; done| |].
  - unfold block_ok; cbn. unfold sizeof_stacklet in *. lia.
  - intros b t. rewrite cut_lookup. cbn.
    case_bool_decide; [done|]. case_bool_decide.
    + intros [= <-]. subst b. cbn. destruct (H4 _ _ Hsf); lia.
    + intros Hb. destruct (H4 _ _ Hb); lia.
Qed.

Definition alloc_post (h : heap) (segs : list seg) (cache : option N) (size : N) (res : outcome (N * N)) : Prop :=
  res = Thr h \/
  exists h' f' p segs' cache', res = Ret h' (f', p) /\ heap_ok h' /\ rep h' f' segs' cache'
    /\ view segs' = Alloc p size f' :: view segs /\ upd h h' (blocks segs cache) (blocks segs' cache').

Lemma stack_allocate_ok h f segs cache orc size :
  heap_ok h -> rep h f segs cache -> size <= max_request ->
  alloc_post h segs cache size (stack_allocate orc f size h).
Proof.
  intros Hok Hrep Hsz. destruct (ext_size_spec size Hsz) as (Hx1 & Hx2 & Hx3 & Hx4).
  set (x := ext_size size) in *.
  pose proof (is_top_ok _ _ _ _ Hrep) as Htop.
  destruct (rep_head_inv _ _ _ _ Hrep) as (al & rest & s & -> & Hs & Hn & Hal & Hrest).
  destruct (ho_block _ Hok _ _ Hs) as (Hb1 & Hb2 & Hb3 & Hb4 & Hb5 & Hb6).
  unfold stack_allocate. mstep. mstep. mstep.
  erewrite bind_ret by (unfold unused; mstep; reflexivity).
  fold x. destruct (hi s - sp s <? x) eqn:Hu.
  2:{ (* enough room *)
    erewrite bind_ret by reflexivity. mstep. mstep. mstep. mstep.
    right. eexists _, f, (sp s), ((f, Alloc (sp s) size f :: al) :: rest), cache.
    split; [reflexivity|]. split.
    { eapply heap_ok_update; eauto; cbn; lia. }
    assert (Hfr : forall a, a <> f -> <[f:=set_sp s (sp s + x)]> h !! a = h !! a).
    { intros a Ha. apply lookup_insert_ne. done. }
    destruct Hrep as [Hh Hc Hca Hnd]. rewrite blocks_cons in Hnd.
    assert (Hfrest : f ∉ (fst <$> rest)) by (apply NoDup_app in Hnd as (_ & _ & Hnd); apply list.NoDup_cons in Hnd; tauto).
    split; [split|split].
    - done.
    - eapply chain_head_update; [exact Hc|exact Hs|apply lookup_insert|done|done| | |].
      + cbn. split; [done|]. done.
      + intros _ (l & y & -> & Hy). exists (Alloc (sp s) size f :: l), y. done.
      + intros a Ha. apply Hfr. intros ->. done.
    - destruct cache as [n|]; [|done]. cbn in *. destruct Hca as (sn & ? & ?). exists sn.
      rewrite Hfr; [done|]. intros ->. apply list.NoDup_cons in Hnd as [Hnd _]. set_solver.
    - rewrite blocks_cons. done.
    - done.
    - rewrite blocks_cons in *. split.
      + intros a Ha _. apply Hfr. intros ->. set_solver.
      + intros a Ha. left. set_solver.
      + intros a _ Ha. set_solver. }
  (* growth: move to cache or new stacklet *)
  assert (Hxp : 0 < x) by lia.
  assert (Hgrow : forall h1 a sa,
     heap_ok h1 -> h1 !! a = Some sa -> sp sa = lo sa -> nxt sa = None -> prev sa = Some f ->
     x <= hi sa - lo sa ->
     h1 !! f = Some (set_nxt s (Some a)) -> a ∉ f :: (fst <$> rest) ->
     (forall b, b ∈ (fst <$> rest) -> h1 !! b = h !! b) ->
     (forall b, b ∉ blocks ((f, al) :: rest) cache -> b <> a -> h1 !! b = h !! b) ->
     (a ∈ blocks ((f, al) :: rest) cache \/ h !! a = None) ->
     (forall b, is_Some (h1 !! b) -> b ∈ blocks ((f, al) :: rest) cache -> b = a \/ b ∈ f :: (fst <$> rest)) ->
     alloc_post h ((f, al) :: rest) cache size
       ((t' <-- is_top a;; m_assert t';;; (s' <-- m_get a;;
        m_set a (set_sp s' (sp s' + x));;; m_ret (a, sp s')))%m h1)).
  { intros h1 a sa Hok1 Hsa Hsp Hnx Hpr Hcap Hf1 Hain Hr1 Hout Hnew Hgone.
    destruct (ho_block _ Hok1 _ _ Hsa) as (?&?&?&?&?&?).
    erewrite bind_ret by (eapply is_top_none; eauto). mstep. mstep. mstep.
    right. eexists _, a, (sp sa), ((a, [Alloc (sp sa) size a]) :: (f, al) :: rest), None.
    split; [reflexivity|]. split.
    { eapply heap_ok_update; eauto; cbn; lia. }
    assert (Hfr : forall b, b <> a -> <[a:=set_sp sa (sp sa + x)]> h1 !! b = h1 !! b).
    { intros b Hb. apply lookup_insert_ne. done. }
    split; [split|split].
    - done.
    - exists (set_sp sa (sp sa + x)). rewrite lookup_insert. split; [done|]. split; [done|].
      split. { cbn. rewrite Hsp. done. }
      cbn. split; [done|]. split. { exists [], (Alloc (sp sa) size a). done. }
      destruct Hrep as [_ Hc _ _]. eapply chain_head_update; [exact Hc|exact Hs| |..].
      + rewrite Hfr; [exact Hf1|]. set_solver.
      + done.
      + done.
      + done.
      + auto.
      + intros b Hb. rewrite Hfr; [auto|]. intros ->. set_solver.
    - done.
    - destruct Hrep as [_ _ _ Hnd]. rewrite blocks_cons in *. cbn in *.
      apply NoDup_app in Hnd as (_ & _ & Hnd). apply list.NoDup_cons. split; [set_solver|done].
    - done.
    - rewrite (blocks_cons a). split.
      + intros b Hb Hb'. rewrite Hfr by set_solver. apply Hout; [done|set_solver].
      + intros b. cbn. rewrite elem_of_cons. intros [->|Hb]; [done|]. left. rewrite blocks_cons. set_solver.
      + intros b Hb1' Hb2'. destruct (decide (b = a)) as [->|Hne]; [set_solver|].
        rewrite Hfr in Hb1' by done. destruct (Hgone _ Hb1' Hb2') as [->|?]; [done|]. cbn. set_solver. }
  assert (Hnd := rep_nodup _ _ _ _ Hrep). rewrite blocks_cons in Hnd.
  destruct (nxt s) as [n|] eqn:Hnn; subst cache.
  - destruct (rep_cache _ _ _ _ Hrep) as (sn & Hsn & Hspn & Hnxn & Hprn). cbn in Hprn.
    destruct (ho_block _ Hok _ _ Hsn) as (?&?&?&?&?&?).
    assert (Hcapn : m_capacity sn h = Ret h (hi sn - lo sn)).
    { unfold m_capacity. mstep. done. }
    assert (Hcap : m_capacity s h = Ret h (hi s - lo s)).
    { unfold m_capacity. mstep. done. }
    assert (Hgr : (sn0 <-- m_get n;; (c <-- m_capacity sn0;; m_ret (negb (x <=? c))))%m h
                  = Ret h (negb (x <=? hi sn - lo sn))).
    { mstep. mstep. done. }
    destruct (x <=? hi sn - lo sn) eqn:Hfit; cbn [negb] in Hgr.
    + erewrite bind_ret by (erewrite bind_ret by exact Hgr; cbv beta iota; cbv beta; cbn [negb]; reflexivity).
      apply (Hgrow h n sn); auto; try lia.
      * rewrite Hs. f_equal. destruct s; cbn in *. unfold set_nxt. cbn. congruence.
      * cbn in Hnd. apply list.NoDup_cons in Hnd as [? _]. done.
      * left. rewrite blocks_cons. set_solver.
      * intros b _ Hb. rewrite blocks_cons in Hb. set_solver.
    + assert (Hmx : N.max (w64 (2 * (hi s - lo s))) x <= max_request).
      { rewrite w64_small; unfold addr_limit, max_request in *;
        change (2 ^ 64 - 4192) with 18446744073709547424 in *;
        change (2 ^ 64) with 18446744073709551616; change (2 ^ 62) with 4611686018427387904 in *; lia. }
      destruct (next_stacklet_some h f _ _ s orc _ Hok Hrep Hs Hmx) as [Hthr|(a & sa & Hret & Hfresh & Ha1 & Ha2 & Ha3 & Ha4 & Hok1)].
      * left. erewrite bind_thr; [done|]. cbv iota beta. erewrite bind_ret by exact Hgr. cbv beta iota.
        erewrite bind_ret by exact Hcap. exact Hthr.
      * erewrite bind_ret by (erewrite bind_ret by exact Hgr; cbv beta iota;
          erewrite bind_ret by exact Hcap; exact Hret).
        assert (Hane : forall b, is_Some (h !! b) -> b <> a) by (intros b [? Hb] ->; congruence).
        assert (Hlk : forall b, b <> a -> <[a:=sa]> (cut h f s (Some a)) !! b =
           if bool_decide (b = n) then None else if bool_decide (b = f) then Some (set_nxt s (Some a)) else h !! b).
        { intros b Hb. rewrite lookup_insert_ne by done. rewrite cut_lookup, Hnn.
          destruct (decide (b = n)) as [->|]; [rewrite !bool_decide_eq_true_2 by done; done|].
          rewrite !(bool_decide_eq_false_2 (b = n)) by done. rewrite bool_decide_eq_false_2 by congruence. done. }
        assert (Hlive : forall b, b ∈ f :: (fst <$> rest) -> b <> a /\ b <> n).
        { intros b Hb. split.
          - apply Hane. eapply rep_live; eauto. rewrite blocks_cons. set_solver.
          - intros ->. cbn in Hnd. apply list.NoDup_cons in Hnd as [? _]. done. }
        apply (Hgrow _ a sa); auto; try lia.
        -- apply lookup_insert.
        -- destruct (Hlive f) as [??]; [set_solver|]. rewrite Hlk by done.
           rewrite bool_decide_eq_false_2 by done. rewrite bool_decide_eq_true_2 by done. done.
        -- intros Hin. destruct (Hlive a Hin). done.
        -- intros b Hb. destruct (Hlive b) as [??]; [set_solver|]. rewrite Hlk by done.
           rewrite bool_decide_eq_false_2 by done. rewrite bool_decide_eq_false_2; [done|].
           intros ->. cbn in Hnd. apply list.NoDup_cons in Hnd as [_ Hnd]. apply list.NoDup_cons in Hnd as [? _]. done.
        -- intros b Hb Hba. rewrite Hlk by done. rewrite blocks_cons in Hb.
           rewrite !bool_decide_eq_false_2; [done|set_solver|set_solver].
        -- intros b Hlb Hb. destruct (decide (b = a)) as [|Hba]; [auto|]. right.
           rewrite Hlk in Hlb by done. rewrite blocks_cons in Hb. cbn in Hb.
           apply elem_of_cons in Hb as [->|Hb]; [|done].
           rewrite bool_decide_eq_true_2 in Hlb by done. destruct Hlb; done.
  - assert (Hcap : m_capacity s h = Ret h (hi s - lo s)).
    { unfold m_capacity. mstep. done. }
    assert (Hmx : N.max (w64 (2 * (hi s - lo s))) x <= max_request).
    { rewrite w64_small; unfold addr_limit, max_request in *;
      change (2 ^ 64 - 4192) with 18446744073709547424 in *;
      change (2 ^ 64) with 18446744073709551616; change (2 ^ 62) with 4611686018427387904 in *; lia. }
    destruct (next_stacklet_some h f _ _ s orc _ Hok Hrep Hs Hmx) as [Hthr|(a & sa & Hret & Hfresh & Ha1 & Ha2 & Ha3 & Ha4 & Hok1)].
    + left. erewrite bind_thr; [done|]. cbv iota beta. mstep.
      erewrite bind_ret by exact Hcap. exact Hthr.
    + erewrite bind_ret by (mstep;
        erewrite bind_ret by exact Hcap; exact Hret).
      assert (Hane : forall b, is_Some (h !! b) -> b <> a) by (intros b [? Hb] ->; congruence).
      assert (Hlk : forall b, b <> a -> <[a:=sa]> (cut h f s (Some a)) !! b =
         if bool_decide (b = f) then Some (set_nxt s (Some a)) else h !! b).
      { intros b Hb. rewrite lookup_insert_ne by done. rewrite cut_lookup, Hnn.
        rewrite bool_decide_eq_false_2 by congruence. done. }
      assert (Hlive : forall b, b ∈ f :: (fst <$> rest) -> b <> a).
      { intros b Hb. apply Hane. eapply rep_live; eauto. }
      apply (Hgrow _ a sa); auto; try lia.
      * apply lookup_insert.
      * rewrite Hlk by (apply Hlive; set_solver).
        rewrite bool_decide_eq_true_2 by done. done.
      * intros Hin. specialize (Hlive a Hin). done.
      * intros b Hb. rewrite Hlk by (apply Hlive; set_solver). rewrite bool_decide_eq_false_2; [done|].
        intros ->. cbn in Hnd. apply list.NoDup_cons in Hnd as [? _]. done.
      * intros b Hb Hba. rewrite Hlk by done. rewrite blocks_cons in Hb.
        rewrite !bool_decide_eq_false_2; [done|set_solver].
Qed.

Lemma upd_refl h B : upd h h B B.
Proof. split; auto. Qed.

Lemma upd_trans h h1 h2 B B1 B2 : upd h h1 B B1 -> upd h1 h2 B1 B2 -> upd h h2 B B2.
Proof.
  intros [O1 N1 G1] [O2 N2 G2].
  assert (Hnone : forall (hh : heap) a, ~ is_Some (hh !! a) -> hh !! a = None).
  { intros hh a H. destruct (hh !! a); [exfalso; eauto|done]. }
  split.
  - intros a Ha Ha2. destruct (decide (a ∈ B1)) as [H1|H1].
    + destruct (N1 _ H1) as [?|Hn]; [done|]. rewrite Hn. apply Hnone. auto.
    + rewrite O2, O1; done.
  - intros a Ha. destruct (decide (a ∈ B)) as [|HB]; [auto|]. right.
    destruct (decide (a ∈ B1)) as [H1|H1].
    + destruct (N1 _ H1); done.
    + destruct (N2 _ Ha) as [?|Hn]; [done|]. rewrite <- Hn. symmetry. auto.
  - intros a Hs HB. destruct (decide (a ∈ B2)) as [|HB2]; [done|exfalso].
    destruct (decide (a ∈ B1)) as [H1|H1]; [auto|].
    rewrite O2 in Hs by done. auto.
Qed.

Lemma drop_cache h f segs cache s :
  heap_ok h -> rep h f segs cache -> h !! f = Some s ->
  heap_ok (cut h f s None) /\ rep (cut h f s None) f segs None
  /\ upd h (cut h f s None) (blocks segs cache) (blocks segs None).
Proof.
  intros Hok Hrep Hs. split; [apply cut_heap_ok; done|].
  pose proof (rep_nodup _ _ _ _ Hrep) as Hnd.
  destruct (rep_head_inv _ _ _ _ Hrep) as (al & rest & s' & -> & Hs' & Hn & Hal & Hrest).
  rewrite Hs in Hs'. injection Hs' as <-.
  rewrite !blocks_cons in *. apply NoDup_app in Hnd as (Hnd1 & Hnd2 & Hnd3).
  assert (Hcr : forall b, cache = Some b -> b ∉ f :: (fst <$> rest)).
  { intros b ->. apply Hnd2. set_solver. }
  split.
  - split; [done| |done|].
    + eapply chain_head_update; [apply Hrep|exact Hs| | | | | |].
      * rewrite cut_lookup. rewrite bool_decide_eq_false_2. { rewrite bool_decide_eq_true_2 by done. done. }
        rewrite Hn. intros H. apply Hcr in H. set_solver.
      * done.
      * done.
      * done.
      * auto.
      * intros b Hb. rewrite cut_lookup, Hn. rewrite bool_decide_eq_false_2.
        2:{ intros H. apply Hcr in H. set_solver. }
        rewrite bool_decide_eq_false_2; [done|]. intros ->. apply list.NoDup_cons in Hnd3 as [? _]. done.
    + rewrite blocks_cons. done.
  - split.
    + intros a Ha _. rewrite cut_lookup, Hn. rewrite bool_decide_eq_false_2.
      2:{ intros ->. set_solver. }
      rewrite bool_decide_eq_false_2; [done|]. intros ->. set_solver.
    + intros a Ha. left. set_solver.
    + intros a Hsa. rewrite elem_of_app. intros [Ha|Ha]; [|done]. exfalso.
      rewrite cut_lookup, Hn in Hsa. destruct cache as [n|]; [|set_solver].
      apply elem_of_list_singleton in Ha as ->. rewrite bool_decide_eq_true_2 in Hsa by done.
      destruct Hsa; done.
Qed.

Lemma head_nonempty h f segs cache x v :
  rep h f segs cache -> view segs = x :: v ->
  exists al rest, segs = (f, x :: al) :: rest /\ v = al ++ view rest.
Proof.
  intros Hrep Hv. destruct (rep_head_inv _ _ _ _ Hrep) as (al & rest & s & -> & Hs & Hn & Hal & Hrest).
  destruct Hrest as [[-> _]|(b & bl & rest' & -> & _ & (l & y & -> & _) & _)].
  - unfold view in Hv. cbn in Hv. rewrite app_nil_r in Hv. subst al. exists v, []. unfold view. cbn. rewrite app_nil_r. done.
  - unfold view in Hv. cbn in Hv. destruct l as [|z l]; cbn in Hv; injection Hv as -> <-; eauto.
Qed.

Lemma alloc_eq_sp s : set_sp s (sp s) = s.
Proof. destruct s; done. Qed.

(** The over-caching guard at the end of deallocate (stack.hpp:327-333), run on a represented stack. *)
Lemma guard_ok h f segs cache sf :
  heap_ok h -> rep h f segs cache -> h !! f = Some sf ->
  exists h' cache',
    (match nxt sf with
     | Some n => sn <-- m_get n;; (cn <-- m_capacity sn;; (cf <-- m_capacity sf;;
           (if w64 (8 * cf) <? cn then set_next f None else m_ret tt)))
     | None => m_ret tt
     end)%m h = Ret h' tt
    /\ heap_ok h' /\ rep h' f segs cache' /\ upd h h' (blocks segs cache) (blocks segs cache').
Proof.
  intros Hok Hrep Hsf.
  assert (Hn : nxt sf = cache).
  { destruct (rep_head_inv _ _ _ _ Hrep) as (al & rest & s' & -> & Hs' & Hn & _). congruence. }
  rewrite Hn. destruct cache as [n|].
  2:{ exists h, None. split; [done|]. split; [done|]. split; [done|]. apply upd_refl. }
  destruct (rep_cache _ _ _ _ Hrep) as (sn & Hsn & Hspn & Hnxn & Hprn).
  destruct (ho_block _ Hok _ _ Hsn) as (?&?&?&?&?&?).
  destruct (ho_block _ Hok _ _ Hsf) as (?&?&?&?&?&?).
  mstep.
  erewrite bind_ret by (unfold m_capacity; mstep; reflexivity).
  erewrite bind_ret by (unfold m_capacity; mstep; reflexivity). cbv beta.
  destruct (w64 (8 * capacity sf) <? capacity sn) eqn:Hc.
  - destruct (drop_cache _ _ _ _ _ Hok Hrep Hsf) as (?&?&?).
    exists (cut h f sf None), None. split; [|done]. eapply rep_cut; eauto.
  - exists h, (Some n). split; [done|]. split; [done|]. split; [done|]. apply upd_refl.
Qed.

Lemma stack_deallocate_ok h f segs cache x v :
  heap_ok h -> rep h f segs cache -> view segs = x :: v ->
  exists h' f' segs' cache', stack_deallocate f (a_ptr x) h = Ret h' f' /\ heap_ok h'
    /\ rep h' f' segs' cache' /\ view segs' = v /\ upd h h' (blocks segs cache) (blocks segs' cache').
Proof.
  intros Hok Hrep Hv. pose proof (is_top_ok _ _ _ _ Hrep) as Htop.
  destruct (head_nonempty _ _ _ _ _ _ Hrep Hv) as (al & rest & -> & ->).
  destruct (rep_head_inv _ _ _ _ Hrep) as (al0 & rest0 & s & [= <- <-] & Hs & Hn & Hal & Hrest).
  destruct (ho_block _ Hok _ _ Hs) as (Hb1 & Hb2 & Hb3 & Hb4 & Hb5 & Hb6).
  destruct Hal as (Hal1 & Hal2 & Hal3 & Hal).
  pose proof (allocs_ok_low _ _ _ _ Hal) as Hlow.
  unfold stack_deallocate. mstep. mstep. mstep. mstep.
  set (s1 := set_sp s (a_ptr x)). set (h1 := <[f:=s1]> h).
  assert (Hs1 : h1 !! f = Some s1) by apply lookup_insert.
  assert (Hok1 : heap_ok h1). { eapply heap_ok_update; eauto; cbn; lia. }
  pose proof (rep_nodup _ _ _ _ Hrep) as Hnd. rewrite blocks_cons in Hnd.
  assert (Hfrest : f ∉ (fst <$> rest)) by (apply NoDup_app in Hnd as (_ & _ & Hnd); apply list.NoDup_cons in Hnd; tauto).
  assert (Hfr1 : forall b, b <> f -> h1 !! b = h !! b).
  { intros b Hb. apply lookup_insert_ne. done. }
  erewrite bind_ret by (apply get_ok; exact Hs1). cbv beta.
  (* when the head segment can stay the head *)
  assert (Hstay : (rest = [] \/ oldest_nonempty al) ->
     rep h1 f ((f, al) :: rest) cache /\ upd h h1 (blocks ((f, x :: al) :: rest) cache) (blocks ((f, al) :: rest) cache)).
  { intros Hor. split; [split|].
    - done.
    - eapply chain_head_update; [apply Hrep|exact Hs|exact Hs1|done|done|done| |].
      + intros Hne _. destruct Hor; done.
      + intros b Hb. apply Hfr1. intros ->. done.
    - pose proof (rep_cache _ _ _ _ Hrep) as Hca. destruct cache as [n|]; [|done]. cbn in Hca |- *.
      destruct Hca as (sn & ? & ?). exists sn. rewrite Hfr1; [done|]. eapply cache_ne_head; eauto.
    - rewrite blocks_cons. done.
    - rewrite !blocks_cons. split; [|auto|auto]. intros b Hb _. apply Hfr1. set_solver. }
  destruct (slet_empty s1) eqn:Hemp; unfold slet_empty in Hemp; cbn in Hemp.
  2:{ (* not empty *)
    erewrite bind_ret by reflexivity. cbv beta.
    destruct Hstay as [Hrep1 Hupd1].
    { destruct Hrest as [[-> _]|(b & bl & rest' & -> & _ & (l & y & Hl & Hy) & _)]; [auto|]. right.
      destruct l as [|z l]; cbn in Hl; injection Hl as -> ->.
      - cbn in Hal. lia.
      - exists l, y. done. }
    erewrite bind_ret by (eapply is_top_ok; exact Hrep1). mstep.
    eexists h1, f, _, cache. split; [reflexivity|]. split; [done|]. split; [exact Hrep1|]. split; [done|]. done. }
  destruct Hrest as [[-> Hpr]|(b & bl & rest' & -> & Hpr & Hold & Hch)].
  - (* root segment *)
    destruct Hstay as [Hrep1 Hupd1]; [auto|].
    destruct (guard_ok _ _ _ _ _ Hok1 Hrep1 Hs1) as (h2 & cache2 & Hg & Hok2 & Hrep2 & Hupd2).
    assert (Hpr1 : prev s1 = None) by exact Hpr. rewrite Hpr1.
    erewrite bind_ret by (mstep; erewrite bind_ret by (apply get_ok; exact Hs1); cbv beta;
       erewrite bind_ret by exact Hg; reflexivity). cbv beta.
    erewrite bind_ret by (eapply is_top_ok; exact Hrep2). mstep.
    eexists h2, f, _, cache2. split; [reflexivity|]. split; [done|]. split; [exact Hrep2|]. split; [done|].
    eapply upd_trans; eauto.
  - (* leave an emptied segment *)
    assert (al = []) as ->.
    { destruct Hold as (l & y & Hl & Hy). destruct l as [|z l]; cbn in Hl; injection Hl as -> ->; [done|].
      exfalso. pose proof (allocs_ok_le _ _ _ _ y Hal) as [? ?]; [set_solver|]. lia. }
    assert (Hpr1 : prev s1 = Some b) by exact Hpr. rewrite Hpr1.
    assert (Hn1 : nxt s1 = cache) by exact Hn.
    assert (Hsn1 : set_next f None h1 = Ret (cut h1 f s1 None) tt).
    { apply set_next_ok; [done|]. intros c Hc. assert (cache = Some c) as -> by congruence.
      pose proof (cache_ne_head _ _ _ _ Hrep). split; [done|].
      destruct (rep_cache _ _ _ _ Hrep) as (sc & ? & ? & ? & _). exists sc. rewrite Hfr1 by done. done. }
    set (h2 := cut h1 f s1 None) in *.
    assert (Hok2 : heap_ok h2) by (apply cut_heap_ok; done).
    apply NoDup_app in Hnd as (Hnd1 & Hnd2 & Hnd3).
    assert (Hcr : forall c, cache = Some c -> c ∉ f :: (fst <$> (b, bl) :: rest')).
    { intros c ->. apply Hnd2. set_solver. }
    assert (Hlk : forall c, h2 !! c = if bool_decide (cache = Some c) then None
                   else if bool_decide (c = f) then Some (set_nxt s1 None) else h !! c).
    { intros c. unfold h2. rewrite cut_lookup, Hn1. case_bool_decide; [done|].
      case_bool_decide; [done|]. apply Hfr1. done. }
    assert (Hrest2 : forall c, c ∈ (fst <$> (b, bl) :: rest') -> h2 !! c = h !! c).
    { intros c Hc. rewrite Hlk. rewrite bool_decide_eq_false_2; [|intros E; apply Hcr in E; set_solver].
      rewrite bool_decide_eq_false_2; [done|]. intros ->. done. }
    assert (Hrep2 : rep h2 b ((b, bl) :: rest') (Some f)).
    { split.
      - done.
      - eapply chain_frame; [exact Hch|exact Hrest2].
      - exists (set_nxt s1 None). rewrite Hlk. rewrite bool_decide_eq_false_2.
        2:{ intros E. apply Hcr in E. set_solver. }
        rewrite bool_decide_eq_true_2 by done. cbn. split; [done|]. split; [lia|]. split; [done|]. done.
      - unfold blocks. exact Hnd3. }
    assert (Hupd2 : upd h h2 (blocks ((f, [x]) :: (b, bl) :: rest') cache) (blocks ((b, bl) :: rest') (Some f))).
    { rewrite blocks_cons. split.
      - intros c Hc _. rewrite Hlk. rewrite bool_decide_eq_false_2; [|intros ->; set_solver].
        rewrite bool_decide_eq_false_2; [done|set_solver].
      - intros c Hc. left. unfold blocks in Hc. set_solver.
      - intros c Hsc Hc. rewrite Hlk in Hsc. case_bool_decide as E; [destruct Hsc; done|].
        unfold blocks. apply elem_of_app in Hc as [Hc|Hc]; [destruct cache; set_solver|]. set_solver. }
    assert (exists sb, h2 !! b = Some sb) as [sb Hsb].
    { eapply rep_live; [exact Hrep2|]. unfold blocks. set_solver. }
    destruct (guard_ok _ _ _ _ _ Hok2 Hrep2 Hsb) as (h3 & cache3 & Hg & Hok3 & Hrep3 & Hupd3).
    erewrite bind_ret by (erewrite bind_ret by (erewrite bind_ret by exact Hsn1; reflexivity); cbv beta;
       erewrite bind_ret by (apply get_ok; exact Hsb); cbv beta;
       erewrite bind_ret by exact Hg; reflexivity). cbv beta.
    erewrite bind_ret by (eapply is_top_ok; exact Hrep3). mstep.
    eexists h3, b, _, cache3. split; [reflexivity|]. split; [done|]. split; [exact Hrep3|]. split; [done|].
    eapply upd_trans; eauto.
Qed.

(** ~stack on a stack without live allocations. *)
Lemma stack_dtor_ok h f segs cache :
  heap_ok h -> rep h f segs cache -> view segs = [] ->
  exists h', stack_dtor f h = Ret h' tt /\ heap_ok h' /\ upd h h' (blocks segs cache) [].
Proof.
  intros Hok Hrep Hv.
  destruct (rep_head_inv _ _ _ _ Hrep) as (al & rest & s & -> & Hs & Hn & Hal & Hrest).
  destruct Hrest as [[-> Hpr]|(b & bl & rest' & -> & _ & (l & y & -> & _) & _)].
  2:{ exfalso. unfold view in Hv. cbn in Hv. destruct l; done. }
  unfold stack_dtor. mstep. rewrite Hpr. mstep.
  erewrite bind_ret by (eapply rep_cut; eauto). cbv beta.
  destruct (drop_cache _ _ _ _ _ Hok Hrep Hs) as (Hok1 & Hrep1 & Hupd1).
  set (h1 := cut h f s None) in *.
  assert (exists s1, h1 !! f = Some s1) as [s1 Hs1].
  { eapply rep_live; [exact Hrep1|]. unfold blocks. set_solver. }
  unfold m_free. rewrite Hs1. eexists. split; [reflexivity|]. split; [apply heap_ok_delete; done|].
  eapply upd_trans; [exact Hupd1|]. unfold blocks. cbn. split.
  - intros a Ha _. rewrite lookup_delete_ne; [done|set_solver].
  - set_solver.
  - intros a Hsa Ha. assert (a = f) as -> by set_solver. rewrite lookup_delete in Hsa. destruct Hsa; done.
Qed.

(** ** The invariant of a world *)

Notation ghost := (gmap nat (list seg * option N)).

Record winv (w : world) (c : client) (g : ghost) : Prop := {
  inv_heap : heap_ok (wheap w);
  inv_some h segs cache : g !! h = Some (segs, cache) ->
     exists f, wst w !! h = Some f /\ rep (wheap w) f segs cache /\ c !! h = Some (view segs);
  inv_none h : g !! h = None -> wst w !! h = None /\ c !! h = None;
  inv_disj h1 h2 s1 c1 s2 c2 a : g !! h1 = Some (s1, c1) -> g !! h2 = Some (s2, c2) ->
          a ∈ blocks s1 c1 -> a ∈ blocks s2 c2 -> h1 = h2;
  inv_owned a : is_Some (wheap w !! a) -> exists h s c, g !! h = Some (s, c) /\ a ∈ blocks s c
}.

Lemma winv_client w c g h l :
  winv w c g -> c !! h = Some l ->
  exists segs cache f, g !! h = Some (segs, cache) /\ wst w !! h = Some f /\ rep (wheap w) f segs cache /\ l = view segs.
Proof.
  intros Hi Hc. destruct (g !! h) as [[segs cache]|] eqn:Hg.
  - destruct (inv_some _ _ _ Hi _ _ _ Hg) as (f & Hf & Hr & Hc'). exists segs, cache, f.
    repeat split; try done. all: try apply Hr. congruence.
  - apply (inv_none _ _ _ Hi) in Hg as [_ Hg]. congruence.
Qed.

(** The other stacks are untouched by a local update. *)
Lemma winv_other w c g h hp' B B' h2 s2 c2 f2 :
  winv w c g -> upd (wheap w) hp' B B' ->
  (forall a, a ∈ B -> exists s1 c1, g !! h = Some (s1, c1) /\ a ∈ blocks s1 c1) ->
  h2 <> h -> g !! h2 = Some (s2, c2) -> rep (wheap w) f2 s2 c2 ->
  rep hp' f2 s2 c2 /\ forall a, a ∈ blocks s2 c2 -> a ∉ B /\ a ∉ B'.
Proof.
  intros Hi [Ho Hn _] HB Hne Hg2 Hr.
  assert (Hout : forall a, a ∈ blocks s2 c2 -> a ∉ B /\ a ∉ B').
  { intros a Ha. assert (HaB : a ∉ B).
    { intros Hin. destruct (HB a Hin) as (s1 & c1 & Hg & Hin'). apply Hne. eapply (inv_disj _ _ _ Hi); eauto. }
    split; [done|]. intros Hin. destruct (Hn _ Hin) as [?|Hnone]; [done|].
    destruct (rep_live _ _ _ _ _ Hr Ha). congruence. }
  split; [|done]. eapply rep_frame; [done|]. intros a Ha. destruct (Hout a Ha). auto.
Qed.

Lemma winv_update w c g h hp' B f' segs' cache' :
  winv w c g -> heap_ok hp' -> rep hp' f' segs' cache' -> upd (wheap w) hp' B (blocks segs' cache') ->
  (forall a, a ∈ B <-> exists s1 c1, g !! h = Some (s1, c1) /\ a ∈ blocks s1 c1) ->
  winv (World hp' (<[h := f']> (wst w))) (<[h := view segs']> c) (<[h := (segs', cache')]> g).
Proof.
  intros Hi Hok Hrep Hupd HB.
  assert (HB1 : forall a, a ∈ B -> exists s1 c1, g !! h = Some (s1, c1) /\ a ∈ blocks s1 c1) by (intros a; apply HB).
  split; cbn.
  - done.
  - intros h2 s2 c2. rewrite lookup_insert_Some. intros [[<- [= <- <-]]|[Hne Hg2]].
    + exists f'. rewrite !lookup_insert. done.
    + rewrite !lookup_insert_ne by done. destruct (inv_some _ _ _ Hi _ _ _ Hg2) as (f2 & Hf2 & Hr2 & Hc2).
      exists f2. split; [done|]. split; [|done]. eapply winv_other; eauto.
  - intros h2. rewrite lookup_insert_None. intros [Hg2 Hne]. rewrite !lookup_insert_ne by done.
    apply (inv_none _ _ _ Hi). done.
  - intros h1 h2 s1 c1 s2 c2 a. rewrite !lookup_insert_Some.
    intros [[<- [= <- <-]]|[Hne1 Hg1]] [[<- [= <- <-]]|[Hne2 Hg2]] Ha1 Ha2; try done.
    + destruct (inv_some _ _ _ Hi _ _ _ Hg2) as (f2 & Hf2 & Hr2 & Hc2).
      destruct (winv_other _ _ _ h _ _ _ _ _ _ _ Hi Hupd HB1 (not_eq_sym Hne2) Hg2 Hr2) as [_ Hd].
      destruct (Hd _ Ha2). done.
    + destruct (inv_some _ _ _ Hi _ _ _ Hg1) as (f2 & Hf2 & Hr2 & Hc2).
      destruct (winv_other _ _ _ h _ _ _ _ _ _ _ Hi Hupd HB1 (not_eq_sym Hne1) Hg1 Hr2) as [_ Hd].
      destruct (Hd _ Ha1). done.
    + eapply (inv_disj _ _ _ Hi); eauto.
  - intros a Ha. destruct (decide (a ∈ blocks segs' cache')) as [Hin|Hnin].
    { exists h, segs', cache'. rewrite lookup_insert. done. }
    destruct (decide (a ∈ B)) as [HaB|HaB].
    { exfalso. apply Hnin. eapply upd_gone; eauto. }
    rewrite (upd_out _ _ _ _ Hupd) in Ha by done.
    destruct (inv_owned _ _ _ Hi _ Ha) as (h2 & s2 & c2 & Hg2 & Hin2).
    exists h2, s2, c2. split; [|done]. rewrite lookup_insert_ne; [done|]. intros <-. apply HaB, HB. eauto.
Qed.

Lemma winv_delete w c g h hp' segs cache :
  winv w c g -> heap_ok hp' -> g !! h = Some (segs, cache) -> upd (wheap w) hp' (blocks segs cache) [] ->
  winv (World hp' (delete h (wst w))) (delete h c) (delete h g).
Proof.
  intros Hi Hok Hg Hupd.
  assert (HB1 : forall a, a ∈ blocks segs cache -> exists s1 c1, g !! h = Some (s1, c1) /\ a ∈ blocks s1 c1) by eauto.
  split; cbn.
  - done.
  - intros h2 s2 c2. rewrite lookup_delete_Some. intros [Hne Hg2].
    rewrite !lookup_delete_ne by done. destruct (inv_some _ _ _ Hi _ _ _ Hg2) as (f2 & Hf2 & Hr2 & Hc2).
    exists f2. split; [done|]. split; [|done]. eapply winv_other; eauto.
  - intros h2. rewrite lookup_delete_None. intros [<-|Hg2]; [rewrite !lookup_delete; done|].
    destruct (inv_none _ _ _ Hi _ Hg2) as [? ?]. rewrite !lookup_delete_None. auto.
  - intros h1 h2 s1 c1 s2 c2 a [_ H1]%lookup_delete_Some [_ H2]%lookup_delete_Some.
    eapply (inv_disj _ _ _ Hi); eauto.
  - intros a Ha. destruct (decide (a ∈ blocks segs cache)) as [HaB|HaB].
    { exfalso. assert (a ∈ ([] : list N)) by (eapply upd_gone; eauto). set_solver. }
    rewrite (upd_out _ _ _ _ Hupd) in Ha by set_solver.
    destruct (inv_owned _ _ _ Hi _ Ha) as (h2 & s2 & c2 & Hg2 & Hin2).
    exists h2, s2, c2. split; [|done]. rewrite lookup_delete_ne; [done|]. intros <-. apply HaB. congruence.
Qed.

(** The same stack under another name. *)
Lemma winv_rename w c g h t segs cache f :
  winv w c g -> g !! h = Some (segs, cache) -> wst w !! h = Some f -> g !! t = None -> 
  winv (World (wheap w) (<[t := f]> (delete h (wst w)))) (<[t := view segs]> (delete h c)) (<[t := (segs, cache)]> (delete h g)).
Proof.
  intros Hi Hg Hf Ht. assert (Hht : h <> t) by congruence.
  split; cbn.
  - apply Hi.
  - intros h2 s2 c2. rewrite lookup_insert_Some, lookup_delete_Some. intros [[<- [= <- <-]]|[Hne1 [Hne2 Hg2]]].
    + exists f. rewrite !lookup_insert. destruct (inv_some _ _ _ Hi _ _ _ Hg) as (f2 & Hf2 & Hr2 & Hc2).
      split; [done|]. split; [congruence|done].
    + rewrite !lookup_insert_ne, !lookup_delete_ne by done. apply Hi. done.
  - intros h2. rewrite lookup_insert_None, lookup_delete_None. intros [[<-|Hg2] Hne].
    + rewrite !lookup_insert_ne, !lookup_delete by done. done.
    + rewrite !lookup_insert_ne by done. destruct (inv_none _ _ _ Hi _ Hg2). rewrite !lookup_delete_None. auto.
  - intros h1 h2 s1 c1 s2 c2 a. rewrite !lookup_insert_Some, !lookup_delete_Some.
    intros [[<- [= <- <-]]|[Hne1 [Hnh1 Hg1]]] [[<- [= <- <-]]|[Hne2 [Hnh2 Hg2]]] Ha1 Ha2; try done.
    + exfalso. apply Hnh2. eapply (inv_disj _ _ _ Hi); eauto.
    + exfalso. apply Hnh1. eapply (inv_disj _ _ _ Hi); eauto.
    + eapply (inv_disj _ _ _ Hi); eauto.
  - intros a Ha. destruct (inv_owned _ _ _ Hi _ Ha) as (h2 & s2 & c2 & Hg2 & Hin2).
    destruct (decide (h2 = h)) as [->|Hne].
    + exists t, s2, c2. rewrite lookup_insert. split; [congruence|done].
    + exists h2, s2, c2. split; [|done]. rewrite lookup_insert_ne by congruence. rewrite lookup_delete_ne; done.
Qed.

Lemma winv_init : winv init ∅ ∅.
Proof.
  split; cbn.
  - split; intros *; rewrite lookup_empty; done.
  - intros *. rewrite lookup_empty. done.
  - intros h _. rewrite !lookup_empty. done.
  - intros *. rewrite lookup_empty. done.
  - intros a. rewrite lookup_empty. intros [? ?]. done.
Qed.

Lemma rep_fresh h a s :
  h !! a = None -> sp s = lo s -> prev s = None -> nxt s = None ->
  rep (<[a := s]> h) a [(a, [])] None /\ upd h (<[a := s]> h) [] (blocks [(a, [])] None).
Proof.
  intros Hn H1 H2 H3. split; [split|].
  - done.
  - exists s. rewrite lookup_insert. done.
  - done.
  - unfold blocks. cbn. apply NoDup_singleton.
  - unfold blocks. cbn. split.
    + intros b _ Hb. apply lookup_insert_ne. set_solver.
    + intros b Hb. right. set_solver.
    + set_solver.
Qed.

Lemma winv_new w c g h a s :
  winv w c g -> g !! h = None -> wheap w !! a = None -> sp s = lo s -> prev s = None -> nxt s = None ->
  heap_ok (<[a := s]> (wheap w)) ->
  winv (World (<[a := s]> (wheap w)) (<[h := a]> (wst w))) (<[h := []]> c) (<[h := ([(a, [])], None)]> g).
Proof.
  intros Hi Hg Ha H1 H2 H3 Hok. destruct (rep_fresh _ _ _ Ha H1 H2 H3) as [Hr Hu].
  refine (winv_update w c g h _ [] a [(a, [])] None Hi Hok Hr Hu _). intros b. split; [set_solver|].
  intros (s1 & c1 & Hg' & _). congruence.
Qed.

Lemma winv_wst w c g h f : winv w c g -> wst w !! h = Some f -> exists segs cache, g !! h = Some (segs, cache).
Proof.
  intros Hi Hf. destruct (g !! h) as [[? ?]|] eqn:Hg; [eauto|]. apply (inv_none _ _ _ Hi) in Hg as [? _]. congruence.
Qed.

Lemma winv_gnone w c g h : winv w c g -> c !! h = None -> g !! h = None.
Proof.
  intros Hi Hc. destruct (g !! h) as [[segs cache]|] eqn:Hg; [|done].
  destruct (inv_some _ _ _ Hi _ _ _ Hg) as (f & _ & _ & H). congruence.
Qed.

Lemma world_eta w : World (wheap w) (wst w) = w.
Proof. destruct w; done. Qed.

(** [empty()] reports whether every live allocation has zero extent. *)
Lemma stack_empty_ok h f segs cache :
  heap_ok h -> rep h f segs cache ->
  stack_empty f h = Ret h (forallb (fun a => ext_size (a_size a) =? 0) (view segs)).
Proof.
  intros Hok Hrep. pose proof (is_top_ok _ _ _ _ Hrep) as Ht.
  destruct (rep_head_inv _ _ _ _ Hrep) as (al & rest & s & -> & Hs & Hn & Hal & Hrest).
  unfold stack_empty. mstep. mstep. mstep. unfold m_ret. f_equal. unfold slet_empty.
  destruct Hrest as [[-> ->]|(b & bl & rest' & -> & -> & Ho & _)].
  - rewrite bool_decide_eq_true_2 by done. rewrite andb_true_r. unfold view. cbn. rewrite app_nil_r.
    clear -Hal. revert Hal. generalize (sp s) (lo s). induction al as [|x r IH]; cbn; intros t lw.
    + intros ->. apply N.eqb_refl.
    + intros (H1 & H2 & _ & H3). rewrite <- (IH _ _ H3). pose proof (allocs_ok_low _ _ _ _ H3). lia.
  - rewrite bool_decide_eq_false_2 by done. rewrite andb_false_r. symmetry.
    apply not_true_is_false. rewrite forallb_forall. intros H.
    destruct Ho as (l & y & -> & Hy). specialize (H y). cbn in H. rewrite (proj2 (N.eqb_neq _ _)) in H by lia.
    discriminate H. unfold view. cbn. rewrite <- app_assoc. apply in_or_app. right. left. done.
Qed.

Lemma blocks_iff (g : ghost) h segs cache :
  g !! h = Some (segs, cache) ->
  forall a, a ∈ blocks segs cache <-> exists s1 c1, g !! h = Some (s1, c1) /\ a ∈ blocks s1 c1.
Proof. intros Hg a. split; [eauto|]. intros (s1 & c1 & Hg1 & Ha). congruence. Qed.

(** One legal operation: never undefined behaviour, keeps the invariant, and an
    operation that throws changes nothing. *)
Lemma step_ok w c g o w' r :
  winv w c g -> legal c o -> step w o = (w', r) ->
  r <> RUB /\ (exists g', winv w' (client_step c o r (tops w')) g') /\ (r = RThrow -> w' = w).
Proof.
  intros Hi Hleg Hst. pose proof (inv_heap _ _ _ Hi) as Hok.
  destruct o as [h orc|h|h size orc|h p|h t orc|h t|h|h]; cbn [legal step] in *.
  - (* ONew *)
    pose proof (winv_gnone _ _ _ _ Hi Hleg) as Hg. destruct (inv_none _ _ _ Hi _ Hg) as [Hw _]. rewrite Hw in Hst.
    unfold stack_ctor in Hst.
    destruct (next_stacklet_root (wheap w) orc Hok) as [Ht|(a & s & Ht & Ha & H1 & H2 & H3 & Hok')]; rewrite Ht in Hst; injection Hst as <- <-.
    + rewrite world_eta. cbn. eauto.
    + split; [done|]. split; [|done]. cbn. eexists. apply winv_new; eauto.
  - (* ODestroy *)
    destruct (winv_client _ _ _ _ _ Hi Hleg) as (segs & cache & f & Hg & Hf & Hr & Hv). rewrite Hf in Hst.
    destruct (stack_dtor_ok _ _ _ _ Hok Hr (eq_sym Hv)) as (h' & Hd & Hok' & Hu). rewrite Hd in Hst. injection Hst as <- <-.
    split; [done|]. split; [|done]. cbn. eexists. eapply winv_delete; eauto.
  - (* OAlloc *)
    destruct Hleg as [[l Hl] Hsz].
    destruct (winv_client _ _ _ _ _ Hi Hl) as (segs & cache & f & Hg & Hf & Hr & ->). rewrite Hf in Hst.
    destruct (stack_allocate_ok _ _ _ _ orc _ Hok Hr Hsz) as [Ht|(h' & f' & p & segs' & cache' & Ht & Hok' & Hr' & Hv' & Hu)];
      rewrite Ht in Hst; injection Hst as <- <-.
    + rewrite world_eta. cbn. eauto.
    + split; [done|]. split; [|done]. cbn. unfold tops. cbn. rewrite Hl, lookup_insert, <- Hv'. eexists.
      eapply winv_update; eauto. apply blocks_iff. done.
  - (* ODealloc *)
    destruct Hleg as (a & l & Hl & ->).
    destruct (winv_client _ _ _ _ _ Hi Hl) as (segs & cache & f & Hg & Hf & Hr & Hv). rewrite Hf in Hst.
    destruct (stack_deallocate_ok _ _ _ _ _ _ Hok Hr (eq_sym Hv)) as (h' & f' & segs' & cache' & Ht & Hok' & Hr' & Hv' & Hu).
    rewrite Ht in Hst; injection Hst as <- <-.
    split; [done|]. split; [|done]. cbn. rewrite Hl, <- Hv'. eexists. eapply winv_update; eauto. apply blocks_iff. done.
  - (* ORelease *)
    destruct Hleg as [[l Hl] Ht].
    destruct (winv_client _ _ _ _ _ Hi Hl) as (segs & cache & f & Hg & Hf & Hr & ->).
    pose proof (winv_gnone _ _ _ _ Hi Ht) as Hgt. destruct (inv_none _ _ _ Hi _ Hgt) as [Hwt _].
    rewrite Hf, Hwt in Hst. unfold stack_release in Hst.
    destruct (next_stacklet_root (wheap w) orc Hok) as [Hn|(a & s & Hn & Ha & H1 & H2 & H3 & Hok')].
    + erewrite bind_thr in Hst by exact Hn. injection Hst as <- <-. rewrite world_eta. cbn. eauto.
    + erewrite bind_ret in Hst by exact Hn. cbn in Hst. injection Hst as <- <-.
      split; [done|]. split; [|done]. cbn. rewrite Hl. eexists.
      pose proof (winv_rename _ _ _ _ _ _ _ _ Hi Hg Hf Hgt) as Hi2.
      assert (Hht : h <> t) by congruence.
      eapply (winv_new _ _ _ h a s) in Hi2; eauto.
      2:{ rewrite lookup_insert_ne by done. apply lookup_delete. }
      cbn in Hi2. rewrite !(insert_commute _ h t) in Hi2 by done. rewrite !insert_delete_insert in Hi2. exact Hi2.
  - (* OAdopt *)
    destruct Hleg as (Hht & Hl & [lt Hlt]).
    destruct (winv_client _ _ _ _ _ Hi Hl) as (segs & cache & f & Hg & Hf & Hr & Hv).
    destruct (winv_client _ _ _ _ _ Hi Hlt) as (segst & cachet & ft & Hgt & Hft & Hrt & ->).
    rewrite Hf, Hft in Hst.
    destruct (stack_dtor_ok _ _ _ _ Hok Hr (eq_sym Hv)) as (h' & Hd & Hok' & Hu).
    erewrite bind_ret in Hst by (unfold stack_from; erewrite bind_ret by (eapply is_top_ok; exact Hrt); mstep; reflexivity).
    erewrite bind_ret in Hst by exact Hd. cbn in Hst. injection Hst as <- <-.
    split; [done|]. split; [|done]. cbn. rewrite Hlt. 
    pose proof (winv_delete _ _ _ _ _ _ _ Hi Hok' Hg Hu) as Hi2.
    eexists. pose proof (winv_rename _ _ _ t h segst cachet ft Hi2) as Hi3. cbn in Hi3.
    rewrite !(delete_commute _ t h) in Hi3. rewrite !insert_delete_insert in Hi3. apply Hi3.
    + rewrite lookup_delete_ne; done.
    + rewrite lookup_delete_ne; done.
    + apply lookup_delete.
  - (* OEmpty *)
    destruct Hleg as [l Hl].
    destruct (winv_client _ _ _ _ _ Hi Hl) as (segs & cache & f & Hg & Hf & Hr & Hv). rewrite Hf in Hst.
    rewrite (stack_empty_ok _ _ _ _ Hok Hr) in Hst. injection Hst as <- <-. rewrite world_eta. cbn. eauto.
  - (* OTop *)
    destruct Hleg as [l Hl].
    destruct (winv_client _ _ _ _ _ Hi Hl) as (segs & cache & f & Hg & Hf & Hr & Hv). rewrite Hf in Hst.
    unfold stack_top in Hst. erewrite bind_ret in Hst by (eapply is_top_ok; exact Hr).
    cbn in Hst. injection Hst as <- <-. rewrite world_eta. cbn. eauto.
Qed.

Lemma reach_winv w c : reach w c -> exists g, winv w c g.
Proof.
  induction 1 as [|w c o w' r Hr [g IH] Hl Hs]; [eexists; apply winv_init|].
  destruct (step_ok _ _ _ _ _ _ IH Hl Hs) as (_ & ? & _). done.
Qed.

(** ** Consequences for clients *)

Lemma allocs_ok_align low al top blk x :
  low mod 16 = 0 -> allocs_ok low al top blk -> x ∈ al -> a_ptr x mod 16 = 0.
Proof.
  intros Hl Hal. revert x.
  assert (Ht : top mod 16 = 0 /\ forall x, x ∈ al -> a_ptr x mod 16 = 0); [|apply Ht].
  revert top Hal. induction al as [|y r IH]; cbn; intros top.
  - intros ->. split; [done|]. set_solver.
  - intros (H1 & H2 & _ & H3). destruct (ext_size_spec _ H2) as (_ & _ & He & _).
    destruct (IH _ H3) as [Hy Hr]. split; [lia|]. intros x. rewrite elem_of_cons. intros [->|Hx]; auto.
Qed.

Lemma chain_alloc h nx segs x :
  heap_ok h -> chain h nx segs -> x ∈ view segs ->
  a_top x ∈ (fst <$> segs) /\ exists s, h !! a_top x = Some s /\ a_ptr x mod 16 = 0 /\ lo s <= a_ptr x
   /\ a_ptr x + ext_size (a_size x) <= sp s /\ a_size x <= max_request.
Proof.
  intros Hok. revert nx. induction segs as [|[b al] rest IH]; intros nx; [done|].
  cbn [chain]. intros (s & Hs & _ & Hal & Hr). unfold view. cbn. rewrite elem_of_app. intros [Hx|Hx].
  - assert (Ht : a_top x = b /\ a_size x <= max_request).
    { clear -Hal Hx. revert Hal Hx. generalize (sp s). induction al as [|y r IH]; cbn; intros t; [set_solver|].
      intros (_ & H2 & H3 & H4). rewrite elem_of_cons. intros [->|Hx]; [auto|eauto]. }
    destruct Ht as [-> Hsz]. split; [set_solver|]. exists s. destruct (ho_block _ Hok _ _ Hs) as (?&?&?&?&?&?).
    unfold sizeof_stacklet in *.
    split; [done|]. split; [eapply allocs_ok_align; [|done|done]; lia|].
    pose proof (allocs_ok_le _ _ _ _ _ Hal Hx). tauto.
  - destruct rest as [|[c cl] rest]; [set_solver|]. destruct Hr as (_ & _ & Hc).
    destruct (IH _ Hc) as [H1 H2]; [done|]. split; [|done]. cbn in *. set_solver.
Qed.

Lemma view_pair h nx segs i j x y :
  heap_ok h -> chain h nx segs -> NoDup (fst <$> segs) -> (i < j)%nat ->
  view segs !! i = Some x -> view segs !! j = Some y ->
  a_top x <> a_top y \/ a_ptr y + ext_size (a_size y) <= a_ptr x.
Proof.
  intros Hok. revert nx i j. induction segs as [|[b al] rest IH]; intros nx i j; [done|].
  intros Hch Hnd Hij. pose proof Hch as (s & Hs & _ & Hal & Hr). unfold view. cbn.
  rewrite !lookup_app_Some. cbn in Hnd. apply list.NoDup_cons in Hnd as [Hb Hnd].
  assert (Htop : forall z, z ∈ al -> a_top z = b).
  { clear -Hal. revert Hal. generalize (sp s). induction al as [|y r IH]; cbn; intros t; [set_solver|].
    intros (_ & H2 & H3 & H4) z. rewrite elem_of_cons. intros [->|Hx]; [auto|eauto]. }
  assert (Hrest : forall z, z ∈ view rest -> a_top z ∈ (fst <$> rest)).
  { intros z Hz. destruct rest as [|[c cl] rest]; [set_solver|]. destruct Hr as (_ & _ & Hc).
    eapply chain_alloc; eauto. }
  intros [Hi|[Hi Hi']] [Hj|[Hj Hj']].
  - right. clear -Hal Hi Hj Hij. revert Hal i j Hi Hj Hij. generalize (sp s).
    induction al as [|u r IH]; intros t Hal i j Hi Hj Hij; [done|].
    destruct j as [|j]; [lia|]. cbn in Hj. destruct Hal as (H1 & H2 & H3 & Hal). destruct i as [|i].
    + cbn in Hi. injection Hi as ->. pose proof (allocs_ok_le _ _ _ _ y Hal) as [_ ?]; [|done].
      eapply elem_of_list_lookup_2; eauto.
    + cbn in Hi. eapply IH; eauto. lia.
  - left. intros He. rewrite (Htop x) in He by (eapply elem_of_list_lookup_2; eauto).
    apply Hb. rewrite He. apply Hrest. eapply elem_of_list_lookup_2; eauto.
  - exfalso. apply lookup_lt_Some in Hj. lia.
  - destruct rest as [|[c cl] rest]; [done|]. destruct Hr as (_ & _ & Hc).
    eapply (IH _ (i - length al)%nat (j - length al)%nat); eauto. lia.
Qed.

Lemma reach_alloc_placed w c h l x :
  reach w c -> c !! h = Some l -> x ∈ l ->
  exists b s, wheap w !! b = Some s /\ a_top x = b /\ a_ptr x mod 16 = 0 /\ b + sizeof_stacklet <= a_ptr x
    /\ a_ptr x + a_size x <= sp s /\ sp s <= hi s /\ a_ptr x + ext_size (a_size x) <= sp s /\ hi s <= addr_limit.
Proof.
  intros Hr Hc Hx. destruct (reach_winv _ _ Hr) as [g Hi].
  destruct (winv_client _ _ _ _ _ Hi Hc) as (segs & cache & f & Hg & Hf & Hrep & ->).
  destruct (chain_alloc _ _ _ _ (inv_heap _ _ _ Hi) (rep_chain _ _ _ _ Hrep) Hx) as (_ & s & Hs & Hal & Hlo & Hsp & Hsz).
  destruct (ho_block _ (inv_heap _ _ _ Hi) _ _ Hs) as (?&?&?&?&?&?).
  destruct (ext_size_spec _ Hsz) as (?&?&?&?).
  exists (a_top x), s. split; [done|]. split; [done|]. split; [done|]. split; [lia|]. lia.
Qed.

Lemma reach_top_in w c g h segs cache f x :
  winv w c g -> g !! h = Some (segs, cache) -> wst w !! h = Some f -> x ∈ view segs ->
  a_top x ∈ blocks segs cache.
Proof.
  intros Hi Hg Hf Hx. destruct (inv_some _ _ _ Hi _ _ _ Hg) as (f' & Hf' & Hrep & _).
  destruct (chain_alloc _ _ _ _ (inv_heap _ _ _ Hi) (rep_chain _ _ _ _ Hrep) Hx) as (H & _).
  unfold blocks. set_solver.
Qed.

Lemma reach_disjoint w c h1 h2 i j l1 l2 x y :
  reach w c -> c !! h1 = Some l1 -> c !! h2 = Some l2 -> l1 !! i = Some x -> l2 !! j = Some y ->
  (h1, i) <> (h2, j) -> ~ overlap x y.
Proof.
  intros Hr Hc1 Hc2 Hx Hy Hne [Ho1 Ho2].
  pose proof (elem_of_list_lookup_2 _ _ _ Hx) as Hx'. pose proof (elem_of_list_lookup_2 _ _ _ Hy) as Hy'.
  destruct (reach_alloc_placed _ _ _ _ _ Hr Hc1 Hx') as (b1 & s1 & Hs1 & Ht1 & _ & Hp1 & Hq1 & Hz1 & Hw1 & _).
  destruct (reach_alloc_placed _ _ _ _ _ Hr Hc2 Hy') as (b2 & s2 & Hs2 & Ht2 & _ & Hp2 & Hq2 & Hz2 & Hw2 & _).
  destruct (reach_winv _ _ Hr) as [g Hi].
  destruct (winv_client _ _ _ _ _ Hi Hc1) as (segs & cache & f & Hg & Hf & Hrep & ->).
  destruct (winv_client _ _ _ _ _ Hi Hc2) as (segs2 & cache2 & f2 & Hg2 & Hf2 & Hrep2 & ->).
  destruct (decide (b1 = b2)) as [Heq|Hneq].
  - assert (h1 = h2) as ->.
    { eapply (inv_disj _ _ _ Hi _ _ _ _ _ _ b1); eauto.
      - rewrite <- Ht1. eapply reach_top_in; eauto.
      - rewrite Heq, <- Ht2. eapply reach_top_in; eauto. }
    rewrite Hg in Hg2. injection Hg2 as <- <-.
    pose proof (rep_nodup _ _ _ _ Hrep) as Hnd. unfold blocks in Hnd. apply NoDup_app in Hnd as (_ & _ & Hnd).
    assert (Hij : i <> j) by congruence.
    pose proof (inv_heap _ _ _ Hi) as Hok. pose proof (rep_chain _ _ _ _ Hrep) as Hch.
    destruct (chain_alloc _ _ _ _ Hok Hch Hx') as (_ & _ & _ & _ & _ & _ & Hszx).
    destruct (chain_alloc _ _ _ _ Hok Hch Hy') as (_ & _ & _ & _ & _ & _ & Hszy).
    destruct (ext_size_spec _ Hszx) as (?&?&?&?). destruct (ext_size_spec _ Hszy) as (?&?&?&?).
    destruct (decide (i < j)%nat) as [Hlt|Hge].
    + destruct (view_pair _ _ _ _ _ _ _ Hok Hch Hnd Hlt Hx Hy); [congruence|lia].
    + assert (Hlt : (j < i)%nat) by lia. destruct (view_pair _ _ _ _ _ _ _ Hok Hch Hnd Hlt Hy Hx); [congruence|lia].
  - destruct (ho_disj _ (inv_heap _ _ _ Hi) _ _ _ _ Hs1 Hs2 Hneq); unfold sizeof_stacklet in *; lia.
Qed.

Lemma reach_step_safe w c o w' r :
  reach w c -> legal c o -> step w o = (w', r) -> r <> RUB.
Proof.
  intros Hr Hl Hs. destruct (reach_winv _ _ Hr) as [g Hi]. eapply step_ok; eauto.
Qed.

Lemma reach_throw_same w c o w' :
  reach w c -> legal c o -> step w o = (w', RThrow) -> w' = w.
Proof.
  intros Hr Hl Hs. destruct (reach_winv _ _ Hr) as [g Hi].
  destruct (step_ok _ _ _ _ _ _ Hi Hl Hs) as (_ & _ & H). auto.
Qed.

Lemma reach_handles w c h : reach w c -> is_Some (wst w !! h) <-> is_Some (c !! h).
Proof.
  intros Hr. destruct (reach_winv _ _ Hr) as [g Hi]. destruct (g !! h) as [[segs cache]|] eqn:Hg.
  - destruct (inv_some _ _ _ Hi _ _ _ Hg) as (f & -> & _ & ->). split; eauto.
  - destruct (inv_none _ _ _ Hi _ Hg) as [-> ->]. split; intros [? ?]; done.
Qed.

Lemma reach_no_leak w : reach w ∅ -> wheap w = ∅ /\ wst w = ∅.
Proof.
  intros Hr. destruct (reach_winv _ _ Hr) as [g Hi].
  assert (Hg : forall h, g !! h = None). { intros h. eapply winv_gnone; eauto. }
  split.
  - apply map_eq. intros a. rewrite lookup_empty. destruct (wheap w !! a) eqn:Ha; [|done].
    destruct (inv_owned _ _ _ Hi a) as (h & s1 & c1 & Hh & _); [eauto|]. rewrite Hg in Hh. done.
  - apply map_eq. intros a. rewrite lookup_empty. apply (inv_none _ _ _ Hi). done.
Qed.

(** The number of live heap blocks is bounded by the live allocations: one root
    and at most one cached block per stack, and one block per live allocation. *)
Lemma chain_length h nx segs : chain h nx segs -> (length segs <= S (length (view segs)))%nat.
Proof.
  revert nx. induction segs as [|[b al] rest IH]; intros nx; [done|].
  cbn [chain]. intros (s & _ & _ & _ & Hr). unfold view. cbn. rewrite app_length.
  destruct rest as [|[c cl] rest]; [cbn; lia|]. destruct Hr as (_ & (l & y & -> & _) & Hc).
  apply IH in Hc. unfold view in Hc. rewrite app_length. cbn in *. lia.
Qed.

Lemma rep_blocks_length h f segs cache : rep h f segs cache -> (length (blocks segs cache) <= length (view segs) + 2)%nat.
Proof.
  intros [_ Hc _ _]. apply chain_length in Hc. unfold blocks. rewrite app_length, fmap_length.
  destruct cache; cbn [length]; lia.
Qed.

Lemma length_mjoin_le {A B} (f : A -> list B) (k : A -> nat) (l : list A) :
  (forall x, x ∈ l -> (length (f x) <= k x)%nat) -> (length (mjoin (f <$> l)) <= sum_list (k <$> l))%nat.
Proof.
  induction l as [|x l IH]; intros H; [cbn; lia|].
  change (mjoin (f <$> x :: l)) with (f x ++ mjoin (f <$> l)).
  change (sum_list (k <$> x :: l)) with (k x + sum_list (k <$> l))%nat. rewrite app_length.
  assert (length (f x) <= k x)%nat by (apply H; set_solver).
  assert (length (mjoin (f <$> l)) <= sum_list (k <$> l))%nat by (apply IH; set_solver). lia.
Qed.

Lemma reach_blocks_bounded w c :
  reach w c -> (size (wheap w) <= sum_list ((fun p => length (snd p) + 2) <$> map_to_list c))%nat.
Proof.
  intros Hr. destruct (reach_winv _ _ Hr) as [g Hi].
  assert (Hc : c = (fun x => view (fst x)) <$> g).
  { apply map_eq. intros h. rewrite lookup_fmap. destruct (g !! h) as [[segs cache]|] eqn:Hg; cbn.
    - destruct (inv_some _ _ _ Hi _ _ _ Hg) as (f & _ & _ & ->). done.
    - apply (inv_none _ _ _ Hi). done. }
  rewrite Hc, map_to_list_fmap, <- list_fmap_compose.
  set (bl := mjoin ((fun p => blocks (fst (snd p)) (snd (snd p))) <$> map_to_list g)).
  transitivity (length bl).
  - rewrite <- size_dom. transitivity (size (list_to_set bl : gset N)).
    2:{ rewrite size_list_to_set_dup || idtac.
        clear. generalize bl. intros l. induction l as [|x l IH]; cbn; [rewrite size_empty; lia|].
        rewrite size_union_alt. assert (size (list_to_set l ∖ {[x]} : gset N) <= size (list_to_set l : gset N))%nat by (apply subseteq_size; set_solver).
        rewrite size_singleton. 
        assert (size ((list_to_set l : gset N) ∖ {[x]}) <= length l)%nat by lia. lia. }
    apply subseteq_size. intros a Ha. apply elem_of_dom in Ha.
    destruct (inv_owned _ _ _ Hi _ Ha) as (h & segs & cache & Hg & Hin).
    apply elem_of_list_to_set. apply elem_of_list_join. exists (blocks segs cache). split; [done|].
    apply elem_of_list_fmap. exists (h, (segs, cache)). split; [done|]. apply elem_of_map_to_list. done.
  - unfold bl. assert (Hall : forall p, p ∈ map_to_list g -> (length (blocks (fst (snd p)) (snd (snd p))) <= length (view (fst (snd p))) + 2)%nat).
    { intros [h [segs cache]] Hp. apply elem_of_map_to_list in Hp. cbn.
      destruct (inv_some _ _ _ Hi _ _ _ Hp) as (f & _ & Hrep & _). eapply rep_blocks_length; eauto. }
    etransitivity; [eapply length_mjoin_le, Hall|]. apply Nat.eq_le_incl. done.
Qed.

(** [top()] is the block recorded by the newest live allocation, and never the
    block recorded by an allocation of another stack. *)
Lemma reach_top_newest w c h x l : reach w c -> c !! h = Some (x :: l) -> tops w h = Some (a_top x).
Proof.
  intros Hr Hc. destruct (reach_winv _ _ Hr) as [g Hi].
  destruct (winv_client _ _ _ _ _ Hi Hc) as (segs & cache & f & Hg & Hf & Hrep & Hv).
  destruct (head_nonempty _ _ _ _ _ _ Hrep (eq_sym Hv)) as (al & rest & -> & ->).
  destruct (rep_head_inv _ _ _ _ Hrep) as (al' & rest' & s & [= <- <-] & Hs & _ & Hal & _).
  destruct Hal as (_ & _ & -> & _). exact Hf.
Qed.

Lemma reach_top_owner w c h h' x l :
  reach w c -> c !! h = Some l -> x ∈ l -> tops w h' = Some (a_top x) -> h' = h.
Proof.
  intros Hr Hc Hx Ht. destruct (reach_winv _ _ Hr) as [g Hi].
  destruct (winv_client _ _ _ _ _ Hi Hc) as (segs & cache & f & Hg & Hf & Hrep & ->).
  destruct (winv_wst _ _ _ _ _ Hi Ht) as (segs' & cache' & Hg').
  destruct (inv_some _ _ _ Hi _ _ _ Hg') as (f' & Hf' & Hrep' & _).
  eapply (inv_disj _ _ _ Hi _ _ _ _ _ _ (a_top x)); eauto.
  - destruct (rep_head_inv _ _ _ _ Hrep') as (al & rest & s & -> & _).
    unfold tops in Ht. rewrite Hf' in Ht. injection Ht as ->. unfold blocks. set_solver.
  - eapply reach_top_in; eauto.
Qed.

Lemma reach_tops_distinct w c h h' f :
  reach w c -> tops w h = Some f -> tops w h' = Some f -> h = h'.
Proof.
  intros Hr H1 H2. destruct (reach_winv _ _ Hr) as [g Hi].
  destruct (winv_wst _ _ _ _ _ Hi H1) as (s1 & c1 & Hg1). destruct (winv_wst _ _ _ _ _ Hi H2) as (s2 & c2 & Hg2).
  destruct (inv_some _ _ _ Hi _ _ _ Hg1) as (f1 & Hf1 & Hr1 & _).
  destruct (inv_some _ _ _ Hi _ _ _ Hg2) as (f2 & Hf2 & Hr2 & _).
  unfold tops in *. assert (f1 = f) as -> by congruence. assert (f2 = f) as -> by congruence.
  eapply (inv_disj _ _ _ Hi _ _ _ _ _ _ f); eauto.
  - destruct (rep_head_inv _ _ _ _ Hr1) as (al & rest & s & -> & _). unfold blocks. set_solver.
  - destruct (rep_head_inv _ _ _ _ Hr2) as (al & rest & s & -> & _). unfold blocks. set_solver.
Qed.

(** [empty()] *)
Lemma reach_empty w c h l :
  reach w c -> c !! h = Some l ->
  step w (OEmpty h) = (w, RBool (forallb (fun a => a_size a =? 0) l)).
Proof.
  intros Hr Hc. destruct (reach_winv _ _ Hr) as [g Hi].
  destruct (winv_client _ _ _ _ _ Hi Hc) as (segs & cache & f & Hg & Hf & Hrep & ->).
  cbn. rewrite Hf, (stack_empty_ok _ _ _ _ (inv_heap _ _ _ Hi) Hrep), world_eta. f_equal. f_equal.
  assert (Hall : forall x, x ∈ view segs -> (ext_size (a_size x) =? 0) = (a_size x =? 0)).
  { intros x Hx. destruct (chain_alloc _ _ _ _ (inv_heap _ _ _ Hi) (rep_chain _ _ _ _ Hrep) Hx) as (_ & s & _ & _ & _ & _ & Hsz).
    destruct (ext_size_spec _ Hsz) as (?&?&?&?). lia. }
  revert Hall. generalize (view segs). intros l. induction l as [|x l IH]; cbn; intros Hall; [done|].
  rewrite Hall by set_solver. f_equal. apply IH. set_solver.
Qed.

(** Operations on other stacks leave this stack's blocks alone. *)
Definition op_handles (o : op) : list nat :=
  match o with
  | ONew h _ | ODestroy h | OAlloc h _ _ | ODealloc h _ | OEmpty h | OTop h => [h]
  | ORelease h t _ | OAdopt h t => [h; t]
  end.

Lemma step_upd w c g o w' r :
  winv w c g -> legal c o -> step w o = (w', r) ->
  exists B B' h, upd (wheap w) (wheap w') B B' /\ h ∈ op_handles o /\
    (forall a, a ∈ B -> exists s1 c1, g !! h = Some (s1, c1) /\ a ∈ blocks s1 c1).
Proof.
  intros Hi Hleg Hst. pose proof (inv_heap _ _ _ Hi) as Hok.
  assert (Hsame : forall h, wheap w' = wheap w -> h ∈ op_handles o -> exists B B' h, upd (wheap w) (wheap w') B B' /\ h ∈ op_handles o /\
    (forall a, a ∈ B -> exists s1 c1, g !! h = Some (s1, c1) /\ a ∈ blocks s1 c1)).
  { intros h -> Hh. exists [], [], h. split; [apply upd_refl|]. split; [done|]. set_solver. }
  destruct o as [h orc|h|h size orc|h p|h t orc|h t|h|h]; cbn [legal step op_handles] in *.
  - pose proof (winv_gnone _ _ _ _ Hi Hleg) as Hg. destruct (inv_none _ _ _ Hi _ Hg) as [Hw _]. rewrite Hw in Hst.
    unfold stack_ctor in Hst.
    destruct (next_stacklet_root (wheap w) orc Hok) as [Ht|(a & s & Ht & Ha & H1 & H2 & H3 & Hok')]; rewrite Ht in Hst; injection Hst as <- <-.
    + apply (Hsame h); [done|set_solver].
    + destruct (rep_fresh _ _ _ Ha H1 H2 H3) as [_ Hu]. eexists [], _, h. split; [exact Hu|]. split; [apply elem_of_list_here|]. intros b Hb. inversion Hb.
  - destruct (winv_client _ _ _ _ _ Hi Hleg) as (segs & cache & f & Hg & Hf & Hr & Hv). rewrite Hf in Hst.
    destruct (stack_dtor_ok _ _ _ _ Hok Hr (eq_sym Hv)) as (h' & Hd & Hok' & Hu). rewrite Hd in Hst. injection Hst as <- <-.
    eexists _, _, h. split; [exact Hu|]. split; [set_solver|]. eauto.
  - destruct Hleg as [[l Hl] Hsz].
    destruct (winv_client _ _ _ _ _ Hi Hl) as (segs & cache & f & Hg & Hf & Hr & ->). rewrite Hf in Hst.
    destruct (stack_allocate_ok _ _ _ _ orc _ Hok Hr Hsz) as [Ht|(h' & f' & p & segs' & cache' & Ht & Hok' & Hr' & Hv' & Hu)];
      rewrite Ht in Hst; injection Hst as <- <-.
    + apply (Hsame h); [done|set_solver].
    + eexists _, _, h. split; [exact Hu|]. split; [set_solver|]. eauto.
  - destruct Hleg as (a & l & Hl & ->).
    destruct (winv_client _ _ _ _ _ Hi Hl) as (segs & cache & f & Hg & Hf & Hr & Hv). rewrite Hf in Hst.
    destruct (stack_deallocate_ok _ _ _ _ _ _ Hok Hr (eq_sym Hv)) as (h' & f' & segs' & cache' & Ht & Hok' & Hr' & Hv' & Hu).
    rewrite Ht in Hst; injection Hst as <- <-.
    eexists _, _, h. split; [exact Hu|]. split; [set_solver|]. eauto.
  - destruct Hleg as [[l Hl] Ht].
    destruct (winv_client _ _ _ _ _ Hi Hl) as (segs & cache & f & Hg & Hf & Hr & ->).
    pose proof (winv_gnone _ _ _ _ Hi Ht) as Hgt. destruct (inv_none _ _ _ Hi _ Hgt) as [Hwt _].
    rewrite Hf, Hwt in Hst. unfold stack_release in Hst.
    destruct (next_stacklet_root (wheap w) orc Hok) as [Hn|(a & s & Hn & Ha & H1 & H2 & H3 & Hok')].
    + erewrite bind_thr in Hst by exact Hn. injection Hst as <- <-. apply (Hsame h); [done|set_solver].
    + erewrite bind_ret in Hst by exact Hn. cbn in Hst. injection Hst as <- <-.
      destruct (rep_fresh _ _ _ Ha H1 H2 H3) as [_ Hu]. eexists [], _, h. split; [exact Hu|]. split; [apply elem_of_list_here|]. intros b Hb. inversion Hb.
  - destruct Hleg as (Hht & Hl & [lt Hlt]).
    destruct (winv_client _ _ _ _ _ Hi Hl) as (segs & cache & f & Hg & Hf & Hr & Hv).
    destruct (winv_client _ _ _ _ _ Hi Hlt) as (segst & cachet & ft & Hgt & Hft & Hrt & ->).
    rewrite Hf, Hft in Hst.
    destruct (stack_dtor_ok _ _ _ _ Hok Hr (eq_sym Hv)) as (h' & Hd & Hok' & Hu).
    erewrite bind_ret in Hst by (unfold stack_from; erewrite bind_ret by (eapply is_top_ok; exact Hrt); mstep; reflexivity).
    erewrite bind_ret in Hst by exact Hd. cbn in Hst. injection Hst as <- <-.
    eexists _, _, h. split; [exact Hu|]. split; [set_solver|]. eauto.
  - destruct Hleg as [l Hl].
    destruct (winv_client _ _ _ _ _ Hi Hl) as (segs & cache & f & Hg & Hf & Hr & Hv). rewrite Hf in Hst.
    rewrite (stack_empty_ok _ _ _ _ Hok Hr) in Hst. injection Hst as <- <-. apply (Hsame h); [done|set_solver].
  - destruct Hleg as [l Hl].
    destruct (winv_client _ _ _ _ _ Hi Hl) as (segs & cache & f & Hg & Hf & Hr & Hv). rewrite Hf in Hst.
    unfold stack_top in Hst. erewrite bind_ret in Hst by (eapply is_top_ok; exact Hr).
    cbn in Hst. injection Hst as <- <-. apply (Hsame h); [done|set_solver].
Qed.

Lemma reach_other_untouched w c o w' r h l x :
  reach w c -> legal c o -> step w o = (w', r) -> c !! h = Some l -> h ∉ op_handles o ->
  wst w' !! h = wst w !! h /\ client_step c o r (tops w') !! h = Some l /\
  (x ∈ l -> wheap w' !! a_top x = wheap w !! a_top x).
Proof.
  intros Hr Hl Hs Hc Hh. destruct (reach_winv _ _ Hr) as [g Hi].
  split; [|split].
  - assert (Hother : forall hp k v, k <> h -> wst (World hp (<[k := v]> (wst w))) !! h = wst w !! h).
    { intros hp k v Hne. cbn. apply lookup_insert_ne. done. }
    destruct o as [k orc|k|k size orc|k p|k t orc|k t|k|k]; cbn [step] in Hs; cbn [op_handles] in Hh.
    + destruct (wst w !! k); [injection Hs as <- <-; done|].
      destruct (stack_ctor _ _) as [? ?|?|]; injection Hs as <- <-; try done; apply Hother; set_solver.
    + destruct (wst w !! k); [|injection Hs as <- <-; done].
      destruct (stack_dtor _ _) as [? ?|?|]; injection Hs as <- <-; try done; cbn; apply lookup_delete_ne; set_solver.
    + destruct (wst w !! k); [|injection Hs as <- <-; done].
      destruct (stack_allocate _ _ _ _) as [? [? ?]|?|]; cbv beta iota in Hs; injection Hs as <- <-; try done; apply Hother; set_solver.
    + destruct (wst w !! k); [|injection Hs as <- <-; done].
      destruct (stack_deallocate _ _ _) as [? ?|?|]; injection Hs as <- <-; try done; apply Hother; set_solver.
    + destruct (wst w !! k); [|injection Hs as <- <-; done]. destruct (wst w !! t); [injection Hs as <- <-; done|].
      destruct (stack_release _ _ _) as [? [? ?]|?|]; cbv beta iota in Hs; injection Hs as <- <-; try done; cbn; rewrite !lookup_insert_ne by set_solver; done.
    + destruct (wst w !! k); [|injection Hs as <- <-; done]. destruct (wst w !! t); [|injection Hs as <- <-; done].
      destruct (m_bind _ _ _) as [? ?|?|]; injection Hs as <- <-; try done; cbn; rewrite lookup_insert_ne, lookup_delete_ne by set_solver; done.
    + destruct (wst w !! k); [|injection Hs as <- <-; done].
      destruct (stack_empty _ _) as [? ?|?|]; injection Hs as <- <-; done.
    + destruct (wst w !! k); [|injection Hs as <- <-; done].
      destruct (stack_top _ _) as [? ?|?|]; injection Hs as <- <-; done.
  - destruct o as [k orc|k|k size orc|k p|k t orc|k t|k|k]; cbn in Hh; destruct r; cbn; try done.
    + rewrite lookup_insert_ne by set_solver. done.
    + rewrite lookup_delete_ne by set_solver. done.
    + destruct (c !! k) eqn:E; [|done]. destruct (tops w' k); [|done]. rewrite lookup_insert_ne by set_solver. done.
    + destruct (c !! k) as [[|? ?]|] eqn:E; [done| |done]. rewrite lookup_insert_ne by set_solver. done.
    + destruct (c !! k) eqn:E; [|done]. rewrite !lookup_insert_ne by set_solver. done.
    + destruct (c !! t) eqn:E; [|done]. rewrite lookup_insert_ne, lookup_delete_ne by set_solver. done.
  - intros Hx. destruct (step_upd _ _ _ _ _ _ Hi Hl Hs) as (B & B' & k & Hu & Hk & HB).
    destruct (winv_client _ _ _ _ _ Hi Hc) as (segs & cache & f & Hg & Hf & Hrep & ->).
    assert (Hne : h <> k) by (intros ->; done).
    destruct (winv_other _ _ _ k _ _ _ _ _ _ _ Hi Hu HB Hne Hg Hrep) as [_ Hd].
    destruct (Hd (a_top x)) as [H1 H2]; [eapply reach_top_in; eauto|].
    apply (upd_out _ _ _ _ Hu); done.
Qed.

(** ** co_new *)

Lemma stack_top_ok w c h l f : reach w c -> c !! h = Some l -> wst w !! h = Some f -> stack_top f (wheap w) = Ret (wheap w) f.
Proof.
  intros Hr Hc Hf. destruct (reach_winv _ _ Hr) as [g Hi].
  destruct (winv_client _ _ _ _ _ Hi Hc) as (segs & cache & f' & Hg & Hf' & Hrep & ->).
  assert (f' = f) as -> by congruence. unfold stack_top.
  erewrite bind_ret by (eapply is_top_ok; exact Hrep). mstep. done.
Qed.

Lemma co_new_ok w c h l f orc count szT fails :
  reach w c -> c !! h = Some l -> wst w !! h = Some f ->
  count * szT <= max_request -> count < 2 ^ 63 ->
  match co_new_await orc f f count szT fails (wheap w) with
  | Thr hp => hp = wheap w
  | Ret hp (inl (f', t', p)) =>
      fails = false /\ t' = f' /\
      reach (World hp (<[h := f']> (wst w))) (<[h := Alloc p (count * szT) f' :: l]> c)
  | Ret hp (inr f') =>
      fails = true /\ reach (World hp (<[h := f']> (wst w))) c /\ (l <> [] -> f' = f)
  | Ub => False
  end.
Proof.
  intros Hr Hc Hf Hsz Hcnt. unfold co_new_await.
  erewrite bind_ret by (eapply stack_top_ok; eauto). cbv beta.
  erewrite bind_ret by (apply assert_ok; lia). cbv beta.
  assert (Hw : w64 (count * szT) = count * szT).
  { apply w64_small. unfold max_request in Hsz. change (2 ^ 64 - 4192) with 18446744073709547424 in *. lia. }
  rewrite Hw.
  assert (Hleg : legal c (OAlloc h (count * szT) orc)) by (split; eauto).
  pose proof (reach_step_safe w c (OAlloc h (count * szT) orc)) as Hsafe.
  pose proof (reach_throw_same w c (OAlloc h (count * szT) orc)) as Hthr.
  pose proof (reach_step w c (OAlloc h (count * szT) orc)) as Hstep.
  cbn [step] in Hsafe, Hthr, Hstep. rewrite Hf in Hsafe, Hthr, Hstep.
  unfold m_bind at 1. destruct (stack_allocate orc f (count * szT) (wheap w)) as [hp [f1 p]|hp|].
  2:{ specialize (Hthr _ Hr Hleg eq_refl). rewrite <- Hthr. done. }
  2:{ exfalso. eapply Hsafe; eauto. }
  specialize (Hstep _ _ Hr Hleg eq_refl). cbn in Hstep. unfold tops in Hstep. cbn in Hstep.
  rewrite Hc, lookup_insert in Hstep.
  set (w1 := World hp (<[h:=f1]> (wst w))) in *. set (c1 := <[h:=Alloc p (count * szT) f1 :: l]> c) in *.
  assert (Hc1 : c1 !! h = Some (Alloc p (count * szT) f1 :: l)) by apply lookup_insert.
  assert (Hf1 : wst w1 !! h = Some f1) by apply lookup_insert.
  erewrite bind_ret by (apply assert_ok; lia). cbv beta. cbn [fst snd].
  destruct fails.
  - assert (Hleg2 : legal c1 (ODealloc h p)) by (cbn; eauto).
    pose proof (reach_step_safe w1 c1 (ODealloc h p)) as Hsafe2.
    pose proof (reach_step w1 c1 (ODealloc h p)) as Hstep2.
    pose proof (reach_throw_same w1 c1 (ODealloc h p)) as Hthr2.
    cbn [step] in Hsafe2, Hstep2, Hthr2. rewrite Hf1 in Hsafe2, Hstep2, Hthr2.
    destruct (reach_winv _ _ Hstep) as [g Hi].
    destruct (winv_client _ _ _ _ _ Hi Hc1) as (segs & cache & f' & Hg & Hf' & Hrep & Hv).
    assert (f' = f1) as -> by congruence.
    destruct (stack_deallocate_ok _ _ _ _ _ _ (inv_heap _ _ _ Hi) Hrep (eq_sym Hv)) as (h2 & f2 & _ & _ & Hd & _).
    cbn [a_ptr wheap w1] in Hd. erewrite bind_ret by exact Hd. cbn [m_ret].
    change (wheap w1) with hp in *. rewrite Hd in Hstep2.
    specialize (Hstep2 _ _ Hstep Hleg2 eq_refl). cbn in Hstep2. rewrite Hc1 in Hstep2.
    unfold c1 in Hstep2. rewrite !insert_insert in Hstep2. rewrite (insert_id c) in Hstep2 by done.
    split; [done|]. split; [exact Hstep2|].
    intros Hne. destruct l as [|y l]; [done|].
    pose proof (reach_top_newest _ _ _ _ _ Hr Hc) as T1. pose proof (reach_top_newest _ _ _ _ _ Hstep2 Hc) as T2.
    unfold tops in *. cbn in T2. rewrite lookup_insert in T2. congruence.
  - erewrite bind_ret by (eapply (stack_top_ok w1 c1); eauto). cbn. done.
Qed.

Lemma co_new_release_ok w c h x l f :
  reach w c -> c !! h = Some (x :: l) -> wst w !! h = Some f ->
  exists hp f', co_new_release f f (a_ptr x) (wheap w) = Ret hp (f', f')
    /\ reach (World hp (<[h := f']> (wst w))) (<[h := l]> c).
Proof.
  intros Hr Hc Hf. unfold co_new_release.
  erewrite bind_ret by (eapply stack_top_ok; eauto). cbv beta.
  erewrite bind_ret by (apply assert_ok; lia). cbv beta.
  assert (Hleg : legal c (ODealloc h (a_ptr x))) by (cbn; eauto).
  pose proof (reach_step w c (ODealloc h (a_ptr x))) as Hstep. cbn [step] in Hstep. rewrite Hf in Hstep.
  destruct (reach_winv _ _ Hr) as [g Hi].
  destruct (winv_client _ _ _ _ _ Hi Hc) as (segs & cache & f' & Hg & Hf' & Hrep & Hv).
  assert (f' = f) as -> by congruence.
  destruct (stack_deallocate_ok _ _ _ _ _ _ (inv_heap _ _ _ Hi) Hrep (eq_sym Hv)) as (h2 & f2 & _ & _ & Hd & _).
  rewrite Hd in Hstep. specialize (Hstep _ _ Hr Hleg eq_refl). cbn in Hstep. rewrite Hc in Hstep.
  erewrite bind_ret by exact Hd. cbv beta.
  pose proof (stack_top_ok _ _ h l f2 Hstep) as Ht. cbn in Ht.
  erewrite bind_ret by (apply Ht; apply lookup_insert). cbn. eauto.
Qed.

Lemma release_adopt w c h t orc w1 p :
  reach w c -> legal c (ORelease h t orc) -> step w (ORelease h t orc) = (w1, RPtr p) ->
  tops w h = Some p /\ tops w1 t = Some p /\
  (forall a s, wheap w !! a = Some s -> wheap w1 !! a = Some s) /\
  step w1 (OEmpty h) = (w1, RBool true) /\
  (forall w2 c2 h2 w3, reach w2 c2 -> legal c2 (OAdopt h2 t) -> step w2 (OAdopt h2 t) = (w3, RUnit) ->
     tops w3 h2 = tops w2 t).
Proof.
  intros Hr Hleg Hst. pose proof (reach_step _ _ _ _ _ Hr Hleg Hst) as Hr1. cbn in Hr1.
  pose proof Hleg as [[l Hl] Ht]. rewrite Hl in Hr1.
  assert (Hht : h <> t) by congruence.
  destruct (reach_winv _ _ Hr) as [g Hi].
  destruct (winv_client _ _ _ _ _ Hi Hl) as (segs & cache & f & Hg & Hf & Hrep & ->).
  pose proof (winv_gnone _ _ _ _ Hi Ht) as Hgt. destruct (inv_none _ _ _ Hi _ Hgt) as [Hwt _].
  cbn [step] in Hst. rewrite Hf, Hwt in Hst. unfold stack_release in Hst.
  destruct (next_stacklet_root (wheap w) orc (inv_heap _ _ _ Hi)) as [Hn|(a & s & Hn & Ha & H1 & H2 & H3 & Hok')].
  { erewrite bind_thr in Hst by exact Hn. discriminate. }
  erewrite bind_ret in Hst by exact Hn. cbn in Hst. injection Hst as <- <-.
  unfold tops. cbn. split; [done|]. split; [apply lookup_insert|]. split; [|split].
  - intros b sb Hb. rewrite lookup_insert_ne; [done|]. congruence.
  - apply (reach_empty _ _ h [] Hr1). rewrite lookup_insert_ne by done. apply lookup_insert.
  - clear -t. intros w2 c2 h2 w3 Hr2 Hleg2 Hst2.
    destruct Hleg2 as (Hht & Hl & [lt Hlt]). destruct (reach_winv _ _ Hr2) as [g Hi].
    destruct (winv_client _ _ _ _ _ Hi Hl) as (segs & cache & f & Hg & Hf & Hr & Hv).
    destruct (winv_client _ _ _ _ _ Hi Hlt) as (segst & cachet & ft & Hgt & Hft & Hrt & ->).
    cbn [step] in Hst2. rewrite Hf, Hft in Hst2.
    destruct (stack_dtor_ok _ _ _ _ (inv_heap _ _ _ Hi) Hr (eq_sym Hv)) as (h' & Hd & Hok' & Hu).
    erewrite bind_ret in Hst2 by (unfold stack_from; erewrite bind_ret by (eapply is_top_ok; exact Hrt); mstep; reflexivity).
    erewrite bind_ret in Hst2 by exact Hd. cbn in Hst2. injection Hst2 as <-. cbn. rewrite lookup_insert. done.
Qed.

Lemma request_covers size hp :
  size <= max_request ->
  size <= ext_size size /\
  exists req, round_up_to_page_size (w64 (ext_size size + sizeof_stacklet)) hp = Ret hp req /\
              ext_size size + sizeof_stacklet <= req.
Proof.
  intros H. destruct (ext_size_spec _ H) as (H1 & H2 & H3 & H4). split; [done|].
  rewrite w64_small.
  2:{ unfold max_request, sizeof_stacklet in *. change (2 ^ 64 - 4192) with 18446744073709547424 in *. change (2 ^ 64) with 18446744073709551616. lia. }
  destruct (round_up_spec (ext_size size + sizeof_stacklet) hp) as (r & Hr & Hr1 & _).
  { unfold max_request, sizeof_stacklet in *. lia. }
  eauto.
Qed.

(** Decidable legality, to exhibit reachable worlds. *)
Definition legalb (c : client) (o : op) : bool :=
  match o with
  | ONew h _ => handle_none (c !! h)
  | ODestroy h => match c !! h with Some [] => true | _ => false end
  | OAlloc h size _ => negb (handle_none (c !! h)) && (size <=? max_request)
  | ODealloc h p => match c !! h with Some (a :: _) => p =? a_ptr a | _ => false end
  | ORelease h t _ => negb (handle_none (c !! h)) && handle_none (c !! t)
  | OAdopt h t => negb (Nat.eqb h t) && match c !! h with Some [] => true | _ => false end && negb (handle_none (c !! t))
  | OEmpty h | OTop h => negb (handle_none (c !! h))
  end.
Lemma legalb_legal c o : legalb c o = true -> legal c o.
Proof.
  destruct o as [k orc|k|k size orc|k p|k t orc|k t|k|k]; cbn; intros H.
  - destruct (c !! k); done.
  - destruct (c !! k) as [[|]|]; done.
  - destruct (c !! k); [|done]. split; [eauto|]. cbn in H. lia.
  - destruct (c !! k) as [[|a l]|]; try done. exists a, l. split; [done|lia].
  - destruct (c !! k); [|done]. destruct (c !! t); [done|]. eauto.
  - destruct (c !! k) as [[|]|]; try done; rewrite ?andb_false_r in H; try done.
    destruct (c !! t); [|rewrite andb_false_r in H; done]. rewrite !andb_true_r in H.
    apply negb_true_iff, Nat.eqb_neq in H. eauto.
  - destruct (c !! k); [eauto|done].
  - destruct (c !! k); [eauto|done].
Qed.
Fixpoint run_legal (w : world) (c : client) (os : list op) : bool :=
  match os with
  | [] => true
  | o :: r => legalb c o && (let '(w1, x) := step w o in run_legal w1 (client_step c o x (tops w1)) r)
  end.
Lemma run_client_reach w c os :
  reach w c -> run_legal w c os = true -> reach (fst (run_client w c os)) (snd (run_client w c os)).
Proof.
  revert w c. induction os as [|o r IH]; intros w c Hr; [done|].
  cbn [run_legal run_client]. rewrite andb_true_iff. intros [H1 H2].
  destruct (step w o) as [w1 x] eqn:E. apply IH; [|done]. eapply reach_step; eauto. apply legalb_legal. done.
Qed.
