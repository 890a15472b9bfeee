(** * The runtime uses the stacks in the order they demand. *)

From stdpp Require Import prelude gmap list.
From Coq Require Import NArith Lia.
From Verif Require Import RuntimeModel RuntimeSpec RuntimeInv RuntimeSafe RStackModel RStackSpec.
From Verif Require StackModel StackSpec StackProofs.
Local Open Scope N_scope.

Notation SR := StackSpec.reach.
Notation world := StackModel.World.

(** ** The operations of a stack, in terms of what its users see *)

Lemma so_handle w c h l : SR w c -> c !! h = Some l -> exists f, StackModel.wst w !! h = Some f.
Proof. intros R H. apply (StackProofs.reach_handles _ _ h) in R. destruct R as [_ R]. destruct R; eauto. Qed.
Lemma so_nohandle w c h : SR w c -> c !! h = None -> StackModel.wst w !! h = None.
Proof.
  intros R H. apply (StackProofs.reach_handles _ _ h) in R. destruct R as [R _].
  destruct (StackModel.wst w !! h) eqn:E; [|done]. destruct R; [eauto|congruence].
Qed.

Lemma so_new w c h o :
  SR w c -> c !! h = None ->
  match StackModel.stack_ctor o (StackModel.wheap w) with
  | StackModel.Ret hp f => SR (world hp (<[h := f]> (StackModel.wst w))) (<[h := []]> c)
  | StackModel.Thr hp => hp = StackModel.wheap w
  | StackModel.Ub => False
  end.
Proof.
  intros R H. pose proof (so_nohandle _ _ _ R H) as Hw.
  destruct (StackModel.step w (StackModel.ONew h o)) as [w' r] eqn:E.
  assert (L : StackSpec.legal c (StackModel.ONew h o)) by done.
  pose proof (StackProofs.reach_step_safe _ _ _ _ _ R L E) as Hs.
  pose proof (StackSpec.reach_step _ _ _ _ _ R L E) as R'.
  cbn [StackModel.step] in E. rewrite Hw in E. destruct (StackModel.stack_ctor _ _) as [hp f|hp|] eqn:X.
  - injection E as <- <-. exact R'.
  - injection E as <- <-. pose proof (StackProofs.reach_throw_same w c (StackModel.ONew h o) (world hp (StackModel.wst w)) R L) as T.
    cbn [StackModel.step] in T. rewrite Hw, X in T. specialize (T eq_refl). by rewrite <- T.
  - injection E as <- <-. done.
Qed.

Definition nothrow {A} (m : StackModel.M A) : Prop := forall h h', m h <> StackModel.Thr h'.
Lemma nothrow_bind {A B} (m : StackModel.M A) (k : A -> StackModel.M B) :
  nothrow m -> (forall a, nothrow (k a)) -> nothrow (StackModel.m_bind m k).
Proof.
  intros Hm Hk h h'. unfold StackModel.m_bind. destruct (m h) eqn:E; [apply Hk| |done].
  intros _. by apply (Hm h h0).
Qed.
Lemma nothrow_ret {A} (a : A) : nothrow (StackModel.m_ret a). Proof. done. Qed.
Lemma nothrow_get a : nothrow (StackModel.m_get a).
Proof. intros h h'. unfold StackModel.m_get. by destruct (h !! a). Qed.
Lemma nothrow_set a x : nothrow (StackModel.m_set a x).
Proof. intros h h'. unfold StackModel.m_set. by destruct (h !! a). Qed.
Lemma nothrow_assert b : nothrow (StackModel.m_assert b).
Proof. intros h h'. by destruct b. Qed.
Lemma nothrow_free o : nothrow (StackModel.m_free o).
Proof. intros h h'. destruct o as [a|]; cbn; [|done]. by destruct (h !! a). Qed.
Lemma nothrow_is_top a : nothrow (StackModel.is_top a).
Proof.
  apply nothrow_bind; [apply nothrow_get|]. intros x. destruct (StackModel.nxt x); [|apply nothrow_ret].
  apply nothrow_bind; [apply nothrow_get|]. intros; apply nothrow_ret.
Qed.
Lemma nothrow_set_next a n : nothrow (StackModel.set_next a n).
Proof.
  apply nothrow_bind; [apply nothrow_is_top|]. intros x. apply nothrow_bind; [apply nothrow_assert|]. intros _.
  apply nothrow_bind; [apply nothrow_get|]. intros y. apply nothrow_bind; [apply nothrow_set|]. intros _. apply nothrow_free.
Qed.
Lemma nothrow_dtor f : nothrow (StackModel.stack_dtor f).
Proof.
  apply nothrow_bind; [apply nothrow_get|]. intros x. apply nothrow_bind; [apply nothrow_assert|]. intros _.
  apply nothrow_bind; [apply nothrow_set_next|]. intros _. apply nothrow_free.
Qed.

Lemma so_destroy w c h f :
  SR w c -> c !! h = Some [] -> StackModel.wst w !! h = Some f ->
  exists hp, StackModel.stack_dtor f (StackModel.wheap w) = StackModel.Ret hp tt /\
    SR (world hp (delete h (StackModel.wst w))) (delete h c).
Proof.
  intros R H Hw.
  destruct (StackModel.step w (StackModel.ODestroy h)) as [w' r] eqn:E.
  assert (L : StackSpec.legal c (StackModel.ODestroy h)) by done.
  pose proof (StackProofs.reach_step_safe _ _ _ _ _ R L E) as Hs.
  pose proof (StackSpec.reach_step _ _ _ _ _ R L E) as R'.
  cbn [StackModel.step] in E. rewrite Hw in E. destruct (StackModel.stack_dtor _ _) as [hp []|hp|] eqn:X.
  - injection E as <- <-. eauto.
  - exfalso. by apply (nothrow_dtor _ _ _ X).
  - injection E as <- <-. done.
Qed.

Lemma so_top w c h l f :
  SR w c -> c !! h = Some l -> StackModel.wst w !! h = Some f ->
  StackModel.stack_top f (StackModel.wheap w) = StackModel.Ret (StackModel.wheap w) f.
Proof. apply StackProofs.stack_top_ok. Qed.

Lemma so_alloc w c h l f o sz :
  SR w c -> c !! h = Some l -> StackModel.wst w !! h = Some f -> sz <= StackSpec.max_request ->
  match new_coro o f sz (StackModel.wheap w) with
  | StackModel.Ret hp (f', fm) =>
      fm_size fm = sz /\ fm_top fm = f' /\
      SR (world hp (<[h := f']> (StackModel.wst w)))
         (<[h := StackSpec.Alloc (fm_ptr fm) (fm_size fm) (fm_top fm) :: l]> c)
  | StackModel.Thr hp => hp = StackModel.wheap w
  | StackModel.Ub => False
  end.
Proof.
  intros R H Hw Hsz.
  destruct (StackModel.step w (StackModel.OAlloc h sz o)) as [w' r] eqn:E.
  assert (L : StackSpec.legal c (StackModel.OAlloc h sz o)) by (split; [rewrite H; eauto|done]).
  pose proof (StackProofs.reach_step_safe _ _ _ _ _ R L E) as Hs.
  pose proof (StackSpec.reach_step _ _ _ _ _ R L E) as R'.
  cbn [StackModel.step] in E. rewrite Hw in E. unfold new_coro, StackModel.m_bind.
  destruct (StackModel.stack_allocate _ _ _ _) as [hp [f' p]|hp|] eqn:X.
  - injection E as <- <-. cbn [StackSpec.client_step] in R'. rewrite H in R'. unfold StackSpec.tops in R'. cbn in R'.
    rewrite lookup_insert in R'. cbn [fst snd].
    pose proof (StackProofs.stack_top_ok _ _ h _ f' R' (lookup_insert _ _ _) (lookup_insert _ _ _)) as Ht.
    cbn [StackModel.wheap] in Ht. rewrite Ht.
    cbn. split; [done|]. split; [done|]. exact R'.
  - injection E as <- <-.
    pose proof (StackProofs.reach_throw_same w c (StackModel.OAlloc h sz o) (world hp (StackModel.wst w)) R L) as T.
    cbn [StackModel.step] in T. rewrite Hw, X in T. specialize (T eq_refl). by rewrite <- T.
  - injection E as <- <-. done.
Qed.

Lemma so_free w c h f x l fm :
  SR w c -> c !! h = Some (x :: l) -> StackModel.wst w !! h = Some f ->
  fm_ptr fm = StackSpec.a_ptr x -> fm_top fm = StackSpec.a_top x ->
  exists hp f', del_coro f fm (StackModel.wheap w) = StackModel.Ret hp f' /\
    SR (world hp (<[h := f']> (StackModel.wst w))) (<[h := l]> c).
Proof.
  intros R H Hw Hp Ht.
  destruct (StackProofs.co_new_release_ok _ _ _ _ _ _ R H Hw) as (hp & f' & E & R').
  exists hp, f'. split; [|exact R'].
  pose proof (StackProofs.reach_top_newest _ _ _ _ _ R H) as Hn. unfold StackSpec.tops in Hn.
  assert (Hf : f = StackSpec.a_top x) by congruence.
  unfold StackModel.co_new_release in E. unfold del_coro, StackModel.m_bind in *.
  rewrite (so_top _ _ _ _ _ R H Hw) in *. unfold StackModel.m_assert in *.
  rewrite N.eqb_refl in E. rewrite Ht, <- Hf, N.eqb_refl, Hp.
  destruct (StackModel.stack_deallocate f _ _) as [h1 f1|h1|] eqn:X; [|done|done].
  destruct (StackModel.stack_top f1 h1) as [h2 t2|h2|] eqn:Y; [|done|done].
  unfold StackModel.m_ret in E. injection E as -> -> ->.
  unfold StackModel.stack_top, StackModel.m_bind, StackModel.m_assert, StackModel.m_ret in Y.
  destruct (StackModel.is_top f' h1) as [h3 b|h3|] eqn:Z; [|done|done].
  assert (h3 = h1) as ->.
  { clear -Z. unfold StackModel.is_top, StackModel.m_bind, StackModel.m_get, StackModel.m_ret in Z.
    destruct (h1 !! f') as [y|]; [|done]. destruct (StackModel.nxt y) as [n|]; [|congruence].
    destruct (h1 !! n); congruence. }
  destruct b; [|done]. congruence.
Qed.

Lemma so_empty w c h f :
  SR w c -> c !! h = Some [] -> StackModel.wst w !! h = Some f ->
  StackModel.stack_empty f (StackModel.wheap w) = StackModel.Ret (StackModel.wheap w) true.
Proof.
  intros R H Hw. pose proof (StackProofs.reach_empty _ _ _ _ R H) as E. cbn [StackModel.step] in E. rewrite Hw in E.
  destruct (StackModel.stack_empty f _) as [hp b|hp|] eqn:X; try done.
  injection E as E1 E2. rewrite E2. by rewrite <- E1.
Qed.

(** ** What ties the memory to the runtime's lists of frames

    [W i]: the stack that worker [i] owns, if it has not just given it up; [S x]: the frames
    on stack [x]. *)

Definition live (W : list (option N)) (S : N -> list N) (x : N) : Prop :=
  (exists i, W !! i = Some (Some x)) \/ S x <> [].

Definition placed (m : mem) (f : N) (a : StackSpec.alloc) : Prop :=
  m_frm m !! f = Some (Fmem (StackSpec.a_ptr a) (StackSpec.a_size a) (StackSpec.a_top a)).

Record rel (W : list (option N)) (S : N -> list N) (nx : N) (m : mem)
    (w : StackModel.world) (c : gmap nat (list StackSpec.alloc)) : Prop := {
  rl_reach : SR w c;
  rl_heap : StackModel.wheap w = m_heap m;
  rl_len : length W = length (m_fib m);
  rl_fib : forall i x, W !! i = Some (Some x) ->
    exists fib, m_fib m !! i = Some fib /\ StackModel.wst w !! N.to_nat x = Some fib;
  rl_own : forall i j x, W !! i = Some (Some x) -> W !! j = Some (Some x) -> i = j;
  rl_fresh : forall x, live W S x -> x < nx;
  rl_live : forall x, live W S x -> exists l, c !! N.to_nat x = Some l /\ Forall2 (placed m) (S x) l;
  rl_only : forall x, is_Some (c !! N.to_nat x) -> live W S x;
  rl_uniq : forall x y f, f ∈ S x -> f ∈ S y -> x = y;
  rl_nodup : forall x, NoDup (S x);
  rl_dom : forall f, is_Some (m_frm m !! f) -> exists x, f ∈ S x
}.

Definition Rel W S nx m := exists w c, rel W S nx m w c.

Lemma rel_ext W S S' nx m : (forall x, S' x = S x) -> Rel W S nx m -> Rel W S' nx m.
Proof.
  intros E (w & c & []). exists w, c.
  assert (L : forall x, live W S' x <-> live W S x) by (intros; unfold live; by rewrite E).
  constructor; try done.
  - intros x. rewrite L. auto.
  - intros x. rewrite L, E. auto.
  - intros x. rewrite L. auto.
  - intros x y f. rewrite !E. eauto.
  - intros x. by rewrite E.
  - intros f Hf. destruct (rl_dom0 f Hf) as (x & Hx). exists x. by rewrite E.
Qed.

Lemma nxt_not_live W S nx m w c : rel W S nx m w c -> ~ live W S nx.
Proof. intros R L. apply (rl_fresh _ _ _ _ _ _ R) in L. lia. Qed.

Lemma not_live_none W S nx m w c x : rel W S nx m w c -> ~ live W S x -> c !! N.to_nat x = None.
Proof.
  intros R L. destruct (c !! N.to_nat x) eqn:E; [|done]. exfalso. apply L.
  apply (rl_only _ _ _ _ _ _ R). rewrite E. eauto.
Qed.

(** A worker's stack, as its users see it. *)
Lemma rel_worker W S nx m w c i x :
  rel W S nx m w c -> W !! i = Some (Some x) ->
  exists fib l, m_fib m !! i = Some fib /\ StackModel.wst w !! N.to_nat x = Some fib /\
    c !! N.to_nat x = Some l /\ Forall2 (placed m) (S x) l.
Proof.
  intros R H. destruct (rl_fib _ _ _ _ _ _ R _ _ H) as (fib & H1 & H2).
  destruct (rl_live _ _ _ _ _ _ R x) as (l & H3 & H4); [left; eauto|]. eauto 10.
Qed.

(** The newest frame of a stack records that stack's [m_fib]. *)
Lemma rel_newest W S nx m w c x f l0 :
  rel W S nx m w c -> S x = f :: l0 ->
  exists fib a l, StackModel.wst w !! N.to_nat x = Some fib /\ c !! N.to_nat x = Some (a :: l) /\
    m_frm m !! f = Some (Fmem (StackSpec.a_ptr a) (StackSpec.a_size a) fib) /\
    StackSpec.a_top a = fib /\ Forall2 (placed m) l0 l.
Proof.
  intros R H. destruct (rl_live _ _ _ _ _ _ R x) as (l & Hc & HF); [right; by rewrite H|].
  rewrite H in HF. destruct l as [|a l]; [by apply Forall2_cons_nil_inv in HF|].
  apply Forall2_cons in HF as (Hp & HF).
  pose proof (StackProofs.reach_top_newest _ _ _ _ _ (rl_reach _ _ _ _ _ _ R) Hc) as Ht.
  exists (StackSpec.a_top a), a, l. split_and!; done.
Qed.

Lemma a_top W S nx m i x f l :
  Rel W S nx m -> W !! i = Some (Some x) -> S x = f :: l -> same_top i f m = Some true.
Proof.
  intros (w & c & R) Hi Hs. destruct (rel_worker _ _ _ _ _ _ _ _ R Hi) as (fib & l1 & H1 & H2 & H3 & _).
  destruct (rel_newest _ _ _ _ _ _ _ _ _ R Hs) as (fib' & a & l2 & H4 & H5 & H6 & H7 & _).
  unfold same_top. rewrite H1, H6.
  rewrite <- (rl_heap _ _ _ _ _ _ R), (so_top _ _ _ _ _ (rl_reach _ _ _ _ _ _ R) H3 H2). cbn.
  rewrite H2 in H4. injection H4 as <-. by rewrite N.eqb_refl.
Qed.

Lemma a_cmpf W S nx m i x y f :
  Rel W S nx m -> W !! i = Some (Some x) -> f ∈ S y -> y <> x -> same_top i f m = Some false.
Proof.
  intros (w & c & R) Hi Hf Hne. destruct (rel_worker _ _ _ _ _ _ _ _ R Hi) as (fib & l1 & H1 & H2 & H3 & _).
  destruct (rl_live _ _ _ _ _ _ R y) as (l & Hc & HF); [right; destruct (S y); set_solver|].
  apply elem_of_list_lookup in Hf as (k & Hk).
  destruct (Forall2_lookup_l _ _ _ _ _ HF Hk) as (a & Ha & Hp).
  unfold same_top. rewrite H1, Hp.
  rewrite <- (rl_heap _ _ _ _ _ _ R), (so_top _ _ _ _ _ (rl_reach _ _ _ _ _ _ R) H3 H2). cbn. f_equal.
  apply N.eqb_neq. intros E. apply Hne.
  assert (X : N.to_nat x = N.to_nat y).
  { eapply (StackProofs.reach_top_owner w c _ _ a l (rl_reach _ _ _ _ _ _ R) Hc).
    - by eapply elem_of_list_lookup_2.
    - unfold StackSpec.tops. by rewrite H2, E. }
  lia.
Qed.

Lemma a_empty W S nx m i x :
  Rel W S nx m -> W !! i = Some (Some x) -> S x = [] -> exec (AEmpty i) m = MOk m.
Proof.
  intros (w & c & R) Hi Hs. destruct (rel_worker _ _ _ _ _ _ _ _ R Hi) as (fib & l1 & H1 & H2 & H3 & H4).
  rewrite Hs in H4. apply Forall2_nil_inv_l in H4 as ->. cbn [exec]. rewrite H1.
  rewrite <- (rl_heap _ _ _ _ _ _ R).
  by rewrite (so_empty _ _ _ _ (rl_reach _ _ _ _ _ _ R) H3 H2).
Qed.

Lemma lookup_upd {A} (W : list A) i j (a b : A) :
  <[i := a]> W !! j = Some b -> (j = i /\ b = a) \/ (j <> i /\ W !! j = Some b).
Proof.
  intros H. apply list_lookup_insert_Some in H as [(-> & -> & _)|(? & ?)]; [by left|right; auto].
Qed.

Lemma a_give W S nx m i x :
  Rel W S nx m -> W !! i = Some (Some x) -> S x <> [] -> Rel (<[i := None]> W) S nx m.
Proof.
  intros (w & c & []) Hi Hs. exists w, c.
  assert (L : forall y, live (<[i := None]> W) S y <-> live W S y).
  { intros y. split; (intros [(j & Hj)|Hj]; [|by right]).
    - apply lookup_upd in Hj as [[_ ?]|[_ Hj]]; [done|]. left; eauto.
    - destruct (decide (i = j)) as [->|Hne].
      + right. congruence.
      + left. exists j. by rewrite list_lookup_insert_ne. }
  constructor; try done.
  - by rewrite insert_length.
  - intros j y Hj. apply lookup_upd in Hj as [[_ ?]|[_ Hj]]; [done|]. auto.
  - intros j k y Hj Hk. apply lookup_upd in Hj as [[_ ?]|[_ Hj]]; [done|].
    apply lookup_upd in Hk as [[_ ?]|[_ Hk]]; [done|]. eauto.
  - intros y. rewrite L. auto.
  - intros y. rewrite L. auto.
  - intros y. rewrite L. auto.
Qed.

Lemma a_adopt W S nx m i x y f l :
  Rel W S nx m -> W !! i = Some (Some x) -> S x = [] -> S y = f :: l ->
  (forall j, W !! j <> Some (Some y)) ->
  exists m', exec (AAdopt i f) m = MOk m' /\ Rel (<[i := Some y]> W) S nx m'.
Proof.
  intros (w & c & R) Hi Hx Hy Hno.
  destruct (rel_worker _ _ _ _ _ _ _ _ R Hi) as (fib & l1 & H1 & H2 & H3 & H4).
  rewrite Hx in H4. apply Forall2_nil_inv_l in H4 as ->.
  destruct (rel_newest _ _ _ _ _ _ _ _ _ R Hy) as (g & a & l2 & G1 & G2 & G3 & G4 & _).
  assert (Hxy : x <> y) by (intros ->; congruence).
  cbn [exec]. rewrite H1, G3. cbn [fm_top]. unfold adopt, StackModel.m_bind.
  rewrite <- (rl_heap _ _ _ _ _ _ R).
  change (StackModel.stack_from g) with (StackModel.stack_top g).
  rewrite (so_top _ _ _ _ _ (rl_reach _ _ _ _ _ _ R) G2 G1).
  destruct (so_destroy _ _ _ _ (rl_reach _ _ _ _ _ _ R) H3 H2) as (hp & -> & R').
  cbn [StackModel.m_ret]. unfold StackModel.m_ret. eexists. split; [reflexivity|].
  exists (world hp (delete (N.to_nat x) (StackModel.wst w))), (delete (N.to_nat x) c).
  destruct R. assert (Hlt : (i < length W)%nat) by (by eapply lookup_lt_Some).
  assert (L : forall z, live (<[i := Some y]> W) S z <-> live W S z /\ z <> x).
  { intros z. split.
    - intros [(j & Hj)|Hj]; [apply lookup_upd in Hj as [[_ E]|[Hne Hj]]|].
      + injection E as ->. split; [|done]. right. by rewrite Hy.
      + split; [left; eauto|]. intros ->. apply Hne. eauto.
      + split; [by right|]. by intros ->.
    - intros ([(j & Hj)|Hj] & Hne); [|by right]. destruct (decide (i = j)) as [->|Hij].
      + congruence.
      + left. exists j. by rewrite list_lookup_insert_ne. }
  constructor; cbn; try done.
  - by rewrite !insert_length.
  - intros j z Hj. apply lookup_upd in Hj as [[-> E]|[Hne Hj]].
    + injection E as ->. exists g. rewrite list_lookup_insert by (by rewrite <- rl_len0).
      rewrite lookup_delete_ne by lia. done.
    + destruct (rl_fib0 _ _ Hj) as (fb & ? & ?). exists fb. rewrite list_lookup_insert_ne by done.
      rewrite lookup_delete_ne; [done|]. intros E. apply Hne. assert (z = x) as -> by lia. eauto.
  - intros j k z Hj Hk. apply lookup_upd in Hj as [[-> E]|[Hne Hj]]; apply lookup_upd in Hk as [[-> E']|[Hne' Hk]];
      simplify_eq; try done; [by apply Hno in Hk|by apply Hno in Hj|eauto].
  - intros z. rewrite L. intros []; auto.
  - intros z. rewrite L. intros [Hz Hne]. rewrite lookup_delete_ne by lia. apply rl_live0; done.
  - intros z. rewrite L. intros Hz. destruct (decide (z = x)) as [->|Hne].
    + rewrite lookup_delete in Hz. by destruct Hz.
    + rewrite lookup_delete_ne in Hz by lia. auto.
Qed.

Lemma a_release W S nx m i o :
  Rel W S nx m -> W !! i = Some None ->
  exec (ARelease i o) m = MTerm \/
  exists m', exec (ARelease i o) m = MOk m' /\ Rel (<[i := Some nx]> W) S (nx + 1) m'.
Proof.
  intros (w & c & R) Hi.
  assert (Hlt : (i < length W)%nat) by (by eapply lookup_lt_Some).
  destruct (lookup_lt_is_Some_2 (m_fib m) i) as (fib & Hf); [by rewrite <- (rl_len _ _ _ _ _ _ R)|].
  cbn [exec]. rewrite Hf. unfold StackModel.stack_release, StackModel.m_bind.
  change (StackModel.next_stacklet o StackModel.init_size None) with (StackModel.stack_ctor o).
  rewrite <- (rl_heap _ _ _ _ _ _ R).
  pose proof (nxt_not_live _ _ _ _ _ _ R) as Hnl.
  pose proof (not_live_none _ _ _ _ _ _ _ R Hnl) as Hnone.
  pose proof (so_new _ _ _ o (rl_reach _ _ _ _ _ _ R) Hnone) as X.
  destruct (StackModel.stack_ctor o _) as [hp n|hp|]; [|by left|done].
  right. unfold StackModel.m_ret. eexists. split; [reflexivity|].
  exists (world hp (<[N.to_nat nx := n]> (StackModel.wst w))), (<[N.to_nat nx := []]> c). destruct R.
  assert (Hsn : S nx = []).
  { destruct (S nx) eqn:E; [done|]. exfalso. apply Hnl. right. by rewrite E. }
  assert (L : forall z, live (<[i := Some nx]> W) S z <-> live W S z \/ z = nx).
  { intros z. split.
    - intros [(j & Hj)|Hj]; [apply lookup_upd in Hj as [[_ E]|[Hne Hj]]|].
      + injection E as ->. by right.
      + left. left; eauto.
      + left. by right.
    - intros [[(j & Hj)|Hj]| ->]; [|by right|].
      + left. destruct (decide (i = j)) as [->|Hij]; [congruence|]. exists j. by rewrite list_lookup_insert_ne.
      + left. exists i. by rewrite list_lookup_insert. }
  constructor; cbn; try done.
  - by rewrite !insert_length.
  - intros j z Hj. apply lookup_upd in Hj as [[-> E]|[Hne Hj]].
    + injection E as ->. exists n. rewrite list_lookup_insert by (by rewrite <- rl_len0).
      rewrite lookup_insert. done.
    + destruct (rl_fib0 _ _ Hj) as (fb & ? & ?). exists fb. rewrite list_lookup_insert_ne by done.
      rewrite lookup_insert_ne; [done|]. intros E. assert (z = nx) as -> by lia. apply Hnl. left; eauto.
  - intros j k z Hj Hk. apply lookup_upd in Hj as [[-> E]|[Hne Hj]]; apply lookup_upd in Hk as [[-> E']|[Hne' Hk]];
      simplify_eq; try done; [exfalso; apply Hnl; left; eauto|exfalso; apply Hnl; left; eauto|eauto].
  - intros z. rewrite L. intros [Hz| ->]; [|lia]. apply rl_fresh0 in Hz. lia.
  - intros z. rewrite L. intros Hz. destruct (decide (z = nx)) as [->|Hne].
    + rewrite lookup_insert. exists []. rewrite Hsn. split; [done|constructor].
    + destruct Hz as [Hz|Hz]; [|done]. rewrite lookup_insert_ne by lia. apply rl_live0; done.
  - intros z. rewrite L. intros Hz. destruct (decide (z = nx)) as [->|Hne]; [by right|]. left.
    rewrite lookup_insert_ne in Hz by lia. auto.
Qed.

(** Replacing the frames of one live stack. *)
Lemma rel_frames W S S' nx m m' w c i x hp f' l' :
  rel W S nx m w c -> W !! i = Some (Some x) ->
  (forall y, y <> x -> S' y = S y) ->
  SR (world hp (<[N.to_nat x := f']> (StackModel.wst w))) (<[N.to_nat x := l']> c) ->
  m_heap m' = hp -> m_fib m' = <[i := f']> (m_fib m) ->
  (forall y f, y <> x -> f ∈ S y -> m_frm m' !! f = m_frm m !! f) ->
  Forall2 (placed m') (S' x) l' ->
  NoDup (S' x) -> (forall y f, y <> x -> f ∈ S' x -> f ∉ S y) ->
  (forall f, is_Some (m_frm m' !! f) -> exists y, f ∈ S' y) ->
  rel W S' nx m' (world hp (<[N.to_nat x := f']> (StackModel.wst w))) (<[N.to_nat x := l']> c).
Proof.
  intros [] Hi Hs HR Hh Hfb Hfr HF Hnd Hun Hdom.
  assert (Hlt : (i < length W)%nat) by (by eapply lookup_lt_Some).
  assert (Lx : live W S' x) by (left; eauto).
  assert (L : forall z, z <> x -> live W S' z <-> live W S z).
  { intros z Hz. unfold live. by rewrite Hs. }
  constructor; try done.
  - by rewrite Hfb, insert_length.
  - intros j z Hj. rewrite Hfb. cbn. destruct (decide (z = x)) as [->|Hne].
    + assert (j = i) as -> by eauto. exists f'. rewrite list_lookup_insert by (by rewrite <- rl_len0).
      by rewrite lookup_insert.
    + destruct (rl_fib0 _ _ Hj) as (fb & ? & ?). exists fb.
      rewrite list_lookup_insert_ne by congruence. rewrite lookup_insert_ne by lia. done.
  - intros z Hz. destruct (decide (z = x)) as [->|Hne]; [apply rl_fresh0; left; eauto|].
    apply rl_fresh0. by apply L.
  - intros z Hz. destruct (decide (z = x)) as [->|Hne].
    + rewrite lookup_insert. eauto.
    + rewrite lookup_insert_ne by lia. apply L in Hz; [|done]. destruct (rl_live0 z Hz) as (l & H1 & H2).
      exists l. split; [done|]. rewrite Hs by done.
      eapply Forall2_impl; [|]. 2: { intros f a Hp. exact Hp. }
      apply Forall2_same_length_lookup. apply Forall2_same_length_lookup in H2 as [H2 H3]. split; [done|].
      intros k f a Hk Ha. unfold placed. rewrite (Hfr z f Hne); [by eapply H3|]. by eapply elem_of_list_lookup_2.
  - intros z Hz. destruct (decide (z = x)) as [->|Hne]; [done|]. apply L; [done|].
    rewrite lookup_insert_ne in Hz by lia. auto.
  - intros y z f Hy Hz. destruct (decide (y = x)) as [->|Hy']; destruct (decide (z = x)) as [->|Hz']; try done.
    + exfalso. rewrite Hs in Hz by done. by eapply Hun.
    + exfalso. rewrite Hs in Hy by done. by eapply Hun.
    + rewrite Hs in Hy, Hz by done. eauto.
  - intros z. destruct (decide (z = x)) as [->|Hne]; [done|]. rewrite Hs by done. done.
Qed.

Lemma placed_upd m f fm l L :
  f ∉ l -> Forall2 (placed m) l L ->
  forall m', m_frm m' = <[f := fm]> (m_frm m) \/ m_frm m' = delete f (m_frm m) \/ m_frm m' = m_frm m -> Forall2 (placed m') l L.
Proof.
  intros Hn H m' E. induction H as [|g a l L Hp H IH]; constructor.
  - unfold placed in *. assert (f <> g) by set_solver.
    destruct E as [->|[->| ->]]; rewrite ?lookup_insert_ne, ?lookup_delete_ne by done; done.
  - apply IH. set_solver.
Qed.

Lemma a_alloc W S S' nx m i x f sz o :
  Rel W S nx m -> W !! i = Some (Some x) -> (forall y, f ∉ S y) -> sz <= StackSpec.max_request ->
  (forall y, S' y = if decide (y = x) then f :: S x else S y) ->
  exec (AAlloc i f sz o) m = MNo \/
  exists m', exec (AAlloc i f sz o) m = MOk m' /\ Rel W S' nx m'.
Proof.
  intros (w & c & R) Hi Hfr Hsz HS.
  destruct (rel_worker _ _ _ _ _ _ _ _ R Hi) as (fib & l & H1 & H2 & H3 & H4).
  cbn [exec]. rewrite H1. rewrite <- (rl_heap _ _ _ _ _ _ R).
  pose proof (so_alloc _ _ _ _ _ o sz (rl_reach _ _ _ _ _ _ R) H3 H2 Hsz) as X.
  destruct (new_coro o fib sz _) as [hp [f' fm]|hp|]; [|by left|done].
  destruct X as (X1 & X2 & X3). right. eexists. split; [reflexivity|]. eexists _, _.
  eapply (rel_frames W S S'); [exact R|exact Hi| |exact X3|done|done| | | | |].
  - intros y Hy. by rewrite HS, decide_False.
  - intros y g _ Hg. cbn. rewrite lookup_insert_ne; [done|]. intros ->. by apply (Hfr y).
  - rewrite HS, decide_True by done. constructor.
    + unfold placed. cbn. rewrite lookup_insert. by destruct fm.
    + eapply placed_upd; [apply Hfr|exact H4|]. left. reflexivity.
  - rewrite HS, decide_True by done. constructor; [apply Hfr|apply (rl_nodup _ _ _ _ _ _ R)].
  - intros y g Hne. rewrite HS, decide_True by done. intros Hg Hg'. apply elem_of_cons in Hg as [->|Hg].
    + by apply (Hfr y).
    + apply Hne. eapply (rl_uniq _ _ _ _ _ _ R); eauto.
  - intros g Hg. cbn in Hg. destruct (decide (g = f)) as [->|Hne].
    + exists x. rewrite HS, decide_True by done. by left.
    + rewrite lookup_insert_ne in Hg by done. destruct (rl_dom _ _ _ _ _ _ R g Hg) as (y & Hy).
      exists y. rewrite HS. case_decide; [subst; by right|done].
Qed.

Lemma a_free W S S' nx m i x f l0 :
  Rel W S nx m -> W !! i = Some (Some x) -> S x = f :: l0 ->
  (forall y, S' y = if decide (y = x) then l0 else S y) ->
  exists m', exec (AFree i f) m = MOk m' /\ Rel W S' nx m'.
Proof.
  intros (w & c & R) Hi Hx HS.
  destruct (rel_worker _ _ _ _ _ _ _ _ R Hi) as (fib & l & H1 & H2 & H3 & H4).
  destruct (rel_newest _ _ _ _ _ _ _ _ _ R Hx) as (fib' & a & l1 & G1 & G2 & G3 & G4 & G5).
  assert (fib' = fib) as -> by congruence.
  cbn [exec]. rewrite H1, G3. rewrite <- (rl_heap _ _ _ _ _ _ R).
  destruct (so_free _ _ _ _ _ _ (Fmem (StackSpec.a_ptr a) (StackSpec.a_size a) fib) (rl_reach _ _ _ _ _ _ R) G2 H2)
    as (hp & f' & -> & R'); [done|by rewrite G4|].
  eexists. split; [reflexivity|]. eexists _, _.
  pose proof (rl_nodup _ _ _ _ _ _ R x) as Hnd. rewrite Hx in Hnd. apply NoDup_cons in Hnd as [Hnin Hnd].
  assert (Hfx : f ∈ S x) by (rewrite Hx; by left).
  eapply (rel_frames W S S'); [exact R|exact Hi| |exact R'|done|done| | | | |].
  - intros y Hy. by rewrite HS, decide_False.
  - intros y g Hne Hg. cbn. rewrite lookup_delete_ne; [done|]. intros ->. apply Hne. by eapply (rl_uniq _ _ _ _ _ _ R).
  - rewrite HS, decide_True by done. eapply placed_upd; [exact Hnin|exact G5|]. right; left. reflexivity.
  - rewrite HS, decide_True by done. done.
  - intros y g Hne. rewrite HS, decide_True by done. intros Hg Hg'. apply Hne.
    eapply (rl_uniq _ _ _ _ _ _ R); [exact Hg'|]. rewrite Hx. by right.
  - intros g Hg. cbn in Hg. destruct (decide (g = f)) as [->|Hne]; [rewrite lookup_delete in Hg; by destruct Hg|].
    rewrite lookup_delete_ne in Hg by done. destruct (rl_dom _ _ _ _ _ _ R g Hg) as (y & Hy).
    exists y. rewrite HS. case_decide; [subst|done]. rewrite Hx in Hy. apply elem_of_cons in Hy as [?|?]; done.
    Unshelve. exact (Fmem 0 0 0).
Qed.

Lemma a_allocfail W S nx m i x sz o :
  Rel W S nx m -> W !! i = Some (Some x) -> sz <= StackSpec.max_request ->
  exec (AAllocFail i sz o) m = MNo \/
  exists m', exec (AAllocFail i sz o) m = MOk m' /\ Rel W S nx m'.
Proof.
  intros (w & c & R) Hi Hsz.
  destruct (rel_worker _ _ _ _ _ _ _ _ R Hi) as (fib & l & H1 & H2 & H3 & H4).
  cbn [exec]. rewrite H1. rewrite <- (rl_heap _ _ _ _ _ _ R).
  pose proof (so_alloc _ _ _ _ _ o sz (rl_reach _ _ _ _ _ _ R) H3 H2 Hsz) as X.
  destruct (new_coro o fib sz _) as [hp [f' fm]|hp|]; [by left| |done].
  right. eexists. split; [reflexivity|]. exists w, c. destruct R. constructor; try done.
Qed.

Lemma a_allocundo W S nx m i x sz o :
  Rel W S nx m -> W !! i = Some (Some x) -> sz <= StackSpec.max_request ->
  exec (AAllocUndo i sz o) m = MNo \/
  exists m', exec (AAllocUndo i sz o) m = MOk m' /\ Rel W S nx m'.
Proof.
  intros (w & c & R) Hi Hsz.
  destruct (rel_worker _ _ _ _ _ _ _ _ R Hi) as (fib & l & H1 & H2 & H3 & H4).
  cbn [exec]. rewrite H1. rewrite <- (rl_heap _ _ _ _ _ _ R).
  pose proof (so_alloc _ _ _ _ _ o sz (rl_reach _ _ _ _ _ _ R) H3 H2 Hsz) as X.
  destruct (new_coro o fib sz _) as [hp [f' fm]|hp|]; [|by left|done].
  destruct X as (X1 & X2 & X3). right.
  destruct (so_free _ _ (N.to_nat x) f' _ l fm X3 (lookup_insert _ _ _) (lookup_insert _ _ _) eq_refl eq_refl)
    as (hp' & f2 & E & R').
  cbn [StackModel.wheap StackModel.wst] in E, R'. rewrite E.
  rewrite !insert_insert in R'.
  eexists. split; [reflexivity|]. eexists _, _.
  eapply (rel_frames W S S); [exact R|exact Hi|done|exact R'|done|done|done|exact H4|apply (rl_nodup _ _ _ _ _ _ R)| |apply (rl_dom _ _ _ _ _ _ R)].
  intros y f Hne Hf Hf'. apply Hne. by eapply (rl_uniq _ _ _ _ _ _ R).
Qed.

Lemma rel_swap W S nx m w c hp :
  rel W S nx m w c -> SR (world hp (StackModel.wst w)) c ->
  rel W S nx (set_heap hp m) (world hp (StackModel.wst w)) c.
Proof. intros [] R. constructor; done. Qed.

Lemma a_sched W S S' nx m f sz o1 o2 o3 :
  Rel W S nx m -> (forall y, f ∉ S y) -> sz <= StackSpec.max_request ->
  (forall y, S' y = if decide (y = nx) then [f] else S y) ->
  (exists m', exec (ASched f sz o1 o2 o3) m = MThr m' /\ Rel W S nx m') \/
  (exists m', exec (ASched f sz o1 o2 o3) m = MOk m' /\ Rel W S' (nx + 1) m').
Proof.
  intros (w & c & R) Hfr Hsz HS.
  pose proof (nxt_not_live _ _ _ _ _ _ R) as Hnl.
  pose proof (not_live_none _ _ _ _ _ _ _ R Hnl) as Hnone.
  assert (Hnl2 : ~ live W S (nx + 1)). { intros L. apply (rl_fresh _ _ _ _ _ _ R) in L. lia. }
  pose proof (not_live_none _ _ _ _ _ _ _ R Hnl2) as Hnone2.
  pose proof (so_nohandle _ _ _ (rl_reach _ _ _ _ _ _ R) Hnone) as Hw1.
  pose proof (so_nohandle _ _ _ (rl_reach _ _ _ _ _ _ R) Hnone2) as Hw2.
  set (h1 := N.to_nat nx) in *. set (h2 := N.to_nat (nx + 1)) in *.
  assert (Hh : h1 <> h2) by (subst h1 h2; lia).
  cbn [exec]. unfold sched. rewrite <- (rl_heap _ _ _ _ _ _ R).
  pose proof (so_new _ _ h1 o1 (rl_reach _ _ _ _ _ _ R) Hnone) as X1.
  destruct (StackModel.stack_ctor o1 _) as [ha fib|ha|]; [|left|done].
  2: { eexists. split; [reflexivity|]. exists (world ha (StackModel.wst w)), c. apply rel_swap; [done|].
       subst ha. destruct w. exact (rl_reach _ _ _ _ _ _ R). }
  pose proof (so_alloc _ _ h1 _ _ o2 sz X1 (lookup_insert _ _ _) (lookup_insert _ _ _) Hsz) as X2.
  cbn [StackModel.wheap StackModel.wst] in X2.
  destruct (new_coro o2 fib sz ha) as [hb [f' fm]|hb|]; [|left|done].
  2: { subst hb.
       destruct (so_destroy _ _ h1 _ X1 (lookup_insert _ _ _) (lookup_insert _ _ _)) as (hc & E & X3).
       cbn [StackModel.wheap StackModel.wst] in E, X3. unfold StackModel.m_bind. rewrite E.
       eexists. split; [reflexivity|]. exists (world hc (StackModel.wst w)), c. apply rel_swap; [done|].
       rewrite !delete_insert in X3 by done. exact X3. }
  destruct X2 as (X4 & X5 & X2). rewrite !insert_insert in X2.
  unfold StackModel.stack_release.
  change (StackModel.next_stacklet o3 StackModel.init_size None) with (StackModel.stack_ctor o3).
  pose proof (so_new _ _ h2 o3 X2) as X6. rewrite lookup_insert_ne in X6 by done. specialize (X6 Hnone2).
  cbn [StackModel.wheap StackModel.wst] in X6. unfold StackModel.m_bind.
  destruct (StackModel.stack_ctor o3 hb) as [hc n|hc|]; [right|left|done].
  - cbn beta iota.
    destruct (so_destroy _ _ h2 _ X6 (lookup_insert _ _ _) (lookup_insert _ _ _)) as (hd & E & X7).
    cbn [StackModel.wheap StackModel.wst] in E, X7.
    rewrite !delete_insert in X7 by (by rewrite lookup_insert_ne).
    unfold StackModel.m_ret. rewrite E. eexists. split; [reflexivity|].
    exists (world hd (<[h1 := f']> (StackModel.wst w))),
      (<[h1 := [StackSpec.Alloc (fm_ptr fm) (fm_size fm) (fm_top fm)]]> c).
    destruct R.
    assert (Hsn : S nx = []).
    { destruct (S nx) eqn:E'; [done|]. exfalso. apply Hnl. right. by rewrite E'. }
    assert (L : forall z, live W S' z <-> live W S z \/ z = nx).
    { intros z. unfold live. rewrite HS. case_decide as Hz; [|tauto]. subst z. split; [by right|]. by right. }
    assert (Hnf : forall y, y <> nx -> f ∉ S y -> f ∉ S' y) by (intros y Hy Hf; by rewrite HS, decide_False).
    constructor; try done.
    + intros j z Hj. cbn [m_fib StackModel.wst]. destruct (rl_fib0 _ _ Hj) as (fb & ? & ?). exists fb.
      split; [done|]. rewrite lookup_insert_ne; [done|]. intros Ez. apply Hnl. left. exists j.
      assert (z = nx) as <- by (subst h1; lia). done.
    + intros z. rewrite L. intros [Hz| ->]; [|lia]. apply rl_fresh0 in Hz. lia.
    + intros z. rewrite L, HS. intros Hz. case_decide as Hc.
      * subst z. fold h1. rewrite lookup_insert. eexists. split; [reflexivity|]. constructor; [|constructor].
        unfold placed. cbn. rewrite lookup_insert. by destruct fm.
      * destruct Hz as [Hz|]; [|done]. destruct (rl_live0 z Hz) as (l & Hl & HF). exists l.
        rewrite lookup_insert_ne by (subst h1; lia). split; [done|].
        eapply placed_upd; [apply (Hfr z)|exact HF|]. left. reflexivity.
    + intros z Hz. apply L. destruct (decide (z = nx)) as [->|Hne]; [by right|]. left.
      rewrite lookup_insert_ne in Hz by (subst h1; lia). auto.
    + intros y z g. rewrite !HS. intros Hy Hz.
      destruct (decide (y = nx)) as [->|?], (decide (z = nx)) as [->|?]; try done.
      * apply elem_of_list_singleton in Hy as ->. by apply Hfr in Hz.
      * apply elem_of_list_singleton in Hz as ->. by apply Hfr in Hy.
      * eauto.
    + intros z. rewrite HS. case_decide; [apply NoDup_singleton|done].
    + intros g Hg. cbn in Hg. destruct (decide (g = f)) as [->|Hne].
      * exists nx. rewrite HS, decide_True by done. by left.
      * rewrite lookup_insert_ne in Hg by done. destruct (rl_dom0 g Hg) as (y & Hy).
        exists y. rewrite HS. case_decide; [subst; rewrite Hsn in Hy; by apply elem_of_nil in Hy|done].
  - subst hc.
    destruct (so_free _ _ h1 f' _ [] fm X2 (lookup_insert _ _ _) (lookup_insert _ _ _) eq_refl eq_refl)
      as (hd & f2 & E & X7).
    cbn [StackModel.wheap StackModel.wst] in E, X7. rewrite !insert_insert in X7.
    destruct (so_destroy _ _ h1 _ X7 (lookup_insert _ _ _) (lookup_insert _ _ _)) as (he & E' & X8).
    cbn [StackModel.wheap StackModel.wst] in E', X8.
    rewrite E, E'. eexists. split; [reflexivity|].
    exists (world he (StackModel.wst w)), c. apply rel_swap; [done|].
    rewrite !delete_insert in X8 by done. exact X8.
    Unshelve. all: exact (Fmem 0 0 0).
Qed.

(** ** Steps of the runtime *)

Definition ew (w : worker) : option N := if eff w then Some (w_stk w) else None.
Definition Wv (s : state) : list (option N) := ew <$> s_workers s.
Definition RelS (s : state) (m : mem) : Prop := Rel (Wv s) (stk s) (s_nexts s) m.

Lemma Wv_put i w s : Wv (put_worker i w s) = <[i := ew w]> (Wv s).
Proof. unfold Wv. cbn. apply list_fmap_insert. Qed.
Lemma Wv_at s i w : s_workers s !! i = Some w -> Wv s !! i = Some (ew w).
Proof. intros H. unfold Wv. by rewrite list_lookup_fmap, H. Qed.
Lemma Wv_same i w w' s : s_workers s !! i = Some w -> ew w' = ew w -> Wv (put_worker i w' s) = Wv s.
Proof. intros H E. rewrite Wv_put, E. apply list_insert_id. by apply Wv_at. Qed.

Lemma RelS_keep s s' m :
  RelS s m -> Wv s' = Wv s -> (forall x, stk s' x = stk s x) -> s_nexts s' = s_nexts s -> RelS s' m.
Proof. unfold RelS. intros R -> E ->. by eapply rel_ext. Qed.

Lemma run_top nw G s i w f fr :
  inv nw G s -> s_workers s !! i = Some w -> w_pc w = PRun f -> s_frames s !! f = Some fr ->
  f_steals fr = 0 -> w_stk w = f_stk fr /\ head_is (stk s (w_stk w)) f.
Proof.
  intros I Hi Hpc Hf Hs. destruct (pend_run _ _ _ _ _ f I Hi) as (fr' & Hf' & P1 & P2); [by left|].
  rewrite Hf in Hf'. injection Hf' as <-.
  pose proof (i_node _ _ _ I f fr Hf) as N0. rewrite P1 in N0.
  destruct (unstolen_childless _ _ _ _ _ _ _ N0 P2 Hs) as (N1 & N2 & _ & _).
  destruct (i_wrk _ _ _ I i w Hi) as ((_ & W) & _). rewrite Hpc in W.
  destruct W as (fr' & Hf' & W1 & _). rewrite Hf in Hf'. injection Hf' as <-.
  rewrite W1 by done. split; [done|]. by eapply childless_top.
Qed.

(** A stack that a worker has after a step, and not before it, was nobody's. *)
Lemma adopt_free nw G s s' i w w' y :
  inv nw G s' -> s_workers s !! i = Some w -> s_workers s' !! i = Some w' ->
  (forall j, j <> i -> s_workers s' !! j = s_workers s !! j) ->
  eff w' = true -> w_stk w' = y -> ew w <> Some y ->
  forall j, Wv s !! j <> Some (Some y).
Proof.
  intros I Hi Hi' Hj He Hy Hn j E. unfold Wv in E. rewrite list_lookup_fmap in E.
  destruct (s_workers s !! j) as [wj|] eqn:Ej; [|done]. cbn in E. injection E as E.
  destruct (decide (j = i)) as [->|Hne]; [congruence|].
  assert (Ej' : s_workers s' !! j = Some wj) by (by rewrite Hj).
  unfold ew in E. destruct (eff wj) eqn:Efj; [|done].
  apply (i_own _ _ _ I i j w' wj Hi' Ej'); [done|done|done|]. congruence.
Qed.

Lemma workers_Wv s s' i w' : s_workers s' = <[i := w']> (s_workers s) -> Wv s' = <[i := ew w']> (Wv s).
Proof. unfold Wv. intros ->. apply list_fmap_insert. Qed.
Lemma workers_same s s' i w w' :
  s_workers s !! i = Some w -> s_workers s' = <[i := w']> (s_workers s) -> ew w' = ew w -> Wv s' = Wv s.
Proof. intros H E Ew. rewrite (workers_Wv _ _ _ _ E), Ew. apply list_insert_id. by apply Wv_at. Qed.

Lemma join_resume_next i w f fr k s tr s' tr' :
  join_resume i w f fr k s tr = Next s' tr' ->
  f_stk fr = w_stk w /\ (exists l, stk s (w_stk w) = f :: l) /\
  s_workers s' = <[i := set_pc (PRun f) w]> (s_workers s) /\ (forall x, stk s' x = stk s x) /\
  s_nexts s' = s_nexts s.
Proof.
  unfold join_resume, same_stacklet. intros H. destruct (decide (f_steals fr = 0 /\ _)); [|done].
  destruct (decide (f_stk fr = w_stk w)) as [E|]; [|done].
  destruct (stk s (w_stk w)) as [|g l] eqn:Es; [done|]. destruct (decide (g = f)) as [->|]; [|done].
  destruct (unsafe_rethrow fr) as [[r fr']|]; [|done]. injection H as <- <-. eauto 10.
Qed.

Lemma take_next i w f fr k s tr s' tr' :
  take_stack_join_resume i w f fr k s tr = Next s' tr' ->
  stk s (w_stk w) = [] /\ (exists l, stk s (f_stk fr) = f :: l) /\
  s_workers s' = <[i := set_pc (PRun f) (set_wstk (f_stk fr) w)]> (s_workers s) /\
  (forall x, stk s' x = stk s x) /\ s_nexts s' = s_nexts s.
Proof.
  unfold take_stack_join_resume. intros H. destruct (decide (f_steals fr = 0)); [done|].
  destruct (stk s (w_stk w)) eqn:Es; [|done]. apply join_resume_next in H as (H1 & H2 & H3 & H4 & H5).
  split; [done|]. split; [exact H2|]. split; [|done]. rewrite H3. cbn. apply list_insert_insert.
Qed.

Lemma destroy_next w f fr s s1 :
  destroy w f fr s = Some s1 ->
  exists l, stk s (w_stk w) = f :: l /\ s1 = put_stack (w_stk w) l (del_frame f s).
Proof.
  unfold destroy. intros H. destruct (decide (f_stk fr = w_stk w)); [|done].
  destruct (stk s (w_stk w)) as [|g l]; [done|]. destruct (decide (g = f)) as [->|]; [|done].
  injection H as <-. eauto.
Qed.

Lemma call_resume_next seen i w f fr m st k s tr s' tr' :
  call_resume seen i w f fr m st k s tr = Next s' tr' ->
  s_workers s' = <[i := set_pc (PRun f) w]> (s_workers s) /\ (forall x, stk s' x = stk s x) /\
  s_nexts s' = s_nexts s.
Proof.
  unfold call_resume. intros H.
  destruct (unsafe_rethrow fr) as [[[e|] fr']|]; destruct m, st; try destruct (decide (f_steals fr = 0));
    try destruct (f_eflag fr && seen); try done; injection H as <- <-; done.
Qed.

Lemma fork_resume_next seen i w f fr m st k pre s s' tr :
  fork_resume seen i w f fr m st k pre s = Next s' tr ->
  s_workers s' = s_workers s /\ (forall x, stk s' x = stk s x) /\ s_nexts s' = s_nexts s.
Proof.
  unfold fork_resume. intros H.
  destruct (unsafe_rethrow fr) as [[[e|] fr']|]; destruct m, st; try destruct (decide (f_steals fr = pre));
    try destruct (decide (f_steals fr = 0)); try destruct (f_eflag fr && seen); try done; injection H as <- <-; done.
Qed.

Lemma deliver_next f fr o s s' tr :
  deliver f fr o s = Next s' tr ->
  s_workers s' = s_workers s /\ (forall x, stk s' x = stk s x) /\ s_nexts s' = s_nexts s.
Proof.
  unfold deliver. intros H. destruct (f_kind fr) as [|p j st|p j st]; [by injection H as <- <-| |];
    (destruct (s_frames s !! p) as [frp|]; [|done]; destruct o as [v|e]; [by injection H as <- <-|];
     destruct st; [by injection H as <- <-|]; destruct (f_eflag frp); by injection H as <- <-).
Qed.

Lemma capture_next f fr e s s' tr :
  capture f fr e s = Next s' tr ->
  s_workers s' = s_workers s /\ (forall x, stk s' x = stk s x) /\ s_nexts s' = s_nexts s.
Proof.
  unfold capture. intros H. destruct (f_kind fr) as [|p j st|p j st]; [done| |];
    (destruct (s_frames s !! p) as [frp|]; [|done]; by injection H as <- <-).
Qed.

Lemma to_idle_next i w s tr s' tr' :
  to_idle i w s tr = Next s' tr' ->
  stk s (w_stk w) = [] /\ s' = put_worker i (set_pc PIdle w) s.
Proof.
  unfold to_idle. intros H. destruct (w_deque w); [|done]. destruct (stk s (w_stk w)); [|done].
  by injection H as <- <-.
Qed.

Lemma keep_workers s s' m :
  RelS s m -> s_workers s' = s_workers s /\ (forall x, stk s' x = stk s x) /\ s_nexts s' = s_nexts s -> RelS s' m.
Proof. intros R (E & H1 & H2). eapply RelS_keep; [exact R| |done|done]. unfold Wv. by rewrite E. Qed.

Lemma keep_one s s' m i w w' :
  RelS s m -> s_workers s !! i = Some w ->
  s_workers s' = <[i := w']> (s_workers s) /\ (forall x, stk s' x = stk s x) /\ s_nexts s' = s_nexts s ->
  ew w' = ew w -> RelS s' m.
Proof. intros R Hi (E & H1 & H2) Hew. eapply RelS_keep; [exact R| |done|done]. by eapply workers_same. Qed.

Lemma RelS_at s (m : mem) i w : s_workers s !! i = Some w -> eff w = true -> Wv s !! i = Some (Some (w_stk w)).
Proof. intros H E. rewrite (Wv_at _ _ _ H). unfold ew. by rewrite E. Qed.

(** Taking over the stack of [f]. *)
Lemma adopt_ok nw G' s s' m i w w' f y l :
  inv nw G' s' -> RelS s m -> s_workers s !! i = Some w -> eff w = true -> stk s (w_stk w) = [] ->
  stk s y = f :: l ->
  s_workers s' = <[i := w']> (s_workers s) -> eff w' = true -> w_stk w' = y ->
  (forall x, stk s' x = stk s x) -> s_nexts s' = s_nexts s ->
  exists m', execs [AEmpty i; AAdopt i f] m = MOk m' /\ execs (take_acts i f) m = MOk m' /\ RelS s' m'.
Proof.
  intros I' R Hi He Hs Hy Hw He' Hy' Hst Hnx.
  pose proof (RelS_at _ m _ _ Hi He) as HW.
  assert (Hlt : (i < length (s_workers s))%nat) by (by eapply lookup_lt_Some).
  assert (Hi' : s_workers s' !! i = Some w') by (rewrite Hw; by apply list_lookup_insert).
  pose proof (a_empty _ _ _ _ _ _ R HW Hs) as H1.
  destruct (a_adopt _ _ _ _ _ _ y f l R HW Hs Hy) as (m' & H2 & R').
  { eapply (adopt_free nw G' s s' i w w' y I' Hi Hi'); [|done|done|].
    - intros j Hj. rewrite Hw. by apply list_lookup_insert_ne.
    - unfold ew. rewrite He. congruence. }
  assert (HR' : RelS s' m').
  { unfold RelS. rewrite (workers_Wv _ _ _ _ Hw), Hnx. unfold ew. rewrite He', Hy'. by eapply rel_ext. }
  exists m'. split; [|split; [|exact HR']].
  - cbn [execs]. rewrite H1. cbn [execs]. by rewrite H2.
  - unfold take_acts. cbn [execs]. rewrite H1. cbn [execs]. rewrite H2.
    pose proof (RelS_at _ m' _ _ Hi' He') as HW'. rewrite Hy' in HW'.
    assert (X : same_top i f m' = Some true). { eapply a_top; [exact HR'|exact HW'|]. by rewrite Hst. }
    cbn [exec]. by rewrite X.
Qed.

Definition good_exec (s s' : state) (r : rlabel) (m : mem) : Prop :=
  match execs (acts r s) m with
  | MOk m' => RelS s' m'
  | MThr m' => RelS s m'
  | MNo | MTerm => True
  | MUb => False
  end.

Lemma frame_fresh nw G s y : inv nw G s -> s_nextf s ∉ stk s y.
Proof.
  intros I H. destruct (so_dom _ _ _ (i_stk _ _ _ I) _ _ H) as (k & Hk).
  unfold shape_of in Hk. rewrite lookup_fmap, (i_fresh _ _ _ I (s_nextf s)) in Hk by lia. done.
Qed.

Lemma stk_put x l s y : stk (put_stack x l s) y = if decide (y = x) then l else stk s y.
Proof.
  unfold stk. cbn. case_decide as E; [subst; by rewrite lookup_insert|by rewrite lookup_insert_ne].
Qed.

Lemma exec_top i f m : same_top i f m = Some true -> exec (ATop i f) m = MOk m.
Proof. intros H. cbn [exec]. by rewrite H. Qed.
Lemma exec_cmp i f b m : same_top i f m = Some b -> exec (ACmp i f b) m = MOk m.
Proof. intros H. cbn [exec]. rewrite H. by destruct b. Qed.

Lemma work_task nw G G' s s' tr r i fail w f fr t m :
  inv nw G s -> inv nw G' s' -> RelS s m -> r_sz r <= StackSpec.max_request ->
  s_workers s !! i = Some w -> w_pc w = PRun f -> s_frames s !! f = Some fr -> f_rp fr = RRun t ->
  run_task i fail w f fr t s = Next s' tr ->
  match execs (task_acts r i fail f fr t s) m with
  | MOk m' => RelS s' m' | MNo => True | _ => False
  end.
Proof.
  intros I I' R Hsz Hi Hpc Hf Hrp H.
  assert (He : eff w = true) by (unfold eff; by rewrite Hpc).
  assert (Hew : forall w', w_pc w' = PRun f -> w_stk w' = w_stk w -> ew w' = ew w).
  { intros w' E1 E2. unfold ew, eff. by rewrite E1, Hpc, E2. }
  pose proof (RelS_at _ m _ _ Hi He) as HW.
  assert (Alloc : forall kd c w' s1, s_workers s1 = s_workers s -> (forall y, stk s1 y = stk s y) ->
    s_nexts s1 = s_nexts s -> s_nextf s1 = s_nextf s -> ew w' = ew w ->
    s' = put_worker i w' (spawn_child w kd c s1) ->
    match execs [AAlloc i (s_nextf s) (r_sz r) (r_o1 r)] m with MOk m' => RelS s' m' | MNo => True | _ => False end).
  { intros kd c w' s1 E1 E2 E3 E4 E5 ->.
    destruct (a_alloc _ _ (fun y => if decide (y = w_stk w) then s_nextf s :: stk s (w_stk w) else stk s y) _ _ _ _
      (s_nextf s) (r_sz r) (r_o1 r) R HW (fun y => frame_fresh _ _ _ y I) Hsz (fun y => eq_refl)) as [E|(m' & E & R')].
    - cbn [execs]. by rewrite E.
    - cbn [execs]. rewrite E. unfold RelS. rewrite (workers_Wv s (put_worker i w' (spawn_child w kd c s1)) i w').
      2: { cbn. by rewrite E1. }
      rewrite E5, list_insert_id by (by apply Wv_at). cbn [s_nexts put_worker spawn_child put_frame put_stack bump_f]. rewrite E3.
      eapply rel_ext; [|exact R']. intros y. unfold spawn_child.
      change (stk (put_worker i w' (put_frame (s_nextf s1) (new_frame kd c (w_stk w))
        (put_stack (w_stk w) (s_nextf s1 :: stk s1 (w_stk w)) (bump_f s1)))) y)
        with (stk (put_stack (w_stk w) (s_nextf s1 :: stk s1 (w_stk w)) (bump_f s1)) y).
      rewrite stk_put, E2, E4. case_decide; [done|]. apply E2. }
  assert (Fail : s_workers s' = s_workers s /\ (forall x, stk s' x = stk s x) /\ s_nexts s' = s_nexts s ->
    match execs [AAllocFail i (r_sz r) (r_o1 r)] m with MOk m' => RelS s' m' | MNo => True | _ => False end).
  { intros E. destruct (a_allocfail _ _ _ _ _ _ (r_sz r) (r_o1 r) R HW Hsz) as [E'|(m' & E' & R')];
      cbn [execs]; rewrite E'; [done|]. by eapply keep_workers. }
  destruct t as [v|e|md st c k|md st c k|k|sk d k|e k|k]; cbn [task_acts run_task] in *.
  - cbn [execs]. eapply keep_workers; [exact R|]. by eapply deliver_next.
  - cbn [execs]. eapply keep_workers; [exact R|]. by eapply deliver_next.
  - destruct fail.
    + assert (E : s_workers s' = s_workers s /\ (forall x, stk s' x = stk s x) /\ s_nexts s' = s_nexts s)
        by (by injection H as <- <-).
      destruct (r_push r); [|by apply Fail].
      destruct (a_allocundo _ _ _ _ _ _ (r_sz r) (r_o1 r) R HW Hsz) as [E'|(m' & E' & R')];
        cbn [execs]; rewrite E'; [done|]. by eapply keep_workers.
    + injection H as Hs' _. refine (Alloc _ _ _ _ _ _ _ _ _ (eq_sym Hs')); try done.
      unfold ew, eff. cbn. by rewrite Hpc.
  - destruct fail.
    + apply Fail. by injection H as <- <-.
    + injection H as Hs' _. refine (Alloc _ _ _ _ _ _ _ _ _ (eq_sym Hs')); try done.
      unfold ew, eff. cbn. by rewrite Hpc.
  - destruct (decide (f_steals fr = 0)) as [Es|Es].
    + apply join_resume_next in H as (H1 & (l & H2) & H3).
      cbn [execs]. rewrite (exec_top i f m); [|by eapply a_top].
      eapply (keep_one _ _ _ i w); [exact R|exact Hi|exact H3|by apply Hew].
    + destruct (decide (f_steals fr = u16max - f_joins fr)) as [Ej|Ej].
      * apply take_next in H as (H1 & (l & H2) & H3 & H4 & H5).
        destruct (adopt_ok _ _ s s' m i w _ f _ l I' R Hi He H1 H2 H3 eq_refl eq_refl H4 H5) as (m' & _ & -> & R').
        exact R'.
      * injection H as <- <-. cbn [execs]. eapply (keep_one _ _ _ i w); [exact R|exact Hi|split; [reflexivity|done]|].
        unfold ew, eff. cbn. by rewrite Hpc.
  - destruct (sk && bool_decide (d = i)).
    + injection H as <- <-. cbn [execs]. eapply keep_workers; [exact R|done].
    + destruct (same_stacklet s f fr w) as [same|] eqn:Esame; [|done].
      destruct (s_workers s !! d) as [wd0|] eqn:Hd0; [|done].
      destruct (decide (same = bool_decide (f_steals fr = 0))) as [Esm|]; [|done].
      set (s1 := put_worker i (set_pc (PSwRel same) w) (put_frame f (set_rp (RSwitched d k) fr) s)) in *.
      destruct (s_workers s1 !! d) as [wd|] eqn:Hd; [|done]. injection H as <- <-.
      assert (X : same_top i f m = Some same /\ RelS s1 m).
      { unfold same_stacklet in Esame. destruct (decide (f_stk fr = w_stk w)) as [E|E].
        - destruct (stk s (w_stk w)) as [|g l] eqn:El; [done|]. destruct (decide (g = f)) as [->|]; [|done].
          injection Esame as <-. split; [by eapply a_top|].
          unfold RelS. rewrite (workers_Wv s s1 i _ eq_refl). eapply rel_ext; [intros x; reflexivity|].
          unfold ew, eff at 1. cbn. eapply a_give; [exact R|exact HW|].
          change (stk s (w_stk w) <> []). by rewrite El.
        - injection Esame as <-. split.
          + eapply (a_cmpf _ _ _ _ _ _ (f_stk fr)); [exact R|exact HW| |done].
            eapply (so_in _ _ _ (i_stk _ _ _ I)). unfold shape_of. by rewrite lookup_fmap, Hf.
          + eapply (keep_one s s1 _ i w); [exact R|exact Hi|split; [reflexivity|done]|].
            unfold ew, eff. cbn. by rewrite Hpc. }
      destruct X as [X1 X2]. cbn [execs]. rewrite <- Esm, (exec_cmp i f same m X1).
      eapply (keep_one s1 _ _ d wd); [exact X2|exact Hd|split; [reflexivity|done]|]. done.
  - injection H as <- <-. cbn [execs]. eapply keep_workers; [exact R|done].
  - injection H as <- <-. cbn [execs]. eapply keep_workers; [exact R|done].
Qed.

Lemma free_ok s m i w f l (s1 := put_stack (w_stk w) l (del_frame f s)) :
  RelS s m -> s_workers s !! i = Some w -> eff w = true -> stk s (w_stk w) = f :: l ->
  exists m', exec (AFree i f) m = MOk m' /\ RelS s1 m'.
Proof.
  intros R Hi He Hl. pose proof (RelS_at _ m _ _ Hi He) as HW.
  destruct (a_free _ _ (stk s1) _ _ _ _ _ _ R HW Hl) as (m' & E & R'); [|exists m'; split; [exact E|exact R']].
  intros y. unfold s1. by rewrite stk_put.
Qed.

Lemma finish_ok seen s s' tr i w f fr m :
  RelS s m -> s_workers s !! i = Some w -> w_pc w = PRun f ->
  finish seen i w f fr s = Next s' tr ->
  match execs (match f_kind fr with KRoot => [] | _ => [AFree i f] end) m with
  | MOk m' => RelS s' m' | _ => False
  end.
Proof.
  intros R Hi Hpc H. assert (He : eff w = true) by (unfold eff; by rewrite Hpc).
  unfold finish in H. destruct (decide _); [|done].
  destruct (f_kind fr) as [|p j st|p j st].
  - injection H as <- <-. cbn [execs]. by eapply keep_workers; [exact R|].
  - destruct (destroy w f fr s) as [s1|] eqn:Ed; [|done]. apply destroy_next in Ed as (l & Hl & Es1).
    destruct (free_ok _ _ _ _ _ _ R Hi He Hl) as (m' & E & R'). rewrite <- Es1 in R'.
    destruct (s_frames s1 !! p) as [frp|]; [|done]. destruct (f_rp frp); try done.
    apply call_resume_next in H. cbn [execs]. rewrite E.
    eapply (keep_one s1 s' _ i w); [exact R'|by rewrite Es1|exact H|]. unfold ew, eff. cbn. by rewrite Hpc.
  - destruct (destroy w f fr s) as [s1|] eqn:Ed; [|done]. apply destroy_next in Ed as (l & Hl & Es1).
    destruct (free_ok _ _ _ _ _ _ R Hi He Hl) as (m' & E & R'). rewrite <- Es1 in R'.
    injection H as <- <-. cbn [execs]. rewrite E.
    eapply (keep_one s1 _ _ i w); [exact R'|by rewrite Es1|split; [reflexivity|done]|]. unfold ew, eff. cbn. by rewrite Hpc.
Qed.

Lemma loop_idle s m i w s' w' :
  RelS s m -> s_workers s !! i = Some w -> eff w = true -> stk s (w_stk w) = [] ->
  s' = put_worker i w' s -> ew w' = ew w ->
  execs [AEmpty i] m = MOk m /\ RelS s' m.
Proof.
  intros R Hi He Hs -> Ew. cbn [execs]. rewrite (a_empty _ _ _ _ _ _ R (RelS_at _ m _ _ Hi He) Hs).
  split; [done|]. eapply (keep_one s _ _ i w); [exact R|exact Hi|split; [reflexivity|done]|done].
Qed.

(** After [release()]: the worker has a new, empty stack. *)
Lemma release_ok s m i w o s' w' :
  RelS s m -> s_workers s !! i = Some w -> eff w = false ->
  s_workers s' = <[i := w']> (s_workers s) -> ew w' = Some (s_nexts s) ->
  (forall x, stk s' x = stk s x) -> s_nexts s' = s_nexts s + 1 -> stk s (s_nexts s) = [] ->
  execs [ARelease i o; AEmpty i] m = MTerm \/
  exists m', execs [ARelease i o; AEmpty i] m = MOk m' /\ RelS s' m'.
Proof.
  intros R Hi He Hw Ew Hst Hnx Hs0.
  assert (HW : Wv s !! i = Some None) by (rewrite (Wv_at _ _ _ Hi); unfold ew; by rewrite He).
  cbn [execs]. destruct (a_release _ _ _ _ _ o R HW) as [->|(m' & -> & R')]; [by left|right].
  assert (HR : RelS s' m'). { unfold RelS. rewrite (workers_Wv _ _ _ _ Hw), Ew, Hnx. by eapply rel_ext. }
  rewrite (a_empty _ _ _ _ _ (s_nexts s) R'); [eauto| |done].
  apply list_lookup_insert. unfold Wv. rewrite fmap_length. by eapply lookup_lt_Some.
Qed.

Lemma fresh_stack nw G s : inv nw G s -> stk s (s_nexts s) = [].
Proof. intros I. apply (so_fresh _ _ _ (i_stk _ _ _ I)). lia. Qed.

Theorem step_exec nw G G' s s' tr r m :
  inv nw G s -> inv nw G' s' -> RelS s m -> r_sz r <= StackSpec.max_request ->
  step (r_lab r) s = Next s' tr -> good_exec s s' r m.
Proof.
  intros I I' R Hsz H. unfold good_exec, acts. destruct (r_lab r) as [i fail|i|i|i v|d t]; cbn [step] in H.
  - unfold wstep in H. unfold work_acts. destruct (s_workers s !! i) as [w|] eqn:Hi; [|done].
    destruct (w_pc w) as [|f|f|p|p| |f|b|] eqn:Hpc.
    + destruct (w_batch w) as [|f rest]; [done|]. unfold resume_submitted in H.
      destruct (s_frames s !! f) as [fr|] eqn:Hf; [|done]. destruct (w_deque w); [|done].
      destruct (stk s (w_stk w)) eqn:Hs; [|done].
      assert (He : eff w = true) by (unfold eff; by rewrite Hpc).
      injection H as Hs' _. destruct (decide (f_steals fr = 0)) as [E0|E0].
      * assert (Hi' : s_workers s' !! i = Some (set_wstk (f_stk fr) (set_batch rest (set_pc (PRun f) w)))).
        { rewrite <- Hs'. cbn. apply list_lookup_insert. by eapply lookup_lt_Some. }
        destruct (run_top _ _ s' i _ f fr I' Hi' eq_refl) as (_ & l & Hl); [by rewrite <- Hs'|done|].
        rewrite <- Hs' in Hl. change (stk s (f_stk fr) = f :: l) in Hl.
        destruct (adopt_ok _ _ s s' m i w _ f _ l I' R Hi He Hs Hl
          ltac:(by rewrite <- Hs') eq_refl eq_refl ltac:(by rewrite <- Hs') ltac:(by rewrite <- Hs')) as (m' & -> & _ & R').
        exact R'.
      * destruct (loop_idle s m i w s' _ R Hi He Hs (eq_sym Hs')) as [-> R'].
        { unfold ew, eff. cbn. by rewrite Hpc. }
        exact R'.
    + unfold resume_stolen in H. destruct (s_frames s !! f) as [fr|]; [|done]. destruct (w_deque w); [|done].
      destruct (stk s (w_stk w)) eqn:Hs; [|done]. injection H as Hs' _.
      assert (He : eff w = true) by (unfold eff; by rewrite Hpc).
      cbn [execs]. rewrite (a_empty _ _ _ _ _ _ R (RelS_at _ m _ _ Hi He) Hs).
      eapply (keep_one s _ _ i w); [exact R|exact Hi| |].
      * rewrite <- Hs'. split; [reflexivity|done].
      * unfold ew, eff. cbn. by rewrite Hpc.
    + destruct (s_frames s !! f) as [fr|] eqn:Hf; [|done].
      assert (He : eff w = true) by (unfold eff; by rewrite Hpc).
      destruct (f_rp fr) as [t|md st k pre|md st k|k|d t|e| |] eqn:Hr; try done.
      * pose proof (work_task _ _ _ _ _ _ r i fail w f fr t m I I' R Hsz Hi Hpc Hf Hr H) as X.
        destruct (execs _ m); done.
      * cbn [execs]. eapply keep_workers; [exact R|]. by eapply fork_resume_next.
      * cbn [execs]. injection H as <- <-. by eapply keep_workers; [exact R|].
      * cbn [execs]. eapply keep_workers; [exact R|]. by eapply capture_next.
      * pose proof (finish_ok _ _ _ _ _ _ _ _ _ R Hi Hpc H) as X. destruct (execs _ m); done.
      * unfold root_destroy in H. destruct (destroy w f fr s) as [s1|] eqn:Ed; [|done].
        apply destroy_next in Ed as (l & Hl & Es1).
        destruct (free_ok _ _ _ _ _ _ R Hi He Hl) as (m' & E & R'). rewrite <- Es1 in R'.
        apply to_idle_next in H as (H1 & H2).
        destruct (loop_idle s1 m' i w s' _ R' ltac:(by rewrite Es1) He H1 H2) as [E' R2].
        { unfold ew, eff. cbn. by rewrite Hpc. }
        cbn [execs] in *. rewrite E. by rewrite E'.
    + cbn [execs]. destruct (w_deque w) as [|q D].
      * injection H as <- <-. eapply (keep_one s _ _ i w); [exact R|exact Hi|split; [reflexivity|done]|].
        unfold ew, eff. cbn. by rewrite Hpc.
      * destruct (decide (q = p)); [|done]. injection H as <- <-.
        eapply (keep_one s _ _ i w); [exact R|exact Hi|split; [reflexivity|done]|].
        unfold ew, eff. cbn. by rewrite Hpc.
    + unfold final_sub in H. destruct (s_frames s !! p) as [frp|] eqn:Hp; [|done].
      assert (He : eff w = true) by (unfold eff; by rewrite Hpc).
      pose proof (RelS_at _ m _ _ Hi He) as HW.
      unfold same_stacklet in H. destruct (decide (f_stk frp = w_stk w)) as [Esk|Esk].
      * destruct (stk s (w_stk w)) as [|g l] eqn:Hl; [done|]. destruct (decide (g = p)) as [->|]; [|done].
        assert (X : same_top i p m = Some true) by (by eapply a_top).
        destruct (decide (f_joins frp = 1)) as [Ej|Ej].
        -- destruct (f_rp frp); try done. apply join_resume_next in H as (_ & _ & H3 & H4 & H5).
           cbn [execs]. rewrite (exec_cmp _ _ _ _ X). cbn [execs]. rewrite (exec_top _ _ _ X).
           eapply (keep_one s _ _ i w); [exact R|exact Hi| |].
           ++ split; [|done]. rewrite H3. cbn. apply list_insert_insert.
           ++ unfold ew, eff. cbn. by rewrite Hpc, Esk.
        -- injection H as <- <-. cbn [execs]. rewrite (exec_cmp _ _ _ _ X).
           unfold RelS. rewrite Wv_put. change (ew (set_pc PLoseRel w)) with (@None N).
           eapply a_give; [exact R|exact HW|]. change (stk s (w_stk w) <> []). by rewrite Hl.
      * assert (X : same_top i p m = Some false).
        { eapply (a_cmpf _ _ _ _ _ _ (f_stk frp)); [exact R|exact HW| |done].
          eapply (so_in _ _ _ (i_stk _ _ _ I)). unfold shape_of. by rewrite lookup_fmap, Hp. }
        destruct (decide (f_joins frp = 1)) as [Ej|Ej].
        -- destruct (f_rp frp); try done. destruct (stk s (w_stk w)) eqn:Hs; [|done].
           apply join_resume_next in H as (_ & (l & H2) & H3 & H4 & H5). cbn in H2.
           change (stk s (f_stk frp) = p :: l) in H2.
           destruct (adopt_ok _ _ s s' m i w (set_pc (PRun p) (set_wstk (f_stk frp) w)) p _ l I' R Hi He Hs H2
             ltac:(rewrite H3; cbn; apply list_insert_insert) eq_refl eq_refl H4 H5) as (m' & _ & E & R').
           unfold take_acts in E. cbn [execs] in *. rewrite (exec_cmp _ _ _ _ X). by rewrite E.
        -- apply to_idle_next in H as (H1 & H2). cbn [execs]. rewrite (exec_cmp _ _ _ _ X). cbn [execs].
           rewrite (a_empty _ _ _ _ _ _ R HW H1).
           eapply (keep_one s _ _ i w); [exact R|exact Hi| |].
           ++ rewrite H2. split; [reflexivity|done].
           ++ unfold ew, eff. cbn. by rewrite Hpc.
    + apply to_idle_next in H as (H1 & H2).
      destruct (release_ok s m i w (r_o1 r) s' (set_pc PIdle (set_wstk (s_nexts s) w)) R Hi) as [->|(m' & -> & R')]; try done.
      * unfold eff. by rewrite Hpc.
      * rewrite H2. cbn. apply list_insert_insert.
      * by rewrite H2.
      * by rewrite H2.
    + destruct (s_frames s !! f) as [fr|] eqn:Hf; [|done]. unfold join_suspend in H.
      destruct (f_rp fr) as [t| | | | | | |]; try done. destruct t as [| | | |k| | |]; try done.
      assert (He : eff w = true) by (unfold eff; by rewrite Hpc).
      destruct (decide (f_steals fr = u16max - f_joins fr)) as [Ej|Ej].
      * apply take_next in H as (H1 & (l & H2) & H3 & H4 & H5).
        destruct (adopt_ok _ _ s s' m i w _ f _ l I' R Hi He H1 H2 H3 eq_refl eq_refl H4 H5) as (m' & _ & -> & R').
        exact R'.
      * injection H as <- <-. cbn [execs].
        eapply (keep_one s _ _ i w); [exact R|exact Hi|split; [reflexivity|done]|].
        unfold ew, eff. cbn. by rewrite Hpc.
    + destruct b.
      * destruct (stk (bump_s s) _) eqn:Hs; [|done]. injection H as Hs' _.
        destruct (release_ok s m i w (r_o1 r) s' (set_pc PSelf (set_wstk (s_nexts s) w)) R Hi) as [->|(m' & -> & R')]; try done.
        -- unfold eff. by rewrite Hpc.
        -- by rewrite <- Hs'.
        -- by rewrite <- Hs'.
        -- by rewrite <- Hs'.
      * destruct (stk s (w_stk w)) eqn:Hs; [|done]. injection H as Hs' _.
        assert (He : eff w = true) by (unfold eff; by rewrite Hpc).
        destruct (loop_idle s m i w s' _ R Hi He Hs (eq_sym Hs')) as [-> R'].
        { unfold ew, eff. cbn. by rewrite Hpc. }
        exact R'.
    + unfold self_steal in H. assert (He : eff w = true) by (unfold eff; by rewrite Hpc).
      destruct (w_deque w) as [|q D].
      * apply to_idle_next in H as (H1 & H2).
        destruct (loop_idle s m i w s' _ R Hi He H1 H2) as [-> R'].
        { unfold ew, eff. cbn. by rewrite Hpc. }
        exact R'.
      * destruct (s_frames s !! q); [|done]. injection H as <- <-. cbn [execs].
        eapply (keep_one s _ _ i w); [exact R|exact Hi|split; [reflexivity|done]|].
        unfold ew, eff. cbn. by rewrite Hpc.
  - unfold stale in H. destruct (s_workers s !! i) as [w|] eqn:Hi; [|done].
    destruct (w_pc w) as [|f|f|p|p| |f|b|] eqn:Hpc; try done.
    destruct (s_frames s !! f) as [fr|] eqn:Hf; [|done].
    destruct (f_rp fr) as [t|md st k pre|md st k|k|d t|e| |] eqn:Hr; try done.
    + destruct t; try done. destruct (decide _); [done|]. injection H as <- <-. cbn [execs].
      eapply (keep_one s _ _ i w); [exact R|exact Hi|split; [reflexivity|done]|].
      unfold ew, eff. cbn. by rewrite Hpc.
    + cbn [execs]. eapply keep_workers; [exact R|]. by eapply fork_resume_next.
    + destruct (f_kind fr) as [|p j st|] eqn:Hk; try done.
      pose proof (finish_ok _ _ _ _ _ _ _ _ _ R Hi Hpc H) as X. rewrite Hk in X. destruct (execs _ m); done.
  - unfold take in H. destruct (s_workers s !! i) as [w|] eqn:Hi; [|done].
    destruct (w_pc w) eqn:Hpc; try done. destruct (w_batch w); [|done]. destruct (w_inbox w); [done|].
    injection H as <- <-. cbn [execs].
    eapply (keep_one s _ _ i w); [exact R|exact Hi|split; [reflexivity|done]|]. done.
  - unfold steal in H. destruct (s_workers s !! i) as [w|] eqn:Hi; [|done].
    destruct (s_workers s !! v) as [wv|] eqn:Hv; [|done]. destruct (decide (i = v)) as [|Hne]; [done|].
    destruct (w_pc w) eqn:Hpc; try done. destruct (w_batch w); [|done]. destruct (last (w_deque wv)); [|done].
    injection H as <- <-. cbn [execs].
    set (s1 := put_worker v (set_deque (removelast (w_deque wv)) wv) s).
    assert (R1 : RelS s1 m).
    { eapply (keep_one s _ _ v wv); [exact R|exact Hv|split; [reflexivity|done]|]. done. }
    eapply (keep_one s1 _ _ i w); [exact R1| |split; [reflexivity|done]|].
    + cbn. by rewrite list_lookup_insert_ne.
    + unfold ew, eff. cbn. by rewrite Hpc.
  - unfold spawn in H. destruct (s_workers s !! d) as [wd|] eqn:Hd; [|done]. injection H as Hs' _.
    destruct (a_sched _ _ (fun y => if decide (y = s_nexts s) then [s_nextf s] else stk s y) _ _ (s_nextf s) (r_sz r)
      (r_o1 r) (r_o2 r) (r_o3 r) R (fun y => frame_fresh _ _ _ y I) Hsz (fun y => eq_refl)) as [(m' & E & R')|(m' & E & R')];
      cbn [execs]; rewrite E; [exact R'|].
    unfold RelS. rewrite (workers_same s s' d wd _ Hd ltac:(rewrite <- Hs'; reflexivity) eq_refl).
    rewrite <- Hs'. cbn [s_nexts put_worker put_frame put_stack bump_f bump_s].
    eapply rel_ext; [|exact R']. intros y.
    change (stk (put_stack (s_nexts s) [s_nextf s] (bump_f (bump_s s))) y = if decide (y = s_nexts s) then [s_nextf s] else stk s y).
    by rewrite stk_put.
Qed.

(** ** Whole executions *)

Lemma a_boot W S nx m o h x :
  Rel W S nx m -> StackModel.stack_ctor o (m_heap m) = StackModel.Ret h x ->
  Rel (W ++ [Some nx]) S (nx + 1) (Mem h (m_fib m ++ [x]) (m_frm m)).
Proof.
  intros (w & c & R) E. pose proof (nxt_not_live _ _ _ _ _ _ R) as Hnl.
  pose proof (not_live_none _ _ _ _ _ _ _ R Hnl) as Hnone.
  pose proof (so_new _ _ _ o (rl_reach _ _ _ _ _ _ R) Hnone) as X.
  rewrite (rl_heap _ _ _ _ _ _ R), E in X.
  exists (world h (<[N.to_nat nx := x]> (StackModel.wst w))), (<[N.to_nat nx := []]> c). destruct R.
  assert (Hsn : S nx = []).
  { destruct (S nx) eqn:E'; [done|]. exfalso. apply Hnl. right. by rewrite E'. }
  assert (At : forall j z, (W ++ [Some nx]) !! j = Some (Some z) -> W !! j = Some (Some z) \/ (j = length W /\ z = nx)).
  { intros j z Hj. apply lookup_app_Some in Hj as [Hj|[Hj1 Hj2]]; [by left|right].
    apply list_lookup_singleton_Some in Hj2 as [Hj2 Hz]. split; [lia|congruence]. }
  assert (L : forall z, live (W ++ [Some nx]) S z <-> live W S z \/ z = nx).
  { intros z. split.
    - intros [(j & Hj)|Hj]; [|left; by right]. apply At in Hj as [Hj|[_ ->]]; [|by right]. left; left; eauto.
    - intros [[(j & Hj)|Hj]| ->]; [|by right|].
      + left. exists j. by apply lookup_app_l_Some.
      + left. exists (length W). rewrite lookup_app_r by done. by rewrite Nat.sub_diag. }
  constructor; try done.
  - cbn [m_fib]. rewrite !app_length. by rewrite rl_len0.
  - intros j z Hj. cbn [m_fib StackModel.wst]. apply At in Hj as [Hj|[-> ->]].
    + destruct (rl_fib0 _ _ Hj) as (fb & ? & ?). exists fb. split; [by apply lookup_app_l_Some|].
      rewrite lookup_insert_ne; [done|]. intros Ez. apply Hnl. left. exists j. assert (z = nx) as <- by lia. done.
    + exists x. rewrite lookup_insert, rl_len0, lookup_app_r, Nat.sub_diag by done. done.
  - intros j k z Hj Hk. apply At in Hj as [Hj|[-> ->]]; apply At in Hk as [Hk|[-> Hk]]; subst; eauto.
    + exfalso. apply Hnl. left; eauto.
    + exfalso. apply Hnl. left; eauto.
  - intros z. rewrite L. intros [Hz| ->]; [|lia]. apply rl_fresh0 in Hz. lia.
  - intros z. rewrite L. intros Hz. destruct (decide (z = nx)) as [->|Hne].
    + rewrite lookup_insert. exists []. rewrite Hsn. split; [done|constructor].
    + destruct Hz as [Hz|Hz]; [|done]. rewrite lookup_insert_ne by lia. apply rl_live0; done.
  - intros z Hz. apply L. destruct (decide (z = nx)) as [->|Hne]; [by right|]. left.
    rewrite lookup_insert_ne in Hz by lia. auto.
Qed.

Lemma boot_rel os : forall k m m',
  Rel (map (fun i => Some (N.of_nat i)) (seq 0 k)) (fun _ => []) (N.of_nat k) m ->
  boot os m = Some m' ->
  Rel (map (fun i => Some (N.of_nat i)) (seq 0 (k + length os))) (fun _ => []) (N.of_nat (k + length os)) m'.
Proof.
  induction os as [|o os IH]; intros k m m' R E; cbn [boot length] in *.
  - injection E as <-. by rewrite Nat.add_0_r.
  - destruct (StackModel.stack_ctor o (m_heap m)) as [h x| |] eqn:X; [|done|done].
    rewrite <- Nat.add_succ_comm. eapply IH; [|exact E].
    rewrite seq_S, map_app. cbn [map]. rewrite Nat2N.inj_succ, <- N.add_1_r. by eapply a_boot.
Qed.

Lemma rel_start : Rel [] (fun _ => []) 0 (Mem ∅ [] ∅).
Proof.
  exists StackModel.init, ∅. constructor; try done.
  - apply StackSpec.reach_init.
  - intros x [(i & Hi)|?]; done.
  - intros x [(i & Hi)|?]; done.
  - intros x. rewrite lookup_empty. by intros [].
  - intros. by rewrite elem_of_nil in *.
  - constructor.
  - intros f. cbn. rewrite lookup_empty. by intros [].
Qed.

Theorem rreach_ok nw af s m h : rreach nw af s m h -> reach nw af s h /\ RelS s m.
Proof.
  induction 1 as [os m Hl Hb|r s m h s' m' tr Hr [IH R] Ha Hsz Hst].
  - split; [apply reach_init|]. pose proof (boot_rel _ 0%nat _ _ rel_start Hb) as X.
    cbn [Nat.add] in X. rewrite Hl in X. unfold RelS, Wv. cbn [s_nexts init s_workers].
    assert (E : forall l, ew <$> map (fun i => mkWorker PIdle [] [] [] (N.of_nat i)) l = map (fun i => Some (N.of_nat i)) l).
    { induction l as [|a l IHl]; [done|]. cbn. by rewrite IHl. }
    rewrite E. eapply rel_ext; [|exact X]. intros x. unfold stk. cbn. by rewrite lookup_empty.
  - unfold rstep in Hst. destruct (step (r_lab r) s) as [s1 tr1| |] eqn:E; [|done|done].
    pose proof (reach_step _ _ _ _ _ _ _ IH Ha E) as R1.
    destruct (reach_inv _ _ _ _ IH) as (G & I). destruct (reach_inv _ _ _ _ R1) as (G' & I').
    pose proof (step_exec _ _ _ _ _ _ _ _ I I' R Hsz E) as X. unfold good_exec in X.
    destruct (execs (acts r s) m) as [m1| |m1| |]; try done; injection Hst as <- <- <-; done.
Qed.

Theorem rreach_safe nw af s m h r :
  rreach nw af s m h -> allowed nw af (r_lab r) -> r_sz r <= StackSpec.max_request -> rstep r s m <> RUndef.
Proof.
  intros Hr Ha Hsz. destruct (rreach_ok _ _ _ _ _ Hr) as [IH R]. unfold rstep.
  pose proof (reach_safe _ _ _ _ _ IH Ha) as Hs.
  destruct (step (r_lab r) s) as [s1 tr1| |] eqn:E; [|done|done].
  pose proof (reach_step _ _ _ _ _ _ _ IH Ha E) as R1.
  destruct (reach_inv _ _ _ _ IH) as (G & I). destruct (reach_inv _ _ _ _ R1) as (G' & I').
  pose proof (step_exec _ _ _ _ _ _ _ _ I I' R Hsz E) as X. unfold good_exec in X.
  by destruct (execs (acts r s) m).
Qed.

(** ** Where frames lie *)

Lemma frame_alloc nw G s m w c f fr :
  inv nw G s -> rel (Wv s) (stk s) (s_nexts s) m w c -> s_frames s !! f = Some fr ->
  exists l k a, c !! N.to_nat (f_stk fr) = Some l /\ l !! k = Some a /\ stk s (f_stk fr) !! k = Some f /\ placed m f a.
Proof.
  intros I R Hf.
  assert (Hin : f ∈ stk s (f_stk fr)).
  { eapply (so_in _ _ _ (i_stk _ _ _ I)). unfold shape_of. by rewrite lookup_fmap, Hf. }
  destruct (rl_live _ _ _ _ _ _ R (f_stk fr)) as (l & Hl & HF); [right; destruct (stk s (f_stk fr)); set_solver|].
  apply elem_of_list_lookup in Hin as (k & Hk). destruct (Forall2_lookup_l _ _ _ _ _ HF Hk) as (a & Ha & Hp).
  eauto 10.
Qed.

Theorem frames_placed nw af s m h f :
  rreach nw af s m h ->
  (is_Some (s_frames s !! f) <-> is_Some (m_frm m !! f)) /\
  (forall fm, m_frm m !! f = Some fm -> in_block m fm).
Proof.
  intros Hr. destruct (rreach_ok _ _ _ _ _ Hr) as [IH (w & c & R)]. destruct (reach_inv _ _ _ _ IH) as (G & I).
  assert (X : is_Some (m_frm m !! f) -> exists fr, s_frames s !! f = Some fr).
  { intros Hf. destruct (rl_dom _ _ _ _ _ _ R f Hf) as (x & Hx).
    destruct (so_dom _ _ _ (i_stk _ _ _ I) _ _ Hx) as (k & Hk). unfold shape_of in Hk. rewrite lookup_fmap in Hk.
    destruct (s_frames s !! f); [eauto|done]. }
  split.
  - split; [|intros Hf; destruct (X Hf); eauto]. intros (fr & Hf).
    destruct (frame_alloc _ _ _ _ _ _ _ _ I R Hf) as (l & k & a & _ & _ & _ & Hp). rewrite Hp. eauto.
  - intros fm Hfm. destruct X as (fr & Hf); [eauto|].
    destruct (frame_alloc _ _ _ _ _ _ _ _ I R Hf) as (l & k & a & Hl & Ha & _ & Hp).
    unfold placed in Hp. assert (E : fm = Fmem (StackSpec.a_ptr a) (StackSpec.a_size a) (StackSpec.a_top a)) by congruence. subst fm.
    destruct (StackProofs.reach_alloc_placed w c _ l a (rl_reach _ _ _ _ _ _ R) Hl) as (b & s0 & H1 & _ & H2 & H3 & H4 & H5 & _).
    { by eapply elem_of_list_lookup_2. }
    exists b, s0. rewrite <- (rl_heap _ _ _ _ _ _ R). cbn. split_and!; [done|done|done|]. etransitivity; eauto.
Qed.

Theorem frames_apart nw af s m h f g fm gm :
  rreach nw af s m h -> m_frm m !! f = Some fm -> m_frm m !! g = Some gm -> f <> g -> apart fm gm.
Proof.
  intros Hr Hf Hg Hne.
  destruct (frames_placed _ _ _ _ _ f Hr) as [[_ X1] _]. destruct (frames_placed _ _ _ _ _ g Hr) as [[_ X2] _].
  destruct X1 as (fr & Ef); [eauto|]. destruct X2 as (gr & Eg); [eauto|].
  destruct (rreach_ok _ _ _ _ _ Hr) as [IH (w & c & R)]. destruct (reach_inv _ _ _ _ IH) as (G & I).
  destruct (frame_alloc _ _ _ _ _ _ _ _ I R Ef) as (l & k & a & Hl & Ha & Hk & Hp).
  destruct (frame_alloc _ _ _ _ _ _ _ _ I R Eg) as (l' & k' & b & Hl' & Hb & Hk' & Hp').
  unfold placed in *.
  assert (fm = Fmem (StackSpec.a_ptr a) (StackSpec.a_size a) (StackSpec.a_top a)) as -> by congruence.
  assert (gm = Fmem (StackSpec.a_ptr b) (StackSpec.a_size b) (StackSpec.a_top b)) as -> by congruence.
  intros z [Hz1 Hz2]. cbn in *.
  eapply (StackProofs.reach_disjoint w c _ _ k k' l l' a b (rl_reach _ _ _ _ _ _ R) Hl Hl' Ha Hb).
  - intros E. injection E as E1 E2. assert (E3 : f_stk fr = f_stk gr) by lia. rewrite E3, E2, Hk' in Hk. congruence.
  - unfold StackSpec.overlap. lia.
Qed.

(** ** The end *)

Lemma halt_ok xs : forall fibs w c,
  SR w c -> NoDup xs -> Forall2 (fun x fib => StackModel.wst w !! N.to_nat x = Some fib) xs fibs ->
  (forall x, x ∈ xs -> c !! N.to_nat x = Some []) -> (forall x, is_Some (c !! N.to_nat x) -> x ∈ xs) ->
  halt fibs (StackModel.wheap w) = StackModel.Ret ∅ tt.
Proof.
  induction xs as [|x xs IH]; intros fibs w c R Hnd HF Hc Hall.
  - apply Forall2_nil_inv_l in HF as ->.
    assert (c = ∅) as ->.
    { apply map_eq. intros h. rewrite lookup_empty. destruct (c !! h) eqn:E; [|done]. exfalso.
      assert (X : N.of_nat h ∈ ([] : list N)) by (apply Hall; rewrite Nat2N.id, E; eauto).
      by apply elem_of_nil in X. }
    apply StackProofs.reach_no_leak in R as [-> _]. done.
  - apply Forall2_cons_inv_l in HF as (fib & fibs' & Hf & HF & ->). apply NoDup_cons in Hnd as [Hnin Hnd].
    destruct (so_destroy w c _ fib R (Hc x ltac:(by left)) Hf) as (hp & E & R').
    cbn [halt]. unfold StackModel.m_bind. rewrite E.
    apply (IH _ _ _ R' Hnd).
    + apply Forall2_same_length_lookup. apply Forall2_same_length_lookup in HF as [H1 H2]. split; [done|].
      intros k y fb Hy Hfb. cbn. rewrite lookup_delete_ne; [by eapply H2|]. intros Ex. apply Hnin.
      assert (x = y) as -> by lia. by eapply elem_of_list_lookup_2.
    + intros y Hy. rewrite lookup_delete_ne; [apply Hc; by right|]. intros Ex. apply Hnin. by assert (x = y) as -> by lia.
    + intros y Hy. destruct (decide (y = x)) as [->|Hne].
      * rewrite lookup_delete in Hy. by destruct Hy.
      * rewrite lookup_delete_ne in Hy by lia. apply Hall in Hy. apply elem_of_cons in Hy as [?|?]; done.
Qed.

Theorem shutdown_ok nw af s m h :
  rreach nw af s m h -> s_frames s = ∅ ->
  (forall i w, s_workers s !! i = Some w -> w_pc w = PIdle) ->
  halt (m_fib m) (m_heap m) = StackModel.Ret ∅ tt.
Proof.
  intros Hr Hf Hidle. destruct (rreach_ok _ _ _ _ _ Hr) as [IH (w & c & R)]. destruct (reach_inv _ _ _ _ IH) as (G & I).
  assert (Hst : forall x, stk s x = []).
  { intros x. destruct (stk s x) as [|g l] eqn:E; [done|]. exfalso.
    destruct (so_dom _ _ _ (i_stk _ _ _ I) g x) as (k & Hk); [rewrite E; by left|].
    unfold shape_of in Hk. rewrite Hf, fmap_empty, lookup_empty in Hk. done. }
  assert (HW : Wv s = Some <$> (w_stk <$> s_workers s)).
  { unfold Wv. rewrite <- list_fmap_compose. apply list_eq. intros i. rewrite !list_lookup_fmap.
    destruct (s_workers s !! i) as [wi|] eqn:E; [|done]. cbn. unfold ew, eff. by rewrite (Hidle _ _ E). }
  set (xs := w_stk <$> s_workers s) in *.
  assert (Hat : forall i x, xs !! i = Some x -> Wv s !! i = Some (Some x)).
  { intros i x Hx. by rewrite HW, list_lookup_fmap, Hx. }
  rewrite <- (rl_heap _ _ _ _ _ _ R).
  apply (halt_ok xs (m_fib m) w c (rl_reach _ _ _ _ _ _ R)).
  - apply NoDup_alt. intros i j x Hi Hj. eapply (rl_own _ _ _ _ _ _ R); eauto.
  - apply Forall2_same_length_lookup. split.
    + pose proof (rl_len _ _ _ _ _ _ R) as E. by rewrite HW, fmap_length in E.
    + intros i x fib Hx Hfib. destruct (rl_fib _ _ _ _ _ _ R i x (Hat _ _ Hx)) as (fb & H1 & H2). congruence.
  - intros x Hx. apply elem_of_list_lookup in Hx as (i & Hi).
    destruct (rl_live _ _ _ _ _ _ R x) as (l & Hl & HF); [left; eauto|]. rewrite Hst in HF.
    by apply Forall2_nil_inv_l in HF as ->.
  - intros x Hx. apply (rl_only _ _ _ _ _ _ R) in Hx as [(i & Hi)|Hn]; [|by rewrite Hst in Hn].
    rewrite HW, list_lookup_fmap in Hi. destruct (xs !! i) eqn:E; [|done]. cbn in Hi. injection Hi as ->.
    by eapply elem_of_list_lookup_2.
Qed.

(** ** Every step of the runtime is possible *)

Definition a_mem (a : act) : bool :=
  match a with AAlloc _ _ _ _ | AAllocFail _ _ _ | AAllocUndo _ _ _ => true | _ => false end.
Definition a_rel (a : act) : bool := match a with ARelease _ _ => true | _ => false end.
Definition a_sch (a : act) : bool := match a with ASched _ _ _ _ _ => true | _ => false end.

Lemma exec_no a m : exec a m = MNo -> a_mem a = true.
Proof.
  destruct a; intros E; cbn [a_mem]; try done; exfalso; cbn [exec] in E.
  - by destruct (same_top _ _ _) as [[]|].
  - destruct (same_top _ _ _); [|done]. by destruct (Bool.eqb _ _).
  - destruct (m_fib m !! i); [|done]. by destruct (StackModel.stack_empty _ _) as [? []| |].
  - destruct (m_fib m !! i); [|done]. destruct (m_frm m !! f); [|done]. by destruct (adopt _ _ _).
  - destruct (m_fib m !! i); [|done]. by destruct (StackModel.stack_release _ _ _) as [? []| |].
  - destruct (m_fib m !! i); [|done]. destruct (m_frm m !! f); [|done]. by destruct (del_coro _ _ _).
  - by destruct (sched _ _ _ _ _) as [? []| |].
Qed.

Lemma exec_thr a m m' : exec a m = MThr m' -> a_sch a = true.
Proof.
  destruct a; intros E; cbn [a_sch]; try done; exfalso; cbn [exec] in E.
  - by destruct (same_top _ _ _) as [[]|].
  - destruct (same_top _ _ _); [|done]. by destruct (Bool.eqb _ _).
  - destruct (m_fib m !! i); [|done]. by destruct (StackModel.stack_empty _ _) as [? []| |].
  - destruct (m_fib m !! i); [|done]. destruct (m_frm m !! f); [|done]. by destruct (adopt _ _ _).
  - destruct (m_fib m !! i); [|done]. by destruct (StackModel.stack_release _ _ _) as [? []| |].
  - destruct (m_fib m !! i); [|done]. by destruct (new_coro _ _ _ _) as [? []| |].
  - destruct (m_fib m !! i); [|done]. by destruct (new_coro _ _ _ _) as [? []| |].
  - destruct (m_fib m !! i); [|done]. destruct (new_coro _ _ _ _) as [? []| |]; [|done|done]. by destruct (del_coro _ _ _).
  - destruct (m_fib m !! i); [|done]. destruct (m_frm m !! f); [|done]. by destruct (del_coro _ _ _).
Qed.

Lemma exec_term a m : exec a m = MTerm -> exists i o, a = ARelease i o /\ exists hp, StackModel.stack_ctor o (m_heap m) = StackModel.Thr hp.
Proof.
  destruct a; intros E; cbn [exec] in E.
  - by destruct (same_top _ _ _) as [[]|].
  - destruct (same_top _ _ _); [|done]. by destruct (Bool.eqb _ _).
  - destruct (m_fib m !! i); [|done]. by destruct (StackModel.stack_empty _ _) as [? []| |].
  - destruct (m_fib m !! i); [|done]. destruct (m_frm m !! f); [|done]. by destruct (adopt _ _ _).
  - destruct (m_fib m !! i) as [fib|]; [|done]. exists i, o. split; [done|].
    unfold StackModel.stack_release, StackModel.m_bind in E.
    change (StackModel.next_stacklet o StackModel.init_size None) with (StackModel.stack_ctor o) in E.
    destruct (StackModel.stack_ctor o (m_heap m)) as [hp n|hp|]; [|by exists hp|done]. done.
  - destruct (m_fib m !! i); [|done]. by destruct (new_coro _ _ _ _) as [? []| |].
  - destruct (m_fib m !! i); [|done]. by destruct (new_coro _ _ _ _) as [? []| |].
  - destruct (m_fib m !! i); [|done]. destruct (new_coro _ _ _ _) as [? []| |]; [|done|done]. by destruct (del_coro _ _ _).
  - destruct (m_fib m !! i); [|done]. destruct (m_frm m !! f); [|done]. by destruct (del_coro _ _ _).
  - by destruct (sched _ _ _ _ _) as [? []| |].
Qed.

Lemma execs_no l : forall m, execs l m = MNo -> existsb a_mem l = true.
Proof.
  induction l as [|a l IH]; intros m E; [done|]. cbn [execs] in E. cbn [existsb].
  destruct (exec a m) eqn:X; try done; [|by rewrite (exec_no _ _ X)]. rewrite (IH _ E). by destruct (a_mem a).
Qed.
Lemma execs_thr l : forall m m', execs l m = MThr m' -> existsb a_sch l = true.
Proof.
  induction l as [|a l IH]; intros m m' E; [done|]. cbn [execs] in E. cbn [existsb].
  destruct (exec a m) eqn:X; try done; [|by rewrite (exec_thr _ _ _ X)]. rewrite (IH _ _ E). by destruct (a_sch a).
Qed.

(** Only the first action of a step can be a release. *)
Lemma execs_term l m : execs l m = MTerm -> existsb a_rel (tl l) = false ->
  exists i o, head l = Some (ARelease i o) /\ exists hp, StackModel.stack_ctor o (m_heap m) = StackModel.Thr hp.
Proof.
  assert (No : forall l m, execs l m = MTerm -> existsb a_rel l = true).
  { clear. induction l as [|a l IH]; intros m E; [done|]. cbn [execs] in E. cbn [existsb].
    destruct (exec a m) eqn:X; try done.
    - rewrite (IH _ E). by destruct (a_rel a).
    - destruct (exec_term _ _ X) as (? & ? & -> & _). done. }
  destruct l as [|a l]; [done|]. cbn [execs tl head]. intros E Hl.
  destruct (exec a m) eqn:X; try done.
  - apply No in E. congruence.
  - destruct (exec_term _ _ X) as (i & o & -> & H). eauto.
Qed.

Lemma acts_sch r s i fail : r_lab r = LWork i fail -> existsb a_sch (acts r s) = false.
Proof.
  intros El. unfold acts. rewrite El. unfold work_acts. destruct (s_workers s !! i) as [w|]; [|done].
  destruct (w_pc w) as [|f|f|p|p| |f|b|].
  - destruct (w_batch w) as [|f ?]; [done|]. destruct (s_frames s !! f); [|done]. by case_decide.
  - done.
  - destruct (s_frames s !! f) as [fr|]; [|done]. destruct (f_rp fr) as [t| | | | | | |]; try done.
    + destruct t; cbn [task_acts]; try done.
      * destruct fail; [|done]. by destruct (r_push r).
      * by destruct fail.
      * repeat case_decide; done.
      * by destruct (_ && _).
    + by destruct (f_kind fr).
  - done.
  - destruct (s_frames s !! p) as [fr|]; [|done]. repeat case_decide; done.
  - done.
  - destruct (s_frames s !! f) as [fr|]; [|done]. repeat case_decide; done.
  - by destruct b.
  - by destruct (w_deque w).
Qed.

Lemma acts_rel r s i o : head (acts r s) = Some (ARelease i o) -> o = r_o1 r.
Proof.
  unfold acts. destruct (r_lab r) as [j fail|j|j|j v|d t]; try done.
  - unfold work_acts. destruct (s_workers s !! j) as [w|]; [|done].
    destruct (w_pc w) as [|f|f|p|p| |f|b|]; try done.
    + destruct (w_batch w) as [|f ?]; [done|]. destruct (s_frames s !! f); [|done]. by case_decide.
    + destruct (s_frames s !! f) as [fr|]; [|done]. destruct (f_rp fr) as [t| | | | | | |]; try done.
      * destruct t; cbn [task_acts]; try done.
        -- destruct fail; [|done]. by destruct (r_push r).
        -- by destruct fail.
        -- repeat case_decide; done.
        -- by destruct (_ && _).
      * by destruct (f_kind fr).
    + destruct (s_frames s !! p) as [fr|]; [|done]. repeat case_decide; done.
    + cbn. by injection 1.
    + destruct (s_frames s !! f) as [fr|]; [|done]. repeat case_decide; done.
    + destruct b; cbn; [by injection 1|done].
    + by destruct (w_deque w).
  - destruct (s_workers s !! j) as [w|]; [|done]. destruct (w_pc w) as [|f| | | | | | |]; try done.
    destruct (s_frames s !! f) as [fr|]; [|done]. by destruct (f_rp fr).
Qed.

Lemma acts_rel_tl r s : existsb a_rel (tl (acts r s)) = false.
Proof.
  unfold acts. destruct (r_lab r) as [j fail|j|j|j v|d t]; try done.
  - unfold work_acts. destruct (s_workers s !! j) as [w|]; [|done].
    destruct (w_pc w) as [|f|f|p|p| |f|b|]; try done.
    + destruct (w_batch w) as [|f ?]; [done|]. destruct (s_frames s !! f); [|done]. by case_decide.
    + destruct (s_frames s !! f) as [fr|]; [|done]. destruct (f_rp fr) as [t| | | | | | |]; try done.
      * destruct t; cbn [task_acts]; try done.
        -- destruct fail; [|done]. by destruct (r_push r).
        -- by destruct fail.
        -- repeat case_decide; done.
        -- by destruct (_ && _).
      * by destruct (f_kind fr).
    + destruct (s_frames s !! p) as [fr|]; [|done]. repeat case_decide; done.
    + destruct (s_frames s !! f) as [fr|]; [|done]. repeat case_decide; done.
    + by destruct b.
    + by destruct (w_deque w).
  - destruct (s_workers s !! j) as [w|]; [|done]. destruct (w_pc w) as [|f| | | | | | |]; try done.
    destruct (s_frames s !! f) as [fr|]; [|done]. by destruct (f_rp fr).
Qed.

(** A step asks the stack for a new frame only at a fork or a call, or in schedule(). *)
Lemma acts_mem r s : existsb a_mem (acts r s) = true ->
  exists i fail w f fr t, r_lab r = LWork i fail /\ s_workers s !! i = Some w /\ w_pc w = PRun f /\
    s_frames s !! f = Some fr /\ f_rp fr = RRun t /\
    match t with Fork _ _ _ _ | Call _ _ _ _ => True | _ => False end.
Proof.
  unfold acts. destruct (r_lab r) as [j fail|j|j|j v|d t]; try done.
  - unfold work_acts. destruct (s_workers s !! j) as [w|] eqn:Hw; [|done].
    destruct (w_pc w) as [|f|f|p|p| |f|b|] eqn:Hpc; try done.
    + destruct (w_batch w) as [|f ?]; [done|]. destruct (s_frames s !! f); [|done]. by case_decide.
    + destruct (s_frames s !! f) as [fr|] eqn:Hf; [|done]. destruct (f_rp fr) as [t| | | | | | |] eqn:Hrp; try done.
      * destruct t eqn:Ht; cbn [task_acts]; try done.
        -- intros _. exists j, fail, w, f, fr, t. subst t. eauto 10.
        -- intros _. exists j, fail, w, f, fr, t. subst t. eauto 10.
        -- repeat case_decide; done.
        -- by destruct (_ && _).
      * by destruct (f_kind fr).
    + destruct (s_frames s !! p) as [fr|]; [|done]. repeat case_decide; done.
    + destruct (s_frames s !! f) as [fr|]; [|done]. repeat case_decide; done.
    + by destruct b.
    + by destruct (w_deque w).
  - destruct (s_workers s !! j) as [w|]; [|done]. destruct (w_pc w) as [|f| | | | | | |]; try done.
    destruct (s_frames s !! f) as [fr|]; [|done]. by destruct (f_rp fr).
Qed.

Lemma alloc_or_fail i c sz o m :
  (execs [AAlloc i c sz o] m = MNo \/ execs [AAllocUndo i sz o] m = MNo -> exists m2, execs [AAllocFail i sz o] m = MOk m2) /\
  (execs [AAllocFail i sz o] m = MNo -> exists m2, execs [AAlloc i c sz o] m = MOk m2).
Proof.
  cbn [execs exec]. destruct (m_fib m !! i); [|by split; [intros []|]].
  destruct (new_coro _ _ _ _) as [? []| |]; (split; [intros [E|E]|intros E]); eauto; try done.
  destruct (del_coro _ _ _); done.
Qed.

Theorem step_progress nw af s m h r s' tr :
  rreach nw af s m h -> allowed nw af (r_lab r) -> r_sz r <= StackSpec.max_request ->
  step (r_lab r) s = Next s' tr ->
  (exists m', rstep r s m = RNext s' m' tr) \/
  (rstep r s m = RTerm /\ exists hp, StackModel.stack_ctor (r_o1 r) (m_heap m) = StackModel.Thr hp) \/
  (exists d t m', r_lab r = LSpawn d t /\ rstep r s m = RNext s m' []) \/
  (rstep r s m = RBlocked /\ exists i fail fail' s2 m2 tr2, r_lab r = LWork i fail /\
     rstep (RL (LWork i fail') (r_sz r) (r_o1 r) (r_o2 r) (r_o3 r) false) s m = RNext s2 m2 tr2).
Proof.
  intros Hr Ha Hsz E. pose proof (rreach_safe _ _ _ _ _ r Hr Ha Hsz) as Hsafe.
  unfold rstep in *. rewrite E in *.
  destruct (execs (acts r s) m) as [m'| |m'| |] eqn:X; [left; eauto| | | |done].
  - do 3 right. split; [done|]. destruct (acts_mem _ _ (execs_no _ _ X)) as (i & fail & w & f & fr & t & El & Hi & Hpc & Hf & Hrp & Ht).
    assert (Wk : forall fail' p, acts (RL (LWork i fail') (r_sz r) (r_o1 r) (r_o2 r) (r_o3 r) p) s =
                   task_acts (RL (LWork i fail') (r_sz r) (r_o1 r) (r_o2 r) (r_o3 r) p) i fail' f fr t s).
    { intros. unfold acts. cbn [r_lab]. unfold work_acts. by rewrite Hi, Hpc, Hf, Hrp. }
    assert (Ws : forall fail', exists s2 tr2, step (LWork i fail') s = Next s2 tr2).
    { intros. cbn [step]. unfold wstep. rewrite Hi, Hpc, Hf, Hrp.
      destruct t; try done; cbn [run_task]; destruct fail'; eauto. }
    unfold acts in X. rewrite El in X. unfold work_acts in X. rewrite Hi, Hpc, Hf, Hrp in X.
    assert (Y : exists fail' m2, execs (task_acts (RL (LWork i fail') (r_sz r) (r_o1 r) (r_o2 r) (r_o3 r) false) i fail' f fr t s) m = MOk m2).
    { destruct t; try done; cbn [task_acts] in *; destruct fail; try (destruct (r_push r)).
      - exists true. apply (proj1 (alloc_or_fail _ (s_nextf s) _ _ _)). by right.
      - exists false. by apply (proj2 (alloc_or_fail _ (s_nextf s) _ _ _)).
      - exists true. apply (proj1 (alloc_or_fail _ (s_nextf s) _ _ _)). by left.
      - exists true. apply (proj1 (alloc_or_fail _ (s_nextf s) _ _ _)). by left.
      - exists false. by apply (proj2 (alloc_or_fail _ (s_nextf s) _ _ _)).
      - exists false. by apply (proj2 (alloc_or_fail _ (s_nextf s) _ _ _)).
      - exists true. apply (proj1 (alloc_or_fail _ (s_nextf s) _ _ _)). by left.
      - exists true. apply (proj1 (alloc_or_fail _ (s_nextf s) _ _ _)). by left. }
    destruct Y as (fail' & m2 & Em). destruct (Ws fail') as (s2 & tr2 & Es).
    exists i, fail, fail', s2, m2, tr2. split; [done|]. cbn [r_lab]. rewrite Es, Wk, Em. done.
  - right; right; left. pose proof (execs_thr _ _ _ X) as Y. destruct (r_lab r) as [i fail|i|i|i v|d t] eqn:El.
    + by rewrite (acts_sch _ _ _ _ El) in Y.
    + exfalso. unfold acts in Y. rewrite El in Y. destruct (s_workers s !! i) as [w|]; [|done].
      destruct (w_pc w) as [|f| | | | | | |]; try done. destruct (s_frames s !! f) as [fr|]; [|done]. by destruct (f_rp fr).
    + unfold acts in Y. by rewrite El in Y.
    + unfold acts in Y. by rewrite El in Y.
    + eauto.
  - right; left. split; [done|]. destruct (execs_term _ _ X (acts_rel_tl _ _)) as (i & o & H1 & H2).
    by rewrite (acts_rel _ _ _ _ H1) in H2.
Qed.

(** ** How many blocks *)

Lemma sum_len {A} (f : A -> nat) (l : list A) :
  sum_list ((fun x => f x + 2)%nat <$> l) = (sum_list (f <$> l) + 2 * length l)%nat.
Proof. induction l as [|a l IH]; [done|]. cbn in *. rewrite IH. lia. Qed.

Lemma sum_join {A B} (f : A -> nat) (g : A -> list B) (l : list A) :
  (forall x, x ∈ l -> f x = length (g x)) -> sum_list (f <$> l) = length (mjoin (g <$> l)).
Proof.
  induction l as [|a l IH]; intros H; [done|].
  change (f a + sum_list (f <$> l) = length (g a ++ mjoin (g <$> l)))%nat.
  rewrite app_length, IH, (H a); [done|by left|]. intros x Hx. apply H. by right.
Qed.

Theorem blocks_bounded nw af s m h :
  rreach nw af s m h -> (size (m_heap m) <= 3 * size (s_frames s) + 2 * nw)%nat.
Proof.
  intros Hr. destruct (rreach_ok _ _ _ _ _ Hr) as [IH (w & c & R)]. destruct (reach_inv _ _ _ _ IH) as (G & I).
  rewrite <- (rl_heap _ _ _ _ _ _ R).
  pose proof (StackProofs.reach_blocks_bounded _ _ (rl_reach _ _ _ _ _ _ R)) as Hb.
  rewrite (sum_len (fun p : nat * list StackSpec.alloc => length p.2)) in Hb.
  assert (Hd : NoDup ((map_to_list c).*1)) by apply NoDup_fst_map_to_list.
  assert (H1 : (sum_list ((fun p : nat * list StackSpec.alloc => length p.2) <$> map_to_list c) <= size (s_frames s))%nat).
  { set (F := fun ks => mjoin ((fun k => stk s (N.of_nat k)) <$> ks) : list N).
    assert (E : sum_list ((fun p : nat * list StackSpec.alloc => length p.2) <$> map_to_list c) = length (F ((map_to_list c).*1))).
    { assert (forall p, p ∈ map_to_list c -> length p.2 = length (stk s (N.of_nat p.1))) as Hp.
      { intros [k l] Hin. apply elem_of_map_to_list in Hin. cbn.
        destruct (rl_live _ _ _ _ _ _ R (N.of_nat k)) as (l' & Hl' & HF).
        - apply (rl_only _ _ _ _ _ _ R). rewrite Nat2N.id, Hin. eauto.
        - rewrite Nat2N.id, Hin in Hl'. injection Hl' as ->. symmetry. by eapply Forall2_length. }
      unfold F. rewrite <- list_fmap_compose. by apply sum_join. }
    rewrite E. rewrite <- (size_dom (D := gset N)). rewrite <- (size_list_to_set (C := gset N)).
    - apply subseteq_size. intros f Hf. apply elem_of_list_to_set in Hf. unfold F in Hf.
      apply elem_of_list_join in Hf as (l & Hf & Hl). apply elem_of_list_fmap in Hl as (k & -> & _).
      destruct (so_dom _ _ _ (i_stk _ _ _ I) _ _ Hf) as (kd & Hk). unfold shape_of in Hk. rewrite lookup_fmap in Hk.
      apply elem_of_dom. by destruct (s_frames s !! f).
    - unfold F. clear E F Hb. induction Hd as [|k ks Hk Hks IHks]; [constructor|]. cbn.
      apply NoDup_app. split_and!; [apply (rl_nodup _ _ _ _ _ _ R)| |exact IHks].
      intros f Hf Hf'. apply elem_of_list_join in Hf' as (l & Hf' & Hl).
      apply elem_of_list_fmap in Hl as (k' & -> & Hk'). apply Hk.
      pose proof (rl_uniq _ _ _ _ _ _ R _ _ _ Hf Hf'). by assert (k = k') as -> by lia. }
  assert (H2 : (length (map_to_list c) <= nw + size (s_frames s))%nat).
  { set (ks := (map_to_list c).*1).
    replace (length (map_to_list c)) with (length (N.of_nat <$> ks)) by (unfold ks; by rewrite !fmap_length).
    transitivity (length (omap id (Wv s) ++ ((fun p : N * frame => f_stk p.2) <$> map_to_list (s_frames s)))).
    - apply submseteq_length, NoDup_submseteq; [by apply NoDup_fmap; [apply _|]|].
      intros x Hx. apply elem_of_list_fmap in Hx as (k & -> & Hk). unfold ks in Hk.
      apply elem_of_list_fmap in Hk as ([k' l] & -> & Hin). apply elem_of_map_to_list in Hin. cbn.
      destruct (rl_only _ _ _ _ _ _ R (N.of_nat k')) as [(i & Hi)|Hn]; [rewrite Nat2N.id, Hin; eauto| |]; apply elem_of_app.
      + left. apply elem_of_list_omap. exists (Some (N.of_nat k')). split; [by eapply elem_of_list_lookup_2|done].
      + right. destruct (stk s (N.of_nat k')) as [|f fs] eqn:Es; [done|].
        destruct (so_dom _ _ _ (i_stk _ _ _ I) f (N.of_nat k')) as (kd & Hk); [rewrite Es; by left|].
        unfold shape_of in Hk. rewrite lookup_fmap in Hk. destruct (s_frames s !! f) as [fr|] eqn:Ef; [|done].
        apply elem_of_list_fmap. exists (f, fr). split; [|by apply elem_of_map_to_list]. cbn in *. congruence.
    - rewrite app_length, fmap_length. 
      assert (length (omap id (Wv s)) <= length (Wv s))%nat.
      { clear. induction (Wv s) as [|[x|] l IHl]; cbn in *; [done| |]; change (omap id l) with (omap (M:=list) (A:=option N) id l) in *; lia. }
      assert (length (Wv s) = nw) by (unfold Wv; rewrite fmap_length; apply (i_len _ _ _ I)).
      change (length (map_to_list (s_frames s))) with (size (s_frames s)). lia. }
  lia.
Qed.

(** ** Frames do not move *)

(** The frame an action makes, if any, and its size. *)
Definition a_size (a : act) : option (N * N) :=
  match a with AAlloc _ g sz _ | ASched g sz _ _ _ => Some (g, sz) | _ => None end.

Lemma new_coro_size o fib sz h h' x fm : new_coro o fib sz h = StackModel.Ret h' (x, fm) -> fm_size fm = sz.
Proof.
  unfold new_coro, StackModel.m_bind, StackModel.m_ret. intros E.
  destruct (StackModel.stack_allocate o fib sz h) as [h1 [y p]| |]; [|done|done].
  cbn [fst snd] in E. destruct (StackModel.stack_top y h1); [|done|done]. by injection E as _ _ <-.
Qed.

Lemma sched_size sz o1 o2 o3 h h' fm : sched sz o1 o2 o3 h = StackModel.Ret h' (Some fm) -> fm_size fm = sz.
Proof.
  unfold sched. intros E.
  destruct (StackModel.stack_ctor o1 h) as [h1 fib| |]; [|done|done].
  destruct (new_coro o2 fib sz h1) as [h2 [y gm]|h2|] eqn:X; [| |done].
  - apply new_coro_size in X. destruct (StackModel.stack_release o3 y h2) as [h3 [n old]|h3|]; [| |done].
    + unfold StackModel.m_bind in E. destruct (StackModel.stack_dtor n h3); [|done|done]. cbn in E. injection E as _ <-. done.
    + unfold StackModel.m_bind in E. destruct (del_coro y gm h3) as [h4 v| |]; [|done|done].
      destruct (StackModel.stack_dtor v h4); done.
  - unfold StackModel.m_bind in E. by destruct (StackModel.stack_dtor fib h2).
Qed.

Lemma exec_frm a m m' f fm :
  exec a m = MOk m' -> m_frm m' !! f = Some fm -> m_frm m !! f = Some fm \/ a_size a = Some (f, fm_size fm).
Proof.
  destruct a as [i g|i g b|i|i g|i o|i g sz o|i sz o|i sz o|i g|g sz o1 o2 o3]; cbn [exec a_size]; intros E Hf.
  - destruct (same_top _ _ _) as [[]|]; try done. injection E as <-. by left.
  - destruct (same_top _ _ _); [|done]. destruct (Bool.eqb _ _); [|done]. injection E as <-. by left.
  - destruct (m_fib m !! i); [|done]. destruct (StackModel.stack_empty _ _) as [? []| |]; try done. injection E as <-. by left.
  - destruct (m_fib m !! i); [|done]. destruct (m_frm m !! g); [|done]. destruct (adopt _ _ _); try done. injection E as <-. by left.
  - destruct (m_fib m !! i); [|done]. destruct (StackModel.stack_release _ _ _) as [? []| |]; try done. injection E as <-. by left.
  - destruct (m_fib m !! i); [|done]. destruct (new_coro _ _ _ _) as [? []| |] eqn:X; try done. injection E as <-.
    apply new_coro_size in X. cbn in Hf. destruct (decide (g = f)) as [->|Hne].
    + rewrite lookup_insert in Hf. injection Hf as <-. right. by rewrite X.
    + rewrite lookup_insert_ne in Hf by done. by left.
  - destruct (m_fib m !! i); [|done]. destruct (new_coro _ _ _ _) as [? []| |]; try done. injection E as <-. by left.
  - destruct (m_fib m !! i); [|done]. destruct (new_coro _ _ _ _) as [? []| |]; try done.
    destruct (del_coro _ _ _); try done. injection E as <-. by left.
  - destruct (m_fib m !! i); [|done]. destruct (m_frm m !! g) as [gm|]; [|done]. destruct (del_coro _ _ _); try done. injection E as <-.
    cbn in Hf. apply lookup_delete_Some in Hf as [_ Hf]. by left.
  - destruct (sched _ _ _ _ _) as [? [gm|]| |] eqn:X; try done. injection E as <-.
    apply sched_size in X. cbn in Hf. destruct (decide (g = f)) as [->|Hne].
    + rewrite lookup_insert in Hf. injection Hf as <-. right. by rewrite X.
    + rewrite lookup_insert_ne in Hf by done. by left.
Qed.

Lemma exec_frm_thr a m m' f : exec a m = MThr m' -> m_frm m' !! f = m_frm m !! f.
Proof.
  intros E. pose proof (exec_thr _ _ _ E) as X. destruct a; try done. cbn [exec] in E.
  destruct (sched _ _ _ _ _) as [? [gm|]| |]; try done. by injection E as <-.
Qed.

Lemma execs_frm l : forall m m' f fm,
  (execs l m = MOk m' \/ execs l m = MThr m') -> m_frm m' !! f = Some fm ->
  m_frm m !! f = Some fm \/ exists a, a ∈ l /\ a_size a = Some (f, fm_size fm).
Proof.
  induction l as [|a l IH]; intros m m' f fm E Hf; cbn [execs] in E.
  - destruct E as [E|E]; [|done]. injection E as <-. by left.
  - destruct (exec a m) as [m1| |m1| |] eqn:X; try (by destruct E).
    + destruct (IH _ _ _ _ E Hf) as [H1|(b & Hb & H1)].
      * destruct (exec_frm _ _ _ _ _ X H1) as [?|?]; [by left|right]. exists a. split; [by left|done].
      * right. exists b. split; [by right|done].
    + destruct E as [E|E]; [done|]. injection E as <-. rewrite (exec_frm_thr _ _ _ _ X) in Hf. by left.
Qed.

Lemma acts_size r s a g n : a ∈ acts r s -> a_size a = Some (g, n) -> g = s_nextf s /\ n = r_sz r.
Proof.
  intros Ha.
  assert (X : forallb (fun a => match a_size a with Some (g, n) => (g =? s_nextf s) && (n =? r_sz r) | None => true end) (acts r s) = true).
  { clear. unfold acts. destruct (r_lab r) as [j fail|j|j|j v|d t]; try done.
    - unfold work_acts. destruct (s_workers s !! j) as [w|]; [|done].
      destruct (w_pc w) as [|f|f|p|p| |f|b|]; try done.
      + destruct (w_batch w) as [|f ?]; [done|]. destruct (s_frames s !! f); [|done]. by case_decide.
      + destruct (s_frames s !! f) as [fr|]; [|done]. destruct (f_rp fr) as [t| | | | | | |]; try done.
        * destruct t; cbn [task_acts]; try done.
          -- destruct fail; [by destruct (r_push r)|]. cbn. by rewrite !N.eqb_refl.
          -- destruct fail; [done|]. cbn. by rewrite !N.eqb_refl.
          -- repeat case_decide; done.
          -- by destruct (_ && _).
        * by destruct (f_kind fr).
      + destruct (s_frames s !! p) as [fr|]; [|done]. repeat case_decide; done.
      + destruct (s_frames s !! f) as [fr|]; [|done]. repeat case_decide; done.
      + by destruct b.
      + by destruct (w_deque w).
    - destruct (s_workers s !! j) as [w|]; [|done]. destruct (w_pc w) as [|f| | | | | | |]; try done.
      destruct (s_frames s !! f) as [fr|]; [|done]. by destruct (f_rp fr).
    - cbn. by rewrite !N.eqb_refl. }
  rewrite forallb_forall in X. intros E. specialize (X a). rewrite E in X.
  apply elem_of_list_In in Ha. specialize (X Ha). apply andb_true_iff in X as [X1 X2].
  by apply N.eqb_eq in X1, X2.
Qed.

Theorem frames_stay nw af r s m h s' m' tr f fm :
  rreach nw af s m h -> rstep r s m = RNext s' m' tr -> m_frm m' !! f = Some fm ->
  m_frm m !! f = Some fm \/ (m_frm m !! f = None /\ fm_size fm = r_sz r).
Proof.
  unfold rstep. intros Hr E Hf. destruct (step (r_lab r) s) as [s1 tr1| |]; [|done|done].
  assert (X : execs (acts r s) m = MOk m' \/ execs (acts r s) m = MThr m').
  { destruct (execs (acts r s) m) as [m1| |m1| |]; try done; injection E as _ <- _; eauto. }
  destruct (execs_frm _ _ _ _ _ X Hf) as [?|(a & Ha & E')]; [by left|right].
  destruct (acts_size _ _ _ _ _ Ha E') as [-> ->]. split; [|done].
  destruct (frames_placed _ _ _ _ _ (s_nextf s) Hr) as [[_ H] _].
  destruct (m_frm m !! s_nextf s) as [gm|]; [|done]. destruct H as (fr & H); [eauto|]. exfalso.
  destruct (rreach_ok _ _ _ _ _ Hr) as [IH _]. destruct (reach_inv _ _ _ _ IH) as (G & I).
  rewrite (i_fresh _ _ _ I) in H; [done|lia].
Qed.
