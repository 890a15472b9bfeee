From Coq Require Import QArith Qfield Lqa.
From stdpp Require Import gmap list numbers sorting.
From Verif Require Import NumaModel NumaSpec.
Local Close Scope Q_scope.

Lemma rbind_ok {A B} (r : res A) (k : A -> res B) b : rbind r k = ROk b -> exists a, r = ROk a /\ k a = ROk b.
Proof. destruct r; try done. intros H. by exists a. Qed.

(** ** The set of distances *)

Lemma set_insert_elem d e l : e ∈ set_insert d l <-> e = d \/ e ∈ l.
Proof.
  induction l as [|x l IH]; cbn; [set_solver|]. destruct (Z.ltb_spec d x); [set_solver|].
  destruct (Z.eqb_spec d x) as [->|]; [set_solver|]. rewrite !elem_of_cons, IH. set_solver.
Qed.
Lemma set_insert_sorted d l : StronglySorted Z.lt l -> StronglySorted Z.lt (set_insert d l).
Proof.
  induction 1 as [|x l Hs IH Hx]; cbn; [by repeat constructor|]. destruct (Z.ltb_spec d x) as [Hd|Hd].
  { constructor; [by constructor|]. constructor; [done|]. eapply Forall_impl; [exact Hx|]. cbn. intros. lia. }
  destruct (Z.eqb_spec d x) as [->|Hne]; [by constructor|]. constructor; [done|]. rewrite Forall_forall in *.
  intros e He. apply set_insert_elem in He as [->|He]; [lia|by apply Hx].
Qed.
Lemma uniques_elem i d : forall ds j acc, d ∈ uniques i j ds acc <-> d ∈ acc \/ exists k, ds !! k = Some d /\ j + k <> i.
Proof.
  induction ds as [|e ds IH]; intros j acc; cbn [uniques].
  - split; [by left|]. intros [?|(k & Hk & _)]; done.
  - rewrite IH. split.
    + intros [H|(k & Hk & Hne)]; [|right; exists (S k); cbn; split; [done|lia]].
      destruct (decide (i = j)); [by left|]. apply set_insert_elem in H as [->|H]; [|by left].
      right. exists 0. split; [done|lia].
    + intros [H|([|k] & Hk & Hne)].
      * left. destruct (decide (i = j)); [done|]. apply set_insert_elem. by right.
      * cbn in Hk. injection Hk as ->. left. rewrite decide_False by lia. apply set_insert_elem. by left.
      * right. exists k. split; [done|lia].
Qed.
Lemma uniques_sorted i : forall ds j acc, StronglySorted Z.lt acc -> StronglySorted Z.lt (uniques i j ds acc).
Proof.
  induction ds as [|e ds IH]; intros j acc Ha; cbn [uniques]; [done|]. apply IH. destruct (decide (i = j)); [done|].
  by apply set_insert_sorted.
Qed.
Lemma set_index_spec us d k : StronglySorted Z.lt us -> us !! k = Some d -> set_index d us = k.
Proof.
  intros Hs. revert k. induction Hs as [|x l Hs IH Hx]; intros k Hk; [done|]. cbn. destruct k as [|k]; cbn in Hk.
  - injection Hk as ->. by rewrite Z.eqb_refl.
  - rewrite Forall_forall in Hx. assert (x < d)%Z by (apply Hx; by eapply elem_of_list_lookup_2).
    rewrite (proj2 (Z.eqb_neq d x)) by lia. by rewrite (IH k).
Qed.
Lemma set_index_inv us d k : StronglySorted Z.lt us -> d ∈ us -> set_index d us = k <-> us !! k = Some d.
Proof.
  intros Hs Hd. split; [|by apply set_index_spec]. intros <-. apply elem_of_list_lookup in Hd as [k Hk].
  by rewrite (set_index_spec us d k).
Qed.

(** ** Filling the lists *)

Fixpoint sel (P : nat -> Z -> bool) (j : nat) (ds : list Z) (data : list nat) : list nat :=
  match ds, data with
  | d :: ds, x :: data => (if P j d then [x] else []) ++ sel P (S j) ds data
  | _, _ => []
  end.
Definition which (i : nat) (us : list Z) (k : nat) (j : nat) (d : Z) : bool :=
  match k with 0 => j =? i | S k => negb (j =? i) && (set_index d us =? k) end.

Lemma sel_positions P (f : nat -> Z) : forall ds data j, length ds = length data ->
  (forall k d, ds !! k = Some d -> f (j + k) = d) ->
  sel P j ds data = at_positions (fun k => P k (f k)) j data.
Proof.
  induction ds as [|d ds IH]; intros [|x data] j Hl Hf; try done. cbn [sel at_positions].
  rewrite <- (Hf 0 d eq_refl), Nat.add_0_r. f_equal. apply IH; [by injection Hl|]. intros k e Hk.
  rewrite <- (Hf (S k) e Hk). f_equal. lia.
Qed.
Lemma at_positions_ext P Q : forall data j, (forall k, j <= k < j + length data -> P k = Q k) -> at_positions P j data = at_positions Q j data.
Proof.
  induction data as [|x data IH]; intros j H; [done|]. cbn [at_positions]. cbn [length] in H. rewrite (H j) by lia. f_equal.
  apply IH. intros k Hk. apply H. lia.
Qed.

Lemma fill_ok i us : forall ds data j v,
  length ds <= length data -> length v = S (length us) ->
  (forall k d, ds !! k = Some d -> j + k <> i -> d ∈ us) -> StronglySorted Z.lt us ->
  exists v', fill i j us ds data v = ROk v' /\ length v' = length v /\
    forall k l, v !! k = Some l -> v' !! k = Some (l ++ sel (which i us k) j ds data).
Proof.
  induction ds as [|d ds IH]; intros data j v Hl Hv Hd Hs.
  { exists v. cbn. split_and!; [done|done|]. intros k l Hk. by rewrite app_nil_r. }
  destruct data as [|x data]; [cbn in Hl; lia|]. cbn [fill].
  set (p := if decide (i = j) then 0 else S (set_index d us)).
  assert (Hp : p < length v).
  { rewrite Hv. unfold p. destruct (decide (i = j)); [lia|].
    assert (Hin : d ∈ us) by (apply (Hd 0); [done|lia]). apply elem_of_list_lookup in Hin as [k Hk].
    rewrite (set_index_spec us d k Hs Hk). apply lookup_lt_Some in Hk. lia. }
  destruct (lookup_lt_is_Some_2 v p Hp) as [l0 Hl0].
  assert (Hpush : (if decide (i = j) then push_at 0 x v else push_at (1 + set_index d us) x v) = ROk (<[p := l0 ++ [x]]> v)).
  { unfold p in *. destruct (decide (i = j)); unfold push_at; cbn [Nat.add]; by rewrite Hl0. }
  rewrite Hpush. cbn [rbind].
  destruct (IH data (S j) (<[p := l0 ++ [x]]> v)) as (v' & Hf & Hlen & Hk); [cbn in Hl; lia|by rewrite insert_length| |done|].
  { intros k e He Hne. apply (Hd (S k)); [done|lia]. }
  exists v'. split; [done|]. rewrite insert_length in Hlen. split; [done|]. intros k l Hkl. cbn [sel].
  assert (Hw : which i us k j d = bool_decide (p = k)).
  { unfold p, which. destruct k as [|k].
    - destruct (decide (i = j)) as [->|]; [by rewrite Nat.eqb_refl|]. rewrite (proj2 (Nat.eqb_neq j i)) by lia. done.
    - destruct (decide (i = j)) as [->|]; [rewrite Nat.eqb_refl; done|]. rewrite (proj2 (Nat.eqb_neq j i)) by lia. cbn [negb andb].
      destruct (Nat.eqb_spec (set_index d us) k) as [->|Hne]; [by rewrite bool_decide_eq_true_2|].
      rewrite bool_decide_eq_false_2; [done|]. congruence. }
  rewrite Hw. destruct (decide (p = k)) as [<-|Hne].
  - rewrite bool_decide_eq_true_2 by done. assert (l = l0) as -> by congruence.
    rewrite (Hk p (l0 ++ [x])); [by rewrite <- app_assoc|]. by apply list_lookup_insert.
  - rewrite bool_decide_eq_false_2 by done. cbn [app]. apply Hk. by rewrite list_lookup_insert_ne.
Qed.

Lemma at_positions_one i : forall data j, j <= i -> at_positions (fun k => k =? i) j data = match data !! (i - j) with Some x => [x] | None => [] end.
Proof.
  assert (Hnil : forall data j, i < j -> at_positions (fun k => k =? i) j data = []).
  { induction data as [|x data IH]; intros j Hj; [done|]. cbn [at_positions]. rewrite (proj2 (Nat.eqb_neq j i)) by lia. apply IH. lia. }
  induction data as [|x data IH]; intros j Hj; [done|]. cbn [at_positions]. destruct (Nat.eqb_spec j i) as [->|Hne].
  - rewrite Nat.sub_diag. cbn. by rewrite Hnil by lia.
  - destruct (i - j) as [|n] eqn:E; [lia|]. cbn. rewrite IH by lia. by replace (i - S j) with n by lia.
Qed.

Lemma neighbors_ok (dist : nat -> nat -> Z) data i ds :
  length ds = length data -> i < length data -> (forall j d, ds !! j = Some d -> dist i j = d) ->
  exists v, neighbors_of i ds data = ROk v /\ good_view dist data i v.
Proof.
  intros Hl Hi Hd. unfold neighbors_of. set (us := uniques i 0 ds []).
  assert (Hs : StronglySorted Z.lt us) by (apply uniques_sorted; constructor).
  destruct (fill_ok i us ds data 0 (replicate (1 + length us) [])) as (v & Hf & Hlen & Hk); [lia|by rewrite replicate_length| |done|].
  { intros k d Hk Hne. apply uniques_elem. right. by exists k. }
  exists v. split; [done|]. rewrite replicate_length in Hlen.
  destruct (lookup_lt_is_Some_2 data i Hi) as [x Hx]. exists x, us. split; [done|]. split; [|split; [done|]].
  - assert (Hk' : forall k, k < S (length us) -> v !! k = Some (at_positions (fun j => which i us k j (dist i j)) 0 data)).
    { intros k Hlt. rewrite (Hk k []); [|by apply lookup_replicate_2]. cbn [app]. f_equal. apply sel_positions; [done|].
      intros j d Hj. by apply Hd. }
    apply list_eq. intros [|k].
    + rewrite (Hk' 0) by lia. cbn [lookup list_lookup which]. rewrite at_positions_one by lia. rewrite Nat.sub_0_r. by rewrite Hx.
    + cbn [lookup list_lookup]. destruct (us !! k) as [d|] eqn:Hu.
      * assert (Hlt : k < length us) by (by eapply lookup_lt_Some).
        rewrite (Hk' (S k)) by lia. change (map ?f us !! k) with ((f <$> us) !! k). rewrite list_lookup_fmap, Hu. cbn. f_equal.
        apply at_positions_ext. intros j Hj. cbn. destruct (Nat.eqb_spec j i) as [->|Hji]; [done|]. cbn [negb andb].
        assert (Hin : dist i j ∈ us).
        { destruct (lookup_lt_is_Some_2 ds j) as [e He]; [lia|]. rewrite (Hd j e He). apply uniques_elem. right. exists j. split; [done|lia]. }
        pose proof (set_index_inv us (dist i j) k Hs Hin) as Hiff. rewrite Hu in Hiff.
        destruct (Nat.eqb_spec (set_index (dist i j) us) k) as [He|He], (Z.eqb_spec (dist i j) d) as [Hz|Hz]; try done.
        -- destruct Hz. apply Hiff in He. by injection He.
        -- destruct He. apply Hiff. by f_equal.
      * change (map ?f us !! k) with ((f <$> us) !! k). rewrite list_lookup_fmap, Hu. cbn.
        apply lookup_ge_None in Hu. change (v !! S k = None). apply lookup_ge_None. lia.
  - intros d. unfold us. rewrite uniques_elem. split.
    + intros [H|(k & Hk2 & Hne)]; [by apply elem_of_nil in H|]. exists k. split_and!; [rewrite <- Hl; by eapply lookup_lt_Some|lia|by apply Hd].
    + intros (j & Hj & Hne & Hdj). right. destruct (lookup_lt_is_Some_2 ds j) as [e He]; [lia|]. exists j.
      rewrite He, <- (Hd j e He), Hdj. split; [done|lia].
Qed.

(** ** A good view is complete *)

Lemma at_positions_all : forall data j, at_positions (fun _ => true) j data = data.
Proof. induction data as [|x data IH]; intros j; [done|]. cbn. by rewrite IH. Qed.
Lemma at_positions_others i : forall data j, j <= i -> at_positions (fun k => negb (k =? i)) j data = others (i - j) data.
Proof.
  assert (Hall : forall data j, i < j -> at_positions (fun k => negb (k =? i)) j data = data).
  { induction data as [|x data IH]; intros j Hj; [done|]. cbn [at_positions]. rewrite (proj2 (Nat.eqb_neq j i)) by lia. cbn. f_equal. apply IH. lia. }
  unfold others. induction data as [|x data IH]; intros j Hj; [by rewrite take_nil, drop_nil|]. cbn [at_positions].
  destruct (Nat.eqb_spec j i) as [->|Hne]; cbn [negb app].
  - rewrite Nat.sub_diag. cbn. apply Hall. lia.
  - destruct (i - j) as [|n] eqn:E; [lia|]. cbn. f_equal. rewrite IH by lia. by replace (i - S j) with n by lia.
Qed.

Lemma concat_classes (f : nat -> Z) (P : nat -> bool) ds : NoDup ds -> forall data j,
  (forall k, j <= k < j + length data -> P k = true -> f k ∈ ds) ->
  concat (map (fun d => at_positions (fun k => P k && (f k =? d)%Z) j data) ds) ≡ₚ at_positions P j data.
Proof.
  intros Hnd. induction data as [|x data IH]; intros j Hin.
  { cbn. induction ds as [|d ds IHd]; [done|]. cbn. apply IHd; [by apply list.NoDup_cons in Hnd as [_ ?]|]. intros; cbn in *; lia. }
  cbn [at_positions]. rewrite <- IH by (intros k Hk HP; apply Hin; [cbn; lia|done]).
  assert (Hgen : forall ds, NoDup ds -> concat (map (fun d => (if P j && (f j =? d)%Z then [x] else []) ++ at_positions (fun k => P k && (f k =? d)%Z) (S j) data) ds)
     ≡ₚ (if P j && bool_decide (f j ∈ ds) then [x] else []) ++ concat (map (fun d => at_positions (fun k => P k && (f k =? d)%Z) (S j) data) ds)).
  { clear. induction 1 as [|d ds Hd Hnd IH]; cbn [map concat]; [by rewrite andb_false_r|]. rewrite IH. clear IH. destruct (P j); cbn [andb app]; [|done].
    destruct (Z.eqb_spec (f j) d) as [->|Hne].
    - rewrite (bool_decide_eq_true_2 (d ∈ d :: ds)) by set_solver. rewrite (bool_decide_eq_false_2 (d ∈ ds)) by done. done.
    - cbn [app]. destruct (decide (f j ∈ ds)) as [Hi|Hi].
      + rewrite !bool_decide_eq_true_2 by set_solver. apply Permutation_app_swap_app.
      + rewrite !bool_decide_eq_false_2 by set_solver. done. }
  rewrite Hgen by done. f_equiv. destruct (P j) eqn:HP; cbn [andb]; [|done]. rewrite bool_decide_eq_true_2; [done|]. apply Hin; [cbn; lia|done].
Qed.

Lemma sorted_nodup (l : list Z) : StronglySorted Z.lt l -> NoDup l.
Proof.
  induction 1 as [|x l Hs IH Hx]; constructor; [|done]. intros Hin. rewrite Forall_forall in Hx. specialize (Hx x Hin). lia.
Qed.

Lemma at_positions_elem P y : forall data j, y ∈ at_positions P j data <-> exists k, data !! k = Some y /\ P (j + k) = true.
Proof.
  induction data as [|x data IH]; intros j; cbn [at_positions].
  - split; [by intros ?%elem_of_nil|]. by intros (k & Hk & _).
  - rewrite elem_of_app, IH. split.
    + intros [H|(k & Hk & HP)]; [|exists (S k); split; [done|]; by rewrite Nat.add_succ_r].
      destruct (P j) eqn:E; [|by apply elem_of_nil in H]. apply elem_of_list_singleton in H as ->. exists 0. by rewrite Nat.add_0_r.
    + intros ([|k] & Hk & HP); [|right; exists k; split; [done|]; by rewrite Nat.add_succ_r in HP].
      cbn in Hk. injection Hk as ->. rewrite Nat.add_0_r in HP. left. rewrite HP. by apply elem_of_list_singleton.
Qed.

Lemma good_view_complete dist data i v : good_view dist data i v ->
  exists x rest, data !! i = Some x /\ v = [x] :: rest /\ concat rest ≡ₚ others i data /\ (forall l, l ∈ rest -> l <> []).
Proof.
  intros (x & ds & Hx & -> & Hs & Hds). exists x. eexists. split; [done|]. split; [done|]. split.
  - rewrite (concat_classes (dist i) (fun j => negb (j =? i)) ds (sorted_nodup ds Hs) data 0).
    + by rewrite at_positions_others, Nat.sub_0_r by lia.
    + intros k Hk HP. apply Hds. exists k. split_and!; [lia| |done]. by apply negb_true_iff, Nat.eqb_neq in HP.
  - intros l Hl. apply elem_of_list_fmap in Hl as (d & -> & Hd). apply Hds in Hd as (j & Hj & Hne & Hdj).
    destruct (lookup_lt_is_Some_2 data j Hj) as [y Hy].
    assert (Hin : y ∈ at_positions (fun j => negb (j =? i) && (dist i j =? d)%Z) 0 data).
    { apply at_positions_elem. exists j. split; [done|]. cbn. rewrite (proj2 (Nat.eqb_neq j i)) by lia. by apply Z.eqb_eq. }
    intros E. rewrite E in Hin. by apply elem_of_nil in Hin.
Qed.

(** ** The matrix *)

Lemma climb_spec o g : climb o = Some g <-> memory_domain o g.
Proof.
  split.
  - revert o. fix IH 1. intros [g' m d p] H. cbn in H. destruct (N.eqb_spec m 0) as [->|Hm].
    + destruct p as [q|]; [|done]. constructor. by apply IH.
    + assert (g' = g) by congruence. subst g'. clear IH. by constructor.
  - induction 1 as [g m d p Hm|g d p x Hmd IH]; cbn; [|done]. by rewrite (proj2 (N.eqb_neq m 0)).
Qed.

Lemma objects_ok h : forall hs os, objects h hs = ROk os -> length os = length hs /\
  forall i x o, hs !! i = Some x -> os !! i = Some o -> h_covering h (cpup x) = Some o.
Proof.
  induction hs as [|y hs IH]; intros os H; cbn in H; [injection H as <-; done|].
  destruct (h_covering h (cpup y)) as [o|] eqn:E; [|done]. apply rbind_ok in H as (l & Hl & [= <-]).
  destruct (IH l Hl) as [H1 H2]. split; [cbn; lia|]. intros [|i] x o' Hx Ho; cbn in *; [congruence|by apply (H2 i)].
Qed.
Lemma entry_ok h a b d : entry h a b = ROk d -> pu_distance h a b d.
Proof.
  unfold entry. destruct (h_ancestor h a b) as [c|] eqn:E; [|done]. destruct (_ || _) eqn:Hb; [done|]. intros [= <-].
  exists c. split; [done|]. lia.
Qed.
Lemma row_ok h a : forall os r, row h a os = ROk r -> length r = length os /\
  forall j b d, os !! j = Some b -> r !! j = Some d -> pu_distance h a b d.
Proof.
  induction os as [|b os IH]; intros r H; cbn in H; [injection H as <-; done|].
  apply rbind_ok in H as (d & Hd & H). apply rbind_ok in H as (l & Hl & [= <-]). destruct (IH l Hl) as [H1 H2].
  split; [cbn; lia|]. intros [|j] b' d' Hb' Hd'; cbn in *; [|by apply (H2 j)]. injection Hb' as <-. injection Hd' as <-. by apply entry_ok.
Qed.
Lemma rows_ok h all : forall os m, rows h os all = ROk m -> length m = length os /\
  forall i a r, os !! i = Some a -> m !! i = Some r -> row h a all = ROk r.
Proof.
  induction os as [|a os IH]; intros m H; cbn in H; [injection H as <-; done|].
  apply rbind_ok in H as (r & Hr & H). apply rbind_ok in H as (l & Hl & [= <-]). destruct (IH l Hl) as [H1 H2].
  split; [cbn; lia|]. intros [|i] a' r' Ha Hr'; cbn in *; [congruence|by apply (H2 i)].
Qed.
Lemma entry_noub h a b : hwloc_ok h -> entry h a b <> RUB.
Proof.
  intros [_ Hanc]. unfold entry. destruct (h_ancestor h a b) as [c|] eqn:E; [|done]. destruct (Hanc a b c E).
  rewrite (proj2 (Z.ltb_ge _ _)) by lia. rewrite (proj2 (Z.ltb_ge _ _)) by lia. done.
Qed.
Lemma rbind_noub {A B} (r : res A) (k : A -> res B) : r <> RUB -> (forall a, r = ROk a -> k a <> RUB) -> rbind r k <> RUB.
Proof. destruct r; intros H1 H2; [by apply H2|done|done]. Qed.
Lemma row_noub h a os : hwloc_ok h -> row h a os <> RUB.
Proof.
  intros Hok. induction os as [|b os IH]; [done|]. cbn. apply rbind_noub; [by apply entry_noub|]. intros d _.
  apply rbind_noub; done.
Qed.
Lemma rows_noub h all os : hwloc_ok h -> rows h os all <> RUB.
Proof.
  intros Hok. induction os as [|b os IH]; [done|]. cbn. apply rbind_noub; [by apply row_noub|]. intros d _.
  apply rbind_noub; done.
Qed.
Lemma objects_noub h hs : objects h hs <> RUB.
Proof.
  induction hs as [|b os IH]; [done|]. cbn. destruct (h_covering h (cpup b)); [|done]. by apply rbind_noub.
Qed.
Lemma to_handles_noub h : forall sets m, to_handles h m sets <> RUB.
Proof.
  induction sets as [|[b|] sets IH]; intros m; [done| |done]. cbn. destruct (h_singlify h b) as [b'|]; [|done].
  apply rbind_noub; [unfold get_numa_index; destruct (h_covering h b') as [o|]; [by destruct (climb o)|done]|].
  intros g _. by apply rbind_noub.
Qed.
Lemma split_noub h n s : split h n s <> RUB.
Proof. unfold split. destruct (decide _); [done|]. destruct (h_distrib _ _ _); [apply to_handles_noub|done]. Qed.

Lemma to_handles_length h : forall sets m l, to_handles h m sets = ROk l -> length l = length sets.
Proof.
  induction sets as [|[b|] sets IH]; intros m l H; [injection H as <-; done| |done]. cbn in H.
  destruct (h_singlify h b) as [b'|]; [|done]. apply rbind_ok in H as (g & Hg & H). apply rbind_ok in H as (l' & Hl' & [= <-]).
  cbn. f_equal. by eapply IH.
Qed.

Lemma make_nodes_ok (dist : nat -> nat -> Z) data : forall hs m i,
  length m = length hs -> i + length hs = length data ->
  (forall k r, m !! k = Some r -> length r = length data /\ forall j d, r !! j = Some d -> dist (i + k) j = d) ->
  exists nodes, make_nodes i hs m data = ROk nodes /\ map n_handle nodes = hs /\
    forall k nd, nodes !! k = Some nd -> good_view dist data (i + k) (neighbors nd).
Proof.
  induction hs as [|x hs IH]; intros [|r m] i Hl Hi Hm; try done; [by exists []|]. cbn [make_nodes].
  destruct (Hm 0 r eq_refl) as [Hr1 Hr2]. rewrite Nat.add_0_r in Hr2. cbn in Hi.
  destruct (neighbors_ok dist data i r Hr1) as (v & -> & Hv); [lia|done|]. cbn [rbind].
  destruct (IH m (S i)) as (l & -> & Hl1 & Hl2); [cbn in Hl; lia|lia| |].
  { intros k r' Hk. destruct (Hm (S k) r' Hk) as [H1 H2]. split; [done|]. intros j d Hj. rewrite <- (H2 j d Hj). f_equal. lia. }
  cbn [rbind]. eexists. split; [done|]. split; [cbn; by f_equal|]. intros [|k] nd Hk; cbn in Hk.
  - injection Hk as <-. by rewrite Nat.add_0_r.
  - replace (i + S k) with (S i + k) by lia. by apply Hl2.
Qed.

Lemma split_length h n s hs : hwloc_ok h -> split h n s = ROk hs -> length hs = n.
Proof.
  intros [Hd _]. unfold split. destruct (decide _); [done|]. destruct (h_distrib h (roots h n s) n) as [sets|] eqn:E; [|done].
  intros H. rewrite (to_handles_length _ _ _ _ H). by eapply Hd.
Qed.

Lemma matrix_entries h (m : list (list Z)) os : rows h os os = ROk m ->
  forall i r, m !! i = Some r -> length r = length os /\ forall j d, r !! j = Some d -> default 0%Z (m !! i ≫= fun r => r !! j) = d.
Proof.
  intros H i r Hr. destruct (rows_ok h os os m H) as [H1 H2].
  destruct (lookup_lt_is_Some_2 os i) as [a Ha]; [rewrite <- H1; by eapply lookup_lt_Some|].
  destruct (row_ok h a os r (H2 i a r Ha Hr)) as [H3 H4]. split; [done|]. intros j d Hd. rewrite Hr. cbn. by rewrite Hd.
Qed.

Lemma distribute_ok h data s nodes : hwloc_ok h -> distribute h data s = ROk nodes ->
  exists hs os m, split h (length data) s = ROk hs /\ objects h hs = ROk os /\ rows h os os = ROk m /\
    map n_handle nodes = hs /\ length hs = length data /\
    forall k nd, nodes !! k = Some nd -> good_view (fun i j => default 0%Z (m !! i ≫= fun r => r !! j)) data k (neighbors nd).
Proof.
  intros Hok H. unfold distribute, distance_matrix in H. apply rbind_ok in H as (hs & Hs & H). apply rbind_ok in H as (m & Hm & H).
  apply rbind_ok in Hm as (os & Hos & Hm). exists hs, os, m. split; [done|]. split; [done|]. split; [done|].
  pose proof (split_length h _ _ _ Hok Hs) as Hl. destruct (objects_ok h hs os Hos) as [Hlo _]. destruct (rows_ok h os os m Hm) as [Hlm _].
  destruct (make_nodes_ok (fun i j => default 0%Z (m !! i ≫= fun r => r !! j)) data hs m 0) as (l & Hl1 & Hl2 & Hl3); [lia|done| |].
  { intros k r Hk. destruct (matrix_entries h m os Hm k r Hk) as [H1 H2]. split; [lia|]. done. }
  rewrite H in Hl1. injection Hl1 as <-. done.
Qed.

Lemma distribute_noub h data s : hwloc_ok h -> distribute h data s <> RUB.
Proof.
  intros Hok. unfold distribute, distance_matrix. apply rbind_noub; [apply split_noub|]. intros hs Hs.
  apply rbind_noub; [apply rbind_noub; [apply objects_noub|intros; by apply rows_noub]|].
  intros m Hm. apply rbind_ok in Hm as (os & Hos & Hm).
  pose proof (split_length h _ _ _ Hok Hs) as Hl. destruct (objects_ok h hs os Hos) as [Hlo _]. destruct (rows_ok h os os m Hm) as [Hlm _].
  destruct (make_nodes_ok (fun i j => default 0%Z (m !! i ≫= fun r => r !! j)) data hs m 0) as (l & -> & _); [lia|done| |done].
  intros k r Hk. destruct (matrix_entries h m os Hm k r Hk) as [H1 H2]. split; [lia|]. done.
Qed.

(** ** Domain numbers *)

(** The map holds exactly the numbers below its size. *)
Definition numbering (m : gmap N nat) : Prop :=
  (forall g v, m !! g = Some v -> v < size m) /\
  (forall g g' v, m !! g = Some v -> m !! g' = Some v -> g = g') /\
  (forall v, v < size m -> exists g, m !! g = Some v).
Lemma numbering_empty : numbering ∅.
Proof. split_and!; intros *; rewrite ?lookup_empty; try done. rewrite map_size_empty. lia. Qed.
Lemma numbering_insert m g : numbering m -> m !! g = None -> numbering (<[g := size m]> m).
Proof.
  intros (H1 & H2 & H3) Hg. assert (Hs : size (<[g := size m]> m) = S (size m)) by (by rewrite map_size_insert_None).
  split_and!.
  - intros g' v. rewrite Hs. intros [[<- <-]|[Hne Hv]]%lookup_insert_Some; [lia|]. specialize (H1 _ _ Hv). lia.
  - intros g1 g2 v [[<- <-]|[Hn1 Hv1]]%lookup_insert_Some [[<- E]|[Hn2 Hv2]]%lookup_insert_Some; [done| | |by eapply H2].
    + specialize (H1 _ _ Hv2). lia.
    + subst. specialize (H1 _ _ Hv1). lia.
  - intros v. rewrite Hs. intros Hv. destruct (decide (v = size m)) as [->|Hne]; [exists g; apply lookup_insert|].
    destruct (H3 v) as [g' Hg']; [lia|]. exists g'. rewrite lookup_insert_ne; [done|]. intros ->. congruence.
Qed.

Lemma to_handles_spec h : forall sets m l, numbering m -> to_handles h m sets = ROk l ->
  exists (gs : list N) (m' : gmap N nat), length gs = length l /\ numbering m' /\ m ⊆ m' /\
    (forall i x g, l !! i = Some x -> gs !! i = Some g -> m' !! g = Some (numa x) /\ get_numa_index h (cpup x) = ROk g) /\
    (forall g v, m' !! g = Some v -> m !! g = None -> g ∈ gs).
Proof.
  induction sets as [|[b|] sets IH]; intros m l Hm H; [injection H as <-|cbn in H|done].
  { exists [], m. split_and!; [done|done|done|done|]. intros. congruence. }
  destruct (h_singlify h b) as [b'|]; [|done]. apply rbind_ok in H as (g & Hg & H). apply rbind_ok in H as (l' & Hl' & [= <-]).
  set (m1 := match m !! g with Some _ => m | None => <[g := size m]> m end) in *.
  assert (Hm1 : numbering m1 /\ m ⊆ m1 /\ is_Some (m1 !! g) /\ forall g', m1 !! g' <> None -> m !! g' = None -> g' = g).
  { unfold m1. destruct (m !! g) eqn:E; [split_and!; [done|done|by eexists|intros; congruence]|].
    split_and!; [by apply numbering_insert|by apply insert_subseteq|rewrite lookup_insert; by eexists|].
    intros g' H1 H2. destruct (decide (g' = g)); [done|]. rewrite lookup_insert_ne in H1 by done. congruence. }
  destruct Hm1 as (Hm1 & Hsub & [v Hv] & Hnew).
  destruct (IH m1 l' Hm1 Hl') as (gs & m' & H1 & H2 & H3 & H4 & H5). exists (g :: gs), m'. split_and!; [cbn; lia|done|by etrans| |].
  - intros [|i] x g' Hx Hg'; cbn in Hx, Hg'; [|by apply (H4 i)]. injection Hx as <-. injection Hg' as <-. cbn. split; [|done].
    rewrite Hv. cbn. by eapply lookup_weaken.
  - intros g' w Hw Hnone. destruct (decide (m1 !! g' = None)) as [Hn|Hn]; [right; by eapply H5|]. rewrite (Hnew g' Hn Hnone). left.
Qed.

Lemma handles_numbering h sets l : to_handles h ∅ sets = ROk l ->
  exists gs : list N, good_numbering gs (map numa l) /\
    forall i x g, l !! i = Some x -> gs !! i = Some g -> get_numa_index h (cpup x) = ROk g.
Proof.
  intros H. destruct (to_handles_spec h sets ∅ l numbering_empty H) as (gs & m & H1 & (N1 & N2 & N3) & _ & H4 & H5).
  exists gs. split; [split_and!|by intros; eapply H4]. { by rewrite map_length. }
  - exists (size m). intros v. split.
    + intros Hin. apply elem_of_list_fmap in Hin as (x & -> & Hx). apply elem_of_list_lookup in Hx as [i Hx].
      destruct (lookup_lt_is_Some_2 gs i) as [g Hg]; [rewrite H1; by eapply lookup_lt_Some|].
      destruct (H4 i x g Hx Hg) as [Hv _]. by apply N1 in Hv.
    + intros Hv. destruct (N3 v Hv) as [g Hg]. assert (Hin : g ∈ gs) by (eapply H5; [exact Hg|by rewrite lookup_empty]).
      apply elem_of_list_lookup in Hin as [i Hi]. destruct (lookup_lt_is_Some_2 l i) as [x Hx]; [rewrite <- H1; by eapply lookup_lt_Some|].
      destruct (H4 i x g Hx Hi) as [Hn _]. assert (v = numa x) as -> by congruence. apply elem_of_list_fmap. exists x. split; [done|].
      by eapply elem_of_list_lookup_2.
  - intros i j a b v w Ha Hb Hv Hw. change (map numa l) with (numa <$> l) in *. rewrite list_lookup_fmap in Hv, Hw.
    destruct (l !! i) as [x|] eqn:Hx; [|done]. destruct (l !! j) as [y|] eqn:Hy; [|done]. cbn in Hv, Hw. injection Hv as <-. injection Hw as <-.
    destruct (H4 i x a Hx Ha) as [Hma _]. destruct (H4 j y b Hy Hb) as [Hmb _]. split; [|congruence].
    intros E. rewrite <- E in Hmb. by eapply N2.
Qed.

(** ** Packages *)

Lemma cores_node cs : cores (HTree false cs) = total_cores cs.
Proof. cbn. induction cs as [|c cs IH]; [done|]. cbn. by rewrite IH. Qed.
Lemma fold_count cs : (forall c, c ∈ cs -> count_cores c mod 2 ^ 32 = cores c mod 2 ^ 32)%N -> forall n,
  (fold_left (fun n c => (n + count_cores c) mod 2 ^ 32) cs n mod 2 ^ 32 = (n + total_cores cs) mod 2 ^ 32)%N.
Proof.
  induction cs as [|c cs IH]; intros Hc n; cbn [fold_left total_cores fold_right]; [by rewrite N.add_0_r|].
  rewrite IH by (intros; apply Hc; by right). rewrite N.add_mod_idemp_l by done. change (fold_right _ 0%N cs) with (total_cores cs).
  rewrite N.add_assoc, <- (N.add_mod_idemp_l (n + count_cores c)), <- (N.add_mod_idemp_r n (count_cores c)) by done.
  rewrite (Hc c) by (by left). by rewrite N.add_mod_idemp_r, N.add_mod_idemp_l by done.
Qed.
Fixpoint htree_ind' (P : htree -> Prop) (H : forall b cs, Forall P cs -> P (HTree b cs)) (t : htree) : P t :=
  match t with
  | HTree b cs =>
      H b cs ((fix go (l : list htree) : Forall P l :=
        match l with [] => Forall_nil_2 P | c :: l => Forall_cons_2 P c l (htree_ind' P H c) (go l) end) cs)
  end.
Lemma count_cores_mod t : (count_cores t mod 2 ^ 32 = cores t mod 2 ^ 32)%N.
Proof.
  induction t as [[|] cs IH] using htree_ind'; [done|]. rewrite cores_node. cbn [count_cores].
  rewrite Forall_forall in IH. rewrite (fold_count cs IH 0%N). by rewrite N.add_0_l.
Qed.
Lemma fold_small cs : forall n, (n < 2 ^ 32)%N -> (fold_left (fun n c => (n + count_cores c) mod 2 ^ 32) cs n < 2 ^ 32)%N.
Proof. induction cs as [|c cs IH]; intros n Hn; [done|]. cbn [fold_left]. apply IH. by apply N.mod_lt. Qed.
Lemma count_cores_ok t : (cores t < 2 ^ 32)%N -> count_cores t = cores t.
Proof.
  intros Ht. rewrite <- (N.mod_small (cores t) (2 ^ 32)), <- count_cores_mod by done. symmetry. apply N.mod_small.
  destruct t as [[|] cs]; [done|]. by apply fold_small.
Qed.

Lemma add_packages_ok n : forall ps count, (count + total_cores ps < 2 ^ 32)%N ->
  exists k, add_packages n count ps = take k ps /\
    (n <= count + total_cores (take k ps) \/ take k ps = ps)%N /\
    (forall k', (k' < k)%nat -> (count + total_cores (take k' ps) < n)%N).
Proof.
  induction ps as [|p ps IH]; intros count Hc; cbn [add_packages].
  { exists 0. split_and!; [done|by right|]. intros. lia. }
  cbn [total_cores fold_right] in Hc. change (fold_right _ 0%N ps) with (total_cores ps) in Hc.
  destruct (N.ltb_spec count n) as [Hlt|Hge].
  - assert (Hp : ((count + count_cores p) mod 2 ^ 32 = count + cores p)%N).
    { rewrite count_cores_ok by lia. apply N.mod_small. lia. }
    rewrite Hp. destruct (IH (count + cores p)%N) as (k & H1 & H2 & H3); [lia|]. exists (S k).
    cbn [take total_cores fold_right]. change (fold_right _ 0%N (take k ps)) with (total_cores (take k ps)).
    rewrite H1. split_and!; [done| |].
    + destruct H2 as [H2|H2]; [left; lia|right; by f_equal].
    + intros [|k'] Hk'; cbn [take total_cores fold_right]; [lia|]. change (fold_right _ 0%N (take k' ps)) with (total_cores (take k' ps)).
      specialize (H3 k'). lia.
  - exists 0. split_and!; [done|left; cbn; lia|]. intros. lia.
Qed.

(** ** Without hwloc *)

Lemma filter_others (data : list nat) i x : NoDup data -> data !! i = Some x -> filter (fun y => y <> x) data = others i data.
Proof.
  intros Hnd. revert i. induction Hnd as [|y data Hy Hnd IH]; intros i Hi; [done|]. destruct i as [|i]; cbn in Hi.
  - injection Hi as ->. rewrite filter_cons_False by tauto. unfold others. cbn. rewrite drop_0.
    assert (H : forall l : list nat, x ∉ l -> filter (fun y => y <> x) l = l); [|by apply H].
    induction l as [|z l IHl]; intros Hx; [done|]. rewrite filter_cons_True by set_solver. f_equal. apply IHl. set_solver.
  - assert (x ∈ data) by (by eapply elem_of_list_lookup_2). rewrite filter_cons_True by (intros ->; done).
    unfold others in *. cbn. f_equal. by apply IH.
Qed.

Lemma plain_view data i x : NoDup data -> data !! i = Some x ->
  good_view (fun _ _ => 0%Z) data i ([x] :: (if decide (1 < length data) then [filter (fun y => y <> x) data] else [])).
Proof.
  intros Hnd Hx. pose proof (lookup_lt_Some _ _ _ Hx) as Hi. exists x, (if decide (1 < length data) then [0%Z] else []). split; [done|].
  rewrite (filter_others data i x Hnd Hx). split_and!.
  - f_equal. destruct (decide (1 < length data)); [|done]. cbn. f_equal. rewrite <- (Nat.sub_0_r i) at 1. rewrite <- at_positions_others by lia.
    apply at_positions_ext. intros k _. by rewrite andb_true_r.
  - destruct (decide _); repeat constructor.
  - intros d. destruct (decide (1 < length data)) as [Hl|Hl].
    + rewrite elem_of_list_singleton. split; [|by intros (j & _ & _ & <-)]. intros ->.
      exists (if decide (i = 0) then 1 else 0). destruct (decide (i = 0)); split_and!; lia.
    + split; [by intros ?%elem_of_nil|]. intros (j & Hj & Hne & _). lia.
Qed.

(** ** numa_context *)

Lemma gather_fst : forall ls i, map fst (gather i ls) = concat ls.
Proof.
  induction ls as [|l ls IH]; intros i; [done|]. cbn [gather concat]. rewrite map_app, IH. f_equal. rewrite map_map. cbn. apply map_id.
Qed.
Lemma gather_snd : forall ls i, map snd (gather i ls) = concat (imap (fun k l => replicate (length l) (1 / (inject_Z (Z.of_nat (length l)) * inject_Z (Z.of_nat (i + k)) * inject_Z (Z.of_nat (i + k))))%Q) ls).
Proof.
  induction ls as [|l ls IH]; intros i; [done|]. cbn [gather imap concat]. rewrite map_app, IH. f_equal.
  - rewrite map_map. cbn. rewrite Nat.add_0_r. generalize (1 / (inject_Z (Z.of_nat (length l)) * inject_Z (Z.of_nat i) * inject_Z (Z.of_nat i)))%Q.
    intros q. clear. induction l as [|x l IH]; [done|]. cbn. by f_equal.
  - f_equal. apply imap_ext. intros k l' _. cbn. replace (i + S k) with (S (i + k)) by lia. done.
Qed.
Lemma total_replicate n q : (total (replicate n q) == inject_Z (Z.of_nat n) * q)%Q.
Proof.
  induction n as [|n IH]; [change (inject_Z (Z.of_nat 0)) with 0%Q; cbn [replicate total fold_right]; ring|]. cbn [replicate total fold_right]. change (fold_right Qplus 0%Q (replicate n q)) with (total (replicate n q)).
  rewrite IH. rewrite Nat2Z.inj_succ, <- Z.add_1_r, inject_Z_plus. change (inject_Z 1) with 1%Q. ring.
Qed.
Lemma pos_weight n i : (0 < n)%nat -> (0 < i)%nat -> (0 < 1 / (inject_Z (Z.of_nat n) * inject_Z (Z.of_nat i) * inject_Z (Z.of_nat i)))%Q.
Proof.
  intros Hn Hi. assert (H1 : (0 < inject_Z (Z.of_nat n))%Q) by (unfold Qlt; cbn; lia). assert (H2 : (0 < inject_Z (Z.of_nat i))%Q) by (unfold Qlt; cbn; lia).
  apply Qlt_shift_div_l; [|lra]. apply Qmult_lt_0_compat; [by apply Qmult_lt_0_compat|done].
Qed.
Lemma ring_weight n i : (0 < n)%nat -> (0 < i)%nat ->
  (inject_Z (Z.of_nat n) * (1 / (inject_Z (Z.of_nat n) * inject_Z (Z.of_nat i) * inject_Z (Z.of_nat i))) == 1 / inject_Z (Z.of_nat (i * i)))%Q.
Proof.
  intros Hn Hi. rewrite Nat2Z.inj_mul, inject_Z_mult. field. split; unfold Qeq; cbn; lia.
Qed.

(** ** Stealing *)

Definition success (a : steal) : Prop := exists t, a = SNone t.

Lemma attempts_ok ans : forall targets k l r, attempts ans k targets = (l, r) ->
  match r with
  | Some t => exists n, n < length targets /\ l = take (S n) targets /\ ans (k + n) = SNone t /\ forall m, m < n -> ~ success (ans (k + m))
  | None => l = targets /\ forall m, m < length targets -> ~ success (ans (k + m))
  end.
Proof.
  induction targets as [|c ts IH]; intros k l r H; cbn in H.
  { injection H as <- <-. split; [done|]. cbn. lia. }
  assert (Hgo : (let '(l0, r0) := attempts ans (S k) ts in (c :: l0, r0)) = (l, r) -> ~ success (ans k) -> match r with
    | Some t => exists n, n < S (length ts) /\ l = take (S n) (c :: ts) /\ ans (k + n) = SNone t /\ forall m, m < n -> ~ success (ans (k + m))
    | None => l = c :: ts /\ forall m, m < S (length ts) -> ~ success (ans (k + m)) end).
  { intros Hx Hns. destruct (attempts ans (S k) ts) as [l0 r0] eqn:E. injection Hx as <- <-. specialize (IH _ _ _ E).
    assert (Hsh : forall b, (forall m, m < b -> ~ success (ans (S k + m))) -> forall m, m < S b -> ~ success (ans (k + m))).
    { intros b Hb [|m] Hm; [by rewrite Nat.add_0_r|]. rewrite Nat.add_succ_r. apply Hb. lia. }
    destruct r0 as [t|].
    - destruct IH as (n & Hn & -> & Ha & Hm). exists (S n). split_and!; [lia|done|by rewrite Nat.add_succ_r|by apply Hsh].
    - destruct IH as [-> Hm]. split; [done|by apply Hsh]. }
  cbn [length]. destruct (ans k) as [t| |] eqn:Ha.
  - injection H as <- <-. exists 0. split_and!; [lia|done|by rewrite Nat.add_0_r|lia].
  - apply Hgo; [done|]. by intros [t Ht].
  - apply Hgo; [done|]. by intros [t Ht].
Qed.

Lemma random_ok ans picks ns base : (forall k, picks k < length ns) -> forall n k l r,
  random_attempts ans picks ns base k n = (l, r) ->
  (forall c, c ∈ l -> c ∈ ns) /\
  ((exists t m, r = ROk (Some t) /\ m < n /\ length l = S m /\ ans (base + k + m) = SNone t /\ forall i, i < m -> ~ success (ans (base + k + i))) \/
   (r = ROk None /\ length l = n /\ forall i, i < n -> ~ success (ans (base + k + i)))).
Proof.
  intros Hp. induction n as [|n IH]; intros k l r H; cbn in H.
  { injection H as <- <-. split; [by intros c ?%elem_of_nil|]. right. split_and!; [done|done|lia]. }
  destruct (lookup_lt_is_Some_2 ns (picks k) (Hp k)) as [c Hc]. rewrite Hc in H. apply elem_of_list_lookup_2 in Hc.
  assert (Hgo : (let '(l0, r0) := random_attempts ans picks ns base (S k) n in (c :: l0, r0)) = (l, r) -> ~ success (ans (base + k)) ->
     (forall c, c ∈ l -> c ∈ ns) /\
  ((exists t m, r = ROk (Some t) /\ m < S n /\ length l = S m /\ ans (base + k + m) = SNone t /\ forall i, i < m -> ~ success (ans (base + k + i))) \/
   (r = ROk None /\ length l = S n /\ forall i, i < S n -> ~ success (ans (base + k + i))))).
  { intros Hx Hns. destruct (random_attempts ans picks ns base (S k) n) as [l0 r0] eqn:E. injection Hx as <- <-.
    destruct (IH _ _ _ E) as [H1 H2]. split; [intros d [->|Hd]%elem_of_cons; [done|by apply H1]|].
    assert (Hsh : forall b, (forall m, m < b -> ~ success (ans (base + S k + m))) -> forall m, m < S b -> ~ success (ans (base + k + m))).
    { intros b Hb [|m] Hm; [by rewrite Nat.add_0_r|]. replace (base + k + S m) with (base + S k + m) by lia. apply Hb. lia. }
    destruct H2 as [(t & m & -> & Hm & Hl & Ha & Hi)|(-> & Hl & Hi)].
    - left. exists t, (S m). split_and!; [done|lia|cbn; lia|by replace (base + k + S m) with (base + S k + m) by lia|by apply Hsh].
    - right. split_and!; [done|cbn; lia|by apply Hsh]. }
  destruct (ans (base + k)) as [t| |] eqn:Ha.
  - injection H as <- <-. split; [by intros d ->%elem_of_list_singleton|]. left. exists t, 0. split_and!; [done|lia|done|by rewrite Nat.add_0_r|lia].
  - apply Hgo; [done|]. by intros [t Ht].
  - apply Hgo; [done|]. by intros [t Ht].
Qed.

Definition max_attempts (x : ctx) (n : nat) : nat :=
  n + N.to_nat (1024 + 32 * N.of_nat (length (neigh x))).

Lemma try_steal_ok x sh picks ans x' l r :
  sh ≡ₚ close x -> (neigh x <> [] -> forall k, picks k < length (neigh x)) -> try_steal x sh picks ans = (x', l, r) ->
  (forall c, c ∈ l -> c ∈ close x \/ c ∈ neigh x) /\ neigh x' = neigh x /\ weights x' = weights x /\ close x' ≡ₚ close x /\
  ((neigh x = [] /\ l = [] /\ r = ROk None) \/
   (neigh x <> [] /\ take (length sh) l = take (length l) sh /\
     ((exists t n, r = ROk (Some t) /\ length l = S n /\ S n <= max_attempts x (length sh) /\ ans n = SNone t /\ forall m, m < n -> ~ success (ans m)) \/
      (r = ROk None /\ length l = max_attempts x (length sh) /\ forall m, m < length l -> ~ success (ans m))))).
Proof.
  intros Hsh Hp H. unfold try_steal in H. destruct (neigh x) as [|y ns] eqn:Hn.
  { injection H as <- <- <-. split; [by intros c ?%elem_of_nil|]. split_and!; [done|done|done|]. by left. }
  assert (Hne : y :: ns <> []) by done. specialize (Hp Hne). set (Y := y :: ns) in *.
  destruct (attempts ans 0 sh) as [l1 r1] eqn:E1. pose proof (attempts_ok ans sh 0 l1 r1 E1) as A. destruct r1 as [t|].
  - injection H as <- <- <-. destruct A as (n & Hlt & -> & Ha & Hm). cbn [neigh weights close].
    assert (Hl : length (take (S n) sh) = S n) by (rewrite take_length; lia).
    split; [intros c Hc; left; rewrite <- Hsh; apply elem_of_take in Hc as (i & Hi & _); by eapply elem_of_list_lookup_2|].
    split_and!; [done|done|done|]. right. split; [done|]. split; [rewrite Hl, take_take; f_equal; lia|].
    left. exists t, n. rewrite Hl. unfold max_attempts. split_and!; [done|done|lia|done|done].
  - destruct A as [-> Hm]. set (N := N.to_nat _) in H. destruct (random_attempts ans picks Y (length sh) 0 N) as [l2 r2] eqn:E2.
    injection H as <- <- <-. destruct (random_ok ans picks Y (length sh) Hp N 0 l2 r2 E2) as [H1 H2]. cbn [neigh weights close].
    assert (HN : max_attempts x (length sh) = length sh + N) by (unfold max_attempts; by rewrite Hn).
    split; [intros c [Hc|Hc]%elem_of_app; [left; by rewrite <- Hsh|right; by apply H1]|]. split_and!; [done|done|done|]. right.
    split; [done|]. split; [rewrite app_length, take_app, (take_ge sh); [done|lia]|].
    assert (Hall : forall b, (forall i, i < b -> ~ success (ans (length sh + 0 + i))) -> forall m, m < length sh + b -> ~ success (ans m)).
    { intros b Hb m Hlt. destruct (decide (m < length sh)) as [Hs|Hs]; [by apply (Hm m)|].
      replace m with (length sh + 0 + (m - length sh)) by lia. apply Hb. lia. }
    destruct H2 as [(t & m & -> & Hlt & Hl & Ha & Hi)|(-> & Hl & Hi)].
    + left. exists t, (length sh + m). rewrite app_length, HN. split_and!; [done|lia|lia|by replace (length sh + m) with (length sh + 0 + m) by lia|by apply Hall].
    + right. rewrite app_length, HN. split_and!; [done|lia|]. rewrite Hl. by apply Hall.
Qed.
