(** * C43 (distribution of workers), C44 (steal attempts), C50 (sequential strategy). *)

From Coq Require Import QArith.
From stdpp Require Import gmap list numbers sorting.
From Verif Require Import NumaModel NumaSpec NumaProofs.
Local Close Scope Q_scope.

(** ** C43 *)

(** For every machine and every list of workers: one node per worker, whose lists are the good view for the distances of the
    processing units that the workers were given. *)
Theorem C43_views h data s nodes : hwloc_ok h -> distribute h data s = ROk nodes ->
  length nodes = length data /\
  exists (pu : list hobj) dist, length pu = length data /\
    (forall i nd o, nodes !! i = Some nd -> pu !! i = Some o -> h_covering h (cpup (n_handle nd)) = Some o) /\
    (forall i j a b, pu !! i = Some a -> pu !! j = Some b -> pu_distance h a b (dist i j)) /\
    (forall i nd, nodes !! i = Some nd -> good_view dist data i (neighbors nd)).
Proof.
  intros Hok H. destruct (distribute_ok h data s nodes Hok H) as (hs & os & m & Hs & Hos & Hm & Hn & Hl & Hv).
  assert (Hlen : length nodes = length data) by (rewrite <- Hl, <- Hn; by rewrite map_length).
  destruct (objects_ok h hs os Hos) as [Ho1 Ho2]. destruct (rows_ok h os os m Hm) as [Hr1 Hr2].
  split; [done|]. exists os, (fun i j => default 0%Z (m !! i ≫= fun r => r !! j)). split_and!; [lia| | |done].
  - intros i nd o Hi Ho. apply (Ho2 i _ o); [|done]. rewrite <- Hn. change (map n_handle nodes) with (n_handle <$> nodes).
    by rewrite list_lookup_fmap, Hi.
  - intros i j a b Ha Hb. destruct (lookup_lt_is_Some_2 m i) as [r Hr]; [rewrite Hr1; by eapply lookup_lt_Some|].
    destruct (row_ok h a os r (Hr2 i a r Ha Hr)) as [H3 H4].
    destruct (lookup_lt_is_Some_2 r j) as [d Hd]; [rewrite H3; by eapply lookup_lt_Some|]. rewrite Hr. cbn. rewrite Hd. cbn. by apply (H4 j).
Qed.

(** In particular: the worker itself comes first and alone, every other worker follows exactly once (with its
    multiplicity, should the list contain duplicates), and no list is empty. *)
Theorem C43_complete h data s nodes i nd : hwloc_ok h -> distribute h data s = ROk nodes -> nodes !! i = Some nd ->
  exists x rest, data !! i = Some x /\ neighbors nd = [x] :: rest /\ concat rest ≡ₚ others i data /\ (forall l, l ∈ rest -> l <> []).
Proof.
  intros Hok H Hi. destruct (C43_views h data s nodes Hok H) as (_ & pu & dist & _ & _ & _ & Hv).
  exact (good_view_complete _ _ _ _ (Hv i nd Hi)).
Qed.

(** Domain numbers are dense from 0 and equal exactly for workers with the same closest memory. *)
Theorem C43_numbers h data s nodes : hwloc_ok h -> distribute h data s = ROk nodes ->
  exists gs : list N, good_numbering gs (map (fun nd => numa (n_handle nd)) nodes) /\
    forall i nd g, nodes !! i = Some nd -> gs !! i = Some g ->
      exists o, h_covering h (cpup (n_handle nd)) = Some o /\ memory_domain o g.
Proof.
  intros Hok H. destruct (distribute_ok h data s nodes Hok H) as (hs & os & m & Hs & _ & _ & Hn & _ & _).
  unfold split in Hs. destruct (decide _); [done|]. destruct (h_distrib _ _ _) as [sets|]; [|done].
  destruct (handles_numbering h sets hs Hs) as (gs & H1 & H2). exists gs.
  assert (Hmap : map (fun nd => numa (n_handle nd)) nodes = map numa hs) by (rewrite <- Hn; by rewrite map_map).
  rewrite Hmap. split; [done|]. intros i nd g Hi Hg.
  assert (Hx : hs !! i = Some (n_handle nd)).
  { rewrite <- Hn. change (map n_handle nodes) with (n_handle <$> nodes). by rewrite list_lookup_fmap, Hi. }
  specialize (H2 i _ g Hx Hg). unfold get_numa_index in H2. destruct (h_covering h (cpup (n_handle nd))) as [o|]; [|done].
  exists o. split; [done|]. destruct (climb o) as [g'|] eqn:E; [|done]. injection H2 as ->. by apply climb_spec.
Qed.

(** It is never undefined behaviour; it throws only for no workers or when hwloc fails. *)
Theorem C43_safe h data s : hwloc_ok h -> distribute h data s <> RUB.
Proof. apply distribute_noub. Qed.

Theorem C43_succeeds h data s sets : hwloc_ok h -> data <> [] ->
  h_distrib h (roots h (length data) s) (length data) = Some sets -> (forall b, b ∈ sets -> b <> None) ->
  (forall b, h_singlify h b <> None) -> (forall b, exists o g, h_covering h b = Some o /\ memory_domain o g) ->
  (forall a b, h_ancestor h a b <> None) ->
  exists nodes, distribute h data s = ROk nodes.
Proof.
  intros Hok Hne Hd Hb Hs Hc Ha. destruct (distribute h data s) as [nodes| |] eqn:E; [by exists nodes| |by destruct (distribute_noub h data s Hok)].
  exfalso. revert E. unfold distribute, split, distance_matrix. rewrite decide_False by (destruct data; cbn; [done|lia]). rewrite Hd. clear Hd.
  assert (Hth : forall m, exists hs, to_handles h m sets = ROk hs).
  { induction sets as [|[b|] sets IH]; intros m; [by exists []| |by destruct (Hb None); [left|]]. cbn.
    destruct (h_singlify h b) as [b'|] eqn:Eb; [|by destruct (Hs b)]. destruct (Hc b') as (o & g & Ho & Hg). unfold get_numa_index.
    rewrite Ho. apply climb_spec in Hg. rewrite Hg. cbn [rbind].
    destruct (IH (fun b Hi => Hb b (elem_of_list_further _ _ _ Hi)) (match m !! g with Some _ => m | None => <[g:=size m]> m end)) as [l ->]. by eexists. }
  destruct (Hth ∅) as [hs Hhs]. rewrite Hhs. cbn [rbind].
  assert (Hos : exists os, objects h hs = ROk os).
  { clear -Hc. induction hs as [|x hs [os IH]]; [by exists []|]. cbn. destruct (Hc (cpup x)) as (o & g & -> & _). rewrite IH. by eexists. }
  destruct Hos as [os Hos]. rewrite Hos. cbn [rbind].
  assert (Hrow : forall a l, exists r, row h a l = ROk r).
  { intros a l. induction l as [|b l [r IH]]; [by exists []|]. cbn. pose proof (entry_noub h a b Hok) as Hu. pose proof (Ha a b) as Hab.
    destruct (entry h a b) as [d| |] eqn:Ee; [|unfold entry in Ee; destruct (h_ancestor h a b); [by destruct (_ || _)|done]|done]. cbn [rbind]. rewrite IH. by eexists. }
  assert (Hrows : forall l, exists m, rows h l os = ROk m).
  { induction l as [|a l [m IH]]; [by exists []|]. cbn. destruct (Hrow a os) as [r ->]. cbn [rbind]. rewrite IH. by eexists. }
  destruct (Hrows os) as [m ->]. cbn [rbind]. generalize 0. clear. revert m. induction hs as [|x hs IH]; intros [|r m] i; cbn; try done.
  destruct (neighbors_of i r data) as [v| |] eqn:En; cbn; [|intros _|done].
  - destruct (make_nodes (S i) hs m data) as [l| |] eqn:E; cbn; [done| |done]. intros _. by apply (IH m (S i)).
  - revert En. unfold neighbors_of. generalize (uniques i 0 r []). intros us.
    generalize (replicate (1 + length us) ([] : list nat)). generalize 0. clear. revert data.
    induction r as [|d r IH]; intros [|y data] j v; cbn; try done.
    destruct (decide (i = j)); unfold push_at; destruct (v !! _); cbn; try done; apply IH.
Qed.

(** Without hwloc (distinct workers, as the pools use it). *)
Theorem C43_plain data : NoDup data -> exists nodes, distribute_plain data = ROk nodes /\ length nodes = length data /\
  (forall i nd, nodes !! i = Some nd -> good_view (fun _ _ => 0%Z) data i (neighbors nd)) /\
  good_numbering (map (fun _ => tt) data) (map (fun nd => numa (n_handle nd)) nodes).
Proof.
  intros Hnd. unfold distribute_plain. eexists. split; [done|]. rewrite map_length. split; [done|]. split; [|split_and!].
  - intros i nd Hi. change (map ?f data !! i) with ((f <$> data) !! i) in Hi. rewrite list_lookup_fmap in Hi.
    destruct (data !! i) as [x|] eqn:Hx; [|done]. cbn in Hi. injection Hi as <-. by apply plain_view.
  - by rewrite !map_length.
  - rewrite map_map. cbn [n_handle numa]. exists (if decide (data = []) then 0 else 1). intros v.
    destruct data as [|x data]; cbn [map].
    + rewrite decide_True by done. split; [by intros ?%elem_of_nil|lia].
    + rewrite decide_False by done. split; [|intros; assert (v = 0) as -> by lia; left]. intros Hin. assert (v = 0); [|lia]. change (0 :: map (fun _ : nat => 0) data) with (map (fun _ : nat => 0) (x :: data)) in Hin.
      apply elem_of_list_fmap in Hin as (z & -> & _). done.
  - intros i j [] [] v w _ _ Hv Hw. split; [done|]. intros _.
    assert (H0 : forall k z, map (fun nd => numa (n_handle nd)) (map (fun x => Node (Handle 0 0) ([x] :: (if decide (1 < length data) then [filter (fun y => y <> x) data] else []))) data) !! k = Some z -> z = 0).
    { intros k z Hz. rewrite map_map in Hz. change (map ?f data !! k) with ((f <$> data) !! k) in Hz. rewrite list_lookup_fmap in Hz.
      destruct (data !! k); [|done]. cbn in Hz. congruence. }
    rewrite (H0 i v Hv). by rewrite (H0 j w Hw).
Qed.

(** ** C50: the sequential strategy takes packages in order, and no more than needed. *)
Theorem C50_fewest_packages h n : (total_cores (h_packages h) < 2 ^ 32)%N ->
  exists k, roots h n Seq = take k (h_packages h) /\
    (N.of_nat n <= total_cores (take k (h_packages h)) \/ take k (h_packages h) = h_packages h)%N /\
    (forall k', (k' < k)%nat -> (total_cores (take k' (h_packages h)) < N.of_nat n)%N).
Proof.
  intros Ht. destruct (add_packages_ok (N.of_nat n) (h_packages h) 0%N) as (k & H1 & H2 & H3); [done|]. exists k. by split_and!.
Qed.

(** ** C44 *)

(** A worker initialised with its view can steal from exactly the others; first it tries those at the smallest
    distance; each can be chosen, and the k-th closest group is chosen with weight 1/k^2. *)
Theorem C44_init dist data i v x : good_view dist data i v -> data !! i = Some x ->
  exists c, init_worker x v = ROk c /\ neigh c ≡ₚ others i data /\
    (neigh c = [] -> close c = []) /\
    (neigh c <> [] -> exists d, close c = at_positions (fun j => negb (j =? i) && (dist i j =? d)%Z) 0 data /\ close c <> [] /\
       forall j, j < length data -> j <> i -> (d <= dist i j)%Z) /\
    length (weights c) = length (neigh c) /\ Forall (fun w => 0 < w)%Q (weights c) /\
    exists groups, tail v = groups /\ neigh c = concat groups /\
      forall k l, groups !! k = Some l ->
        exists ws, take (length l) (drop (length (concat (take k groups))) (weights c)) = ws /\
          (total ws == 1 / inject_Z (Z.of_nat ((k + 1) * (k + 1))))%Q.
Proof.
  intros Hg Hx. destruct (good_view_complete _ _ _ _ Hg) as (x' & rest & Hx' & Hv & Hperm & Hnon). assert (x' = x) as -> by congruence.
  destruct Hg as (y & ds & Hy & Hv' & Hs & Hds). rewrite Hv in Hv'. injection Hv' as Hyx Hrest. subst y v. cbn [init_worker]. rewrite decide_True by done.
  eexists. split; [done|]. cbn [neigh close weights]. rewrite gather_fst, gather_snd. split; [done|].
  assert (Hne : forall k l, rest !! k = Some l -> 0 < length l).
  { intros k l Hk. destruct l; [|cbn; lia]. destruct (Hnon []); [by eapply elem_of_list_lookup_2|done]. }
  split; [|split; [|split_and!]].
  - destruct rest as [|l rest]; [done|]. cbn. intros E. apply app_eq_nil in E as [-> _]. done.
  - destruct ds as [|d ds]; subst rest; [done|]. intros _. exists d. cbn [map]. split; [done|]. split.
    + apply Hnon. by left.
    + intros j Hj Hji. assert (Hin : dist i j ∈ d :: ds) by (apply Hds; by exists j). apply StronglySorted_inv in Hs as [_ Hall].
      apply elem_of_cons in Hin as [->|Hin]; [lia|]. rewrite Forall_forall in Hall. specialize (Hall _ Hin). lia.
  - clear. generalize 1. induction rest as [|l rest IH]; intros n; [done|]. cbn [imap concat]. rewrite !app_length, replicate_length. f_equal.
    rewrite <- (IH (S n)). f_equal. f_equal. apply imap_ext. intros k l' _. cbn. replace (n + S k) with (S (n + k)) by lia. done.
  - apply Forall_concat, Forall_lookup. intros k l Hk. rewrite list_lookup_imap in Hk. destruct (rest !! k) as [l'|] eqn:E; [|done]. cbn in Hk. injection Hk as <-.
    apply Forall_replicate. apply pos_weight; [by eapply Hne|lia].
  - exists rest. split; [done|]. split; [done|]. intros k l Hk. eexists. split; [done|].
    set (W := fun k (l : list nat) => replicate (length l) (1 / (inject_Z (Z.of_nat (length l)) * inject_Z (Z.of_nat (1 + k)) * inject_Z (Z.of_nat (1 + k))))%Q).
    assert (Hdrop : forall (f : nat -> list nat -> list Q), (forall k l, length (f k l) = length l) -> forall gs k l, gs !! k = Some l ->
              take (length l) (drop (length (concat (take k gs))) (concat (imap f gs))) = f k l).
    { clear. intros f Hf gs. revert f Hf. induction gs as [|g gs IH]; intros f Hf [|k] l Hk; cbn in Hk; try done.
      - injection Hk as ->. cbn. rewrite drop_0. rewrite <- (Hf 0 l). apply take_app.
      - cbn [take concat imap]. rewrite app_length, <- (Hf 0 g), drop_app_ge by lia.
        replace (length (f 0 g) + length (concat (take k gs)) - length (f 0 g)) with (length (concat (take k gs))) by lia.
        exact (IH (fun n => f (S n)) (fun n => Hf (S n)) k l Hk). }
    rewrite (Hdrop W) by (done || (intros; apply replicate_length)). unfold W. rewrite total_replicate.
    rewrite ring_weight by (by eauto || lia). by replace ((1 + k) * (1 + k)) with ((k + 1) * (k + 1)) by lia.
Qed.

(** One call of try_steal, for every order the shuffle may produce, every index the distribution may give and every
    outcome of the single attempts: *)
Definition call (c : ctx) (shuffled : list nat) (picks : nat -> nat) : Prop :=
  shuffled ≡ₚ close c /\ (neigh c <> [] -> forall k, picks k < length (neigh c)).

(** - never undefined; *)
Theorem C44_safe c sh picks ans c' l r : call c sh picks -> try_steal c sh picks ans = (c', l, r) -> r <> RUB.
Proof.
  intros [Hs Hp] H. destruct (try_steal_ok c sh picks ans c' l r Hs Hp H) as (_ & _ & _ & _ & [(_ & _ & ->)|(_ & _ & [(t & n & -> & _)|(-> & _)])]); done.
Qed.
(** - a task that is returned is the one that the last attempt stole, and it is the first that succeeded; *)
Theorem C44_returns_stolen c sh picks ans c' l t : call c sh picks -> try_steal c sh picks ans = (c', l, ROk (Some t)) ->
  exists n, length l = S n /\ ans n = SNone t /\ forall m u, m < n -> ans m <> SNone u.
Proof.
  intros [Hs Hp] H. destruct (try_steal_ok c sh picks ans c' l _ Hs Hp H) as (_ & _ & _ & _ & [(_ & _ & ?)|(_ & _ & [(u & n & [= <-] & Hl & _ & Ha & Hm)|(? & _)])]); try done.
  exists n. split_and!; [done|done|]. intros m v Hlt E. apply (Hm m Hlt). by exists v.
Qed.
(** - nothing is returned only if every attempt failed, after trying every closest worker once and 1024 + 32*neighbours more attempts
      (or there is nobody to steal from); *)
Theorem C44_gives_up c sh picks ans c' l : call c sh picks -> try_steal c sh picks ans = (c', l, ROk None) ->
  (neigh c = [] /\ l = []) \/
  (take (length (close c)) l ≡ₚ close c /\ (N.of_nat (length l) = N.of_nat (length (close c)) + 1024 + 32 * N.of_nat (length (neigh c)))%N /\
   forall m u, m < length l -> ans m <> SNone u).
Proof.
  intros [Hs Hp] H. destruct (try_steal_ok c sh picks ans c' l _ Hs Hp H) as (_ & _ & _ & _ & [(? & -> & _)|(Hne & Ht & [(u & n & ? & _)|(_ & Hl & Hm)])]); [by left|done|].
  right. assert (Hlen : length sh = length (close c)) by (by rewrite Hs). unfold max_attempts in Hl.
  split_and!; [|lia|].
  - rewrite <- Hlen, Ht, take_ge; [done|]. lia.
  - intros m u Hlt E. apply (Hm m Hlt). by exists u.
Qed.
(** - in any case at most that many attempts, only at the others, closest first; the object is ready for the next call. *)
Theorem C44_bounded c sh picks ans c' l r : call c sh picks -> try_steal c sh picks ans = (c', l, r) ->
  (N.of_nat (length l) <= N.of_nat (length (close c)) + 1024 + 32 * N.of_nat (length (neigh c)))%N /\
  (forall w, w ∈ l -> w ∈ close c \/ w ∈ neigh c) /\
  (l <> [] -> take (length sh) l = take (length l) sh) /\
  neigh c' = neigh c /\ weights c' = weights c /\ close c' ≡ₚ close c.
Proof.
  intros [Hs Hp] H. destruct (try_steal_ok c sh picks ans c' l _ Hs Hp H) as (H1 & H2 & H3 & H4 & H5).
  assert (Hlen : length sh = length (close c)) by (by rewrite Hs). unfold max_attempts in H5.
  destruct H5 as [(Hn & -> & _)|(Hne & Ht & H5)]; [cbn; split_and!; try done; lia|]. split_and!; try done.
  destruct H5 as [(t & n & _ & Hl & Hle & _)|(_ & Hl & _)]; lia.
Qed.

(** Put together: a worker of a pool only ever tries to steal from other workers of the pool. *)
Theorem C44_only_from_others dist data i v x c sh picks ans c' l r :
  NoDup data -> good_view dist data i v -> data !! i = Some x -> init_worker x v = ROk c ->
  call c sh picks -> try_steal c sh picks ans = (c', l, r) ->
  forall w, w ∈ l -> w ∈ data /\ w <> x.
Proof.
  intros Hnd Hg Hx Hi Hc Ht w Hw. destruct (C44_init dist data i v x Hg Hx) as (c0 & Hi0 & Hn & Hc0 & Hc1 & _). rewrite Hi in Hi0. injection Hi0 as <-.
  destruct (C44_bounded c sh picks ans c' l r Hc Ht) as (_ & Hall & _).
  assert (Hin : w ∈ others i data).
  { destruct (Hall w Hw) as [H|H]; [|by rewrite <- Hn].
    destruct (decide (neigh c = [])) as [E|E]; [rewrite (Hc0 E) in H; by apply elem_of_nil in H|].
    destruct (Hc1 E) as (d & Hcl & _). rewrite Hcl in H. apply at_positions_elem in H as (k & Hk & HP). cbn in HP.
    apply andb_true_iff in HP as [HP _]. apply negb_true_iff, Nat.eqb_neq in HP.
    rewrite <- (Nat.sub_0_r i), <- at_positions_others by lia. apply at_positions_elem. exists k. split; [done|]. cbn. by apply negb_true_iff, Nat.eqb_neq. }
  rewrite <- (filter_others data i x Hnd Hx) in Hin. apply elem_of_list_filter in Hin as [? ?]. done.
Qed.

(** ** Concrete cases: two packages of two cores, with memory at the packages; workers 10..13. *)
Definition machine : hobj := HObj 100 0 0 None.
Definition package (k : N) : hobj := HObj k 1 1 (Some machine).
Definition core (b : nat) : hobj := HObj (200 + N.of_nat b) 0 2 (Some (package (if Nat.ltb b 2 then 7 else 3)%N)).
Definition parent_gp (o : hobj) : N := match o with HObj _ _ _ (Some p) => gp_index p | _ => 0 end.
Definition common (a b : hobj) : Z := if (gp_index a =? gp_index b)%N then 2 else if (parent_gp a =? parent_gp b)%N then 1 else 0.
Definition h_demo : hwloc :=
  let two := HTree false [HTree true []; HTree true []] in
  Hwloc (HTree false [two; two]) [two; two] (fun _ n => Some (map Some (seq 0 n))) Some (fun b => Some (core b))
        (fun a b => Some (HObj 0 0 (Z.min (common a b) (Z.min (depth a) (depth b))) None)).
Example h_demo_ok : hwloc_ok h_demo.
Proof.
  split; cbn.
  - intros rs n l [= <-]. by rewrite map_length, seq_length.
  - intros a b c [= <-]. cbn. lia.
Qed.
Definition workers : list nat := [10; 11; 12; 13].
Example demo_nodes : exists nodes, distribute h_demo workers Fan = ROk nodes /\ map neighbors nodes = [ [ [10]; [11]; [12; 13]]; [ [11]; [10]; [12; 13]]; [ [12]; [13]; [10; 11]]; [ [13]; [12]; [10; 11]]] /\ map (fun nd => numa (n_handle nd)) nodes = [0; 0; 1; 1].
Proof. eexists. split; [vm_compute; reflexivity|]. split; reflexivity. Qed.
(** The hypotheses of C43_succeeds. *)
Example demo_total : (forall b, exists o g, h_covering h_demo b = Some o /\ memory_domain o g).
Proof. intros b. exists (core b). eexists. split; [done|]. unfold core, package. apply md_up. by apply md_here. Qed.
Example demo_packages : (total_cores (h_packages h_demo) = 4)%N /\ roots h_demo 2 Seq = take 1 (h_packages h_demo) /\ roots h_demo 3 Seq = h_packages h_demo.
Proof. split_and!; reflexivity. Qed.
Example demo_context : exists c, init_worker 12 [ [12]; [13]; [10; 11]] = ROk c /\ close c = [13] /\ neigh c = [13; 10; 11] /\ Forall2 Qeq (weights c) [1 # 1; 1 # 8; 1 # 8]%Q.
Proof. eexists. split; [reflexivity|]. split_and!; [done|done|]. repeat constructor. Qed.
(** The third attempt (the second random one) succeeds. *)
Example demo_steal : exists c, init_worker 12 [ [12]; [13]; [10; 11]] = ROk c /\ call c [13] (fun k => (k + 1) mod 3) /\ exists c', try_steal c [13] (fun k => (k + 1) mod 3) (fun k => if k =? 2 then SNone 99 else SLost) = (c', [13; 10; 11], ROk (Some 99)).
Proof.
  eexists. split; [reflexivity|]. split; [split; [done|]; intros _ k; cbn [neigh map fst app length]; by apply Nat.mod_upper_bound|].
  eexists. vm_compute. reflexivity.
Qed.

Print Assumptions C43_views.
Print Assumptions C43_complete.
Print Assumptions C43_numbers.
Print Assumptions C43_succeeds.
Print Assumptions C43_plain.
Print Assumptions C44_init.
Print Assumptions C44_returns_stolen.
Print Assumptions C44_gives_up.
Print Assumptions C44_bounded.
Print Assumptions C44_only_from_others.
Print Assumptions C50_fewest_packages.
