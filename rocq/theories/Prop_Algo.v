(** * Properties C29 to C34 and C45: the parallel algorithms. *)

From stdpp Require Import prelude list.
From Coq Require Import ZArith Lia.
From Verif Require Import AlgoModel AlgoLogic AlgoSpec AlgoProofs AlgoScan.
Local Open Scope Z_scope.

Section Generic.
Context {A : Type}.
Notation mem := (Z -> A).

Lemma wp_safe (X : Prop) E W R (p : prog A) Q m : wp X E W R p Q m -> safe p m W R.
Proof.
  intros Hwp tr p' m' Hs. destruct (wp_steps _ _ _ _ _ Hs _ _ _ _ _ Hwp) as [H1 H2].
  split_and!; [by eapply wp_no_race|by eapply wp_not_bad| |done].
  intros l w Hin. by apply (wp_next _ _ _ _ _ _ _ _ _ H1 Hin).
Qed.

Lemma wp_completes (X : Prop) E W R (p : prog A) Q m : wp X E W R p Q m -> completes p m.
Proof.
  intros Hwp. split.
  - pose proof (executions_finite p) as Hacc. clear Hwp. induction Hacc as [p _ IH]. constructor.
    intros m1 o p' m2 Hs. apply IH. by exists m1, o, m2.
  - intros tr p' m' Hs Hstuck. destruct (wp_steps _ _ _ _ _ Hs _ _ _ _ _ Hwp) as [H1 _].
    destruct (progress p' m') as [[r ->]|[[e ->]|(o & p2 & m2 & Hstep)]].
    + by eapply wp_not_bad.
    + left. by eexists.
    + right. by eexists.
    + by destruct (Hstuck o p2 m2).
Qed.

Lemma wp_result (X : Prop) W R (p : prog A) Q m tr r m' :
  wp X (fun _ => False) W R p Q m -> steps p m tr (Ret r) m' -> Q r m' /\ forall l, ~ W l -> m' l = m l.
Proof. intros Hwp Hs. apply (wp_steps _ _ _ _ _ Hs _ _ _ _ _ Hwp). Qed.

Lemma wp_throw (X : Prop) W R (p : prog A) Q m tr e m' :
  wp X (fun _ => False) W R p Q m -> steps p m tr (Throw e) m' -> X /\ e ∈ tr.
Proof.
  intros Hwp Hs. destruct (wp_steps _ _ _ _ _ Hs _ _ _ _ _ Hwp) as [[Hx [He|He]] _]; [done|by split].
Qed.

(** Once user code has thrown, the exception does not get lost. *)
Fixpoint tainted (p : prog A) : Prop :=
  match p with
  | Throw _ | Undef => True
  | Bind p _ | Sync p _ => tainted p
  | Par p1 p2 _ => tainted p1 \/ tainted p2
  | _ => False
  end.

Lemma tainted_step (p : prog A) m o p' m' : step p m o p' m' -> (tainted p \/ o <> None) -> tainted p'.
Proof. induction 1; simpl in *; try naive_solver. Qed.

Lemma tainted_steps (p : prog A) m tr p' m' : steps p m tr p' m' -> (tainted p \/ tr <> []) -> tainted p'.
Proof.
  induction 1 as [|p m o p1 m1 tr p2 m2 Hs Hss IH]; [naive_solver|]. intros H. apply IH.
  destruct o as [e|]; [left; eapply tainted_step; [exact Hs|by right]|].
  destruct H as [H|H]; [left; eapply tainted_step; [exact Hs|by left]|by right].
Qed.

Lemma contents_length (m : mem) a b : length (contents m a b) = Z.to_nat (b - a).
Proof. unfold contents. by rewrite fmap_length, seqZ_length. Qed.

Lemma contents_lookup (m : mem) a b (i : nat) : Z.of_nat i < b - a -> contents m a b !! i = Some (m (a + Z.of_nat i)).
Proof.
  intros Hi. unfold contents. rewrite list_lookup_fmap.
  rewrite (proj2 (lookup_seqZ a (b - a) i (a + Z.of_nat i))); [done|lia].
Qed.

Lemma contents_ext (f : A -> A) (m m' : mem) a b out :
  (forall i, 0 <= i < b - a -> m' (out + i) = f (m (a + i))) -> contents m' out (out + (b - a)) = f <$> contents m a b.
Proof.
  intros H. apply list_eq. intros i. rewrite list_lookup_fmap. destruct (decide (Z.of_nat i < b - a)) as [Hi|Hi].
  - rewrite contents_lookup by lia. rewrite contents_lookup by lia. simpl. f_equal. apply H. lia.
  - rewrite !lookup_ge_None_2; [done|rewrite contents_length; lia|rewrite contents_length; lia].
Qed.

Lemma ssum_spec (bop : A -> A -> A) (proj : A -> A) (m : mem) a b :
  a < b -> fold_left_first bop (proj <$> contents m a b) = Some (ssum bop (fun l => proj (m l)) a b).
Proof.
  intros H. unfold contents, ssum. rewrite seqZ_cons by lia. replace (Z.pred (b - a)) with (b - a - 1) by lia.
  replace (Z.succ a) with (a + 1) by lia. rewrite fmap_cons. by rewrite fmap_cons, <- list_fmap_compose.
Qed.

Lemma apart_spec head tail out : head <= tail -> same_or_disjoint head tail out -> apart head tail out.
Proof.
  intros Hle [->|H]; [by left|]. destruct (decide (head = tail)) as [->|Hne]; [unfold apart; lia|].
  right. destruct (decide (out + (tail - head) <= head)); [by left|]. right.
  destruct (decide (tail <= out)); [done|]. exfalso.
  destruct (decide (out <= head)); [apply (H head); lia|apply (H out); lia].
Qed.
End Generic.

(** ** for_each *)

Section ForEach.
Context {A : Type} (thr : bool) (fn : A -> A) (fuel : nat) (head tail n : Z) (p : prog A) (m : Z -> A).
Context (Hn : 1 <= n) (Hrange : head <= tail) (Hfuel : tail - head < Z.of_nat fuel).
Context (Hp : for_each_call thr fn fuel head tail n p).

Lemma for_each_call_ok :
  wp True (fun _ => False) (rng head tail) nowhere p (fe_post fn m head tail) m.
Proof using Hn Hrange Hfuel Hp.
  destruct Hp as [->|[[_ ->]| ->]].
  - apply for_each_ok; [done|lia|lia|lia].
  - apply for_each1_ok; [done|lia|lia].
  - unfold for_each_range. rewrite decide_True by lia. case_decide.
    + simpl. apply for_each1_ok; [done|lia|lia].
    + simpl. apply for_each_ok; [done|lia|lia|lia].
Qed.

(** When for_each returns, [fn] has been applied exactly once to every element, and
    to nothing else. *)
Theorem C29_for_each_visits_each_once tr r m' :
  steps p m tr (Ret r) m' ->
  contents m' head tail = fn <$> contents m head tail /\ forall l, ~ (head <= l < tail) -> m' l = m l.
Proof using Hn Hrange Hfuel Hp.
  intros Hs. destruct (wp_result _ _ _ _ _ _ _ _ _ for_each_call_ok Hs) as [H1 H2]. split; [|done].
  pose proof (contents_ext fn m m' head tail head) as H. replace (head + (tail - head)) with tail in H by lia.
  apply H. intros i Hi. apply H1. lia.
Qed.

(** It accesses the elements of the range only, without races. *)
Theorem C33_for_each_no_race : safe p m (fun l => head <= l < tail) (fun _ => False).
Proof using Hn Hrange Hfuel Hp. exact (wp_safe _ _ _ _ _ _ _ for_each_call_ok). Qed.

Theorem C34_for_each_terminates : completes p m.
Proof using Hn Hrange Hfuel Hp. exact (wp_completes _ _ _ _ _ _ _ for_each_call_ok). Qed.

(** It throws if and only if some call of [fn] threw, and throws one of the
    exceptions thrown. *)
Theorem C45_for_each_exceptions tr p' m' :
  steps p m tr p' m' -> finished p' -> if decide (tr = []) then exists r, p' = Ret r else exists e, p' = Throw e /\ e ∈ tr.
Proof using Hn Hrange Hfuel Hp.
  intros Hs [[r ->]|[e ->]].
  - case_decide; [by eexists|]. by destruct (tainted_steps _ _ _ _ _ Hs); [right|..].
  - destruct (wp_throw _ _ _ _ _ _ _ _ _ for_each_call_ok Hs) as [_ He]. case_decide; [subst; set_solver|by eexists].
Qed.
End ForEach.

(** Counting: on a memory of visit counts. *)
Theorem C29_for_each_counts fuel head tail n p (m : Z -> nat) tr r m' :
  1 <= n -> head <= tail -> tail - head < Z.of_nat fuel -> for_each_call false S fuel head tail n p ->
  steps p m tr (Ret r) m' -> (forall l, m l = 0%nat) ->
  forall l, m' l = if decide (head <= l < tail) then 1%nat else 0%nat.
Proof.
  intros Hn Hr Hf Hp Hs Hm l.
  destruct (wp_result _ _ _ _ _ _ _ _ _ (for_each_call_ok _ _ _ _ _ _ _ m Hn Hr Hf Hp) Hs) as [H1 H2].
  case_decide; [rewrite (H1 l) by done; by rewrite Hm|by rewrite H2].
Qed.

(** ** map *)

Section Map.
Context {A : Type} (thr : bool) (fn : A -> A) (fuel : nat) (head tail out n : Z) (p : prog A) (m : Z -> A).
Context (Hn : 1 <= n) (Hrange : head <= tail) (Hfuel : tail - head < Z.of_nat fuel).
Context (Hout : same_or_disjoint head tail out).
Context (Hp : map_call thr fn fuel head tail out n p).

Lemma map_call_ok :
  wp True (fun _ => False) (rng out (out + (tail - head))) (rng head tail) p (map_post fn m head tail out) m.
Proof using Hn Hrange Hfuel Hout Hp.
  pose proof (apart_spec head tail out Hrange Hout) as Hap. destruct Hp as [->|[[_ ->]| ->]].
  - apply map_ok; [done|lia|lia|lia|done].
  - apply map1_ok; [done|lia|lia|done].
  - unfold map_range. rewrite decide_True by lia. case_decide.
    + simpl. apply map1_ok; [done|lia|lia|done].
    + simpl. apply map_ok; [done|lia|lia|lia|done].
Qed.

Theorem C30_map_result tr r m' :
  steps p m tr (Ret r) m' ->
  contents m' out (out + (tail - head)) = fn <$> contents m head tail /\
  forall l, ~ (out <= l < out + (tail - head)) -> m' l = m l.
Proof using Hn Hrange Hfuel Hout Hp.
  intros Hs. destruct (wp_result _ _ _ _ _ _ _ _ _ map_call_ok Hs) as [H1 H2]. split; [|done].
  by apply contents_ext.
Qed.

Theorem C33_map_no_race :
  safe p m (fun l => out <= l < out + (tail - head)) (fun l => head <= l < tail).
Proof using Hn Hrange Hfuel Hout Hp. exact (wp_safe _ _ _ _ _ _ _ map_call_ok). Qed.

Theorem C34_map_terminates : completes p m.
Proof using Hn Hrange Hfuel Hout Hp. exact (wp_completes _ _ _ _ _ _ _ map_call_ok). Qed.

Theorem C45_map_exceptions tr p' m' :
  steps p m tr p' m' -> finished p' -> if decide (tr = []) then exists r, p' = Ret r else exists e, p' = Throw e /\ e ∈ tr.
Proof using Hn Hrange Hfuel Hout Hp.
  intros Hs [[r ->]|[e ->]].
  - case_decide; [by eexists|]. by destruct (tainted_steps _ _ _ _ _ Hs); [right|..].
  - destruct (wp_throw _ _ _ _ _ _ _ _ _ map_call_ok Hs) as [_ He]. case_decide; [subst; set_solver|by eexists].
Qed.
End Map.

(** ** fold *)

Section Fold.
Context {A : Type} (thr async : bool) (bop : A -> A -> A) (proj : A -> A) (fuel : nat) (head tail n : Z) (p : prog A) (m : Z -> A).
Context (Hn : 1 <= n) (Hrange : head <= tail) (Hfuel : tail - head < Z.of_nat fuel).
Context (Hassoc : associative bop) (Hasync : async = true -> thr = false).
Context (Hp : fold_call thr async bop proj fuel head tail n p).

Lemma fold_call_ok :
  wp True (fun _ => False) nowhere (rng head tail) p
     (fun r _ => r = match fold_left_first bop (proj <$> contents m head tail) with None => RUnit | Some v => RAcc v end) m.
Proof using Hn Hrange Hfuel Hassoc Hasync Hp.
  rewrite Hp. unfold fold_overload. case_decide as H0.
  { simpl. subst tail. unfold contents. by rewrite Z.sub_diag. }
  rewrite ssum_spec by lia. case_decide as H1; simpl.
  - apply fold1_ok; [done|done|lia|lia].
  - apply fold_ok; [done|done|done|lia|lia|lia].
Qed.

(** nullopt for an empty range, otherwise the sequential left fold. *)
Theorem C31_fold_result tr r m' :
  steps p m tr (Ret r) m' ->
  r = match fold_left_first bop (proj <$> contents m head tail) with None => RUnit | Some v => RAcc v end /\
  forall l, m' l = m l.
Proof using Hn Hrange Hfuel Hassoc Hasync Hp.
  intros Hs. destruct (wp_result _ _ _ _ _ _ _ _ _ fold_call_ok Hs) as [H1 H2]. split; [done|]. intros l. apply H2. unfold nowhere. tauto.
Qed.

Theorem C33_fold_no_race : safe p m (fun _ => False) (fun l => head <= l < tail).
Proof using Hn Hrange Hfuel Hassoc Hasync Hp. exact (wp_safe _ _ _ _ _ _ _ fold_call_ok). Qed.

Theorem C34_fold_terminates : completes p m.
Proof using Hn Hrange Hfuel Hassoc Hasync Hp. exact (wp_completes _ _ _ _ _ _ _ fold_call_ok). Qed.

(** For a synchronous operation. *)
Theorem C45_fold_exceptions tr p' m' :
  steps p m tr p' m' -> finished p' -> if decide (tr = []) then exists r, p' = Ret r else exists e, p' = Throw e /\ e ∈ tr.
Proof using Hn Hrange Hfuel Hassoc Hasync Hp.
  intros Hs [[r ->]|[e ->]].
  - case_decide; [by eexists|]. by destruct (tainted_steps _ _ _ _ _ Hs); [right|..].
  - destruct (wp_throw _ _ _ _ _ _ _ _ _ fold_call_ok Hs) as [_ He]. case_decide; [subst; set_solver|by eexists].
Qed.
End Fold.

(** ** scan *)

Section Scan.
Context {A : Type} (async : bool) (bop : A -> A -> A) (proj : A -> A) (fuel : nat) (head tail out n : Z) (p : prog A) (m : Z -> A).
Context (Hn : 1 <= n) (Hrange : head <= tail) (Hfuel : tail - head < Z.of_nat fuel).
Context (Hassoc : associative bop) (Hout : same_or_disjoint head tail out).
Context (Hp : scan_call async bop proj fuel head tail out n p).

Lemma scan_call_ok :
  wp False (fun _ => False) (rng out (out + (tail - head))) (rng head tail) p
     (fun _ m' => scanned bop proj head out m m' 0 (tail - head)) m.
Proof using Hn Hrange Hfuel Hassoc Hout Hp.
  rewrite Hp. pose proof (apart_spec head tail out Hrange Hout) as Hap.
  pose proof (scan_ok (fun _ => False) async bop proj Hassoc head out (tail - head) n m Hn) as H.
  replace (head + (tail - head)) with tail in H by lia. apply H; [unfold apart in Hap; lia|lia|lia|done].
Qed.

Theorem C32_scan_result tr r m' :
  steps p m tr (Ret r) m' ->
  Some <$> contents m' out (out + (tail - head)) = inclusive_scan bop (proj <$> contents m head tail) /\
  forall l, ~ (out <= l < out + (tail - head)) -> m' l = m l.
Proof using Hn Hrange Hfuel Hassoc Hout Hp.
  intros Hs. destruct (wp_result _ _ _ _ _ _ _ _ _ scan_call_ok Hs) as [H1 H2]. split; [|done].
  apply list_eq. intros i. unfold inclusive_scan. rewrite !list_lookup_fmap, fmap_length, contents_length.
  destruct (decide (Z.of_nat i < tail - head)) as [Hi|Hi].
  - rewrite contents_lookup by lia. rewrite lookup_seq_lt by lia. simpl. f_equal.
    rewrite <- fmap_take.
    assert (firstn (S i) (contents m head tail) = contents m head (head + Z.of_nat i + 1)) as ->.
    { apply list_eq. intros j. destruct (decide (j < S i)%nat).
      - rewrite lookup_take by lia. rewrite !contents_lookup by lia. done.
      - rewrite lookup_take_ge by lia. rewrite lookup_ge_None_2; [done|]. rewrite contents_length. lia. }
    rewrite ssum_spec by lia. f_equal. rewrite (H1 (Z.of_nat i)) by lia.
    unfold ssum. rewrite Z.add_0_r. replace (Z.of_nat i + 1 - 0 - 1) with (Z.of_nat i) by lia.
    replace (head + Z.of_nat i + 1 - head - 1) with (Z.of_nat i) by lia. f_equal.
    apply list_eq. intros j. rewrite !list_lookup_fmap. destruct (decide (Z.of_nat j < Z.of_nat i)).
    + rewrite (proj2 (lookup_seqZ (0 + 1) (Z.of_nat i) j (0 + 1 + Z.of_nat j))) by lia.
      rewrite (proj2 (lookup_seqZ (head + 1) (Z.of_nat i) j (head + 1 + Z.of_nat j))) by lia.
      simpl. do 3 f_equal. lia.
    + rewrite !lookup_ge_None_2; [done|rewrite seqZ_length; lia|rewrite seqZ_length; lia].
  - rewrite !lookup_ge_None_2; [done|rewrite seq_length; lia|rewrite contents_length; lia].
Qed.

Theorem C33_scan_no_race :
  safe p m (fun l => out <= l < out + (tail - head)) (fun l => head <= l < tail).
Proof using Hn Hrange Hfuel Hassoc Hout Hp. exact (wp_safe _ _ _ _ _ _ _ scan_call_ok). Qed.

Theorem C34_scan_terminates : completes p m.
Proof using Hn Hrange Hfuel Hassoc Hout Hp. exact (wp_completes _ _ _ _ _ _ _ scan_call_ok). Qed.

(** If user code does not throw, neither does scan. *)
Theorem C45_scan_returns tr e m' : ~ steps p m tr (Throw e) m'.
Proof using Hn Hrange Hfuel Hassoc Hout Hp. intros Hs. by destruct (wp_throw _ _ _ _ _ _ _ _ _ scan_call_ok Hs). Qed.
End Scan.

(** ** Where the properties fail *)

(** With a chunk size n <= 0, scan of any non-empty range can reach undefined
    behaviour: there is no check of n, and a chunk of one element is split again
    (scan.hpp:199, 257). *)
Section BadChunk.
Context {A : Type} (thr async : bool) (bop : A -> A -> A) (proj : A -> A).

Lemma steps_par_l (p1 : prog A) m tr p1' m' p2 k : steps p1 m tr p1' m' -> steps (Par p1 p2 k) m tr (Par p1' p2 k) m'.
Proof. induction 1; [constructor|]. econstructor; [by apply step_par_l|done]. Qed.
Lemma steps_bind (p : prog A) m tr p' m' s : steps p m tr p' m' -> steps (Bind p s) m tr (Bind p' s) m'.
Proof. induction 1; [constructor|]. econstructor; [by apply step_bind|done]. Qed.

Lemma rise_bad_chunk fuel : forall iv beg end_ n out m, n <= 0 -> beg < end_ -> end_ - beg + 1 < Z.of_nat fuel ->
  exists p', steps (rise thr async bop proj fuel iv OpScan beg end_ n out) m [] p' m /\ undefined p'.
Proof.
  induction fuel as [|fuel IH]; intros iv beg end_ n out m Hn Hr Hf; [lia|]. cbn [rise].
  rewrite decide_True by lia. rewrite decide_False by lia.
  destruct (decide (end_ - beg = 1)) as [H1|H1].
  - eexists. split.
    + eapply (steps_cons _ _ None); [apply step_fork_async|apply steps_refl].
    + simpl. left. destruct fuel as [|fuel]; [lia|]. cbn [rise]. replace ((end_ - beg) ÷ 2) with 0 by (by rewrite H1).
      by rewrite decide_False by lia.
  - pose proof (half (end_ - beg) ltac:(lia)) as Hh.
    destruct (IH (l_child_of iv) beg (beg + (end_ - beg) ÷ 2) n out m) as (p' & Hs & Hu); [lia|lia|lia|].
    eexists. split.
    + eapply (steps_cons _ _ None); [apply step_fork_async|]. apply steps_par_l. exact Hs.
    + simpl. by left.
Qed.

Theorem C34_scan_chunk_size_refuted fuel head tail out n m :
  n <= 0 -> head < tail -> tail - head + 1 < Z.of_nat fuel ->
  exists tr p' m', steps (scan thr async bop proj fuel head tail out n) m tr p' m' /\ undefined p'.
Proof.
  intros Hn Hr Hf. unfold scan. rewrite decide_False by lia.
  destruct (rise_bad_chunk fuel IAll head tail n out m Hn Hr Hf) as (p' & Hs & Hu).
  eexists _, _, _. split; [apply steps_bind; exact Hs|done].
Qed.

(** for_each, map and fold check n, but only with an assertion. *)
Theorem C34_for_each_map_chunk_size_refuted fn fuel head tail out n :
  n <= 0 -> for_each thr fn (S fuel) head tail n = (Undef : prog A) /\ map thr fn (S fuel) head tail out n = (Undef : prog A).
Proof. intros Hn. simpl. rewrite !decide_False by lia. done. Qed.

Theorem C34_fold_chunk_size_refuted fuel head tail n m :
  n <= 0 -> head < tail ->
  undefined (fold_overload thr async bop proj (S fuel) head tail n) /\
  exists p', steps (fold_overload thr async bop proj (S fuel) head tail n) m [] p' m /\ undefined p'.
Proof.
  intros Hn Hr. unfold fold_overload. rewrite decide_False by lia. rewrite decide_False by lia.
  assert (undefined (Bind (fold thr async bop proj (S fuel) head tail n) Ret)) as H.
  { simpl. by rewrite decide_False by lia. }
  split; [done|]. eexists. split; [apply steps_refl|done].
Qed.

End BadChunk.

(** A user function that throws in a scan, when the fork completes synchronously, is
    undefined behaviour: the exception is not seen, and the iterator that the child
    did not return is read (scan.hpp:265, 274; awaitables.hpp:309-324). *)
Theorem C45_scan_exception_refuted :
  exists tr p' m', steps (scan true false Nat.add id 5 0 2 0 1) (fun _ => 1%nat) tr p' m' /\ undefined p'.
Proof.
  exists [7%nat]. eexists _, _. split.
  - unfold scan. rewrite decide_False by lia. cbn [rise].
    eapply (steps_cons _ _ None). { apply step_bind. apply step_fork_sync. }
    eapply (steps_cons _ _ None). { apply step_bind. apply step_sync. apply step_read. }
    eapply (steps_cons _ _ (Some 7%nat)). { apply step_bind. apply step_sync. apply step_user_throw. }
    eapply (steps_cons _ _ None). { apply step_bind. apply step_sync_throw. }
    apply steps_refl.
  - done.
Qed.

(** An asynchronous operation that throws in the sequential part of a fold is
    undefined behaviour too (fold.hpp:70, promise.hpp:217, 306). *)
Theorem C45_fold_async_exception_refuted :
  exists tr p' m', steps (fold_overload true true Nat.add id 5 0 2 2) (fun _ => 1%nat) tr p' m' /\ undefined p'.
Proof.
  exists [7%nat]. eexists _, _. split.
  - unfold fold_overload. rewrite decide_False by lia. rewrite decide_False by lia. cbn [fold].
    eapply (steps_cons _ _ None). { apply step_bind. apply step_read. }
    eapply (steps_cons _ _ None). { apply step_bind. apply step_user. }
    eapply (steps_cons _ _ None). { apply step_bind. apply step_read. }
    eapply (steps_cons _ _ None). { apply step_bind. apply step_user. }
    eapply (steps_cons _ _ (Some 7%nat)). { apply step_bind. apply step_usera_throw. }
    apply steps_refl.
  - done.
Qed.

(** ** Executions *)

(** One schedule: parallel tasks from the left, forks synchronous if [sy]. *)
Section Run.
Context {A : Type} (sy : bool).

Fixpoint step_left (p : prog A) (m : Z -> A) : option (prog A * (Z -> A)) :=
  match p with
  | Read l k => Some (k (m l), m)
  | Write l v k => Some (k, upd l v m)
  | User _ k | UserA _ k => Some (k, m)
  | Bind (Ret r) s => Some (s r, m)
  | Bind p s => match step_left p m with Some (p', m') => Some (Bind p' s, m') | None => None end
  | Sync (Ret r) s => Some (s r, m)
  | Sync p s => match step_left p m with Some (p', m') => Some (Sync p' s, m') | None => None end
  | Par (Ret r1) (Ret r2) k => Some (k r1 r2, m)
  | Par (Ret r1) p2 k => match step_left p2 m with Some (p', m') => Some (Par (Ret r1) p' k, m') | None => None end
  | Par p1 p2 k => match step_left p1 m with Some (p', m') => Some (Par p' p2 k, m') | None => None end
  | Fork p1 s p2 k => Some (if sy then Sync p1 s else Par p1 p2 k, m)
  | _ => None
  end.

Lemma step_left_ok p : forall m p' m', step_left p m = Some (p', m') -> step p m None p' m'.
Proof.
  induction p as [r|e| | |l k IH|l v k IH|t k IH|t k IH|p IHp s IHs|p1 IH1 p2 IH2 k IHk|p1 IH1 s IHs p2 IH2 k IHk|p IHp s IHs];
    intros m p' m' H; simpl in H; try discriminate.
  - injection H as <- <-. apply step_read.
  - injection H as <- <-. apply step_write.
  - injection H as <- <-. apply step_user.
  - injection H as <- <-. apply step_usera.
  - destruct p; try (injection H as <- <-; apply step_bind_ret);
      (destruct (step_left _ m) as [[q mq]|] eqn:Hq; [|done]); injection H as <- <-; apply step_bind; by apply IHp.
  - destruct p1; try ((destruct (step_left _ m) as [[q mq]|] eqn:Hq; [|done]); injection H as <- <-; apply step_par_l; by apply IH1).
    destruct p2; try (injection H as <- <-; apply step_join);
      (destruct (step_left _ m) as [[q mq]|] eqn:Hq; [|done]); injection H as <- <-; apply step_par_r; by apply IH2.
  - injection H as <- <-. destruct sy; [apply step_fork_sync|apply step_fork_async].
  - destruct p; try (injection H as <- <-; apply step_sync_ret);
      (destruct (step_left _ m) as [[q mq]|] eqn:Hq; [|done]); injection H as <- <-; apply step_sync; by apply IHp.
Qed.

Fixpoint run (k : nat) (p : prog A) (m : Z -> A) : prog A * (Z -> A) :=
  match k with
  | O => (p, m)
  | S k => match step_left p m with Some (p', m') => run k p' m' | None => (p, m) end
  end.

Lemma run_ok k : forall p m, steps p m [] (run k p m).1 (run k p m).2.
Proof.
  induction k as [|k IH]; intros p m; simpl; [constructor|]. destruct (step_left p m) as [[p' m']|] eqn:H; [|constructor].
  apply (steps_cons _ _ None p' m'); [by apply step_left_ok|apply IH].
Qed.
End Run.

(** Strings under concatenation: associative, not commutative. *)
Definition word (l : Z) : list nat := [Z.to_nat l].

Lemma app_associative : associative (@app nat).
Proof. intros a b c. apply app_assoc. Qed.

Definition ret_of {A} (p : prog A) : option (res A) := match p with Ret r => Some r | _ => None end.

Lemma ret_of_steps {A} sy k (p : prog A) m r : ret_of (run sy k p m).1 = Some r -> steps p m [] (Ret r) (run sy k p m).2.
Proof. intros H. pose proof (run_ok sy k p m) as Hs. destruct ((run sy k p m).1); try done. by injection H as ->. Qed.

(** scan of 0, 1, 2, 3, 4 in place, chunk size 1 and 2, forks synchronous or not. *)
Example C32_scan_runs : forall sy async, exists m',
  steps (scan false async (@app nat) id 6 0 5 0 1) word [] (Ret RUnit) m' /\
  contents m' 0 5 = [[0]; [0; 1]; [0; 1; 2]; [0; 1; 2; 3]; [0; 1; 2; 3; 4]]%nat /\
  steps (scan false async (@app nat) id 6 0 5 10 2) word [] (Ret RUnit) (run sy 500 (scan false async (@app nat) id 6 0 5 10 2) word).2.
Proof.
  intros sy async. exists (run sy 500 (scan false async (@app nat) id 6 0 5 0 1) word).2. split_and!.
  - apply ret_of_steps. destruct sy, async; vm_compute; reflexivity.
  - destruct sy, async; vm_compute; reflexivity.
  - apply ret_of_steps. destruct sy, async; vm_compute; reflexivity.
Qed.

Example C32_hypotheses_met : scan_call true (@app nat) id 6 0 5 10 2 (scan false true (@app nat) id 6 0 5 10 2) /\
  associative (@app nat) /\ same_or_disjoint 0 5 10 /\ same_or_disjoint 0 5 0.
Proof. split_and!; [done|exact app_associative|right; lia|by left]. Qed.

Example C31_fold_runs : exists m',
  steps (fold_overload false true (@app nat) id 6 0 5 2) word [] (Ret (RAcc [0; 1; 2; 3; 4]%nat)) m'.
Proof. eexists. apply (ret_of_steps true 500). vm_compute. reflexivity. Qed.

Example C31_fold_empty : fold_left_first (@app nat) (id <$> contents word 3 3) = None.
Proof. reflexivity. Qed.

Example C29_for_each_runs : exists m',
  steps (for_each false S 8 0 7 2) (fun _ => 0%nat) [] (Ret RUnit) m' /\ contents m' (-1) 8 = [0; 1; 1; 1; 1; 1; 1; 1; 0]%nat.
Proof.
  exists (run true 500 (for_each false S 8 0 7 2) (fun _ => 0%nat)).2. split.
  - apply ret_of_steps. vm_compute. reflexivity.
  - vm_compute. reflexivity.
Qed.

Example C30_map_runs : exists m',
  steps (map_range false (fun x => x ++ x) 8 0 4 0 1) word [] (Ret RUnit) m' /\
  contents m' 0 4 = [[0; 0]; [1; 1]; [2; 2]; [3; 3]]%nat.
Proof.
  exists (run true 500 (map_range false (fun x => x ++ x) 8 0 4 0 1) word).2. split.
  - apply ret_of_steps. vm_compute. reflexivity.
  - vm_compute. reflexivity.
Qed.

(** Overlapping ranges: the hypothesis of C30 and C33 is needed. *)
Example C33_overlap_races :
  exists tr p' m', steps (map1 false S 4 0 2 1) (fun _ => 0%nat) tr p' m' /\ race p'.
Proof.
  exists []. eexists (Par (Write 1 1%nat (Ret RUnit)) (Read 1 _) _), _. split.
  - cbn [map1]. change (0 + (2 - 0) ÷ 2) with 1.
    eapply (steps_cons _ _ None). { apply step_par_l. apply step_read. }
    eapply (steps_cons _ _ None). { apply step_par_l. apply step_user. }
    apply steps_refl.
  - simpl. right; right. exists 1, true, false. split_and!; [set_solver|set_solver|by left].
Qed.

Print Assumptions C29_for_each_visits_each_once.
Print Assumptions C29_for_each_counts.
Print Assumptions C30_map_result.
Print Assumptions C31_fold_result.
Print Assumptions C32_scan_result.
Print Assumptions C33_for_each_no_race.
Print Assumptions C33_map_no_race.
Print Assumptions C33_fold_no_race.
Print Assumptions C33_scan_no_race.
Print Assumptions C34_for_each_terminates.
Print Assumptions C34_map_terminates.
Print Assumptions C34_fold_terminates.
Print Assumptions C34_scan_terminates.
Print Assumptions C34_scan_chunk_size_refuted.
Print Assumptions C34_for_each_map_chunk_size_refuted.
Print Assumptions C34_fold_chunk_size_refuted.
Print Assumptions C45_for_each_exceptions.
Print Assumptions C45_map_exceptions.
Print Assumptions C45_fold_exceptions.
Print Assumptions C45_scan_returns.
Print Assumptions C45_scan_exception_refuted.
Print Assumptions C45_fold_async_exception_refuted.
