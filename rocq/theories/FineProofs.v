(** Proofs about FineModel: the runtime's steps do not depend on how its deques are held. *)

From stdpp Require Import prelude gmap list.
From Coq Require Import NArith.
From Verif Require Import RuntimeModel RuntimeSpec RuntimeInv RuntimeSafe RuntimeHist3 FineModel.
Local Open Scope N_scope.

(** The state [r] with the deques [Q]. *)
Definition with_deques (Q : nat -> list N) (r : state) : state :=
  mkState (s_frames r) (imap (fun i w => set_deque (Q i) w) (s_workers r)) (s_stacks r) (s_nextf r) (s_nexts r) (s_res r) (s_sem r).

Definition res_map (f : state -> state) (x : res) : res :=
  match x with Next s tr => Next (f s) tr | Blocked => Blocked | Undef => Undef end.

Lemma wd_lookup Q r i : s_workers (with_deques Q r) !! i = set_deque (Q i) <$> s_workers r !! i.
Proof. cbn. by rewrite list_lookup_imap. Qed.

Lemma imap_insert_at {A B} (f : nat -> A -> B) (l : list A) i x : imap f (<[i := x]> l) = <[i := f i x]> (imap f l).
Proof.
  apply list_eq. intros j. rewrite list_lookup_imap. destruct (decide (j = i)) as [->|Hne].
  - destruct (decide (i < length l)%nat) as [Hl|Hl].
    + rewrite !list_lookup_insert; [done|by rewrite imap_length|done].
    + rewrite !(lookup_ge_None_2); [done| |]; rewrite ?insert_length, ?imap_length; lia.
  - rewrite !list_lookup_insert_ne by done. by rewrite list_lookup_imap.
Qed.

Lemma wd_put_worker Q i w s : with_deques Q (put_worker i w s) = put_worker i (set_deque (Q i) w) (with_deques Q s).
Proof. unfold with_deques, put_worker. cbn. by rewrite imap_insert_at. Qed.
Lemma wd_put_frame Q f fr s : with_deques Q (put_frame f fr s) = put_frame f fr (with_deques Q s).
Proof. done. Qed.

Lemma wd_twice Q Q' r : with_deques Q (with_deques Q' r) = with_deques Q r.
Proof.
  unfold with_deques. cbn. f_equal. apply list_eq. intros j. rewrite !list_lookup_imap.
  destruct (s_workers r !! j); done.
Qed.
Lemma wd_show Q i l r : with_deques Q (show i l r) = with_deques Q r.
Proof.
  unfold with_deques, show. cbn. f_equal. apply list_eq. intros j. rewrite !list_lookup_imap.
  destruct (decide (i = j)) as [<-|Hne].
  - rewrite list_lookup_alter. by destruct (s_workers r !! i).
  - by rewrite list_lookup_alter_ne.
Qed.
Lemma wd_hide Q r : with_deques Q (hide r) = with_deques Q r.
Proof.
  unfold with_deques, hide. cbn. f_equal. apply list_eq. intros j. rewrite !list_lookup_imap, list_lookup_fmap.
  by destruct (s_workers r !! j).
Qed.
Lemma wd_ext Q Q' r : (forall i, (i < length (s_workers r))%nat -> Q i = Q' i) -> with_deques Q r = with_deques Q' r.
Proof.
  intros H. unfold with_deques. f_equal. apply list_eq. intros j. rewrite !list_lookup_imap.
  destruct (s_workers r !! j) eqn:E; [|done]. cbn. rewrite H; [done|]. by eapply lookup_lt_Some.
Qed.

(** ** Steps that do not operate on the deque *)

Section plain.
Context (Q : nat -> list N) (i : nat).
Notation W := (with_deques Q).
Notation S w := (set_deque (Q i) w).

Definition agree (w : worker) : Prop := Q i = [] <-> w_deque w = [].

Lemma to_idle_c w s tr : agree w -> to_idle i (S w) (W s) tr = res_map W (to_idle i w s tr).
Proof.
  intros A. unfold to_idle. cbn [set_deque w_deque w_stk]. replace (stk (W s)) with (stk s) by done.
  destruct (w_deque w) eqn:E.
  - destruct A as (_ & A). specialize (A E). rewrite A. case_match; [|done]. cbn [res_map]. by rewrite wd_put_worker, A.
  - destruct (Q i) eqn:E2; [|done]. destruct A as (A & _). by rewrite A in E.
Qed.

Lemma join_resume_c w f fr k s tr : join_resume i (S w) f fr k (W s) tr = res_map W (join_resume i w f fr k s tr).
Proof.
  unfold join_resume. case_decide; [|done].
  replace (same_stacklet (W s) f fr (S w)) with (same_stacklet s f fr w) by done.
  repeat case_match; try done. cbn [res_map]. by rewrite wd_put_worker.
Qed.

Lemma take_stack_c w f fr k s tr :
  take_stack_join_resume i (S w) f fr k (W s) tr = res_map W (take_stack_join_resume i w f fr k s tr).
Proof.
  unfold take_stack_join_resume. case_decide; [done|].
  replace (stk (W s) (w_stk (S w))) with (stk s (w_stk w)) by done.
  case_match; [|done].
  rewrite <- join_resume_c. by rewrite wd_put_worker.
Qed.

Lemma call_resume_c seen w f fr m st k s tr :
  call_resume seen i (S w) f fr m st k (W s) tr = res_map W (call_resume seen i w f fr m st k s tr).
Proof. unfold call_resume. repeat case_match; try done; cbn [res_map]; by rewrite wd_put_worker. Qed.

Lemma fork_resume_c seen w f fr m st k pre s :
  fork_resume seen i (S w) f fr m st k pre (W s) = res_map W (fork_resume seen i w f fr m st k pre s).
Proof. unfold fork_resume. repeat case_match; done. Qed.

Lemma destroy_c w f fr s : destroy (S w) f fr (W s) = W <$> destroy w f fr s.
Proof.
  unfold destroy. cbn [set_deque w_stk].
  replace (stk (W s)) with (stk s) by done. repeat case_match; done.
Qed.

Lemma deliver_c f fr o s : deliver f fr o (W s) = res_map W (deliver f fr o s).
Proof. unfold deliver. cbn [with_deques s_frames]. repeat case_match; done. Qed.
Lemma capture_c f fr e s : capture f fr e (W s) = res_map W (capture f fr e s).
Proof. unfold capture. cbn [with_deques s_frames]. repeat case_match; done. Qed.

Lemma finish_c seen w f fr s : finish seen i (S w) f fr (W s) = res_map W (finish seen i w f fr s).
Proof.
  unfold finish. case_decide; [|done]. destruct (f_kind fr); [done|..]; rewrite destroy_c.
  - destruct (destroy w f fr s) as [s'|]; [|done]. cbn [fmap option_fmap option_map].
    replace (s_frames (W s') !! p) with (s_frames s' !! p) by done.
    repeat case_match; try done. by rewrite call_resume_c.
  - destruct (destroy w f fr s) as [s'|]; [|done]. cbn [fmap option_fmap option_map res_map].
    by rewrite wd_put_worker.
Qed.

Lemma root_destroy_c w f fr s : agree w -> root_destroy i (S w) f fr (W s) = res_map W (root_destroy i w f fr s).
Proof.
  intros A. unfold root_destroy. rewrite destroy_c. destruct (destroy w f fr s) as [s'|]; [|done].
  cbn [fmap option_fmap option_map]. by apply to_idle_c.
Qed.

Definition is_fork (t : task) : Prop := match t with Fork _ _ _ _ => True | _ => False end.

Lemma run_task_c fail w f fr t s :
  s_workers s !! i = Some w -> ~ is_fork t \/ fail = true ->
  run_task i fail (S w) f fr t (W s) = res_map W (run_task i fail w f fr t s).
Proof.
  intros Hi Hf. destruct t as [v|e|m st c k|m st c k|k|skip d k|e k|k]; cbn [run_task].
  - apply deliver_c.
  - apply deliver_c.
  - destruct Hf as [Hf| ->]; [by destruct Hf|done].
  - destruct fail; [done|]. cbn [res_map]. by rewrite wd_put_worker.
  - repeat case_decide; [apply join_resume_c|apply take_stack_c|]. cbn [res_map]. by rewrite wd_put_worker.
  - case_match; [done|].
    replace (same_stacklet (W s) f fr (S w)) with (same_stacklet s f fr w) by done.
    rewrite wd_lookup. destruct (same_stacklet s f fr w) as [same|]; [|done].
    destruct (s_workers s !! d) as [wd|] eqn:Hd; [|done]. cbn [fmap option_fmap option_map].
    destruct (decide (same = bool_decide (f_steals fr = 0))); [|done].
    assert (Hc : forall p, put_worker i (set_pc p (S w)) (put_frame f (set_rp (RSwitched d k) fr) (W s))
       = W (put_worker i (set_pc p w) (put_frame f (set_rp (RSwitched d k) fr) s))) by (intros; by rewrite wd_put_worker).
    rewrite Hc, wd_lookup.
    destruct (s_workers (put_worker i (set_pc (PSwRel same) w) (put_frame f (set_rp (RSwitched d k) fr) s)) !! d) as [wd'|] eqn:E; [|done].
    cbn [fmap option_fmap option_map res_map]. by rewrite !wd_put_worker.
  - done.
  - done.
Qed.

Lemma join_suspend_c w f fr s : join_suspend i (S w) f fr (W s) = res_map W (join_suspend i w f fr s).
Proof.
  unfold join_suspend. repeat case_match; try done; [apply take_stack_c|]. cbn [res_map]. by rewrite wd_put_worker.
Qed.

Lemma final_sub_c w p s : agree w -> final_sub i (S w) p (W s) = res_map W (final_sub i w p s).
Proof.
  intros A. unfold final_sub. replace (s_frames (W s) !! p) with (s_frames s !! p) by done.
  destruct (s_frames s !! p) as [frp|]; [|done].
  replace (same_stacklet (W s) p frp (S w)) with (same_stacklet s p frp w) by done.
  destruct (same_stacklet s p frp w) as [same|]; [|done].
  replace (stk (W s) (w_stk (S w))) with (stk s (w_stk w)) by done.
  case_decide.
  - destruct (f_rp frp); try done. destruct (if same then [] else stk s (w_stk w)); [|done].
    rewrite <- join_resume_c. by rewrite wd_put_worker.
  - destruct same.
    + cbn [res_map]. by rewrite wd_put_worker.
    + rewrite <- wd_put_frame. by apply to_idle_c.
Qed.

(** A step of worker [i] that neither pushes nor pops. *)
Lemma wstep_plain fail r w :
  s_workers r !! i = Some w -> agree w -> next_op i r = NoOp \/ (fail = true /\ exists f, next_op i r = DoPush f) ->
  wstep i fail (W r) = res_map W (wstep i fail r).
Proof.
  intros Hi A Hop. unfold wstep. rewrite wd_lookup, Hi. cbn [fmap option_fmap option_map].
  unfold next_op in Hop. rewrite Hi in Hop. cbn [set_deque w_pc w_batch w_stk w_inbox w_deque].
  destruct (w_pc w) eqn:Hpc.
  - destruct (w_batch w); [done|]. unfold resume_submitted. cbn [set_deque w_deque w_stk].
    replace (stk (W r)) with (stk r) by done. replace (s_frames (W r)) with (s_frames r) by done.
    destruct (s_frames r !! n); [|done]. destruct A as (A1 & A2). destruct (w_deque w) eqn:E.
    + rewrite (A2 eq_refl). case_match; [|done]. cbn [res_map]. rewrite wd_put_worker, (A2 eq_refl). by case_decide.
    + destruct (Q i) eqn:EQ; [by specialize (A1 eq_refl)|done].
  - unfold resume_stolen. cbn [set_deque w_deque w_stk].
    replace (stk (W r)) with (stk r) by done. replace (s_frames (W r)) with (s_frames r) by done.
    destruct (s_frames r !! f); [|done]. destruct A as (A1 & A2). destruct (w_deque w) eqn:E.
    + rewrite (A2 eq_refl). case_match; [|done]. cbn [res_map]. by rewrite wd_put_worker, (A2 eq_refl).
    + destruct (Q i) eqn:EQ; [by specialize (A1 eq_refl)|done].
  - replace (s_frames (W r)) with (s_frames r) by done. destruct (s_frames r !! f) as [fr|]; [|done].
    destruct (f_rp fr) eqn:Hrp; try done.
    + apply run_task_c; [done|]. destruct t; cbn; try (by left; intros []).
      destruct Hop as [|(-> & _)]; [done|by right].
    + apply fork_resume_c.
    + apply capture_c.
    + apply finish_c.
    + by apply root_destroy_c.
  - destruct Hop as [|(_ & ? & ?)]; done.
  - by apply final_sub_c.
  - cbn zeta. change (mkWorker _ _ _ _ _) with (S (set_wstk (s_nexts r) w)).
    rewrite <- to_idle_c; [by rewrite wd_put_worker|]. exact A.
  - replace (s_frames (W r)) with (s_frames r) by done. destruct (s_frames r !! f); [|done]. apply join_suspend_c.
  - destruct b; cbn zeta.
    + replace (stk (bump_s (W r))) with (stk (bump_s r)) by done. cbn [set_wstk w_stk]. replace (s_nexts (W r)) with (s_nexts r) by done.
      case_match; [|done]. cbn [res_map]. by rewrite wd_put_worker.
    + replace (stk (W r)) with (stk r) by done. cbn [set_deque w_stk].
      case_match; [|done]. cbn [res_map]. by rewrite wd_put_worker.
  - destruct Hop as [|(_ & ? & ?)]; done.
Qed.
End plain.

(** ** Pop, push, and the steps of others *)

Definition rest (Q : nat -> list N) (i : nat) : nat -> list N := set_at i (tail (Q i)) Q.

Lemma set_at_eq {A} i (x : A) f : set_at i x f i = x.
Proof. unfold set_at. by rewrite decide_True. Qed.
Lemma set_at_ne {A} i j (x : A) f : j <> i -> set_at i x f j = f j.
Proof. intros. unfold set_at. by rewrite decide_False. Qed.

Lemma wd_upd Q i x w s : with_deques (set_at i x Q) (put_worker i w s) = put_worker i (set_deque x w) (with_deques Q s).
Proof.
  rewrite wd_put_worker, set_at_eq. unfold put_worker, with_deques. cbn. f_equal.
  apply list_eq. intros j. destruct (decide (j = i)) as [->|Hne].
  - destruct (decide (i < length (s_workers s))%nat) as [Hl|Hl].
    + rewrite !list_lookup_insert; [done|by rewrite imap_length|by rewrite imap_length].
    + rewrite !(lookup_ge_None_2); [done| |]; rewrite ?insert_length, ?imap_length; lia.
  - rewrite !list_lookup_insert_ne by done. rewrite !list_lookup_imap.
    destruct (s_workers s !! j); [|done]. cbn. by rewrite set_at_ne.
Qed.

Lemma set_deque_id (w : worker) : set_deque (w_deque w) w = w.
Proof. by destruct w. Qed.

(** A pop of worker [i] that returns the newest item, or finds nothing. *)
Lemma wstep_pop Q i fail r w :
  s_workers r !! i = Some w -> next_op i r = DoPop -> w_deque w = firstn 1 (Q i) ->
  wstep i fail (with_deques Q r) = res_map (with_deques (rest Q i)) (wstep i fail r).
Proof.
  intros Hi Hop Hd. unfold wstep. rewrite wd_lookup, Hi. cbn [fmap option_fmap option_map].
  unfold next_op in Hop. rewrite Hi in Hop. cbn [set_deque w_pc w_batch w_stk w_inbox w_deque].
  assert (Hsame : Q i = [] -> forall x, with_deques (rest Q i) x = with_deques Q x).
  { intros E x. apply wd_ext. intros j _. unfold rest. destruct (decide (j = i)) as [->|Hne].
    - by rewrite set_at_eq, E.
    - by rewrite set_at_ne. }
  destruct (w_pc w) eqn:Hpc; try done.
  - by repeat case_match.
  - destruct (Q i) as [|q d] eqn:EQ; rewrite Hd; cbn [firstn].
    + cbn [res_map]. rewrite Hsame by done. by rewrite wd_put_worker, EQ.
    + case_decide; [|done]. cbn [res_map]. unfold rest. rewrite EQ. cbn [tail]. by rewrite wd_upd.
  - unfold self_steal. cbn [set_deque w_deque]. destruct (Q i) as [|q d] eqn:EQ; rewrite Hd; cbn [firstn].
    + rewrite <- EQ. rewrite to_idle_c; [|by unfold agree; rewrite EQ, Hd]. destruct (to_idle _ _ _ _); cbn [res_map]; try done.
      by rewrite Hsame.
    + replace (s_frames (with_deques Q r)) with (s_frames r) by done. case_match; [|done].
      cbn [res_map]. unfold rest. rewrite EQ. cbn [tail]. by rewrite wd_upd.
Qed.

(** A push of worker [i]. *)
Lemma wstep_push Q i r w f :
  s_workers r !! i = Some w -> next_op i r = DoPush f ->
  wstep i false (with_deques Q r) = res_map (with_deques (set_at i (f :: Q i) Q)) (wstep i false r).
Proof.
  intros Hi Hop. unfold wstep. rewrite wd_lookup, Hi. cbn [fmap option_fmap option_map].
  unfold next_op in Hop. rewrite Hi in Hop. cbn [set_deque w_pc w_batch w_stk w_inbox w_deque].
  destruct (w_pc w) eqn:Hpc; try done.
  replace (s_frames (with_deques Q r)) with (s_frames r) by done. destruct (s_frames r !! f0) as [fr|]; [|done].
  destruct (f_rp fr); try done. destruct t; try done. injection Hop as ->. cbn [run_task res_map].
  by rewrite wd_upd.
Qed.

Lemma take_c Q i r : take i (with_deques Q r) = res_map (with_deques Q) (take i r).
Proof.
  unfold take. rewrite wd_lookup. destruct (s_workers r !! i) as [w|]; [|done].
  cbn [fmap option_fmap option_map set_deque w_pc w_batch w_inbox].
  repeat case_match; try done. cbn [res_map]. by rewrite wd_put_worker.
Qed.
Lemma stale_c Q i r : stale i (with_deques Q r) = res_map (with_deques Q) (stale i r).
Proof.
  unfold stale. rewrite wd_lookup. destruct (s_workers r !! i) as [w|]; [|done].
  cbn [fmap option_fmap option_map set_deque w_pc]. destruct (w_pc w); try done.
  replace (s_frames (with_deques Q r)) with (s_frames r) by done. destruct (s_frames r !! f) as [fr|]; [|done].
  destruct (f_rp fr) as [t|m st k pre|m st k|k|d t|e| |]; try done.
  - destruct t; try done. case_decide; [done|]. cbn [res_map]. by rewrite wd_put_worker.
  - apply fork_resume_c.
  - destruct (f_kind fr); try done. apply finish_c.
Qed.
Lemma spawn_c Q d t r : spawn d t (with_deques Q r) = res_map (with_deques Q) (spawn d t r).
Proof.
  unfold spawn. rewrite wd_lookup. destruct (s_workers r !! d) as [w|]; [|done].
  cbn [fmap option_fmap option_map res_map]. by rewrite wd_put_worker.
Qed.

(** ** A step of one worker leaves what another worker is doing alone *)

(** [calm i s x]: the step [x] of worker [i] keeps the program counter and the batch of every
    other worker, and every task that is about to execute something and that [i] does not run. *)
Definition calm (i : nat) (s : state) (x : res) : Prop :=
  forall s' tr, x = Next s' tr ->
  length (s_workers s') = length (s_workers s) /\
  (forall j w, j <> i -> s_workers s !! j = Some w ->
    exists w', s_workers s' !! j = Some w' /\ w_pc w' = w_pc w /\ w_batch w' = w_batch w) /\
  (forall g fr t, s_frames s !! g = Some fr -> f_rp fr = RRun t -> g <> s_nextf s -> ~ runs s i g ->
    exists fr', s_frames s' !! g = Some fr' /\ f_rp fr' = f_rp fr).

Definition quiet (i : nat) (s s' : state) : Prop :=
  length (s_workers s') = length (s_workers s) /\
  forall j w, j <> i -> s_workers s !! j = Some w ->
    exists w', s_workers s' !! j = Some w' /\ w_pc w' = w_pc w /\ w_batch w' = w_batch w.
Lemma quiet_refl i s s' : s_workers s' = s_workers s -> quiet i s s'.
Proof. intros E. split; rewrite ?E; eauto. Qed.
Lemma quiet_put i w s s' : quiet i s s' -> quiet i s (put_worker i w s').
Proof.
  intros (E & H). split; [cbn; by rewrite insert_length|]. intros j wj Hne Hj. cbn.
  rewrite list_lookup_insert_ne by done. by apply H.
Qed.
Lemma quiet_inbox i d l wd s s' : quiet i s s' -> s_workers s' !! d = Some wd -> quiet i s (put_worker d (set_inbox l wd) s').
Proof.
  intros (E & H) Hd. split; [cbn; by rewrite insert_length|]. intros j wj Hne Hj. cbn.
  destruct (H j wj Hne Hj) as (w' & Hw & E1 & E2). destruct (decide (d = j)) as [->|Hn].
  - rewrite list_lookup_insert by by eapply lookup_lt_Some. rewrite Hd in Hw. injection Hw as ->. eauto.
  - rewrite list_lookup_insert_ne by done. eauto.
Qed.

Definition kept (i : nat) (s s' : state) : Prop :=
  forall g fr t, s_frames s !! g = Some fr -> f_rp fr = RRun t -> g <> s_nextf s -> ~ runs s i g ->
    exists fr', s_frames s' !! g = Some fr' /\ f_rp fr' = f_rp fr.
(** Worker [i] may set the resumption point of [f] to [rp]. *)
Definition mine (i : nat) (s : state) (f : N) (rp : rpoint) : Prop :=
  runs s i f \/ f = s_nextf s \/ forall fr t, s_frames s !! f = Some fr -> f_rp fr = RRun t -> rp = f_rp fr.

Lemma calm_iff i s s' tr : quiet i s s' -> kept i s s' -> calm i s (Next s' tr).
Proof. intros (E & H) K s1 tr1 [= <- <-]. done. Qed.
Lemma kept_refl i s s' : s_frames s' = s_frames s -> kept i s s'.
Proof. intros E g fr t Hg Hrp _ _. rewrite E. eauto. Qed.
Lemma kept_put i s s' f fr : mine i s f (f_rp fr) -> kept i s s' -> kept i s (put_frame f fr s').
Proof.
  intros M K g frg t Hg Hrp Hn Hr. cbn. destruct (decide (f = g)) as [<-|Hne].
  - rewrite lookup_insert. exists fr. split; [done|]. destruct M as [M|[M|M]]; [done|done|by eapply M].
  - rewrite lookup_insert_ne by done. by apply (K g frg t).
Qed.
Lemma kept_del i s s' f : runs s i f -> kept i s s' -> kept i s (del_frame f s').
Proof.
  intros M K g frg t Hg Hrp Hn Hr. cbn. destruct (decide (f = g)) as [<-|Hne]; [done|].
  rewrite lookup_delete_ne by done. by apply (K g frg t).
Qed.

Lemma mine_same i s f fr rp : s_frames s !! f = Some fr -> rp = f_rp fr -> mine i s f rp.
Proof. intros H ->. right. right. intros fr' t H' _. by rewrite H in H'; injection H' as <-. Qed.
Lemma mine_susp i s f fr rp : s_frames s !! f = Some fr -> (forall t, f_rp fr <> RRun t) -> mine i s f rp.
Proof. intros H E. right. right. intros fr' t H' E'. rewrite H in H'; injection H' as <-. by destruct (E t). Qed.

Lemma rethrow_rp fr o fr' : unsafe_rethrow fr = Some (o, fr') -> f_rp fr' = f_rp fr.
Proof. unfold unsafe_rethrow. intros E. repeat case_match; try done; by injection E as <- <-. Qed.

Lemma kept_worker i s s' j w : kept i s s' -> kept i s (put_worker j w s').
Proof. done. Qed.
Lemma quiet_frame i s s' f fr : quiet i s s' -> quiet i s (put_frame f fr s').
Proof. done. Qed.

Lemma calm_to_idle i w s s' tr : quiet i s s' -> kept i s s' -> calm i s (to_idle i w s' tr).
Proof. intros. unfold to_idle. repeat case_match; try done. apply calm_iff; [by apply quiet_put|done]. Qed.

Lemma calm_join_resume i w f fr k s s' tr :
  (forall rp, mine i s f rp) -> quiet i s s' -> kept i s s' -> calm i s (join_resume i w f fr k s' tr).
Proof.
  intros. unfold join_resume. repeat case_match; try done.
  apply calm_iff; [by apply quiet_put, quiet_frame|by apply kept_worker, kept_put].
Qed.
Lemma calm_take_stack i w f fr k s s' tr :
  (forall rp, mine i s f rp) -> quiet i s s' -> kept i s s' -> calm i s (take_stack_join_resume i w f fr k s' tr).
Proof.
  intros. unfold take_stack_join_resume. repeat case_match; try done.
  apply calm_join_resume; [done|by apply quiet_put, quiet_frame|by apply kept_worker, kept_put].
Qed.
Lemma calm_call_resume seen i w f fr m st k s s' tr :
  (forall rp, mine i s f rp) -> quiet i s s' -> kept i s s' -> calm i s (call_resume seen i w f fr m st k s' tr).
Proof.
  intros. unfold call_resume. repeat case_match; try done;
    (apply calm_iff; [by apply quiet_put, quiet_frame|by apply kept_worker, kept_put]).
Qed.
Lemma calm_fork_resume seen i w f fr m st k pre s s' :
  (forall rp, mine i s f rp) -> quiet i s s' -> kept i s s' -> calm i s (fork_resume seen i w f fr m st k pre s').
Proof.
  intros. unfold fork_resume. repeat case_match; try done; (apply calm_iff; [by apply quiet_frame|by apply kept_put]).
Qed.
Lemma calm_deliver i f fr o s : runs s i f -> calm i s (deliver f fr o s).
Proof.
  intros R. assert (M : forall rp, mine i s f rp) by (intros; by left).
  unfold deliver. destruct (f_kind fr) as [|p j st|p j st].
  - apply calm_iff; [by apply quiet_refl|]. apply (kept_put i s s); [done|by apply kept_refl].
  - destruct (s_frames s !! p) as [frp|] eqn:Hp; [|done].
    destruct o as [v|e]; [|destruct st; [|destruct (f_eflag frp)]];
      (apply calm_iff; [by apply quiet_refl|]; repeat apply kept_put; try done;
       try (by apply kept_refl); by eapply mine_same).
  - destruct (s_frames s !! p) as [frp|] eqn:Hp; [|done].
    destruct o as [v|e]; [|destruct st; [|destruct (f_eflag frp)]];
      (apply calm_iff; [by apply quiet_refl|]; repeat apply kept_put; try done;
       try (by apply kept_refl); by eapply mine_same).
Qed.
Lemma calm_capture i f fr e s : runs s i f -> calm i s (capture f fr e s).
Proof.
  intros R. assert (M : forall rp, mine i s f rp) by (intros; by left).
  unfold capture. destruct (f_kind fr) as [|p j st|p j st]; [done|..];
    (destruct (s_frames s !! p) as [frp|] eqn:Hp; [|done]);
    (apply calm_iff; [by apply quiet_refl|]; repeat apply kept_put; try done;
       try (by apply kept_refl); by eapply mine_same).
Qed.
Lemma destroy_inv w f fr s s' : destroy w f fr s = Some s' -> exists x l, s' = put_stack x l (del_frame f s).
Proof. unfold destroy. intros E. repeat case_match; try done. injection E as <-. eauto. Qed.

Lemma calm_finish seen i w f fr s : runs s i f -> calm i s (finish seen i w f fr s).
Proof.
  intros R. assert (M : forall rp, mine i s f rp) by (intros; by left).
  unfold finish. case_decide; [|done]. destruct (f_kind fr) as [|p j st|p j st].
  - apply calm_iff; [by apply quiet_refl|]. apply (kept_put i s s); [done|by apply kept_refl].
  - destruct (destroy w f fr s) as [s'|] eqn:Hd; [|done]. apply destroy_inv in Hd as (x & l & ->).
    destruct (s_frames (put_stack x l (del_frame f s)) !! p) as [frp|] eqn:Hp; [|done].
    destruct (f_rp frp) eqn:Erp; try done. apply calm_call_resume.
    + cbn in Hp. apply lookup_delete_Some in Hp as (_ & Hp). intros rp. eapply mine_susp; [done|]. by rewrite Erp.
    + by apply quiet_refl.
    + apply (kept_del i s s); [done|by apply kept_refl].
  - destruct (destroy w f fr s) as [s'|] eqn:Hd; [|done]. apply destroy_inv in Hd as (x & l & ->).
    apply calm_iff; [by apply quiet_put, quiet_refl|]. apply (kept_del i s s); [done|by apply kept_refl].
Qed.
Lemma calm_root_destroy i w f fr s : runs s i f -> calm i s (root_destroy i w f fr s).
Proof.
  intros R. unfold root_destroy. destruct (destroy w f fr s) as [s'|] eqn:Hd; [|done].
  apply destroy_inv in Hd as (x & l & ->). apply calm_to_idle; [by apply quiet_refl|].
  apply (kept_del i s s); [done|by apply kept_refl].
Qed.

Lemma calm_run_task i fail w f fr t s :
  s_workers s !! i = Some w -> runs s i f -> calm i s (run_task i fail w f fr t s).
Proof.
  intros Hi R. assert (M : forall rp, mine i s f rp) by (intros; by left).
  assert (M' : forall rp, mine i s (s_nextf s) rp) by (intros; right; by left).
  destruct t as [v|e|m st c k|m st c k|k|skip d k|e k|k]; cbn [run_task].
  - by apply calm_deliver.
  - by apply calm_deliver.
  - destruct fail; (apply calm_iff; [by repeat first [apply quiet_put | apply quiet_refl]|]).
    + apply kept_put; [done|by apply kept_refl].
    + apply kept_worker. apply (kept_put i s (put_frame f _ s)); [done|]. apply kept_put; [done|by apply kept_refl].
  - destruct fail; (apply calm_iff; [by repeat first [apply quiet_put | apply quiet_refl]|]).
    + apply kept_put; [done|by apply kept_refl].
    + apply kept_worker. apply (kept_put i s (put_frame f _ s)); [done|]. apply kept_put; [done|by apply kept_refl].
  - repeat case_decide.
    + apply calm_join_resume; [done|by apply quiet_refl|by apply kept_refl].
    + apply calm_take_stack; [done|by apply quiet_refl|by apply kept_refl].
    + apply calm_iff; [by apply quiet_put, quiet_refl|by apply kept_worker, kept_refl].
  - destruct (skip && bool_decide (d = i)).
    + apply calm_iff; [by apply quiet_refl|]. apply kept_put; [done|by apply kept_refl].
    + destruct (same_stacklet s f fr w) as [same|]; [|done]. destruct (s_workers s !! d); [|done].
      destruct (decide (same = bool_decide (f_steals fr = 0))); [|done]. cbn zeta.
      destruct (s_workers (put_worker i (set_pc (PSwRel same) w) (put_frame f (set_rp (RSwitched d k) fr) s)) !! d) as [wd'|] eqn:E; [|done].
      apply calm_iff.
      * apply quiet_inbox; [|done]. by apply quiet_put, quiet_frame, quiet_refl.
      * apply kept_worker, kept_worker, kept_put; [done|by apply kept_refl].
  - apply calm_iff; [by apply quiet_refl|]. apply kept_put; [done|by apply kept_refl].
  - apply calm_iff; [by apply quiet_refl|]. apply kept_put; [done|by apply kept_refl].
Qed.

Lemma calm_wstep i fail s : calm i s (wstep i fail s).
Proof.
  unfold wstep. destruct (s_workers s !! i) as [w|] eqn:Hi; [|done].
  assert (R : forall f, pcrun (w_pc w) = Some f -> runs s i f).
  { intros f E. exists (w_pc w). split; [|done]. unfold pcs. by rewrite list_lookup_fmap, Hi. }
  destruct (w_pc w) eqn:Hpc.
  - destruct (w_batch w); [done|]. unfold resume_submitted. repeat case_match; try done;
      (apply calm_iff; [by apply quiet_put, quiet_refl|by apply kept_worker, kept_refl]).
  - unfold resume_stolen. destruct (s_frames s !! f) as [fr|] eqn:Hf; [|done]. repeat case_match; try done;
      (apply calm_iff; [by apply quiet_put, quiet_refl|]; apply kept_worker, kept_put; [by eapply mine_same|by apply kept_refl]).
  - specialize (R f eq_refl). assert (M : forall rp, mine i s f rp) by (intros; by left).
    destruct (s_frames s !! f) as [fr|]; [|done]. destruct (f_rp fr); try done.
    + by apply calm_run_task.
    + apply calm_fork_resume; [done|by apply quiet_refl|by apply kept_refl].
    + apply calm_iff; [by apply quiet_refl|]. apply kept_put; [done|by apply kept_refl].
    + by apply calm_capture.
    + by apply calm_finish.
    + by apply calm_root_destroy.
  - repeat case_match; try done; (apply calm_iff; [by apply quiet_put, quiet_refl|by apply kept_worker, kept_refl]).
  - unfold final_sub. destruct (s_frames s !! p) as [frp|] eqn:Hp; [|done].
    destruct (same_stacklet s p frp w) as [same|]; [|done]. case_decide.
    + destruct (f_rp frp) eqn:Erp; try done. destruct (if same then [] else stk s (w_stk w)); [|done].
      assert (M : forall rp, mine i s p rp) by (intros rp; eapply mine_susp; [done|by rewrite Erp]).
      apply calm_join_resume; [done|by apply quiet_put, quiet_frame, quiet_refl|].
      apply kept_worker, kept_put; [done|by apply kept_refl].
    + assert (K : kept i s (put_frame p (set_joins (u16sub (f_joins frp) 1) frp) s)).
      { apply kept_put; [by eapply mine_same|by apply kept_refl]. }
      destruct same.
      * apply calm_iff; [by apply quiet_put, quiet_frame, quiet_refl|by apply kept_worker].
      * apply calm_to_idle; [by apply quiet_frame, quiet_refl|done].
  - apply calm_to_idle; [by apply quiet_put, quiet_refl|by apply kept_worker, kept_refl].
  - specialize (R f eq_refl). assert (M : forall rp, mine i s f rp) by (intros; by left).
    destruct (s_frames s !! f) as [fr|]; [|done]. unfold join_suspend. destruct (f_rp fr); try done.
    destruct t; try done. case_decide.
    + apply calm_take_stack; [done|by apply quiet_refl|by apply kept_refl].
    + apply calm_iff; [by apply quiet_put, quiet_refl|]. apply kept_worker, kept_put; [done|by apply kept_refl].
  - destruct b; cbn zeta; case_match; try done;
      (apply calm_iff; [by apply quiet_put, quiet_refl|by apply kept_worker, kept_refl]).
  - unfold self_steal. destruct (w_deque w).
    + apply calm_to_idle; [by apply quiet_refl|by apply kept_refl].
    + destruct (s_frames s !! n) as [fr|] eqn:Hf; [|done].
      apply calm_iff; [by apply quiet_put, quiet_refl|]. apply kept_worker, kept_put; [by eapply mine_same|by apply kept_refl].
Qed.

Lemma calm_take i s : calm i s (take i s).
Proof.
  unfold take. repeat case_match; try done.
  apply calm_iff; [by apply quiet_put, quiet_refl|by apply kept_worker, kept_refl].
Qed.

Lemma calm_stale i s : calm i s (stale i s).
Proof.
  unfold stale. destruct (s_workers s !! i) as [w|] eqn:Hi; [|done]. destruct (w_pc w) as [|f|f|p|p| |f|b|] eqn:Hpc; try done.
  assert (R : runs s i f).
  { exists (w_pc w). split; [|by rewrite Hpc]. unfold pcs. by rewrite list_lookup_fmap, Hi. }
  assert (M : forall rp, mine i s f rp) by (intros; by left).
  destruct (s_frames s !! f) as [fr|] eqn:Hf; [|done]. destruct (f_rp fr) as [t|m st k pre|m st k|k|d t|e| |]; try done.
  - destruct t; try done. case_decide; [done|]. apply calm_iff; [by apply quiet_put, quiet_refl|by apply kept_worker, kept_refl].
  - apply calm_fork_resume; [done|by apply quiet_refl|by apply kept_refl].
  - destruct (f_kind fr); try done. by apply calm_finish.
Qed.

(** The outside thread is nobody: [length (s_workers s)] is not a worker. *)
Lemma calm_spawn d t s : calm (length (s_workers s)) s (spawn d t s).
Proof.
  unfold spawn. destruct (s_workers s !! d) as [wd|] eqn:Hd; [|done].
  apply calm_iff; [by apply quiet_inbox; [apply quiet_refl|]|].
  apply kept_worker. apply (kept_put _ s s); [right; by left|by apply kept_refl].
Qed.

Lemma calm_next_op nw G i s s' tr x j :
  inv nw G s -> x = Next s' tr -> calm i s x -> j <> i -> (j < length (s_workers s))%nat ->
  next_op j s <> NoOp -> next_op j s' = next_op j s.
Proof.
  intros I E C Hne Hl Hop. destruct (C _ _ E) as (_ & Q & K).
  destruct (lookup_lt_is_Some_2 _ _ Hl) as (w & Hw). destruct (Q j w Hne Hw) as (w' & Hw' & Epc & _).
  unfold next_op in *. rewrite Hw, Hw' in *. rewrite Epc in *. destruct (w_pc w) eqn:Hpc; try done.
  destruct (s_frames s !! f) as [fr|] eqn:Hf; [|done]. destruct (f_rp fr) eqn:Hrp; try done.
  assert (R : runs s j f). { exists (w_pc w). split; [|by rewrite Hpc]. unfold pcs. by rewrite list_lookup_fmap, Hw. }
  destruct (K f fr t Hf Hrp) as (fr' & Hf' & Hrp').
  - intros ->. pose proof (i_fresh _ _ _ I (s_nextf s)) as F. rewrite F in Hf by lia. done.
  - intros R'. apply Hne. eapply (runs_uniq _ _ _ _ _ _ I); eauto.
  - by rewrite Hf', Hrp', Hrp.
Qed.
