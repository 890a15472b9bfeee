(** * Facts about the runtime used for the whole system. *)

From stdpp Require Import prelude gmap list.
From Coq Require Import NArith Lia Wellfounded Relation_Operators.
From Verif Require Import RuntimeModel RuntimeSpec RuntimeInv RuntimeSafe RuntimeHist RuntimeHist2
  RuntimeHist3 RuntimeHist4 RuntimeThms RuntimeTermSpec RuntimeTermOrder RuntimeTerm RuntimeTerm2 RuntimeTerm3.
From Verif Require WholeModel.
Local Open Scope N_scope.
Notation moving := WholeModel.moving.
Notation resting := WholeModel.resting.

(** ** The workers after a step *)

Local Ltac fin := eexists; split; [|reflexivity]; done.

(** A step of worker [i] changes [i], and the submission list of the worker it moves a task to. *)
Lemma wstep_workers i fail s s' tr w :
  s_workers s !! i = Some w -> wstep i fail s = Next s' tr ->
  exists w', w_inbox w' = w_inbox w /\
  match moving s i with
  | None => s_workers s' = <[i := w']> (s_workers s)
  | Some (d, f) => exists wd, <[i := w']> (s_workers s) !! d = Some wd /\
      s_workers s' = <[d := set_inbox (w_inbox wd ++ [f]) wd]> (<[i := w']> (s_workers s))
  end.
Proof.
  intros Hi H. unfold wstep in H. rewrite Hi in H. unfold WholeModel.moving. rewrite Hi.
  assert (Hid : exists w', w_inbox w' = w_inbox w /\ s_workers s = <[i := w']> (s_workers s)).
  { exists w. split; [done|]. symmetry. by apply list_insert_id. }
  destruct (w_pc w) eqn:Ep.
  - destruct (w_batch w) as [|f rest]; [done|]. unfold resume_submitted in H. repeat case_match; try done; injection H as <- <-; cbn; fin.
  - unfold resume_stolen in H. repeat case_match; try done; injection H as <- <-; cbn; fin.
  - destruct (s_frames s !! f) as [fr|] eqn:Ef; [|done]. cbn [fmap option_fmap option_map].
    destruct (f_rp fr) as [t| | | | | | |] eqn:Er.
    + unfold run_task in H. destruct t.
      1,2: (unfold deliver in H; repeat case_match; try done; injection H as <- <-; exact Hid).
      * destruct fail; injection H as <- <-; [exact Hid|]. cbn. fin.
      * destruct fail; injection H as <- <-; [exact Hid|]. cbn. fin.
      * unfold take_stack_join_resume, join_resume in H. repeat case_match; try done; injection H as <- <-; cbn; rewrite ?list_insert_insert; fin.
      * destruct (skip && bool_decide (d = i)); [injection H as <- <-; exact Hid|].
        destruct (same_stacklet s f fr w) as [same|]; [|done]. destruct (s_workers s !! d) as [wd0|] eqn:Ed; [|done].
        case_decide; [|done]. cbn [put_worker put_frame s_workers] in H.
        destruct (<[i:=set_pc (PSwRel same) w]> (s_workers s) !! d) as [wd|] eqn:Ed'; [|done]. injection H as <- <-.
        eexists. split; [|exists wd; split; [exact Ed'|done]]. done.
      * injection H as <- <-. exact Hid.
      * injection H as <- <-. exact Hid.
    + unfold fork_resume in H. repeat case_match; try done; injection H as <- <-; exact Hid.
    + done.
    + done.
    + injection H as <- <-. exact Hid.
    + unfold capture in H. repeat case_match; try done; injection H as <- <-; exact Hid.
    + unfold finish, destroy, call_resume in H. repeat case_match; try done; simplify_eq; cbn; first [exact Hid|fin].
    + unfold root_destroy, destroy, to_idle in H. repeat case_match; try done; simplify_eq; cbn; fin.
  - repeat case_match; try done; injection H as <- <-; cbn; fin.
  - unfold final_sub, join_resume, to_idle in H. repeat case_match; try done; injection H as <- <-; cbn; rewrite ?list_insert_insert; fin.
  - unfold to_idle in H. repeat case_match; try done; injection H as <- <-; cbn; rewrite ?list_insert_insert; fin.
  - destruct (s_frames s !! f) as [fr|]; [|done]. unfold join_suspend, take_stack_join_resume, join_resume in H.
    repeat case_match; try done; injection H as <- <-; cbn; rewrite ?list_insert_insert; fin.
  - destruct b; repeat case_match; try done; injection H as <- <-; cbn; fin.
  - unfold self_steal, to_idle in H. repeat case_match; try done; injection H as <- <-; cbn; fin.
Qed.

(** ** When something can move *)

Lemma resting_spec s i w : s_workers s !! i = Some w -> (resting s i = true <-> w_pc w = PIdle /\ w_batch w = []).
Proof. intros Hi. unfold WholeModel.resting. rewrite Hi. destruct (w_pc w), (w_batch w); naive_solver. Qed.

Lemma work_enabled nw af s h i fail : reach nw af s h -> (fail = true -> af = true) -> resting s i = false ->
  exists s' tr, wstep i fail s = Next s' tr.
Proof.
  intros HR HA Hr. apply (step_next nw af s h (LWork i fail) HR HA). intros Hb. cbn in Hb.
  unfold WholeModel.resting in Hr. destruct (s_workers s !! i) as [w|] eqn:Hi; [|done].
  destruct (wstep_blocked i fail s w Hi Hb) as (E1 & E2). by rewrite E1, E2 in Hr.
Qed.

Definition waiting (s : state) (i : nat) : Prop := exists w f, s_workers s !! i = Some w /\ f ∈ w_inbox w.

Lemma can_move_who nw af s h : reach nw af s h -> can_move s ->
  exists i, (i < nw)%nat /\ (resting s i = false \/ waiting s i).
Proof.
  intros HR (l & s' & tr & H1 & H2 & Hs). destruct (reach_inv _ _ _ _ HR) as (G & I).
  assert (Hlt : forall i w, s_workers s !! i = Some w -> (i < nw)%nat).
  { intros i w Hi. rewrite <- (i_len _ _ _ I). by eapply lookup_lt_Some. }
  destruct l as [i fail|i|i|i v|d t]; cbn in Hs; [..|by destruct (H1 d t)].
  - unfold wstep in Hs. destruct (s_workers s !! i) as [w|] eqn:Hi; [|done]. exists i. split; [by eapply Hlt|].
    left. unfold WholeModel.resting. rewrite Hi. by repeat case_match.
  - destruct (stale_inv _ _ _ _ Hs) as (w & f & fr & Hi & Hpc & _). exists i. split; [by eapply Hlt|].
    left. unfold WholeModel.resting. by rewrite Hi, Hpc.
  - unfold take in Hs. destruct (s_workers s !! i) as [w|] eqn:Hi; [|done]. exists i. split; [by eapply Hlt|].
    right. destruct (w_pc w), (w_batch w), (w_inbox w) as [|g r] eqn:Eb; try done. exists w, g. rewrite Eb. split; [done|by left].
  - unfold steal in Hs. destruct (s_workers s !! i) as [w|] eqn:Hi; [|done]. destruct (s_workers s !! v) as [wv|] eqn:Hv; [|done].
    exists v. split; [by eapply Hlt|]. left. unfold WholeModel.resting. rewrite Hv.
    destruct (i_wrk _ _ _ I v wv Hv) as ((_ & W) & _). destruct (w_pc wv) eqn:Ep; try done.
    destruct W as (W & _). rewrite W in Hs. by repeat case_match.
Qed.

Lemma who_can_move nw af s h i : reach nw af s h -> resting s i = false \/ waiting s i -> can_move s.
Proof.
  intros HR [Hr|(w & f & Hi & Hf)].
  - destruct (work_enabled nw af s h i false HR) as (s' & tr & E); [done|done|]. exists (LWork i false), s', tr. done.
  - destruct (resting s i) eqn:Hr; cycle 1.
    + destruct (work_enabled nw af s h i false HR) as (s' & tr & E); [done|done|]. exists (LWork i false), s', tr. done.
    + apply (resting_spec s i w Hi) in Hr as (E1 & E2). destruct (w_inbox w) as [|g r] eqn:Eb; [by apply elem_of_nil in Hf|].
      eexists (LTake i), _, _. split_and!; [done|done|]. cbn. unfold take. by rewrite Hi, E1, E2, Eb.
Qed.

Lemma can_move_dec' nw af s h : reach nw af s h -> Decision (can_move s).
Proof.
  intros HR.
  assert (HD : forall i : nat, Decision (resting s i = false \/ exists w, s_workers s !! i = Some w /\ w_inbox w <> [])).
  { intros i. destruct (resting s i); [|by left; left]. destruct (s_workers s !! i) as [w|].
    - destruct (w_inbox w) as [|g r] eqn:E; [right; intros [?|(w' & E1 & E2)]; simplify_eq|left; right; exists w; by rewrite E].
    - right. by intros [?|(w & ? & _)]. }
  destruct (Exists_dec (fun i => resting s i = false \/ exists w, s_workers s !! i = Some w /\ w_inbox w <> []) (seq 0 nw)) as [He|Hn].
  - left. apply Exists_exists in He as (i & _ & [Hr|(w & Hi & Hne)]); eapply who_can_move; [exact HR|by left|exact HR|].
    right. destruct (w_inbox w) as [|g r] eqn:Eb; [done|]. exists w, g. rewrite Eb. split; [done|by left].
  - right. intros Hc. destruct (can_move_who _ _ _ _ HR Hc) as (i & Hi & Hw). apply Hn, Exists_exists. exists i.
    split; [apply elem_of_seq; lia|]. destruct Hw as [?|(w & f & Hw & Hf)]; [by left|right]. exists w. split; [done|].
    intros E. rewrite E in Hf. by apply elem_of_nil in Hf.
Qed.

(** ** Everything has been signalled *)

Lemma done_frames nw af s h :
  reach nw af s h -> (forall f t, parent_in f h = None -> body_in f h = Some t -> signals_in f h = 1) ->
  forall f fr, s_frames s !! f = Some fr -> f_rp fr = RSignalled.
Proof.
  intros HR HS f. induction (N.lt_wf_0 f) as [f _ IH]. intros fr Hf.
  destruct (reach_inv _ _ _ _ HR) as (G & I). destruct (reach_hist _ _ _ _ HR) as (H & _).
  destruct (par (f_kind fr)) as [p|] eqn:Hp.
  - exfalso. pose proof (shape_lookup _ _ _ Hf) as Hsh.
    destruct (inv_parent _ _ _ _ _ _ _ I Hsh Hp) as (frp & Hfp).
    destruct (i_kid _ _ _ I _ _ _ _ _ Hsh Hp Hfp) as (_ & Hlt). pose proof (IH p Hlt frp Hfp) as Erp.
    pose proof (i_node _ _ _ I p frp Hfp) as (_ & Nc & _ & _ & N5). rewrite Erp in Nc, N5. destruct N5 as (N5 & _).
    unfold nforks, ncalls in *. destruct (f_kind fr); cbn in Hp; try done; injection Hp as ->.
    + pose proof (cntm_zero (is_call p) _ _ _ Hsh Nc) as X. unfold is_call in X. cbn in X. by case_bool_decide.
    + pose proof (cntm_zero (is_fork p) _ _ _ Hsh ltac:(lia)) as X. unfold is_fork in X. cbn in X. by case_bool_decide.
  - destruct (g_old _ _ _ H f) as (t & Ht).
    { destruct (decide (f < s_nextf s)); [done|]. destruct (g_new _ _ _ H f) as (E & _); [lia|congruence]. }
    pose proof (g_frames _ _ _ H f fr Hf) as Hok. pose proof (k_sig _ _ _ _ Hok) as Hsig.
    pose proof (k_kind _ _ _ _ Hok) as Hkind. destruct (f_kind fr); [|done..].
    rewrite (HS f t Hkind Ht) in Hsig. by destruct (f_rp fr).
Qed.

Lemma done_waiting nw af s h i :
  reach nw af s h -> (forall f t, parent_in f h = None -> body_in f h = Some t -> signals_in f h = 1) -> ~ waiting s i.
Proof.
  intros HR HS (w & f & Hi & Hf). destruct (reach_inv _ _ _ _ HR) as (G & I).
  destruct (i_wrk _ _ _ I i w Hi) as ((W & _) & _). destruct (W f) as (fr & Hfr & Hrp); [apply elem_of_app; by left|].
  by rewrite (done_frames nw af s h HR HS f fr Hfr) in Hrp.
Qed.

(** ** Complete executions come to rest *)

Lemma run_rests nw af x n : lasting nw af x -> reach nw af (x 0%nat).1 (x 0%nat).2 ->
  Acc (fun y x => moves nw af x y) (x n) -> exists m, (n <= m)%nat /\ ~ can_move (x m).1.
Proof.
  intros HL HR HA. apply Acc_clos_trans in HA. remember (x n) as y eqn:Ey. revert n Ey.
  induction HA as [y _ IH]. intros n ->. pose proof (run_reach af nw x HL HR n) as HRn.
  destruct (can_move_dec' _ _ _ _ HRn) as [Hc|Hc]; [|by exists n].
  destruct (la_fair _ _ _ HL n Hc) as (m & Hle & Hm).
  destruct (IH (x (S m))) with (n := S m) as (k & Hk & Hr); [|done|exists k; split; [lia|done]].
  destruct (run_star af nw x HL n m Hle) as [<-|Ht]; [by apply t_step|]. eapply t_trans; [by apply t_step|done].
Qed.

Lemma stuck_moves nw af x y : reach nw af x.1 x.2 -> ~ can_move x.1 -> ~ moves nw af x y.
Proof.
  intros HR Hc (l & tr & HA & Hl & E & _). apply Hc. destruct l as [i [|]|i|i|i v|d t].
  - destruct (decide (wstep i false x.1 = Blocked)) as [Hb|Hb].
    + exfalso. cbn in E. unfold wstep in E, Hb. destruct (s_workers x.1 !! i) as [w|] eqn:Hi; [|done].
      destruct (wstep_blocked i false x.1 w Hi) as (E1 & E2); [unfold wstep; by rewrite Hi|]. by rewrite E1, E2 in E.
    + destruct (step_next nw af x.1 x.2 (LWork i false) HR) as (s' & tr' & E'); [done|done|]. by exists (LWork i false), s', tr'.
  - by exists (LWork i false), y.1, tr.
  - by exists (LStale i), y.1, tr.
  - by exists (LTake i), y.1, tr.
  - by exists (LSteal i v), y.1, tr.
  - by destruct (Hl d t).
Qed.

Lemma rests_forever nw af x n : lasting nw af x -> reach nw af (x 0%nat).1 (x 0%nat).2 -> ~ can_move (x n).1 ->
  forall m, (n <= m)%nat -> x m = x n.
Proof.
  intros HL HR Hc m Hle. induction Hle as [|m Hle IH]; [done|]. destruct (la_step _ _ _ HL m) as [E|Hm]; [congruence|].
  exfalso. eapply stuck_moves; [exact (run_reach af nw x HL HR m)|by rewrite IH|exact Hm].
Qed.
