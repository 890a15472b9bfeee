(** * Between two joins of a task its join counter only decreases, and its exception flag
    only rises (for C73). *)

From stdpp Require Import prelude gmap list.
From Coq Require Import NArith ZArith Lia.
From Verif Require Import RuntimeModel RuntimeSpec RuntimeInv RuntimeStep3 RuntimeStep6 RuntimeSafe StaleSpec.
Local Open Scope N_scope.

(** [down s r]: in the state after [r] each task has passed a join, is new, or has a counter
    that is at most the one it had in [s]. *)
Definition down (s : state) (r : res) : Prop :=
  forall s' tr, r = Next s' tr -> forall g frg, s_frames s' !! g = Some frg ->
    (exists cs e, EvJoin g cs e ∈ tr) \/ s_frames s !! g = None \/
    exists fr, s_frames s !! g = Some fr /\ f_joins frg <= f_joins fr.

Ltac lookups :=
  repeat match goal with
  | H : <[_ := _]> _ !! _ = Some _ |- _ => apply lookup_insert_Some in H as [(<- & <-)|(? & H)]
  | H : delete _ _ !! _ = Some _ |- _ => apply lookup_delete_Some in H as (? & H)
  end.
Ltac solve_down :=
  let E := fresh "E" in let Hg := fresh "Hg" in
  intros s' tr E g frg Hg; injection E as <- <-; cbn in Hg; lookups;
  first [ right; right; eexists; split; [eassumption|cbn; lia]
        | right; right; eexists; split; [eassumption|cbn; congruence]
        | by right; left ].

Lemma rethrow_joins fr o fr' : unsafe_rethrow fr = Some (o, fr') -> f_joins fr' = f_joins fr.
Proof. unfold unsafe_rethrow. intros E. repeat case_match; try done; by injection E as <- <-. Qed.

Lemma down_undef s : down s Undef. Proof. done. Qed.
Lemma down_blocked s : down s Blocked. Proof. done. Qed.

Lemma down_join_resume i w f fr k s s1 tr0 :
  (forall g, g <> f -> s_frames s1 !! g = s_frames s !! g) -> down s (join_resume i w f fr k s1 tr0).
Proof.
  intros Hs. unfold join_resume. destruct (decide _); [|done].
  destruct (same_stacklet s1 f fr w) as [[]|]; try done.
  destruct (unsafe_rethrow fr) as [(o & fr')|]; [|done].
  intros s' tr E g frg Hg. injection E as <- <-. cbn in Hg.
  apply lookup_insert_Some in Hg as [(<- & <-)|(Hne & Hg)].
  - left. exists (f_cells fr), o. set_solver.
  - right. right. exists frg. rewrite <- Hs by done. split; [done|lia].
Qed.

Lemma down_take_join i w f fr k s tr0 : down s (take_stack_join_resume i w f fr k s tr0).
Proof.
  unfold take_stack_join_resume. destruct (decide _); [done|]. destruct (stk s (w_stk w)); [|done].
  apply down_join_resume. intros g Hg. cbn. by rewrite lookup_insert_ne by done.
Qed.

Lemma down_call_resume seen i w f fr m st k s s1 tr0 :
  s_frames s !! f = Some fr -> (forall g frg, s_frames s1 !! g = Some frg -> s_frames s !! g = Some frg) ->
  down s (call_resume seen i w f fr m st k s1 tr0).
Proof.
  intros Hf Hs.
  assert (D : forall t fr' tr1, f_joins fr' = f_joins fr ->
    down s (Next (put_worker i (set_pc (PRun f) w) (put_frame f (set_rp t fr') s1)) tr1)).
  { intros t fr' tr1 Ej s' tr E g frg Hg. injection E as <- <-. cbn in Hg. right. right.
    apply lookup_insert_Some in Hg as [(<- & <-)|(Hne & Hg)].
    - exists fr. split; [done|]. cbn. lia.
    - exists frg. split; [by apply Hs|lia]. }
  unfold call_resume.
  assert (R : down s (match unsafe_rethrow fr with
    | Some (Some e, fr') => Next (put_worker i (set_pc (PRun f) w) (put_frame f (set_rp (RRun (k (CExn e))) fr') s1)) (tr0 ++ [EvEager f e])
    | Some (None, fr') => Next (put_worker i (set_pc (PRun f) w) (put_frame f (set_rp (RRun (k (CDone (fres_last (f_cells fr))))) fr') s1)) (tr0 ++ [])
    | None => Undef end)).
  { destruct (unsafe_rethrow fr) as [([e|] & fr')|] eqn:E; [..|done]; apply D; by eapply rethrow_joins. }
  destruct m, st; try (by apply D); destruct (decide _); try done; destruct (f_eflag fr), seen; by apply D.
Qed.

Lemma down_fork_resume seen i w f fr m st k pre s :
  s_frames s !! f = Some fr -> down s (fork_resume seen i w f fr m st k pre s).
Proof.
  intros Hf.
  assert (D : forall t fr' tr1, f_joins fr' = f_joins fr ->
    down s (Next (put_frame f (set_rp t fr') s) tr1)).
  { intros t fr' tr1 Ej s' tr E g frg Hg. injection E as <- <-. cbn in Hg. right. right.
    apply lookup_insert_Some in Hg as [(<- & <-)|(Hne & Hg)].
    - exists fr. split; [done|]. cbn. lia.
    - exists frg. split; [done|lia]. }
  unfold fork_resume.
  assert (R : down s (match unsafe_rethrow fr with
    | Some (Some e, fr') => Next (put_frame f (set_rp (RRun (k (FExn e))) fr') s) [EvEager f e]
    | Some (None, fr') => Next (put_frame f (set_rp (RRun (k (FDone (fres_last (f_cells fr))))) fr') s) [EvSync f (fres_last (f_cells fr))]
    | None => Undef end)).
  { destruct (unsafe_rethrow fr) as [([e|] & fr')|] eqn:E; [..|done]; apply D; by eapply rethrow_joins. }
  destruct m; [by apply D|..]; (destruct (decide (f_steals fr = pre)); [|by apply D]); destruct st; try (by apply D);
    destruct (decide (f_steals fr = 0)); try done; destruct (f_eflag fr), seen; by apply D.
Qed.

Lemma destroy_frames w f fr s s1 :
  destroy w f fr s = Some s1 -> s_frames s1 = delete f (s_frames s).
Proof. unfold destroy. intros E. repeat case_match; try done. by injection E as <-. Qed.

Section step.
Context (nw : nat) (G : ghost) (s : state) (I : inv nw G s).

Lemma fresh_next g : s_nextf s = g -> s_frames s !! g = None.
Proof using I. intros <-. apply (i_fresh _ _ _ I). lia. Qed.

Lemma down_deliver f fr o : s_frames s !! f = Some fr -> down s (deliver f fr o s).
Proof using.
  intros Hf. unfold deliver.
  destruct (f_kind fr) as [|p j st|p j st]; [solve_down|..];
    (destruct (s_frames s !! p) as [frp|] eqn:Hp; [|done]); destruct o, st; try solve_down;
    destruct (f_eflag frp); solve_down.
Qed.

Lemma down_capture f fr e : s_frames s !! f = Some fr -> down s (capture f fr e s).
Proof using.
  intros Hf. unfold capture.
  destruct (f_kind fr) as [|p j st|p j st]; [done|..]; (destruct (s_frames s !! p) as [frp|] eqn:Hp; [|done]); solve_down.
Qed.

Lemma down_finish seen i w f fr : s_frames s !! f = Some fr -> down s (finish seen i w f fr s).
Proof using.
  intros Hf. unfold finish. destruct (decide _); [|done].
  destruct (f_kind fr) as [|p j st|p j st].
  - solve_down.
  - destruct (destroy w f fr s) as [s1|] eqn:Hd; [|done]. apply destroy_frames in Hd.
    destruct (s_frames s1 !! p) as [frp|] eqn:Hp; [|done]. destruct (f_rp frp); try done.
    rewrite Hd in Hp. apply lookup_delete_Some in Hp as (_ & Hp). apply down_call_resume; [done|].
    intros g frg. rewrite Hd. intros Hg. by apply lookup_delete_Some in Hg as (_ & Hg).
  - destruct (destroy w f fr s) as [s1|] eqn:Hd; [|done]. apply destroy_frames in Hd.
    intros s' tr E g frg Hg. injection E as <- <-. cbn in Hg. rewrite Hd in Hg.
    apply lookup_delete_Some in Hg as (_ & Hg). right. right. eexists. split; [done|lia].
Qed.

Lemma down_to_idle i w s1 tr0 :
  (forall g frg, s_frames s1 !! g = Some frg -> exists fr, s_frames s !! g = Some fr /\ f_joins frg <= f_joins fr) ->
  down s (to_idle i w s1 tr0).
Proof using.
  intros Hs. unfold to_idle. repeat case_match; try done.
  intros s' tr E g frg Hg. injection E as <- <-. cbn in Hg. right. right. auto.
Qed.

Lemma down_run_task i fail w f fr t : s_frames s !! f = Some fr -> down s (run_task i fail w f fr t s).
Proof using I.
  intros Hf. pose proof (fresh_next _ eq_refl) as Hn. unfold run_task.
  destruct t as [v|e|m st c k|m st c k|k|sk d k|e k|k].
  - by apply down_deliver.
  - by apply down_deliver.
  - destruct fail; solve_down.
  - destruct fail; solve_down.
  - destruct (decide _); [by apply down_join_resume|]. destruct (decide _); [apply down_take_join|solve_down].
  - destruct (_ && _); [solve_down|].
    destruct (same_stacklet s f fr w) as [b|], (s_workers s !! d) as [wd|]; try done.
    destruct (decide _); [|done]. cbn zeta. destruct (s_workers _ !! d); [|done]. solve_down.
  - intros s' tr E g frg Hg. injection E as <- <-. cbn in Hg. lookups; right; right; eexists; (split; [eassumption|]); [|lia].
    unfold self_capture. destruct (f_eflag fr); cbn; lia.
  - solve_down.
Qed.

Lemma down_join_suspend i w f fr :
  s_workers s !! i = Some w -> w_pc w = PJSusp f -> s_frames s !! f = Some fr -> down s (join_suspend i w f fr s).
Proof using I.
  intros Hi Hpc Hf. destruct (i_wrk _ _ _ I i w Hi) as ((W0 & W) & Wlt). rewrite Hpc in W.
  destruct W as (fr0 & k & Hf0 & Hr & Hz & Hstk & L). assert (fr0 = fr) as -> by congruence. clear Hf0.
  unfold join_suspend. rewrite Hr. destruct (decide _) as [Hd|Hd].
  - unfold take_stack_join_resume. destruct (decide _); [done|]. destruct (stk s (w_stk w)); [|done].
    apply down_join_resume. intros g Hg. cbn. by rewrite lookup_insert_ne by done.
  - pose proof (i_node _ _ _ I f fr Hf) as N.
    destruct (node_run _ _ _ _ _ _ _ _ _ N (or_introl Hr)) as (N1 & _ & N2 & _ & N3 & N4 & n & x & M1 & M2 & M3 & M4).
    assert (EJ : u16sub (f_joins fr) (u16max - f_steals fr) <= f_joins fr).
    { rewrite u16sub_small by lia. lia. }
    intros s' tr E g frg Hg. injection E as <- <-. cbn in Hg. lookups; right; right; eexists; (split; [eassumption|]); cbn; lia.
Qed.

Lemma down_final_sub i w p :
  s_workers s !! i = Some w -> w_pc w = PSub p -> down s (final_sub i w p s).
Proof using I.
  intros Hi Hpc. unfold final_sub. destruct (s_frames s !! p) as [frp|] eqn:Hp; [|done].
  destruct (same_stacklet s p frp w) as [same|]; [|done].
  pose proof (i_node _ _ _ I p frp Hp) as (N1 & N2 & N3 & N4 & N5).
  assert (Hsw : wsub p w = 1) by (unfold wsub; by rewrite Hpc, eqn_refl).
  pose proof (sumw_ge (wsub p) _ _ _ Hi) as Hge. rewrite Hsw in Hge.
  assert (E2 : 1 <= f_joins frp).
  { destruct (f_rp frp) as [t|m st k pre|m st k|k|d t|e| |]; unfold u16max, run_scope, fork_scope, call_scope, max_forks in *.
    - destruct N5 as (N5 & _ & n & x & _ & M1 & M2 & _). lia.
    - destruct N5 as (N5 & n & x & (M1 & _) & M2 & _ & M3). lia.
    - destruct N5 as (N5 & _ & n & x & (M1 & _) & M2 & _). lia.
    - lia.
    - destruct N5 as (N5 & _ & n & x & _ & M1 & M2 & _). lia.
    - lia.
    - lia.
    - lia. }
  assert (E3 : u16sub (f_joins frp) 1 = f_joins frp - 1) by (apply u16sub_small; lia).
  cbn zeta. destruct (decide (f_joins frp = 1)).
  - destruct (f_rp frp); try done. destruct (if same then _ else _); [|done].
    apply down_join_resume. intros g Hg. cbn. by rewrite lookup_insert_ne by done.
  - rewrite E3. destruct same; [solve_down|]. apply down_to_idle.
    intros g frg Hg. cbn in Hg. lookups; eexists; (split; [eassumption|]); cbn; lia.
Qed.

Lemma down_root_destroy i w f fr : down s (root_destroy i w f fr s).
Proof using.
  unfold root_destroy. destruct (destroy w f fr s) as [s1|] eqn:Hd; [|done]. apply destroy_frames in Hd.
  apply down_to_idle. intros g frg. rewrite Hd. intros Hg. apply lookup_delete_Some in Hg as (_ & Hg).
  eexists. split; [done|lia].
Qed.

Lemma down_wstep i fail : down s (wstep i fail s).
Proof using I.
  unfold wstep. destruct (s_workers s !! i) as [w|] eqn:Hi; [|done].
  destruct (w_pc w) as [|f|f|p|p| |f|b|] eqn:Hpc.
  - destruct (w_batch w) as [|f rest]; [done|]. unfold resume_submitted.
    destruct (s_frames s !! f) as [fr|], (w_deque w), (stk s (w_stk w)); try done. solve_down.
  - unfold resume_stolen. destruct (s_frames s !! f) as [fr|] eqn:Hf; [|done]. destruct (w_deque w), (stk s (w_stk w)); try done. solve_down.
  - destruct (s_frames s !! f) as [fr|] eqn:Hf; [|done]. destruct (f_rp fr) eqn:Hr; try done.
    + by apply down_run_task.
    + by apply down_fork_resume.
    + solve_down.
    + by apply down_capture.
    + by apply down_finish.
    + apply down_root_destroy.
  - destruct (w_deque w) as [|q d]; [solve_down|]. destruct (decide _); [solve_down|done].
  - by apply down_final_sub.
  - apply down_to_idle. intros g frg Hg. cbn in Hg. eexists. split; [done|lia].
  - destruct (s_frames s !! f) as [fr|] eqn:Hf; [|done]. by apply down_join_suspend.
  - cbn zeta. destruct (stk _ _); [|done]. destruct b; solve_down.
  - unfold self_steal. destruct (w_deque w) as [|q d].
    + apply down_to_idle. intros g frg Hg. eexists. split; [done|lia].
    + destruct (s_frames s !! q) as [frq|] eqn:Hq; [|done]. solve_down.
Qed.

Lemma down_step l : down s (step l s).
Proof using I.
  destruct l as [i fail|i|i|i v|d t]; cbn [step].
  - apply down_wstep.
  - unfold stale. destruct (s_workers s !! i) as [w|]; [|done]. destruct (w_pc w); try done.
    destruct (s_frames s !! f) as [fr|] eqn:Hf; [|done]. destruct (f_rp fr) as [t|m st k pre| | | | | |]; try done.
    + destruct t; try done. destruct (decide _); [done|]. solve_down.
    + by apply down_fork_resume.
    + destruct (f_kind fr); try done. by apply down_finish.
  - unfold take. destruct (s_workers s !! i) as [w|]; [|done].
    destruct (w_pc w), (w_batch w), (w_inbox w); try done. solve_down.
  - unfold steal. destruct (s_workers s !! i) as [w|], (s_workers s !! v) as [wv|]; try done.
    destruct (decide _); [done|]. destruct (w_pc w), (w_batch w), (last (w_deque wv)); try done. solve_down.
  - unfold spawn. destruct (s_workers s !! d) as [wd|]; [|done]. pose proof (fresh_next _ eq_refl). solve_down.
Qed.
End step.

Lemma since_reach nw af P f x y : since nw af P f x y -> reach nw af x.1 x.2 -> reach nw af y.1 y.2.
Proof. induction 1 as [|x s h l s' tr _ IH Ha Hs _ _]; [done|]. intros HR. cbn. eapply reach_step; [by apply IH|done|done]. Qed.

(** [f] lives all the time. *)
Lemma since_live nw af P f x y : since nw af P f x y -> is_Some (s_frames x.1 !! f) -> is_Some (s_frames y.1 !! f).
Proof. by destruct 1. Qed.

Lemma since_down nw af f x y : since nw af (passes f) f x y -> reach nw af x.1 x.2 ->
  forall v v', counter f x.1 = Some v -> counter f y.1 = Some v' -> v' <= v.
Proof.
  induction 1 as [x|x s h l s' tr Hsin IH Ha Hs Hl Hnj]; intros HR v v' Hv Hv'.
  - rewrite Hv in Hv'. injection Hv' as <-. lia.
  - cbn in Hv'. unfold counter in Hv'. apply fmap_Some in Hv' as (fr' & Hf' & ->).
    destruct (reach_inv _ _ _ _ (since_reach _ _ _ _ _ _ Hsin HR)) as (G & I). cbn in I.
    destruct (since_live _ _ _ _ _ _ Hsin) as (fr & Hf).
    { unfold counter in Hv. apply fmap_Some in Hv as (fr0 & -> & _). eauto. }
    cbn in Hf. destruct (down_step _ _ _ I l _ _ Hs f fr' Hf') as [(cs & e & Hin)|[Hn|(fr1 & Hf1 & Hle)]].
    + destruct (Hnj _ Hin). by exists cs, e.
    + congruence.
    + specialize (IH HR v (f_joins fr1) Hv). unfold counter in IH. cbn in IH. rewrite Hf1 in IH. specialize (IH eq_refl). lia.
Qed.

(** ** The exception flag *)

Definition up (s : state) (r : res) : Prop :=
  forall s' tr, r = Next s' tr -> forall g fr frg, s_frames s !! g = Some fr -> f_eflag fr = true ->
    s_frames s' !! g = Some frg -> f_eflag frg = true \/ exists e, e ∈ tr /\ clears g e.

Ltac solve_up :=
  let E := fresh "E" in let Hg := fresh "Hg" in let Ho := fresh "Ho" in let Hfl := fresh "Hfl" in
  intros s' tr E g frx frg Ho Hfl Hg; injection E as <- <-; cbn in Hg; lookups; left; cbn in *; try done; try congruence.

Lemma up_join_resume i w f fr k s s1 tr0 :
  (forall g, g <> f -> s_frames s1 !! g = s_frames s !! g) -> up s (join_resume i w f fr k s1 tr0).
Proof.
  intros Hs. unfold join_resume. destruct (decide _); [|done].
  destruct (same_stacklet s1 f fr w) as [[]|]; try done.
  destruct (unsafe_rethrow fr) as [(o & fr')|]; [|done].
  intros s' tr E g frx frg Ho Hfl Hg. injection E as <- <-. cbn in Hg.
  apply lookup_insert_Some in Hg as [(<- & <-)|(Hne & Hg)].
  - right. exists (EvJoin f (f_cells fr) o). split; [set_solver|]. left. by eexists _, _.
  - left. rewrite Hs in Hg by done. congruence.
Qed.

Lemma up_take_join i w f fr k s tr0 : up s (take_stack_join_resume i w f fr k s tr0).
Proof.
  unfold take_stack_join_resume. destruct (decide _); [done|]. destruct (stk s (w_stk w)); [|done].
  apply up_join_resume. intros g Hg. cbn. by rewrite lookup_insert_ne by done.
Qed.

Lemma rethrow_flag fr fr' : unsafe_rethrow fr = Some (None, fr') -> fr' = fr.
Proof. unfold unsafe_rethrow. intros E. repeat case_match; try done; by injection E as <-. Qed.

Lemma up_call_resume seen i w f fr m st k s s1 tr0 :
  s_frames s !! f = Some fr -> (forall g frg, s_frames s1 !! g = Some frg -> s_frames s !! g = Some frg) ->
  up s (call_resume seen i w f fr m st k s1 tr0).
Proof.
  intros Hf Hs.
  assert (D : forall t tr1, up s (Next (put_worker i (set_pc (PRun f) w) (put_frame f (set_rp t fr) s1)) tr1)).
  { intros t tr1 s' tr E g frx frg Ho Hfl Hg. injection E as <- <-. cbn in Hg. left.
    apply lookup_insert_Some in Hg as [(<- & <-)|(Hne & Hg)]; [cbn; congruence|]. apply Hs in Hg. congruence. }
  unfold call_resume.
  assert (R : up s (match unsafe_rethrow fr with
    | Some (Some e, fr') => Next (put_worker i (set_pc (PRun f) w) (put_frame f (set_rp (RRun (k (CExn e))) fr') s1)) (tr0 ++ [EvEager f e])
    | Some (None, fr') => Next (put_worker i (set_pc (PRun f) w) (put_frame f (set_rp (RRun (k (CDone (fres_last (f_cells fr))))) fr') s1)) (tr0 ++ [])
    | None => Undef end)).
  { destruct (unsafe_rethrow fr) as [([e|] & fr')|] eqn:E; [..|done]; [|apply rethrow_flag in E as ->; apply D].
    intros s' tr E' g frx frg Ho Hfl Hg. injection E' as <- <-. cbn in Hg.
    apply lookup_insert_Some in Hg as [(<- & <-)|(Hne & Hg)]; [|left; apply Hs in Hg; congruence].
    right. exists (EvEager f e). split; [set_solver|]. right. by exists e. }
  destruct m, st; try (by apply D); destruct (decide _); try done; destruct (f_eflag fr), seen; by apply D.
Qed.

Lemma up_fork_resume seen i w f fr m st k pre s :
  s_frames s !! f = Some fr -> up s (fork_resume seen i w f fr m st k pre s).
Proof.
  intros Hf.
  assert (D : forall t tr1, up s (Next (put_frame f (set_rp t fr) s) tr1)).
  { intros t tr1. solve_up. }
  unfold fork_resume.
  assert (R : up s (match unsafe_rethrow fr with
    | Some (Some e, fr') => Next (put_frame f (set_rp (RRun (k (FExn e))) fr') s) [EvEager f e]
    | Some (None, fr') => Next (put_frame f (set_rp (RRun (k (FDone (fres_last (f_cells fr))))) fr') s) [EvSync f (fres_last (f_cells fr))]
    | None => Undef end)).
  { destruct (unsafe_rethrow fr) as [([e|] & fr')|] eqn:E; [..|done]; [|apply rethrow_flag in E as ->; apply D].
    intros s' tr E' g frx frg Ho Hfl Hg. injection E' as <- <-. cbn in Hg.
    apply lookup_insert_Some in Hg as [(<- & <-)|(Hne & Hg)]; [|left; congruence].
    right. exists (EvEager f e). split; [set_solver|]. right. by exists e. }
  destruct m; [by apply D|..]; (destruct (decide (f_steals fr = pre)); [|by apply D]); destruct st; try (by apply D);
    destruct (decide (f_steals fr = 0)); try done; destruct (f_eflag fr), seen; by apply D.
Qed.

Section flag.
Context (nw : nat) (G : ghost) (s : state) (I : inv nw G s).

Lemma up_deliver f fr o : s_frames s !! f = Some fr -> up s (deliver f fr o s).
Proof using.
  intros Hf. unfold deliver.
  destruct (f_kind fr) as [|p j st|p j st]; [solve_up|..];
    (destruct (s_frames s !! p) as [frp|] eqn:Hp; [|done]); destruct o, st; try solve_up;
    destruct (f_eflag frp) eqn:Efl; solve_up.
Qed.

Lemma up_capture f fr e : s_frames s !! f = Some fr -> up s (capture f fr e s).
Proof using.
  intros Hf. unfold capture.
  destruct (f_kind fr) as [|p j st|p j st]; [done|..]; (destruct (s_frames s !! p) as [frp|] eqn:Hp; [|done]); solve_up.
Qed.

Lemma up_finish seen i w f fr : s_frames s !! f = Some fr -> up s (finish seen i w f fr s).
Proof using.
  intros Hf. unfold finish. destruct (decide _); [|done].
  destruct (f_kind fr) as [|p j st|p j st].
  - solve_up.
  - destruct (destroy w f fr s) as [s1|] eqn:Hd; [|done]. apply destroy_frames in Hd.
    destruct (s_frames s1 !! p) as [frp|] eqn:Hp; [|done]. destruct (f_rp frp); try done.
    rewrite Hd in Hp. apply lookup_delete_Some in Hp as (_ & Hp). apply up_call_resume; [done|].
    intros g frg. rewrite Hd. intros Hg. by apply lookup_delete_Some in Hg as (_ & Hg).
  - destruct (destroy w f fr s) as [s1|] eqn:Hd; [|done]. apply destroy_frames in Hd.
    intros s' tr E g frx frg Ho Hfl Hg. injection E as <- <-. cbn in Hg. rewrite Hd in Hg.
    apply lookup_delete_Some in Hg as (_ & Hg). left. congruence.
Qed.

Lemma up_to_idle i w s1 tr0 :
  (forall g frg, s_frames s1 !! g = Some frg -> exists fr, s_frames s !! g = Some fr /\ f_eflag frg = f_eflag fr) ->
  up s (to_idle i w s1 tr0).
Proof using.
  intros Hs. unfold to_idle. repeat case_match; try done.
  intros s' tr E g frx frg Ho Hfl Hg. injection E as <- <-. cbn in Hg. left.
  destruct (Hs _ _ Hg) as (fr & Hf & ->). congruence.
Qed.

Lemma up_run_task i fail w f fr t : s_frames s !! f = Some fr -> up s (run_task i fail w f fr t s).
Proof using I.
  intros Hf. pose proof (fresh_next _ _ _ I _ eq_refl) as Hn. unfold run_task.
  destruct t as [v|e|m st c k|m st c k|k|sk d k|e k|k].
  - by apply up_deliver.
  - by apply up_deliver.
  - destruct fail; solve_up.
  - destruct fail; solve_up.
  - destruct (decide _); [by apply up_join_resume|]. destruct (decide _); [apply up_take_join|solve_up].
  - destruct (_ && _); [solve_up|].
    destruct (same_stacklet s f fr w) as [b|], (s_workers s !! d) as [wd|]; try done.
    destruct (decide _); [|done]. cbn zeta. destruct (s_workers _ !! d); [|done]. solve_up.
  - unfold self_capture. destruct (f_eflag fr) eqn:Efl; solve_up.
  - solve_up.
Qed.

Lemma up_join_suspend i w f fr : s_frames s !! f = Some fr -> up s (join_suspend i w f fr s).
Proof using.
  intros Hf. unfold join_suspend. destruct (f_rp fr) as [t| | | | | | |]; try done. destruct t; try done.
  destruct (decide _) as [Hd|Hd]; [|solve_up].
  unfold take_stack_join_resume. destruct (decide _); [done|]. destruct (stk s (w_stk w)); [|done].
  apply up_join_resume. intros g Hg. cbn. by rewrite lookup_insert_ne by done.
Qed.

Lemma up_final_sub i w p : up s (final_sub i w p s).
Proof using.
  unfold final_sub. destruct (s_frames s !! p) as [frp|] eqn:Hp; [|done].
  destruct (same_stacklet s p frp w) as [same|]; [|done]. cbn zeta. destruct (decide (f_joins frp = 1)).
  - destruct (f_rp frp); try done. destruct (if same then _ else _); [|done].
    apply up_join_resume. intros g Hg. cbn. by rewrite lookup_insert_ne by done.
  - destruct same; [solve_up|]. apply up_to_idle.
    intros g frg Hg. cbn in Hg. lookups; eexists; (split; [eassumption|]); done.
Qed.

Lemma up_root_destroy i w f fr : up s (root_destroy i w f fr s).
Proof using.
  unfold root_destroy. destruct (destroy w f fr s) as [s1|] eqn:Hd; [|done]. apply destroy_frames in Hd.
  apply up_to_idle. intros g frg. rewrite Hd. intros Hg. apply lookup_delete_Some in Hg as (_ & Hg). eauto.
Qed.

Lemma up_wstep i fail : up s (wstep i fail s).
Proof using I.
  unfold wstep. destruct (s_workers s !! i) as [w|] eqn:Hi; [|done].
  destruct (w_pc w) as [|f|f|p|p| |f|b|] eqn:Hpc.
  - destruct (w_batch w) as [|f rest]; [done|]. unfold resume_submitted.
    destruct (s_frames s !! f) as [fr|], (w_deque w), (stk s (w_stk w)); try done. solve_up.
  - unfold resume_stolen. destruct (s_frames s !! f) as [fr|] eqn:Hf; [|done]. destruct (w_deque w), (stk s (w_stk w)); try done. solve_up.
  - destruct (s_frames s !! f) as [fr|] eqn:Hf; [|done]. destruct (f_rp fr) eqn:Hr; try done.
    + by apply up_run_task.
    + by apply up_fork_resume.
    + solve_up.
    + by apply up_capture.
    + by apply up_finish.
    + apply up_root_destroy.
  - destruct (w_deque w) as [|q d]; [solve_up|]. destruct (decide _); [solve_up|done].
  - apply up_final_sub.
  - apply up_to_idle. intros g frg Hg. cbn in Hg. eauto.
  - destruct (s_frames s !! f) as [fr|] eqn:Hf; [|done]. by apply up_join_suspend.
  - cbn zeta. destruct (stk _ _); [|done]. destruct b; solve_up.
  - unfold self_steal. destruct (w_deque w) as [|q d].
    + apply up_to_idle. eauto.
    + destruct (s_frames s !! q) as [frq|] eqn:Hq; [|done]. solve_up.
Qed.

Lemma up_step l : up s (step l s).
Proof using I.
  destruct l as [i fail|i|i|i v|d t]; cbn [step].
  - apply up_wstep.
  - unfold stale. destruct (s_workers s !! i) as [w|]; [|done]. destruct (w_pc w); try done.
    destruct (s_frames s !! f) as [fr|] eqn:Hf; [|done]. destruct (f_rp fr) as [t|m st k pre| | | | | |]; try done.
    + destruct t; try done. destruct (decide _); [done|]. solve_up.
    + by apply up_fork_resume.
    + destruct (f_kind fr); try done. by apply up_finish.
  - unfold take. destruct (s_workers s !! i) as [w|]; [|done].
    destruct (w_pc w), (w_batch w), (w_inbox w); try done. solve_up.
  - unfold steal. destruct (s_workers s !! i) as [w|], (s_workers s !! v) as [wv|]; try done.
    destruct (decide _); [done|]. destruct (w_pc w), (w_batch w), (last (w_deque wv)); try done. solve_up.
  - unfold spawn. destruct (s_workers s !! d) as [wd|]; [|done]. pose proof (fresh_next _ _ _ I _ eq_refl). solve_up.
Qed.
End flag.

Lemma since_up nw af f x y : since nw af (clears f) f x y -> reach nw af x.1 x.2 ->
  flag f x.1 = Some true -> flag f y.1 = Some true.
Proof.
  induction 1 as [x|x s h l s' tr Hsin IH Ha Hs Hl Hnj]; intros HR Hv; [done|].
  specialize (IH HR Hv). unfold flag in IH |- *. cbn in IH |- *. apply fmap_Some in IH as (fr & Hf & Hfl).
  destruct Hl as (fr' & Hf'). rewrite Hf'. cbn.
  destruct (reach_inv _ _ _ _ (since_reach _ _ _ _ _ _ Hsin HR)) as (G & I). cbn in I.
  destruct (up_step _ _ _ I l _ _ Hs f fr fr' Hf (eq_sym Hfl) Hf') as [->|(e & Hin & He)]; [done|].
  by destruct (Hnj _ Hin).
Qed.

(** The number of children that have joined is at most the number of steals. *)
Lemma joined_steals nw G s i w f fr k :
  inv nw G s -> s_workers s !! i = Some w -> w_pc w = PRun f -> s_frames s !! f = Some fr ->
  f_rp fr = RRun (Join k) -> f_joins fr <= u16max /\ u16max - f_joins fr <= f_steals fr.
Proof.
  intros I Hi Hpc Hf Hr. pose proof (i_node _ _ _ I f fr Hf) as N.
  destruct (node_run _ _ _ _ _ _ _ _ _ N (or_introl Hr)) as (N1 & _ & _ & _ & N3 & _). lia.
Qed.
