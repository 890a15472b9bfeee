From stdpp Require Import gmap list numbers.
From Verif Require Import StackModel StackSpec StackProofs TlsModel TlsSpec.
Local Open Scope N_scope.

Lemma tls_inj t u : tls t = tls u -> t = u.
Proof. unfold tls. lia. Qed.
Lemma park_inj t u : park t = park u -> t = u.
Proof. unfold park. lia. Qed.
Lemma tls_park t k : tls t <> park k.
Proof. unfold tls, park. lia. Qed.
Lemma park_tls t k : park k <> tls t.
Proof. unfold tls, park. lia. Qed.

(** ** Single stack operations *)

Lemma s_reach w c o w' r : reach w c -> legal c o -> step w o = (w', r) -> reach w' (client_step c o r (tops w')).
Proof. apply reach_step. Qed.

Lemma s_new w c h orc : reach w c -> c !! h = None ->
  (exists w', step w (ONew h orc) = (w', RUnit) /\ reach w' (<[h := []]> c)) \/
  (step w (ONew h orc) = (w, RThrow) /\ forall hp f, stack_ctor orc (wheap w) <> Ret hp f).
Proof.
  intros Hr Hc. destruct (step w (ONew h orc)) as [w' r] eqn:E.
  assert (Hleg : legal c (ONew h orc)) by done.
  pose proof (reach_step_safe w c _ w' r Hr Hleg E) as Hub. pose proof (s_reach w c _ w' r Hr Hleg E) as Hr'.
  assert (Hw : wst w !! h = None).
  { pose proof (reach_handles w c h Hr) as Hh. rewrite Hc in Hh. destruct (wst w !! h); [|done]. destruct (proj1 Hh); [by eexists|done]. }
  assert (H : r = RUnit \/ r = RThrow /\ forall hp f, stack_ctor orc (wheap w) <> Ret hp f).
  { cbn [step] in E. rewrite Hw in E. destruct (stack_ctor orc (wheap w)) as [? ?|?|]; injection E as <- <-; [by left|by right|done]. }
  destruct H as [->|[-> H]]; [left; exists w'; done|right]. split; [|done]. f_equal. by apply (reach_throw_same w c _ w' Hr Hleg).
Qed.

Lemma s_destroy w c h : reach w c -> c !! h = Some [] ->
  exists w', step w (ODestroy h) = (w', RUnit) /\ reach w' (delete h c).
Proof.
  intros Hr Hc. destruct (step w (ODestroy h)) as [w' r] eqn:E.
  assert (r = RUnit) as ->; [|exists w'; split; [done|]; exact (s_reach w c (ODestroy h) w' _ Hr Hc E)].
  destruct (reach_winv w c Hr) as [g Hi]. destruct (winv_client _ _ _ _ _ Hi Hc) as (segs & cache & f & Hg & Hf & Hrep & Hv).
  destruct (stack_dtor_ok _ _ _ _ (inv_heap _ _ _ Hi) Hrep (eq_sym Hv)) as (h' & Hd & _).
  cbn [step] in E. rewrite Hf, Hd in E. by injection E.
Qed.

Lemma s_dealloc w c h x l : reach w c -> c !! h = Some (x :: l) ->
  exists w', step w (ODealloc h (a_ptr x)) = (w', RUnit) /\ reach w' (<[h := l]> c).
Proof.
  intros Hr Hc. destruct (step w (ODealloc h (a_ptr x))) as [w' r] eqn:E.
  assert (Hleg : legal c (ODealloc h (a_ptr x))) by (by exists x, l).
  assert (r = RUnit) as ->.
  { destruct (reach_winv w c Hr) as [g Hi]. destruct (winv_client _ _ _ _ _ Hi Hc) as (segs & cache & f & Hg & Hf & Hrep & Hv).
    destruct (stack_deallocate_ok _ _ _ _ _ _ (inv_heap _ _ _ Hi) Hrep (eq_sym Hv)) as (h' & f' & s' & c' & Hd & _).
    cbn [step] in E. rewrite Hf, Hd in E. by injection E. }
  exists w'. split; [done|]. pose proof (s_reach w c _ w' _ Hr Hleg E) as Hr'. cbn in Hr'. by rewrite Hc in Hr'.
Qed.

Lemma s_top w c h l : reach w c -> c !! h = Some l ->
  exists f, step w (OTop h) = (w, RPtr f) /\ wst w !! h = Some f.
Proof.
  intros Hr Hc. destruct (proj2 (reach_handles w c h Hr)) as [f Hf]; [by eexists|]. exists f. split; [|done].
  cbn [step]. rewrite Hf, (stack_top_ok w c h l f Hr Hc Hf). by destruct w.
Qed.

Lemma s_alloc w c h l size orc : reach w c -> c !! h = Some l -> size <= max_request ->
  (exists w' p f, step w (OAlloc h size orc) = (w', RPtr p) /\ wst w' !! h = Some f /\ reach w' (<[h := Alloc p size f :: l]> c)) \/
  step w (OAlloc h size orc) = (w, RThrow).
Proof.
  intros Hr Hc Hsz. destruct (step w (OAlloc h size orc)) as [w' r] eqn:E.
  assert (Hleg : legal c (OAlloc h size orc)) by (split; [by eexists|done]).
  pose proof (reach_step_safe w c _ w' r Hr Hleg E) as Hub. pose proof (s_reach w c _ w' r Hr Hleg E) as Hr'.
  assert (H : (exists p, r = RPtr p) \/ r = RThrow).
  { cbn [step] in E. destruct (wst w !! h); [|injection E as <- <-; done].
    destruct (stack_allocate _ _ _ _) as [? [? ?]|?|]; injection E as <- <-; [left; by eexists|by right|done]. }
  destruct H as [[p ->]| ->].
  - left. assert (is_Some (wst w' !! h)) as [f Hf].
    { apply (reach_handles w' _ h Hr'). cbn. rewrite Hc. destruct (tops w' h); [|rewrite Hc; by eexists]. rewrite lookup_insert. by eexists. }
    exists w', p, f. split_and!; [done|done|]. cbn in Hr'. rewrite Hc in Hr'. unfold tops in Hr'. by rewrite Hf in Hr'.
  - right. f_equal. by apply (reach_throw_same w c _ w' Hr Hleg).
Qed.

Lemma s_release w c h t l orc : reach w c -> c !! h = Some l -> c !! t = None ->
  (exists w' p, step w (ORelease h t orc) = (w', RPtr p) /\ reach w' (<[t := l]> (<[h := []]> c))) \/
  step w (ORelease h t orc) = (w, RThrow).
Proof.
  intros Hr Hc Ht. destruct (step w (ORelease h t orc)) as [w' r] eqn:E.
  assert (Hleg : legal c (ORelease h t orc)) by (split; [by eexists|done]).
  pose proof (reach_step_safe w c _ w' r Hr Hleg E) as Hub. pose proof (s_reach w c _ w' r Hr Hleg E) as Hr'.
  assert (H : (exists p, r = RPtr p) \/ r = RThrow).
  { cbn [step] in E. destruct (wst w !! h); [|injection E as <- <-; done]. destruct (wst w !! t); [injection E as <- <-; done|].
    destruct (stack_release _ _ _) as [? [? ?]|?|]; injection E as <- <-; [left; by eexists|by right|done]. }
  destruct H as [[p ->]| ->].
  - left. exists w', p. split; [done|]. cbn in Hr'. by rewrite Hc in Hr'.
  - right. f_equal. by apply (reach_throw_same w c _ w' Hr Hleg).
Qed.

Lemma insert_dom (c : client) k l j : is_Some (c !! k) -> is_Some (<[k := l]> c !! j) <-> is_Some (c !! j).
Proof. intros Hk. rewrite lookup_insert_is_Some'. split; [|by right]. intros [<-|?]; done. Qed.

(** ** The invariant *)

Definition tok (c : client) (t : nat) (x : thr) : Prop :=
  (t_stack x = true <-> is_Some (c !! tls t)) /\ t_alive x = t_ctx x /\
  match t_phase x with
  | Out => t_stack x = t_ctx x
  | Entered => t_stack x = true /\ t_ctx x = false /\ c !! tls t = Some []
  | Built p fr => t_stack x = true /\ t_ctx x = false /\ exists size, c !! tls t = Some [Alloc p size fr]
  | Released p fr k => t_stack x = true /\ t_ctx x = false /\ c !! tls t = Some [] /\
                       exists size, c !! park k = Some [Alloc p size fr]
  end.
Record tinv (s : tstate) (c : client) : Prop := {
  ti_reach : reach (tw s) c;
  ti_ok : forall t, tok c t (thread s t)
}.

Lemma thread_set t x s u : thread (set_thread t x s) u = if decide (u = t) then x else thread s u.
Proof.
  unfold thread, set_thread. cbn. destruct (decide (u = t)) as [->|]; [by rewrite lookup_insert|]. by rewrite lookup_insert_ne.
Qed.
Lemma thread_world w s u : thread (set_world w s) u = thread s u.
Proof. done. Qed.

(** A step of thread [t] changes its own entry, its stack, and possibly parks one. *)
Lemma tinv_own s c w t x c' :
  tinv s c -> reach w c' -> tok c' t x ->
  (forall u, u <> t -> c' !! tls u = c !! tls u) ->
  (forall u p fr k, u <> t -> t_phase (thread s u) = Released p fr k -> c' !! park k = c !! park k) ->
  tinv (set_thread t x (set_world w s)) c'.
Proof.
  intros Hi Hr Hx Hu Hp. split; [done|]. intros u. rewrite thread_set. destruct (decide (u = t)) as [->|Hne]; [done|].
  rewrite thread_world. pose proof (ti_ok s c Hi u) as Ho. unfold tok in *. rewrite (Hu u Hne).
  destruct (t_phase (thread s u)) as [| | |p fr k] eqn:E; try done. by rewrite (Hp u p fr k Hne E).
Qed.

Lemma leave_ok s c w l t r :
  tinv s c -> reach w (<[tls t := []]> l) -> (forall h, h <> tls t -> l !! h = c !! h) ->
  t_ctx (thread s t) = false ->
  exists s', leave t r (set_world w s) = (s', r) /\ tinv s' (delete (tls t) c) /\
    thread s' t = Thr false false false Out.
Proof.
  intros Hi Hr Hl Hc. unfold leave. cbn [tw set_world].
  destruct (s_destroy w _ (tls t) Hr) as (w' & -> & Hr'); [by rewrite lookup_insert|].
  pose proof (ti_ok s c Hi t) as (_ & Ha & _). rewrite !thread_world, Ha, Hc. eexists. split; [done|]. rewrite thread_set, decide_True by done. split; [|done].
  assert (Hd : delete (tls t) (<[tls t := []]> l) = delete (tls t) c).
  { rewrite delete_insert_delete. apply map_eq. intros h. destruct (decide (h = tls t)) as [->|]; [by rewrite !lookup_delete|].
    rewrite !lookup_delete_ne by done. by apply Hl. }
  rewrite Hd in Hr'. apply (tinv_own s c w' t); [done|done| | |].
  - split; cbn; [|done]. rewrite lookup_delete. split; [done|]. intros [? ?]. done.
  - intros u Hne. apply lookup_delete_ne. intros E. apply tls_inj in E. congruence.
  - intros u p fr k Hne _. apply lookup_delete_ne. apply tls_park.
Qed.

Lemma construct_ok s c t orc : tinv s c -> c !! tls t = None ->
  (exists w, construct_stack t orc (tw s) = (w, RUnit) /\ reach w (<[tls t := []]> c)) \/
  (construct_stack t orc (tw s) = (tw s, RThrow) /\ forall hp f, stack_ctor orc (wheap (tw s)) <> Ret hp f).
Proof.
  intros Hi Hc. unfold construct_stack.
  assert (Hw : wst (tw s) !! tls t = None).
  { pose proof (reach_handles (tw s) c (tls t) (ti_reach s c Hi)) as Hh. rewrite Hc in Hh.
    destruct (wst (tw s) !! tls t); [|done]. destruct (proj1 Hh); [by eexists|done]. }
  rewrite delete_notin by done. rewrite world_eta. apply s_new; [apply (ti_reach s c Hi)|done].
Qed.

Lemma tinv_set s c : tinv s c -> set_world (tw s) s = s.
Proof. by destruct s. Qed.

Lemma tstep_ok s c a s' r :
  tinv s c -> tlegal s c a -> tstep s a = Some (s', r) ->
  tinv s' (tview s c a r s') /\ r <> OUB /\ r <> OTerminate.
Proof.
  intros Hi Hl Hs. pose proof (ti_reach s c Hi) as Hr.
  destruct a as [t ctx_ok orc|t u|t orc|t size orc b|t k orc|t throws|o]; cbn [tstep] in Hs; cbn [tlegal] in Hl.
  - (* worker_init *)
    pose proof (ti_ok s c Hi t) as Ho. destruct (t_ctx (thread s t) && t_stack (thread s t)) eqn:Hb; [by injection Hs as <- <-|].
    destruct (Hl eq_refl) as (Hph & -> & hp & f & Hok). cbn [negb] in Hs. unfold in_schedule in Hph.
    destruct (t_phase (thread s t)) eqn:Hp; try done. destruct Ho as (H1 & H2 & H3). rewrite Hp in H3.
    assert (Hst : t_stack (thread s t) = false) by (destruct (t_stack (thread s t)), (t_ctx (thread s t)); done).
    assert (Hcn : c !! tls t = None).
    { destruct (c !! tls t); [|done]. rewrite Hst in H1. exfalso. assert (false = true) by (apply H1; by eexists). done. }
    destruct (construct_ok s c t orc Hi Hcn) as [(w & Hw & Hr')|[_ Hno]]; [|by destruct (Hno hp f)].
    rewrite Hw in Hs. injection Hs as <- <-. split; [|done]. cbn. apply (tinv_own s c); [done|done| | |].
    + split; cbn; [|done]. rewrite lookup_insert. split; [by eexists|done].
    + intros u Hne. apply lookup_insert_ne. intros E. apply tls_inj in E. congruence.
    + intros u p fr k Hne _. apply lookup_insert_ne. apply tls_park.
  - (* finalize *)
    pose proof (ti_ok s c Hi t) as (H1 & H2 & H3). destruct (bool_decide (t = u)) eqn:Htu; cbn [negb] in Hs; [|by injection Hs as <- <-].
    apply bool_decide_eq_true in Htu as <-.
    destruct (t_ctx (thread s t)) eqn:Hc, (t_stack (thread s t)) eqn:Hst; cbn [negb orb] in Hs; try (by injection Hs as <- <-).
    rewrite H2 in Hs. cbn [negb] in Hs.
    destruct (s_destroy _ _ (tls t) Hr) as (w & Hw & Hr'); [by apply Hl|]. rewrite Hw in Hs. injection Hs as <- <-.
    split; [|done]. cbn. apply (tinv_own s c); [done|done| | |].
    + split; cbn; [rewrite lookup_delete; split; [done|by intros [? ?]]|]. split; [done|].
      destruct (t_phase (thread s t)); [done|destruct H3 as (_ & ? & _); done..].
    + intros u Hne. apply lookup_delete_ne. intros E. apply tls_inj in E. congruence.
    + intros u p fr k Hne _. apply lookup_delete_ne. apply tls_park.
  - (* schedule, entry *)
    pose proof (ti_ok s c Hi t) as (H1 & H2 & H3).
    destruct (t_stack (thread s t)) eqn:Hst, (t_ctx (thread s t)) eqn:Hc; cbn [orb] in Hs; try (by injection Hs as <- <-).
    destruct (t_phase (thread s t)) eqn:Hp; try done.
    assert (Hcn : c !! tls t = None).
    { destruct (c !! tls t); [|done]. exfalso. assert (false = true) by (apply H1; by eexists). done. }
    destruct (construct_ok s c t orc Hi Hcn) as [(w & Hw & Hr')|[Hw _]]; rewrite Hw in Hs; injection Hs as <- <-; (split; [|done]); [|done].
    cbn. apply (tinv_own s c); [done|done| | |].
    + split; cbn; [|split_and!; [congruence|done|done|apply lookup_insert]]. rewrite lookup_insert. split; [by eexists|done].
    + intros u Hne. apply lookup_insert_ne. intros E. apply tls_inj in E. congruence.
    + intros u p fr k Hne _. apply lookup_insert_ne. apply tls_park.
  - (* building the task *)
    pose proof (ti_ok s c Hi t) as (H1 & H2 & H3). destruct (t_phase (thread s t)) eqn:Hp; try done.
    destruct H3 as (Hst & Hctx & Hct).
    assert (Hcc : <[tls t := []]> c = c) by (by apply insert_id).
    assert (Hlv : exists s1, leave t OThrow s = (s1, OThrow) /\ tinv s1 (delete (tls t) c) /\ thread s1 t = Thr false false false Out).
    { pose proof (leave_ok s c (tw s) c t OThrow Hi) as H. rewrite (tinv_set s c Hi) in H. apply H; [by rewrite Hcc|done|done]. }
    rewrite Hst in Hs. cbn [negb] in Hs.
    destruct (s_alloc _ c (tls t) [] size orc Hr Hct Hl) as [(w & p & f & Hw & Hf & Hr')|Hw]; rewrite Hw in Hs.
    + destruct (s_dealloc w _ (tls t) (Alloc p size f) [] Hr') as (w2 & Hw2 & Hr2); [by rewrite lookup_insert|]. cbn [a_ptr] in Hw2.
      rewrite insert_insert in Hr2. destruct (leave_ok s c w2 c t OThrow Hi Hr2) as (s2 & Hs2 & Hi2 & _); [done|done|].
      destruct (s_top w _ (tls t) _ Hr' (lookup_insert _ _ _)) as (f' & Htop & Hf'). rewrite Hf in Hf'. injection Hf' as <-.
      destruct b.
      * destruct Hlv as (s1 & Hs1 & Hi1 & _). rewrite Hs1 in Hs. injection Hs as <- <-. done.
      * rewrite Hw2, Hs2 in Hs. injection Hs as <- <-. done.
      * rewrite Htop in Hs. injection Hs as <- <-. split; [|done]. cbn [tview]. rewrite thread_set, decide_True by done. cbn [t_phase].
        apply (tinv_own s c); [done|done| | |].
        -- split; cbn; [rewrite lookup_insert; split; [by eexists|done]|]. split_and!; [done|done|done|].
           exists size. apply lookup_insert.
        -- intros u Hne. apply lookup_insert_ne. intros E. apply tls_inj in E. congruence.
        -- intros u p' fr k Hne _. apply lookup_insert_ne. apply tls_park.
    + destruct Hlv as (s1 & Hs1 & Hi1 & _). destruct b; rewrite Hs1 in Hs; injection Hs as <- <-; done.
  - (* releasing the stack *)
    pose proof (ti_ok s c Hi t) as (H1 & H2 & H3). destruct (t_phase (thread s t)) as [| |p fr|] eqn:Hp; try done.
    destruct H3 as (Hst & Hctx & size & Hct).
    destruct (s_release _ c (tls t) (park k) _ orc Hr Hct Hl) as [(w & q & Hw & Hr')|Hw]; rewrite Hw in Hs.
    + injection Hs as <- <-. split; [|done]. cbn [tview]. rewrite Hct. apply (tinv_own s c); [done|done| | |].
      * assert (Hlk : <[park k:=[Alloc p size fr]]> (<[tls t:=[]]> c) !! tls t = Some []).
        { rewrite lookup_insert_ne by apply park_tls. apply lookup_insert. }
        split; cbn [t_stack t_ctx t_alive t_phase]; [rewrite Hlk; split; [by eexists|done]|]. split_and!; [done|done|done|done|]. exists size. apply lookup_insert.
      * intros u Hne. rewrite lookup_insert_ne by apply park_tls. apply lookup_insert_ne. intros E. apply tls_inj in E. congruence.
      * intros u p' fr' k' Hne Hph. pose proof (ti_ok s c Hi u) as (_ & _ & H3). rewrite Hph in H3. destruct H3 as (_ & _ & _ & sz & Hk).
        rewrite !lookup_insert_ne; [done|apply tls_park|]. intros E. apply park_inj in E. subst. congruence.
    + unfold destroy_frame in Hs. rewrite Hst in Hs.
      destruct (s_top _ c (tls t) _ Hr Hct) as (f & Htop & Hf). rewrite Htop in Hs.
      pose proof (reach_top_newest _ c (tls t) _ _ Hr Hct) as Hnew. unfold tops in Hnew. rewrite Hf in Hnew. injection Hnew as Hnew. cbn in Hnew. subst f.
      rewrite decide_True in Hs by done.
      destruct (s_dealloc _ c (tls t) (Alloc p size fr) [] Hr Hct) as (w2 & Hw2 & Hr2). cbn [a_ptr] in Hw2. rewrite Hw2 in Hs.
      destruct (leave_ok s c w2 c t OThrow Hi Hr2) as (s2 & Hs2 & Hi2 & _); [done|done|]. rewrite Hs2 in Hs. injection Hs as <- <-. done.
  - (* handing the task over *)
    subst throws. pose proof (ti_ok s c Hi t) as (H1 & H2 & H3). destruct (t_phase (thread s t)) as [| | |p fr k] eqn:Hp; try done.
    destruct H3 as (Hst & Hctx & Hct & _).
    destruct (leave_ok s c (tw s) c t OOk Hi) as (s2 & Hs2 & Hi2 & _); [by rewrite insert_id|done|done|].
    rewrite (tinv_set s c Hi) in Hs2. rewrite Hs2 in Hs. injection Hs as <- <-. done.
  - (* a worker's use of stacks *)
    destruct Hl as [Hleg Huse]. destruct (step (tw s) o) as [w x] eqn:E.
    pose proof (reach_step_safe _ c o w x Hr Hleg E) as Hub. pose proof (s_reach _ c o w x Hr Hleg E) as Hr'.
    assert (Hs' : s' = set_world w s /\ r <> OUB /\ r <> OTerminate) by (destruct x; injection Hs as <- <-; done).
    destruct Hs' as (-> & Hx1 & Hx2). split; [|done].
    assert (Htv : tview s c (TWork o) r (set_world w s) = client_step c o x (tops w)) by (cbn; by rewrite E).
    rewrite Htv. clear Htv Hs. split; [done|]. intros u. rewrite thread_world. pose proof (ti_ok s c Hi u) as Ho.
    assert (Hkey : forall h l, c !! h = Some l -> ~ h ∈ op_handles o -> client_step c o x (tops w) !! h = Some l).
    { intros h l Hh Hno. exact (proj1 (proj2 (reach_other_untouched _ c o w x h l (Alloc 0 0 0) Hr Hleg E Hh Hno))). }
    assert (Hsame : forall h, is_Some (client_step c o x (tops w) !! tls h) <-> is_Some (c !! tls h)).
    { intros h. destruct o as [k ?|k|k ? ?|k ?|k m ?|k m|k|k]; cbn [may_use] in Huse; try done; destruct x; cbn [client_step]; try done.
      - destruct (c !! k) eqn:Ek; [|done]. destruct (tops w k); [|done]. apply insert_dom. by eexists.
      - destruct (c !! k) as [[|? ?]|] eqn:Ek; [done| |done]. apply insert_dom. by eexists.
      - destruct Huse as [_ [q ->]]. destruct (c !! k) eqn:Ek; [|done].
        rewrite lookup_insert_ne by apply park_tls. apply insert_dom. by eexists.
      - destruct Huse as (_ & [q ->] & _). destruct (c !! park q) eqn:Ek; [|done]. destruct Hleg as (Hne & Hk & _).
        rewrite insert_dom; [|rewrite lookup_delete_ne by done; by eexists]. rewrite lookup_delete_ne by apply park_tls. done. }
    destruct Ho as (H1 & H2 & H3). split; [by rewrite Hsame|]. split; [done|].
    assert (Hno : t_ctx (thread s u) = false -> tls u ∉ op_handles o).
    { intros Hcf Hin. assert (Hw : is_workers s (tls u)).
      { destruct o as [k ?|k|k ? ?|k ?|k m ?|k m|k|k]; cbn [may_use op_handles] in Huse, Hin; try done.
        - apply elem_of_list_singleton in Hin as ->. done.
        - apply elem_of_list_singleton in Hin as ->. done.
        - destruct Huse as [Hw [q ->]]. apply elem_of_cons in Hin as [->|Hin]; [done|]. apply elem_of_list_singleton in Hin. by destruct (tls_park u q).
        - destruct Huse as (Hw & [q ->] & _). apply elem_of_cons in Hin as [->|Hin]; [done|]. apply elem_of_list_singleton in Hin. by destruct (tls_park u q).
        - apply elem_of_list_singleton in Hin as ->. done.
        - apply elem_of_list_singleton in Hin as ->. done. }
      destruct Hw as (v & Hv & Hc). apply tls_inj in Hv as <-. congruence. }
    destruct (t_phase (thread s u)) as [| |p fr|p fr k] eqn:Hp; [done| | |].
    + destruct H3 as (? & Hcf & ?). split_and!; auto.
    + destruct H3 as (? & Hcf & sz & ?). split_and!; auto. exists sz. auto.
    + destruct H3 as (? & Hcf & ? & sz & Hk). split_and!; auto. exists sz. apply Hkey; [done|].
      intros Hin. assert (Htr : in_transit s (park k)) by (by exists u, p, fr, k).
      assert (Hw : ~ is_workers s (park k)) by (intros (v & Hv & _); by destruct (park_tls v k)).
      destruct o as [m ?|m|m ? ?|m ?|m m' ?|m m'|m|m]; cbn [may_use op_handles] in Huse, Hin; try done.
      * apply elem_of_list_singleton in Hin as <-. done.
      * apply elem_of_list_singleton in Hin as <-. done.
      * destruct Huse as [Hm _]. apply elem_of_cons in Hin as [<-|Hin]; [done|]. apply elem_of_list_singleton in Hin as <-.
        destruct Hleg as [_ Hleg]. congruence.
      * destruct Huse as (Hm & _ & Hnt). apply elem_of_cons in Hin as [<-|Hin]; [done|]. apply elem_of_list_singleton in Hin as <-. done.
      * apply elem_of_list_singleton in Hin as <-. done.
      * apply elem_of_list_singleton in Hin as <-. done.
Qed.

Lemma tinit_inv : tinv tinit ∅.
Proof.
  split; [apply reach_init|]. intros t. unfold thread. cbn. rewrite lookup_empty. split; cbn; [|done].
  rewrite lookup_empty. split; [done|by intros [? ?]].
Qed.
Lemma treach_inv s c : treach s c -> tinv s c.
Proof.
  induction 1 as [|s c a s' r Hr IH Hl Hs]; [apply tinit_inv|]. by apply (tstep_ok s c a s' r).
Qed.

(** ** A stack that is made, used and destroyed leaves no trace *)

Definition own (w0 : world) (h : nat) (w : world) (al : list alloc) : Prop :=
  exists segs cache f, heap_ok (wheap w) /\ rep (wheap w) f segs cache /\ view segs = al /\
    upd (wheap w0) (wheap w) [] (blocks segs cache) /\ wst w = <[h := f]> (wst w0) /\ wst w0 !! h = None.

Lemma reach_heap_ok w c : reach w c -> heap_ok (wheap w).
Proof. intros Hr. destruct (reach_winv w c Hr) as [g Hi]. apply (inv_heap _ _ _ Hi). Qed.

Lemma own_new w h orc w' : heap_ok (wheap w) -> step w (ONew h orc) = (w', RUnit) -> own w h w' [].
Proof.
  intros Hok E. cbn [step] in E. destruct (wst w !! h) eqn:Hn; [done|]. unfold stack_ctor in E.
  destruct (next_stacklet_root (wheap w) orc Hok) as [Ht|(a & s & Ht & Ha & H1 & H2 & H3 & Hok')]; rewrite Ht in E; [done|].
  injection E as <-. destruct (rep_fresh _ a s Ha H1 H2 H3) as [Hrep Hu]. exists [(a, [])], None, a. done.
Qed.
Lemma own_alloc w0 h w al size orc w' p : own w0 h w al -> size <= max_request ->
  step w (OAlloc h size orc) = (w', RPtr p) -> exists f, wst w' !! h = Some f /\ own w0 h w' (Alloc p size f :: al).
Proof.
  intros (segs & cache & f & Hok & Hrep & Hv & Hu & Hw & Hn) Hsz E. cbn [step] in E. rewrite Hw, lookup_insert in E.
  destruct (stack_allocate_ok _ _ _ _ orc _ Hok Hrep Hsz) as [Ht|(h' & f' & p' & segs' & cache' & Ht & Hok' & Hr' & Hv' & Hu')];
    rewrite Ht in E; [done|]. injection E as <- <-. exists f'. cbn. rewrite lookup_insert. split; [done|].
  exists segs', cache', f'. rewrite Hv', Hv. split_and!; try done; [by eapply upd_trans|by rewrite insert_insert].
Qed.
Lemma own_throw w0 h w al size orc w' : own w0 h w al -> size <= max_request ->
  step w (OAlloc h size orc) = (w', RThrow) -> w' = w.
Proof.
  intros (segs & cache & f & Hok & Hrep & Hv & Hu & Hw & Hn) Hsz E. cbn [step] in E. rewrite Hw, lookup_insert in E.
  destruct (stack_allocate_ok _ _ _ _ orc _ Hok Hrep Hsz) as [Ht|(h' & f' & p' & segs' & cache' & Ht & Hok' & Hr' & Hv' & Hu')];
    rewrite Ht in E; [|done]. injection E as <-. destruct w. cbn in *. by subst.
Qed.
Lemma own_dealloc w0 h w x al w' r : own w0 h w (x :: al) ->
  step w (ODealloc h (a_ptr x)) = (w', r) -> r = RUnit /\ own w0 h w' al.
Proof.
  intros (segs & cache & f & Hok & Hrep & Hv & Hu & Hw & Hn) E. cbn [step] in E. rewrite Hw, lookup_insert in E.
  destruct (stack_deallocate_ok _ _ _ _ _ _ Hok Hrep Hv) as (h' & f' & segs' & cache' & Ht & Hok' & Hr' & Hv' & Hu').
  rewrite Ht in E. injection E as <- <-. split; [done|]. exists segs', cache', f'. split_and!; try done; [by eapply upd_trans|].
  cbn. by rewrite insert_insert.
Qed.
Lemma own_destroy w0 h w w' r : own w0 h w [] -> step w (ODestroy h) = (w', r) -> r = RUnit /\ w' = w0.
Proof.
  intros (segs & cache & f & Hok & Hrep & Hv & Hu & Hw & Hn) E. cbn [step] in E. rewrite Hw, lookup_insert in E.
  destruct (stack_dtor_ok _ _ _ _ Hok Hrep Hv) as (h' & Ht & Hok' & Hu'). rewrite Ht in E. injection E as <- <-. split; [done|].
  pose proof (upd_trans _ _ _ _ _ _ Hu Hu') as [O _ _]. destruct w0 as [h0 st0]. cbn in *. f_equal; [|by apply delete_insert].
  apply map_eq. intros a. apply O; set_solver.
Qed.
