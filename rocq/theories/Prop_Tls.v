(** * C37 (worker_init / finalize) and C38 (failures inside schedule). *)

From stdpp Require Import gmap list numbers.
From Verif Require Import StackModel StackSpec StackProofs TlsModel TlsSpec TlsProofs.
Local Open Scope N_scope.

(** ** C37 *)

(** No covered sequence of calls, on any number of threads, is undefined or terminates. *)
Theorem C37_safe s c a s' r : treach s c -> tlegal s c a -> tstep s a = Some (s', r) -> r <> OUB /\ r <> OTerminate.
Proof. intros Hr Hl Hs. by destruct (tstep_ok s c a s' r (treach_inv s c Hr) Hl Hs) as (_ & ? & ?). Qed.

(** The flags always tell the truth: a thread that is not inside schedule has a
    usable stack exactly if it has a live context, and the flags say which. *)
Theorem C37_flags s c t : treach s c ->
  (t_stack (thread s t) = true <-> is_Some (wst (tw s) !! tls t)) /\
  (t_ctx (thread s t) = true <-> t_alive (thread s t) = true) /\
  (in_schedule s t = false -> t_stack (thread s t) = t_ctx (thread s t)).
Proof.
  intros Hr. pose proof (treach_inv s c Hr) as Hi. destruct (ti_ok s c Hi t) as (H1 & H2 & H3).
  rewrite (reach_handles _ c (tls t) (ti_reach s c Hi)), H2. split_and!; [done|done|].
  unfold in_schedule. by destruct (t_phase (thread s t)).
Qed.

(** worker_init on a thread that is not a worker, when nothing fails: the caller gets its context, both
    flags are set, the stack is new, empty and nobody else's, and no other thread's state changes. *)
Theorem C37_init_ok s c t orc hp f :
  treach s c -> t_ctx (thread s t) = false -> in_schedule s t = false -> stack_ctor orc (wheap (tw s)) = Ret hp f ->
  exists s', tstep s (TInit t true orc) = Some (s', OCtx t) /\ treach s' (<[tls t := []]> c) /\
    thread s' t = Thr true true true Out /\ c !! tls t = None /\ wst (tw s') !! tls t = Some f /\
    step (tw s') (OEmpty (tls t)) = (tw s', RBool true) /\
    forall u, u <> t -> thread s' u = thread s u /\ wst (tw s') !! tls u = wst (tw s) !! tls u /\ wst (tw s') !! tls u <> Some f.
Proof.
  intros Hr Hc Hin Hok. pose proof (treach_inv s c Hr) as Hi. destruct (ti_ok s c Hi t) as (H1 & H2 & H3).
  unfold in_schedule in Hin. destruct (t_phase (thread s t)) eqn:Hp; try done.
  assert (Hcn : c !! tls t = None).
  { destruct (c !! tls t) eqn:E; [|done]. assert (Hx : t_stack (thread s t) = true) by (apply H1; by eexists). congruence. }
  assert (Hwn : wst (tw s) !! tls t = None).
  { pose proof (reach_handles (tw s) c (tls t) (ti_reach s c Hi)) as Hh. rewrite Hcn in Hh.
    destruct (wst (tw s) !! tls t); [|done]. destruct (proj1 Hh); [by eexists|done]. }
  set (s' := set_thread t (Thr true true true Out) (set_world (World hp (<[tls t := f]> (wst (tw s)))) s)).
  assert (Hs : tstep s (TInit t true orc) = Some (s', OCtx t)).
  { cbn [tstep]. rewrite Hc. cbn [andb negb]. unfold construct_stack. rewrite delete_notin by done. cbn [step wst wheap].
    rewrite Hwn, Hok, Hp. done. }
  assert (Hr' : treach s' (<[tls t := []]> c)).
  { apply (treach_step s c (TInit t true orc) s' (OCtx t) Hr); [|done]. intros _. unfold in_schedule. rewrite Hp. eauto. }
  pose proof (ti_reach _ _ (treach_inv _ _ Hr')) as Hw.
  assert (Hf : wst (tw s') !! tls t = Some f) by (cbn [tw s' set_thread set_world wst]; by rewrite lookup_insert).
  exists s'. split_and!; [done|done|unfold s'; rewrite thread_set; by rewrite decide_True|done|done| |].
  { rewrite (reach_empty _ _ (tls t) [] Hw); [done|]. by rewrite lookup_insert. }
  intros u Hu. split; [unfold s'; rewrite thread_set; by rewrite decide_False|].
  split; [cbn [tw s' set_thread set_world wst]; apply lookup_insert_ne; intros E; apply tls_inj in E; congruence|].
  intros E. apply Hu, tls_inj. by apply (reach_tops_distinct _ _ (tls u) (tls t) f Hw).
Qed.

(** worker_init on a worker throws and changes nothing. *)
Theorem C37_init_twice s c t ctx_ok orc : treach s c -> t_ctx (thread s t) = true ->
  tstep s (TInit t ctx_ok orc) = Some (s, OThrow).
Proof.
  intros Hr Hc. pose proof (treach_inv s c Hr) as Hi. destruct (ti_ok s c Hi t) as (H1 & H2 & H3). cbn [tstep].
  assert (Hst : t_stack (thread s t) = true).
  { destruct (t_phase (thread s t)); [congruence|by destruct H3..]. }
  by rewrite Hc, Hst.
Qed.

(** finalize by another thread, or on a thread that is not a worker, throws and changes nothing. *)
Theorem C37_finalize_misuse s c t u : treach s c -> t <> u \/ t_ctx (thread s t) = false ->
  tstep s (TFinal t u) = Some (s, OThrow).
Proof.
  intros Hr Hm. cbn [tstep]. destruct (decide (t = u)) as [->|Hne]; [|by rewrite bool_decide_eq_false_2].
  rewrite bool_decide_eq_true_2 by done. destruct Hm as [?|Hc]; [done|]. by rewrite Hc.
Qed.

(** finalize of a worker whose tasks are done: succeeds, and the thread is as it was before. *)
Theorem C37_finalize_ok s c t : treach s c -> t_ctx (thread s t) = true -> c !! tls t = Some [] ->
  exists s', tstep s (TFinal t t) = Some (s', OOk) /\ treach s' (delete (tls t) c) /\ thread s' t = thr0 /\
    wst (tw s') !! tls t = None /\ forall u, u <> t -> thread s' u = thread s u.
Proof.
  intros Hr Hc Hct. pose proof (treach_inv s c Hr) as Hi. destruct (ti_ok s c Hi t) as (H1 & H2 & H3).
  assert (Hp : t_phase (thread s t) = Out).
  { destruct (t_phase (thread s t)); [done|destruct H3 as (_ & ? & _); congruence..]. }
  assert (Hst : t_stack (thread s t) = true) by (rewrite Hp in H3; congruence).
  destruct (s_destroy _ c (tls t) (ti_reach s c Hi) Hct) as (w & Hw & Hrw).
  set (s' := set_thread t (Thr false false false Out) (set_world w s)).
  assert (Hs : tstep s (TFinal t t) = Some (s', OOk)).
  { cbn [tstep]. rewrite bool_decide_eq_true_2 by done. rewrite H2, Hc, Hst, Hp. cbn [negb orb]. by rewrite Hw. }
  exists s'. split; [done|]. split; [|split_and!].
  - apply (treach_step s c (TFinal t t) s' OOk Hr); [|done]. by intros _ _.
  - unfold s'. rewrite thread_set. by rewrite decide_True.
  - cbn [tw s' set_thread set_world]. pose proof (reach_handles w _ (tls t) Hrw) as Hh. rewrite lookup_delete in Hh.
    destruct (wst w !! tls t); [|done]. destruct (proj1 Hh); [by eexists|done].
  - intros u Hu. unfold s'. rewrite thread_set. by rewrite decide_False.
Qed.

(** finalize right after worker_init restores the memory and every thread exactly. *)
Theorem C37_finalize_undoes s c t orc s1 s2 r :
  treach s c -> t_ctx (thread s t) = false -> in_schedule s t = false ->
  (exists hp f, stack_ctor orc (wheap (tw s)) = Ret hp f) ->
  tstep s (TInit t true orc) = Some (s1, OCtx t) -> tstep s1 (TFinal t t) = Some (s2, r) -> r = OOk /\ same s s2.
Proof.
  intros Hr Hc Hin (hp & f & Hok) H1 H2. pose proof (treach_inv s c Hr) as Hi. destruct (ti_ok s c Hi t) as (T1 & T2 & T3).
  destruct (C37_init_ok s c t orc hp f Hr Hc Hin Hok) as (s1' & H1' & Hr1 & Ht & Hcn & _). rewrite H1 in H1'. injection H1' as <-.
  unfold in_schedule in Hin. destruct (t_phase (thread s t)) eqn:Hp; try done.
  cbn [tstep] in H1. rewrite Hc in H1. cbn [andb negb] in H1. unfold construct_stack in H1.
  assert (Hwn : wst (tw s) !! tls t = None).
  { pose proof (reach_handles (tw s) c (tls t) (ti_reach s c Hi)) as Hh. rewrite Hcn in Hh.
    destruct (wst (tw s) !! tls t); [|done]. destruct (proj1 Hh); [by eexists|done]. }
  rewrite delete_notin, world_eta in H1 by done.
  destruct (step (tw s) (ONew (tls t) orc)) as [w x] eqn:E. cbn [step] in E. rewrite Hwn, Hok in E. injection E as <- <-.
  assert (Hown : own (tw s) (tls t) (World hp (<[tls t:=f]> (wst (tw s)))) []).
  { apply (own_new (tw s) (tls t) orc); [apply (reach_heap_ok _ c), (ti_reach s c Hi)|]. cbn [step]. by rewrite Hwn, Hok. }
  injection H1 as <-. cbn [tstep] in H2. rewrite bool_decide_eq_true_2 in H2 by done. rewrite !thread_set in H2.
  rewrite !decide_True in H2 by done. cbn [negb orb t_ctx t_stack t_alive t_phase tw set_thread set_world] in H2.
  destruct (step _ (ODestroy (tls t))) as [w2 x] eqn:E. destruct (own_destroy _ _ _ _ _ Hown E) as [-> ->].
  injection H2 as <- <-. split; [done|]. split; [done|]. intros u. rewrite thread_set. destruct (decide (u = t)) as [->|Hu].
  - destruct (thread s t); cbn in *. congruence.
  - rewrite thread_world, thread_set. by rewrite decide_False.
Qed.

(** What the property promises and the code does not do (partial above):
    when the allocation of the stack fails, worker_init swallows the exception, destroys the context, sets both flags and
    returns the dangling pointer; a later finalize destroys the context a second time. *)
Theorem C37_init_failure_refuted s c t orc :
  treach s c -> t_ctx (thread s t) = false -> in_schedule s t = false -> (forall hp f, stack_ctor orc (wheap (tw s)) <> Ret hp f) ->
  exists s', tstep s (TInit t true orc) = Some (s', OCtx t) /\
    t_ctx (thread s' t) = true /\ t_stack (thread s' t) = true /\
    t_alive (thread s' t) = false /\ wst (tw s') !! tls t = None /\
    tstep s' (TFinal t t) = Some (s', OUB).
Proof.
  intros Hr Hc Hin Hno. pose proof (treach_inv s c Hr) as Hi. destruct (ti_ok s c Hi t) as (T1 & T2 & T3).
  unfold in_schedule in Hin. destruct (t_phase (thread s t)) eqn:Hp; try done.
  assert (Hcn : c !! tls t = None).
  { destruct (c !! tls t) eqn:E; [|done]. assert (Hx : t_stack (thread s t) = true) by (apply T1; by eexists). congruence. }
  assert (Hwn : wst (tw s) !! tls t = None).
  { pose proof (reach_handles (tw s) c (tls t) (ti_reach s c Hi)) as Hh. rewrite Hcn in Hh.
    destruct (wst (tw s) !! tls t); [|done]. destruct (proj1 Hh); [by eexists|done]. }
  exists (set_thread t (Thr true true false Out) s).
  rewrite !thread_set, !decide_True by done. split; [|split_and!; [done|done|done|done|]].
  - cbn [tstep]. rewrite Hc, Hp. cbn [andb negb]. destruct (construct_ok s c t orc Hi Hcn) as [(w & Hw & _)|[-> _]]; [|done].
    exfalso. unfold construct_stack in Hw. rewrite delete_notin in Hw by done. cbn [step wst wheap] in Hw. rewrite Hwn in Hw.
    destruct (stack_ctor orc (wheap (tw s))) as [hp f|?|] eqn:E; [by apply (Hno hp f)|done|done].
  - cbn [tstep]. rewrite bool_decide_eq_true_2 by done. rewrite thread_set, decide_True by done. done.
Qed.

(** Likewise when the context's own allocation fails: its constructor is noexcept. *)
Theorem C37_context_failure_refuted s t orc :
  t_ctx (thread s t) && t_stack (thread s t) = false -> tstep s (TInit t false orc) = Some (s, OTerminate).
Proof. intros Hb. cbn [tstep]. by rewrite Hb. Qed.

(** And worker_init inside the extent of schedule (say, from the copy constructor of an argument) is not refused: it
    builds a second stack over the live one, whose memory can then never be freed. *)
Theorem C37_init_inside_schedule_refuted s c t orc hp f f0 :
  treach s c -> t_phase (thread s t) = Entered -> wst (tw s) !! tls t = Some f0 ->
  stack_ctor orc (wheap (tw s)) = Ret hp f ->
  exists s', tstep s (TInit t true orc) = Some (s', OCtx t) /\ f <> f0 /\
    wst (tw s') !! tls t = Some f /\ is_Some (wheap (tw s') !! f0) /\ forall h, wst (tw s') !! h <> Some f0.
Proof.
  intros Hr Hp Hw0 Hok. pose proof (treach_inv s c Hr) as Hi. destruct (ti_ok s c Hi t) as (T1 & T2 & T3). rewrite Hp in T3.
  destruct T3 as (Hst & Hc & Hct). pose proof (ti_reach s c Hi) as Hrw. destruct (reach_winv _ _ Hrw) as [g Hw].
  destruct (winv_client _ _ _ _ _ Hw Hct) as (segs & cache & f' & Hg & Hf & Hrep & _). assert (f' = f0) as -> by congruence.
  destruct (rep_head_inv _ _ _ _ Hrep) as (al & rest & x & _ & Hx & _).
  unfold stack_ctor in Hok. destruct (next_stacklet_root (wheap (tw s)) orc (inv_heap _ _ _ Hw)) as [Ht|(a & y & Ht & Ha & _)]; [congruence|].
  rewrite Ht in Hok. injection Hok as <- ->.
  exists (set_thread t (Thr true true true Entered) (set_world (World (<[f:=y]> (wheap (tw s))) (<[tls t := f]> (wst (tw s)))) s)).
  assert (Hne : f <> f0) by congruence. split; [|split_and!].
  - cbn [tstep]. rewrite Hc. cbn [andb negb]. unfold construct_stack. cbn [step wst wheap]. rewrite lookup_delete. unfold stack_ctor.
    rewrite Ht, Hp. by rewrite insert_delete_insert.
  - done.
  - cbn [tw set_thread set_world wst]. apply lookup_insert.
  - cbn [tw set_thread set_world wheap]. rewrite lookup_insert_ne by done. by eexists.
  - intros h. cbn [tw set_thread set_world wst]. destruct (decide (h = tls t)) as [->|Hh]; [rewrite lookup_insert; congruence|].
    rewrite lookup_insert_ne by done. intros E. apply Hh. exact (reach_tops_distinct _ _ h (tls t) f0 Hrw E Hw0).
Qed.

(** ** C38 *)

(** Called by a worker, or again from inside schedule: throws, nothing changes. *)
Theorem C38_in_worker_throws s c t x : treach s c -> t_ctx (thread s t) = true \/ in_schedule s t = true ->
  schedule t x s = Some (s, OThrow).
Proof.
  intros Hr H. pose proof (treach_inv s c Hr) as Hi. destruct (ti_ok s c Hi t) as (T1 & T2 & T3).
  assert (Hb : t_stack (thread s t) || t_ctx (thread s t) = true).
  { destruct H as [->|Hin]; [by rewrite orb_true_r|]. unfold in_schedule in Hin.
    destruct (t_phase (thread s t)); [done|destruct T3 as (-> & _); done..]. }
  unfold schedule. cbn [go_on tstep]. rewrite Hb. by destruct (in_schedule s t).
Qed.

(** Any other call: if any allocation or any copy fails, schedule throws, and the memory and every thread are
    exactly as before; otherwise it returns, the calling thread is as before, and
    the only thing that is new is the stack that holds the task's frame, ready to be adopted. *)
Theorem C38_all_or_nothing_partial s c t x :
  treach s c -> t_ctx (thread s t) = false -> in_schedule s t = false ->
  sa_size x <= max_request -> c !! park (sa_park x) = None -> sa_throws x = false ->
  exists s' r, schedule t x s = Some (s', r) /\
    ((r = OThrow /\ same s s') \/
     (r = OOk /\ sa_build x = AllWell /\ (forall u, thread s' u = thread s u) /\ wst (tw s') !! tls t = None /\
      exists p fr, wst (tw s') !! park (sa_park x) = Some fr /\
        treach s' (<[park (sa_park x) := [Alloc p (sa_size x) fr]]> c))).
Proof.
  intros Hr Hc Hin Hsz Hpk Hth. pose proof (treach_inv s c Hr) as Hi. destruct (ti_ok s c Hi t) as (T1 & T2 & T3).
  pose proof Hin as Hin'. unfold in_schedule in Hin'. destruct (t_phase (thread s t)) eqn:Hp; try done. clear Hin'.
  assert (Hst : t_stack (thread s t) = false) by congruence.
  assert (Hthr : thread s t = Thr false false false Out) by (destruct (thread s t); cbn in *; congruence).
  assert (Hcn : c !! tls t = None).
  { destruct (c !! tls t) eqn:E; [|done]. assert (Hx : t_stack (thread s t) = true) by (apply T1; by eexists). congruence. }
  assert (Hwn : wst (tw s) !! tls t = None).
  { pose proof (reach_handles (tw s) c (tls t) (ti_reach s c Hi)) as Hh. rewrite Hcn in Hh.
    destruct (wst (tw s) !! tls t); [|done]. destruct (proj1 Hh); [by eexists|done]. }
  unfold schedule. cbn [go_on].
  (* entry *)
  destruct (tstep s (TEnter t (sa_enter x))) as [[s1 r1]|] eqn:E1; cycle 1.
  { exfalso. cbn [tstep] in E1. rewrite Hst, Hc, Hp in E1. cbn [orb] in E1. destruct (construct_stack _ _ _) as [w []]; done. }
  pose proof (treach_step s c (TEnter t (sa_enter x)) s1 r1 Hr I E1) as Hr1.
  pose proof E1 as E1'. cbn [tstep] in E1'. rewrite Hst, Hc, Hp in E1'. cbn [orb] in E1'.
  destruct (construct_ok s c t (sa_enter x) Hi Hcn) as [(w1 & Hw1 & Hrw1)|[Hw1 _]]; rewrite Hw1 in E1'; injection E1' as <- <-; cycle 1.
  { rewrite Hin. exists s, OThrow. split; [done|]. left. split; [done|]. by split. }
  assert (Hown1 : own (tw s) (tls t) w1 []).
  { unfold construct_stack in Hw1. rewrite delete_notin, world_eta in Hw1 by done.
    apply (own_new (tw s) (tls t) (sa_enter x)); [|done]. apply (reach_heap_ok _ c), (ti_reach s c Hi). }
  cbn [tview] in Hr1. rewrite T2, Hc in *. 
  set (s1 := set_thread t (Thr true false false Entered) (set_world w1 s)) in *.
  assert (Ht1 : thread s1 t = Thr true false false Entered) by (unfold s1; rewrite thread_set; by rewrite decide_True).
  assert (Hin1 : in_schedule s1 t = true) by (unfold in_schedule; by rewrite Ht1). rewrite Hin1.
  (* leaving after a failure *)
  assert (Hleave : forall w2 s2, own (tw s) (tls t) w2 [] -> (forall u, u <> t -> thread s2 u = thread s u) -> tw s2 = w2 ->
            t_ctx (thread s2 t) = false -> t_alive (thread s2 t) = false ->
            exists s3, leave t OThrow s2 = (s3, OThrow) /\ same s s3 /\ in_schedule s3 t = false).
  { intros w2 s2 Hown Hu Htw2 Hc2 Ha2. unfold leave. rewrite Htw2. destruct (step w2 (ODestroy (tls t))) as [w3 y] eqn:E.
    destruct (own_destroy _ _ _ _ _ Hown E) as [-> ->]. rewrite Hc2, Ha2. eexists. split; [done|]. split; [split; [done|]|].
    - intros u. rewrite thread_set. destruct (decide (u = t)) as [->|Hne]; [done|]. rewrite thread_world. by apply Hu.
    - unfold in_schedule. rewrite thread_set. by rewrite decide_True. }
  assert (Hu1 : forall u, u <> t -> thread s1 u = thread s u).
  { intros u Hne. unfold s1. rewrite thread_set. by rewrite decide_False. }
  assert (Hlv1 : exists s3, leave t OThrow s1 = (s3, OThrow) /\ same s s3 /\ in_schedule s3 t = false).
  { apply (Hleave w1); [done|done|done|by rewrite Ht1..]. }
  (* building *)
  destruct (tstep s1 (TBuild t (sa_size x) (sa_alloc x) (sa_build x))) as [[s2 r2]|] eqn:E2; cycle 1.
  { exfalso. cbn [tstep] in E2. rewrite Ht1 in E2. cbn [t_phase t_stack negb] in E2. destruct (sa_build x); [done| |].
    all: destruct (step _ _) as [w' []]; try done. all: destruct (step w' _) as [w'' []]; done. }
  pose proof (treach_step s1 _ (TBuild t (sa_size x) (sa_alloc x) (sa_build x)) s2 r2 Hr1 Hsz E2) as Hr2.
  pose proof E2 as E2'. cbn [tstep] in E2'. rewrite Ht1 in E2'. cbn [t_phase t_stack negb] in E2'.
  destruct Hlv1 as (s3 & Hs3 & Hsame3 & Hin3).
  destruct (s_alloc w1 _ (tls t) [] (sa_size x) (sa_alloc x) Hrw1 (lookup_insert _ _ _) Hsz) as [(w2 & p & f & Hw2 & Hf2 & Hrw2)|Hw2];
    change (tw s1) with w1 in E2'; rewrite Hw2 in E2'; cycle 1.
  { assert (Hx : Some (leave t OThrow s1) = Some (s2, r2)) by (by destruct (sa_build x)). rewrite Hs3 in Hx. injection Hx as <- <-.
    rewrite Hin3. exists s3, OThrow. split; [done|]. by left. }
  destruct (own_alloc _ _ _ _ _ _ _ _ Hown1 Hsz Hw2) as (f' & Hf' & Hown2). rewrite Hf2 in Hf'. injection Hf' as <-.
  destruct (step w2 (ODealloc (tls t) p)) as [w2' y] eqn:Edel.
  destruct (own_dealloc (tw s) (tls t) w2 (Alloc p (sa_size x) f) [] w2' y Hown2 Edel) as [-> Hown2'].
  destruct (s_top w2 _ (tls t) _ Hrw2 (lookup_insert _ _ _)) as (f' & Htop & Hf'). rewrite Hf2 in Hf'. injection Hf' as <-.
  destruct (sa_build x) eqn:Hb.
  { rewrite Hs3 in E2'. injection E2' as <- <-. rewrite Hin3. exists s3, OThrow. split; [done|]. by left. }
  { destruct (Hleave w2' (set_world w2' s1) Hown2') as (s4 & Hs4 & Hsame4 & Hin4); [done|done|by rewrite thread_world, Ht1..|].
    rewrite Hs4 in E2'. injection E2' as <- <-. rewrite Hin4. exists s4, OThrow. split; [done|]. by left. }
  rewrite Htop in E2'. cbn [t_ctx t_alive] in E2'. injection E2' as <- <-.
  set (s2 := set_thread t (Thr true false false (Built p f)) (set_world w2 s1)) in *.
  assert (Ht2 : thread s2 t = Thr true false false (Built p f)) by (unfold s2; rewrite thread_set; by rewrite decide_True).
  assert (Hu2 : forall u, u <> t -> thread s2 u = thread s u).
  { intros u Hne. unfold s2. rewrite thread_set, decide_False by done. by apply Hu1. }
  cbn [tview] in Hr2. rewrite Ht2 in Hr2. cbn [t_phase] in Hr2. rewrite insert_insert in Hr2.
  assert (Hin2 : in_schedule s2 t = true) by (unfold in_schedule; by rewrite Ht2). rewrite Hin2.
  set (c2 := <[tls t := [Alloc p (sa_size x) f]]> c) in *.
  assert (Hpk2 : c2 !! park (sa_park x) = None) by (unfold c2; rewrite lookup_insert_ne by apply tls_park; done).
  assert (Hct2 : c2 !! tls t = Some [Alloc p (sa_size x) f]) by apply lookup_insert.
  pose proof (ti_reach _ _ (treach_inv _ _ Hr2)) as Hrw2'. change (tw s2) with w2 in Hrw2'.
  (* release *)
  destruct (tstep s2 (TRelease t (sa_park x) (sa_release x))) as [[s5 r5]|] eqn:E5; cycle 1.
  { exfalso. cbn [tstep] in E5. rewrite Ht2 in E5. cbn [t_phase] in E5. destruct (step (tw s2) (ORelease _ _ _)) as [w' []]; try done.
    by destruct (destroy_frame _ _ _ _). }
  pose proof (treach_step s2 _ (TRelease t (sa_park x) (sa_release x)) s5 r5 Hr2 Hpk2 E5) as Hr5.
  pose proof E5 as E5'. cbn [tstep] in E5'. rewrite Ht2 in E5'. cbn [t_phase t_stack t_ctx t_alive] in E5'.
  change (tw s2) with w2 in E5'.
  destruct (s_release w2 c2 (tls t) (park (sa_park x)) _ (sa_release x) Hrw2' Hct2 Hpk2) as [(w5 & q & Hw5 & Hrw5)|Hw5]; rewrite Hw5 in E5'; cycle 1.
  { unfold destroy_frame in E5'. rewrite Ht2 in E5'. cbn [t_stack] in E5'. change (tw s2) with w2 in E5'. rewrite Htop, Edel in E5'.
    rewrite decide_True in E5' by done.
    destruct (Hleave w2' (set_world w2' s2) Hown2') as (s4 & Hs4 & Hsame4 & Hin4); [done|done|by rewrite thread_world, Ht2..|].
    rewrite Hs4 in E5'. injection E5' as <- <-. rewrite Hin4. exists s4, OThrow. split; [done|]. by left. }
  injection E5' as <- <-.
  set (s5 := set_thread t (Thr true false false (Released p f (sa_park x))) (set_world w5 s2)) in *.
  assert (Ht5 : thread s5 t = Thr true false false (Released p f (sa_park x))) by (unfold s5; rewrite thread_set; by rewrite decide_True).
  assert (Hu5 : forall u, u <> t -> thread s5 u = thread s u).
  { intros u Hne. unfold s5. rewrite thread_set, decide_False by done. by apply Hu2. }
  assert (Hin5 : in_schedule s5 t = true) by (unfold in_schedule; by rewrite Ht5). rewrite Hin5.
  cbn [tview] in Hr5. rewrite Hct2 in Hr5.
  (* submit *)
  rewrite Hth. destruct (tstep s5 (TSubmit t false)) as [[s6 r6]|] eqn:E6; cycle 1.
  { exfalso. cbn [tstep] in E6. by rewrite Ht5 in E6. }
  pose proof (treach_step s5 _ (TSubmit t false) s6 r6 Hr5 eq_refl E6) as Hr6.
  cbn [tstep] in E6. rewrite Ht5 in E6. cbn [t_phase] in E6.
  set (c5 := <[park (sa_park x):=[Alloc p (sa_size x) f]]> (<[tls t:=[]]> c2)) in *.
  assert (Hct5 : c5 !! tls t = Some []).
  { unfold c5. rewrite lookup_insert_ne by apply park_tls. apply lookup_insert. }
  destruct (leave_ok s5 c5 (tw s5) c5 t OOk (treach_inv _ _ Hr5)) as (s6' & Hs6 & Hi6 & Ht6).
  { rewrite insert_id by done. apply (ti_reach _ _ (treach_inv _ _ Hr5)). } { done. } { by rewrite Ht5. }
  rewrite (tinv_set s5 c5 (treach_inv _ _ Hr5)) in Hs6. rewrite Hs6 in E6. injection E6 as <- <-.
  cbn [tview] in Hr6.
  assert (Hc6 : delete (tls t) c5 = <[park (sa_park x) := [Alloc p (sa_size x) f]]> c).
  { unfold c5, c2. rewrite insert_insert, delete_insert_ne by apply tls_park. by rewrite delete_insert. }
  rewrite Hc6 in *. assert (Hin6 : in_schedule s6' t = false) by (unfold in_schedule; by rewrite Ht6). rewrite Hin6.
  exists s6', OOk. split; [done|]. right. split; [done|]. split; [done|]. split_and!.
  - intros u. destruct (decide (u = t)) as [->|Hne]; [congruence|]. unfold leave in Hs6.
    destruct (step (tw s5) (ODestroy (tls t))) as [w6 [| | | |]]; try done. injection Hs6 as <-. rewrite thread_set, decide_False by done.
    rewrite thread_world. by apply Hu5.
  - pose proof (reach_handles _ _ (tls t) (ti_reach _ _ Hi6)) as Hh. rewrite lookup_insert_ne in Hh by apply park_tls. rewrite Hcn in Hh.
    destruct (wst (tw s6') !! tls t); [|done]. destruct (proj1 Hh); [by eexists|done].
  - exists p, f. split; [|done].
    exact (reach_top_newest _ _ (park (sa_park x)) (Alloc p (sa_size x) f) [] (ti_reach _ _ Hi6) (lookup_insert _ _ _)).
Qed.

(** The promise itself is false: whenever sch.schedule throws, the coroutine is destroyed
    while the thread's stack is the new one, not the one that holds the frame. *)
Theorem C38_schedule_throws_refuted s c t p fr k :
  treach s c -> t_phase (thread s t) = Released p fr k -> tstep s (TSubmit t true) = Some (s, OUB).
Proof.
  intros Hr Hp. pose proof (treach_inv s c Hr) as Hi. destruct (ti_ok s c Hi t) as (T1 & T2 & T3). rewrite Hp in T3.
  destruct T3 as (Hst & Hc & Hct & sz & Hk). cbn [tstep]. rewrite Hp. unfold destroy_frame. rewrite Hst.
  destruct (s_top _ c (tls t) [] (ti_reach s c Hi) Hct) as (f & -> & Hf).
  rewrite decide_False; [done|]. intros ->.
  apply (tls_park t k). apply (reach_top_owner _ c (park k) (tls t) (Alloc p sz fr) _ (ti_reach s c Hi) Hk); [by left|done].
Qed.

(** ** Concrete cases *)

Definition tnext (x : tstate * client) (a : tact) : tstate * client :=
  match tstep (fst x) a with Some (s', r) => (s', tview (fst x) (snd x) a r s') | None => x end.
Lemma tnext_reach x a : treach (fst x) (snd x) -> tlegal (fst x) (snd x) a -> treach (fst (tnext x a)) (snd (tnext x a)).
Proof.
  intros Hr Hl. unfold tnext. destruct (tstep (fst x) a) as [[s' r]|] eqn:E; [|done]. by apply (treach_step _ _ a).
Qed.

(** Thread 1 becomes a worker; thread 0 schedules a task whose frame has 500 bytes; thread 1 adopts the
    stack, runs the task, frees the frame, and is finalised. *)
Definition e0 : tstate * client := (tinit, ∅).
Definition e1 := tnext e0 (TInit 1 true (Some 4096)).
Definition e2 := tnext e1 (TEnter 0 (Some 65536)).
Definition e3 := tnext e2 (TBuild 0 500 None AllWell).
Definition e4 := tnext e3 (TRelease 0 7 (Some 131072)).
Definition e5 := tnext e4 (TSubmit 0 false).
Definition e6 := tnext e5 (TWork (OAdopt (tls 1) (park 7))).
Definition e7 := tnext e6 (TWork (ODealloc (tls 1) (65536 + 48))).
Definition e8 := tnext e7 (TFinal 1 1).

Lemma worker1 (x : tstate * client) : t_ctx (thread (fst x) 1) = true -> is_workers (fst x) (tls 1).
Proof. by exists 1%nat. Qed.
Example life_1 : treach (fst e1) (snd e1).
Proof.
  apply tnext_reach; [apply treach_init|]. intros _. split; [done|]. split; [done|].
  destruct (stack_ctor (Some 4096) (wheap (tw (fst e0)))) eqn:E; [by do 2 eexists|by vm_compute in E..].
Qed.
Example life_2 : treach (fst e2) (snd e2).
Proof. apply tnext_reach; [apply life_1|done]. Qed.
Example life_3 : treach (fst e3) (snd e3).
Proof. apply tnext_reach; [apply life_2|by vm_compute]. Qed.
Example life_4 : treach (fst e4) (snd e4).
Proof. apply tnext_reach; [apply life_3|by vm_compute]. Qed.
Example life_5 : treach (fst e5) (snd e5).
Proof. apply tnext_reach; [apply life_4|done]. Qed.
Lemma e5_threads : forall t, t_phase (thread (fst e5) t) = Out.
Proof.
  intros [|[|t]]; [vm_compute; reflexivity..|]. unfold thread.
  assert (Hm : map_to_list (tt (fst e5)) = [(0%nat, thr0); (1%nat, Thr true true true Out)]) by (vm_compute; reflexivity).
  destruct (tt (fst e5) !! S (S t)) eqn:E; [|done]. apply elem_of_map_to_list in E. rewrite Hm in E.
  clear Hm. apply elem_of_cons in E as [E|E]; [by injection E|]. apply elem_of_list_singleton in E. by injection E.
Qed.
Example life_6 : treach (fst e6) (snd e6).
Proof.
  apply tnext_reach; [apply life_5|]. cbn [tlegal]. split; [split_and!|].
  - done.
  - vm_compute; reflexivity.
  - destruct (snd e5 !! park 7) eqn:E; [by eexists|by vm_compute in E].
  - cbn [may_use]. split_and!; [apply (worker1 e5); vm_compute; reflexivity|by eexists|].
    intros (t & p & fr & k & Hp & _). by rewrite e5_threads in Hp.
Qed.
Example life_7 : treach (fst e7) (snd e7).
Proof.
  apply tnext_reach; [apply life_6|]. cbn [tlegal]. split; [|apply (worker1 e6); vm_compute; reflexivity].
  exists (Alloc (65536 + 48) 500 65536), []. split; vm_compute; reflexivity.
Qed.
Example life_8 : treach (fst e8) (snd e8).
Proof. apply tnext_reach; [apply life_7|]. intros _ _. vm_compute; reflexivity. Qed.
Example life_end : map_to_list (wheap (tw (fst e8))) = [] /\ thread (fst e8) 0 = thr0 /\ thread (fst e8) 1 = thr0.
Proof. split_and!; vm_compute; reflexivity. Qed.

(** Hypotheses of C37_init_failure_refuted, of C37_init_inside_schedule_refuted and of C38_schedule_throws_refuted. *)
Example init_can_fail : forall hp f, stack_ctor None (wheap (tw tinit)) <> Ret hp f.
Proof.
  intros hp f E. by vm_compute in E.
Qed.
Example inside_schedule : t_phase (thread (fst e2) 0) = Entered /\ wst (tw (fst e2)) !! tls 0 = Some 65536 /\
  exists hp, stack_ctor (Some 1048576) (wheap (tw (fst e2))) = Ret hp 1048576.
Proof.
  split_and!; [vm_compute; reflexivity..|].
  destruct (stack_ctor (Some 1048576) (wheap (tw (fst e2)))) as [hp f|?|] eqn:E; [|by vm_compute in E..].
  assert (f = 1048576) as -> by (vm_compute in E; by injection E). by exists hp.
Qed.
Example released : t_phase (thread (fst e4) 0) = Released (65536 + 48) 65536 7.
Proof. vm_compute; reflexivity. Qed.

(** A whole call that fails late, and one in which the scheduler throws. *)
Definition the_args (release : option N) (throws : bool) : sched_args :=
  SArgs (Some 65536) 9000 (Some 131072) AllWell 7 release throws.
Example fails_late : exists s', schedule 0 (the_args None false) (fst e1) = Some (s', OThrow).
Proof.
  destruct (schedule 0 (the_args None false) (fst e1)) as [[s' r]|] eqn:E; [|by vm_compute in E].
  assert (r = OThrow) as ->; [|by exists s'].
  assert (Hx : fmap snd (Some (s', r)) = Some OThrow) by (rewrite <- E; vm_compute; reflexivity). by injection Hx.
Qed.
Example scheduler_throws : fmap snd (schedule 0 (the_args (Some 1048576) true) (fst e1)) = Some OUB.
Proof. vm_compute; reflexivity. Qed.
Example succeeds : fmap snd (schedule 0 (the_args (Some 1048576) false) (fst e1)) = Some OOk.
Proof. vm_compute; reflexivity. Qed.

Print Assumptions C37_safe.
Print Assumptions C37_flags.
Print Assumptions C37_init_ok.
Print Assumptions C37_init_twice.
Print Assumptions C37_finalize_misuse.
Print Assumptions C37_finalize_ok.
Print Assumptions C37_finalize_undoes.
Print Assumptions C37_init_failure_refuted.
Print Assumptions C37_init_inside_schedule_refuted.
Print Assumptions C38_in_worker_throws.
Print Assumptions C38_all_or_nothing_partial.
Print Assumptions C38_schedule_throws_refuted.
