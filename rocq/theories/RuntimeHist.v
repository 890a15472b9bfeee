(** * What the history of events says about the state.

    [hist af s h] relates a state of the machine to the history that led to
    it.  Its most important part is [refines]: whatever outcome the serial
    semantics assigns to the rest of a suspended or running task, given any
    serial outcomes of its unfinished children, is a serial outcome of the
    whole task. *)

From stdpp Require Import prelude gmap list.
From Coq Require Import NArith Lia.
From Verif Require Import RuntimeModel RuntimeSpec RuntimeInv.
Local Open Scope N_scope.

Definition silent (e : event) : Prop :=
  match e with EvResume _ _ | EvDestroy _ | EvWait _ | EvSwitch _ _ | EvSync _ _ => True | _ => False end.

Lemma silent_app tr h :
  Forall silent tr ->
  (forall c, parent_in c (tr ++ h) = parent_in c h) /\
  (forall c, body_in c (tr ++ h) = body_in c h) /\
  (forall c, kids_in c (tr ++ h) = kids_in c h) /\
  (forall c, outcome_in c (tr ++ h) = outcome_in c h) /\
  (forall c, pending_in c (tr ++ h) = pending_in c h) /\
  (forall c, signals_in c (tr ++ h) = signals_in c h).
Proof. induction 1 as [|e tr He _ IH]; [done|]. destruct e; done. Qed.

Section hist.
Context (af : bool).

(** The rest of a task; [o]: its outcome and the children it goes on to create. *)
Definition cont (rp : rpoint) (cs : list cell) (X : gset exn) (o : outcome * list (task * outcome)) : Prop :=
  match rp with
  | RRun t | RSwitched _ t => srun af cs X t o.1 o.2
  | RFork m st k _ =>
    exists r X', fork_ret m st (fres_last cs) X r X' /\ srun af cs X' (k r) o.1 o.2
  | RCall m st k =>
    exists r X', call_ret m st (fres_last cs) X r X' /\ srun af cs X' (k r) o.1 o.2
  | RJoin k => srun af cs X (Join k) o.1 o.2
  | RCapture _ | RFinal | RSignalled => False
  end.

(** [α] completes the children of [f] that have not ended. *)
Definition res_ok (h : list event) (f : N) (α : N -> outcome) : Prop :=
  forall c st, (c, st) ∈ kids_in f h ->
    match outcome_in c h with
    | Some o => α c = o
    | None => forall t, body_in c h = Some t -> eval af t (α c)
    end.

Definition rcells (α : N -> outcome) (ks : list (N * bool)) : list cell :=
  map (fun x => cell_of x.2 (α x.1)) ks.

Definition rexn (h : list event) (α : N -> outcome) (ks : list (N * bool)) : gset exn :=
  ⋃ (map (fun x => match outcome_in x.1 h with Some _ => ∅ | None => exn_of x.2 (α x.1) end) ks).

(** The children created so far, with bodies and outcomes. *)
Definition krun (h : list event) (α : N -> outcome) (ks : list (N * bool)) : list (task * outcome) :=
  map (fun x => (default (Ret 0) (body_in x.1 h), α x.1)) ks.

Definition refines (h : list event) (f : N) (rp : rpoint) : Prop :=
  forall t α o, body_in f h = Some t -> res_ok h f α ->
    cont rp (rcells α (kids_in f h)) (pending_in f h ∪ rexn h α (kids_in f h)) o ->
    srun af [] ∅ t o.1 (krun h α (kids_in f h) ++ o.2).

(** The outcomes of the tasks that have ended. *)
Definition outs (h : list event) (c : N) : outcome := default (OVal 0) (outcome_in c h).

Lemma run_exec cs X t o ks :
  srun af cs X t o ks -> Forall (fun x => eval af x.1 x.2) ks -> exec af cs X t o.
Proof using.
  induction 1; intros Hk; try (apply Forall_cons in Hk as (Hk1 & Hk)); econstructor; eauto; done.
Qed.

Lemma exec_run cs X t o :
  exec af cs X t o -> exists ks, srun af cs X t o ks /\ Forall (fun x => eval af x.1 x.2) ks.
Proof using.
  induction 1; repeat match goal with H : exists _, _ |- _ => destruct H as (?ks & ? & ?) end;
    try (eexists; split; [econstructor; eauto|]; eauto; done).
Qed.

Definition child_of (fr : frame) (p : N) (j : nat) (st : bool) : Prop :=
  f_kind fr = KCall p j st \/ f_kind fr = KFork p j st.

Definition over (rp : rpoint) : bool :=
  match rp with RCapture _ | RFinal | RSignalled => true | _ => false end.

Record fok (h : list event) (f : N) (fr : frame) : Prop := {
  k_kind : match f_kind fr with
    | KRoot => parent_in f h = None
    | KCall p j st | KFork p j st => kids_in p h !! j = Some (f, st)
    end;
  k_over : over (f_rp fr) = true <-> ended h f;
  k_cells : f_cells fr = results_in f h;
  k_flag : f_eflag fr = true <-> pending_in f h <> ∅;
  k_eptr : forall e, f_eptr fr = Some e -> e ∈ pending_in f h;
  k_capt : forall e p, f_rp fr = RCapture e -> par (f_kind fr) = Some p -> e ∈ pending_in p h;
  k_ref : over (f_rp fr) = false -> refines h f (f_rp fr);
  k_sig : signals_in f h = match f_rp fr with RSignalled => 1 | _ => 0 end
}.

(** What holds whenever an event occurs, given the history before it. *)
Definition ev_ok (e : event) (h : list event) : Prop :=
  match e with
  | EvEnd f o =>
    outcome_in f h = None /\ (forall c st, (c, st) ∈ kids_in f h -> ended h c) /\
    pending_in f h = ∅ /\ exists t, body_in f h = Some t /\ eval af t o /\
      srun af [] ∅ t o (krun h (outs h) (kids_in f h))
  | EvJoin f cs r =>
    outcome_in f h = None /\ (forall c st, (c, st) ∈ kids_in f h -> ended h c) /\
    cs = results_in f h /\ join_ret (pending_in f h) r
  | EvEager f e =>
    outcome_in f h = None /\ (forall c st, (c, st) ∈ kids_in f h -> ended h c) /\ e ∈ pending_in f h
  | EvFork p c _ _ | EvCall p c _ _ =>
    outcome_in p h = None /\ body_in c h = None /\ exists t, body_in p h = Some t
  | EvSignal f => ended h f /\ parent_in f h = None /\ signals_in f h = 0
  | EvStash f _ => outcome_in f h = None
  | EvSpawn f _ => body_in f h = None
  | EvResume _ _ | EvDestroy _ | EvWait _ | EvSwitch _ _ | EvSync _ _ => True
  end.

Fixpoint evs_ok (h : list event) : Prop :=
  match h with [] => True | e :: h' => ev_ok e h' /\ evs_ok h' end.

Record hist (s : state) (h : list event) : Prop := {
  g_frames : forall f fr, s_frames s !! f = Some fr -> fok h f fr;
  g_new : forall f, s_nextf s <= f ->
    s_frames s !! f = None /\ body_in f h = None /\ parent_in f h = None /\ kids_in f h = [] /\
    outcome_in f h = None /\ pending_in f h = ∅ /\ signals_in f h = 0;
  g_old : forall f, f < s_nextf s -> exists t, body_in f h = Some t;
  g_kids : forall p j c st, kids_in p h !! j = Some (c, st) ->
    c < s_nextf s /\ parent_in c h = Some (p, st) /\
    (outcome_in c h = None -> exists fr, s_frames s !! c = Some fr /\ child_of fr p j st);
  g_dead : forall f, f < s_nextf s -> s_frames s !! f = None ->
    ended h f /\ signals_in f h = match parent_in f h with None => 1 | Some _ => 0 end;
  g_eval : forall f o t, outcome_in f h = Some o -> body_in f h = Some t -> eval af t o;
  g_tree : forall p c st, ended h p -> (c, st) ∈ kids_in p h -> ended h c;
  g_res : forall f, parent_in f h = None -> s_res s !! f = outcome_in f h;
  g_sem : forall f, sem s f = signals_in f h;
  g_evs : evs_ok h
}.

(** ** The initial state *)

Lemma hist_init n : hist (init n) [].
Proof.
  split; cbn; try done.
  - intros f H. lia.
  - intros f H. lia.
Qed.

(** ** Framing *)

Definition core (fr : frame) : kind * rpoint * bool * option exn * list cell :=
  (f_kind fr, f_rp fr, f_eflag fr, f_eptr fr, f_cells fr).

Lemma fok_core h f fr fr' : fok h f fr -> core fr' = core fr -> fok h f fr'.
Proof.
  intros [] E. injection E as E1 E2 E3 E4 E5.
  split; rewrite ?E1, ?E2, ?E3, ?E4, ?E5; done.
Qed.

Lemma hist_core s s' h :
  hist s h ->
  (forall f, core <$> s_frames s' !! f = core <$> s_frames s !! f) ->
  s_nextf s' = s_nextf s -> s_res s' = s_res s -> s_sem s' = s_sem s ->
  hist s' h.
Proof.
  intros H E En Er Es.
  assert (Eq : forall f fr, s_frames s' !! f = Some fr ->
    exists fr0, s_frames s !! f = Some fr0 /\ core fr = core fr0).
  { intros f fr Hf. specialize (E f). rewrite Hf in E. cbn in E.
    destruct (s_frames s !! f) as [fr0|]; [|done]. cbn in E. exists fr0. split; congruence. }
  assert (Eq' : forall f fr, s_frames s !! f = Some fr ->
    exists fr', s_frames s' !! f = Some fr' /\ core fr' = core fr).
  { intros f fr Hf. specialize (E f). rewrite Hf in E. cbn in E.
    destruct (s_frames s' !! f) as [fr0|]; [|done]. cbn in E. exists fr0. split; congruence. }
  assert (En' : forall f, s_frames s' !! f = None <-> s_frames s !! f = None).
  { intros f. specialize (E f). destruct (s_frames s' !! f), (s_frames s !! f); done. }
  destruct H. split; unfold sem in *; rewrite ?En, ?Er, ?Es; try done.
  - intros f fr Hf. destruct (Eq f fr Hf) as (fr0 & Hf0 & Ec). eapply fok_core; eauto.
  - intros f Hf. destruct (g_new0 f Hf) as (? & ?). rewrite En'. done.
  - intros p j c st Hc. destruct (g_kids0 p j c st Hc) as (H1 & H2 & H3). split_and!; try done.
    intros Ho. destruct (H3 Ho) as (fr & Hf & Hk). destruct (Eq' c fr Hf) as (fr' & Hf' & Ec).
    exists fr'. split; [done|]. injection Ec as E1 E2 E3 E4 E5. unfold child_of. rewrite E1. done.
  - intros f Hf Hn. rewrite En' in Hn. eauto.
Qed.

Lemma fok_ext h h' f fr :
  fok h f fr ->
  parent_in f h' = parent_in f h -> kids_in f h' = kids_in f h ->
  (forall p j x, kids_in p h !! j = Some x -> kids_in p h' !! j = Some x) ->
  outcome_in f h' = outcome_in f h ->
  (forall c st, (c, st) ∈ kids_in f h -> outcome_in c h' = outcome_in c h /\ body_in c h' = body_in c h) ->
  pending_in f h' = pending_in f h ->
  (forall e p, f_rp fr = RCapture e -> par (f_kind fr) = Some p -> e ∈ pending_in p h -> e ∈ pending_in p h') ->
  body_in f h' = body_in f h -> signals_in f h' = signals_in f h ->
  fok h' f fr.
Proof.
  intros [] Ep Ek Ekp Eo Ekid Epe Ecap Eb Es.
  assert (Er : results_in f h' = results_in f h).
  { unfold results_in. rewrite Ek. apply map_ext_in. intros [c st] Hc. cbn.
    apply elem_of_list_In in Hc. destruct (Ekid c st Hc) as (-> & _). done. }
  split; unfold ended; rewrite ?Ep, ?Ek, ?Eo, ?Epe, ?Eb, ?Es, ?Er; try done.
  - destruct (f_kind fr); auto.
  - eauto.
  - intros Hov. specialize (k_ref0 Hov). intros t α o. rewrite Eb, Ek, Epe. intros Hb Hr.
    assert (Hr' : res_ok h f α).
    { intros c st Hc. destruct (Ekid c st Hc) as (E1 & E2). specialize (Hr c st).
      rewrite Ek, E1, E2 in Hr. exact (Hr Hc). }
    assert (rexn h' α (kids_in f h) = rexn h α (kids_in f h)) as ->.
    { unfold rexn. f_equal. apply map_ext_in. intros [c st] Hc. cbn.
      apply elem_of_list_In in Hc. destruct (Ekid c st Hc) as (-> & _). done. }
    assert (krun h' α (kids_in f h) = krun h α (kids_in f h)) as ->.
    { unfold krun. apply map_ext_in. intros [c st] Hc. cbn.
      apply elem_of_list_In in Hc. destruct (Ekid c st Hc) as (_ & ->). done. }
    eauto.
Qed.

Lemma hist_sil s h tr : hist s h -> Forall silent tr -> hist s (tr ++ h).
Proof.
  intros H Hs. pose proof (silent_app tr h Hs) as (A1 & A2 & A3 & A4 & A5 & A6).
  destruct H.
  split.
  - intros f fr Hf. eapply fok_ext; eauto. all: intros; rewrite ?A3, ?A5; done.
  - intros f. rewrite A1, A2, A3, A4, A5, A6. apply g_new0.
  - intros f. rewrite A2. apply g_old0.
  - intros p j c st. rewrite A1, A3, A4. apply g_kids0.
  - intros f. unfold ended. rewrite A1, A4, A6. apply g_dead0.
  - intros f o t. rewrite A2, A4. apply g_eval0.
  - intros p c st. unfold ended. rewrite A3, !A4. apply g_tree0.
  - intros f. rewrite A1, A4. apply g_res0.
  - intros f. rewrite A6. apply g_sem0.
  - clear -Hs g_evs0. induction Hs as [|e tr He _ IH]; [done|]. cbn. split; [|done].
    destruct e; done.
Qed.

(** Every kid that has not ended is alive. *)
Lemma kids_ended s h f :
  hist s h ->
  (forall c frc, s_frames s !! c = Some frc -> par (f_kind frc) = Some f -> False) ->
  forall c st, (c, st) ∈ kids_in f h -> ended h c.
Proof.
  intros H Hno c st Hc. apply elem_of_list_lookup in Hc as (j & Hj).
  destruct (g_kids s h H f j c st Hj) as (_ & _ & Hl). unfold ended.
  destruct (outcome_in c h) as [o|]; [eauto|].
  destruct (Hl eq_refl) as (fr & Hf & [Hk|Hk]); exfalso; eapply (Hno c fr); try done; by rewrite Hk.
Qed.

Lemma rexn_ended h α ks :
  (forall c st, (c, st) ∈ ks -> ended h c) -> rexn h α ks = ∅.
Proof.
  induction ks as [|[c st] ks IH]; intros H; [done|]. cbn.
  destruct (H c st) as (o & Ho); [by left|]. rewrite Ho.
  fold (rexn h α ks). rewrite IH; [set_solver|]. intros c' st' Hc. apply (H c' st'). by right.
Qed.

Lemma rcells_ended h f α :
  res_ok h f α -> (forall c st, (c, st) ∈ kids_in f h -> ended h c) ->
  rcells α (kids_in f h) = results_in f h.
Proof.
  intros Hr He. unfold rcells, results_in. apply map_ext_in. intros [c st] Hc. cbn.
  apply elem_of_list_In in Hc. destruct (He c st Hc) as (o & Ho). specialize (Hr c st Hc).
  rewrite Ho in *. by rewrite Hr.
Qed.

(** ** A step of the body of one task *)

Lemma hist_loc s s' h h' f fr fr' :
  hist s h -> s_frames s !! f = Some fr ->
  s_frames s' = <[f := fr']> (s_frames s) ->
  s_nextf s' = s_nextf s -> s_res s' = s_res s -> s_sem s' = s_sem s ->
  over (f_rp fr) = false -> over (f_rp fr') = false ->
  f_kind fr' = f_kind fr -> f_cells fr' = f_cells fr ->
  (forall c, parent_in c h' = parent_in c h) ->
  (forall c, body_in c h' = body_in c h) ->
  (forall c, kids_in c h' = kids_in c h) ->
  (forall c, outcome_in c h' = outcome_in c h) ->
  (forall c, signals_in c h' = signals_in c h) ->
  (forall c, c <> f -> pending_in c h' = pending_in c h) ->
  evs_ok h' ->
  (pending_in f h ⊆ pending_in f h' \/
   forall c frc, s_frames s !! c = Some frc -> par (f_kind frc) = Some f -> False) ->
  (f_eflag fr' = true <-> pending_in f h' <> ∅) ->
  (forall e, f_eptr fr' = Some e -> e ∈ pending_in f h') ->
  (forall α o, res_ok h f α ->
    let cs := rcells α (kids_in f h) in
    let Y := rexn h α (kids_in f h) in
    cont (f_rp fr') cs (pending_in f h' ∪ Y) o -> cont (f_rp fr) cs (pending_in f h ∪ Y) o) ->
  hist s' h'.
Proof.
  intros H Hf EF En Er Es O1 O2 Ek Ec A1 A2 A3 A4 A6 A5 Hev Hp Hfl Hep Href.
  destruct H. unfold sem in *. split; unfold sem; rewrite ?EF, ?En, ?Er, ?Es; try done.
  - intros q frq Hq. destruct (decide (q = f)) as [->|Hne].
    + rewrite lookup_insert in Hq. injection Hq as <-.
      destruct (g_frames0 f fr Hf).
      assert (Er' : results_in f h' = results_in f h).
      { unfold results_in. rewrite A3. apply map_ext. intros [c st]. cbn. by rewrite A4. }
      split; unfold ended; rewrite ?Ek, ?Ec, ?Er', ?A1, ?A3, ?A4, ?A6; try done.
      * destruct (f_kind fr); rewrite ?A3, ?A1; done.
      * rewrite O2. rewrite O1 in k_over0. done.
      * intros e p E. rewrite E in O2. done.
      * intros _ t α o. rewrite A2, A3. intros Hb Hr Hc.
        assert (Hr' : res_ok h f α).
        { intros c st Hin. specialize (Hr c st). rewrite A3, A4, A2 in Hr. exact (Hr Hin). }
        assert (Ey : rexn h' α (kids_in f h) = rexn h α (kids_in f h)).
        { unfold rexn. f_equal. apply map_ext. intros [c st]. cbn. by rewrite A4. }
        assert (Ez : krun h' α (kids_in f h) = krun h α (kids_in f h)).
        { unfold krun. apply map_ext. intros [c st]. cbn. by rewrite A2. }
        rewrite Ey in Hc. rewrite Ez. apply (Href α o Hr') in Hc. eapply k_ref0; eauto.
      * rewrite k_sig0. destruct (f_rp fr), (f_rp fr'); done.
    + rewrite lookup_insert_ne in Hq by done. pose proof (g_frames0 q frq Hq) as K.
      eapply fok_ext; eauto.
      * intros p j x. by rewrite A3.
      * intros e p E1 E2 Hin. destruct (decide (p = f)) as [->|Hpf]; [|by rewrite A5].
        destruct Hp as [Hp|Hp]; [set_solver|]. exfalso. eapply Hp; eauto.
  - intros q Hq. rewrite A1, A2, A3, A4, A6. destruct (g_new0 q Hq) as (N1 & N2 & N3 & N4 & N5 & N6 & N7).
    assert (q <> f) by congruence. rewrite A5, lookup_insert_ne by done. done.
  - intros q. rewrite A2. apply g_old0.
  - intros p j c st. rewrite A1, A3, A4. intros Hc. destruct (g_kids0 p j c st Hc) as (H1 & H2 & H3).
    split_and!; try done. intros Ho. destruct (H3 Ho) as (frc & Hfc & Hk).
    destruct (decide (c = f)) as [->|Hne].
    + rewrite lookup_insert. exists fr'. split; [done|]. unfold child_of. rewrite Ek.
      replace fr with frc by congruence. done.
    + rewrite lookup_insert_ne by done. eauto.
  - intros q Hq Hn. unfold ended. rewrite A1, A4, A6. apply g_dead0; [done|].
    destruct (decide (q = f)) as [->|]; [by rewrite lookup_insert in Hn|].
    by rewrite lookup_insert_ne in Hn by done.
  - intros q o t. rewrite A2, A4. apply g_eval0.
  - intros p c st. unfold ended. rewrite A3, !A4. apply g_tree0.
  - intros q. rewrite A1, A4. apply g_res0.
  - intros q. rewrite A6. apply g_sem0.
Qed.

(** ** Creation of a child *)

Lemma rcells_ext α β ks :
  (forall c st, (c, st) ∈ ks -> α c = β c) -> rcells α ks = rcells β ks.
Proof.
  intros H. apply map_ext_in. intros [c st] Hc. cbn. apply elem_of_list_In in Hc.
  by rewrite (H c st).
Qed.

Lemma hist_new s s' h h' p frp frp' c frc st t :
  hist s h -> s_frames s !! p = Some frp -> c = s_nextf s ->
  s_frames s' = <[c := frc]> (<[p := frp']> (s_frames s)) ->
  s_nextf s' = s_nextf s + 1 -> s_res s' = s_res s -> s_sem s' = s_sem s ->
  over (f_rp frp) = false -> over (f_rp frp') = false ->
  f_kind frp' = f_kind frp -> f_cells frp' = f_cells frp ++ [CUnset] ->
  f_eflag frp' = f_eflag frp -> f_eptr frp' = f_eptr frp ->
  child_of frc p (length (f_cells frp)) st ->
  f_rp frc = RRun t -> f_eflag frc = false -> f_eptr frc = None -> f_cells frc = [] ->
  (h' = EvFork p c st t :: h \/ h' = EvCall p c st t :: h) ->
  (forall cs X oc o, eval af t oc ->
    cont (f_rp frp') (cs ++ [cell_of st oc]) (X ∪ exn_of st oc) o ->
    cont (f_rp frp) cs X (o.1, (t, oc) :: o.2)) ->
  hist s' h'.
Proof.
  intros H Hp Ec EF En Er Es O1 O2 Ek Ecl Efl Eep Hkc Hrp Hfl Hep Hcl Eh Href.
  destruct (g_new s h H c) as (N1 & N2 & N3 & N4 & N5 & N6 & N7); [lia|].
  assert (Hpc : p <> c) by congruence.
  assert (A1 : forall q, parent_in q h' = if decide (c = q) then Some (p, st) else parent_in q h)
    by (destruct Eh as [-> | ->]; done).
  assert (A2 : forall q, body_in q h' = if decide (c = q) then Some t else body_in q h)
    by (destruct Eh as [-> | ->]; done).
  assert (A3 : forall q, kids_in q h' = if decide (p = q) then kids_in q h ++ [(c, st)] else kids_in q h)
    by (destruct Eh as [-> | ->]; done).
  assert (A4 : forall q, outcome_in q h' = outcome_in q h) by (destruct Eh as [-> | ->]; done).
  assert (A5 : forall q, pending_in q h' = pending_in q h) by (destruct Eh as [-> | ->]; done).
  assert (A6 : forall q, signals_in q h' = signals_in q h) by (destruct Eh as [-> | ->]; done).
  assert (Hkid : forall q x st', (x, st') ∈ kids_in q h -> x <> c).
  { intros q x st' Hin ->. apply elem_of_list_lookup in Hin as (j & Hj).
    destruct (g_kids s h H q j c st' Hj). lia. }
  assert (Hlen : length (f_cells frp) = length (kids_in p h)).
  { rewrite (k_cells _ _ _ (g_frames s h H p frp Hp)). unfold results_in. by rewrite map_length. }
  assert (Hpo : outcome_in p h = None).
  { destruct (outcome_in p h) eqn:E; [|done]. exfalso.
    destruct (k_over _ _ _ (g_frames s h H p frp Hp)) as (_ & X). rewrite X in O1; [done|]. by eexists. }
  assert (Hpn : p < s_nextf s).
  { destruct (decide (p < s_nextf s)); [done|]. destruct (g_new s h H p); [lia|congruence]. }
  assert (Hkp : forall q j x, kids_in q h !! j = Some x -> kids_in q h' !! j = Some x).
  { intros q j x Hx. rewrite A3. case_decide; [|done]. by apply lookup_app_l_Some. }
  destruct H. unfold sem in *. split; unfold sem; rewrite ?EF, ?En, ?Er, ?Es.
  - intros q frq Hq. destruct (decide (q = c)) as [->|Hqc].
    { rewrite lookup_insert in Hq. injection Hq as <-. split.
      - destruct Hkc as [-> | ->]; rewrite A3, decide_True by done; rewrite Hlen;
          by rewrite lookup_app_r, Nat.sub_diag by done.
      - rewrite Hrp. cbn. unfold ended. rewrite A4, N5. split; [done|]. by intros (? & ?).
      - unfold results_in. rewrite A3, decide_False, N4 by done. done.
      - rewrite Hfl, A5, N6. done.
      - rewrite Hep. done.
      - intros e p'. rewrite Hrp. done.
      - intros _ t' α o. rewrite A2, decide_True by done. intros [= <-] _.
        rewrite A3, decide_False, A5, N4, N6 by done. rewrite Hrp. unfold rexn. cbn.
        replace (∅ ∪ ∅ : gset exn) with (∅ : gset exn) by set_solver. done.
      - rewrite A6, N7, Hrp. done. }
    rewrite lookup_insert_ne in Hq by done. destruct (decide (q = p)) as [->|Hqp].
    { rewrite lookup_insert in Hq. injection Hq as <-. destruct (g_frames0 p frp Hp). split.
      - rewrite Ek. destruct (f_kind frp); rewrite ?A1, ?decide_False by done; auto.
      - rewrite O2. unfold ended. rewrite A4, Hpo. split; [done|]. by intros (? & ?).
      - rewrite Ecl, k_cells0. unfold results_in. rewrite A3, decide_True, map_app by done. cbn.
        rewrite A4, N5. f_equal. apply map_ext. intros [x st']. cbn. by rewrite A4.
      - rewrite Efl, A5. done.
      - rewrite Eep, A5. done.
      - intros e p'. rewrite Ek. destruct (f_rp frp'); done.
      - intros _ t' α o. rewrite A2, decide_False by done. intros Hb Hr.
        rewrite A3, decide_True, A5 by done. unfold rcells. rewrite map_app. cbn.
        fold (rcells α (kids_in p h)). intros Hc.
        assert (Hr' : res_ok h p α).
        { intros x st' Hin. pose proof (Hkid _ _ _ Hin). specialize (Hr x st').
          rewrite A3, decide_True, A4, A2, decide_False in Hr by done. apply Hr. set_solver. }
        assert (Hev : eval af t (α c)).
        { specialize (Hr c st). rewrite A3, decide_True, A4, N5, A2, decide_True in Hr by done.
          apply Hr; [set_solver|done]. }
        assert (Ey : rexn h' α (kids_in p h ++ [(c, st)]) = rexn h α (kids_in p h) ∪ exn_of st (α c)).
        { unfold rexn. rewrite map_app, union_list_app_L. cbn. rewrite A4, N5.
          f_equal; [|set_solver]. f_equal. apply map_ext. intros [x st']. cbn. by rewrite A4. }
        assert (Ez : krun h' α (kids_in p h ++ [(c, st)]) = krun h α (kids_in p h) ++ [(t, α c)]).
        { unfold krun. rewrite map_app. cbn. rewrite A2, decide_True by done. f_equal.
          apply map_ext_in. intros [x st'] Hx. apply elem_of_list_In, Hkid in Hx. cbn.
          rewrite A2, decide_False by done. done. }
        rewrite Ey, (assoc_L (∪)) in Hc. apply Href in Hc; [|done].
        rewrite Ez, <- (assoc_L (++)). cbn. eapply (k_ref0 O1 t' α (o.1, (t, α c) :: o.2)); eauto.
      - rewrite A6, k_sig0. destruct (f_rp frp), (f_rp frp'); done. }
    rewrite lookup_insert_ne in Hq by done. eapply fok_ext; eauto.
    + rewrite A1, decide_False by done. done.
    + rewrite A3, decide_False by done. done.
    + intros x st' Hin. rewrite A4, A2, decide_False; [done|]. intros <-. eapply Hkid; eauto.
    + intros e p'. by rewrite A5.
    + rewrite A2, decide_False by done. done.
  - intros q Hq. destruct (g_new0 q ltac:(lia)) as (?&?&?&?&?&?&?).
    rewrite A1, A2, A3, A4, A5, A6, !lookup_insert_ne, !decide_False; try done; try lia.
  - intros q Hq. rewrite A2. case_decide; [eauto|]. apply g_old0. lia.
  - intros q j x st' Hx. rewrite A1, A4. rewrite A3 in Hx.
    assert ((kids_in q h !! j = Some (x, st') /\ x <> c) \/
      (q = p /\ x = c /\ st' = st /\ j = length (kids_in p h))) as [[Hx' Hne]|(-> & -> & -> & ->)].
    { case_decide as E; [|left; split; [done|]; eapply Hkid, elem_of_list_lookup; eauto]. subst q.
      apply lookup_app_Some in Hx as [Hx|[Hj Hx]].
      - left. split; [done|]. eapply Hkid, elem_of_list_lookup; eauto.
      - right. destruct (j - length (kids_in p h))%nat eqn:Ej; [|done]. injection Hx as <- <-.
        split_and!; try done. lia. }
    + destruct (g_kids0 q j x st' Hx') as (H1 & H2 & H3). rewrite decide_False by done.
      split_and!; [lia|done|]. intros Ho. destruct (H3 Ho) as (fr & Hf & Hk).
      rewrite lookup_insert_ne by done. destruct (decide (x = p)) as [->|].
      * rewrite lookup_insert. exists frp'. split; [done|]. unfold child_of in *. rewrite Ek.
        replace frp with fr by congruence. done.
      * rewrite lookup_insert_ne by done. eauto.
    + rewrite decide_True by done. split_and!; [lia|done|]. intros _. rewrite lookup_insert.
      exists frc. split; [done|]. rewrite Hlen in Hkc. done.
  - intros q Hq Hn. assert (q <> c) by (intros ->; by rewrite lookup_insert in Hn).
    rewrite lookup_insert_ne in Hn by done.
    assert (q <> p) by (intros ->; by rewrite lookup_insert in Hn).
    rewrite lookup_insert_ne in Hn by done. unfold ended.
    rewrite A4, A6, A1, decide_False by done. apply g_dead0; [lia|done].
  - intros q o t'. rewrite A4, A2. case_decide as E; [|apply g_eval0]. subst q. by rewrite N5.
  - intros q x st'. unfold ended. rewrite !A4, A3. case_decide as E; [|apply g_tree0].
    subst q. rewrite Hpo. by intros (? & ?).
  - intros q. rewrite A4, A1. case_decide; [done|]. apply g_res0.
  - intros q. rewrite A6. apply g_sem0.
  - destruct (g_old0 p Hpn) as (tp & Htp).
    destruct Eh as [-> | ->]; cbn; split; try done; split_and!; eauto.
Qed.

(** ** Submission of a root *)

Lemma hist_root s s' h c frc t :
  hist s h -> c = s_nextf s ->
  s_frames s' = <[c := frc]> (s_frames s) ->
  s_nextf s' = s_nextf s + 1 -> s_res s' = s_res s -> s_sem s' = s_sem s ->
  f_kind frc = KRoot ->
  f_rp frc = RRun t -> f_eflag frc = false -> f_eptr frc = None -> f_cells frc = [] ->
  hist s' (EvSpawn c t :: h).
Proof.
  intros H Ec EF En Er Es Hkc Hrp Hfl Hep Hcl.
  destruct (g_new s h H c) as (N1 & N2 & N3 & N4 & N5 & N6 & N7); [lia|].
  set (h' := EvSpawn c t :: h).
  assert (A1 : forall q, parent_in q h' = parent_in q h) by done.
  assert (A2 : forall q, body_in q h' = if decide (c = q) then Some t else body_in q h) by done.
  assert (A3 : forall q, kids_in q h' = kids_in q h) by done.
  assert (A4 : forall q, outcome_in q h' = outcome_in q h) by done.
  assert (A5 : forall q, pending_in q h' = pending_in q h) by done.
  assert (A6 : forall q, signals_in q h' = signals_in q h) by done.
  assert (Hkid : forall q x st', (x, st') ∈ kids_in q h -> x <> c).
  { intros q x st' Hin ->. apply elem_of_list_lookup in Hin as (j & Hj).
    destruct (g_kids s h H q j c st' Hj). lia. }
  destruct H. unfold sem in *. split; unfold sem; rewrite ?EF, ?En, ?Er, ?Es.
  - intros q frq Hq. destruct (decide (q = c)) as [->|Hqc].
    { rewrite lookup_insert in Hq. injection Hq as <-. split.
      - rewrite Hkc. done.
      - rewrite Hrp. cbn. unfold ended. rewrite A4, N5. split; [done|]. by intros (? & ?).
      - unfold results_in. rewrite A3, N4. done.
      - rewrite Hfl, A5, N6. done.
      - rewrite Hep. done.
      - intros e p'. rewrite Hrp. done.
      - intros _ t' α o. rewrite A2, decide_True by done. intros [= <-] _.
        rewrite A3, A5, N4, N6. rewrite Hrp. unfold rexn. cbn.
        replace (∅ ∪ ∅ : gset exn) with (∅ : gset exn) by set_solver. done.
      - rewrite A6, N7, Hrp. done. }
    rewrite lookup_insert_ne in Hq by done. eapply fok_ext; eauto.
    + intros x st' Hin. rewrite A4, A2, decide_False; [done|]. intros <-. eapply Hkid; eauto.
    + rewrite A2, decide_False by done. done.
  - intros q Hq. destruct (g_new0 q ltac:(lia)) as (?&?&?&?&?&?&?).
    rewrite A1, A2, A3, A4, A5, A6, !lookup_insert_ne, !decide_False; try done; try lia.
  - intros q Hq. rewrite A2. case_decide; [eauto|]. apply g_old0. lia.
  - intros q j x st' Hx. rewrite A1, A4. rewrite A3 in Hx.
    assert (x <> c) by (eapply Hkid, elem_of_list_lookup; eauto).
    destruct (g_kids0 q j x st' Hx) as (H1 & H2 & H3). rewrite lookup_insert_ne by done.
    split_and!; [lia|done|done].
  - intros q Hq Hn. assert (q <> c) by (intros ->; by rewrite lookup_insert in Hn).
    rewrite lookup_insert_ne in Hn by done. unfold ended.
    rewrite A4, A6, A1. apply g_dead0; [lia|done].
  - intros q o t'. rewrite A4, A2. case_decide as E; [|apply g_eval0]. subst q. by rewrite N5.
  - done.
  - done.
  - done.
  - done.
Qed.

(** ** The end of a body *)

Lemma rexn_end h f o α p st :
  (f, st) ∈ kids_in p h -> (forall st', (f, st') ∈ kids_in p h -> st' = st) ->
  outcome_in f h = None -> α f = o ->
  rexn h α (kids_in p h) = rexn (EvEnd f o :: h) α (kids_in p h) ∪ exn_of st o.
Proof.
  intros Hin Hu Hn Ho.
  assert (forall ks, (forall st', (f, st') ∈ ks -> st' = st) ->
    rexn h α ks ∪ exn_of st o = rexn (EvEnd f o :: h) α ks ∪ exn_of st o) as Hgen.
  { induction ks as [|[x st'] ks IH]; intros Hu'; [done|]. cbn.
    fold (rexn h α ks). fold (rexn (EvEnd f o :: h) α ks).
    assert (Hrec : rexn h α ks ∪ exn_of st o = rexn (EvEnd f o :: h) α ks ∪ exn_of st o).
    { apply IH. intros st'' Hst. apply Hu'. by right. }
    rewrite <- !(assoc_L (∪)), Hrec. case_decide as E.
    - subst x. rewrite Hn, Ho. rewrite (Hu' st') by (by left). set_solver.
    - done. }
  rewrite <- Hgen by done. apply elem_of_list_split in Hin as (l1 & l2 & ->).
  unfold rexn. rewrite map_app, union_list_app_L. cbn. rewrite Hn, Ho. set_solver.
Qed.

Lemma hist_end s s' h f fr fr' o :
  hist s h -> s_frames s !! f = Some fr ->
  (forall c frc, s_frames s !! c = Some frc -> par (f_kind frc) = Some f -> False) ->
  f_eflag fr = false ->
  (exists t, f_rp fr = RRun t /\ forall cs, srun af cs ∅ t o []) ->
  over (f_rp fr') = true -> f_rp fr' <> RSignalled ->
  f_kind fr' = f_kind fr -> f_cells fr' = f_cells fr ->
  f_eflag fr' = f_eflag fr -> f_eptr fr' = f_eptr fr ->
  s_nextf s' = s_nextf s -> s_sem s' = s_sem s ->
  match f_kind fr with
  | KRoot =>
    s_frames s' = <[f := fr']> (s_frames s) /\ s_res s' = <[f := o]> (s_res s) /\ f_rp fr' = RFinal
  | KCall p j st | KFork p j st =>
    s_res s' = s_res s /\
    exists frp frp', s_frames s !! p = Some frp /\ p <> f /\
      s_frames s' = <[p := frp']> (<[f := fr']> (s_frames s)) /\
      f_kind frp' = f_kind frp /\ f_rp frp' = f_rp frp /\
      f_cells frp' = match cell_of st o with CUnset => f_cells frp | cl => <[j := cl]> (f_cells frp) end /\
      (f_eptr frp' = f_eptr frp) /\
      f_eflag frp' = (match o, st with OExc _, false => true | _, _ => f_eflag frp end) /\
      (forall e, f_rp fr' = RCapture e -> o = OExc e /\ st = false)
  end ->
  hist s' (EvEnd f o :: h).
Proof.
  intros H Hf Hno Hfl (t & Hrp & Hex) O2 O3 Ek Ecl Efl Eep En Es Hm.
  set (h' := EvEnd f o :: h).
  pose proof (kids_ended s h f H Hno) as Hke.
  pose proof (g_frames s h H f fr Hf) as K.
  assert (Hfo : outcome_in f h = None).
  { destruct (outcome_in f h) eqn:E; [|done]. exfalso.
    destruct (k_over _ _ _ K) as (_ & X). rewrite Hrp in X. cbn in X. discriminate X. by eexists. }
  assert (Hpe : pending_in f h = ∅).
  { destruct (decide (pending_in f h = ∅)); [done|]. apply (k_flag _ _ _ K) in n. congruence. }
  assert (Hfn : f < s_nextf s).
  { destruct (decide (f < s_nextf s)); [done|]. destruct (g_new s h H f); [lia|congruence]. }
  destruct (g_old s h H f Hfn) as (t0 & Ht0).
  assert (Hrun : srun af [] ∅ t0 o (krun h (outs h) (kids_in f h))).
  { rewrite <- (app_nil_r (krun _ _ _)).
    eapply (k_ref _ _ _ K ltac:(by rewrite Hrp) t0 (outs h) (o, [])); [done| |].
    - intros c st Hc. unfold outs. destruct (Hke c st Hc) as (oc & ->). done.
    - rewrite rexn_ended, Hpe, Hrp by done. cbn.
      replace (∅ ∪ ∅ : gset exn) with (∅ : gset exn) by set_solver. apply Hex. }
  assert (Hev : eval af t0 o).
  { eapply run_exec; [exact Hrun|]. apply Forall_forall. intros x Hx. unfold krun in Hx.
    apply elem_of_list_fmap in Hx as ([c st] & -> & Hc). cbn. unfold outs.
    destruct (Hke c st Hc) as (oc & Hoc). rewrite Hoc. cbn.
    apply elem_of_list_lookup in Hc as (j & Hj). destruct (g_kids s h H f j c st Hj) as (Hlt & _).
    destruct (g_old s h H c Hlt) as (tc & Htc). rewrite Htc. cbn. eapply g_eval; eauto. }
  assert (A1 : forall q, parent_in q h' = parent_in q h) by done.
  assert (A2 : forall q, body_in q h' = body_in q h) by done.
  assert (A3 : forall q, kids_in q h' = kids_in q h) by done.
  assert (A4 : forall q, outcome_in q h' = if decide (f = q) then Some o else outcome_in q h) by done.
  assert (A5 : forall q, parent_in f h <> Some (q, false) -> pending_in q h' = pending_in q h).
  { intros q Hq. cbn. destruct o; [done|]. by rewrite decide_False. }
  assert (A5' : forall q st, parent_in f h = Some (q, st) -> pending_in q h' = pending_in q h ∪ exn_of st o).
  { intros q st Hq. cbn. destruct o as [v|e]; cbn; [set_solver|]. rewrite Hq. destruct st; cbn.
    - rewrite decide_False by congruence. set_solver.
    - by rewrite decide_True. }
  assert (A5m : forall q, pending_in q h ⊆ pending_in q h').
  { intros q. cbn. destruct o; [done|]. case_decide; set_solver. }
  assert (A6 : forall q, signals_in q h' = signals_in q h) by done.
  assert (Hnk : forall q st, (f, st) ∈ kids_in q h -> parent_in f h = Some (q, st)).
  { intros q st Hin. apply elem_of_list_lookup in Hin as (j & Hj). destruct (g_kids s h H q j f st Hj) as (_ & X & _). exact X. }
  assert (Hpf : forall st, parent_in f h <> Some (f, st)).
  { intros st Hq. destruct (f_kind fr) as [|p j st'|p j st'] eqn:Ekf; pose proof (k_kind _ _ _ K) as X;
      rewrite Ekf in X.
    - congruence.
    - apply elem_of_list_lookup_2, Hnk in X. destruct Hm as (_ & ? & ? & ? & ? & _). congruence.
    - apply elem_of_list_lookup_2, Hnk in X. destruct Hm as (_ & ? & ? & ? & ? & _). congruence. }
  (* the frame of [f] itself *)
  assert (Kf : (forall e p, f_rp fr' = RCapture e -> par (f_kind fr) = Some p -> e ∈ pending_in p h') ->
    fok h' f fr').
  { intros Hcap. destruct K. split; rewrite ?Ek, ?Ecl, ?Efl, ?Eep; try done.
    - unfold ended. rewrite A4, decide_True by done. split; [eauto|done].
    - rewrite k_cells0. unfold results_in. rewrite A3. apply map_ext_in. intros [c st] Hc. cbn.
      apply elem_of_list_In in Hc. rewrite decide_False; [done|]. intros <-.
      apply Hnk in Hc. by apply Hpf in Hc.
    - rewrite A5 by auto. done.
    - rewrite A5 by auto. done.
    - rewrite O2. done.
    - rewrite A6, k_sig0, Hrp. destruct (f_rp fr'); done. }
  (* other frames *)
  assert (Ko : forall q frq, s_frames s !! q = Some frq -> q <> f ->
    (forall st, parent_in f h <> Some (q, st)) -> fok h' q frq).
  { intros q frq Hq Hne Hnp. eapply fok_ext; eauto using g_frames.
    - rewrite A4, decide_False by done. done.
    - intros c st Hc. rewrite A4, decide_False; [done|]. intros <-. apply Hnk in Hc. by apply Hnp in Hc.
    - intros e p _ _ Hin. apply A5m. done. }
  (* the parent's frame *)
  assert (Kp : forall p j st frp frp', s_frames s !! p = Some frp -> p <> f ->
      kids_in p h !! j = Some (f, st) -> f_kind frp' = f_kind frp -> f_rp frp' = f_rp frp ->
      f_cells frp' = match cell_of st o with CUnset => f_cells frp | cl => <[j := cl]> (f_cells frp) end ->
      f_eptr frp' = f_eptr frp ->
      f_eflag frp' = (match o, st with OExc _, false => true | _, _ => f_eflag frp end) ->
      fok h' p frp').
  { intros p j st frp frp' Hp Hpne Hj P1 P2 P3 P4 P5.
    pose proof (g_frames s h H p frp Hp) as Kp. destruct Kp.
    pose proof (Hnk p st (elem_of_list_lookup_2 _ _ _ Hj)) as Hpar.
    assert (Hpend : pending_in p h' = pending_in p h ∪ exn_of st o) by auto.
    assert (Hju : forall i st', kids_in p h !! i = Some (f, st') -> i = j).
    { intros i st' Hi. destruct (g_kids s h H p i f st' Hi) as (_ & _ & Hi3).
      destruct (g_kids s h H p j f st Hj) as (_ & _ & Hj3).
      destruct (Hi3 Hfo) as (fr1 & Hf1 & [Hk1|Hk1]); destruct (Hj3 Hfo) as (fr2 & Hf2 & [Hk2|Hk2]); congruence. }
    split.
    - rewrite P1. destruct (f_kind frp); auto.
    - rewrite P2. unfold ended. rewrite A4, decide_False by done. done.
    - rewrite P3. apply list_eq. intros i. unfold results_in. rewrite A3.
      rewrite list_lookup_fmap.
      assert (Hci : f_cells frp !! i = (fun x : N * bool => match outcome_in x.1 h with Some o0 => cell_of x.2 o0 | None => CUnset end) <$> kids_in p h !! i).
      { rewrite k_cells0. unfold results_in. by rewrite list_lookup_fmap. }
      destruct (decide (i = j)) as [->|Hij].
      + rewrite Hj. cbn. rewrite decide_True by done.
        assert (Hlt : (j < length (f_cells frp))%nat).
        { rewrite k_cells0. unfold results_in. rewrite map_length. by apply lookup_lt_Some in Hj. }
        destruct (cell_of st o) eqn:Ecell.
        * rewrite Hci, Hj. cbn. by rewrite Hfo.
        * by rewrite list_lookup_insert.
        * by rewrite list_lookup_insert.
      + assert (match cell_of st o with CUnset => f_cells frp | cl => <[j:=cl]> (f_cells frp) end !! i = f_cells frp !! i) as ->.
        { destruct (cell_of st o); [done| |]; by rewrite list_lookup_insert_ne. }
        rewrite Hci. destruct (kids_in p h !! i) as [[x st']|] eqn:Ei; [|done]. cbn.
        rewrite decide_False; [done|]. intros <-. eapply Hij, Hju; eauto.
    - rewrite P5, Hpend. destruct o as [v|e]; cbn.
      + rewrite (right_id_L ∅ (∪)). done.
      + destruct st; cbn; [rewrite (right_id_L ∅ (∪)); done|]. split; [set_solver|done].
    - intros e He. rewrite P4 in He. apply A5m. auto.
    - intros e q. rewrite P1, P2. intros E1 E2. apply A5m. eauto.
    - rewrite P2. intros Hov t' α o'. rewrite A2, A3. intros Hb Hr Hc.
      assert (Hα : α f = o).
      { specialize (Hr f st). rewrite A3, A4, decide_True in Hr by done.
        apply Hr. by eapply elem_of_list_lookup_2. }
      eapply (k_ref0 Hov t' α); [done| |].
      + intros x st' Hin. specialize (Hr x st'). rewrite A3, A4, A2 in Hr.
        case_decide as E; [|by apply Hr]. subst x. rewrite Hfo. intros t1 Ht1.
        replace t1 with t0 by congruence. by rewrite Hα.
      + rewrite (rexn_end h f o α p st); try done.
        * rewrite Hpend in Hc. clear -Hc. fold h' .
          rewrite (comm_L (∪) (rexn h' α (kids_in p h))), (assoc_L (∪)). exact Hc.
        * by eapply elem_of_list_lookup_2.
        * intros st' Hin. apply Hnk in Hin. congruence.
    - rewrite A6, k_sig0, P2. done. }
  assert (Hfin : (forall q frq, s_frames s' !! q = Some frq -> fok h' q frq) ->
    (forall q, s_frames s' !! q = None <-> s_frames s !! q = None) ->
    (forall q frq, s_frames s !! q = Some frq -> exists frq', s_frames s' !! q = Some frq' /\ f_kind frq' = f_kind frq) ->
    (forall q, parent_in q h = None -> s_res s' !! q = outcome_in q h') -> hist s' h').
  { intros F1 F2 F3 F4. destruct H. split; unfold sem in *; rewrite ?En, ?Es.
    - done.
    - intros q Hq. destruct (g_new0 q Hq) as (N1 & N2 & N3 & N4 & N5 & N6 & N7).
      assert (q <> f) by congruence.
      assert (Hnp : parent_in f h <> Some (q, false)).
      { intros Hq'. destruct (f_kind fr) as [|p j st'|p j st'] eqn:Ekf; pose proof (k_kind _ _ _ K) as X;
          rewrite Ekf in X.
        - congruence.
        - apply elem_of_list_lookup_2, Hnk in X. destruct Hm as (_ & ? & ? & ? & ? & _). congruence.
        - apply elem_of_list_lookup_2, Hnk in X. destruct Hm as (_ & ? & ? & ? & ? & _). congruence. }
      rewrite F2, A1, A2, A3, A4, A5, A6, decide_False by done. done.
    - done.
    - intros p j c st Hj. destruct (g_kids0 p j c st Hj) as (H1 & H2 & H3). split_and!; try done.
      rewrite A4. case_decide; [done|]. intros Ho. destruct (H3 Ho) as (frc & Hc & Hk).
      destruct (F3 c frc Hc) as (frc' & Hc' & Ek'). exists frc'. split; [done|].
      unfold child_of. rewrite Ek'. done.
    - intros q Hq Hn. unfold ended. rewrite A1, A4, A6. case_decide as E.
      + subst q. apply F2 in Hn. congruence.
      + apply g_dead0; [done|]. by apply F2.
    - intros q o' t'. rewrite A2, A4. case_decide as E; [|apply g_eval0].
      subst q. intros [= <-] Hb. replace t' with t0 by congruence. done.
    - intros p c st. unfold ended. rewrite A3, !A4. intros Hp Hc.
      destruct (decide (f = c)) as [E|E]; [eauto|].
      destruct (decide (f = p)) as [E'|E']; [subst p; by eapply Hke|].
      eapply g_tree0; eauto.
    - done.
    - done.
    - cbn. split; [|done]. split_and!; eauto. }
  destruct (f_kind fr) as [|p j st|p j st] eqn:Ekf.
  - destruct Hm as (EF & ER & Hfin'). apply Hfin.
    + intros q frq Hq. rewrite EF in Hq. destruct (decide (q = f)) as [->|Hne].
      * rewrite lookup_insert in Hq. injection Hq as <-. apply Kf. done.
      * rewrite lookup_insert_ne in Hq by done. apply Ko; [done|done|].
        intros st. pose proof (k_kind _ _ _ K) as X. rewrite Ekf in X. congruence.
    + intros q. rewrite EF. destruct (decide (q = f)) as [->|Hne].
      * rewrite lookup_insert, Hf. done.
      * by rewrite lookup_insert_ne.
    + intros q frq Hq. rewrite EF. destruct (decide (q = f)) as [->|Hne].
      * rewrite lookup_insert. exists fr'. split; [done|]. congruence.
      * rewrite lookup_insert_ne by done. eauto.
    + intros q Hq. rewrite ER, A4. case_decide as E.
      * subst q. by rewrite lookup_insert.
      * rewrite lookup_insert_ne by done. by apply (g_res s h H).
  - destruct Hm as (ER & frp & frp' & Hp & Hne & EF & P1 & P2 & P3 & P4 & P5 & P6).
    pose proof (k_kind _ _ _ K) as Hj. rewrite Ekf in Hj.
    pose proof (Hnk p st (elem_of_list_lookup_2 _ _ _ Hj)) as Hpar.
    apply Hfin.
    + intros q frq Hq. rewrite EF in Hq. destruct (decide (q = p)) as [->|Hqp].
      { rewrite lookup_insert in Hq. injection Hq as <-. by eapply Kp. }
      rewrite lookup_insert_ne in Hq by done. destruct (decide (q = f)) as [->|Hqf].
      * rewrite lookup_insert in Hq. injection Hq as <-. apply Kf.
        intros e p' E Epp. cbn in Epp. injection Epp as <-. destruct (P6 e E) as (-> & ->).
        rewrite (A5' p false) by done. set_solver.
      * rewrite lookup_insert_ne in Hq by done. apply Ko; [done|done|]. congruence.
    + intros q. rewrite EF. destruct (decide (q = p)) as [->|Hqp].
      { rewrite lookup_insert, Hp. done. }
      rewrite lookup_insert_ne by done. destruct (decide (q = f)) as [->|Hqf].
      * rewrite lookup_insert, Hf. done.
      * by rewrite lookup_insert_ne.
    + intros q frq Hq. rewrite EF. destruct (decide (q = p)) as [->|Hqp].
      { rewrite lookup_insert. exists frp'. split; [done|]. congruence. }
      rewrite lookup_insert_ne by done. destruct (decide (q = f)) as [->|Hqf].
      * rewrite lookup_insert. exists fr'. split; [done|]. congruence.
      * rewrite lookup_insert_ne by done. eauto.
    + intros q Hq. rewrite ER, A4. case_decide as E; [subst q; congruence|].
      by apply (g_res s h H).
  - destruct Hm as (ER & frp & frp' & Hp & Hne & EF & P1 & P2 & P3 & P4 & P5 & P6).
    pose proof (k_kind _ _ _ K) as Hj. rewrite Ekf in Hj.
    pose proof (Hnk p st (elem_of_list_lookup_2 _ _ _ Hj)) as Hpar.
    apply Hfin.
    + intros q frq Hq. rewrite EF in Hq. destruct (decide (q = p)) as [->|Hqp].
      { rewrite lookup_insert in Hq. injection Hq as <-. by eapply Kp. }
      rewrite lookup_insert_ne in Hq by done. destruct (decide (q = f)) as [->|Hqf].
      * rewrite lookup_insert in Hq. injection Hq as <-. apply Kf.
        intros e p' E Epp. cbn in Epp. injection Epp as <-. destruct (P6 e E) as (-> & ->).
        rewrite (A5' p false) by done. set_solver.
      * rewrite lookup_insert_ne in Hq by done. apply Ko; [done|done|]. congruence.
    + intros q. rewrite EF. destruct (decide (q = p)) as [->|Hqp].
      { rewrite lookup_insert, Hp. done. }
      rewrite lookup_insert_ne by done. destruct (decide (q = f)) as [->|Hqf].
      * rewrite lookup_insert, Hf. done.
      * by rewrite lookup_insert_ne.
    + intros q frq Hq. rewrite EF. destruct (decide (q = p)) as [->|Hqp].
      { rewrite lookup_insert. exists frp'. split; [done|]. congruence. }
      rewrite lookup_insert_ne by done. destruct (decide (q = f)) as [->|Hqf].
      * rewrite lookup_insert. exists fr'. split; [done|]. congruence.
      * rewrite lookup_insert_ne by done. eauto.
    + intros q Hq. rewrite ER, A4. case_decide as E; [subst q; congruence|].
      by apply (g_res s h H).
Qed.

(** ** Changes to frames of ended tasks *)

(** The second half of capture_exception, or any other change that keeps what
    [fok] needs. *)
Lemma hist_frames s s' h :
  hist s h ->
  (forall q fr', s_frames s' !! q = Some fr' ->
    exists fr, s_frames s !! q = Some fr /\ f_kind fr' = f_kind fr /\ f_cells fr' = f_cells fr /\
      f_eflag fr' = f_eflag fr /\
      (f_eptr fr' = f_eptr fr \/ exists e, f_eptr fr' = Some e /\ e ∈ pending_in q h) /\
      (f_rp fr' = f_rp fr \/ (f_rp fr' = RFinal /\ exists e, f_rp fr = RCapture e))) ->
  (forall q, s_frames s' !! q = None -> s_frames s !! q = None) ->
  s_nextf s' = s_nextf s -> s_res s' = s_res s -> s_sem s' = s_sem s ->
  hist s' h.
Proof.
  intros H HF HN En Er Es. destruct H. split; unfold sem in *; rewrite ?En, ?Er, ?Es; try done.
  - intros q fr' Hq. destruct (HF q fr' Hq) as (fr & Hf & E1 & E2 & E3 & E4 & E5).
    destruct (g_frames0 q fr Hf).
    assert (Hov : over (f_rp fr') = over (f_rp fr)).
    { destruct E5 as [->|(-> & e & ->)]; done. }
    split; rewrite ?E1, ?E2, ?E3, ?Hov; try done.
    + intros e He. destruct E4 as [E4|(e' & E4 & Hin)]; [rewrite E4 in He; auto|]. congruence.
    + intros e p Hrp. destruct E5 as [E5|(E5 & _)]; [|congruence]. rewrite E5 in Hrp. eauto.
    + intros Ho. destruct E5 as [E5|(E5 & e & E6)]; [|rewrite E6 in Ho; done]. rewrite E5. auto.
    + rewrite k_sig0. destruct E5 as [->|(-> & e & ->)]; done.
  - intros q Hq. destruct (g_new0 q Hq) as (N1 & N2). split; [|done].
    destruct (s_frames s' !! q) as [fr'|] eqn:E; [|done].
    destruct (HF q fr' E) as (fr & Hf & _). congruence.
  - intros p j c st Hj. destruct (g_kids0 p j c st Hj) as (H1 & H2 & H3). split_and!; try done.
    intros Ho. destruct (H3 Ho) as (fr & Hf & Hk).
    destruct (s_frames s' !! c) as [fr'|] eqn:E; [|apply HN in E; congruence].
    exists fr'. split; [done|]. destruct (HF c fr' E) as (fr0 & Hf0 & E1 & _).
    unfold child_of in *. rewrite E1. replace fr0 with fr by congruence. done.
  - auto.
Qed.

(** Destruction of a task that has ended and, if it is a root, was signalled. *)
Lemma hist_del s s' h f fr :
  hist s h -> s_frames s !! f = Some fr -> over (f_rp fr) = true ->
  (f_kind fr = KRoot <-> f_rp fr = RSignalled) ->
  s_frames s' = delete f (s_frames s) ->
  s_nextf s' = s_nextf s -> s_res s' = s_res s -> s_sem s' = s_sem s ->
  hist s' h.
Proof.
  intros H Hf Hov Hroot EF En Er Es. destruct H. split; unfold sem in *; rewrite ?EF, ?En, ?Er, ?Es; try done.
  - intros q frq Hq. apply lookup_delete_Some in Hq as (_ & Hq). auto.
  - intros q Hq. destruct (g_new0 q Hq) as (N1 & N2). split; [|done].
    rewrite lookup_delete_ne by congruence. done.
  - intros p j c st Hj. destruct (g_kids0 p j c st Hj) as (H1 & H2 & H3). split_and!; try done.
    intros Ho. destruct (H3 Ho) as (frc & Hc & Hk). exists frc. split; [|done].
    rewrite lookup_delete_ne; [done|]. intros <-.
    destruct (k_over _ _ _ (g_frames0 f fr Hf)) as (X & _). destruct (X Hov) as (o & Ho'). congruence.
  - intros q Hq Hn. apply lookup_delete_None in Hn as [<-|Hn]; [|auto].
    destruct (g_frames0 f fr Hf). split; [by apply k_over0|]. rewrite k_sig0.
    destruct (f_kind fr) as [|p j st|p j st] eqn:Ek.
    + rewrite k_kind0. destruct Hroot as (-> & _); done.
    + destruct (g_kids0 _ _ _ _ k_kind0) as (_ & -> & _).
      destruct (f_rp fr); try done. destruct Hroot as (_ & Hr). discriminate Hr. done.
    + destruct (g_kids0 _ _ _ _ k_kind0) as (_ & -> & _).
      destruct (f_rp fr); try done. destruct Hroot as (_ & Hr). discriminate Hr. done.
Qed.

(** The semaphore of a root is released. *)
Lemma hist_sig s s' h f fr fr' :
  hist s h -> s_frames s !! f = Some fr -> f_rp fr = RFinal -> f_kind fr = KRoot ->
  f_rp fr' = RSignalled -> f_kind fr' = f_kind fr -> f_cells fr' = f_cells fr ->
  f_eflag fr' = f_eflag fr -> f_eptr fr' = f_eptr fr ->
  s_frames s' = <[f := fr']> (s_frames s) ->
  s_nextf s' = s_nextf s -> s_res s' = s_res s -> s_sem s' = <[f := sem s f + 1]> (s_sem s) ->
  hist s' (EvSignal f :: h).
Proof.
  intros H Hf Hrp Hk Hrp' Hk' Hc Hfl Hep EF En Er Es.
  pose proof (g_frames s h H f fr Hf) as K.
  assert (Hend : ended h f). { apply (k_over _ _ _ K). rewrite Hrp. done. }
  assert (Hpar : parent_in f h = None). { pose proof (k_kind _ _ _ K) as X. by rewrite Hk in X. }
  assert (Hsig : signals_in f h = 0). { pose proof (k_sig _ _ _ K) as X. by rewrite Hrp in X. }
  destruct H. split; rewrite ?EF, ?En, ?Er.
  - intros q frq Hq. destruct (decide (q = f)) as [->|Hne].
    + rewrite lookup_insert in Hq. injection Hq as <-. destruct K.
      split; rewrite ?Hrp', ?Hk', ?Hc, ?Hfl, ?Hep; try done.
      cbn. rewrite decide_True, Hsig by done. done.
    + rewrite lookup_insert_ne in Hq by done. eapply fok_ext; eauto.
      cbn. rewrite decide_False by done. lia.
  - intros q Hq. destruct (g_new0 q Hq) as (N1 & N2 & N3 & N4 & N5 & N6 & N7).
    assert (f <> q) by congruence. rewrite lookup_insert_ne by done. cbn. rewrite decide_False, N7 by done. done.
  - done.
  - intros p j c st Hj. destruct (g_kids0 p j c st Hj) as (H1 & H2 & H3). split_and!; try done.
    intros Ho. destruct (H3 Ho) as (frc & Hfc & Hkc). destruct (decide (c = f)) as [->|Hne].
    + rewrite lookup_insert. exists fr'. split; [done|]. unfold child_of. rewrite Hk'.
      replace fr with frc by congruence. done.
    + rewrite lookup_insert_ne by done. eauto.
  - intros q Hq Hn. destruct (decide (q = f)) as [->|Hne]; [by rewrite lookup_insert in Hn|].
    rewrite lookup_insert_ne in Hn by done. destruct (g_dead0 q Hq Hn) as (D1 & D2). split; [done|].
    cbn. rewrite decide_False by done. done.
  - done.
  - done.
  - done.
  - intros q. unfold sem in *. rewrite Es. cbn. destruct (decide (f = q)) as [<-|Hne].
    + rewrite lookup_insert. cbn. rewrite g_sem0. lia.
    + rewrite lookup_insert_ne by done. rewrite g_sem0. lia.
  - cbn. done.
Qed.

End hist.
