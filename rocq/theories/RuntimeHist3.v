(** * Who runs what, read off the history of events. *)

From stdpp Require Import prelude gmap list.
From Coq Require Import NArith Lia.
From Verif Require Import RuntimeModel RuntimeSpec RuntimeInv RuntimeStep RuntimeStep2 RuntimeStep3
  RuntimeStep4 RuntimeStep5 RuntimeStep6 RuntimeStep7 RuntimeSafe RuntimeHist RuntimeHist2.
Local Open Scope N_scope.

(** The task a worker is running. *)
Definition pcrun (p : pc) : option N :=
  match p with PRun f | PJSusp f => Some f | _ => None end.
Definition pcs (s : state) : list pc := map w_pc (s_workers s).
Definition runs (s : state) (i : nat) (f : N) : Prop :=
  exists p, pcs s !! i = Some p /\ pcrun p = Some f.

Definition susp_ok (h : list event) (f : N) (rp : rpoint) : Prop :=
  match rp with
  | RRun _ => status_in f h = Some Ready
  | RFork _ _ _ _ => exists c st, status_in f h = Some (AtFork c) /\ last (kids_in f h) = Some (c, st)
  | RCall _ _ _ => exists c st, status_in f h = Some (AtCall c) /\ last (kids_in f h) = Some (c, st)
  | RJoin _ => status_in f h = Some AtJoin
  | RSwitched d _ => status_in f h = Some (AtSwitch d)
  | _ => False
  end.

(** What holds whenever an event occurs, given the history before it. *)
Definition ev2 (e : event) (h : list event) : Prop :=
  match e with
  | EvSpawn _ _ => True
  | EvResume w f =>
    match status_in f h with
    | Some Ready | Some (AtFork _) => True
    | Some (AtCall c) => status_in c h = Some Gone
    | Some AtJoin => forall c st, (c, st) ∈ kids_in f h -> status_in c h = Some Gone
    | Some (AtSwitch d) => w = d
    | _ => False
    end
  | EvFork p c _ _ | EvCall p c _ _ =>
    (exists w, status_in p h = Some (Running w)) /\ status_in c h = None
  | EvEnd f _ | EvDestroy f | EvStash f _ | EvEager f _ | EvWait f | EvSwitch f _ =>
    exists w, status_in f h = Some (Running w)
  | EvJoin f _ _ =>
    (exists w, status_in f h = Some (Running w)) /\
    forall c st, (c, st) ∈ kids_in f h -> status_in c h = Some Gone
  | EvSync f cl =>
    (exists w, status_in f h = Some (Running w)) /\
    exists c st o, last (kids_in f h) = Some (c, st) /\ outcome_in c h = Some o /\ cl = cell_of st o
  | EvSignal f =>
    (exists w, status_in f h = Some (Running w)) /\
    forall c, descendant h f c -> status_in c h = Some Gone
  end.

Fixpoint evs2 (h : list event) : Prop :=
  match h with [] => True | e :: h' => ev2 e h' /\ evs2 h' end.

Record stat (s : state) (h : list event) : Prop := {
  t_run : forall i f, runs s i f -> status_in f h = Some (Running i);
  t_sus : forall f fr, s_frames s !! f = Some fr -> (forall i, ~ runs s i f) -> susp_ok h f (f_rp fr);
  t_dead : forall f, f < s_nextf s -> s_frames s !! f = None -> status_in f h = Some Gone;
  t_new : forall f, s_nextf s <= f -> status_in f h = None;
  t_evs : evs2 h
}.

Lemma runs_wtok s i f : runs s i f -> exists w, s_workers s !! i = Some w /\ pcrun (w_pc w) = Some f /\ 0 < wtok f w.
Proof.
  intros (p & Hp & Hr). unfold pcs in Hp. rewrite list_lookup_fmap in Hp.
  destruct (s_workers s !! i) as [w|] eqn:Hi; [|done]. cbn in Hp. injection Hp as <-.
  exists w. split_and!; try done. unfold wtok. destruct (w_pc w); cbn in Hr; try done; injection Hr as ->; cbn; rewrite eqn_refl; lia.
Qed.
Lemma pcs_lookup s i w : s_workers s !! i = Some w -> pcs s !! i = Some (w_pc w).
Proof. intros H. unfold pcs. by rewrite list_lookup_fmap, H. Qed.
Lemma runs_uniq nw G s i j f : inv nw G s -> runs s i f -> runs s j f -> i = j.
Proof.
  intros I (w & Hi & _ & H1)%runs_wtok (w' & Hj & _ & H2)%runs_wtok.
  destruct (decide (i = j)) as [|Hne]; [done|].
  destruct (tok_live _ _ _ f _ _ I Hi H1) as (fr & Hf).
  pose proof (tok_other _ _ _ _ _ _ _ _ _ I Hf Hi Hj Hne H1). lia.
Qed.
Lemma runs_live nw G s i f : inv nw G s -> runs s i f -> exists fr, s_frames s !! f = Some fr.
Proof. intros I (w & Hi & _ & H1)%runs_wtok. by eapply tok_live. Qed.

(** Nobody runs a task whose token is elsewhere. *)
Lemma nobody nw G s f fr :
  inv nw G s -> s_frames s !! f = Some fr ->
  (match f_rp fr with RCall _ _ _ | RJoin _ => True | _ => False end \/
   exists i w, s_workers s !! i = Some w /\ occ f (pc_tok (w_pc w)) + 1 <= wtok f w \/
               s_workers s !! i = Some w /\ w_pc w = PStolen f) ->
  forall j, ~ runs s j f.
Proof.
  intros I Hf Hx j (w' & Hj & Hr & Ht)%runs_wtok.
  pose proof (i_node _ _ _ I f fr Hf) as (N & _).
  pose proof (sumw_ge (wtok f) _ _ _ Hj) as Hge.
  destruct Hx as [Hx|(i & w & [(Hi & Hx)|(Hi & Hx)])].
  - destruct (f_rp fr); try done; lia.
  - assert (Hr' : 1 <= occ f (pc_tok (w_pc w'))).
    { destruct (w_pc w'); cbn in Hr; try done; injection Hr as ->; cbn; rewrite eqn_refl; lia. }
    destruct (decide (i = j)) as [<-|Hne].
    + rewrite Hi in Hj. injection Hj as <-. destruct (f_rp fr); lia.
    + pose proof (sumw_ge2 (wtok f) _ _ _ _ _ Hne Hi Hj). destruct (f_rp fr); lia.
  - destruct (decide (i = j)) as [<-|Hne].
    + rewrite Hi in Hj. injection Hj as <-. by rewrite Hx in Hr.
    + pose proof (sumw_ge2 (wtok f) _ _ _ _ _ Hne Hi Hj).
      assert (1 <= wtok f w) by (unfold wtok; rewrite Hx; cbn; rewrite eqn_refl; lia).
      destruct (f_rp fr); lia.
Qed.

(** ** The general step *)

Lemma stat_gen nw G G' s s' h h' i p p1 :
  inv nw G s -> inv nw G' s' -> stat s h ->
  pcs s !! i = Some p -> pcs s' = <[i := p1]> (pcs s) ->
  (forall f, pcrun p1 = Some f -> status_in f h' = Some (Running i)) ->
  (forall f fr, s_frames s !! f = Some fr -> pcrun p1 <> Some f -> pcrun p <> Some f ->
    status_in f h' = status_in f h /\ kids_in f h' = kids_in f h) ->
  (forall f fr', s_frames s' !! f = Some fr' -> pcrun p1 <> Some f -> pcrun p <> Some f ->
    (exists fr, s_frames s !! f = Some fr /\ f_rp fr' = f_rp fr) \/ susp_ok h' f (f_rp fr')) ->
  (forall f fr', s_frames s' !! f = Some fr' -> pcrun p1 <> Some f -> pcrun p = Some f ->
    susp_ok h' f (f_rp fr')) ->
  (forall f, f < s_nextf s' -> s_frames s' !! f = None -> status_in f h' = Some Gone) ->
  (forall f, s_nextf s' <= f -> status_in f h' = None) ->
  evs2 h' -> stat s' h'.
Proof.
  intros I I' T Hp Hp' HR HS HF1 HF2 HD HN HE.
  assert (Hlt : (i < length (pcs s))%nat) by (by apply lookup_lt_Some in Hp).
  assert (Hself : pcs s' !! i = Some p1) by (rewrite Hp'; by apply list_lookup_insert).
  assert (Hoth : forall j, j <> i -> pcs s' !! j = pcs s !! j)
    by (intros j Hj; rewrite Hp'; by apply list_lookup_insert_ne).
  split; try done.
  - intros j f Hj. destruct (decide (j = i)) as [->|Hne].
    + destruct Hj as (q & Hq & Hr). rewrite Hself in Hq. injection Hq as <-. auto.
    + assert (Hj0 : runs s j f) by (destruct Hj as (q & Hq & Hr); rewrite Hoth in Hq by done; by exists q).
      destruct (runs_live _ _ _ _ _ I Hj0) as (fr & Hf).
      destruct (HS f fr Hf) as (-> & _).
      * intros E. apply Hne. eapply (runs_uniq _ _ s' _ _ f I' Hj). by exists p1.
      * intros E. apply Hne. eapply (runs_uniq _ _ s _ _ f I Hj0). by exists p.
      * by apply T.
  - intros f fr' Hf Hno.
    assert (Hn1 : pcrun p1 <> Some f) by (intros E; apply (Hno i); by exists p1).
    destruct (decide (pcrun p = Some f)) as [E|E]; [by eapply HF2|].
    destruct (HF1 f fr' Hf Hn1 E) as [(fr & Hfr & Hrp)|]; [|done].
    rewrite Hrp. destruct (HS f fr Hfr Hn1 E) as (E1 & E2).
    assert (X : susp_ok h f (f_rp fr)).
    { apply (t_sus _ _ T); [done|]. intros j (q & Hq & Hr). destruct (decide (j = i)) as [->|Hne].
      - rewrite Hp in Hq. injection Hq as ->. done.
      - apply (Hno j). exists q. by rewrite Hoth. }
    unfold susp_ok in *. rewrite E1, E2. done.
Qed.

Definition neutral (e : event) : Prop :=
  match e with EvEnd _ _ | EvStash _ _ | EvEager _ _ | EvJoin _ _ _ | EvSync _ _ | EvSignal _ => True | _ => False end.
Lemma neutral_app tr h :
  Forall neutral tr ->
  (forall c, status_in c (tr ++ h) = status_in c h) /\ (forall c, kids_in c (tr ++ h) = kids_in c h).
Proof. induction 1 as [|e tr He _ IH]; [done|]. destruct e; done. Qed.

Section u.
Context (af : bool) (nw : nat).

(** The set of frames stays. *)
Definition same_dom (s s' : state) : Prop :=
  s_nextf s' = s_nextf s /\
  (forall f, s_frames s' !! f = None -> s_frames s !! f = None).

(** Worker [i] keeps running what it was running. *)
Lemma stat_same G G' s s' h tr i p p1 :
  inv nw G s -> inv nw G' s' -> stat s h ->
  pcs s !! i = Some p -> pcs s' = <[i := p1]> (pcs s) -> pcrun p1 = pcrun p ->
  same_dom s s' ->
  (forall f fr', s_frames s' !! f = Some fr' -> pcrun p <> Some f ->
    exists fr, s_frames s !! f = Some fr /\ f_rp fr' = f_rp fr) ->
  Forall neutral tr -> evs2 (tr ++ h) -> stat s' (tr ++ h).
Proof.
  intros I I' T Hp Hp' E (En & Ed) HF Hn HE. destruct (neutral_app tr h Hn) as (A1 & A2).
  eapply (stat_gen nw G G' s s' h _ i p p1); try done.
  - intros f Hf. rewrite A1. apply (t_run _ _ T). exists p. by rewrite <- E.
  - intros f fr' Hf _ Hne. left. eauto.
  - intros f fr' Hf H1 H2. congruence.
  - intros f Hf Hd. rewrite A1. rewrite En in Hf. apply (t_dead _ _ T); auto.
  - intros f Hf. rewrite A1. apply (t_new _ _ T). lia.
Qed.

(** Worker [i] resumes [f]. *)
Lemma stat_resume G G' s s' h tr i p p1 f :
  inv nw G s -> inv nw G' s' -> stat s h ->
  pcs s !! i = Some p -> pcs s' = <[i := p1]> (pcs s) -> pcrun p = None -> pcrun p1 = Some f ->
  same_dom s s' ->
  (forall q fr', s_frames s' !! q = Some fr' -> q <> f ->
    exists fr, s_frames s !! q = Some fr /\ f_rp fr' = f_rp fr) ->
  Forall neutral tr -> evs2 (tr ++ EvResume i f :: h) -> stat s' (tr ++ EvResume i f :: h).
Proof.
  intros I I' T Hp Hp' E1 E2 (En & Ed) HF Hn HE. destruct (neutral_app tr (EvResume i f :: h) Hn) as (A1 & A2).
  assert (Hrun : runs s' i f).
  { exists p1. split; [|done]. rewrite Hp'. apply list_lookup_insert. by apply lookup_lt_Some in Hp. }
  destruct (runs_live _ _ _ _ _ I' Hrun) as (fr' & Hf').
  assert (Hflt : f < s_nextf s').
  { destruct (decide (f < s_nextf s')); [done|]. rewrite (i_fresh _ _ _ I') in Hf' by lia. done. }
  eapply (stat_gen nw G G' s s' h _ i p p1); try done.
  - intros q Hq. rewrite A1. assert (q = f) as -> by congruence. cbn. by rewrite decide_True.
  - intros q fr Hq H1 H2. rewrite A1, A2. cbn. rewrite decide_False by congruence. done.
  - intros q frq Hq H1 H2. left. apply HF; [done|]. congruence.
  - intros q frq Hq H1 H2. congruence.
  - intros q Hq Hd. rewrite A1. cbn. destruct (decide (f = q)) as [->|]; [congruence|].
    rewrite En in Hq. apply (t_dead _ _ T); auto.
  - intros q Hq. rewrite A1. cbn. rewrite decide_False by lia. apply (t_new _ _ T). lia.
Qed.

(** Task [f] is suspended. *)
Lemma stat_suspend G G' s s' h i p p1 f ev :
  inv nw G s -> inv nw G' s' -> stat s h ->
  pcs s !! i = Some p -> pcs s' = <[i := p1]> (pcs s) -> pcrun p = Some f -> pcrun p1 = None ->
  same_dom s s' ->
  (forall q fr', s_frames s' !! q = Some fr' -> q <> f ->
    exists fr, s_frames s !! q = Some fr /\ f_rp fr' = f_rp fr) ->
  (ev = EvWait f /\ (forall fr', s_frames s' !! f = Some fr' -> exists k, f_rp fr' = RJoin k) \/
   exists d, ev = EvSwitch f d /\ forall fr', s_frames s' !! f = Some fr' -> exists k, f_rp fr' = RSwitched d k) ->
  stat s' (ev :: h).
Proof.
  intros I I' T Hp Hp' E1 E2 (En & Ed) HF Hev.
  assert (Hrun : runs s i f) by (by exists p).
  destruct (runs_live _ _ _ _ _ I Hrun) as (fr & Hf).
  assert (Hflt : f < s_nextf s).
  { destruct (decide (f < s_nextf s)); [done|]. rewrite (i_fresh _ _ _ I) in Hf by lia. done. }
  assert (A : forall q, q <> f -> status_in q (ev :: h) = status_in q h).
  { intros q Hq. destruct Hev as [(-> & _)|(d & -> & _)]; cbn; by rewrite decide_False. }
  assert (A2 : forall q, kids_in q (ev :: h) = kids_in q h).
  { intros q. by destruct Hev as [(-> & _)|(d & -> & _)]. }
  eapply (stat_gen nw G G' s s' h _ i p p1); try done.
  - congruence.
  - intros q frq Hq H1 H2. rewrite A, A2 by congruence. done.
  - intros q frq Hq H1 H2. left. apply HF; [done|]. congruence.
  - intros q frq Hq H1 H2. assert (q = f) as -> by congruence.
    destruct Hev as [(-> & Hk)|(d & -> & Hk)]; destruct (Hk frq Hq) as (k & ->); cbn; by rewrite decide_True.
  - intros q Hq Hd. apply Ed in Hd. rewrite A by congruence. apply (t_dead _ _ T); [|done]. lia.
  - intros q Hq. rewrite A by lia. apply (t_new _ _ T). lia.
  - split; [|apply T]. pose proof (t_run _ _ T _ _ Hrun). destruct Hev as [(-> & _)|(d & -> & _)]; cbn; eauto.
Qed.

(** Task [f] forks or calls the new task [c]. *)
Lemma stat_child G G' s s' h i p p1 f c st t ev :
  inv nw G s -> inv nw G' s' -> stat s h ->
  pcs s !! i = Some p -> pcs s' = <[i := p1]> (pcs s) -> pcrun p = Some f -> pcrun p1 = Some c ->
  c = s_nextf s -> s_nextf s' = s_nextf s + 1 ->
  (forall q, s_frames s' !! q = None -> s_frames s !! q = None) ->
  (forall q fr', s_frames s' !! q = Some fr' -> q <> f -> q <> c ->
    exists fr, s_frames s !! q = Some fr /\ f_rp fr' = f_rp fr) ->
  (ev = EvFork f c st t /\ (forall fr', s_frames s' !! f = Some fr' -> exists m st k pre, f_rp fr' = RFork m st k pre) \/
   ev = EvCall f c st t /\ forall fr', s_frames s' !! f = Some fr' -> exists m st k, f_rp fr' = RCall m st k) ->
  stat s' (EvResume i c :: ev :: h).
Proof.
  intros I I' T Hp Hp' E1 E2 -> En Ed HF Hev. set (c := s_nextf s) in *.
  assert (Hrun : runs s i f) by (by exists p).
  destruct (runs_live _ _ _ _ _ I Hrun) as (fr & Hf).
  assert (Hflt : f < c).
  { destruct (decide (f < s_nextf s)); [done|]. rewrite (i_fresh _ _ _ I) in Hf by lia. done. }
  assert (Hc' : exists fr', s_frames s' !! c = Some fr').
  { apply (runs_live _ _ _ i c I'). exists p1. split; [|done].
    rewrite Hp'. apply list_lookup_insert. by apply lookup_lt_Some in Hp. }
  assert (A : forall q, q <> f -> q <> c -> status_in q (EvResume i c :: ev :: h) = status_in q h).
  { intros q Hq Hc. destruct Hev as [(-> & _)|(-> & _)]; cbn; by rewrite !decide_False. }
  assert (Ac : status_in c (EvResume i c :: ev :: h) = Some (Running i)) by (cbn; by rewrite decide_True).
  assert (A2 : forall q, q <> f -> kids_in q (EvResume i c :: ev :: h) = kids_in q h).
  { intros q Hq. destruct Hev as [(-> & _)|(-> & _)]; cbn; by rewrite decide_False. }
  eapply (stat_gen nw G G' s s' h _ i p p1); try done.
  - intros q Hq. assert (q = c) as -> by congruence. done.
  - intros q frq Hq H1 H2. rewrite A, A2 by congruence. done.
  - intros q frq Hq H1 H2. left. apply HF; [done|congruence..].
  - intros q frq Hq H1 H2. assert (q = f) as -> by congruence.
    destruct Hev as [(-> & Hk)|(-> & Hk)].
    + destruct (Hk frq Hq) as (m & st0 & k & pre & ->). exists c, st. cbn.
      rewrite decide_False by lia. rewrite !decide_True by done. split; [done|]. apply last_snoc.
    + destruct (Hk frq Hq) as (m & st0 & k & ->). exists c, st. cbn.
      rewrite decide_False by lia. rewrite !decide_True by done. split; [done|]. apply last_snoc.
  - intros q Hq Hd. destruct Hc' as (frc & Hc'). rewrite En in Hq.
    assert (q <> c) by congruence. apply Ed in Hd. rewrite A by congruence. apply (t_dead _ _ T); [|done]. unfold c in *. lia.
  - intros q Hq. rewrite A by lia. apply (t_new _ _ T). lia.
  - pose proof (t_run _ _ T _ _ Hrun). pose proof (t_evs _ _ T).
    assert (status_in c h = None) by (apply (t_new _ _ T); unfold c; lia).
    destruct Hev as [(-> & _)|(-> & _)]; cbn; split_and!; eauto; rewrite decide_False by lia; by rewrite decide_True.
Qed.

(** Task [f] is destroyed by the worker that ran it, and perhaps its parent resumed. *)
Lemma stat_destroy G G' s s' h tr i p p1 f :
  inv nw G s -> inv nw G' s' -> stat s h ->
  pcs s !! i = Some p -> pcs s' = <[i := p1]> (pcs s) -> pcrun p = Some f ->
  s_nextf s' = s_nextf s ->
  (forall q, s_frames s' !! q = None -> s_frames s !! q = None \/ q = f) -> s_frames s' !! f = None ->
  (pcrun p1 = None /\ tr = [] \/
   exists g tr0, pcrun p1 = Some g /\ g <> f /\ tr = tr0 ++ [EvResume i g] /\ Forall neutral tr0) ->
  (forall q fr', s_frames s' !! q = Some fr' -> pcrun p1 <> Some q ->
    exists fr, s_frames s !! q = Some fr /\ f_rp fr' = f_rp fr) ->
  evs2 (tr ++ EvDestroy f :: h) ->
  stat s' (tr ++ EvDestroy f :: h).
Proof.
  intros I I' T Hp Hp' E1 En Ed Hdel Htr HF HE.
  assert (Hrun : runs s i f) by (by exists p).
  destruct (runs_live _ _ _ _ _ I Hrun) as (fr & Hf).
  assert (Hflt : f < s_nextf s).
  { destruct (decide (f < s_nextf s)); [done|]. rewrite (i_fresh _ _ _ I) in Hf by lia. done. }
  assert (A : forall q, pcrun p1 <> Some q -> q <> f -> status_in q (tr ++ EvDestroy f :: h) = status_in q h).
  { intros q H1 H2. destruct Htr as [(_ & ->)|(g & tr0 & Hg & Hgf & -> & Hn)].
    - cbn. by rewrite decide_False.
    - rewrite <- app_assoc. destruct (neutral_app tr0 ([EvResume i g] ++ EvDestroy f :: h) Hn) as (B1 & _).
      rewrite B1. cbn. rewrite !decide_False by congruence. done. }
  assert (Af : status_in f (tr ++ EvDestroy f :: h) = Some Gone).
  { destruct Htr as [(_ & ->)|(g & tr0 & Hg & Hgf & -> & Hn)].
    - cbn. by rewrite decide_True.
    - rewrite <- app_assoc. destruct (neutral_app tr0 ([EvResume i g] ++ EvDestroy f :: h) Hn) as (B1 & _).
      rewrite B1. cbn. rewrite decide_False by congruence. by rewrite decide_True. }
  assert (Ag : forall g, pcrun p1 = Some g -> status_in g (tr ++ EvDestroy f :: h) = Some (Running i)).
  { intros g' Hg'. destruct Htr as [(? & ->)|(g & tr0 & Hg & Hgf & -> & Hn)]; [congruence|].
    assert (g' = g) as -> by congruence.
    rewrite <- app_assoc. destruct (neutral_app tr0 ([EvResume i g] ++ EvDestroy f :: h) Hn) as (B1 & _).
    rewrite B1. cbn. by rewrite decide_True. }
  assert (A2 : forall q, kids_in q (tr ++ EvDestroy f :: h) = kids_in q h).
  { intros q. destruct Htr as [(? & ->)|(g & tr0 & Hg & Hgf & -> & Hn)]; [done|].
    rewrite <- app_assoc. destruct (neutral_app tr0 ([EvResume i g] ++ EvDestroy f :: h) Hn) as (_ & B1).
    by rewrite B1. }
  assert (Hlive : forall g, pcrun p1 = Some g -> exists frg, s_frames s' !! g = Some frg).
  { intros g Hg. apply (runs_live _ _ _ i g I'). exists p1. split; [|done].
    rewrite Hp'. apply list_lookup_insert. by apply lookup_lt_Some in Hp. }
  eapply (stat_gen nw G G' s s' h _ i p p1); try done.
  - intros q frq Hq H1 H2. rewrite A, A2 by congruence. done.
  - intros q frq Hq H1 H2. left. by apply HF.
  - intros q frq Hq H1 H2. congruence.
  - intros q Hq Hd. assert (pcrun p1 <> Some q).
    { intros E. destruct (Hlive q E). congruence. }
    destruct (decide (q = f)) as [->|]; [done|]. rewrite A by done.
    destruct (Ed q Hd) as [Hd'| ->]; [|done]. apply (t_dead _ _ T); [|done]. lia.
  - intros q Hq. rewrite A; [apply (t_new _ _ T); lia| |lia].
    intros E. destruct (Hlive q E) as (frq & Hfq). rewrite (i_fresh _ _ _ I') in Hfq by lia. done.
Qed.

Lemma stat_spawn G G' s s' h f fr t i p :
  inv nw G s -> inv nw G' s' -> stat s h ->
  pcs s !! i = Some p -> pcs s' = pcs s ->
  f = s_nextf s -> s_nextf s' = s_nextf s + 1 -> s_frames s' = <[f := fr]> (s_frames s) -> f_rp fr = RRun t ->
  stat s' (EvSpawn f t :: h).
Proof.
  intros I I' T Hp Hp' -> En EF Hr. set (f := s_nextf s) in *.
  assert (A : forall q, q <> f -> status_in q (EvSpawn f t :: h) = status_in q h).
  { intros q Hq. cbn. by rewrite decide_False. }
  assert (Hff : s_frames s !! f = None) by (apply (i_fresh _ _ _ I); unfold f; lia).
  eapply (stat_gen nw G G' s s' h _ i p p); try done.
  - rewrite Hp'. symmetry. by apply list_insert_id.
  - intros q Hq. assert (Hrun : runs s i q) by (by exists p).
    destruct (runs_live _ _ _ _ _ I Hrun) as (frq & Hfq). rewrite A by congruence. by apply (t_run _ _ T).
  - intros q frq Hq H1 H2. rewrite A by congruence. done.
  - intros q frq Hq H1 H2. rewrite EF in Hq. destruct (decide (q = f)) as [->|].
    + rewrite lookup_insert in Hq. injection Hq as <-. right. rewrite Hr. cbn. by rewrite decide_True.
    + rewrite lookup_insert_ne in Hq by done. left. eauto.
  - intros q Hq Hd. rewrite EF in Hd. apply lookup_insert_None in Hd as (Hd & Hne). rewrite A by congruence.
    apply (t_dead _ _ T); [|done]. unfold f in *. lia.
  - intros q Hq. rewrite A by (unfold f; lia). apply (t_new _ _ T). lia.
  - split; [done|]. apply T.
Qed.

End u.
