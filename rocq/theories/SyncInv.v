(** * The invariant behind race freedom.

    [know s g f m]: whoever continues task [f] next will know action [m].
    [pend s g f m]: whoever completes the next join of [f] will know action [m].
    The invariant says for each location which of the possible later accessors
    know the accesses made so far. *)

From stdpp Require Import prelude gmap list relations.
From Coq Require Import NArith Lia.
From Verif Require Import RuntimeModel RuntimeSpec RuntimeInv SyncSpec SyncModel SyncViews.
Local Open Scope N_scope.

Definition wknow (g : views) (i : nat) (w : worker) (f : N) (m : nat) : Prop :=
  (f ∈ pc_tok (w_pc w) ++ w_batch w /\ cur g (TW i) m) \/
  (f ∈ w_deque w /\ rel g (TW i) m /\ msg g (OBot i) m) \/
  (f ∈ w_inbox w /\ msg g (OInbox i) m).

Inductive know (s : state) (g : views) : N -> nat -> Prop :=
| kn_wrk i w f m : s_workers s !! i = Some w -> wknow g i w f m -> know s g f m
| kn_join f fr k m : s_frames s !! f = Some fr -> f_rp fr = RJoin k -> msg g (OJoin f) m -> know s g f m
| kn_call f fr x y k c frc j st m :
    s_frames s !! f = Some fr -> f_rp fr = RCall x y k ->
    s_frames s !! c = Some frc -> f_kind frc = KCall f j st -> know s g c m -> know s g f m.

Definition final_of (w : worker) : option N :=
  match w_pc w with PFinal p | PSub p => Some p | _ => None end.

Definition pend (s : state) (g : views) (p : N) (m : nat) : Prop :=
  know s g p m \/
  (msg g (OJoin p) m /\ exists fr, s_frames s !! p = Some fr /\ f_joins fr <> u16max) \/
  (exists c fr j st, s_frames s !! c = Some fr /\ f_kind fr = KFork p j st /\ know s g c m) \/
  (exists i w, s_workers s !! i = Some w /\ final_of w = Some p /\ cur g (TW i) m).

(** Who has to know an access. *)
Inductive knower := KF (f : N) | KP (f : N) | KT (t : thread) | KS (r : N).

Definition kn (s : state) (g : views) (k : knower) (m : nat) : Prop :=
  match k with
  | KF f => know s g f m
  | KP f => pend s g f m
  | KT t => cur g t m
  | KS r => msg g (OSem r) m \/ cur g (TX r) m
  end.

Definition cellof (k : kind) : option (N * nat) :=
  match k with KRoot => None | KCall p j _ | KFork p j _ => Some (p, j) end.

(** Locations of [f] that its children touch. *)
Definition shared (f : N) (l : loc) : Prop :=
  l = LHdr f \/ l = LAt (OJoin f) \/ l = LAt (OFlag f) \/ l = LExn f \/ exists j, l = LCell f j.

(** Accesses to locations of [p] that conflict with those of its children. *)
Definition ctl (p : N) (l : loc) (w a : bool) : Prop :=
  (l = LHdr p /\ w = true) \/ ((l = LAt (OJoin p) \/ l = LAt (OFlag p)) /\ a = false).

(** Worker [i] may look at the result of the last child of [p]. *)
Definition lastc (w : worker) (p : N) (fr : frame) : Prop :=
  (w_pc w = PFinal p /\ exists d, w_deque w = p :: d) \/
  (w_pc w = PRun p /\ exists m st k, f_rp fr = RFork m st k (f_steals fr)).

Definition detached (s : state) (x : N) : Prop :=
  forall i w, s_workers s !! i = Some w -> eff w = true -> w_stk w <> x.

Inductive req (s : state) : loc -> bool -> bool -> knower -> Prop :=
| rq_frame f fr w a : s_frames s !! f = Some fr -> req s (LFrame f) w a (KF f)
| rq_node f fr w a : s_frames s !! f = Some fr -> req s (LNode f) w a (KF f)
| rq_share f fr l w a : s_frames s !! f = Some fr -> shared f l -> req s l w a (KP f)
| rq_own f fr l w a : s_frames s !! f = Some fr -> ctl f l w a -> req s l w a (KF f)
| rq_kid c fr p l w a :
    s_frames s !! c = Some fr -> par (f_kind fr) = Some p -> ctl p l w a -> req s l w a (KF c)
| rq_fin i wk p l w a :
    s_workers s !! i = Some wk -> final_of wk = Some p -> ctl p l w a -> req s l w a (KT (TW i))
| rq_cell c fr p j w a :
    s_frames s !! c = Some fr -> cellof (f_kind fr) = Some (p, j) -> req s (LCell p j) w a (KF c)
| rq_newcell f fr j w a :
    s_frames s !! f = Some fr -> (length (f_cells fr) <= j)%nat -> req s (LCell f j) w a (KF f)
| rq_exn f fr w a : s_frames s !! f = Some fr -> f_eflag fr = false -> req s (LExn f) w a (KF f)
| rq_exnk c fr p frp w a :
    s_frames s !! c = Some fr -> par (f_kind fr) = Some p ->
    s_frames s !! p = Some frp -> f_eflag frp = false -> req s (LExn p) w a (KF c)
| rq_capt c fr p e w a :
    s_frames s !! c = Some fr -> par (f_kind fr) = Some p -> f_rp fr = RCapture e ->
    req s (LExn p) w a (KF c)
| rq_last i wk p fr n w a :
    s_workers s !! i = Some wk -> s_frames s !! p = Some fr -> lastc wk p fr ->
    S n = length (f_cells fr) -> req s (LCell p n) w a (KT (TW i))
| rq_stkw i wk w a :
    s_workers s !! i = Some wk -> eff wk = true -> req s (LStk (w_stk wk)) w a (KT (TW i))
| rq_stkd x f l w a : stk s x = f :: l -> detached s x -> req s (LStk x) w a (KP f)
| rq_res r fr w a :
    s_frames s !! r = Some fr -> f_kind fr = KRoot -> f_rp fr <> RSignalled -> req s (LRes r) w a (KF r)
| rq_sem r w a : 0 < sem s r -> req s (LRes r) w a (KS r)
| rq_semk r fr w : s_frames s !! r = Some fr -> req s (LAt (OSem r)) w false (KF r)
| rq_semc r w : req s (LAt (OSem r)) w false (KT (TX r)).

(** The closest live ancestor of a task that has been destroyed; was it called or
    forked by that ancestor. *)
Inductive near (s : state) (g : views) : N -> N -> bool -> Prop :=
| near_one c p b fr :
    s_frames s !! c = None -> gpa g c p b -> s_frames s !! p = Some fr -> near s g c p b
| near_step c p b a b' :
    s_frames s !! c = None -> gpa g c p b -> s_frames s !! p = None -> near s g p a b' -> near s g c a b'.

Definition gpar (g : views) (c p : N) : Prop := exists b, gpa g c p b.
Definition tree (g : views) (c r : N) : Prop := rtc (gpar g) c r.

Definition kindb (k : kind) : bool := match k with KCall _ _ _ => true | _ => false end.

Definition floc (l : loc) : option N :=
  match l with
  | LFrame f | LHdr f | LNode f | LExn f | LCell f _ | LRes f => Some f
  | LAt (OJoin f) | LAt (OFlag f) | LAt (OSem f) => Some f
  | _ => None
  end.

(** Objects that are only accessed atomically. *)
Definition free (l : loc) : Prop :=
  exists i, l = LAt (OTop i) \/ l = LAt (OBot i) \/ l = LAt (OInbox i).

(** Facts about the state alone. *)
Record extra (s : state) : Prop := {
  e_uniq : forall c fr c' fr' x, s_frames s !! c = Some fr -> s_frames s !! c' = Some fr' ->
    cellof (f_kind fr) = Some x -> cellof (f_kind fr') = Some x -> c = c';
  e_quiet : forall i w p fr n, s_workers s !! i = Some w -> s_frames s !! p = Some fr -> lastc w p fr ->
    S n = length (f_cells fr) -> forall c frc, s_frames s !! c = Some frc -> cellof (f_kind frc) <> Some (p, n);
  e_sem : forall r, 0 < sem s r -> r < s_nextf s /\
    forall fr, s_frames s !! r = Some fr -> f_rp fr = RSignalled
}.

(** [nb]: the thread that is about to create a task or a stack, if any. *)
Record J (nb : option thread) (s : state) (g : views) : Prop := {
  j_rel : forall t m, rel g t m -> cur g t m;
  j_req : forall l w a k m, req s l w a k -> acs g l m w a -> kn s g k m;
  j_near : forall c a b m, near s g c a b -> cod g c m -> if b then know s g a m else pend s g a m;
  j_done : forall c r m, 0 < sem s r -> tree g c r -> cod g c m -> msg g (OSem r) m;
  j_cod : forall f m, cod g f m -> f < s_nextf s /\ acs g (LFrame f) m true false;
  j_newf : forall l m w a f, acs g l m w a -> floc l = Some f -> s_nextf s <= f ->
    f = s_nextf s /\ exists t, nb = Some t /\ cur g t m;
  j_news : forall x m w a, acs g (LStk x) m w a -> s_nexts s <= x ->
    x = s_nexts s /\ exists t, nb = Some t /\ cur g t m;
  j_gpa : forall c p b, gpa g c p b -> p < s_nextf s /\ (c < s_nextf s \/ nb <> None) /\
    forall fr, s_frames s !! c = Some fr -> par (f_kind fr) = Some p /\ kindb (f_kind fr) = b;
  j_gpa2 : forall c fr p, s_frames s !! c = Some fr -> par (f_kind fr) = Some p ->
    gpa g c p (kindb (f_kind fr));
  j_free : forall l m w a, acs g l m w a -> free l -> a = true
}.

Lemma J_nb nb s g : J None s g -> J nb s g.
Proof.
  intros [H1 H2 H3 H4 H5 H6 H7 H8 H9 H10]. constructor; auto.
  - intros l m w a f A B C. destruct (H6 _ _ _ _ _ A B C) as (_ & t & ? & _). done.
  - intros x m w a A B. destruct (H7 _ _ _ _ A B) as (_ & t & ? & _). done.
  - intros c p b A. destruct (H8 _ _ _ A) as (X1 & [X2|X2] & X3); [|done]. auto.
Qed.

(** ** Growing views *)

Record grow (s : state) (g g' : views) : Prop := {
  g_cur : forall t m, cur g t m -> cur g' t m;
  g_rel : forall t m, rel g t m -> rel g' t m;
  g_bot : forall i m, rel g (TW i) m -> msg g (OBot i) m -> msg g' (OBot i) m;
  g_inb : forall i m, msg g (OInbox i) m -> msg g' (OInbox i) m;
  g_join : forall f fr m, s_frames s !! f = Some fr ->
    (exists k, f_rp fr = RJoin k) \/ f_joins fr <> u16max ->
    msg g (OJoin f) m -> msg g' (OJoin f) m;
  g_sem : forall r m, 0 < sem s r -> msg g (OSem r) m -> msg g' (OSem r) m
}.

Lemma wknow_grow s g g' i w f m : grow s g g' -> wknow g i w f m -> wknow g' i w f m.
Proof.
  intros G [(H1 & H2)|[(H1 & H2 & H3)|(H1 & H2)]]; [left|right; left|right; right].
  - split; [done|]. by apply G.
  - split_and!; [done|by apply G|by apply G].
  - split; [done|]. by apply G.
Qed.

Lemma know_grow s g g' f m : grow s g g' -> know s g f m -> know s g' f m.
Proof.
  intros G. induction 1.
  - eapply kn_wrk; [done|]. by eapply wknow_grow.
  - eapply kn_join; [done|done|]. eapply g_join; eauto.
  - eapply kn_call; eauto.
Qed.

Lemma pend_grow s g g' f m : grow s g g' -> pend s g f m -> pend s g' f m.
Proof.
  intros G [H|[(H & fr & H1 & H2)|[(c & fr & j & st & H1 & H2 & H3)|(i & w & H1 & H2 & H3)]]].
  - left. by eapply know_grow.
  - right; left. split; [|eauto]. eapply g_join; eauto.
  - right; right; left. exists c, fr, j, st. split_and!; [done|done|by eapply know_grow].
  - right; right; right. exists i, w. split_and!; [done|done|by apply G].
Qed.

Lemma kn_grow s g g' k m :
  grow s g g' -> (forall r, k = KS r -> 0 < sem s r) -> kn s g k m -> kn s g' k m.
Proof.
  intros G Hk. destruct k; cbn; [by apply know_grow|by apply pend_grow|by apply G|].
  intros [H|H]; [left|right]; apply G; auto.
Qed.

(** ** Static steps *)

(** The knower learns what [t] knows. *)
Definition grants (s : state) (t : thread) (k : knower) : Prop := forall g m, cur g t m -> kn s g k m.

(** The action does not destroy a message somebody depends on. *)
Definition keeps (s : state) (t : thread) (a : action) : Prop :=
  match a with
  | Store o _ => exists i, o = OBot i /\ t = TW i
  | Write (LAt o) =>
    match o with
    | OJoin f => forall fr, s_frames s !! f = Some fr -> (forall k, f_rp fr <> RJoin k) /\ f_joins fr = u16max
    | OFlag _ => True
    | OSem r => sem s r = 0
    | _ => False
    end
  | _ => True
  end.

Lemma grow_step s g t a : (forall t m, rel g t m -> cur g t m) -> keeps s t a -> grow s g (vstep g (t, a)).
Proof.
  intros Hr Hk. constructor; cbn [cur rel msg vstep].
  - intros t' m H. by left.
  - intros t' m H. by left.
  - intros i m H1 H2. unfold msg'. cbn.
    destruct a as [l|l|f|o' q|o' r|o' q r|q r|e]; try done.
    + destruct l as [| | | | | | |o]; try done. case_decide; [|done]. subst. done.
    + destruct Hk as (j & -> & ->). case_decide as E; [|done]. injection E as ->. by right.
    + case_decide; [by left|done].
  - intros i m H. unfold msg'. cbn.
    destruct a as [l|l|f|o' q|o' r|o' q r|q r|e]; try done.
    + destruct l as [| | | | | | |o]; try done. case_decide; [|done]. subst. done.
    + destruct Hk as (j & -> & ->). case_decide; done.
    + case_decide; [by left|done].
  - intros f fr m Hf HJ H. unfold msg'. cbn.
    destruct a as [l|l|f'|o' q|o' r|o' q r|q r|e]; try done.
    + destruct l as [| | | | | | |o]; try done. case_decide; [|done]. subst. cbn in Hk.
      destruct (Hk fr Hf) as (X1 & X2). destruct HJ as [(k & ?)|?]; [by eapply X1|done].
    + destruct Hk as (j & -> & ->). case_decide; done.
    + case_decide; [by left|done].
  - intros r m Hs H. unfold msg'. cbn.
    destruct a as [l|l|f'|o' q|o' r'|o' q r'|q r'|e]; try done.
    + destruct l as [| | | | | | |o]; try done. case_decide; [|done]. subst. cbn in Hk. lia.
    + destruct Hk as (j & -> & ->). case_decide; done.
    + case_decide; [by left|done].
Qed.

Definition is_birth (a : action) : option (N * N * bool) :=
  match a with
  | Note (EvFork q d _ _) => Some (d, q, false)
  | Note (EvCall q d _ _) => Some (d, q, true)
  | _ => None
  end.

(** [perm]: the action keeps the invariant. *)
Record perm (nb : option thread) (s : state) (g : views) (t : thread) (a : action) : Prop := {
  p_keeps : keeps s t a;
  p_req : forall l w at' k, access a = Some (l, w, at') -> req s l w at' k -> grants s t k;
  p_newf : forall l w at' f, access a = Some (l, w, at') -> floc l = Some f -> s_nextf s <= f ->
    f = s_nextf s /\ nb = Some t;
  p_news : forall x w at', access a = Some (LStk x, w, at') -> s_nexts s <= x -> x = s_nexts s /\ nb = Some t;
  p_code : forall f, a = Code f -> f < s_nextf s /\ (exists fr, s_frames s !! f = Some fr) /\
    forall r, 0 < sem s r -> ~ tree g f r;
  p_birth : forall c p b, is_birth a = Some (c, p, b) -> c = s_nextf s /\ p < s_nextf s /\ nb <> None /\
    s_frames s !! c = None;
  p_free : forall l w at', access a = Some (l, w, at') -> free l -> at' = true
}.

Lemma vstep_gpa g t a c p b :
  gpa (vstep g (t, a)) c p b <-> gpa g c p b \/ is_birth a = Some (c, p, b).
Proof.
  cbn. unfold is_birth. split.
  - intros [H|H]; [by left|]. destruct a as [| | | | | | |[]]; try done; destruct H as (-> & -> & ->); by right.
  - intros [H|H]; [by left|]. destruct a as [| | | | | | |[]]; try done; injection H as -> -> ->; by right.
Qed.

Lemma J_step nb s g t a : J nb s g -> perm nb s g t a -> J nb s (vstep g (t, a)).
Proof.
  intros HJ P. pose proof (grow_step s g t a (j_rel _ _ _ HJ) (p_keeps _ _ _ _ _ P)) as G.
  assert (Hnow : forall k, grants s t k -> kn s (vstep g (t, a)) k (now g)).
  { intros k Hk. apply Hk. cbn. right. cbn. auto. }
  (* the ancestors of tasks that exist are as before *)
  assert (Hnear : forall c a' b', near s (vstep g (t, a)) c a' b' -> c < s_nextf s -> near s g c a' b').
  { induction 1 as [c p b fr H1 H2 H3|c p b a' b' H1 H2 H3 _ IH]; intros Hc.
    - apply vstep_gpa in H2 as [H2|H2]; [by eapply near_one|].
      apply (p_birth _ _ _ _ _ P) in H2 as (-> & _). lia.
    - apply vstep_gpa in H2 as [H2|H2].
      + eapply near_step; [exact H1|exact H2|exact H3|]. apply IH. by apply (j_gpa _ _ _ HJ) in H2 as (? & _).
      + apply (p_birth _ _ _ _ _ P) in H2 as (-> & _). lia. }
  assert (Htree : forall c r, tree (vstep g (t, a)) c r -> c < s_nextf s -> tree g c r).
  { induction 1 as [c|c p r (b & H1) _ IH]; intros Hc; [by apply rtc_refl|].
    apply vstep_gpa in H1 as [H1|H1].
    - eapply rtc_l; [by exists b|]. apply IH. by apply (j_gpa _ _ _ HJ) in H1 as (? & _).
    - apply (p_birth _ _ _ _ _ P) in H1 as (-> & _). lia. }
  constructor.
  - intros t' m [H|(-> & H)]; [left; by apply HJ|]. cbn [fst snd] in H. destruct a; try done. apply H.
  - intros l w a' k m Hr [H|(-> & H)].
    + apply (kn_grow s g); [done| |by eapply HJ].
      intros r ->. by inversion Hr.
    + apply Hnow. by eapply (p_req _ _ _ _ _ P).
  - intros c a' b m Hn [H|(-> & H)].
    + assert (Hn' : near s g c a' b) by (apply Hnear; [done|]; by apply (j_cod _ _ _ HJ) in H as (? & _)).
      pose proof (j_near _ _ _ HJ _ _ _ _ Hn' H). destruct b; [by eapply know_grow|by eapply pend_grow].
    + cbn in H. subst a. destruct (p_code _ _ _ _ _ P _ eq_refl) as (_ & (fr & Hf) & _).
      inversion Hn; congruence.
  - intros c r m Hs Ht [H|(-> & H)].
    + apply G; [done|]. eapply (j_done _ _ _ HJ); [done| |done]. apply Htree; [done|]. by apply (j_cod _ _ _ HJ) in H as (? & _).
    + cbn in H. subst a. destruct (p_code _ _ _ _ _ P _ eq_refl) as (X1 & _ & X). exfalso.
      eapply X; [done|]. by apply Htree.
  - intros f m [H|(-> & H)]; [destruct (j_cod _ _ _ HJ _ _ H); split; [done|by left]|].
    cbn in H. subst a. split; [by apply (p_code _ _ _ _ _ P)|]. right. done.
  - intros l m w a' f [H|(-> & H)] Hl Hf.
    + destruct (j_newf _ _ _ HJ _ _ _ _ _ H Hl Hf) as (-> & t' & -> & Hc). split; [done|].
      exists t'. split; [done|]. by apply G.
    + destruct (p_newf _ _ _ _ _ P _ _ _ _ H Hl Hf) as (-> & ->). split; [done|]. exists t. split; [done|].
      right. cbn. auto.
  - intros x m w a' [H|(-> & H)] Hx.
    + destruct (j_news _ _ _ HJ _ _ _ _ H Hx) as (-> & t' & -> & Hc). split; [done|].
      exists t'. split; [done|]. by apply G.
    + destruct (p_news _ _ _ _ _ P _ _ _ H Hx) as (-> & ->). split; [done|]. exists t. split; [done|].
      right. cbn. auto.
  - intros c p b H. apply vstep_gpa in H as [H|H].
    + by apply (j_gpa _ _ _ HJ).
    + apply (p_birth _ _ _ _ _ P) in H as (-> & H1 & H2 & H3). split_and!; [done|by right|].
      intros fr Hf. congruence.
  - intros c fr p H1 H2. apply vstep_gpa. left. by eapply HJ.
  - intros l m w a' [H|(-> & H)] Hl; [by eapply HJ|by eapply P].
Qed.
