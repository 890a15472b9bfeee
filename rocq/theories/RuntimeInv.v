(** * The invariant of the runtime machine and the lemmas about its parts. *)

From stdpp Require Import prelude gmap list.
From Coq Require Import NArith Lia.
From Verif Require Import RuntimeModel RuntimeSpec.
Local Open Scope N_scope.
Global Arguments N.add : simpl never.
Global Arguments N.sub : simpl never.
Global Arguments N.mul : simpl never.
Global Arguments N.modulo : simpl never.

(** ** Counting *)

Definition b2n (b : bool) : N := if b then 1 else 0.
Definition eqn (a b : N) : N := if decide (a = b) then 1 else 0.

Fixpoint occ (f : N) (l : list N) : N :=
  match l with [] => 0 | g :: l' => eqn g f + occ f l' end.

Lemma eqn_refl a : eqn a a = 1.
Proof. unfold eqn. by destruct (decide _). Qed.
Lemma eqn_ne a b : a <> b -> eqn a b = 0.
Proof. unfold eqn. by destruct (decide _). Qed.

Lemma occ_app f l1 l2 : occ f (l1 ++ l2) = occ f l1 + occ f l2.
Proof. induction l1; cbn; lia. Qed.
Lemma occ_in f l : f ∈ l <-> 0 < occ f l.
Proof.
  induction l as [|g l IH]; cbn.
  - split; [intros H; inversion H | lia].
  - rewrite elem_of_cons, IH. unfold eqn. destruct (decide (g = f)); split; intros.
    + lia.
    + by left.
    + destruct H; [done|lia].
    + right. lia.
Qed.
Lemma occ_notin f l : f ∉ l <-> occ f l = 0.
Proof. rewrite occ_in. lia. Qed.
Lemma occ_removelast f l g : last l = Some g -> occ f (removelast l) + eqn g f = occ f l.
Proof.
  revert g. induction l as [|a l IH]; intros g H; [done|].
  destruct l as [|b l].
  - cbn in H. injection H as ->. cbn. lia.
  - change (last (a :: b :: l)) with (last (b :: l)) in H.
    change (removelast (a :: b :: l)) with (a :: removelast (b :: l)).
    change (occ f (a :: removelast (b :: l))) with (eqn a f + occ f (removelast (b :: l))).
    change (occ f (a :: b :: l)) with (eqn a f + occ f (b :: l)).
    specialize (IH g H). lia.
Qed.

Fixpoint sumw (g : worker -> N) (ws : list worker) : N :=
  match ws with [] => 0 | w :: ws' => g w + sumw g ws' end.

Lemma sumw_insert g ws i w w' :
  ws !! i = Some w -> sumw g (<[i := w']> ws) + g w = sumw g ws + g w'.
Proof.
  revert i. induction ws as [|a ws IH]; intros [|i] H; simpl in *; try done.
  - injection H as ->. lia.
  - specialize (IH i H). lia.
Qed.
Lemma sumw_ge g ws i w : ws !! i = Some w -> g w <= sumw g ws.
Proof.
  revert i. induction ws as [|a ws IH]; intros [|i] H; cbn in *; try done.
  - injection H as ->. lia.
  - specialize (IH i H). lia.
Qed.
Lemma sumw_ge2 g ws i j w w' :
  i <> j -> ws !! i = Some w -> ws !! j = Some w' -> g w + g w' <= sumw g ws.
Proof.
  revert i j. induction ws as [|a ws IH]; intros [|i] [|j] Hne H H'; cbn in *; try done.
  - injection H as ->. pose proof (sumw_ge g ws j w' H'). lia.
  - injection H' as ->. pose proof (sumw_ge g ws i w H). lia.
  - specialize (IH i j ltac:(congruence) H H'). lia.
Qed.
Lemma sumw_ex g ws : 0 < sumw g ws -> exists i w, ws !! i = Some w /\ 0 < g w.
Proof.
  induction ws as [|a ws IH]; cbn; [lia|]. intros H.
  destruct (decide (0 < g a)) as [Ha|Ha].
  - by exists 0%nat, a.
  - destruct IH as (i & w & Hi & Hw); [lia|]. by exists (S i), w.
Qed.
Lemma sumw_ext g g' ws : (forall w, g w = g' w) -> sumw g ws = sumw g' ws.
Proof. intros H. induction ws; cbn; [done|]. by rewrite H, IHws. Qed.

(** Tokens held by a worker: the right to resume a suspended or running task. *)
Definition pc_tok (p : pc) : list N :=
  match p with PStolen f | PRun f | PJSusp f => [f] | _ => [] end.
Definition wtok (f : N) (w : worker) : N :=
  occ f (pc_tok (w_pc w)) + occ f (w_deque w) + occ f (w_inbox w) + occ f (w_batch w).
(** A steal of [f] that is possible or in progress and not yet counted. *)
Definition wpend (f : N) (w : worker) : N :=
  match w_pc w with PStolen g => eqn g f | _ => 0 end + occ f (w_deque w).
(** A forked child of [p] that is destroyed but has not yet told [p]. *)
Definition wsub (p : N) (w : worker) : N :=
  match w_pc w with PFinal q | PSub q => eqn q p | _ => 0 end.

Lemma wpend_le_wtok f w : wpend f w <= wtok f w.
Proof. unfold wpend, wtok. destruct (w_pc w); cbn; lia. Qed.

(** ** The shape of the frame forest *)

Notation shape := (gmap N (kind * N)).
Definition shape_of (F : gmap N frame) : shape := (fun fr => (f_kind fr, f_stk fr)) <$> F.

Definition par (k : kind) : option N :=
  match k with KRoot => None | KCall p _ _ | KFork p _ _ => Some p end.

Definition is_fork (p : N) (x : kind * N) : bool :=
  match x.1 with KFork q _ _ => bool_decide (q = p) | _ => false end.
Definition is_call (p : N) (x : kind * N) : bool :=
  match x.1 with KCall q _ _ => bool_decide (q = p) | _ => false end.
Definition is_capt (p : N) (fr : frame) : bool :=
  match f_rp fr with RCapture _ => bool_decide (par (f_kind fr) = Some p) | _ => false end.

Definition cntm {A} (P : A -> bool) (M : gmap N A) : N :=
  map_fold (fun _ a n => b2n (P a) + n) 0 M.

Section cntm.
  Context {A : Type} (P : A -> bool).

  Lemma cntm_new (M : gmap N A) c a :
    M !! c = None -> cntm P (<[c := a]> M) = b2n (P a) + cntm P M.
  Proof.
    intros H. unfold cntm. rewrite map_fold_insert_L; [done| |done].
    intros. lia.
  Qed.
  Lemma cntm_empty : cntm P (∅ : gmap N A) = 0.
  Proof. apply map_fold_empty. Qed.
  Lemma cntm_del (M : gmap N A) c a :
    M !! c = Some a -> cntm P (delete c M) + b2n (P a) = cntm P M.
  Proof.
    intros H. rewrite <- (insert_delete M c a H) at 2.
    rewrite cntm_new by apply lookup_delete. lia.
  Qed.
  Lemma cntm_upd (M : gmap N A) c a a' :
    M !! c = Some a -> cntm P (<[c := a']> M) + b2n (P a) = cntm P M + b2n (P a').
  Proof.
    intros H. rewrite <- insert_delete_insert. rewrite cntm_new by apply lookup_delete.
    pose proof (cntm_del M c a H). lia.
  Qed.
  Lemma cntm_pos (M : gmap N A) c a :
    M !! c = Some a -> P a = true -> 0 < cntm P M.
  Proof. intros H HP. pose proof (cntm_del M c a H). rewrite HP in H0. cbn in H0. lia. Qed.
  Lemma cntm_zero (M : gmap N A) c a :
    M !! c = Some a -> cntm P M = 0 -> P a = false.
  Proof.
    intros H HP. destruct (P a) eqn:E; [|done].
    pose proof (cntm_pos M c a H E). lia.
  Qed.
  Lemma cntm_two (M : gmap N A) c a c' a' :
    M !! c = Some a -> P a = true -> M !! c' = Some a' -> P a' = true -> c <> c' -> 2 <= cntm P M.
  Proof.
    intros H HP H' HP' Hne. pose proof (cntm_del M c a H).
    pose proof (cntm_pos (delete c M) c' a' ltac:(by rewrite lookup_delete_ne) HP').
    rewrite HP in H0. cbn in H0. lia.
  Qed.
  Lemma cntm_ex (M : gmap N A) :
    0 < cntm P M -> exists c a, M !! c = Some a /\ P a = true.
  Proof.
    induction M as [|c a M Hc IH] using map_ind.
    - rewrite cntm_empty. lia.
    - rewrite cntm_new by done. intros H. destruct (P a) eqn:E.
      + exists c, a. by rewrite lookup_insert.
      + cbn in H. destruct IH as (c' & a' & H1 & H2); [lia|].
        exists c', a'. rewrite lookup_insert_ne by (intros ->; congruence). done.
  Qed.
End cntm.

Definition nforks (p : N) (sh : shape) : N := cntm (is_fork p) sh.
Definition ncalls (p : N) (sh : shape) : N := cntm (is_call p) sh.
Definition ncapt (p : N) (F : gmap N frame) : N := cntm (is_capt p) F.

Lemma shape_lookup F f fr : F !! f = Some fr -> shape_of F !! f = Some (f_kind fr, f_stk fr).
Proof. intros H. unfold shape_of. by rewrite lookup_fmap, H. Qed.
Lemma shape_lookup_inv F f x :
  shape_of F !! f = Some x -> exists fr, F !! f = Some fr /\ x = (f_kind fr, f_stk fr).
Proof. unfold shape_of. rewrite lookup_fmap. destruct (F !! f); cbn; intros [= <-]. eauto. Qed.
Lemma shape_none F f : shape_of F !! f = None <-> F !! f = None.
Proof. unfold shape_of. rewrite lookup_fmap. by destruct (F !! f). Qed.
Lemma shape_upd F f fr fr' :
  F !! f = Some fr -> f_kind fr' = f_kind fr -> f_stk fr' = f_stk fr ->
  shape_of (<[f := fr']> F) = shape_of F.
Proof.
  intros H Hk Hs. unfold shape_of. rewrite fmap_insert, Hk, Hs.
  apply insert_id. by rewrite lookup_fmap, H.
Qed.
Lemma shape_new F f fr :
  shape_of (<[f := fr]> F) = <[f := (f_kind fr, f_stk fr)]> (shape_of F).
Proof. unfold shape_of. by rewrite fmap_insert. Qed.
Lemma shape_del F f : shape_of (delete f F) = delete f (shape_of F).
Proof. unfold shape_of. by rewrite fmap_delete. Qed.

(** ** The scope rules at a suspended fork or call *)

Definition fork_scope (nw : nat) (n : N) (x : bool) (m : fmod) (st : bool) (k : fres -> task) : Prop :=
  n + 1 <= max_forks /\
  (m = FSyncOutside -> n = 0) /\
  scoped nw (n + 1) (x || negb st) (k FAsync) /\
  (m <> FNone -> forall cl, scoped nw n (x || negb st) (k (FDone cl))) /\
  (forall e, scoped nw n x (k (FExn e))).

Definition call_scope (nw : nat) (n : N) (x : bool) (m : cmod) (st : bool) (k : cres -> task) : Prop :=
  n <= max_forks /\
  (m = MEagerOutside -> n = 0) /\
  (forall cl, scoped nw n (x || negb st) (k (CDone cl))) /\
  (forall e, scoped nw n x (k (CExn e))).

Definition run_scope (nw : nat) (fr : frame) (t : task) : Prop :=
  exists n x, scoped nw n x t /\ f_steals fr <= n /\ n <= max_forks /\
    (f_eflag fr = true -> x = true \/ 0 < n).

(** [node_ok]: a frame together with: the number [nf] of its live forked
    children, [nc] of its live called children, [ncp] of its children that won
    the exception flag but have not stored the exception yet, [nsb] of its
    destroyed children that have not decremented the join counter, [npd] of
    pending steals, [ntk] of tokens. *)
Definition node_ok (nw : nat) (fr : frame) (nf nc ncp nsb npd ntk : N) : Prop :=
  ntk = match f_rp fr with RCall _ _ _ | RJoin _ => 0 | _ => 1 end /\
  nc = match f_rp fr with RCall _ _ _ => 1 | _ => 0 end /\
  ncp + match f_eptr fr with Some _ => 1 | None => 0 end = b2n (f_eflag fr) /\
  f_joins fr <= u16max /\
  match f_rp fr with
  | RJoin k =>
    nf + nsb = f_joins fr /\ 1 <= f_joins fr /\ npd = 0 /\ f_steals fr <> 0 /\
    f_steals fr <= max_forks /\
    forall cs r, scoped nw 0 false (k cs r)
  | RRun t | RSwitched _ t =>
    nf + nsb + u16max = f_steals fr + f_joins fr /\ npd = 0 /\ run_scope nw fr t
  | RFork m st k pre =>
    nf + nsb + u16max = f_steals fr + npd + f_joins fr /\
    exists n x, fork_scope nw n x m st k /\ pre <= n /\
      (f_eflag fr = true -> x = true \/ st = false \/ 0 < n) /\
      ((f_steals fr = pre /\ npd <= 1) \/ (f_steals fr = pre + 1 /\ npd = 0))
  | RCall m st k =>
    nf + nsb + u16max = f_steals fr + f_joins fr /\ npd = 0 /\
    exists n x, call_scope nw n x m st k /\ f_steals fr <= n /\
      (f_eflag fr = true -> x = true \/ st = false \/ 0 < n)
  | RCapture _ =>
    nf + nsb = 0 /\ f_joins fr = u16max /\ f_steals fr = 0 /\ f_eflag fr = false /\ npd = 0 /\
    exists p i, f_kind fr = KCall p i false \/ f_kind fr = KFork p i false
  | RFinal =>
    nf + nsb = 0 /\ f_joins fr = u16max /\ f_steals fr = 0 /\ f_eflag fr = false /\ npd = 0
  | RSignalled =>
    nf + nsb = 0 /\ f_joins fr = u16max /\ f_steals fr = 0 /\ f_eflag fr = false /\ npd = 0 /\
    f_kind fr = KRoot
  end.

(** ** Relation between a live child and its parent's frame *)

Definition kid_ok (frp : frame) (x : kind * N) : Prop :=
  match x.1 with
  | KRoot => True
  | KFork _ i st =>
    (i < length (f_cells frp))%nat /\
    match f_rp frp with RFork _ st' _ 0 => st = st' | _ => True end
  | KCall _ i st =>
    S i = length (f_cells frp) /\
    (f_steals frp = 0 <-> x.2 = f_stk frp) /\
    match f_rp frp with RCall _ st' _ => st = st' | _ => True end
  end.

(** ** Deques are chains of fork ancestors

    [G c] is the closest fork edge above [c]: (the forking task, the index of
    the forked child on the path, the stack of that forked child). *)
Notation ghost := (N -> option (N * nat * N)).

Definition ghost_ok (sh : shape) (G : ghost) : Prop :=
  forall c k x, sh !! c = Some (k, x) ->
    match k with
    | KRoot => G c = None
    | KCall p _ _ => G c = G p
    | KFork p i _ => G c = Some (p, i, x)
    end.

Fixpoint links (F : gmap N frame) (G : ghost) (a : option (N * nat * N)) (D : list N) : Prop :=
  match D with
  | [] => True
  | d :: D' =>
    exists i x fr, a = Some (d, i, x) /\ F !! d = Some fr /\
      (f_steals fr = 0 <-> x = f_stk fr) /\
      S i = length (f_cells fr) /\
      links F G (G d) D'
  end.

(** ** Stacks *)

Record stk_ok (sh : shape) (S : N -> list N) (nx : N) : Prop := {
  so_in : forall f k x, sh !! f = Some (k, x) -> f ∈ S x;
  so_dom : forall f x, f ∈ S x -> exists k, sh !! f = Some (k, x);
  so_nodup : forall x, NoDup (S x);
  so_adj : forall x l1 c p l2, S x = l1 ++ c :: p :: l2 ->
    exists k, sh !! c = Some (k, x) /\ par k = Some p;
  so_bot : forall x l1 c k p k' , S x = l1 ++ [c] -> sh !! c = Some (k, x) ->
    par k = Some p -> sh !! p <> Some (k', x);
  so_fresh : forall x, nx <= x -> S x = []
}.

(** ** Workers *)

Definition head_is (l : list N) (p : N) : Prop := exists l', l = p :: l'.

Definition sub_stk (F : gmap N frame) (S : N -> list N) (w : worker) (p : N) : Prop :=
  exists frp, F !! p = Some frp /\
    ((f_stk frp = w_stk w /\ head_is (S (w_stk w)) p) \/
     (f_stk frp <> w_stk w /\ S (w_stk w) = [])).

Definition worker_ok (F : gmap N frame) (S : N -> list N) (G : ghost) (i : nat) (w : worker) : Prop :=
  (forall q, q ∈ w_inbox w ++ w_batch w ->
    exists fr, F !! q = Some fr /\
      match f_rp fr with
      | RSwitched d _ => d = i
      | RRun _ => f_kind fr = KRoot /\ f_steals fr = 0
      | _ => False
      end) /\
  match w_pc w with
  | PIdle => w_deque w = [] /\ S (w_stk w) = []
  | PStolen f => w_deque w = [] /\ S (w_stk w) = []
  | PRun f =>
    exists fr, F !! f = Some fr /\
      (f_steals fr = 0 -> w_stk w = f_stk fr) /\
      (f_steals fr <> 0 -> S (w_stk w) = []) /\
      links F G (G f) (w_deque w) /\
      match f_rp fr with RSwitched d _ => d = i | _ => True end
  | PJSusp f =>
    exists fr k, F !! f = Some fr /\ f_rp fr = RRun (Join k) /\ f_steals fr <> 0 /\
      S (w_stk w) = [] /\ links F G (G f) (w_deque w)
  | PFinal p =>
    (exists j, links F G (Some (p, j, w_stk w)) (w_deque w)) /\ sub_stk F S w p
  | PSub p => w_deque w = [] /\ sub_stk F S w p
  | PLoseRel => w_deque w = []
  | PSwRel b => (exists a, links F G a (w_deque w)) /\ (b = false -> S (w_stk w) = [])
  | PSelf => (exists a, links F G a (w_deque w)) /\ S (w_stk w) = []
  end.

(** The worker owns its stack (it is not about to give it up). *)
Definition eff (w : worker) : bool :=
  match w_pc w with PLoseRel => false | PSwRel b => negb b | _ => true end.

(** ** The invariant *)

Record inv (nw : nat) (G : ghost) (s : state) : Prop := {
  i_len : length (s_workers s) = nw;
  i_node : forall f fr, s_frames s !! f = Some fr ->
    node_ok nw fr (nforks f (shape_of (s_frames s))) (ncalls f (shape_of (s_frames s)))
      (ncapt f (s_frames s)) (sumw (wsub f) (s_workers s)) (sumw (wpend f) (s_workers s))
      (sumw (wtok f) (s_workers s));
  i_dead : forall f, s_frames s !! f = None ->
    nforks f (shape_of (s_frames s)) = 0 /\ ncalls f (shape_of (s_frames s)) = 0 /\
    sumw (wsub f) (s_workers s) = 0 /\ sumw (wtok f) (s_workers s) = 0;
  i_kid : forall c k x p frp, shape_of (s_frames s) !! c = Some (k, x) -> par k = Some p ->
    s_frames s !! p = Some frp -> kid_ok frp (k, x) /\ p < c;
  i_ghost : ghost_ok (shape_of (s_frames s)) G;
  i_fresh : forall f, s_nextf s <= f -> s_frames s !! f = None;
  i_stk : stk_ok (shape_of (s_frames s)) (stk s) (s_nexts s);
  i_wrk : forall i w, s_workers s !! i = Some w ->
    worker_ok (s_frames s) (stk s) G i w /\ w_stk w < s_nexts s;
  i_own : forall i j w w', s_workers s !! i = Some w -> s_workers s !! j = Some w' ->
    i <> j -> eff w = true -> eff w' = true -> w_stk w <> w_stk w'
}.

(** Parents of live frames are alive. *)
Lemma inv_parent nw G s c k x p :
  inv nw G s -> shape_of (s_frames s) !! c = Some (k, x) -> par k = Some p ->
  exists frp, s_frames s !! p = Some frp.
Proof.
  intros I H Hp. destruct (s_frames s !! p) as [frp|] eqn:E; [eauto|].
  destruct (i_dead _ _ _ I p E) as (H1 & H2 & _). exfalso. unfold nforks, ncalls in *.
  destruct k; cbn in Hp; try done; injection Hp as ->.
  - pose proof (cntm_zero (is_call p) _ _ _ H H2) as X. unfold is_call in X. cbn in X.
    case_bool_decide; done.
  - pose proof (cntm_zero (is_fork p) _ _ _ H H1) as X. unfold is_fork in X. cbn in X.
    case_bool_decide; done.
Qed.

(** A frame without live children is at the top of its stack. *)
Lemma childless_top nw G s f fr :
  inv nw G s -> s_frames s !! f = Some fr ->
  nforks f (shape_of (s_frames s)) = 0 -> ncalls f (shape_of (s_frames s)) = 0 ->
  head_is (stk s (f_stk fr)) f.
Proof.
  intros I H H1 H2.
  pose proof (so_in _ _ _ (i_stk _ _ _ I) _ _ _ (shape_lookup _ _ _ H)) as Hin.
  apply elem_of_list_split in Hin as (l1 & l2 & Heq).
  destruct l1 as [|a l1] using rev_ind; [by eexists|]. clear IHl1.
  rewrite <- app_assoc in Heq. cbn in Heq.
  destruct (so_adj _ _ _ (i_stk _ _ _ I) _ _ _ _ _ Heq) as (k & Hk & Hp).
  unfold nforks, ncalls in *. destruct k; cbn in Hp; try done; injection Hp as ->.
  - pose proof (cntm_zero (is_call f) _ _ _ Hk H2) as X. unfold is_call in X. cbn in X.
    case_bool_decide; done.
  - pose proof (cntm_zero (is_fork f) _ _ _ Hk H1) as X. unfold is_fork in X. cbn in X.
    case_bool_decide; done.
Qed.

(** Workers other than the one holding [f]'s token do not mention it. *)
Lemma tok_other nw G s f fr i j w w' :
  inv nw G s -> s_frames s !! f = Some fr -> s_workers s !! i = Some w -> s_workers s !! j = Some w' ->
  i <> j -> 0 < wtok f w -> wtok f w' = 0.
Proof.
  intros I H Hi Hj Hne Ht. pose proof (i_node _ _ _ I f fr H) as N.
  destruct N as (N & _). pose proof (sumw_ge2 (wtok f) _ _ _ _ _ Hne Hi Hj).
  destruct (f_rp fr); lia.
Qed.

Lemma tok_live nw G s f i w :
  inv nw G s -> s_workers s !! i = Some w -> 0 < wtok f w -> exists fr, s_frames s !! f = Some fr.
Proof.
  intros I Hi Ht. destruct (s_frames s !! f) eqn:E; [eauto|].
  destruct (i_dead _ _ _ I f E) as (_ & _ & _ & H4).
  pose proof (sumw_ge (wtok f) _ _ _ Hi). lia.
Qed.

Lemma sub_live nw G s f i w :
  inv nw G s -> s_workers s !! i = Some w -> 0 < wsub f w -> exists fr, s_frames s !! f = Some fr.
Proof.
  intros I Hi Ht. destruct (s_frames s !! f) eqn:E; [eauto|].
  destruct (i_dead _ _ _ I f E) as (_ & _ & H4 & _).
  pose proof (sumw_ge (wsub f) _ _ _ Hi). lia.
Qed.

(** A running task with no steals has no live children. *)
Lemma unstolen_childless nw fr nf nc ncp nsb ntk :
  node_ok nw fr nf nc ncp nsb 0 ntk -> ntk = 1 -> f_steals fr = 0 ->
  nf = 0 /\ nc = 0 /\ nsb = 0 /\ f_joins fr = u16max.
Proof.
  intros (H1 & H2 & H3 & H4 & H5) H6 H7.
  destruct (f_rp fr); try lia.
Qed.

Lemma pend_run nw G s i w f :
  inv nw G s -> s_workers s !! i = Some w -> (w_pc w = PRun f \/ w_pc w = PJSusp f) ->
  exists fr, s_frames s !! f = Some fr /\ sumw (wpend f) (s_workers s) = 0 /\
    sumw (wtok f) (s_workers s) = 1.
Proof.
  intros I Hi Hpc.
  assert (Ht : 1 <= wtok f w).
  { unfold wtok. destruct Hpc as [-> | ->]; cbn; rewrite eqn_refl; lia. }
  destruct (tok_live _ _ _ f _ _ I Hi) as (fr & Hf); [lia|].
  exists fr. split; [done|].
  pose proof (i_node _ _ _ I f fr Hf) as (N & _).
  pose proof (sumw_ge (wtok f) _ _ _ Hi).
  assert (sumw (wtok f) (s_workers s) = 1) by (destruct (f_rp fr); lia).
  split; [|done].
  rename H0 into E. clear N H.
  (* the only token is the one in the program counter *)
  destruct (decide (0 < sumw (wpend f) (s_workers s))) as [Hp|]; [|lia].
  apply sumw_ex in Hp as (j & w' & Hj & Hw').
  pose proof (wpend_le_wtok f w').
  destruct (decide (i = j)) as [<-|Hne].
  - rewrite Hi in Hj. injection Hj as <-.
    pose proof (sumw_ge (wtok f) _ _ _ Hi) as Hge. rewrite E in Hge.
    clear Ht E. unfold wpend, wtok in *.
    destruct Hpc as [Hpc|Hpc]; rewrite Hpc in *; cbn in *; rewrite eqn_refl in *; lia.
  - pose proof (sumw_ge2 (wtok f) _ _ _ _ _ Hne Hi Hj). lia.
Qed.

(** Who owns a non-empty stack. *)
Lemma owner_top nw G s j w t l :
  inv nw G s -> s_workers s !! j = Some w -> eff w = true -> stk s (w_stk w) = t :: l ->
  (w_pc w = PRun t /\ exists fr, s_frames s !! t = Some fr /\ f_steals fr = 0) \/ 0 < wsub t w.
Proof.
  intros I Hj He Hs. destruct (i_wrk _ _ _ I j w Hj) as ((_ & W) & _).
  unfold eff in He. unfold wsub.
  destruct (w_pc w) as [|f|f|p|p| |f|b|] eqn:Epc; try done.
  - destruct W; congruence.
  - destruct W; congruence.
  - destruct W as (fr & Hf & W1 & W2 & _).
    destruct (decide (f_steals fr = 0)) as [E|E]; [|rewrite W2 in Hs by done; done].
    left. destruct (pend_run _ _ _ _ _ f I Hj) as (fr' & Hf' & P1 & P2); [by left|].
    rewrite Hf in Hf'. injection Hf' as <-.
    pose proof (i_node _ _ _ I f fr Hf) as N. rewrite P1 in N.
    destruct (unstolen_childless _ _ _ _ _ _ _ N P2 E) as (N1 & N2 & _ & _).
    destruct (childless_top _ _ _ _ _ I Hf N1 N2) as (l' & Hl).
    rewrite W1 in Hs by done. assert (f = t) as <- by congruence. eauto.
  - destruct W as (_ & frp & Hp & [[_ (l' & Hl)]|[_ Hl]]); [|congruence].
    right. assert (p = t) as -> by congruence. rewrite eqn_refl. lia.
  - destruct W as (_ & frp & Hp & [[_ (l' & Hl)]|[_ Hl]]); [|congruence].
    right. assert (p = t) as -> by congruence. rewrite eqn_refl. lia.
  - destruct W as (fr & k & _ & _ & _ & Hl & _). congruence.
  - destruct W as (_ & W). destruct b; [done|]. rewrite W in Hs; done.
  - destruct W as (_ & W). congruence.
Qed.

(** ** Framing: which changes leave a worker's part intact *)

Definition sig (fr : frame) : kind * N * N * nat * rpoint :=
  (f_kind fr, f_stk fr, f_steals fr, length (f_cells fr), f_rp fr).

Definition sig_agree (F F' : gmap N frame) (q : N) : Prop :=
  forall fr, F !! q = Some fr -> exists fr', F' !! q = Some fr' /\ sig fr' = sig fr.

Lemma sig_agree_same F F' q : F' !! q = F !! q -> sig_agree F F' q.
Proof. intros H fr Hf. exists fr. rewrite H. done. Qed.

Lemma links_mono F F' G G' a D :
  (forall q, q ∈ D -> sig_agree F F' q) ->
  (forall q, q ∈ D -> G' q = G q) ->
  links F G a D -> links F' G' a D.
Proof.
  revert a. induction D as [|d D IH]; intros a H HG; cbn; [done|].
  intros (i & x & fr & -> & Hd & H1 & H2 & H3).
  destruct (H d ltac:(by left) fr Hd) as (fr' & Hd' & Hs). injection Hs as E1 E2 E3 E4 E5.
  exists i, x, fr'. rewrite E2, E3, E4. split_and!; try done.
  rewrite HG by (by left). apply IH; [| |done]; intros q Hq; [apply H|apply HG]; by right.
Qed.

Lemma links_prefix F G a D D' : links F G a (D ++ D') -> links F G a D.
Proof.
  revert a. induction D as [|d D IH]; intros a; cbn; [done|].
  intros (i & x & fr & H). exists i, x, fr. naive_solver.
Qed.

Lemma worker_ok_mono F S G F' S' G' i w :
  (forall q, 0 < wtok q w -> sig_agree F F' q) ->
  (forall q, 0 < wsub q w -> forall fr, F !! q = Some fr -> exists fr', F' !! q = Some fr' /\ f_stk fr' = f_stk fr) ->
  (forall q, 0 < wtok q w -> G' q = G q) ->
  (eff w = true -> S' (w_stk w) = S (w_stk w)) ->
  worker_ok F S G i w -> worker_ok F' S' G' i w.
Proof.
  intros HF HP HG HS (W1 & W2).
  assert (HD : forall q, q ∈ w_deque w -> 0 < wtok q w).
  { intros q Hq. apply occ_in in Hq. unfold wtok. lia. }
  split.
  - intros q Hq. destruct (W1 q Hq) as (fr & Hf & Hr).
    assert (Ht : 0 < wtok q w). { apply occ_in in Hq. rewrite occ_app in Hq. unfold wtok. lia. }
    destruct (HF q Ht fr Hf) as (fr' & Hf' & Hs). injection Hs as E1 E2 E3 E4 E5.
    exists fr'. split; [done|]. rewrite E5, E1, E3. done.
  - assert (HL : forall a, links F G a (w_deque w) -> links F' G' a (w_deque w)).
    { intros a. apply links_mono; intros q Hq; [apply HF|apply HG]; auto. }
    assert (HPS : forall p, 0 < wsub p w -> eff w = true -> sub_stk F S w p -> sub_stk F' S' w p).
    { intros p Hw He (frp & Hp & H). destruct (HP p Hw frp Hp) as (frp' & Hp' & E).
      exists frp'. split; [done|]. rewrite E, HS by done. done. }
    unfold wtok, wsub, eff in *.
    destruct (w_pc w) as [|f|f|p|p| |f|b|] eqn:Epc; cbn in *.
    + rewrite HS by done. done.
    + rewrite HS by done. done.
    + destruct W2 as (fr & Hf & H1 & H2 & H3 & H4).
      specialize (HF f ltac:(rewrite eqn_refl; lia)). specialize (HG f ltac:(rewrite eqn_refl; lia)).
      destruct (HF fr Hf) as (fr' & Hf' & Hs). injection Hs as E1 E2 E3 E4 E5.
      exists fr'. rewrite E2, E3, E5, HS, HG by done. split_and!; auto.
    + destruct W2 as ((j & H1) & H2). split; [exists j; auto|]. apply HPS; auto. rewrite eqn_refl. lia.
    + destruct W2 as (H1 & H2). split; [done|]. apply HPS; auto. rewrite eqn_refl. lia.
    + done.
    + destruct W2 as (fr & k & Hf & H1 & H2 & H3 & H4).
      specialize (HF f ltac:(rewrite eqn_refl; lia)). specialize (HG f ltac:(rewrite eqn_refl; lia)).
      destruct (HF fr Hf) as (fr' & Hf' & Hs). injection Hs as E1 E2 E3 E4 E5.
      exists fr', k. rewrite E3, E5, HS, HG by done. split_and!; auto.
    + destruct W2 as ((a & H1) & H2). split; [exists a; auto|]. intros ->. rewrite HS by done. auto.
    + destruct W2 as ((a & H1) & H2). split; [exists a; auto|]. rewrite HS by done. auto.
Qed.

(** What working on an outdated counter does. *)
Lemma stale_inv i s s' tr :
  stale i s = Next s' tr -> exists w f fr,
    s_workers s !! i = Some w /\ w_pc w = PRun f /\ s_frames s !! f = Some fr /\
    ((exists k, f_rp fr = RRun (Join k) /\ f_steals fr <> 0 /\
        s' = put_worker i (set_pc (PJSusp f) w) s /\ tr = []) \/
     (exists m st k pre, f_rp fr = RFork m st k pre /\ fork_resume false i w f fr m st k pre s = Next s' tr) \/
     (exists p j st, f_rp fr = RFinal /\ f_kind fr = KCall p j st /\ finish false i w f fr s = Next s' tr)).
Proof.
  unfold stale. destruct (s_workers s !! i) as [w|]; [|done]. destruct (w_pc w) as [|f|f|p|p| |f|b|] eqn:Hpc; try done.
  destruct (s_frames s !! f) as [fr|] eqn:Hf; [|done].
  destruct (f_rp fr) as [t|m st k pre|m st k|k|d t|e| |] eqn:Hr; try done.
  - destruct t; try done. destruct (decide _); [done|]. intros [= <- <-]. exists w, f, fr. split_and!; eauto 8.
  - intros E. exists w, f, fr. split_and!; eauto 10.
  - destruct (f_kind fr) as [|p j st|p j st] eqn:Hk; try done. intros E. exists w, f, fr. split_and!; eauto 10.
Qed.

Lemma stale_workers i s s' tr :
  stale i s = Next s' tr -> exists w w' f,
    s_workers s !! i = Some w /\ w_pc w = PRun f /\ s_workers s' = <[i := w']> (s_workers s) /\
    w_inbox w' = w_inbox w /\ w_batch w' = w_batch w /\ (w_pc w' = PJSusp f \/ exists g, w_pc w' = PRun g).
Proof.
  intros E. destruct (stale_inv _ _ _ _ E) as (w & f & fr & Hi & Hpc & Hf & [(k & Hr & Hz & -> & ->)|[(m & st & k & pre & Hr & E')|(p & j & st & Hr & Hk & E')]]).
  - exists w, (set_pc (PJSusp f) w), f. split_and!; try done. by left.
  - exists w, w, f. assert (Es : s_workers s' = s_workers s).
    { unfold fork_resume in E'. cbn zeta in E'. repeat case_match; try done; by injection E' as <- <-. }
    rewrite Es, list_insert_id by done. split_and!; try done. right. eauto.
  - unfold finish in E'. case_decide; [|done]. rewrite Hk in E'. destruct (destroy w f fr s) as [s1|] eqn:Ed; [|done].
    assert (Es : s_workers s1 = s_workers s) by (unfold destroy in Ed; repeat case_match; try done; by injection Ed as <-).
    destruct (s_frames s1 !! p) as [frp|]; [|done]. destruct (f_rp frp) as [| |m0 st0 k0| | | | |]; try done.
    exists w, (set_pc (PRun p) w), f. split_and!; try done; [|right; by exists p].
    unfold call_resume in E'. cbn zeta in E'. repeat case_match; try done; injection E' as <- <-; cbn; by rewrite Es.
Qed.
