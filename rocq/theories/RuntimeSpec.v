(** * Specification vocabulary for the fork-join runtime.

    Nothing here mentions counters, deques, stacks or workers.  The file defines
    - [exec]    the serial meaning of a task: fork is an ordinary call;
    - [scoped]  the rules a user has to follow (join before returning, ...);
    - the reading of a history of observable events. *)

From stdpp Require Import prelude gmap list.
From Coq Require Import NArith.
From Verif Require Import RuntimeModel.
Local Open Scope N_scope.

Global Instance exn_eq_dec : EqDecision exn.
Proof. solve_decision. Defined.
Global Instance exn_countable : Countable exn.
Proof.
  refine (inj_countable'
    (fun e => match e with EUser n => inl n | EBadAlloc => inr true | EBeforeJoin => inr false end)
    (fun x => match x with inl n => EUser n | inr true => EBadAlloc | inr false => EBeforeJoin end) _).
  by intros [].
Defined.

(** ** Serial semantics

    [exec af cs X t o]: the body [t], whose children so far left the results
    [cs], in a fork-join scope in which the exceptions [X] have been thrown by
    children (or stashed) and not yet rethrown, may end with outcome [o].
    Children are run to completion where they are created.  [af]: allocations
    may fail. *)

(** The result variable of a child that ended with [o]. *)
Definition cell_of (st : bool) (o : outcome) : cell :=
  match o with
  | OVal v => CVal v
  | OExc e => if st then CExc e else CUnset
  end.

(** The exception a child hands to its parent. *)
Definition exn_of (st : bool) (o : outcome) : gset exn :=
  match o with
  | OVal _ => ∅
  | OExc e => if st then ∅ else {[e]}
  end.

(** What a fork expression may return, given the child's result variable [cl]
    and the exceptions [X] of the scope; the third component is what remains of
    [X].  Only a fork with a sync modifier reveals anything about the child. *)
Inductive fork_ret (m : fmod) (st : bool) (cl : cell) (X : gset exn) : fres -> gset exn -> Prop :=
| fr_async : fork_ret m st cl X FAsync X
| fr_done : m <> FNone -> fork_ret m st cl X (FDone cl) X
| fr_exn e : m <> FNone -> st = true -> e ∈ X -> fork_ret m st cl X (FExn e) ∅
| fr_subst : m <> FNone -> st = true -> X <> ∅ -> fork_ret m st cl X (FExn EBeforeJoin) X.

(** What a call expression may return. *)
Inductive call_ret (m : cmod) (st : bool) (cl : cell) (X : gset exn) : cres -> gset exn -> Prop :=
| cr_done : call_ret m st cl X (CDone cl) X
| cr_exn e : m <> MNone -> st = true -> e ∈ X -> call_ret m st cl X (CExn e) ∅
| cr_subst : m <> MNone -> st = true -> X <> ∅ -> call_ret m st cl X (CExn EBeforeJoin) X.

(** What a join does: it throws iff some exception is pending, and then it
    throws one of them. *)
Inductive join_ret (X : gset exn) : option exn -> Prop :=
| jr_none : X = ∅ -> join_ret X None
| jr_some e : e ∈ X -> join_ret X (Some e).

Inductive exec (af : bool) : list cell -> gset exn -> task -> outcome -> Prop :=
| ex_ret cs v : exec af cs ∅ (Ret v) (OVal v)
| ex_throw cs e : exec af cs ∅ (Throw e) (OExc e)
| ex_fork cs X m st c k oc r X' o :
    exec af [] ∅ c oc ->
    fork_ret m st (cell_of st oc) (X ∪ exn_of st oc) r X' ->
    exec af (cs ++ [cell_of st oc]) X' (k r) o ->
    exec af cs X (Fork m st c k) o
| ex_fork_fail cs X m st c k o :
    af = true ->
    exec af cs X (k (FExn EBadAlloc)) o ->
    exec af cs X (Fork m st c k) o
| ex_call cs X m st c k oc r X' o :
    exec af [] ∅ c oc ->
    call_ret m st (cell_of st oc) (X ∪ exn_of st oc) r X' ->
    exec af (cs ++ [cell_of st oc]) X' (k r) o ->
    exec af cs X (Call m st c k) o
| ex_call_fail cs X m st c k o :
    af = true ->
    exec af cs X (k (CExn EBadAlloc)) o ->
    exec af cs X (Call m st c k) o
| ex_join cs X k r o :
    join_ret X r ->
    exec af cs ∅ (k cs r) o ->
    exec af cs X (Join k) o
| ex_switch cs X sk d k o :
    exec af cs X k o ->
    exec af cs X (Switch sk d k) o
| ex_stash cs X e k o :
    exec af cs (X ∪ {[e]}) k o ->
    exec af cs X (Stash e k) o
| ex_where cs X w k o :
    exec af cs X (k w) o ->
    exec af cs X (Where k) o.

(** The outcomes a task may have when run serially from its beginning. *)
Definition eval (af : bool) (t : task) (o : outcome) : Prop := exec af [] ∅ t o.

(** [srun af cs X t o ks]: as [exec], and [ks] lists the children the body goes
    on to create, in order, each with its body and the outcome it has.  Nothing
    is required of the children here. *)
Inductive srun (af : bool) : list cell -> gset exn -> task -> outcome -> list (task * outcome) -> Prop :=
| ru_ret cs v : srun af cs ∅ (Ret v) (OVal v) []
| ru_throw cs e : srun af cs ∅ (Throw e) (OExc e) []
| ru_fork cs X m st c k oc r X' o ks :
    fork_ret m st (cell_of st oc) (X ∪ exn_of st oc) r X' ->
    srun af (cs ++ [cell_of st oc]) X' (k r) o ks ->
    srun af cs X (Fork m st c k) o ((c, oc) :: ks)
| ru_fork_fail cs X m st c k o ks :
    af = true ->
    srun af cs X (k (FExn EBadAlloc)) o ks ->
    srun af cs X (Fork m st c k) o ks
| ru_call cs X m st c k oc r X' o ks :
    call_ret m st (cell_of st oc) (X ∪ exn_of st oc) r X' ->
    srun af (cs ++ [cell_of st oc]) X' (k r) o ks ->
    srun af cs X (Call m st c k) o ((c, oc) :: ks)
| ru_call_fail cs X m st c k o ks :
    af = true ->
    srun af cs X (k (CExn EBadAlloc)) o ks ->
    srun af cs X (Call m st c k) o ks
| ru_join cs X k r o ks :
    join_ret X r ->
    srun af cs ∅ (k cs r) o ks ->
    srun af cs X (Join k) o ks
| ru_switch cs X sk d k o ks :
    srun af cs X k o ks ->
    srun af cs X (Switch sk d k) o ks
| ru_stash cs X e k o ks :
    srun af cs (X ∪ {[e]}) k o ks ->
    srun af cs X (Stash e k) o ks
| ru_where cs X w k o ks :
    srun af cs X (k w) o ks ->
    srun af cs X (Where k) o ks.

(** A serial run of a whole program: a task, its outcome, and the runs of the
    children it creates, in order. *)
Inductive calltree := Node (t : task) (o : outcome) (kids : list calltree).

Definition ct_task (T : calltree) : task := let 'Node t _ _ := T in t.
Definition ct_outcome (T : calltree) : outcome := let 'Node _ o _ := T in o.

Inductive serial (af : bool) : calltree -> Prop :=
| se_node t o Ts :
    srun af [] ∅ t o (map (fun T => (ct_task T, ct_outcome T)) Ts) ->
    Forall (serial af) Ts ->
    serial af (Node t o Ts).

(** ** The rules for users

    [scoped nw n x t]: with [nw] workers, in a fork-join scope with at most [n]
    outstanding forks and with a possibly pending exception if [x], the body [t]
    - performs a join on every path from a fork, or from a call or stash that
      can leave an exception pending, to its end;
    - has at most [max_forks] forks in a scope that were not seen to complete;
    - uses the "outside" modifiers only outside a scope;
    - switches only to existing workers;
    and so do all its children.

    tag.hpp:62-74, the documentation in docs/ and the assertions of
    promise.hpp:306-310 are the source of these rules. *)
Definition max_forks : N := 65534.

CoInductive scoped (nw : nat) : N -> bool -> task -> Prop :=
| sc_ret v : scoped nw 0 false (Ret v)
| sc_throw e : scoped nw 0 false (Throw e)
| sc_fork n x m st c k :
    n + 1 <= max_forks ->
    (m = FSyncOutside -> n = 0) ->
    scoped nw 0 false c ->
    scoped nw (n + 1) (x || negb st) (k FAsync) ->
    (m <> FNone -> forall cl, scoped nw n (x || negb st) (k (FDone cl))) ->
    (forall e, scoped nw n x (k (FExn e))) ->
    scoped nw n x (Fork m st c k)
| sc_call n x m st c k :
    n <= max_forks ->
    (m = MEagerOutside -> n = 0) ->
    scoped nw 0 false c ->
    (forall cl, scoped nw n (x || negb st) (k (CDone cl))) ->
    (forall e, scoped nw n x (k (CExn e))) ->
    scoped nw n x (Call m st c k)
| sc_join n x k :
    (forall cs r, scoped nw 0 false (k cs r)) ->
    scoped nw n x (Join k)
| sc_switch n x sk d k : (d < nw)%nat -> scoped nw n x k -> scoped nw n x (Switch sk d k)
| sc_stash n x e k : scoped nw n true k -> scoped nw n x (Stash e k)
| sc_where n x k : (forall w, scoped nw n x (k w)) -> scoped nw n x (Where k).

(** A program that follows the rules. *)
Definition well_scoped (nw : nat) (t : task) : Prop := scoped nw 0 false t.

(** ** Histories: lists of events, newest first *)

Notation history := (list event) (only parsing).

(** The parent of [c] and whether [c]'s return address stores exceptions. *)
Fixpoint parent_in (c : N) (h : history) : option (N * bool) :=
  match h with
  | [] => None
  | EvFork p c' st _ :: h' | EvCall p c' st _ :: h' =>
    if decide (c' = c) then Some (p, st) else parent_in c h'
  | _ :: h' => parent_in c h'
  end.

(** The body of task [c]. *)
Fixpoint body_in (c : N) (h : history) : option task :=
  match h with
  | [] => None
  | EvSpawn c' t :: h' => if decide (c' = c) then Some t else body_in c h'
  | EvFork _ c' _ t :: h' | EvCall _ c' _ t :: h' =>
    if decide (c' = c) then Some t else body_in c h'
  | _ :: h' => body_in c h'
  end.

(** The children of [f], in the order they were created. *)
Fixpoint kids_in (f : N) (h : history) : list (N * bool) :=
  match h with
  | [] => []
  | EvFork p c st _ :: h' | EvCall p c st _ :: h' =>
    if decide (p = f) then kids_in f h' ++ [(c, st)] else kids_in f h'
  | _ :: h' => kids_in f h'
  end.

(** The outcome of [c], if its body has ended. *)
Fixpoint outcome_in (c : N) (h : history) : option outcome :=
  match h with
  | [] => None
  | EvEnd c' o :: h' => if decide (c' = c) then Some o else outcome_in c h'
  | _ :: h' => outcome_in c h'
  end.

(** The exceptions that were thrown by children of [f] (other than those that
    store their exception in the result), or stashed by [f], since [f] last
    rethrew. *)
Fixpoint pending_in (f : N) (h : history) : gset exn :=
  match h with
  | [] => ∅
  | EvEnd c (OExc e) :: h' =>
    if decide (parent_in c h' = Some (f, false)) then pending_in f h' ∪ {[e]} else pending_in f h'
  | EvStash f' e :: h' => if decide (f' = f) then pending_in f h' ∪ {[e]} else pending_in f h'
  | EvEager f' _ :: h' | EvJoin f' _ _ :: h' => if decide (f' = f) then ∅ else pending_in f h'
  | _ :: h' => pending_in f h'
  end.

(** How often the semaphore of root task [f] was released. *)
Fixpoint signals_in (f : N) (h : history) : N :=
  match h with
  | [] => 0
  | EvSignal f' :: h' => (if decide (f' = f) then 1 else 0) + signals_in f h'
  | _ :: h' => signals_in f h'
  end.

(** [c] is a child, a child of a child, ... of [f]. *)
Inductive descendant (h : history) (f : N) : N -> Prop :=
| desc_kid c st : (c, st) ∈ kids_in f h -> descendant h f c
| desc_trans d c st : descendant h f d -> (c, st) ∈ kids_in d h -> descendant h f c.

(** The body of [c] has ended. *)
Definition ended (h : history) (c : N) : Prop := exists o, outcome_in c h = Some o.

(** [T] is what the history says about [f] and its descendants: the bodies, the
    outcomes, and for each task the children it created, in order. *)
Inductive recorded (h : history) : N -> calltree -> Prop :=
| rec_node f t o Ts :
    body_in f h = Some t -> outcome_in f h = Some o ->
    Forall2 (recorded h) (map fst (kids_in f h)) Ts ->
    recorded h f (Node t o Ts).

(** The result variables of [f]'s children, in the order of creation. *)
Definition results_in (f : N) (h : history) : list cell :=
  map (fun x => match outcome_in x.1 h with Some o => cell_of x.2 o | None => CUnset end)
    (kids_in f h).

(** What a task is doing: created but not started; run by a worker; suspended
    at a fork or call of [c], at a join, or until worker [d] resumes it;
    destroyed. *)
Inductive status :=
| Ready | Running (w : nat) | AtFork (c : N) | AtCall (c : N) | AtJoin | AtSwitch (d : nat) | Gone.

(** The status of [f] after history [h]; [None]: [f] does not exist yet. *)
Fixpoint status_in (f : N) (h : history) : option status :=
  match h with
  | [] => None
  | EvSpawn f' _ :: h' => if decide (f' = f) then Some Ready else status_in f h'
  | EvFork p c _ _ :: h' =>
    if decide (p = f) then Some (AtFork c) else if decide (c = f) then Some Ready else status_in f h'
  | EvCall p c _ _ :: h' =>
    if decide (p = f) then Some (AtCall c) else if decide (c = f) then Some Ready else status_in f h'
  | EvResume w f' :: h' => if decide (f' = f) then Some (Running w) else status_in f h'
  | EvWait f' :: h' => if decide (f' = f) then Some AtJoin else status_in f h'
  | EvSwitch f' d :: h' => if decide (f' = f) then Some (AtSwitch d) else status_in f h'
  | EvDestroy f' :: h' => if decide (f' = f) then Some Gone else status_in f h'
  | _ :: h' => status_in f h'
  end.

(** ** Executions *)

(** [reach nw af s h]: starting from [nw] idle workers, submitting only
    programs that follow the rules, state [s] can be reached with history [h];
    allocations fail only if [af]. *)
Definition allowed (nw : nat) (af : bool) (l : label) : Prop :=
  match l with
  | LWork _ fail => fail = true -> af = true
  | LSpawn _ t => well_scoped nw t
  | _ => True
  end.

Inductive reach (nw : nat) (af : bool) : state -> history -> Prop :=
| reach_init : reach nw af (init nw) []
| reach_step s h l s' tr :
    reach nw af s h -> allowed nw af l -> step l s = Next s' tr ->
    reach nw af s' (rev tr ++ h).

(** ** Deterministic programs

    [pure b t]: the body [t] does not look at anything that depends on the
    schedule: it uses only plain forks, does not observe its worker and stashes
    nothing; if it throws then [b] holds; and a child may throw only if its
    return object stores the exception. *)
CoInductive pure : bool -> task -> Prop :=
| pu_ret b v : pure b (Ret v)
| pu_throw e : pure true (Throw e)
| pu_fork b st c k : pure st c -> pure b (k FAsync) -> pure b (Fork FNone st c k)
| pu_call b m st c k : pure st c -> (forall cl, pure b (k (CDone cl))) -> pure b (Call m st c k)
| pu_join b k : (forall cs, pure b (k cs None)) -> pure b (Join k)
| pu_switch b sk d k : pure b k -> pure b (Switch sk d k).
