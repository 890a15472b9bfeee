(** * Which programs terminate, and what a complete execution is.

    Specification vocabulary for C51.  Nothing here mentions counters, deques, stacks or
    workers' internal states. *)

From stdpp Require Import prelude gmap list.
From Coq Require Import NArith.
From Verif Require Import RuntimeModel RuntimeSpec.
Local Open Scope N_scope.

Section halts.
Context (af : bool).

(** What a child [t] may leave in its result variable, and the exceptions it may hand
    to its parent, according to the serial semantics. *)
Definition may_leave (st : bool) (t : task) (cl : cell) : Prop := exists o, eval af t o /\ cl = cell_of st o.
Definition may_throw (st : bool) (t : task) (e : exn) : Prop := st = false /\ eval af t (OExc e).

(** [halts X L t]: the body [t] ends after finitely many awaits, whatever results its children
    give it among those the serial semantics allows.  [L] says for each child so far what
    its result variable may hold; [X] is the set of exceptions that may be pending. *)
Inductive halts : (exn -> Prop) -> list (cell -> Prop) -> task -> Prop :=
| ha_ret X L v : halts X L (Ret v)
| ha_throw X L e : halts X L (Throw e)
| ha_fork X L m st c k :
    let X' e := X e \/ may_throw st c e in
    halts (fun _ => False) [] c ->
    halts X' (L ++ [may_leave st c]) (k FAsync) ->
    (m <> FNone -> forall cl, may_leave st c cl -> halts X' (L ++ [eq cl]) (k (FDone cl))) ->
    (m <> FNone -> forall e, X' e -> halts X' (L ++ [may_leave st c]) (k (FExn e))) ->
    (m <> FNone -> forall e, X' e -> halts X' (L ++ [may_leave st c]) (k (FExn EBeforeJoin))) ->
    (af = true -> halts X L (k (FExn EBadAlloc))) ->
    halts X L (Fork m st c k)
| ha_call X L m st c k :
    let X' e := X e \/ may_throw st c e in
    halts (fun _ => False) [] c ->
    (forall cl, may_leave st c cl -> halts X' (L ++ [eq cl]) (k (CDone cl))) ->
    (m <> MNone -> forall e, X' e -> halts X' (L ++ [may_leave st c]) (k (CExn e))) ->
    (m <> MNone -> forall e, X' e -> halts X' (L ++ [may_leave st c]) (k (CExn EBeforeJoin))) ->
    (af = true -> halts X L (k (CExn EBadAlloc))) ->
    halts X L (Call m st c k)
| ha_join (X : exn -> Prop) L k :
    (forall cs r, Forall2 (fun P cl => P cl) L cs -> (forall e, r = Some e -> X e) ->
      halts (fun _ => False) (map eq cs) (k cs r)) ->
    halts X L (Join k)
| ha_switch X L sk d k : halts X L k -> halts X L (Switch sk d k)
| ha_stash X L e k : halts (fun e' => X e' \/ e' = e) L k -> halts X L (Stash e k)
| ha_where X L k : (forall w, halts X L (k w)) -> halts X L (Where k).

(** The program [t] terminates. *)
Definition terminates (t : task) : Prop := halts (fun _ => False) [] t.

End halts.

(** A simple sufficient condition: the tree of awaits has no infinite branch. *)
Inductive finite : task -> Prop :=
| fi_ret v : finite (Ret v)
| fi_throw e : finite (Throw e)
| fi_fork m st c k : finite c -> (forall r, finite (k r)) -> finite (Fork m st c k)
| fi_call m st c k : finite c -> (forall r, finite (k r)) -> finite (Call m st c k)
| fi_join k : (forall cs r, finite (k cs r)) -> finite (Join k)
| fi_switch sk d k : finite k -> finite (Switch sk d k)
| fi_stash e k : finite k -> finite (Stash e k)
| fi_where k : (forall w, finite (k w)) -> finite (Where k).

(** One step of the machine other than a submission of new work. *)
Definition moves (nw : nat) (af : bool) (x x' : state * list event) : Prop :=
  exists l tr, allowed nw af l /\ (forall d t, l <> LSpawn d t) /\
    step l x.1 = Next x'.1 tr /\ x'.2 = rev tr ++ x.2.

(** Some step that does not need a failing allocation is possible. *)
Definition can_move (s : state) : Prop :=
  exists l s' tr, (forall d t, l <> LSpawn d t) /\ (forall i, l <> LWork i true) /\ step l s = Next s' tr.

(** An infinite execution, observed at times 0, 1, 2, ...: between two observations the machine moves
    or rests (its workers look for work in vain, or are preempted), but it does not rest forever
    while something can move. *)
Record lasting (nw : nat) (af : bool) (x : nat -> state * list event) : Prop := {
  la_step n : x (S n) = x n \/ moves nw af (x n) (x (S n));
  la_fair n : can_move (x n).1 -> exists m, (n <= m)%nat /\ moves nw af (x m) (x (S m))
}.
