(** * Vocabulary for loads that return outdated values (C73).

    The C++ memory model lets a load of an atomic return a value older than the last one
    written, as long as the reading thread has not yet seen, or happened after, a newer one.
    The worker that runs a task happens after all that the task did before (C54, C55).  So the
    load of the join counter can only return a value the counter has had since the last join of the
    task, which resets the counter, and the load of the exception flag a value the flag has had since
    the task last cleared it.  (Some of these values may in turn be hidden; the theorems allow all.) *)

From stdpp Require Import prelude gmap list.
From Coq Require Import NArith.
From Verif Require Import RuntimeModel RuntimeSpec.
Local Open Scope N_scope.

(** [since P f x y]: an execution leads from [x] to [y]; task [f] lives throughout and no event
    in [P] happens. *)
Inductive since (nw : nat) (af : bool) (P : event -> Prop) (f : fid) :
    state * list event -> state * list event -> Prop :=
| since_now x : since nw af P f x x
| since_step x s h l s' tr :
    since nw af P f x (s, h) -> allowed nw af l -> step l s = Next s' tr ->
    is_Some (s_frames s' !! f) -> (forall e, e ∈ tr -> ~ P e) ->
    since nw af P f x (s', rev tr ++ h).

(** Task [f] passes a join. *)
Definition passes (f : fid) (e : event) : Prop := exists cs r, e = EvJoin f cs r.
(** Task [f] passes a join or rethrows an exception: it has cleared its flag. *)
Definition clears (f : fid) (e : event) : Prop := passes f e \/ exists x, e = EvEager f x.

(** The join counter and the exception flag of [f] in [s]. *)
Definition counter (f : fid) (s : state) : option N := f_joins <$> s_frames s !! f.
Definition flag (f : fid) (s : state) : option bool := f_eflag <$> s_frames s !! f.

(** [v] is a value the counter has had since the last join of [f]; [b] is a value the flag has
    had since [f] last cleared it. *)
Definition visible (nw : nat) (af : bool) (f : fid) (s : state) (h : list event) (v : N) : Prop :=
  exists s0 h0, reach nw af s0 h0 /\ since nw af (passes f) f (s0, h0) (s, h) /\ counter f s0 = Some v.
Definition visible_flag (nw : nat) (af : bool) (f : fid) (s : state) (h : list event) (b : bool) : Prop :=
  exists s0 h0, reach nw af s0 h0 /\ since nw af (clears f) f (s0, h0) (s, h) /\ flag f s0 = Some b.

(** join_awaitable::await_ready (awaitables.hpp:426-449) and what follows it, line by line, when
    [load_joins] on line 440 returns [v]. *)
Definition join_reading (v : N) (i : wid) (w : worker) (f : fid) (fr : frame)
    (k : list cell -> option exn -> task) (s : state) : res :=
  if decide (f_steals fr = 0) then join_resume i w f fr k s []
  else if decide (f_steals fr = u16max - v) then take_stack_join_resume i w f fr k s []
  else Next (put_worker i (set_pc (PJSusp f) w) s) [].

(** sync_fork_awaitable::await_resume (awaitables.hpp:297-333) of a child that stores its
    exceptions, inside a scope with steals, when atomic_has_exception on line 320 returns [b]. *)
Definition fork_reading (b : bool) (f : fid) (fr : frame) (k : fres -> task) (pre : N) (s : state) : res :=
  let go r := put_frame f (set_rp (RRun (k r)) fr) s in
  if decide (f_steals fr = pre) then
    if b then Next (go (FExn EBeforeJoin)) []
    else Next (go (FDone (fres_last (f_cells fr)))) [EvSync f (fres_last (f_cells fr))]
  else Next (go FAsync) [].

(** eager_call_awaitable::await_resume (awaitables.hpp:379-394) of task [p] whose child [c] has
    just been destroyed, inside a scope with steals, when atomic_has_exception on line 391 returns [b]. *)
Definition call_reading (b : bool) (i : wid) (w : worker) (c p : fid) (frp : frame) (k : cres -> task) (s : state) : res :=
  let r := if b then CExn EBeforeJoin else CDone (fres_last (f_cells frp)) in
  Next (put_worker i (set_pc (PRun p) w) (put_frame p (set_rp (RRun (k r)) frp) s)) [EvDestroy c; EvResume i p].
