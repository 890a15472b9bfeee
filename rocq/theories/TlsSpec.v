(** * What the callers of worker_init, finalize and schedule see and must obey. *)

From stdpp Require Import gmap list numbers.
From Verif Require Import StackModel StackSpec TlsModel.
Local Open Scope N_scope.

(** The stacks a worker may use, and how: its own, and the released ones that are
    not on their way through a schedule. *)
Definition in_transit (s : tstate) (h : nat) : Prop :=
  exists t p fr k, t_phase (thread s t) = Released p fr k /\ h = park k.
Definition is_workers (s : tstate) (h : nat) : Prop := exists t, h = tls t /\ t_ctx (thread s t) = true.
Definition may_use (s : tstate) (o : op) : Prop :=
  match o with
  | ONew _ _ | ODestroy _ => False
  | OAlloc h _ _ | ODealloc h _ | OEmpty h | OTop h => is_workers s h
  | ORelease h h' _ => is_workers s h /\ exists k, h' = park k
  | OAdopt h h' => is_workers s h /\ (exists k, h' = park k) /\ ~ in_transit s h'
  end.

(** The calls that are covered.  [c] is the client's view of the stacks (StackSpec).
    Beyond what the documentation asks (finalize only with an empty
    stack, FILO order), three cases are excluded here, and treated by the
    refuted theorems instead: worker_init that cannot allocate, worker_init called from code that
    schedule runs, and a scheduler that throws. *)
Definition tlegal (s : tstate) (c : client) (a : tact) : Prop :=
  match a with
  | TInit t ctx_ok orc =>
      t_ctx (thread s t) && t_stack (thread s t) = false ->
      in_schedule s t = false /\ ctx_ok = true /\ exists hp f, stack_ctor orc (wheap (tw s)) = Ret hp f
  | TFinal t u => t = u -> t_ctx (thread s t) && t_stack (thread s t) = true -> c !! tls t = Some []
  | TEnter t _ => True
  | TBuild t size _ _ => size <= max_request
  | TRelease t k _ => c !! park k = None
  | TSubmit t throws => throws = false
  | TWork o => legal c o /\ may_use s o
  end.

(** The client's view afterwards. *)
Definition tview (s : tstate) (c : client) (a : tact) (r : tout) (s' : tstate) : client :=
  match a, r with
  | TInit t _ _, OCtx _ => <[tls t := []]> c
  | TFinal t _, OOk => delete (tls t) c
  | TEnter t _, OOk => <[tls t := []]> c
  | TBuild t size _ _, OOk =>
      match t_phase (thread s' t) with Built p fr => <[tls t := [Alloc p size fr]]> c | _ => c end
  | TBuild t _ _ _, OThrow => delete (tls t) c
  | TRelease t k _, OOk =>
      match c !! tls t with Some l => <[park k := l]> (<[tls t := []]> c) | None => c end
  | TRelease t _ _, OThrow => delete (tls t) c
  | TSubmit t _, _ => delete (tls t) c
  | TWork o, _ => client_step c o (step (tw s) o).2 (tops (tw s'))
  | _, _ => c
  end.

Inductive treach : tstate -> client -> Prop :=
| treach_init : treach tinit ∅
| treach_step s c a s' r :
    treach s c -> tlegal s c a -> tstep s a = Some (s', r) -> treach s' (tview s c a r s').

(** Two states in which all threads look the same and the memory is the same. *)
Definition same (s s' : tstate) : Prop := tw s' = tw s /\ forall t, thread s' t = thread s t.
