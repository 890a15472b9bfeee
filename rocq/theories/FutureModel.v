(** * Model of [lf::future] and of the root task's side of it.

    Code: /repo/include/libfork/core/sync_wait.hpp (the class future,
    future_shared_state, and what schedule builds), and of
    /repo/include/libfork/core/impl/promise.hpp:312-350,
    /repo/include/libfork/core/impl/return.hpp the way a root task stores its
    result and signals.

    Any number of client threads operate on any number of future objects, while
    any number of root tasks finish, all interleaved.  Each access of the semaphore
    is one step; the other accesses are private or ordered by the semaphore, which the
    model checks: reading a result that the task has not yet signalled is [UB], as is using
    a shared state that has been freed.

    Simplifications:
    - The shared state is the model EventuallyModel.cell plus semaphore, status and
      the reference count of the [std::shared_ptr] (one for the future, one for the
      return pointer in the root task's promise).
    - A root task is only its end: it stores its result, signals, destroys its frame.
      What happens before is the subject of RuntimeModel.
    - Different clients do not use one future object at the same time (that is a
      data race in the client); such starts are not enabled. *)

From stdpp Require Import prelude gmap list.
From Verif Require EventuallyModel.
From Verif Require Import EventuallyModel.
Local Notation cell_step := EventuallyModel.step.

(** How a root task ends: [co_return v], flowing off the end or [co_return] of a void task, an
    exception, or an exception thrown by the constructor of the result. *)
Inductive ending := EndVal (v : nat) | EndVoid | EndExc (e : nat) | EndCtorExc (e : nat).

(** The endings a task with result kind [k] can have. *)
Definition fits (k : kind) (e : ending) : bool :=
  match e, k with
  | EndVal _, KVoid => false
  | EndVal _, _ => true
  | EndVoid, KVoid => true
  | EndVoid, _ => false
  | EndExc _, _ => true
  | EndCtorExc _, KVal => true
  | EndCtorExc _, _ => false
  end.

(** return.hpp:63-75 return_value, 93-96 for references, 103-108 return_void;
    promise.hpp:316-319 unhandled_exception. *)
Definition store_ops (e : ending) : list op :=
  match e with
  | EndVal v => [OAssign v]
  | EndVoid => []
  | EndExc x => [OStash x]
  | EndCtorExc x => [OAssignThrow x; OStash x]
  end.

(** sync_wait.hpp:67: the shared state is a try_eventually<R>. *)
Definition var_of (k : kind) : variant := Variant k true.

(** sync_wait.hpp:48-61 *)
Inductive fstatus := NoWait | Ready | Retrieved.
#[global] Instance fstatus_eq_dec : EqDecision fstatus.
Proof. solve_decision. Defined.

(** sync_wait.hpp:67-89; [s_refs] is the use count of the shared_ptr. *)
Record shared := Shared { s_kind : kind; s_cell : cell; s_sem : nat; s_status : fstatus; s_refs : nat }.

Inductive tpc := TRun | TStored | TSignalled | TDone.
Inductive after := KWait | KGet | KDtor.
(** A client thread: not in an operation, in [sem.acquire()] on behalf of future [x], or in get
    after its wait. *)
Inductive cpc := CIdle | CAcquire (x : nat) (k : after) | CRead (x : nat).

Record st := St {
  f_heap : gmap nat shared;                (* live shared states *)
  f_task : gmap nat (ending * tpc);        (* the root task belonging to a shared state *)
  f_var : gmap nat (option nat);           (* live future objects: their m_heap *)
  f_thr : gmap nat cpc                     (* client threads; absent is idle *)
}.

Inductive fop :=
| FSchedule (x i : nat) (k : kind) (e : ending)  (* future x = schedule(...) *)
| FMove (y x : nat)                              (* future y = std::move(x) *)
| FAssign (y x : nat)                            (* y = std::move(x) *)
| FValid (x : nat) | FWait (x : nat) | FGet (x : nat) | FDetach (x : nat) | FDestroy (x : nat).

Inductive got := GVal (v : nat) | GVoid | GExc (e : nat).

Inductive ev :=
| EvScheduled (x i : nat) (k : kind) (e : ending)
| EvMoved (y x : nat)                   (* y now refers to what x referred to *)
| EvValid (x : nat) (b : bool)
| EvBroken (x : nat)                    (* wait or get threw broken_future *)
| EvWaited (x i : nat)                  (* wait returned *)
| EvGot (x i : nat) (g : got)           (* get returned or threw the task's exception *)
| EvEmptyFuture (x i : nat)             (* get threw empty_future *)
| EvDetached (x : nat)
| EvDestroyed (x : nat) (o : option nat)  (* ~future returned *)
| EvAcquired (i : nat)                  (* a client's acquire of the semaphore succeeded *)
| EvSignalled (i : nat)                 (* the root task released the semaphore *)
| EvFreed (i : nat).

Inductive act := AStart (t : nat) (o : fop) | ACont (t : nat) | ATask (i : nat).

Inductive result := Next (s : st) (l : list ev) | UB.

Definition pc (s : st) (t : nat) : cpc := default CIdle (f_thr s !! t).
Definition uses (p : cpc) : option nat :=
  match p with CIdle => None | CAcquire x _ => Some x | CRead x => Some x end.
(** Is some thread in the middle of an operation on [x]? *)
Definition in_use (s : st) (x : nat) : bool :=
  existsb (fun p => bool_decide (uses (snd p) = Some x)) (map_to_list (f_thr s)).

Definition set_heap f s := St f (f_task s) (f_var s) (f_thr s).
Definition set_var f s := St (f_heap s) (f_task s) f (f_thr s).
Definition set_pc t p s := St (f_heap s) (f_task s) (f_var s) (<[t := p]> (f_thr s)).
Definition set_task i p s := St (f_heap s) (<[i := p]> (f_task s)) (f_var s) (f_thr s).

Definition bind_ (r : result) (k : st -> result) : result :=
  match r with
  | Next s l => match k s with Next s' l' => Next s' (l ++ l') | UB => UB end
  | UB => UB
  end.

(** ~shared_ptr: frees the state with the last reference, which runs
    ~basic_eventually. *)
Definition drop_ref (i : nat) (s : st) : result :=
  match f_heap s !! i with
  | None => UB
  | Some h =>
      match s_refs h with
      | 0 => UB
      | 1 => match destroy (var_of (s_kind h)) (s_cell h) with
             | None => UB
             | Some _ => Next (set_heap (delete i (f_heap s)) s) [EvFreed i]
             end
      | S n => Next (set_heap (<[i := Shared (s_kind h) (s_cell h) (s_sem h) (s_status h) n]> (f_heap s)) s) []
      end
  end.
Definition drop (o : option nat) (s : st) : result :=
  match o with None => Next s [] | Some i => drop_ref i s end.

(** Has the task signalled?  Reading the cell earlier is a data race. *)
Definition signalled (p : tpc) : bool := match p with TSignalled | TDone => true | _ => false end.

(** sync_wait.hpp:214-228, the part of get after wait(). *)
Definition get_rest (t x i : nat) (h : shared) (s : st) : result :=
  match f_task s !! i with
  | None => UB
  | Some (_, p) =>
      if decide (s_status h = Retrieved) then Next (set_pc t CIdle s) [EvEmptyFuture x i]    (* 214-216 *)
      else if negb (signalled p) then UB
      else
        match has_exception (var_of (s_kind h)) (s_cell h) with                              (* 220 *)
        | None => UB
        | Some true =>
            match cell_step (var_of (s_kind h)) (s_cell h) OMoveExc with                     (* 221 *)
            | (c, RExc (Some e), _) =>
                Next (set_pc t CIdle (set_heap (<[i := Shared (s_kind h) c (s_sem h) Retrieved (s_refs h)]> (f_heap s)) s))
                     [EvGot x i (GExc e)]
            | _ => UB
            end
        | Some false =>
            if decide (s_kind h = KVoid) then
              Next (set_pc t CIdle (set_heap (<[i := Shared (s_kind h) (s_cell h) (s_sem h) Retrieved (s_refs h)]> (f_heap s)) s))
                   [EvGot x i GVoid]
            else
              match cell_step (var_of (s_kind h)) (s_cell h) OMoveOut with                   (* 225 *)
              | (c, RVal (Some v), _) =>
                  Next (set_pc t CIdle (set_heap (<[i := Shared (s_kind h) c (s_sem h) Retrieved (s_refs h)]> (f_heap s)) s))
                       [EvGot x i (GVal v)]
              | _ => UB
              end
        end
  end.

(** The start of an operation by thread [t]; [None]: not enabled. *)
Definition start (s : st) (t : nat) (o : fop) : option result :=
  match o with
  | FSchedule x i k e =>
      (* sync_wait.hpp:266-287: make_shared, one reference in the promise (268), one in the future (286) *)
      match f_var s !! x, f_task s !! i, f_heap s !! i with
      | None, None, None =>
          if fits k e then
            Some (Next (set_var (<[x := Some i]> (f_var s))
                       (set_task i (e, TRun)
                       (set_heap (<[i := Shared k (construct (var_of k)) 0 NoWait 2]> (f_heap s)) s)))
                       [EvScheduled x i k e])
          else None
      | _, _, _ => None
      end
  | FMove y x =>
      (* 159, the defaulted move constructor: the shared_ptr is left null *)
      match f_var s !! x, f_var s !! y with
      | Some o, None =>
          if in_use s x then None
          else Some (Next (set_var (<[y := o]> (<[x := None]> (f_var s))) s) [EvMoved y x])
      | _, _ => None
      end
  | FAssign y x =>
      (* 167, the defaulted move assignment: shared_ptr(std::move(x)).swap(y) *)
      match f_var s !! x, f_var s !! y with
      | Some o, Some o' =>
          if in_use s x || in_use s y then None
          else if decide (x = y) then Some (Next s [EvMoved y x])
          else Some (bind_ (Next (set_var (<[y := o]> (<[x := None]> (f_var s))) s) [EvMoved y x]) (drop o'))
      | _, _ => None
      end
  | FValid x =>
      match f_var s !! x with
      | Some o => if in_use s x then None
                  else Some (Next s [EvValid x (bool_decide (o <> None))])                   (* 183 *)
      | None => None
      end
  | FDetach x =>
      match f_var s !! x with
      | Some o => if in_use s x then None
                  else Some (bind_ (Next (set_var (<[x := None]> (f_var s)) s) [EvDetached x]) (drop o))  (* 189 *)
      | None => None
      end
  | FWait x =>
      match f_var s !! x with
      | Some None => if in_use s x then None else Some (Next s [EvBroken x])                 (* 195-197 *)
      | Some (Some i) =>
          if in_use s x then None else
          match f_heap s !! i with
          | None => Some UB
          | Some h => if decide (s_status h = NoWait)                                        (* 199 *)
                      then Some (Next (set_pc t (CAcquire x KWait) s) [])
                      else Some (Next s [EvWaited x i])
          end
      | None => None
      end
  | FGet x =>
      match f_var s !! x with
      | Some None => if in_use s x then None else Some (Next s [EvBroken x])                 (* 212, 195-197 *)
      | Some (Some i) =>
          if in_use s x then None else
          match f_heap s !! i with
          | None => Some UB
          | Some h => if decide (s_status h = NoWait)
                      then Some (Next (set_pc t (CAcquire x KGet) s) [])
                      else Some (Next (set_pc t (CRead x) s) [])
          end
      | None => None
      end
  | FDestroy x =>
      match f_var s !! x with
      | Some None => if in_use s x then None
                     else Some (Next (set_var (delete x (f_var s)) s) [EvDestroyed x None])
      | Some (Some i) =>
          if in_use s x then None else
          match f_heap s !! i with
          | None => Some UB
          | Some h => if decide (s_status h = NoWait)                                        (* 176 *)
                      then Some (Next (set_pc t (CAcquire x KDtor) s) [])
                      else Some (bind_ (Next (set_var (delete x (f_var s)) s) [EvDestroyed x (Some i)]) (drop_ref i))
          end
      | None => None
      end
  end.

(** One step; [None]: not enabled. *)
Definition step (s : st) (a : act) : option result :=
  match a with
  | AStart t o => match pc s t with CIdle => start s t o | _ => None end
  | ACont t =>
      match pc s t with
      | CIdle => None
      | CAcquire x k =>
          match f_var s !! x with
          | Some (Some i) =>
              match f_heap s !! i with
              | None => Some UB
              | Some h =>
                  match s_sem h with
                  | 0 => None                                    (* acquire blocks *)
                  | S n =>
                      let s1 st := set_heap (<[i := Shared (s_kind h) (s_cell h) n st (s_refs h)]> (f_heap s)) s in
                      match k with
                      | KWait => Some (Next (set_pc t CIdle (s1 Ready)) [EvAcquired i; EvWaited x i])      (* 200-201 *)
                      | KGet => Some (Next (set_pc t (CRead x) (s1 Ready)) [EvAcquired i])
                      | KDtor =>                                                                      (* 177 *)
                          Some (bind_ (Next (set_pc t CIdle (set_var (delete x (f_var s)) (s1 (s_status h))))
                                            [EvAcquired i; EvDestroyed x (Some i)]) (drop_ref i))
                      end
                  end
              end
          | _ => Some UB
          end
      | CRead x =>
          match f_var s !! x with
          | Some (Some i) =>
              match f_heap s !! i with
              | None => Some UB
              | Some h => Some (get_rest t x i h s)
              end
          | _ => Some UB
          end
      end
  | ATask i =>
      match f_task s !! i with
      | Some (e, TRun) =>
          match f_heap s !! i with
          | None => Some UB
          | Some h =>
              let '(c, ok) := fold_left (fun '(c, ok) o =>
                                let '(c', r, _) := cell_step (var_of (s_kind h)) c o in
                                (c', ok && match r with RUB => false | _ => true end))
                              (store_ops e) (s_cell h, true) in
              if ok : bool then
                Some (Next (set_task i (e, TStored)
                           (set_heap (<[i := Shared (s_kind h) c (s_sem h) (s_status h) (s_refs h)]> (f_heap s)) s)) [])
              else Some UB
          end
      | Some (e, TStored) =>
          (* promise.hpp:339: semaphore()->release(); more than one is undefined *)
          match f_heap s !! i with
          | None => Some UB
          | Some h =>
              match s_sem h with
              | 0 => Some (Next (set_task i (e, TSignalled)
                           (set_heap (<[i := Shared (s_kind h) (s_cell h) 1 (s_status h) (s_refs h)]> (f_heap s)) s))
                           [EvSignalled i])
              | S _ => Some UB
              end
          end
      | Some (e, TSignalled) =>
          (* promise.hpp:340: the frame is destroyed, and with it the promise's shared_ptr *)
          Some (bind_ (Next (set_task i (e, TDone) s) []) (drop_ref i))
      | Some (_, TDone) | None => None
      end
  end.

Definition init : st := St ∅ ∅ ∅ ∅.

(** Reachable states with their history, newest event first. *)
Inductive reach : st -> list ev -> Prop :=
| reach_init : reach init []
| reach_step s h a s' l : reach s h -> step s a = Some (Next s' l) -> reach s' (rev l ++ h).
