(** * lazy_pool with the memory orderings of the code.

    Code: /repo/include/libfork/schedule/lazy_pool.hpp (thief_work_sleep, lazy_work,
    ~lazy_pool), event_count.hpp:178-207, list.hpp:81-115.

    LazyModel.v interleaves the threads under sequential consistency.  Here the
    same transitions run on the release-acquire memory of C++20.  Every write to the
    pool's shared variables is a read-modify-write (fetch_add, fetch_sub,
    test_and_set, exchange, compare-exchange), so it acts on the newest value and its
    place in the modification order is the order of execution.  A plain load may return any
    older value which the thread is not yet bound to have seen: there are three, of
    `thief` (line 123), of `stop` (line 237) and of `active` (line 266).

    The [i]-th write to a location is message [i] (message 0 is the initialisation).  A
    view says for each location which message a thread must have seen; a release
    operation attaches the thread's view to its message, an acquire operation adds the
    view of the message to the thread's, and a read-modify-write passes on the view
    of the message it reads (release sequences).

    Simplifications, besides those of LazyModel.v:
    - memory_order_consume (list.hpp:104) is acquire, seq_cst (event_count.hpp:200, 212) is acq_rel;
    - the comparison in atomic::wait (event_count.hpp:207) reads the newest epoch, as the
      futex that implements it does;
    - synchronisation through deques, latches and thread::join is left out: the model
      has the more executions. *)

From stdpp Require Import prelude list.
From Verif Require Import PoolCommon LazyModel.

(** The shared atomic variables: lines 82, 86, 92 of lazy_pool.hpp, m_head of each
    submission list, busy_pool.hpp:52. *)
Inductive loc := LThief (d : nat) | LEvent (d : nat) | LActive | LStop | LList (w : nat).
Global Instance loc_eq_dec : EqDecision loc. Proof. solve_decision. Defined.

(** Threads: workers, submitting threads, the thread that runs the destructor. *)
Inductive tid := TidW (w : nat) | TidA (a : nat) | TidD.
Global Instance tid_eq_dec : EqDecision tid. Proof. solve_decision. Defined.

Notation view := (loc -> nat) (only parsing).
Definition vjoin (v1 v2 : view) : view := fun x => v1 x `max` v2 x.
Definition vset (x : loc) (i : nat) (v : view) : view := fun y => if decide (y = x) then i else v y.

Record ws := WS {
  base : st;                         (* program counters and newest values *)
  clock : loc -> nat;                (* number of the newest message *)
  vals : loc -> nat -> nat;          (* the value of each message *)
  mview : loc -> nat -> view;        (* the view attached to each message *)
  tv : tid -> view                   (* the view of each thread *)
}.

Section Pool.
Context (n nd : nat) (dom : nat -> nat).

(** The newest value of a location that is loaded. *)
Definition newest (x : loc) (s : st) : nat :=
  match x with
  | LThief d => thief s d
  | LActive => active s
  | LStop => if stop s then 1 else 0
  | _ => 0
  end.

(** The location which the next step of worker [w] loads, if it is a plain load. *)
Definition loads (w : nat) (s : st) : option loc :=
  match pc s w with
  | WStop _ => Some LStop                                         (* line 237 *)
  | WAct _ => Some LActive                                        (* line 266 *)
  | TDom _ i => if decide (i < nd) then Some (LThief i) else None (* line 123 *)
  | _ => None
  end.

(** The step of worker [w] when its load returns [v]. *)
Definition loaded (w v : nat) (s : st) : st :=
  match pc s w with
  | WStop k => set_pc w (if decide (v = 0) then WSub k else XCancel) s
  | WAct k => set_pc w (if decide (0 < v) then WCancel else WWait k) s
  | TDom h i => set_pc w (if decide (v = 0) then TDomNote h i else TDom h (S i)) s
  | _ => s
  end.

(** The read-modify-write of a step: who, where, acquire, release. *)
Definition rmw (l : lab) (s : st) : option (tid * loc * bool * bool) :=
  match l with
  | LWorker w _ =>
    match pc s w with
    | WTop => Some (TidW w, LThief (dom w), false, true)          (* 199 *)
    | WPop1 | WPop2 _ => Some (TidW w, LList w, true, false)      (* 204, 230 *)
    | WPrep => Some (TidW w, LEvent (dom w), true, true)          (* 228 *)
    | WCancelJob _ | WCancel | WUnreg | XCancel => Some (TidW w, LEvent (dom w), true, true) (* 232, 268, 276, 242 *)
    | WSub _ => Some (TidW w, LThief (dom w), true, true)         (* 262 *)
    | TSub _ => Some (TidW w, LThief (dom w), true, true)         (* 110 *)
    | TNote _ => Some (TidW w, LEvent (dom w), true, true)        (* 111 *)
    | TAct _ => Some (TidW w, LActive, true, true)                (* 121 *)
    | TDomNote _ i => Some (TidW w, LEvent i, true, true)         (* 124 *)
    | TEnd => Some (TidW w, LActive, false, true)                 (* 132 *)
    | XNote => Some (TidW w, LEvent (dom w), true, true)          (* 243 *)
    | XSub => Some (TidW w, LThief (dom w), false, true)          (* 244 *)
    | XStop => Some (TidW w, LStop, false, true)                  (* 166 *)
    | _ => None
    end
  | LAgent a w _ =>
    match ag s a with
    | AIdle => Some (TidA a, LList w, false, true)                (* list.hpp:90 *)
    | APushed w => Some (TidA a, LEvent (dom w), true, true)      (* 155 *)
    | AWake _ => None
    end
  | LDtor =>
    match dt s with
    | DIdle => Some (TidD, LStop, false, true)                    (* 385 *)
    | DNote i => if decide (i < nd) then Some (TidD, LEvent i, true, true) else None  (* 388 *)
    | _ => None
    end
  | LSpurious _ => None
  end.

Definition vbot : view := fun _ => 0.

(** Append a message to the location of the read-modify-write. *)
Definition record (r : option (tid * loc * bool * bool)) (b : st) (s : ws) : ws :=
  match r with
  | None => WS b (clock s) (vals s) (mview s) (tv s)
  | Some (t, x, acq, rel) =>
    let i := S (clock s x) in
    let m := mview s x (clock s x) in
    let v := vset x i (if acq then vjoin (tv s t) m else tv s t) in
    WS b
      (fun y => if decide (y = x) then i else clock s y)
      (fun y j => if decide (y = x /\ j = i) then newest x b else vals s y j)
      (fun y j => if decide (y = x /\ j = i) then vjoin m (if rel then v else vset x i vbot) else mview s y j)
      (fun u => if decide (u = t) then v else tv s u)
  end.

(** Decisions of the scheduler and, for loads, the message that is read. *)
Inductive wlab := WLab (l : lab) (i : nat).

(** [sc]: are the three loads and what precedes them sequentially consistent? (They are not.) *)
Definition wstep (sc : bool) (wl : wlab) (s : ws) : outcome ws :=
  let '(WLab l i) := wl in
  let other :=
    match step n nd dom l (base s) with
    | Next b tr => Next (record (rmw l (base s)) b s) tr
    | Undef => Undef
    | Blocked => Blocked
    end in
  match l with
  | LWorker w _ =>
    match loads w (base s) with
    | None => other
    | Some x =>
      if decide (w < n /\ tv s (TidW w) x <= i /\ i <= clock s x /\ (sc = true -> i = clock s x)) then
        Next (WS (loaded w (vals s x i) (base s)) (clock s) (vals s) (mview s)
                 (fun u => if decide (u = TidW w) then vjoin (vset x i (tv s u)) (mview s x i) else tv s u)) []
      else Blocked
    end
  | _ => other
  end.

Definition winit : ws := WS init (fun _ => 0) (fun _ _ => 0) (fun _ _ => vbot) (fun _ => vbot).

(** Executions; the trace is newest first. *)
Inductive wreach (sc : bool) : ws -> list pev -> Prop :=
| wreach_init : wreach sc winit []
| wreach_step s h l s' tr : wreach sc s h -> wstep sc l s = Next s' tr -> wreach sc s' (rev tr ++ h).
End Pool.
