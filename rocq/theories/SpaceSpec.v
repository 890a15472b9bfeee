(** * Specification vocabulary for the memory bound (C69).

    Nothing here mentions workers' queues, counters or stacks.  [sz t] is the
    size of the frame of a task with body [t]. *)

From stdpp Require Import prelude list.
From Coq Require Import NArith.
From Verif Require Import RuntimeModel RuntimeSpec AlgoTaskModel.
Local Open Scope N_scope.

(** ** How much a serial run needs

    [fits sz n t]: when [t] is run serially (a fork is an ordinary call), the
    descendants of [t] that exist at the same time never occupy more than [n],
    whatever results they return. *)
CoInductive fits (sz : task -> N) : N -> task -> Prop :=
| ft_ret n v : fits sz n (Ret v)
| ft_throw n e : fits sz n (Throw e)
| ft_fork n n' m st c k :
    sz c + n' <= n -> fits sz n' c -> (forall r, fits sz n (k r)) -> fits sz n (Fork m st c k)
| ft_call n n' m st c k :
    sz c + n' <= n -> fits sz n' c -> (forall r, fits sz n (k r)) -> fits sz n (Call m st c k)
| ft_join n k : (forall cs r, fits sz n (k cs r)) -> fits sz n (Join k)
| ft_switch n sk d k : fits sz n k -> fits sz n (Switch sk d k)
| ft_stash n e k : fits sz n k -> fits sz n (Stash e k)
| ft_where n k : (forall i, fits sz n (k i)) -> fits sz n (Where k).

(** A serial run of [t] never occupies more than [S1]. *)
Definition serial_space (sz : task -> N) (S1 : N) (t : task) : Prop :=
  exists n, sz t + n <= S1 /\ fits sz n t.

(** ** Reading a history *)

(** All tasks created so far, with their bodies. *)
Fixpoint tasks_in (h : list event) : list (N * task) :=
  match h with
  | [] => []
  | EvSpawn f t :: h' | EvFork _ f _ t :: h' | EvCall _ f _ t :: h' => (f, t) :: tasks_in h'
  | _ :: h' => tasks_in h'
  end.

(** The frame of [f] exists. *)
Definition exists_in (h : list event) (f : N) : bool :=
  match status_in f h with None | Some Gone => false | _ => true end.

(** [f] has been submitted, or has asked to go on on another worker, and has not
    been resumed since. *)
Definition waits_in (h : list event) (f : N) : bool :=
  match status_in f h with Some Ready | Some (AtSwitch _) => true | _ => false end.

(** [f] has no children, or all of them have been destroyed. *)
Definition leaf_in (h : list event) (f : N) : bool :=
  forallb (fun x => negb (exists_in h x.1)) (kids_in f h).

Definition keep {A} (P : A -> bool) (l : list A) : list A := List.filter P l.

(** The tasks that exist, those among them that wait in a submission queue, and
    those that have no child. *)
Definition live_tasks (h : list event) : list (N * task) :=
  keep (fun x => exists_in h x.1) (tasks_in h).
Definition waiting_tasks (h : list event) : list (N * task) :=
  keep (fun x => waits_in h x.1) (tasks_in h).
Definition leaf_tasks (h : list event) : list (N * task) :=
  keep (fun x => leaf_in h x.1) (live_tasks h).

(** The memory occupied by the frames of all tasks. *)
Definition sum_of (l : list N) : N := foldr N.add 0 l.
Definition space (sz : task -> N) (h : list event) : N :=
  sum_of (map (fun x => sz x.2) (live_tasks h)).

Definition count {A} (l : list A) : N := N.of_nat (length l).

(** ** Counting tasks *)

Definition one (t : task) : N := 1.

(** If the user's function [u] is async then a serial run of it has at most [U] tasks at a time. *)
Definition needs {A} (U : N) (u : ufun A) : Prop :=
  match u with USync _ => True | UAsync f => forall x, serial_space one U (f x) end.
