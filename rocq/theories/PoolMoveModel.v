(** * Model of moving pool objects.

    Code: /repo/include/libfork/schedule/busy_pool.hpp:128-134 (the members), 140-152 (the defaulted move operations),
    194 (schedule), 201-209 (the destructor); lazy_pool.hpp:295-301, 307-319, 371, 381-394 are the same.

    The defaulted move operations move each member: the shared_ptr m_share of the source becomes null and its vectors m_worker and
    m_threads empty.  Simplification: pools have at least one worker; the workers are not modelled (LifeModel). *)

From stdpp Require Import prelude list.

(** A pool object: the block it shares with its workers (by number), and how many threads it owns. *)
Record pool := Pool { share : option nat; threads : nat }.

(** The objects of a program: those that live, by number; the next block. *)
Record st := St { objs : list (option pool); fresh : nat }.

(** busy_pool x(n); busy_pool y = std::move(x); y = std::move(x); the end of x's life; x.schedule(...). *)
Inductive op := Construct (n : nat) | MoveConstruct (src : nat) | MoveAssign (dst src : nat) | Destroy (x : nat) | Schedule (x : nat).

Inductive outcome := Ok (s : st) | Undef | Terminate | Illegal.

Definition live (s : st) (x : nat) : option pool := match nth_error (objs s) x with Some (Some p) => Some p | _ => None end.
Definition set (x : nat) (p : option pool) (s : st) : st := St (<[x := p]> (objs s)) (fresh s).
Definition add (p : pool) (s : st) : st := St (objs s ++ [Some p]) (fresh s).

(** What a moved-from pool is. *)
Definition moved : pool := Pool None 0.

Definition step (o : op) (s : st) : outcome :=
  match o with
  | Construct n =>
    match n with
    | 0 => Illegal
    | _ => Ok (St (objs s ++ [Some (Pool (Some (fresh s)) n)]) (S (fresh s)))
    end
  | MoveConstruct x =>
    match live s x with Some p => Ok (add p (set x (Some moved) s)) | None => Illegal end
  | MoveAssign y x =>
    match live s y, live s x with
    | Some q, Some p =>
      if decide (x = y) then Illegal
      else match threads q with
           | 0 => Ok (set y (Some p) (set x (Some moved) s))
           | _ => Terminate                    (* m_threads = std::move(...) destroys joinable threads *)
           end
    | _, _ => Illegal
    end
  | Destroy x =>
    match live s x with
    | Some p => match share p with
                | Some _ => Ok (set x None s)
                | None => Undef                (* m_share->stop *)
                end
    | None => Illegal
    end
  | Schedule x =>
    match live s x with
    | Some p => match threads p with
                | 0 => Undef                   (* m_worker[...] is out of range *)
                | _ => Ok s
                end
    | None => Illegal
    end
  end.

Fixpoint run (os : list op) (s : st) : outcome :=
  match os with
  | [] => Ok s
  | o :: os => match step o s with Ok s' => run os s' | r => r end
  end.

Definition start : st := St [] 0.
