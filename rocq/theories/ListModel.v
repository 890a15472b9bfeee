(** * Model of the submission list.

    Code: /repo/include/libfork/core/ext/list.hpp (intrusive_list 35-119).

    Any number of producers and one consumer interleave at single accesses to
    shared memory.  Nodes are numbered by their address; an address can be reused
    for a new node as soon as the old node has been destroyed.  An access to a node
    that is not alive is undefined behaviour.  The consumer does what
    worker contexts do with the result of try_pop_all: for_each_elem with a
    function that destroys the node (resuming a task ends the life of its node).

    Simplification: sequentially consistent memory. *)

From stdpp Require Import prelude gmap list.

(** Events: call of push by producer [i]; the moment the push takes effect; return;
    the consumer's exchange; the function called on an element; the consumer is
    done with the list it popped. *)
Inductive lev (V : Type) :=
| EPushCall (i : nat) (v : V)
| EPushed (i : nat) (v : V)
| EPushRet (i : nat)
| EPopAll
| EElem (v : V)
| EDone.
Arguments EPushCall {V}. Arguments EPushed {V}. Arguments EPushRet {V}.
Arguments EPopAll {V}. Arguments EElem {V}. Arguments EDone {V}.

Section model.
Context {V : Type}.

(** list.hpp:72-73: m_data, m_next. *)
Record node := Node { n_data : V; n_next : option nat }.

(** Program counter of a producer. *)
Inductive ppc :=
| PIdle
| PLoad (n : nat)                       (* line 85 comes next *)
| PSet (n : nat) (stale : option nat)   (* line 88 *)
| PCas (n : nat) (stale : option nat)   (* line 90 *)
| PRet.

(** Program counter of the consumer. *)
Inductive cpc :=
| CIdle
| CRev (last first : option nat)        (* lines 107-112 *)
| CEach (root : option nat).            (* lines 59-66 *)

Record lst := Lst {
  l_head : option nat; l_mem : gmap nat node; l_prod : nat -> ppc; l_cons : cpc
}.

Definition set_head (x : option nat) (s : lst) := Lst x (l_mem s) (l_prod s) (l_cons s).
Definition set_mem (m : gmap nat node) (s : lst) := Lst (l_head s) m (l_prod s) (l_cons s).
Definition set_cons (c : cpc) (s : lst) := Lst (l_head s) (l_mem s) (l_prod s) c.
Definition set_prod (i : nat) (p : ppc) (s : lst) :=
  Lst (l_head s) (l_mem s) (fun j => if decide (j = i) then p else l_prod s j) (l_cons s).

Inductive lstep := Next (s : lst) (tr : list (lev V)) | Undef | Blocked.

(** A step of producer [i].  If idle it constructs a node for [v] at the free address
    [n] and calls push (lines 45, 81-83).  [spur]: compare_exchange_weak fails
    spuriously. *)
Definition producer (i : nat) (n : nat) (v : V) (spur : bool) (s : lst) : lstep :=
  match l_prod s i with
  | PIdle =>
    match l_mem s !! n with
    | Some _ => Blocked                  (* the address is in use *)
    | None => Next (set_prod i (PLoad n) (set_mem (<[n := Node v None]> (l_mem s)) s)) [EPushCall i v]
    end
  | PLoad n =>
    match l_mem s !! n with
    | Some (Node _ None) => Next (set_prod i (PSet n (l_head s)) s) []
    | _ => Undef                         (* line 83: LF_ASSERT *)
    end
  | PSet n stale =>
    match l_mem s !! n with
    | Some nd => Next (set_prod i (PCas n stale) (set_mem (<[n := Node (n_data nd) stale]> (l_mem s)) s)) []
    | None => Undef
    end
  | PCas n stale =>
    if decide (l_head s = stale /\ spur = false) then
      match l_mem s !! n with
      | Some nd => Next (set_prod i PRet (set_head (Some n) s)) [EPushed i (n_data nd)]
      | None => Undef
      end
    else Next (set_prod i (PSet n (l_head s)) s) []
  | PRet => Next (set_prod i PIdle s) [EPushRet i]
  end.

(** A step of the consumer. *)
Definition consumer (s : lst) : lstep :=
  match l_cons s with
  | CIdle => Next (set_cons (CRev (l_head s) None) (set_head None s)) [EPopAll]     (* line 104 *)
  | CRev None first => Next (set_cons (CEach first) s) []                           (* line 114 *)
  | CRev (Some tmp) first =>
    match l_mem s !! tmp with
    | Some nd => Next (set_cons (CRev (n_next nd) (Some tmp)) (set_mem (<[tmp := Node (n_data nd) first]> (l_mem s)) s)) []
    | None => Undef
    end
  | CEach None => Next (set_cons CIdle s) [EDone]
  | CEach (Some root) =>
    (* lines 63-65: m_next is read, then the function is called on m_data (and
       destroys the node) *)
    match l_mem s !! root with
    | Some nd => Next (set_cons (CEach (n_next nd)) (set_mem (delete root (l_mem s)) s)) [EElem (n_data nd)]
    | None => Undef
    end
  end.

Inductive llab := LProd (i n : nat) (v : V) (spur : bool) | LCons.
Definition lstep_of (l : llab) (s : lst) : lstep :=
  match l with LProd i n v spur => producer i n v spur s | LCons => consumer s end.

Definition linit : lst := Lst None ∅ (fun _ => PIdle) CIdle.

(** Executions; the trace is newest first. *)
Inductive lreach : lst -> list (lev V) -> Prop :=
| lreach_init : lreach linit []
| lreach_step s h l s' tr : lreach s h -> lstep_of l s = Next s' tr -> lreach s' (rev tr ++ h).

End model.
Arguments node : clear implicits.
Arguments lst : clear implicits.
Arguments lstep : clear implicits.
Arguments llab : clear implicits.
