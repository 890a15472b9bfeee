(** * What a distribution of workers over a machine must look like, and what a steal may do. *)

From Coq Require Import QArith.
From stdpp Require Import gmap list numbers sorting.
From Verif Require Import NumaModel.
Local Close Scope Q_scope.

(** The workers at the positions for which [P] holds, in order. *)
Fixpoint at_positions (P : nat -> bool) (j : nat) (data : list nat) : list nat :=
  match data with
  | [] => []
  | x :: data => (if P j then [x] else []) ++ at_positions P (S j) data
  end.

(** All the workers but the one at position [i]. *)
Definition others (i : nat) (data : list nat) : list nat := take i data ++ drop (S i) data.

(** The hierarchical view of worker [i], for a given distance: first itself; then, by increasing distance, the workers
    at that distance; only distances that occur. *)
Definition good_view (dist : nat -> nat -> Z) (data : list nat) (i : nat) (v : list (list nat)) : Prop :=
  exists x ds, data !! i = Some x /\
    v = [x] :: map (fun d => at_positions (fun j => negb (j =? i) && (dist i j =? d)%Z) 0 data) ds /\
    StronglySorted Z.lt ds /\
    (forall d, d ∈ ds <-> exists j, j < length data /\ j <> i /\ dist i j = d).

(** Domain numbers: dense from 0, and equal exactly for the same domain. *)
Definition good_numbering {A} (domain : list A) (num : list nat) : Prop :=
  length num = length domain /\
  (exists m, forall v, v ∈ num <-> v < m) /\
  (forall i j a b v w, domain !! i = Some a -> domain !! j = Some b -> num !! i = Some v -> num !! j = Some w -> v = w <-> a = b).

(** hwloc's promises: as many bitmaps as asked for; a common ancestor is not deeper than either object. *)
Definition hwloc_ok (h : hwloc) : Prop :=
  (forall rs n l, h_distrib h rs n = Some l -> length l = n) /\
  (forall a b c, h_ancestor h a b = Some c -> (depth c <= depth a /\ depth c <= depth b)%Z).

(** The distance of two processing units: how far up the tree one has to go from the deeper one. *)
Definition pu_distance (h : hwloc) (a b : hobj) (d : Z) : Prop :=
  exists c, h_ancestor h a b = Some c /\ d = (Z.max (depth a) (depth b) - depth c)%Z.

(** The closest object upwards that has memory. *)
Inductive memory_domain : hobj -> N -> Prop :=
| md_here g m d p : m <> 0%N -> memory_domain (HObj g m d p) g
| md_up g d p x : memory_domain p x -> memory_domain (HObj g 0 d (Some p)) x.

(** Sum of weights *)
Definition total (l : list Q) : Q := fold_right Qplus 0%Q l.

(** The number of cores of a part of the machine. *)
Fixpoint cores (t : htree) : N :=
  match t with
  | HTree true _ => 1
  | HTree false cs => (fix go (l : list htree) : N := match l with [] => 0 | c :: l => cores c + go l end) cs
  end%N.
Definition total_cores (l : list htree) : N := fold_right (fun t n => cores t + n)%N 0%N l.
