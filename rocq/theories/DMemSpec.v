(** * What may happen to a deque and to the heap around it. *)

From stdpp Require Import prelude gmap list.
From Coq Require Import NArith.
From Verif Require Import DMemModel.

Section Spec.
(** The size of an element of a buffer. *)
Context (esz : N).

(** [alive d h e]: a deque has been constructed and used; [e] are the live blocks that are not of the deque:
    the rest of the program takes and gives back blocks meanwhile. *)
Inductive alive : dq -> heap -> heap -> Prop :=
| alive_ctor cap o1 o2 o3 e d h : ctor esz cap o1 o2 o3 e = Ret d h -> alive d h e
| alive_push d h e v o1 o2 o3 d' h' : alive d h e -> push esz v o1 o2 o3 d h = Ret d' h' -> alive d' h' e
| alive_push_throws d h e v o1 o2 o3 h' : alive d h e -> push esz v o1 o2 o3 d h = Throw h' -> alive d h' e
| alive_pop d h e : alive d h e -> alive (pop d) h e
| alive_steal d h e : alive d h e -> alive (steal d) h e
| alive_new d h e a : alive d h e -> a ∉ h -> alive d ({[a]} ∪ h) ({[a]} ∪ e)
| alive_delete d h e a : alive d h e -> a ∈ e -> alive d (h ∖ {[a]}) (e ∖ {[a]}).

(** The answers with which memory is refused: to be seen by a user as std::bad_alloc. *)
Definition refused (bytes : N) (o : option N) (h : heap) : Prop :=
  o = None \/ (exists a, o = Some a /\ a ∈ h) \/ (ptrdiff_max < bytes)%N.
End Spec.
