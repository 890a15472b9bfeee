(** * Model of the distribution of workers over NUMA domains and of stealing from neighbours.

    Code: /repo/include/libfork/schedule/ext/numa.hpp (count_cores 265-281, get_numa_index 283-302,
    split 304-372, distance_matrix 378-440, distribute 446-485; without hwloc: 499-533) and
    /repo/include/libfork/schedule/impl/numa_context.hpp (init_worker_and_bind 107-152, try_steal 179-227).

    Simplifications:
    - hwloc is a parameter: a tree of objects, and the answers of the functions that are called
      (hwloc_distrib, hwloc_bitmap_singlify, hwloc_get_obj_covering_cpuset, hwloc_get_common_ancestor_obj); any of them may fail.
    - a shared_ptr to a worker is a number; memory allocation does not fail.
    - weights of discrete_distribution are exact rationals, not doubles. *)

From Coq Require Import QArith.
From stdpp Require Import gmap list numbers sorting.
Local Close Scope Q_scope.

(** ** hwloc *)

(** hwloc_obj as far as it is used: type, gp_index, memory_arity, depth, parent. *)
Inductive hobj := HObj (gp : N) (mem : N) (depth : Z) (parent : option hobj).
Definition gp_index (o : hobj) : N := match o with HObj g _ _ _ => g end.
Definition depth (o : hobj) : Z := match o with HObj _ _ d _ => d end.

(** Downwards, for count_cores: is it a core, and its children. *)
Inductive htree := HTree (is_core : bool) (children : list htree).

Record hwloc := Hwloc {
  h_root : htree;                                            (* hwloc_get_root_obj *)
  h_packages : list htree;                                   (* hwloc_get_next_obj_by_type(PACKAGE), in order *)
  h_distrib : list htree -> nat -> option (list (option nat));  (* hwloc_distrib: bitmaps; [None] inside is a nullptr *)
  h_singlify : nat -> option nat;                            (* [None]: the call fails *)
  h_covering : nat -> option hobj;                           (* object covering a bitmap *)
  h_ancestor : hobj -> hobj -> option hobj                   (* common ancestor *)
}.

Inductive res (A : Type) := ROk (a : A) | RThrow | RUB.
Arguments ROk {A} _.
Arguments RThrow {A}.
Arguments RUB {A}.
Definition rbind {A B} (r : res A) (k : A -> res B) : res B :=
  match r with ROk a => k a | RThrow => RThrow | RUB => RUB end.

(** numa.hpp:265-281; unsigned int arithmetic. *)
Fixpoint count_cores (t : htree) : N :=
  match t with
  | HTree true _ => 1
  | HTree false cs => fold_left (fun n c => ((n + count_cores c) mod 2 ^ 32)%N) cs 0%N
  end.

(** numa.hpp:283-302: climb until memory is attached. *)
Fixpoint climb (o : hobj) : option N :=
  match o with
  | HObj g m _ p =>
      if (m =? 0)%N then match p with Some q => climb q | None => None end else Some g
  end.
Definition get_numa_index (h : hwloc) (bitmap : nat) : res N :=
  match h_covering h bitmap with
  | None => RThrow
  | Some o => match climb o with Some g => ROk g | None => RThrow end
  end.

Inductive strategy := Fan | Seq.

(** numa.hpp:312-330: add packages until they have [n] cores. *)
Fixpoint add_packages (n : N) (count : N) (ps : list htree) : list htree :=
  match ps with
  | [] => []
  | p :: ps => if (count <? n)%N then p :: add_packages n ((count + count_cores p) mod 2 ^ 32)%N ps else []
  end.
Definition roots (h : hwloc) (n : nat) (s : strategy) : list htree :=
  match s with Seq => add_packages (N.of_nat n) 0 (h_packages h) | Fan => [h_root h] end.

(** A numa_handle: its bitmap (the topology is the same for all) and its domain number. *)
Record handle := Handle { cpup : nat; numa : nat }.

(** numa.hpp:350-371: the function mapped over the bitmaps, threading the map from gp_index to
    domain numbers. In [numa_map[numa_index] = numa_map.size()] the right side is evaluated first. *)
Fixpoint to_handles (h : hwloc) (m : gmap N nat) (sets : list (option nat)) : res (list handle) :=
  match sets with
  | [] => ROk []
  | None :: _ => RThrow
  | Some b :: sets =>
      match h_singlify h b with
      | None => RThrow
      | Some b =>
          rbind (get_numa_index h b) (fun g =>
            let m' := match m !! g with Some _ => m | None => <[g := size m]> m end in
            rbind (to_handles h m' sets) (fun l => ROk (Handle b (default 0 (m' !! g)) :: l)))
      end
  end.

(** numa.hpp:304-372 *)
Definition split (h : hwloc) (n : nat) (s : strategy) : res (list handle) :=
  if decide (n < 1) then RThrow
  else
    match h_distrib h (roots h n s) n with
    | None => RThrow
    | Some sets => to_handles h ∅ sets
    end.

(** numa.hpp:389-398 *)
Fixpoint objects (h : hwloc) (hs : list handle) : res (list hobj) :=
  match hs with
  | [] => ROk []
  | x :: hs =>
      match h_covering h (cpup x) with
      | None => RThrow
      | Some o => rbind (objects h hs) (fun l => ROk (o :: l))
      end
  end.
(** numa.hpp:412-424: one entry of the matrix. *)
Definition entry (h : hwloc) (a b : hobj) : res Z :=
  match h_ancestor h a b with
  | None => RThrow
  | Some c =>
      let d1 := (depth a - depth c)%Z in let d2 := (depth b - depth c)%Z in
      if (d1 <? 0)%Z || (d2 <? 0)%Z then RUB else ROk (Z.max d1 d2)
  end.
Fixpoint row (h : hwloc) (a : hobj) (os : list hobj) : res (list Z) :=
  match os with
  | [] => ROk []
  | b :: os => rbind (entry h a b) (fun d => rbind (row h a os) (fun l => ROk (d :: l)))
  end.
Fixpoint rows (h : hwloc) (os all : list hobj) : res (list (list Z)) :=
  match os with
  | [] => ROk []
  | a :: os => rbind (row h a all) (fun r => rbind (rows h os all) (fun l => ROk (r :: l)))
  end.
(** numa.hpp:378-440; the matrix is kept as a list of rows. *)
Definition distance_matrix (h : hwloc) (hs : list handle) : res (list (list Z)) :=
  rbind (objects h hs) (fun os => rows h os os).

(** std::set<int>::insert; the set is its sorted list. *)
Fixpoint set_insert (d : Z) (l : list Z) : list Z :=
  match l with
  | [] => [d]
  | e :: r => if (d <? e)%Z then d :: l else if (d =? e)%Z then l else e :: set_insert d r
  end.
(** std::distance(begin, find(d)); the length if it is not there. *)
Fixpoint set_index (d : Z) (l : list Z) : nat :=
  match l with
  | [] => 0
  | e :: r => if (d =? e)%Z then 0 else S (set_index d r)
  end.

(** [v[k].push_back(x)] *)
Definition push_at {A} (k : nat) (x : A) (v : list (list A)) : res (list (list A)) :=
  match v !! k with Some l => ROk (<[k := l ++ [x]]> v) | None => RUB end.

(** numa.hpp:463-467, over the entries (j, dist(i,j)) *)
Fixpoint uniques (i j : nat) (ds : list Z) (acc : list Z) : list Z :=
  match ds with
  | [] => acc
  | d :: ds => uniques i (S j) ds (if decide (i = j) then acc else set_insert d acc)
  end.
(** numa.hpp:471-479 *)
Fixpoint fill (i j : nat) (us : list Z) (ds : list Z) (data : list nat) (v : list (list nat)) : res (list (list nat)) :=
  match ds, data with
  | d :: ds, x :: data =>
      rbind (if decide (i = j) then push_at 0 x v else push_at (1 + set_index d us) x v)
            (fill i (S j) us ds data)
  | [], _ => ROk v
  | _, [] => RUB                                             (* data[j] out of range *)
  end.
(** numa.hpp:459-480, for one node *)
Definition neighbors_of (i : nat) (ds : list Z) (data : list nat) : res (list (list nat)) :=
  let us := uniques i 0 ds [] in
  fill i 0 us ds data (replicate (1 + length us) []).

Record node := Node { n_handle : handle; neighbors : list (list nat) }.

Fixpoint make_nodes (i : nat) (hs : list handle) (m : list (list Z)) (data : list nat) : res (list node) :=
  match hs, m with
  | x :: hs, ds :: m =>
      rbind (neighbors_of i ds data) (fun v =>
      rbind (make_nodes (S i) hs m data) (fun l => ROk (Node x v :: l)))
  | [], _ => ROk []
  | _, [] => RUB
  end.
(** numa.hpp:446-485 *)
Definition distribute (h : hwloc) (data : list nat) (s : strategy) : res (list node) :=
  rbind (split h (length data) s) (fun hs =>
  rbind (distance_matrix h hs) (fun m => make_nodes 0 hs m data)).

(** numa.hpp:499-533, built without hwloc: empty handles. *)
Definition distribute_plain (data : list nat) : res (list node) :=
  let n := length data in
  ROk (map (fun x => Node (Handle 0 0)
              ([x] :: (if decide (1 < n) then [filter (fun y => y <> x) data]
                       else []))) data).

(** ** numa_context *)

(** numa_context.hpp:45-77; the constants at 48 and 52. *)
Record ctx := Ctx { close : list nat; neigh : list nat; weights : list Q }.

(** numa_context.hpp:128-139 *)
Fixpoint gather (i : nat) (ls : list (list nat)) : list (nat * Q) :=
  match ls with
  | [] => []
  | l :: ls =>
      let w := (1 / (inject_Z (Z.of_nat (length l)) * inject_Z (Z.of_nat i) * inject_Z (Z.of_nat i)))%Q in
      map (fun c => (c, w)) l ++ gather (S i) ls
  end.
(** numa_context.hpp:107-152: [self] is this; worker_init is TlsModel. *)
Definition init_worker (self : nat) (v : list (list nat)) : res ctx :=
  match v with
  | (x :: _) :: rest =>
      if decide (x = self) then
        let g := gather 1 rest in
        ROk (Ctx (match rest with l :: _ => l | [] => [] end) (map fst g) (map snd g))
      else RUB
  | _ => RUB
  end.

(** What a steal from one deque says (DequeModel). *)
Inductive steal := SNone (task : nat) | SLost | SEmpty.

(** numa_context.hpp:187-205: one attempt after the other; returns the targets tried and the task. *)
Fixpoint attempts (answers : nat -> steal) (k : nat) (targets : list nat) : list nat * option nat :=
  match targets with
  | [] => ([], None)
  | c :: targets =>
      match answers k with
      | SNone t => ([c], Some t)
      | SLost | SEmpty => let '(l, r) := attempts answers (S k) targets in (c :: l, r)
      end
  end.

Definition k_min_steal_attempts : N := 1024.
Definition k_steal_attempts_per_target : N := 32.

(** numa_context.hpp:217-222, the probabilistic part; [picks k] is the result of the k-th call of m_dist. *)
Fixpoint random_attempts (answers : nat -> steal) (picks : nat -> nat) (ns : list nat) (base k : nat) (rest : nat)
  : list nat * res (option nat) :=
  match rest with
  | O => ([], ROk None)
  | S rest =>
      match ns !! picks k with
      | None => ([], RUB)
      | Some c =>
          match answers (base + k) with
          | SNone t => ([c], ROk (Some t))
          | SLost | SEmpty =>
              let '(l, r) := random_attempts answers picks ns base (S k) rest in (c :: l, r)
          end
      end
  end.

(** numa_context.hpp:179-227. [shuffled]: m_close after std::ranges::shuffle. Returns the new object, the contexts
    whose deque was tried, in order, and the result. *)
Definition try_steal (x : ctx) (shuffled : list nat) (picks : nat -> nat) (answers : nat -> steal)
  : ctx * list nat * res (option nat) :=
  match neigh x with
  | [] => (x, [], ROk None)
  | _ =>
      let x' := Ctx shuffled (neigh x) (weights x) in
      let '(l1, r1) := attempts answers 0 shuffled in
      match r1 with
      | Some t => (x', l1, ROk (Some t))
      | None =>
          let n := N.to_nat (k_min_steal_attempts + k_steal_attempts_per_target * N.of_nat (length (neigh x))) in
          let '(l2, r2) := random_attempts answers picks (neigh x) (length shuffled) 0 n in
          (x', l1 ++ l2, r2)
      end
  end.
