(** * Model of the parallel algorithms for_each, map, fold and scan.

    Code: /repo/include/libfork/algorithm/{for_each,map,fold,scan}.hpp.

    The algorithms are written in a small language of fork-join programs over a
    shared memory.  Its semantics interleaves the single memory accesses of parallel
    tasks in every possible way; what fork, call, join and just do to control flow is
    taken from the runtime model (theorems C01-C12, C39).

    Simplifications.
    - Iterators are addresses in Z, a range is an interval of addresses; the range
      overloads (for_each.hpp:122-155 and so on) are their iterator versions.
    - A user function is a function on values.  Each call of it may also throw (if
      the flag [thr] allows): any exception, at any call.
    - What a child returns is handed over at the join (the code stores it through a
      pointer into the parent's frame, which only the parent reads, after the join).
    - Recursion carries fuel; [OutOfFuel] is a distinct outcome that the theorems
      exclude for every sufficient amount of fuel.
    - Failed assertions and reads of uninitialised iterators are [Undef]. *)

From stdpp Require Import prelude.
From Coq Require Import ZArith.
Local Open Scope Z_scope.

Section Algo.
Context {A : Type}.

Notation exn := nat (only parsing).
Notation mem := (Z -> A) (only parsing).
Definition upd (l : Z) (v : A) (m : mem) : mem := fun l' => if decide (l' = l) then v else m l'.

(** What a task returns: nothing, an iterator, or a value. *)
Inductive res := RUnit | RPos (l : Z) | RAcc (a : A).

(** ** Fork-join programs *)

Inductive prog :=
| Ret (r : res)
| Throw (e : exn)
| Undef
| OutOfFuel
| Read (l : Z) (k : A -> prog)
| Write (l : Z) (v : A) (k : prog)
| User (thr : bool) (k : prog)
    (* a call of user code that returns; with [thr] it may throw instead *)
| UserA (thr : bool) (k : prog)
    (* the same for an asynchronous bop awaited with eager_throw_outside: as
       promise.hpp:217 tests the wrong condition (C13) the exception is not rethrown
       but stays in the frame, where final_suspend (promise.hpp:306) finds it;
       simplified to undefined behaviour at once *)
| Bind (p : prog) (s : res -> prog)
    (* co_await just(p), then s *)
| Par (p1 p2 : prog) (k : res -> res -> prog)
    (* co_await fork(p1); try { co_await call(p2) } catch { stash }; co_await join; k *)
| Fork (p1 : prog) (s : res -> prog) (p2 : prog) (k : res -> res -> prog)
    (* ready = co_await fork_sync(p1); if ready, [s] with the result of p1, otherwise
       as Par p1 p2 k *)
| Sync (p1 : prog) (s : res -> prog).
    (* a Fork whose child will complete synchronously *)

(** ** Semantics: interleaving of single accesses *)

(** A step may record an exception thrown by user code. *)
Inductive step : prog -> mem -> option exn -> prog -> mem -> Prop :=
| step_read l k m : step (Read l k) m None (k (m l)) m
| step_write l v k m : step (Write l v k) m None k (upd l v m)
| step_user t k m : step (User t k) m None k m
| step_user_throw k e m : step (User true k) m (Some e) (Throw e) m
| step_usera t k m : step (UserA t k) m None k m
| step_usera_throw k e m : step (UserA true k) m (Some e) Undef m
| step_bind p s m o p' m' : step p m o p' m' -> step (Bind p s) m o (Bind p' s) m'
| step_bind_ret r s m : step (Bind (Ret r) s) m None (s r) m
| step_bind_throw e s m : step (Bind (Throw e) s) m None (Throw e) m
| step_par_l p1 p2 k m o p1' m' : step p1 m o p1' m' -> step (Par p1 p2 k) m o (Par p1' p2 k) m'
| step_par_r p1 p2 k m o p2' m' : step p2 m o p2' m' -> step (Par p1 p2 k) m o (Par p1 p2' k) m'
| step_join r1 r2 k m : step (Par (Ret r1) (Ret r2) k) m None (k r1 r2) m
| step_join_l e r2 k m : step (Par (Throw e) (Ret r2) k) m None (Throw e) m
| step_join_r r1 e k m : step (Par (Ret r1) (Throw e) k) m None (Throw e) m
| step_join_lr1 e1 e2 k m : step (Par (Throw e1) (Throw e2) k) m None (Throw e1) m
| step_join_lr2 e1 e2 k m : step (Par (Throw e1) (Throw e2) k) m None (Throw e2) m
| step_fork_sync p1 s p2 k m : step (Fork p1 s p2 k) m None (Sync p1 s) m
| step_fork_async p1 s p2 k m : step (Fork p1 s p2 k) m None (Par p1 p2 k) m
| step_sync p s m o p' m' : step p m o p' m' -> step (Sync p s) m o (Sync p' s) m'
| step_sync_ret r s m : step (Sync (Ret r) s) m None (s r) m
    (* sync_fork_awaitable::await_resume, awaitables.hpp:297-328 *)
| step_sync_throw e s m : step (Sync (Throw e) s) m None Undef m.
    (* the awaitable does not rethrow (awaitables.hpp:309-324 with ChildThrows =
       false): the parent reads the uninitialised iterator left_out (scan.hpp:265,
       274), as happens with pointers *)

Inductive steps : prog -> mem -> list exn -> prog -> mem -> Prop :=
| steps_refl p m : steps p m [] p m
| steps_cons p m o p' m' tr p'' m'' :
    step p m o p' m' -> steps p' m' tr p'' m'' -> steps p m (match o with Some e => e :: tr | None => tr end) p'' m''.

(** The memory accesses a program is about to make; [true]: a write. *)
Fixpoint next (p : prog) : list (Z * bool) :=
  match p with
  | Read l _ => [(l, false)]
  | Write l _ _ => [(l, true)]
  | Bind p _ | Sync p _ => next p
  | Par p1 p2 _ => next p1 ++ next p2
  | _ => []
  end.

(** Two parallel tasks are about to access the same location, one of them writing. *)
Fixpoint race (p : prog) : Prop :=
  match p with
  | Bind p _ | Sync p _ => race p
  | Par p1 p2 _ =>
    race p1 \/ race p2 \/
    exists l w1 w2, (l, w1) ∈ next p1 /\ (l, w2) ∈ next p2 /\ (w1 = true \/ w2 = true)
  | _ => False
  end.

(** Undefined behaviour or exhausted fuel somewhere. *)
Fixpoint bad (p : prog) : Prop :=
  match p with
  | Undef | OutOfFuel => True
  | Bind p _ | Sync p _ => bad p
  | Par p1 p2 _ => bad p1 \/ bad p2
  | _ => False
  end.

(** ** for_each *)

Section ForEach.
(** What fun(proj(x)) does to the element x it is called on. *)
Context (thr : bool) (fn : A -> A).

(** co_await just(fun)(co_await just(proj)( *head)) *)
Definition fe_visit (head : Z) (k : prog) : prog := Read head (fun x => User thr (Write head (fn x) k)).

(** for_each.hpp:59-61. *)
Fixpoint fe_loop (fuel : nat) (head tail : Z) : prog :=
  match fuel with
  | O => OutOfFuel
  | S fuel => if decide (head = tail) then Ret RUnit else fe_visit head (fe_loop fuel (head + 1) tail)
  end.

(** for_each.hpp:45-80. *)
Fixpoint for_each (fuel : nat) (head tail n : Z) : prog :=
  match fuel with
  | O => OutOfFuel
  | S fuel' =>
    if decide (0 < n) then
      let len := tail - head in
      if decide (0 <= len) then
        if decide (len = 0) then Ret RUnit
        else if decide (len <= n) then fe_loop fuel head tail
        else
          let mid := head + len ÷ 2 in
          Par (for_each fuel' head mid n) (for_each fuel' mid tail n) (fun _ _ => Ret RUnit)
      else Undef
    else Undef
  end.

(** for_each.hpp:90-119: the version without chunk size. *)
Fixpoint for_each1 (fuel : nat) (head tail : Z) : prog :=
  match fuel with
  | O => OutOfFuel
  | S fuel' =>
    let len := tail - head in
    if decide (0 <= len) then
      if decide (len = 0) then Ret RUnit
      else if decide (len = 1) then fe_visit head (Ret RUnit)
      else
        let mid := head + len ÷ 2 in
        Par (for_each1 fuel' head mid) (for_each1 fuel' mid tail) (fun _ _ => Ret RUnit)
    else Undef
  end.

(** for_each.hpp:131-141: the range version. *)
Definition for_each_range (fuel : nat) (head tail n : Z) : prog :=
  if decide (0 < n) then
    if decide (n = 1) then Bind (for_each1 fuel head tail) Ret else Bind (for_each fuel head tail n) Ret
  else Undef.
End ForEach.

(** ** map *)

Section Map.
(** fun(proj(x)) *)
Context (thr : bool) (fn : A -> A).

Definition map_elem (head out : Z) (k : prog) : prog := Read head (fun x => User thr (Write out (fn x) k)).

(** map.hpp:60-62. *)
Fixpoint map_loop (fuel : nat) (head tail out : Z) : prog :=
  match fuel with
  | O => OutOfFuel
  | S fuel => if decide (head = tail) then Ret RUnit else map_elem head out (map_loop fuel (head + 1) tail (out + 1))
  end.

(** map.hpp:46-82. *)
Fixpoint map (fuel : nat) (head tail out n : Z) : prog :=
  match fuel with
  | O => OutOfFuel
  | S fuel' =>
    if decide (0 < n) then
      let len := tail - head in
      if decide (0 <= len) then
        if decide (len = 0) then Ret RUnit
        else if decide (len <= n) then map_loop fuel head tail out
        else
          let dif := len ÷ 2 in
          let mid := head + dif in
          Par (map fuel' head mid out n) (map fuel' mid tail (out + dif) n) (fun _ _ => Ret RUnit)
      else Undef
    else Undef
  end.

(** map.hpp:94-124. *)
Fixpoint map1 (fuel : nat) (head tail out : Z) : prog :=
  match fuel with
  | O => OutOfFuel
  | S fuel' =>
    let len := tail - head in
    if decide (0 <= len) then
      if decide (len = 0) then Ret RUnit
      else if decide (len = 1) then map_elem head out (Ret RUnit)
      else
        let dif := len ÷ 2 in
        let mid := head + dif in
        Par (map1 fuel' head mid out) (map1 fuel' mid tail (out + dif)) (fun _ _ => Ret RUnit)
    else Undef
  end.

(** map.hpp:137-151. *)
Definition map_range (fuel : nat) (head tail out n : Z) : prog :=
  if decide (0 < n) then
    if decide (n = 1) then Bind (map1 fuel head tail out) Ret else Bind (map fuel head tail out n) Ret
  else Undef.
End Map.

(** ** fold *)

Section Fold.
(** [async_bop], fold.hpp:48: whether the operation is asynchronous. *)
Context (thr async_bop : bool) (bop : A -> A -> A) (proj : A -> A).

(** co_await just(proj)( *head) *)
Definition project (head : Z) (k : A -> prog) : prog := Read head (fun x => User thr (k (proj x))).

(** fold.hpp:69-73 (also scan.hpp:207-211 and so on): acc = bop(acc, x). *)
Definition apply_bop (acc x : A) (k : A -> prog) : prog :=
  if async_bop then UserA thr (k (bop acc x)) else User thr (k (bop acc x)).

(** fold.hpp:68-76. *)
Fixpoint fold_loop (fuel : nat) (head tail : Z) (lhs : A) : prog :=
  match fuel with
  | O => OutOfFuel
  | S fuel =>
    if decide (head = tail) then Ret (RAcc lhs)
    else project head (fun x => apply_bop lhs x (fun lhs => fold_loop fuel (head + 1) tail lhs))
  end.

(** co_await just(bop)( *lhs, *rhs), fold.hpp:101-104, 148-151. *)
Definition fold_combine (r1 r2 : res) : prog :=
  match r1, r2 with
  | RAcc a, RAcc b => User thr (Ret (RAcc (bop a b)))
  | _, _ => Undef
  end.

(** fold.hpp:54-105. *)
Fixpoint fold (fuel : nat) (head tail n : Z) : prog :=
  match fuel with
  | O => OutOfFuel
  | S fuel' =>
    if decide (1 < n) then
      let len := tail - head in
      if decide (0 < len) then
        if decide (len <= n) then project head (fun x => fold_loop fuel (head + 1) tail x)
        else
          let mid := head + len ÷ 2 in
          if decide (0 < mid - head /\ 0 < tail - mid) then
            Par (fold fuel' head mid n) (fold fuel' mid tail n) fold_combine
          else Undef
      else Undef
    else Undef
  end.

(** fold.hpp:114-153. *)
Fixpoint fold1 (fuel : nat) (head tail : Z) : prog :=
  match fuel with
  | O => OutOfFuel
  | S fuel' =>
    let len := tail - head in
    if decide (0 < len) then
      if decide (len = 1) then project head (fun x => Ret (RAcc x))
      else
        let mid := head + len ÷ 2 in
        if decide (0 < mid - head /\ 0 < tail - mid) then
          Par (fold1 fuel' head mid) (fold1 fuel' mid tail) fold_combine
        else Undef
    else Undef
  end.

(** fold.hpp:191-207: [RUnit] is nullopt. *)
Definition fold_overload (fuel : nat) (head tail n : Z) : prog :=
  if decide (head = tail) then Ret RUnit
  else if decide (n = 1) then Bind (fold1 fuel head tail) Ret
  else Bind (fold fuel head tail n) Ret.

(** ** scan *)

(** scan.hpp:44-47. *)
Inductive op := OpScan | OpFold.

(** scan.hpp:66-71. *)
Inductive interval := IAll | ILhs | IMid | IRhs.

(** scan.hpp:76-87. *)
Definition l_child_of (i : interval) : interval :=
  match i with IAll | ILhs => ILhs | IMid | IRhs => IMid end.
(** scan.hpp:92-103. *)
Definition r_child_of (i : interval) : interval :=
  match i with IAll | IRhs => IRhs | ILhs | IMid => IMid end.

(** scan.hpp:206-214: the fold of a mid chunk, stored at [last]. *)
Fixpoint rise_fold_loop (fuel : nat) (beg end_ : Z) (acc : A) (last : Z) : prog :=
  match fuel with
  | O => OutOfFuel
  | S fuel =>
    if decide (beg = end_) then Write last acc (Ret RUnit)
    else project beg (fun x => apply_bop acc x (fun acc => rise_fold_loop fuel (beg + 1) end_ acc last))
  end.

(** scan.hpp:226-235, 245-254 and 364-372: the scan of a chunk, up to [last]. *)
Fixpoint scan_loop (fuel : nat) (beg last : Z) (acc : A) (out : Z) (r : res) : prog :=
  match fuel with
  | O => OutOfFuel
  | S fuel =>
    if decide (beg = last) then Ret r
    else project beg (fun x => apply_bop acc x (fun acc => Write out acc (scan_loop fuel (beg + 1) last acc (out + 1) r)))
  end.

(** scan.hpp:292-303: propagate the reduction to the right sibling. *)
Definition rise_combine (iv : interval) (out mid size : Z) (k : prog) : prog :=
  match iv with
  | ILhs | IMid =>
    Read (out + mid - 1) (fun a => Read (out + size - 1) (fun b =>
      apply_bop a b (fun c => Write (out + size - 1) c k)))
  | IAll | IRhs => k
  end.

(** rise_sweep, scan.hpp:187-309. *)
Fixpoint rise (fuel : nat) (iv : interval) (o : op) (beg end_ n out : Z) : prog :=
  match fuel with
  | O => OutOfFuel
  | S fuel' =>
    let size := end_ - beg in
    if decide (1 <= size) then
      if decide (size <= n) then
        match o, iv with
        | OpFold, IMid => project beg (fun x => rise_fold_loop fuel (beg + 1) end_ x (out + size - 1))
        | OpFold, _ => Ret RUnit
        | OpScan, (IMid | IRhs) => Read (out - 1) (fun acc => scan_loop fuel beg end_ acc out (RPos end_))
        | OpScan, (IAll | ILhs) =>
          project beg (fun acc => Write out acc (scan_loop fuel (beg + 1) end_ acc (out + 1) (RPos end_)))
        end
      else
        let mid := size ÷ 2 in
        let left := rise fuel' (l_child_of iv) o beg (beg + mid) n out in
        let right o' := rise fuel' (r_child_of iv) o' (beg + mid) end_ n (out + mid) in
        match o with
        | OpScan =>
          Fork left
            (fun left_out =>
               match left_out with
               | RPos e => if decide (e = beg + mid) then Bind (right OpScan) Ret
                           else Bind (right OpFold) (fun _ => rise_combine iv out mid size (Ret left_out))
               | _ => Undef
               end)
            (right OpFold)
            (fun left_out _ => rise_combine iv out mid size (Ret left_out))
        | OpFold => Par left (right OpFold) (fun _ _ => rise_combine iv out mid size (Ret RUnit))
        end
    else Undef
  end.

(** fall_sweep_impl, scan.hpp:347-394; [iv] is IMid or IRhs. *)
Fixpoint fall_impl (fuel : nat) (iv : interval) (beg end_ n out : Z) : prog :=
  match fuel with
  | O => OutOfFuel
  | S fuel' =>
    let size := end_ - beg in
    if decide (0 < size) then
      if decide (size <= n) then
        Read (out - 1) (fun acc =>
          scan_loop fuel beg (match iv with IRhs => end_ | _ => beg + size - 1 end) acc out RUnit)
      else
        let mid := size ÷ 2 in
        Read (out - 1) (fun a => Read (out + mid - 1) (fun b => apply_bop a b (fun c =>
          Write (out + mid - 1) c
            (Par (fall_impl fuel' (l_child_of iv) beg (beg + mid) n out)
                 (fall_impl fuel' (r_child_of iv) (beg + mid) end_ n (out + mid))
                 (fun _ _ => Ret RUnit)))))
    else Undef
  end.

(** fall_sweep, scan.hpp:434-475.  The loop (line 469) is a recursive call. *)
Fixpoint fall (fuel : nat) (iv : interval) (beg end_ n out scan_end : Z) : prog :=
  match fuel with
  | O => OutOfFuel
  | S fuel' =>
    if decide (scan_end < end_) then
      let size := end_ - beg in
      let mid := size ÷ 2 in
      let split := beg + mid in
      if decide (scan_end < split) then
        Par (fall fuel' (l_child_of iv) beg (beg + mid) n out scan_end)
            (fall_impl fuel' (r_child_of iv) (beg + mid) end_ n (out + mid))
            (fun _ _ => Ret RUnit)
      else if decide (scan_end = split) then
        Bind (fall_impl fuel' (r_child_of iv) (beg + mid) end_ n (out + mid)) Ret
      else Bind (fall fuel' (r_child_of iv) (beg + mid) end_ n (out + mid) scan_end) Ret
    else Undef
  end.

(** scan_impl, scan.hpp:491-510. *)
Definition scan (fuel : nat) (beg end_ out n : Z) : prog :=
  if decide (end_ = beg) then Ret RUnit
  else
    Bind (rise fuel IAll OpScan beg end_ n out) (fun r =>
      match r with
      | RPos scan_end =>
        if decide (scan_end <> end_) then Bind (fall fuel IAll beg end_ n out scan_end) (fun _ => Ret RUnit)
        else Ret RUnit
      | _ => Undef
      end).
End Fold.
End Algo.
Arguments prog : clear implicits.
Arguments res : clear implicits.
