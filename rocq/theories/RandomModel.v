(** * Model of the random number generator.

    Code: /repo/include/libfork/schedule/ext/random.hpp (class xoshiro).

    A [std::uint64_t] is an [N] below 2^64; arithmetic is modulo 2^64.  The seeding
    constructor from another generator (lines 96-107) is not modelled: it fills the
    state with arbitrary words. *)

From Coq Require Import NArith List.
Import ListNotations.
Local Open Scope N_scope.

(** std::array<result_type, 4>, line 172. *)
Record state := St { s0 : N; s1 : N; s2 : N; s3 : N }.

Definition w64 (x : N) : N := x mod 2 ^ 64.

(** rotl, lines 182-184. *)
Definition rotl (v bits : N) : N := N.lor (w64 (N.shiftl v bits)) (N.shiftr v (64 - bits)).

(** operator(), lines 130-145: the new state and the result. *)
Definition next (m : state) : state * N :=
  let result := w64 (rotl (w64 (s1 m * 5)) 7 * 9) in
  let temp := w64 (N.shiftl (s1 m) 17) in
  let m2 := N.lxor (s2 m) (s0 m) in
  let m3 := N.lxor (s3 m) (s1 m) in
  let m1 := N.lxor (s1 m) m2 in
  let m0 := N.lxor (s0 m) m3 in
  let m2 := N.lxor m2 temp in
  let m3 := rotl m3 45 in
  (St m0 m1 m2 m3, result).

(** jump_impl, lines 186-202: one turn of the inner loop on the accumulator and the state. *)
Definition xor_state (a b : state) : state :=
  St (N.lxor (s0 a) (s0 b)) (N.lxor (s1 a) (s1 b)) (N.lxor (s2 a) (s2 b)) (N.lxor (s3 a) (s3 b)).
Definition jump_bit (j : N) (am : state * state) (bit : nat) : state * state :=
  let '(acc, m) := am in
  (if N.eqb (N.land j (N.shiftl 1 (N.of_nat bit))) 0 then acc else xor_state acc m, fst (next m)).
Definition jump_word (am : state * state) (j : N) : state * state :=
  fold_left (jump_bit j) (seq 0 64) am.
Definition zero : state := St 0 0 0 0.
Definition jump_impl (jump_array : list N) (m : state) : state :=
  fst (fold_left jump_word jump_array (zero, m)).

(** jump, lines 153-155, and long_jump, lines 164-166. *)
Definition jump (m : state) : state :=
  jump_impl [0x180ec6d33cfd0aba; 0xd5a61266f0c9392c; 0xa9582618e03fc9aa; 0x39abdc4529b1661c] m.
Definition long_jump (m : state) : state :=
  jump_impl [0x76e15d3efefdcbbf; 0xc5004e441c522fb3; 0x77710069854ee241; 0x39109bb02acbe635] m.

(** The default seed, lines 172-177. *)
Definition default_seed : state :=
  St 0x8D0B73B52EA17D89 0x2AA426A407C2B04F 0xF513614E4798928A 0xA65E479EC5B49D41.
