(** Model of the random number generator.
    Source: cpp/subprojects/common/src/mlrl/common/random/rng.cpp (and random/rng.hpp). *)
From Coq Require Import NArith Arith List.
From Verif Require Import Lib.Arr.
Open Scope N_scope.

(** Truncation to the 32 bits of [uint32]. *)
Definition u32 (x : N) : N := x mod 2 ^ 32.

(** rng.cpp, line 5: [MAX_RANDOM = 0x7FFFFFFF]. *)
Definition MAX_RANDOM : N := 2 ^ 31 - 1.

(** rng.cpp, lines 16-18: the three xor-shift assignments to [randomState[0]]. *)
Definition xorshift (s : N) : N :=
  let s := N.lxor s (u32 (N.shiftl s 13)) in
  let s := N.lxor s (N.shiftr s 17) in
  let s := N.lxor s (u32 (N.shiftl s 5)) in
  s.

(** rng.cpp, lines 12-18: update of the state, including the replacement of state 0 by 1. *)
Definition next_state (s : N) : N := xorshift (if s =? 0 then 1 else s).

(** rng.cpp, lines 9-22: [RNG::randomInt(min, max)] on 32-bit words. Returns the drawn number and the
    new state. [None]: division by zero in line 21 ([max - min = 0] modulo 2^32). *)
Definition randomInt32 (s min max : N) : option (N * N) :=
  let s' := next_state s in
  let r := s' mod (u32 (MAX_RANDOM + 1)) in
  let d := u32 (2 ^ 32 + max - min) in
  if d =? 0 then None else Some (u32 (min + r mod d), s').

(** The same function, for arguments and results that are used as array indices. *)
Definition randomInt (s : N) (min max : nat) : option (nat * N) :=
  let* (r, s') := randomInt32 s (N.of_nat min) (N.of_nat max) in Some (N.to_nat r, s').

(** rng.cpp, lines 24-26: [RNG::randomBool]. *)
Definition randomBool (s : N) : option (bool * N) :=
  let* (r, s') := randomInt32 s 0 2 in Some (negb (r =? 0), s').

(** rng.cpp, lines 40-44: [RNGConfig::setRandomState]; [None] if the argument is rejected. *)
Definition setRandomState (s : N) : option N := if 1 <=? s then Some s else None.

(** A client that issues a sequence of requests [(min, max)]. *)
Fixpoint requests (s : N) (reqs : list (N * N)) : option (list N * N) :=
  match reqs with
  | nil => Some (nil, s)
  | cons (lo, hi) rest =>
      let* (r, s1) := randomInt32 s lo hi in
      let* (rs, s2) := requests s1 rest in
      Some (cons r rs, s2)
  end.
