(** Model of the computations with single-precision values that determine thresholds. In contrast to the other models, values
    are rounded. Paths are relative to cpp/subprojects/common/include/mlrl/common. A finite value [x] of the types [float32] and
    [float64] (data/types.hpp, lines 13-14) is represented by the integer [x * 2^1075], positive and negative zeros are not
    distinguished, because they are equal according to all comparison operators. Operations are rounded to the nearest value, ties
    to even (the default mode of IEEE 754), and are performed in the precision of their operands, i.e., FLT_EVAL_METHOD is 0. *)
From Coq Require Import ZArith Bool.
Open Scope Z_scope.

(** The representations of 1, of the smallest positive value of type [float32], which is [2^-149], and of the smallest numbers that
    exceed the range of the types [float32] and [float64], [2^128] and [2^1024]. *)
Definition one : Z := 2 ^ 1075.
Definition least32 : Z := 2 ^ 926.
Definition range32 : Z := 2 ^ 1203.
Definition range64 : Z := 2 ^ 2099.

Inductive float := Finite (x : Z) | Infinite (negative : bool) | NaN.

(** The integer nearest to [x / 2^e], ties to even. *)
Definition nearest (x e : Z) : Z :=
  let q := x / 2 ^ e in
  let r := x mod 2 ^ e in
  if 2 * r <? 2 ^ e then q
  else if 2 ^ e <? 2 * r then q + 1
  else if Z.even q then q else q + 1.

(** The exponent of the last digit of [x], given the number of digits and the exponent of the smallest positive value. *)
Definition exponent (digits smallest x : Z) : Z := Z.max (Z.log2 (Z.abs x) + 1 - digits) smallest.

(** Rounding to a format with the given number of digits, exponent of the smallest positive value and range. *)
Definition round (digits smallest range x : Z) : float :=
  let e := exponent digits smallest x in
  let y := nearest x e * 2 ^ e in
  if Z.abs y <? range then Finite y else Infinite (x <? 0).

(** The IEEE 754 formats binary32 (smallest value 2^-149, range 2^128) and binary64 (2^-1074, 2^1024). *)
Definition round32 : Z -> float := round 24 926 range32.
Definition round64 : Z -> float := round 53 1 range64.

(** Conversion from [float64] to [float32]. *)
Definition toFloat32 (x : float) : float := match x with Finite z => round32 z | _ => x end.

(** The operators [-] and [+], given the rounding of the result's type. *)
Definition negate (x : float) : float :=
  match x with Finite z => Finite (- z) | Infinite n => Infinite (negb n) | NaN => NaN end.
Definition add (rnd : Z -> float) (x y : float) : float :=
  match x, y with
  | Finite a, Finite b => rnd (a + b)
  | Infinite m, Infinite n => if Bool.eqb m n then Infinite m else NaN
  | Infinite m, Finite _ => Infinite m
  | Finite _, Infinite n => Infinite n
  | _, _ => NaN
  end.
Definition sub (rnd : Z -> float) (x y : float) : float := add rnd x (negate y).

(** Multiplication of a value of type [float64] with [2^-k]. The division is exact for all values that are multiples of
    [2^(k - 1074)]. *)
Definition scale64 (k : Z) (x : float) : float := match x with Finite z => round64 (z / 2 ^ k) | _ => x end.

(** The functions [std::fabs] and [std::fmax], and the operators [<=] and [>]. *)
Definition fabs (x : float) : float := match x with Finite z => Finite (Z.abs z) | Infinite _ => Infinite false | NaN => NaN end.
Definition leqb (x y : float) : bool :=
  match x, y with
  | NaN, _ | _, NaN => false
  | Infinite true, _ | _, Infinite false => true
  | Finite a, Finite b => a <=? b
  | _, _ => false
  end.
Definition gtb (x y : float) : bool :=
  match x, y with NaN, _ | _, NaN => false | _, _ => negb (leqb x y) end.
Definition fmax (x y : float) : float :=
  match x, y with NaN, z | z, NaN => z | _, _ => if leqb x y then y else x end.

(** data/types.hpp, lines 36-40. The difference is computed with single precision. The expression [std::fmax(1, ...)] is of
    type [float64], and so is its product with the constant [2^-23]. *)
Definition isEqual (a b : float) : bool :=
  leqb (fabs (sub round32 a b)) (scale64 23 (fmax (Finite one) (fmax (fabs a) (fabs b)))).

(** util/math.hpp, lines 34-37, where [T] is [float32]. The difference is computed with single precision. The constant [0.5] and,
    consequently, the product and the sum are of type [float64]. *)
Definition arithmeticMean (small large : float) : float :=
  toFloat32 (add round64 small (scale64 1 (sub round32 large small))).

(** Conversion from [uint32] to [float32]. *)
Definition uint32ToFloat32 (n : Z) : float := round32 (n * one).

(** The operator [*], given the rounding of the result's type. The division is exact if one of the operands is an integer. *)
Definition mul (rnd : Z -> float) (x y : float) : float :=
  match x, y with
  | Finite a, Finite b => rnd (a * b / one)
  | NaN, _ | _, NaN => NaN
  | Infinite m, Infinite n => Infinite (xorb m n)
  | Infinite m, Finite a | Finite a, Infinite m => if a =? 0 then NaN else Infinite (xorb m (a <? 0))
  end.

(** [std::ceil], and conversion to [uint32], which truncates and is undefined if the truncated value is not in range. *)
Definition ceil (x : float) : float := match x with Finite z => Finite (- (- z / one) * one) | _ => x end.
Definition toUint32 (x : float) : option Z :=
  match x with
  | Finite z => let y := Z.quot z one in if (0 <=? y) && (y <? 2 ^ 32) then Some y else None
  | _ => None
  end.

(** util/math.hpp, lines 66-84. In contrast to [Sampling.calculateBoundedFraction], the number of elements and its product with
    the fraction are rounded to single precision. *)
Definition calculateBoundedFraction (n : Z) (fraction : float) (minimum maximum : Z) : option Z :=
  match toUint32 (ceil (mul round32 fraction (uint32ToFloat32 n))) with
  | Some result =>
      let min := if n <? minimum then n else minimum in
      Some (if result <? min then min
            else if (minimum <=? maximum) && (maximum <? result) then maximum else result)
  | None => None
  end.

(** cpp/subprojects/common/src/mlrl/common/sampling/partition_sampling_bi_random.cpp, lines 51-53 (and
    partition_sampling_bi_stratified_example_wise.cpp, lines 68-70 and 76-78, and
    partition_sampling_bi_stratified_output_wise.cpp, lines 69-71 and 77-79): the numbers of training and holdout examples. *)
Definition holdoutSizes (holdoutSetSize : float) (numExamples : Z) : option (Z * Z) :=
  match toUint32 (mul round32 holdoutSetSize (uint32ToFloat32 numExamples)) with
  | Some numHoldout => Some ((numExamples - numHoldout) mod 2 ^ 32, numHoldout)
  | None => None
  end.
