(** Definitions used to state properties of isotonic calibration. *)
From Coq Require Import ZArith QArith Arith List Bool Sorted.
From Verif Require Import Spec.Stopping.
Import ListNotations.
Open Scope nat_scope.

(** Possible results of sorting by threshold. *)
Definition thresholds_sorted (bins : list (Q * Q)) : Prop :=
  forall i j a b, i < j -> nth_error bins i = Some a -> nth_error bins j = Some b -> (fst a <= fst b)%Q.
Definition thresholds_increasing (bins : list (Q * Q)) : Prop :=
  forall i j a b, i < j -> nth_error bins i = Some a -> nth_error bins j = Some b -> (fst a < fst b)%Q.
Definition probabilities_increasing (bins : list (Q * Q)) : Prop :=
  forall i j a b, i < j -> nth_error bins i = Some a -> nth_error bins j = Some b -> (snd a < snd b)%Q.

Definition is_mean (l : list Q) (v : Q) : Prop := l <> [] /\ (v * inject_Z (Z.of_nat (length l)) == Qsum l)%Q.

(** The bins with a certain threshold. *)
Definition sharing (bins : list (Q * Q)) (t : Q) : list (Q * Q) := filter (fun b => Qeq_bool (fst b) t) bins.

(** [pooled g b]: the bins [g] are replaced by [b], repeatedly averaging the values of at least two consecutive bins with
    non-increasing probabilities. *)
Inductive pooled : list (Q * Q) -> (Q * Q) -> Prop :=
| pooled_single : forall b, pooled [b] b
| pooled_merge : forall gs b0 bs b,
    Forall2 pooled gs (b0 :: bs) -> bs <> [] ->
    (forall i x y, nth_error (b0 :: bs) i = Some x -> nth_error (b0 :: bs) (S i) = Some y -> (snd y <= snd x)%Q) ->
    fst b = fst b0 -> is_mean (map snd (b0 :: bs)) (snd b) ->
    pooled (concat gs) b.

(** Linear interpolation between consecutive points. *)
Definition interpolates (points : list (Q * Q)) (p v : Q) : Prop :=
  exists i a b, nth_error points i = Some a /\ nth_error points (S i) = Some b /\
    (fst a < p)%Q /\ (p <= fst b)%Q /\ ((v - snd a) * (fst b - fst a) == (p - fst a) * (snd b - snd a))%Q.

(** The sum of squared errors of a fit. *)
Definition squared_error (fit : nat -> Q) (values : list Q) : Q :=
  Qsum (map (fun i => (fit i - nth i values 0) * (fit i - nth i values 0))%Q (seq 0 (length values))).

(** The probability that is assigned to a threshold: the one of the last bin whose threshold is not greater. *)
Definition assigned (out : list (Q * Q)) (t : Q) : Q :=
  fold_left (fun v b => if Qlt_le_dec t (fst b) then v else snd b) out 0%Q.
