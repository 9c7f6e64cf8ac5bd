(** What the evaluation of rules by separate-and-conquer algorithms should achieve. *)
From Coq Require Import Reals QArith ZArith Arith List Bool Sorted Permutation.
From Verif Require Import Model.SecoStatistics Model.SecoEvaluation Spec.Seco.
Import ListNotations.
Open Scope R_scope.

Definition Rsum (l : list R) : R := fold_right Rplus 0 l.

(** For each of the given labels, there is an entry with the quality of the label according to a heuristic and the opposite of
    what the default rule predicts. *)
Definition exact_entries (h : heuristicFunction) (majority indices : list nat) (total covered : list confusion)
    (entries : list entry) : Prop :=
  length entries = length indices /\
  forall i l t c, nth_error indices i = Some l -> nth_error total l = Some t -> nth_error covered i = Some c ->
    nth_error entries i = Some (mkEntry l (h c (cmMinus t c)) (negb (mem majority l))).

(** There are confusion matrices for all labels. *)
Definition matrices_for (indices : list nat) (total covered : list confusion) : Prop :=
  Forall (fun l => (l < length total)%nat) indices /\ length covered = length indices.

(** The quality of a head: the mean quality of its labels times the lift. *)
Definition head_quality (lift : nat -> R) (head : list entry) : R :=
  Rsum (map eQuality head) / INR (length head) * lift (length head).

(** A head may predict for an arbitrary, non-empty, subset of the labels. *)
Definition is_head (entries head : list entry) : Prop :=
  head <> [] /\ exists rest, Permutation entries (head ++ rest).

(** Entries that are sorted by quality in descending order, as is ensured by [std::sort]. *)
Definition sorted_by_quality (entries sorted : list entry) : Prop :=
  Permutation entries sorted /\ StronglySorted (fun a b => eQuality b <= eQuality a) sorted.

(** The maximum lift bounds the lift of all heads with at least as many labels. *)
Definition bounds_lift (lift maxLift : nat -> R) (numLabels : nat) : Prop :=
  forall m k, (1 <= m <= k)%nat -> (k <= numLabels)%nat -> lift k <= maxLift m.

(** Lift functions that start at one, never decrease the quality and whose maximum lift is valid. *)
Definition admissible (lift maxLift : nat -> R) (numLabels : nat) : Prop :=
  lift 1%nat = 1 /\ (forall k, (1 <= k <= numLabels)%nat -> 1 <= lift k) /\ bounds_lift lift maxLift numLabels.

(** A weaker requirement: a larger lift than that of a single label is bounded by what is compared. *)
Definition admissible_nonneg (lift maxLift : nat -> R) (numLabels : nat) : Prop :=
  0 <= lift 1%nat /\
  forall b m k, (1 <= b <= m)%nat -> (m < k <= numLabels)%nat -> lift k <= lift 1%nat \/ 0 <= lift k <= lift m * maxLift b.

(** A head is selected, such that no other one has a greater quality. *)
Definition selects_best (lift maxLift : nat -> R) (entries sorted : list entry) : Prop :=
  exists head quality, selectHead lift maxLift sorted = Some (map eIndex head, map ePrediction head, quality) /\
    is_head entries head /\ quality = head_quality lift head /\
    forall other, is_head entries other -> head_quality lift other <= quality.
