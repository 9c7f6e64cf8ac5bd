(** What label binning should guarantee. *)
From Coq Require Import QArith Qabs List Bool Arith.
From Verif Require Import Lib.Arr Spec.Stopping Model.BoostEvaluation Model.BoostBinning Spec.BoostEvaluation.
Import ListNotations.
Open Scope Q_scope.

(** The parameters accepted by the setters of the configuration (src/mlrl/boosting/binning/label_binning_equal_width.cpp,
    class [EqualWidthLabelBinningConfig]). *)
Definition validBinning (c : binningConfig) : Prop :=
  0 < binRatio c /\ binRatio c < 1 /\ (1 <= minBins c)%nat /\ (maxBins c = 0%nat \/ minBins c <= maxBins c)%nat.

(** The bins that are used for the given criteria do not exceed the capacity that is reserved for them. *)
Definition binsFit (c : binningConfig) (criteria : list Q) (capacity : nat) : Prop :=
  forall info, getLabelInfo c criteria (length criteria) = Some info ->
  (numPositiveBins info + numNegativeBins info <= capacity)%nat.

(** Predicting one score per bin, and zero for outputs that are not assigned to any bin. *)
Definition binScores (score : nat -> Q) (bins : list (option nat)) : list Q :=
  map (fun b => match b with Some k => score k | None => 0 end) bins.

(** The independently optimal scores of all outputs. *)
Definition individualScores (l1 l2 : Q) (statistics : list tuple) : list Q := map (calculateOutputWiseScore l1 l2) statistics.
