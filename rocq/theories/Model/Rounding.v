(** Model of the rounding errors of entries of score matrices and of vectors that store sums of gradients and Hessians. In contrast
    to the other models, values of type [float64] are rounded, see Floats.v. Paths are relative to cpp/subprojects. *)
From Coq Require Import ZArith List.
From Verif Require Import Model.Floats.
Import ListNotations.
Open Scope Z_scope.

(** A single entry is modelled. Its value is changed by adding or removing a value, which is optionally multiplied by a weight. *)
Inductive operation := Add (x : Z) | Remove (x : Z) | AddWeighted (x weight : Z) | RemoveWeighted (x weight : Z).

(** common/include/mlrl/common/util/view_functions.hpp, lines 85-89, 103-108, 124-129, 148-153, 165-169 and 184-188, and
    boosting/src/mlrl/boosting/data/matrix_c_contiguous_numeric.cpp, lines 18, 32, 45 and 59. The weights that are assigned to
    statistics are integers, which are converted to type [float64] (boosting/src/mlrl/boosting/statistics/statistics_common.hpp,
    lines 33, 286 and 299). The product is assumed to be rounded, i.e., that no fused operations are used. *)
Definition perform (entry : float) (o : operation) : float :=
  match o with
  | Add x => add round64 entry (Finite x)
  | Remove x => sub round64 entry (Finite x)
  | AddWeighted x weight => add round64 entry (mul round64 (Finite x) (Finite (weight * one)))
  | RemoveWeighted x weight => sub round64 entry (mul round64 (Finite x) (Finite (weight * one)))
  end.

(** An entry that is initialized with zero (boosting/src/mlrl/boosting/data/matrix_c_contiguous_numeric.cpp, lines 6-7, and
    vector_statistic_decomposable_dense.cpp, lines 5-7) and changed afterwards. *)
Definition maintain (history : list operation) : float := fold_left perform history (Finite 0).

(** boosting/src/mlrl/boosting/statistics/statistics_common.hpp, lines 189-202: the sums of the statistics that have been added to a
    subset since it was reset are added to the accumulated sums. The first sums are copied. *)
Definition accumulate (groups : list (list operation)) : option float :=
  match groups with
  | [] => None
  | first :: others => Some (fold_left (fun entry group => add round64 entry (maintain group)) others (maintain first))
  end.

(** boosting/src/mlrl/boosting/statistics/statistics_common.hpp, lines 214-225, and
    common/include/mlrl/common/util/view_functions.hpp, lines 203-207 and 226-232. *)
Definition uncovered (total : list operation) (covered : list operation) : float :=
  sub round64 (maintain total) (maintain covered).
(** See above (boosting/src/mlrl/boosting/statistics/statistics_common.hpp, lines 214-225;
    common/include/mlrl/common/util/view_functions.hpp, lines 203-207 and 226-232). *)
Definition uncoveredAccumulated (total : list operation) (groups : list (list operation)) : option float :=
  match accumulate groups with Some covered => Some (sub round64 (maintain total) covered) | None => None end.
