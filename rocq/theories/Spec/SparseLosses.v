(** Specification of statistics and evaluations that are computed from sparse data. *)
From Coq Require Import Reals List Bool Arith Sorted.
From Verif Require Import Lib.Arr Model.Containers Model.Losses Model.BoostStatistics Model.SparseLosses Spec.BoostStatistics.
Import ListNotations.
Open Scope R_scope.

(** Whether an index is contained in a list. *)
Definition isMember (l : list nat) (i : nat) : bool := existsb (Nat.eqb i) l.

(** The indices of relevant labels are stored in increasing order. *)
Definition valid_labels (n : nat) (labels : list nat) : Prop :=
  StronglySorted lt labels /\ Forall (fun i => (i < n)%nat) labels.

(** The elements of a row are stored in increasing order of their indices. *)
Definition sortedRow {V} (row : sset V) : Prop := StronglySorted lt (map fst (ss_values row)).

(** The score for an output. *)
Definition scoreAt (row : sset R) (l : nat) : R := match stored row l with Some x => x | None => 0 end.

(** The dense equivalents of labels and scores. *)
Definition denseLabels (n : nat) (labels : list nat) : list bool := map (isMember labels) (seq 0 n).
Definition denseScores (n : nat) (row : sset R) : list R := map (scoreAt row) (seq 0 n).

(** A statistic is stored unless its gradient is considered to be zero. *)
Definition kept (x : R * R) : option (R * R) := if isEqualToZero (fst x) then None else Some x.

(** A change is undone. *)
Definition inverse (c : scoreChange) : scoreChange :=
  match c with Apply e p => Revert e p | Revert e p => Apply e p end.

(** The sum of the absolute values of weights. *)
Definition magnitude (c : contributions) : R := fold_right (fun p s => Rabs (snd p) + s) 0 c.

(** The statistics of an example are computed for the squared hinge loss, once in a sparse and once in a dense format. *)
Definition hingeStatistics (n : nat) (labels : list nat) (scores : sset R) (sparse : sset (R * R)) (dense : list (R * R)) : Prop :=
  (exists row, valid_row n row /\ updateSparseComplete updateSquaredHinge labels scores row = Some sparse) /\
  exists gradients hessians gradients' hessians', length gradients = n /\ length hessians = n /\
    updateComplete updateSquaredHinge (denseScores n scores) (denseLabels n labels) n gradients hessians =
      Some (gradients', hessians') /\
    dense = combine gradients' hessians'.

(** The first change that concerns an example, if any, concerns all outputs. *)
Definition firstChangeComplete (cs : list scoreChange) (e : nat) : Prop :=
  forall c, find (fun c => exampleOf c =? e) cs = Some c -> exists values, predictionOf c = CompletePrediction values.
