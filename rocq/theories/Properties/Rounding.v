(** Properties of rounding errors. *)
From Coq Require Import ZArith List Lia Permutation.
From Verif Require Import Model.Floats Model.Rounding Spec.Rounding Proofs.Rounding.
Import ListNotations.
Open Scope Z_scope.

(** ** C139: false; full statement: the value of an entry of a score matrix, after predictions have been added and removed in any
    order, is the sum of the predictions that remain, and the sums of the gradients and Hessians of uncovered examples, which
    are obtained by subtracting those of the covered ones, are equal to the sums that are obtained by adding them up. *)

(** Missing: exact results. The error is at most 2^-54 times the magnitude of the values for each rounding. No result is infinite. *)
Theorem C139_entries_partial : forall magnitude history,
  moderate magnitude (volume history) (roundings history) ->
  exists y, maintain history = Finite y /\ accurate magnitude (roundings history) y (exact history).
Proof. exact maintain_accurate. Qed.
Print Assumptions C139_entries_partial.

Example C139_entries_partial_example :
  let history := [Add (3 * one); AddWeighted (one / 2) 5; Remove (power (-60)); RemoveWeighted one 2] in
  moderate 1080 (volume history) (roundings history) /\ roundings history = 6 /\
  exact history = 7 * one / 2 - power (-60) /\ maintain history = Finite (7 * one / 2).
Proof. vm_compute. repeat split; discriminate. Qed.

(** Missing: exact results. The scores that are maintained during training, after rules have been replaced, and the predictions of the
    remaining rules, which are added up in any order. *)
Theorem C139_scores_partial : forall magnitude history remaining,
  unweighted history -> Permutation (applied history) (reverted history ++ remaining) ->
  moderate magnitude (volume history) (roundings history) ->
  moderate magnitude (volume (map Add remaining)) (roundings (map Add remaining)) ->
  exists score prediction,
  maintain history = Finite score /\ maintain (map Add remaining) = Finite prediction /\
  accurate magnitude (Z.of_nat (length history + length remaining)) score prediction.
Proof. exact scores_accurate. Qed.
Print Assumptions C139_scores_partial.

Example C139_scores_partial_example :
  let history := [Add (power 1); Add (power (-52)); Remove (power 1); Add (power 0)] in
  let remaining := [power 0; power (-52)] in
  applied history = [power 1; power (-52); power 0] /\ reverted history = [power 1] /\
  moderate 1079 (volume history) (roundings history) /\ moderate 1079 (volume (map Add remaining)) (roundings (map Add remaining)) /\
  maintain history = Finite (power 0) /\ maintain (map Add remaining) = Finite (power 0 + power (-52)).
Proof. vm_compute. repeat split; discriminate. Qed.

(** Missing: exact results. Statistics of examples with missing values are excluded from the total sums. *)
Theorem C139_uncovered_partial : forall magnitude all excluded covered others,
  let coverable := all ++ map inverse excluded in
  Permutation all (excluded ++ covered ++ others) ->
  moderate magnitude (volume coverable + volume covered) (roundings coverable + roundings covered + 1) ->
  exists y, uncovered coverable covered = Finite y /\
  accurate magnitude (roundings coverable + roundings covered + 1) y (exact others).
Proof. exact uncovered_accurate. Qed.
Print Assumptions C139_uncovered_partial.

Example C139_uncovered_partial_example :
  let all := [Add (power 0); Add (power 1); Add (power (-3)); Add (power (-4))] in
  let coverable := all ++ map inverse [Add (power 1)] in
  let covered := [Add (power (-3))] in
  moderate 1080 (volume coverable + volume covered) (roundings coverable + roundings covered + 1) /\
  exact [Add (power 0); Add (power (-4))] = 17 * power (-4) /\ uncovered coverable covered = Finite (17 * power (-4)).
Proof. vm_compute. repeat split; discriminate. Qed.

(** Missing: exact results. The statistics that are covered are added up in several groups, which are accumulated. *)
Theorem C139_accumulated_partial : forall magnitude all excluded groups others,
  let coverable := all ++ map inverse excluded in
  let errors := roundings coverable + roundings (concat groups) + Z.of_nat (length groups) in
  groups <> [] -> Permutation all (excluded ++ concat groups ++ others) ->
  moderate magnitude (volume coverable + volume (concat groups)) errors ->
  exists covered y,
  accumulate groups = Some (Finite covered) /\ accurate magnitude errors covered (exact (concat groups)) /\
  uncoveredAccumulated coverable groups = Some (Finite y) /\ accurate magnitude errors y (exact others).
Proof. exact accumulated_accurate. Qed.
Print Assumptions C139_accumulated_partial.

Example C139_accumulated_partial_example :
  let all := [Add (power 0); Add (power 1); Add (power (-3)); Add (power (-4))] in
  let groups := [[Add (power (-3))]; [Add (power 0); Add (power (-4))]] in
  moderate 1080 (volume (all ++ map inverse []) + volume (concat groups))
    (roundings (all ++ map inverse []) + roundings (concat groups) + 2) /\
  accumulate groups = Some (Finite (19 * power (-4))) /\ uncoveredAccumulated all groups = Some (Finite (power 1)).
Proof. vm_compute. repeat split; discriminate. Qed.

(** After adding and removing the prediction of a rule, the previous score is not restored. It is lost entirely and, as a result, the
    score is not positive anymore. *)
Theorem C139_revert_refuted : exists first second,
  isFloat64 first /\ isFloat64 second /\ 0 < first /\
  maintain [Add first; Add second; Remove second] = Finite 0 /\ maintain [Add first] = Finite first.
Proof. exact revert_not_exact. Qed.
Print Assumptions C139_revert_refuted.

(** All Hessians are positive, but the sum of the Hessians of uncovered examples is negative. *)
Theorem C139_sign_refuted : exists all covered others y,
  allPositive all /\ Permutation all (covered ++ others) /\ others <> [] /\
  uncovered all covered = Finite y /\ y < 0 /\ 0 < exact others.
Proof. exact uncovered_sign. Qed.
Print Assumptions C139_sign_refuted.
