(** Properties of the number of examples covered by rules that are refined. *)
From Coq Require Import ZArith Arith List Bool Permutation Lia.
From Verif Require Import Lib.Arr Model.Refinement Spec.Refinement Proofs.Refinement Proofs.BeamCoverage.
Import ListNotations.
Open Scope nat_scope.

(** ** C135: Rules that cover the minimum number of examples are not refined *)

(** Greedy search: All rules that have been refined cover more than the minimum number of examples. *)
Theorem C135_greedy_partial : forall (k : learner) (minCoverage maxConditions maxHeadRefinements : nat) (search : nat -> list candidate -> list nat -> list (list candidate))
    (outputs : list nat) (fuel : nat) (conditions : list candidate) (head : option candidate),
    growGreedy fuel k minCoverage maxConditions maxHeadRefinements search outputs = Some (conditions, head) ->
    forall i c, i < length conditions - 1 -> nth_error conditions i = Some c -> minCoverage < cCovered c.
Proof. exact greedy_coverage. Qed.
Print Assumptions C135_greedy_partial.

Example C135_greedy_partial_example :
  let search (n : nat) (conds : list candidate) (outs : list nat) :=
    match conds with [] => [[mkCand 0 0 7 [0] 2; mkCand 1 0 6 [0] 3]] | [c] => [[mkCand 2 0 4 outs 8]] | _ => [[mkCand 3 0 4 outs 9]] end in
  growGreedy 10 SeCo 4 0 0 search [0; 1] = Some ([mkCand 1 0 6 [0] 3; mkCand 2 0 4 [0; 1] 8], Some (mkCand 2 0 4 [0; 1] 8)).
Proof. reflexivity. Qed.

(** Beam search. Missing: rules with a single condition, for which the claim is refuted below. *)
Theorem C135_beam_partial : forall (k : learner) (sortC : list candidate -> list candidate) (sortE : list entry -> list entry)
    (beamWidth minCoverage : nat) (search : nat -> list candidate -> list nat -> list (list candidate)),
    sorting k sortC -> sorting_entries k sortE ->
    forall (fuel maxConditions maxHeadRefinements : nat) (outputs : list nat) (e : entry),
    growBeam k sortC sortE beamWidth minCoverage search fuel maxConditions maxHeadRefinements outputs = Some (Some e) ->
    forall i c, 0 < i -> i < length (beConditions e) - 1 -> nth_error (beConditions e) i = Some c -> minCoverage < cCovered c.
Proof. exact beam_coverage. Qed.
Print Assumptions C135_beam_partial.

Example C135_beam_partial_example :
  let search (n : nat) (conds : list candidate) (outs : list nat) :=
    match conds with [] => [[mkCand 0 0 7 [0] 2; mkCand 1 0 6 [0] 3]] | [c] => [[mkCand 2 0 5 outs 8]] | [_; _] => [[mkCand 3 0 4 outs 9]]
    | _ => [[mkCand 4 0 4 outs 10]] end in
  sorting SeCo (sortBy SeCo cQuality) /\ sorting_entries SeCo (sortBy SeCo beQuality) /\
  growBeam SeCo (sortBy SeCo cQuality) (sortBy SeCo beQuality) 2 4 search 10 0 0 [0; 1] =
    Some (Some (mkEntry [mkCand 1 0 6 [0] 3; mkCand 2 0 5 [0; 1] 8; mkCand 3 0 4 [0; 1] 9] 9 None)).
Proof. split; [apply sortBy_sorting|]. split; [apply sortBy_sorting_entries|reflexivity]. Qed.

(** Beam search refines rules with a single condition, even if they cover the minimum number of examples. *)
Theorem C135_beam_refuted : exists (k : learner) (sortC : list candidate -> list candidate) (sortE : list entry -> list entry)
    (beamWidth minCoverage : nat) (search : nat -> list candidate -> list nat -> list (list candidate)),
    sorting k sortC /\ sorting_entries k sortE /\ 1 <= beamWidth /\
    (forall n conditions outputs x, In x (concat (search n conditions outputs)) -> minCoverage <= cCovered x) /\
    exists fuel maxConditions maxHeadRefinements outputs e i c,
      growBeam k sortC sortE beamWidth minCoverage search fuel maxConditions maxHeadRefinements outputs = Some (Some e) /\
      i < length (beConditions e) - 1 /\ nth_error (beConditions e) i = Some c /\ cCovered c <= minCoverage.
Proof. exact beam_coverage_refuted. Qed.
Print Assumptions C135_beam_refuted.
