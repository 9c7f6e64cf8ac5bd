(** Properties of the statistics used by separate-and-conquer algorithms. *)
From Coq Require Import ZArith NArith Arith List Bool Sorted Lia.
From Verif Require Import Lib.Arr Model.Sampling Model.SecoStatistics Spec.Seco Proofs.SecoExact Proofs.SecoTotals Proofs.SecoMajority Proofs.SecoCoverage
  Proofs.SecoFindings.
Import ListNotations.
Open Scope nat_scope.

(** ** C46: Majority labels are exact
    Missing: the default rule is only obtained if there are at most as many examples as labels. *)
Definition labels46 : labelMatrix := mkLabels 2 3 (DenseLabels [true; false; true;  true; true; false]).
Definition sparse46 : labelMatrix := mkLabels 2 3 (CsrLabels [[0; 2]; [0; 1]]).
Definition label46 : nat -> nat -> bool := tableLabel [[true; false; true]; [true; true; false]].

Example labels46_represents : represents labels46 label46 /\ represents sparse46 label46.
Proof.
  split; [apply represents_dense; reflexivity|]. unfold represents. simpl. split; auto. intros e row He.
  destruct e as [|[|[|]]]; try discriminate; injection He as <-; (split; [repeat constructor|]); intros [|[|[|[|]]]]; cbn; intuition (try lia; discriminate).
Qed.

(** The majority labels and the initial number of deviating labels. [junk]: uninitialized memory. *)
Theorem C46_majority_partial : forall junk lm label, represents lm label -> length junk = lmCols lm ->
    exists majority, createStatistics junk lm = Some (majority, Z.of_nat (count (deviates label majority) (cells (lmRows lm) (lmCols lm)))) /\
      StronglySorted lt majority /\
      (forall l, In l majority <-> l < lmCols lm /\ is_majority label (lmRows lm) l) /\
      (forall indices, StronglySorted le indices -> exists scores, majorityScores majority indices = Some scores /\
         length scores = length indices /\
         forall i l, nth_error indices i = Some l -> (nth_error scores i = Some true <-> In l majority)).
Proof. exact majority_labels_exact. Qed.
Print Assumptions C46_majority_partial.

Example C46_majority_partial_example : represents labels46 label46 /\ createStatistics [7; 7; 7] labels46 = Some ([0], 2%Z) /\
  createStatistics [9; 7; 8] sparse46 = Some ([0], 2%Z) /\ majorityScores [0] [0; 0; 2] = Some [true; true; false].
Proof. split; [apply labels46_represents|]. repeat split. Qed.

(** Dense and sparse label matrices yield the same result. *)
Theorem C46_agree_partial : forall junk1 junk2 lm1 lm2 label, represents lm1 label -> represents lm2 label ->
    lmRows lm1 = lmRows lm2 -> lmCols lm1 = lmCols lm2 -> length junk1 = lmCols lm1 -> length junk2 = lmCols lm2 ->
    createStatistics junk1 lm1 = createStatistics junk2 lm2.
Proof. exact majority_labels_agree. Qed.
Print Assumptions C46_agree_partial.

Example C46_agree_partial_example : represents labels46 label46 /\ represents sparse46 label46 /\
  createStatistics [7; 7; 7] labels46 = createStatistics [9; 7; 8] sparse46.
Proof. split; [apply labels46_represents|]. split; [apply labels46_represents|reflexivity]. Qed.

(** What the default rule predicts. *)
Theorem C46_default_rule_partial : forall junk lm label, represents lm label -> length junk = lmCols lm -> lmRows lm <= lmCols lm ->
    exists majority sum scores, createStatistics junk lm = Some (majority, sum) /\
      defaultRule lm majority (cvCounts (newCoverage (lmRows lm) (lmCols lm) sum)) = Some scores /\
      length scores = lmCols lm /\
      forall l, l < lmCols lm -> (nth_error scores l = Some true <-> is_majority label (lmRows lm) l).
Proof. exact default_rule_safe. Qed.
Print Assumptions C46_default_rule_partial.

Example C46_default_rule_partial_example :
  represents labels46 label46 /\ lmRows labels46 <= lmCols labels46 /\
  defaultRule labels46 [0] (cvCounts (newCoverage 2 3 2%Z)) = Some [true; false; false].
Proof. split; [apply labels46_represents|]. split; [simpl; lia|reflexivity]. Qed.

(** The default rule can not be learned without exceeding the memory of the coverage matrix. *)
Theorem C46_default_rule_refuted : exists junk lm label majority sum,
  represents lm label /\ length junk = lmCols lm /\ createStatistics junk lm = Some (majority, sum) /\
  defaultRule lm majority (cvCounts (newCoverage (lmRows lm) (lmCols lm) sum)) = None.
Proof. exact default_rule_fails. Qed.
Print Assumptions C46_default_rule_refuted.

(** This is the case whenever there are more examples than labels. *)
Theorem C46_out_of_bounds_refuted : forall lm majority counts, length counts = lmRows lm * lmCols lm -> lmCols lm < lmRows lm ->
    defaultRule lm majority counts = None.
Proof. exact default_rule_out_of_bounds. Qed.
Print Assumptions C46_out_of_bounds_refuted.

Example C46_out_of_bounds_refuted_example :
  let lm := mkLabels 3 2 (DenseLabels [true; false; true; true; false; false]) in
  length (repeat 0%N 6) = lmRows lm * lmCols lm /\ lmCols lm < lmRows lm.
Proof. split; [reflexivity|simpl; lia]. Qed.

(** ** C47: Confusion matrices are exact
    Missing: the statistics for the default rule. *)
(** The matrices used for learning rules. *)
Theorem C47_weighted_partial : forall lm label majority counts weights, represents lm label -> length counts = lmRows lm * lmCols lm ->
    StronglySorted lt majority -> length weights = lmRows lm ->
    forall ops, Forall (op_in_range (lmRows lm)) ops ->
    exists ws0 ws, newWeighted lm majority counts weights = Some ws0 /\
      forL ops (wsStep lm majority counts weights) ws0 = Some ws /\
      exact_vector label (uncovered (lmCols lm) counts) (mem majority) (seq 0 (lmCols lm)) (allExamples weights) (wsTotal ws) /\
      forall excluded o sops, Forall (fun i => i < lmRows lm) excluded -> valid_outputs (lmCols lm) o ->
        Forall (sop_in_range (lmRows lm)) sops ->
        exists s0 s, newSubset lm majority counts weights ws excluded o = Some s0 /\
          forL sops (ssStep lm majority counts weights o) s0 = Some s /\
          forall k, (accumulates k -> In ResetSubset sops) ->
            exists v, scoredVector o ws s k = Some v /\
              exact_vector label (uncovered (lmCols lm) counts) (mem majority) (labelsOf o)
                (scoredContributions weights ops excluded sops k) v.
Proof. exact confusion_matrices_exact. Qed.
Print Assumptions C47_weighted_partial.

Example C47_weighted_partial_example :
  let counts := [0; 1; 0;  0; 0; 0]%N in
  let weights := [1; 2]%Z in
  represents labels46 label46 /\
  (let* ws := newWeighted labels46 [0] counts weights in
   let* ws := forL [RemoveCovered 0] (wsStep labels46 [0] counts weights) ws in
   let* s := newSubset labels46 [0] counts weights ws [] (SomeOutputs [1; 2]) in
   let* s := forL [AddToSubset 1; ResetSubset; AddToSubset 0] (ssStep labels46 [0] counts weights (SomeOutputs [1; 2])) s in
   scoredVector (SomeOutputs [1; 2]) ws s CoveredAccumulated) = Some [mkConfusion 0 0 0 2; mkConfusion 0 2 0 0].
Proof. split; [apply labels46_represents|]. vm_compute. reflexivity. Qed.

(** There is no confusion matrix for a label if there are fewer examples than labels. *)
Theorem C47_unweighted_refuted : exists lm label majority counts weights v l,
  represents lm label /\ StronglySorted lt majority /\ length counts = lmRows lm * lmCols lm /\ length weights = lmRows lm /\
  unweightedTotal lm majority counts weights = Some v /\ l < lmCols lm /\ nth_error v l = None.
Proof. exact unweighted_missing. Qed.
Print Assumptions C47_unweighted_refuted.

(** ** C48: Applying and reverting a rule cancel out *)
(** Regardless of any other rules that are applied or reverted in the meantime. *)
Theorem C48_cancel : forall numRows numCols majority counts sum, StronglySorted lt majority ->
    length counts = numRows * numCols -> valid_counts counts ->
    forall a h, valid_application numRows numCols a ->
      Forall (fun x => valid_application numRows numCols (changeOf x)) h ->
      exists c, forL h (runChange numCols majority) (mkCoverage counts sum) = Some c /\
        forL (Apply a :: h ++ [Revert a]) (runChange numCols majority) (mkCoverage counts sum) = Some c /\
        forL (Revert a :: h ++ [Apply a]) (runChange numCols majority) (mkCoverage counts sum) = Some c.
Proof. exact apply_revert_cancel. Qed.
Print Assumptions C48_cancel.

Example C48_cancel_example :
  let a := (1, PartialHead [0; 2] [false; true]) in
  let b := (1, CompleteHead [false; false; true]) in
  valid_application 2 3 a /\ valid_application 2 3 b /\
  forL [Apply a; Apply b] (runChange 3 [0]) (mkCoverage [0; 0; 0; 0; 0; 0]%N 2%Z) = Some (mkCoverage [0; 0; 0; 2; 0; 2]%N 0%Z) /\
  forL [Apply a; Apply b; Revert a] (runChange 3 [0]) (mkCoverage [0; 0; 0; 0; 0; 0]%N 2%Z) = Some (mkCoverage [0; 0; 0; 1; 0; 1]%N 0%Z).
Proof. cbv zeta. split; [|split; [|split]]; try reflexivity; split; simpl; auto. repeat split; repeat constructor. Qed.

(** ** C49: The sum of uncovered labels is exact
    Missing: labels covered by rules, although the default rule predicts them correctly, are subtracted as well. *)
(** The coverage counts and the sum that is actually computed. *)
Theorem C49_sum_partial : forall junk lm label majority sum, represents lm label -> length junk = lmCols lm ->
    createStatistics junk lm = Some (majority, sum) ->
    forall apps, Forall (valid_application (lmRows lm) (lmCols lm)) apps -> (N.of_nat (length apps) < 2 ^ 32)%N ->
    exists c, applyAll (lmCols lm) majority apps (newCoverage (lmRows lm) (lmCols lm) sum) = Some c /\
      (forall e l, e < lmRows lm -> l < lmCols lm ->
         nth (e * lmCols lm + l) (cvCounts c) 0%N = N.of_nat (count (covers majority (e, l)) apps)) /\
      cvSum c = (Z.of_nat (count (fun x => deviates label majority x && negb (covered majority apps x)) (cells (lmRows lm) (lmCols lm)))
                 - Z.of_nat (count (fun x => negb (deviates label majority x) && covered majority apps x) (cells (lmRows lm) (lmCols lm))))%Z.
Proof. exact sum_of_uncovered. Qed.
Print Assumptions C49_sum_partial.

Example C49_sum_partial_example :
  let apps := [(0, PartialHead [2] [true]); (1, PartialHead [0; 2] [false; true])] in
  represents labels46 label46 /\ createStatistics [0; 0; 0] labels46 = Some ([0], 2%Z) /\
  Forall (valid_application (lmRows labels46) (lmCols labels46)) apps /\
  applyAll 3 [0] apps (newCoverage 2 3 2%Z) = Some (mkCoverage [0; 0; 1; 1; 0; 1]%N (-1)%Z).
Proof.
  cbv zeta. split; [apply labels46_represents|]. split; [reflexivity|]. split; [|reflexivity].
  repeat constructor; simpl; auto; repeat constructor.
Qed.

(** The sum reaches zero although there is a deviating label that has not been covered. *)
Theorem C49_sum_refuted : exists junk lm label majority sum apps c,
  represents lm label /\ length junk = lmCols lm /\ createStatistics junk lm = Some (majority, sum) /\
  Forall (valid_application (lmRows lm) (lmCols lm)) apps /\
  applyAll (lmCols lm) majority apps (newCoverage (lmRows lm) (lmCols lm) sum) = Some c /\
  cvSum c <> Z.of_nat (count (fun x => deviates label majority x && negb (covered majority apps x)) (cells (lmRows lm) (lmCols lm))) /\
  coverageStops 0 c = true /\
  0 < count (fun x => deviates label majority x && negb (covered majority apps x)) (cells (lmRows lm) (lmCols lm)).
Proof. exact sum_inexact. Qed.
Print Assumptions C49_sum_refuted.

(** ** C89: Labels can be considered in any order
    Missing: an order other than the ascending one. *)
(** Labels sampled without replacement, for which no confusion matrices can be determined. *)
Theorem C89_sampling_refuted : exists fuel numOutputs numSamples s indices s' lm label majority counts w,
  outputSample fuel numOutputs numSamples (repeat 0 numSamples) s = Some (indices, s') /\
  represents lm label /\ lmCols lm = numOutputs /\ StronglySorted lt majority /\ length counts = lmRows lm * lmCols lm /\ 0 < lmRows lm /\
  vecAddToSubset lm majority counts (SomeOutputs indices) 0 w (repeat cmZero (length indices)) = None.
Proof. exact unsorted_sample. Qed.
Print Assumptions C89_sampling_refuted.

(** A rule that can not be applied. *)
Theorem C89_head_refuted : exists numCols e majority indices scores counts sum,
  length counts = numCols /\ e = 0 /\ length scores = length indices /\ NoDup indices /\ Forall (fun i => i < numCols) indices /\
  applyPrediction numCols e majority (PartialHead indices scores) (mkCoverage counts sum) = None.
Proof. exact unsorted_head. Qed.
Print Assumptions C89_head_refuted.

(** A rule can only be applied if its labels are in ascending order. *)
Theorem C89_ascending_partial : forall numCols e majority indices scores c c',
    applyPrediction numCols e majority (PartialHead indices scores) c = Some c' -> ascending indices.
Proof. exact unsorted_head_undefined. Qed.
Print Assumptions C89_ascending_partial.

Example C89_ascending_partial_example :
  applyPrediction 3 0 [0] (PartialHead [1; 2] [true; true]) (mkCoverage [0; 0; 0]%N 2%Z) = Some (mkCoverage [0; 1; 1]%N 0%Z).
Proof. reflexivity. Qed.

(** ** C59: Covered plus uncovered statistics equal the total *)
(** The confusion matrices used by separate-and-conquer algorithms (see also Properties/BoostStatistics.v). *)
Theorem C59_seco : forall lm label majority counts weights, represents lm label -> length counts = lmRows lm * lmCols lm ->
    StronglySorted lt majority -> length weights = lmRows lm ->
    forall ops excluded o sops, Forall (op_in_range (lmRows lm)) ops -> Forall (fun i => i < lmRows lm) excluded ->
      valid_outputs (lmCols lm) o -> Forall (sop_in_range (lmRows lm)) sops ->
      exists ws s, (let* ws := newWeighted lm majority counts weights in
                    forL ops (wsStep lm majority counts weights) ws) = Some ws /\
        (let* s := newSubset lm majority counts weights ws excluded o in
         forL sops (ssStep lm majority counts weights o) s) = Some s /\
        forall k k', k = Covered /\ k' = Uncovered \/ k = CoveredAccumulated /\ k' = UncoveredAccumulated /\ In ResetSubset sops ->
          exists covered uncovered', scoredVector o ws s k = Some covered /\ scoredVector o ws s k' = Some uncovered' /\
            forall i l, nth_error (labelsOf o) i = Some l -> exists x y, nth_error covered i = Some x /\ nth_error uncovered' i = Some y /\
              forall relevant predicted, (element x relevant predicted + element y relevant predicted)%Z =
                weightOf label (uncovered (lmCols lm) counts) (mem majority) l relevant predicted (coverable weights ops excluded).
Proof. exact seco_covered_uncovered. Qed.
Print Assumptions C59_seco.

Example C59_seco_example :
  let counts := [0; 1; 0;  0; 0; 0]%N in
  let weights := [1; 2]%Z in
  represents labels46 label46 /\ valid_outputs 3 (SomeOutputs [1; 2]) /\ Forall (sop_in_range 2) [AddToSubset 1; ResetSubset] /\
  weightOf label46 (uncovered 3 counts) (mem [0]) 2 false true (coverable weights [] [0]) = 
    weightOf label46 (uncovered 3 counts) (mem [0]) 2 false true [(1, 2%Z)].
Proof.
  split; [apply labels46_represents|]. split; [split; repeat constructor|]. split; [repeat constructor; simpl; lia|]. vm_compute. reflexivity.
Qed.
