(** Properties of the statistics used by boosting algorithms. *)
From Coq Require Import Reals Lra List Bool Arith Sorted Permutation Lia NArith.
From Verif Require Import Lib.Arr Model.Containers Model.Losses Model.Sampling Model.BoostStatistics Model.SparseLosses Spec.Containers
  Spec.BoostStatistics Spec.SparseLosses.
From Verif Require Import Proofs.BoostStatistics Proofs.SparseLosses Proofs.SparseStatistics.
Import ListNotations.
Open Scope R_scope.

(** ** C57: Sparse and dense statistics agree
    Missing: gradients and weights that are considered to be zero, although they are not. *)
(** If the same gradients and Hessians are stored in both formats, the aggregated ones are the same. *)
Theorem C57_same_statistics_partial : forall sparseRows denseRows weights numCols, Forall (valid_row numCols) sparseRows ->
    Forall (fun row => length row = numCols) denseRows -> length denseRows = length sparseRows ->
    (forall e l, (e < length sparseRows)%nat -> (l < numCols)%nat ->
      sparseStatistic (nth e sparseRows (ss_empty _ 0)) l = nth l (nth e denseRows []) (0, 0)) ->
    numWeights weights = length sparseRows ->
    (forall l, weights = IndividualWeights l -> Forall (fun w => isEqualToZero w = true -> w = 0) l) ->
    forall ops excluded o sops, Forall (total_op_in_range (length sparseRows)) ops ->
      Forall (fun i => (i < length sparseRows)%nat) excluded -> valid_outputs numCols o ->
      Forall (subset_op_in_range (length sparseRows)) sops ->
      forall k, (accumulates k -> In ResetSubset sops) ->
        exists v v',
          (let* total := newWeighted sparseClass sparseRows weights numCols in
           let* total := forL ops (totalStep sparseClass sparseRows weights) total in
           let* s := newSubset sparseClass sparseRows weights total excluded o in
           let* s := forL sops (subsetStep sparseClass sparseRows weights o) s in
           scoredVector sparseClass o s k) = Some v /\
          (let* total := newWeighted denseClass denseRows weights numCols in
           let* total := forL ops (totalStep denseClass denseRows weights) total in
           let* s := newSubset denseClass denseRows weights total excluded o in
           let* s := forL sops (subsetStep denseClass denseRows weights o) s in
           scoredVector denseClass o s k) = Some v' /\
          length v' = numOutputs o /\ forall i, (i < numOutputs o)%nat -> sparseElement v i = nth_error v' i.
Proof. exact same_statistics. Qed.
Print Assumptions C57_same_statistics_partial.

Example C57_same_statistics_partial_example :
  let sparse := mkSset [(1%nat, (-1, 1))] [None; Some 0%nat] in
  valid_row 2 sparse /\ (forall l, (l < 2)%nat -> sparseStatistic sparse l = nth l [(0, 1); (-1, 1)] (0, 0)) /\
  numWeights (EqualWeights 1) = 1%nat /\ valid_outputs 2 (SomeOutputs [1%nat; 0%nat]) /\
  Forall (subset_op_in_range 1) [AddToSubset 0; ResetSubset; AddToSubset 0].
Proof.
  intros sparse. split; [|split; [|split; [|split]]].
  - exists [SsEmplace 1 (-1, 1)]. split; [repeat constructor|reflexivity].
  - intros [|[|l]] H; [reflexivity|reflexivity|lia].
  - reflexivity.
  - simpl. repeat constructor.
  - repeat constructor.
Qed.

(** Statistics of the squared hinge loss. The error that results from omitting small gradients is bounded. *)
Theorem C57_squared_hinge_partial : forall n examples weights,
    Forall (fun '(labels, scores, sparse, dense) => valid_labels n labels /\ valid_row n scores /\ sortedRow scores /\
      hingeStatistics n labels scores sparse dense) examples ->
    numWeights weights = length examples ->
    (forall l, weights = IndividualWeights l -> Forall (fun w => isEqualToZero w = true -> w = 0) l) ->
    forall ops excluded o sops, Forall (total_op_in_range (length examples)) ops ->
      Forall (fun i => (i < length examples)%nat) excluded -> valid_outputs n o ->
      Forall (subset_op_in_range (length examples)) sops ->
      forall k, (accumulates k -> In ResetSubset sops) ->
        let sparseRows := map (fun '(_, _, sparse, _) => sparse) examples in
        let denseRows := map (fun '(_, _, _, dense) => dense) examples in
        exists v v',
          (let* total := newWeighted sparseClass sparseRows weights n in
           let* total := forL ops (totalStep sparseClass sparseRows weights) total in
           let* s := newSubset sparseClass sparseRows weights total excluded o in
           let* s := forL sops (subsetStep sparseClass sparseRows weights o) s in
           scoredVector sparseClass o s k) = Some v /\
          (let* total := newWeighted denseClass denseRows weights n in
           let* total := forL ops (totalStep denseClass denseRows weights) total in
           let* s := newSubset denseClass denseRows weights total excluded o in
           let* s := forL sops (subsetStep denseClass denseRows weights o) s in
           scoredVector denseClass o s k) = Some v' /\
          forall i, (i < numOutputs o)%nat -> exists gradient hessian gradient' hessian',
            sparseElement v i = Some (gradient, hessian) /\ nth_error v' i = Some (gradient', hessian') /\
            hessian = hessian' /\
            Rabs (gradient - gradient') <= magnitude (scoredContributions weights ops excluded sops k) * / 2 ^ 52.
Proof. exact hinge_statistics. Qed.
Print Assumptions C57_squared_hinge_partial.

Example C57_squared_hinge_partial_example :
  let scores := mkSset [(0%nat, 1 / 2); (2%nat, -1)] [Some 0%nat; None; Some 1%nat] in
  valid_labels 3 [0%nat; 2%nat] /\ valid_row 3 scores /\ sortedRow scores /\
  exists sparse dense, hingeStatistics 3 [0%nat; 2%nat] scores sparse dense.
Proof.
  intros scores.
  assert (A : valid_labels 3 [0%nat; 2%nat]) by (split; repeat constructor).
  assert (B : valid_row 3 scores).
  { exists [SsEmplace 0 (1 / 2); SsEmplace 2 (-1)]. split; [repeat constructor|reflexivity]. }
  assert (C : sortedRow scores) by (repeat constructor).
  split; [auto|split; [auto|split; [auto|]]].
  assert (D : valid_row 3 (ss_empty (R * R) 3)) by (exists []; split; [constructor|reflexivity]).
  destruct (sparse_complete_update 3 [0%nat; 2%nat] scores (ss_empty _ 3) updateSquaredHinge A B C D) as (sparse & E & _ & _).
  { simpl. destruct (Rgt_dec 0 0); [lra|apply zero_zero]. }
  exists sparse. eexists. split; [exists (ss_empty _ 3); auto|]. exists [0; 0; 0], [0; 0; 0]. eexists _, _.
  split; [reflexivity|split; [reflexivity|split; reflexivity]].
Qed.

(** A gradient that is not zero is omitted. *)
Theorem C57_squared_hinge_refuted : exists n labels scores sparse dense, valid_labels n labels /\ valid_row n scores /\ sortedRow scores /\
    hingeStatistics n labels scores sparse dense /\
    exists l, (l < n)%nat /\ fst (sparseStatistic sparse l) <> fst (nth l dense (0, 0)).
Proof. exact hinge_statistics_refuted. Qed.
Print Assumptions C57_squared_hinge_refuted.

(** A weight that is not zero is ignored. *)
Theorem C57_small_weights_refuted : exists rows weights numCols v, Forall (valid_row numCols) rows /\ length weights = length rows /\ Forall (fun w => 0 < w) weights /\
    newWeighted sparseClass rows (IndividualWeights weights) numCols = Some v /\
    exists l x, (l < numCols)%nat /\ sparseElement v l = Some x /\
      snd x <> sumOf (map (single (IndividualWeights weights)) (seq 0 (length rows))) (sparseHessian rows l).
Proof. exact tiny_weights_refuted. Qed.
Print Assumptions C57_small_weights_refuted.

(** ** C58: Applying and reverting boosted rules cancel out *)
(** The scores after any history of applying and reverting rules. *)
Theorem C58_dense_scores : forall n rows cs, Forall (fun row => length row = n) rows -> Forall (valid_change (length rows) n) cs ->
    exists rows', forL cs denseChange rows = Some rows' /\ length rows' = length rows /\
      Forall (fun row => length row = n) rows' /\
      forall e l, (e < length rows)%nat -> (l < n)%nat ->
        nth l (nth e rows' []) 0 = nth l (nth e rows []) 0 + effects e l cs.
Proof. exact dense_scores. Qed.
Print Assumptions C58_dense_scores.

Example C58_dense_scores_example :
  Forall (valid_change 2 3) [Apply 0 (CompletePrediction [1; 2; 3]); Apply 1 (PartialPrediction [2%nat; 0%nat] [4; 5]);
    Revert 0 (CompletePrediction [1; 2; 3])] /\
  effects 1 2 [Apply 0 (CompletePrediction [1; 2; 3]); Apply 1 (PartialPrediction [2%nat; 0%nat] [4; 5]);
    Revert 0 (CompletePrediction [1; 2; 3])] = 4 /\
  effects 0 2 [Apply 0 (CompletePrediction [1; 2; 3]); Apply 1 (PartialPrediction [2%nat; 0%nat] [4; 5]);
    Revert 0 (CompletePrediction [1; 2; 3])] = 0.
Proof. split; [repeat constructor; simpl; lia|]. split; unfold effects, effect; simpl; lra. Qed.

(** Rules may be reverted in any order. *)
Theorem C58_dense_scores_restored : forall n rows cs cs', Forall (fun row => length row = n) rows -> Forall (valid_change (length rows) n) cs ->
    Permutation (map inverse cs) cs' ->
    exists rows', forL cs denseChange rows = Some rows' /\ forL cs' denseChange rows' = Some rows.
Proof. exact dense_scores_restored. Qed.
Print Assumptions C58_dense_scores_restored.


Example C58_dense_scores_restored_example :
  Permutation (map inverse [Apply 0 (CompletePrediction [1; 2]); Apply 1 (PartialPrediction [1%nat] [4])])
    [Revert 1 (PartialPrediction [1%nat] [4]); Revert 0 (CompletePrediction [1; 2])] /\
  Forall (valid_change 2 2) [Apply 0 (CompletePrediction [1; 2]); Apply 1 (PartialPrediction [1%nat] [4])].
Proof. split; [apply perm_swap|]. repeat constructor; simpl; lia. Qed.

Theorem C58_sparse_scores : forall n rows cs, Forall (valid_row n) rows -> Forall (valid_change (length rows) n) cs ->
    exists rows', forL cs sparseChange rows = Some rows' /\ length rows' = length rows /\
      forall e l, (e < length rows)%nat -> (l < n)%nat -> exists x,
        sparseScore (nth e rows (ss_empty R 0)) l = Some x /\ sparseScore (nth e rows' (ss_empty R 0)) l = Some (x + effects e l cs).
Proof. exact sparse_scores. Qed.
Print Assumptions C58_sparse_scores.

Example C58_sparse_scores_example :
  let row := mkSset [(2%nat, 7)] [None; None; Some 0%nat] in
  valid_row 3 row /\ sparseScore row 0 = Some 0 /\ sparseScore row 2 = Some 7 /\
  forL [Apply 0 (PartialPrediction [0%nat] [1])] sparseChange [row] =
    Some [mkSset [(2%nat, 7); (0%nat, 0 + 1)] [Some 1%nat; None; Some 0%nat]].
Proof.
  intros row. split; [exists [SsEmplace 2 7]; split; [repeat constructor|reflexivity]|].
  split; [reflexivity|split; reflexivity].
Qed.

(** The scores are restored, although zeros may be stored explicitly. *)
Theorem C58_sparse_scores_restored : forall n rows cs cs', Forall (valid_row n) rows -> Forall (valid_change (length rows) n) cs ->
    Permutation (map inverse cs) cs' ->
    exists rows' rows'', forL cs sparseChange rows = Some rows' /\ forL cs' sparseChange rows' = Some rows'' /\
      forall e l, (e < length rows)%nat -> (l < n)%nat ->
        sparseScore (nth e rows'' (ss_empty R 0)) l = sparseScore (nth e rows (ss_empty R 0)) l.
Proof. exact sparse_scores_restored. Qed.
Print Assumptions C58_sparse_scores_restored.


Example C58_sparse_scores_restored_example :
  (let* rows := forL [Apply 0 (PartialPrediction [1%nat] [4])] sparseChange [ss_empty R 2] in
   forL [Revert 0 (PartialPrediction [1%nat] [4])] sparseChange rows) = Some [mkSset [(1%nat, 0 + 4 - 4)] [None; Some 0%nat]].
Proof. reflexivity. Qed.

(** Outputs for which a rule does not predict are unaffected. *)
Theorem C58_unaffected_scores : forall e l cs, (forall c, In c cs -> exampleOf c = e -> ~ predicts (predictionOf c) l) -> effects e l cs = 0.
Proof. exact unaffected_scores. Qed.
Print Assumptions C58_unaffected_scores.

Example C58_unaffected_scores_example : ~ predicts (PartialPrediction [2%nat; 0%nat] [4; 5]) 1.
Proof. simpl. lia. Qed.

Theorem C58_sparse_and_dense_scores : forall n numRows cs, Forall (valid_change numRows n) cs ->
    exists dense sparse, forL cs denseChange (repeat (repeat 0 n) numRows) = Some dense /\
      forL cs sparseChange (repeat (ss_empty R n) numRows) = Some sparse /\
      forall e l, (e < numRows)%nat -> (l < n)%nat ->
        sparseScore (nth e sparse (ss_empty R 0)) l = Some (nth l (nth e dense []) 0).
Proof. exact sparse_dense_scores. Qed.
Print Assumptions C58_sparse_and_dense_scores.

Example C58_sparse_and_dense_scores_example :
  forL [Apply 0 (PartialPrediction [1%nat] [4]); Apply 0 (CompletePrediction [1; 2])] denseChange [[0; 0]] = Some [[0 + 1; 0 + 4 + 2]] /\
  forL [Apply 0 (PartialPrediction [1%nat] [4]); Apply 0 (CompletePrediction [1; 2])] sparseChange [ss_empty R 2] =
    Some [mkSset [(1%nat, 0 + 4 + 2); (0%nat, 0 + 1)] [Some 1%nat; Some 0%nat]].
Proof. split; reflexivity. Qed.


(** ** C59: Covered plus uncovered statistics equal the total (see also Properties/Seco.v)
    Weights of examples may be arbitrary and outputs may be given in any order. *)
Theorem C59_dense : forall rows weights numCols, Forall (fun row => length row = numCols) rows -> numWeights weights = length rows ->
    forall ops excluded o sops, Forall (total_op_in_range (length rows)) ops ->
      Forall (fun i => (i < length rows)%nat) excluded -> valid_outputs numCols o ->
      Forall (subset_op_in_range (length rows)) sops ->
      exists s, (let* total := newWeighted denseClass rows weights numCols in
                 let* total := forL ops (totalStep denseClass rows weights) total in
                 let* s := newSubset denseClass rows weights total excluded o in
                 forL sops (subsetStep denseClass rows weights o) s) = Some s /\
        forall k k', k = Covered /\ k' = Uncovered \/ k = CoveredAccumulated /\ k' = UncoveredAccumulated /\ In ResetSubset sops ->
          exists covered uncovered, scoredVector denseClass o s k = Some covered /\ scoredVector denseClass o s k' = Some uncovered /\
            forall i l, nth_error (outputsOf o) i = Some l -> exists x y, nth_error covered i = Some x /\ nth_error uncovered i = Some y /\
              fst x + fst y = sumOf (coverable weights ops excluded) (denseGradient rows l) /\
              snd x + snd y = sumOf (coverable weights ops excluded) (denseHessian rows l).
Proof. exact dense_covered_uncovered. Qed.
Print Assumptions C59_dense.

Example C59_dense_example :
  let rows := [[(1, 1); (2, 1)]; [(3, 1); (4, 1)]] in
  Forall (fun row : list (R * R) => length row = 2%nat) rows /\ Forall (total_op_in_range 2) [ResetCovered; AddCovered 0; AddCovered 1] /\
  Forall (subset_op_in_range 2) [AddToSubset 1; ResetSubset] /\ valid_outputs 2 (SomeOutputs [1%nat]) /\
  sumOf (coverable (IndividualWeights [2; 3]) [ResetCovered; AddCovered 0; AddCovered 1] []) (denseGradient rows 1) = 2 * 2 + 3 * 4.
Proof. intros rows. split; [repeat constructor|]. split; [repeat constructor|]. split; [repeat constructor|]. split; [simpl; repeat constructor|].
  unfold coverable, tracked, sumOf, denseGradient, single. simpl. lra. Qed.

Theorem C59_sparse : forall rows weights numCols, Forall (valid_row numCols) rows -> numWeights weights = length rows ->
    forall ops excluded o sops, Forall (total_op_in_range (length rows)) ops ->
      Forall (fun i => (i < length rows)%nat) excluded -> valid_outputs numCols o ->
      Forall (subset_op_in_range (length rows)) sops ->
      exists s, (let* total := newWeighted sparseClass rows weights numCols in
                 let* total := forL ops (totalStep sparseClass rows weights) total in
                 let* s := newSubset sparseClass rows weights total excluded o in
                 forL sops (subsetStep sparseClass rows weights o) s) = Some s /\
        forall k k', k = Covered /\ k' = Uncovered \/ k = CoveredAccumulated /\ k' = UncoveredAccumulated /\ In ResetSubset sops ->
          exists covered uncovered, scoredVector sparseClass o s k = Some covered /\ scoredVector sparseClass o s k' = Some uncovered /\
            forall i l, nth_error (outputsOf o) i = Some l -> exists x y,
              sparseElement covered i = Some x /\ sparseElement uncovered i = Some y /\
              fst x + fst y = sumOf (coverable (effective weights) ops excluded) (sparseGradient rows l) /\
              snd x + snd y = sumOf (coverable (effective weights) ops excluded) (sparseHessian rows l).
Proof. exact sparse_covered_uncovered. Qed.
Print Assumptions C59_sparse.


Example C59_sparse_example :
  let rows := [mkSset [(1%nat, (-1, 1))] [None; Some 0%nat]; ss_empty (R * R) 2] in
  Forall (valid_row 2) rows /\ Forall (fun w => isEqualToZero w = true -> w = 0) [2; 0] /\
  sumOf (coverable (IndividualWeights [2; 0]) [] []) (sparseGradient rows 1) = -2 /\
  sumOf (coverable (EqualWeights 2) [] [0%nat]) (sparseHessian rows 0) = 1.
Proof.
  intros rows. split; [|split; [|split]].
  - constructor; [exists [SsEmplace 1 (-1, 1)]; split; [repeat constructor|reflexivity]|].
    constructor; [exists []; split; [constructor|reflexivity]|constructor].
  - constructor; [|constructor; [auto|constructor]]. intros H. apply zero_small in H. rewrite Rabs_right in H by lra.
    assert (/ 2 ^ 52 < 1) by (rewrite <- Rinv_1; apply Rinv_lt_contravar; lra). lra.
  - unfold coverable, tracked, sumOf, sparseGradient, sparseStatistic, stored, single. simpl. lra.
  - unfold coverable, tracked, sumOf, sparseHessian, sparseStatistic, stored, single. simpl. lra.
Qed.

(** The total does not depend on the examples added to the subset. *)
Theorem C59_non_decomposable :
  forall rows weights numCols,
    Forall (fun row => length (fst row) = numCols /\ length (snd row) = (numCols * (numCols + 1) / 2)%nat) rows ->
    numWeights weights = length rows ->
    forall ops excluded o, Forall (total_op_in_range (length rows)) ops ->
      Forall (fun i => (i < length rows)%nat) excluded -> valid_outputs numCols o ->
      exists total : nat -> nat -> R, (StronglySorted le (outputsOf o) -> forall l m, (m <= l)%nat ->
          total l m = sumOf (coverable weights ops excluded) (ndHessian rows l m)) /\
        forall sops, Forall (subset_op_in_range (length rows)) sops ->
        exists s, (let* total := newWeighted ndClass rows weights numCols in
                   let* total := forL ops (totalStep ndClass rows weights) total in
                   let* s := newSubset ndClass rows weights total excluded o in
                   forL sops (subsetStep ndClass rows weights o) s) = Some s /\
          forall k k', k = Covered /\ k' = Uncovered \/ k = CoveredAccumulated /\ k' = UncoveredAccumulated /\ In ResetSubset sops ->
            exists covered uncovered, scoredVector ndClass o s k = Some covered /\ scoredVector ndClass o s k' = Some uncovered /\
              (forall i l, nth_error (outputsOf o) i = Some l -> exists x y,
                nth_error (fst covered) i = Some x /\ nth_error (fst uncovered) i = Some y /\
                x + y = sumOf (coverable weights ops excluded) (ndGradient rows l)) /\
              (forall i j l m, (j <= i)%nat -> nth_error (outputsOf o) i = Some l -> nth_error (outputsOf o) j = Some m -> exists x y,
                nth_error (snd covered) (i * (i + 1) / 2 + j) = Some x /\ nth_error (snd uncovered) (i * (i + 1) / 2 + j) = Some y /\
                x + y = total l m).
Proof. exact nd_covered_uncovered. Qed.
Print Assumptions C59_non_decomposable.

Example C59_non_decomposable_example :
  let rows := [([1; 2], [1; 3; 5]); ([4; 8], [2; 7; 11])] in
  Forall (fun row : list R * list R => length (fst row) = 2%nat /\ length (snd row) = 3%nat) rows /\
  valid_outputs 2 (SomeOutputs [1%nat; 0%nat]) /\ numWeights (IndividualWeights [2; 3]) = 2%nat /\
  Forall (subset_op_in_range 2) [AddToSubset 1; ResetSubset; AddToSubset 0] /\
  sumOf (coverable (IndividualWeights [2; 3]) [] []) (ndHessian rows 1 0) = 2 * 3 + 3 * 7.
Proof. intros rows. split; [repeat constructor|]. split; [simpl; repeat constructor|]. split; [auto|]. split; [repeat constructor|].
  unfold coverable, tracked, sumOf, ndHessian, single. simpl. lra. Qed.

(** ** C103: Aggregated statistics are weighted sums
    Missing: non-decomposable statistics for outputs that are not in increasing order. *)
Theorem C103_dense : forall rows weights numCols, Forall (fun row => length row = numCols) rows -> numWeights weights = length rows ->
    forall ops excluded o sops, Forall (total_op_in_range (length rows)) ops ->
      Forall (fun i => (i < length rows)%nat) excluded -> valid_outputs numCols o ->
      Forall (subset_op_in_range (length rows)) sops ->
      exists total0 total s0 s, newWeighted denseClass rows weights numCols = Some total0 /\
        forL ops (totalStep denseClass rows weights) total0 = Some total /\
        newSubset denseClass rows weights total excluded o = Some s0 /\
        forL sops (subsetStep denseClass rows weights o) s0 = Some s /\
        forall k, (accumulates k -> In ResetSubset sops) ->
          exists v, scoredVector denseClass o s k = Some v /\
            exact_dense rows (outputsOf o) (scoredContributions weights ops excluded sops k) v.
Proof. exact dense_aggregation. Qed.
Print Assumptions C103_dense.


Example C103_dense_example :
  let rows := [[(1, 1); (2, 1)]; [(3, 1); (4, 1)]] in
  let o := SomeOutputs [1%nat; 0%nat] in
  (let* total := newWeighted denseClass rows (IndividualWeights [2; 3]) 2 in
   let* total := forL [RemoveCovered 0] (totalStep denseClass rows (IndividualWeights [2; 3])) total in
   let* s := newSubset denseClass rows (IndividualWeights [2; 3]) total [] o in
   let* s := forL [AddToSubset 1; ResetSubset; AddToSubset 0] (subsetStep denseClass rows (IndividualWeights [2; 3]) o) s in
   scoredVector denseClass o s CoveredAccumulated) = Some [(0 + 4 * 3, 0 + 1 * 3); (0 + 3 * 3, 0 + 1 * 3)] /\
  accumulates CoveredAccumulated.
Proof. split; reflexivity. Qed.

Theorem C103_sparse : forall rows weights numCols, Forall (valid_row numCols) rows -> numWeights weights = length rows ->
    (forall l, weights = IndividualWeights l -> Forall (fun w => isEqualToZero w = true -> w = 0) l) ->
    forall ops excluded o sops, Forall (total_op_in_range (length rows)) ops ->
      Forall (fun i => (i < length rows)%nat) excluded -> valid_outputs numCols o ->
      Forall (subset_op_in_range (length rows)) sops ->
      exists total0 total s0 s, newWeighted sparseClass rows weights numCols = Some total0 /\
        forL ops (totalStep sparseClass rows weights) total0 = Some total /\
        newSubset sparseClass rows weights total excluded o = Some s0 /\
        forL sops (subsetStep sparseClass rows weights o) s0 = Some s /\
        forall k, (accumulates k -> In ResetSubset sops) ->
          exists v, scoredVector sparseClass o s k = Some v /\
            exact_sparse rows (outputsOf o) (scoredContributions weights ops excluded sops k) v.
Proof. exact sparse_aggregation. Qed.
Print Assumptions C103_sparse.


Example C103_sparse_example :
  let rows := [mkSset [(1%nat, (-1, 1))] [None; Some 0%nat]; ss_empty (R * R) 2] in
  exists v, newWeighted sparseClass rows (EqualWeights 2) 2 = Some v /\
    sparseElement v 0 = Some (0, 0 + (0 + 1 + 1 - 0)) /\ sparseElement v 1 = Some (0 + -1, 0 + 1 + (0 + 1 + 1 - (0 + 1))).
Proof. eexists. split; [reflexivity|]. split; reflexivity. Qed.

Theorem C103_non_decomposable_partial : forall rows weights numCols,
    Forall (fun row => length (fst row) = numCols /\ length (snd row) = (numCols * (numCols + 1) / 2)%nat) rows ->
    numWeights weights = length rows ->
    forall ops excluded o sops, Forall (total_op_in_range (length rows)) ops ->
      Forall (fun i => (i < length rows)%nat) excluded -> valid_outputs numCols o -> StronglySorted le (outputsOf o) ->
      Forall (subset_op_in_range (length rows)) sops ->
      exists total0 total s0 s, newWeighted ndClass rows weights numCols = Some total0 /\
        forL ops (totalStep ndClass rows weights) total0 = Some total /\
        newSubset ndClass rows weights total excluded o = Some s0 /\
        forL sops (subsetStep ndClass rows weights o) s0 = Some s /\
        forall k, (accumulates k -> In ResetSubset sops) ->
          exists v, scoredVector ndClass o s k = Some v /\
            exact_nd rows (outputsOf o) (scoredContributions weights ops excluded sops k) v.
Proof. exact nd_aggregation. Qed.
Print Assumptions C103_non_decomposable_partial.

Example C103_non_decomposable_partial_example :
  let rows := [([1; 2; 3], [1; 2; 3; 4; 5; 6])] in
  Forall (fun row : list R * list R => length (fst row) = 3%nat /\ length (snd row) = (3 * (3 + 1) / 2)%nat) rows /\
  StronglySorted le (outputsOf (SomeOutputs [0%nat; 2%nat])) /\ ndHessian rows 2 0 0 = 4 /\
  (let* total := newWeighted ndClass rows (EqualWeights 1) 3 in
   let* s := newSubset ndClass rows (EqualWeights 1) total [] (SomeOutputs [0%nat; 2%nat]) in
   let* s := subsetStep ndClass rows (EqualWeights 1) (SomeOutputs [0%nat; 2%nat]) (AddToSubset 0) s in
   scoredVector ndClass (SomeOutputs [0%nat; 2%nat]) s Covered) = Some ([0 + 1; 0 + 3], [0 + 1; 0 + 4; 0 + 6]).
Proof. intros rows. split; [repeat constructor|]. split; [repeat constructor|]. split; reflexivity. Qed.

(** Outputs that are sampled without replacement are not in increasing order. *)
Theorem C103_non_decomposable_refuted : exists fuel numCols numSamples seed indices seed' rows v,
    outputSample fuel numCols numSamples (repeat 0%nat numSamples) seed = Some (indices, seed') /\
    Forall (fun row => length (fst row) = numCols /\ length (snd row) = (numCols * (numCols + 1) / 2)%nat) rows /\
    valid_outputs numCols (SomeOutputs indices) /\ NoDup indices /\
    (let* total := newWeighted ndClass rows (EqualWeights (length rows)) numCols in
     let* s := newSubset ndClass rows (EqualWeights (length rows)) total [] (SomeOutputs indices) in
     let* s := subsetStep ndClass rows (EqualWeights (length rows)) (SomeOutputs indices) (AddToSubset 0) s in
     scoredVector ndClass (SomeOutputs indices) s Covered) = Some v /\
    exists i j l m x, (j <= i)%nat /\ nth_error indices i = Some l /\ nth_error indices j = Some m /\
      nth_error (snd v) (i * (i + 1) / 2 + j) = Some x /\ x <> ndHessian rows l m 0.
Proof. exact nd_unsorted_refuted. Qed.
Print Assumptions C103_non_decomposable_refuted.

(** ** C104: Sparse scores are evaluated like dense ones
    Missing: scores that are not stored in increasing order of the outputs. *)
Theorem C104_evaluation_partial : forall n labels row evaluate, valid_labels n labels -> valid_row n row -> sortedRow row -> evaluate false 0 = 0 ->
    exists sparse dense, evaluateSparse evaluate labels row n = Some sparse /\
      evaluateMean evaluate (denseScores n row) (denseLabels n labels) n = Some dense /\
      Rabs (sparse - dense) <= / 2 ^ 52 /\
      ((forall l, (l < n)%nat -> let x := evaluate (isMember labels l) (scoreAt row l) in x <> 0 -> / 2 ^ 52 < Rabs x) ->
        sparse = dense).
Proof. exact sparse_evaluation. Qed.
Print Assumptions C104_evaluation_partial.

Theorem C104_update_partial : forall n labels scores row update, valid_labels n labels -> valid_row n scores -> sortedRow scores -> valid_row n row ->
    isEqualToZero (fst (update false 0)) = true ->
    exists row', updateSparseComplete update labels scores row = Some row' /\ valid_row n row' /\
      forall l, (l < n)%nat -> stored row' l = kept (update (isMember labels l) (scoreAt scores l)).
Proof. exact sparse_complete_update. Qed.
Print Assumptions C104_update_partial.

Example C104_partial_example :
  let scores := mkSset [(0%nat, 1 / 2); (2%nat, -1)] [Some 0%nat; None; Some 1%nat] in
  valid_labels 3 [1%nat] /\ valid_row 3 scores /\ sortedRow scores /\ evaluateSquaredHinge false 0 = 0 /\
  isEqualToZero (fst (updateSquaredHinge false 0)) = true /\ denseScores 3 scores = [1 / 2; 0; -1] /\
  denseLabels 3 [1%nat] = [false; true; false].
Proof.
  intros scores. split; [split; repeat constructor|].
  split; [exists [SsEmplace 0 (1 / 2); SsEmplace 2 (-1)]; split; [repeat constructor|reflexivity]|].
  split; [repeat constructor|]. split; [simpl; destruct (Rgt_dec 0 0); lra|].
  split; [simpl; destruct (Rgt_dec 0 0); [lra|apply zero_zero]|]. split; reflexivity.
Qed.

(** Scores are stored in increasing order, if the first rule that is applied to an example predicts for all outputs. *)
Theorem C104_sorted_scores_partial : forall n numRows cs rows, Forall (valid_change numRows n) cs -> (forall e, firstChangeComplete cs e) ->
    forL cs sparseChange (repeat (ss_empty R n) numRows) = Some rows -> Forall sortedRow rows.
Proof. exact scores_sorted. Qed.
Print Assumptions C104_sorted_scores_partial.

Example C104_sorted_scores_partial_example :
  let cs := [Apply 0 (CompletePrediction [1; 2]); Apply 0 (PartialPrediction [1%nat] [3]); Apply 1 (CompletePrediction [4; 5])] in
  Forall (valid_change 3 2) cs /\ forall e, firstChangeComplete cs e.
Proof.
  intros cs. split; [repeat constructor; simpl; lia|]. intros [|[|e]] c; simpl; intros H; try discriminate; injection H as <-; simpl; eauto.
Qed.

(** Two rules with a single output each. *)
Theorem C104_evaluation_refuted : exists n labels cs row sparse dense, valid_labels n labels /\ Forall (valid_change 1 n) cs /\
    forL cs sparseChange [ss_empty R n] = Some [row] /\
    evaluateSparse evaluateSquaredHinge labels row n = Some sparse /\
    evaluateMean evaluateSquaredHinge (denseScores n row) (denseLabels n labels) n = Some dense /\ sparse = 1 /\ dense = 0.
Proof. exact sparse_evaluation_refuted. Qed.
Print Assumptions C104_evaluation_refuted.

Theorem C104_update_refuted : exists n labels cs scores row l, valid_labels n labels /\ Forall (valid_change 1 n) cs /\
    forL cs sparseChange [ss_empty R n] = Some [scores] /\ (l < n)%nat /\
    updateSparseComplete updateSquaredHinge labels scores (ss_empty _ n) = Some row /\
    sparseStatistic row l = (1, 1) /\ updateSquaredHinge (isMember labels l) (scoreAt scores l) = (0, 1).
Proof. exact sparse_update_refuted. Qed.
Print Assumptions C104_update_refuted.

(** ** C105: Only the statistics of predicted outputs are updated
    Missing: outputs that are not in increasing order, if labels are stored in a sparse format. *)
(** Dense labels. *)
Theorem C105_sparse_statistics : forall n labels scores indices row update, length labels = n -> valid_row n scores -> valid_row n row ->
    Forall (fun i => (i < n)%nat) indices ->
    exists row', updateSparsePartial update labels scores indices row = Some row' /\ valid_row n row' /\
      forall l, (l < n)%nat -> stored row' l = if isMember indices l then kept (update (nth l labels false) (scoreAt scores l))
                                       else stored row l.
Proof. exact sparse_partial_update. Qed.
Print Assumptions C105_sparse_statistics.


Example C105_sparse_statistics_example :
  valid_row 2 (ss_empty R 2) /\ valid_row 2 (mkSset [(0%nat, (-1, 1))] [Some 0%nat; None]) /\
  sparseScore (ss_empty R 2) 1 = Some 0 /\ kept (-1, 1) = Some (-1, 1) /\ kept (0, 1) = None.
Proof.
  split; [exists []; split; [constructor|reflexivity]|].
  split; [exists [SsEmplace 0 (-1, 1)]; split; [repeat constructor|reflexivity]|]. split; [reflexivity|].
  unfold kept. cbn [fst]. rewrite one_nonzero by (rewrite Rabs_left; lra). rewrite zero_zero. auto.
Qed.

(** Sparse labels. *)
Theorem C105_sparse_statistics_and_labels_partial : forall n labels scores indices row update, valid_labels n labels -> valid_row n scores -> valid_row n row ->
    Forall (fun i => (i < n)%nat) indices -> StronglySorted le indices ->
    exists row', updateSparsePartialCsr update labels scores indices row = Some row' /\ valid_row n row' /\
      forall l, (l < n)%nat -> stored row' l = if isMember indices l then kept (update (isMember labels l) (scoreAt scores l))
                                       else stored row l.
Proof. exact sparse_partial_update_csr. Qed.
Print Assumptions C105_sparse_statistics_and_labels_partial.

(** Sparse labels and dense statistics. *)
Theorem C105_dense_statistics_and_sparse_labels_partial : forall n labels scores indices row update, valid_labels n labels -> length scores = n -> length row = n ->
    Forall (fun i => (i < n)%nat) indices -> StronglySorted le indices ->
    exists row', updateDensePartialCsr update labels scores indices row = Some row' /\ length row' = n /\
      forall l, (l < n)%nat -> nth l row' (0, 0) = if isMember indices l then update (isMember labels l) (nth l scores 0)
                                           else nth l row (0, 0).
Proof. exact dense_partial_update_csr. Qed.
Print Assumptions C105_dense_statistics_and_sparse_labels_partial.

Example C105_dense_statistics_and_sparse_labels_partial_example :
  valid_labels 4 [1%nat; 3%nat] /\ StronglySorted le [1%nat; 2%nat] /\
  updateDensePartialCsr (fun label score => (if label then score - 1 else score, 1)) [1%nat; 3%nat] [0; 0; 5; 0] [1%nat; 2%nat]
    [(7, 7); (7, 7); (7, 7); (7, 7)] = Some [(7, 7); (0 - 1, 1); (5, 1); (7, 7)].
Proof. split; [split; repeat constructor|]. split; [repeat constructor|reflexivity]. Qed.

(** The head of a rule that predicts for a random sample of outputs: the statistics of a relevant label are those of an irrelevant one. *)
Theorem C105_sparse_labels_refuted : exists fuel n numSamples seed indices seed' values h labels scores row row' l,
    outputSample fuel n numSamples (repeat 0%nat numSamples) seed = Some (indices, seed') /\
    length values = length indices /\ sortHead (completeRuleEvaluationHead indices values) h /\
    valid_labels n labels /\ length scores = n /\ length row = n /\ In l (headIndices h) /\
    updateDensePartialCsr updateSquaredHinge labels scores (headIndices h) row = Some row' /\
    nth l row' (0, 0) = (0, 1) /\ updateSquaredHinge (isMember labels l) (nth l scores 0) = (-1, 1).
Proof. exact csr_update_refuted. Qed.
Print Assumptions C105_sparse_labels_refuted.

(** ** C106: Partial heads are sorted
    Missing: heads that are marked as sorted, although they are not. *)
Theorem C106_sorted_partial : forall indices values h, length values = length indices -> sortHead (processPartialScores indices values false) h ->
    StronglySorted le (headIndices h) /\ length (headValues h) = length (headIndices h) /\
    Permutation indices (headIndices h) /\
    forall l, predictedScore (PartialPrediction (headIndices h) (headValues h)) l = predictedScore (PartialPrediction indices values) l.
Proof. exact sorted_heads. Qed.
Print Assumptions C106_sorted_partial.

Example C106_sorted_partial_example :
  sortHead (processPartialScores [2%nat; 0%nat] [5; 6] false) (mkHead [0%nat; 2%nat] [6; 5] true).
Proof.
  split; [reflexivity|]. simpl. exists [(0%nat, 6); (2%nat, 5)]. split; [apply perm_swap|]. split; [repeat constructor|auto].
Qed.

Theorem C106_sorted_refuted : exists fuel numOutputs numSamples seed indices seed' values h,
    outputSample fuel numOutputs numSamples (repeat 0%nat numSamples) seed = Some (indices, seed') /\
    length values = length indices /\ sortHead (completeRuleEvaluationHead indices values) h /\ ~ StronglySorted le (headIndices h).
Proof. exact unsorted_heads_refuted. Qed.
Print Assumptions C106_sorted_refuted.
