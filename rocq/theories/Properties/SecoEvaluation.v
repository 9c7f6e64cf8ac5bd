(** Properties of lift functions and of the evaluation of rules by separate-and-conquer algorithms. *)
From Coq Require Import Reals QArith ZArith Arith List Bool Sorted Permutation Lia Lra.
From Verif Require Import Lib.Arr Model.SecoStatistics Model.SecoEvaluation Spec.Seco Spec.SecoEvaluation Proofs.SecoEvaluation.
Import ListNotations.
Open Scope R_scope.

(** ** C51: Lift functions reward larger heads correctly
    Missing: the peak lift function does not have this property. *)
(** Without a lift function. *)
Theorem C51_no_lift_partial : forall numLabels, admissible noLift noMaxLift numLabels.
Proof. exact no_lift_admissible. Qed.
Print Assumptions C51_no_lift_partial.

(** The KLN lift function. *)
Theorem C51_kln_partial : forall k numLabels, 0 <= k -> admissible (klnLift k) (klnMaxLift k numLabels) numLabels.
Proof. exact kln_admissible. Qed.
Print Assumptions C51_kln_partial.

Example C51_kln_partial_example : 0 <= 2 /\ klnLift 2 1 = 1 /\ 1 < klnLift 2 3 < klnMaxLift 2 4 3.
Proof.
  split; [lra|]. unfold klnMaxLift, klnLift. assert (0 < ln (INR 3) < ln (INR 4)).
  { split; [rewrite <- ln_1|]; apply ln_increasing; simpl; lra. }
  simpl INR at 1. rewrite ln_1. lra.
Qed.

(** The peak lift function with the default curvature satisfies a weaker requirement. *)
Theorem C51_peak_partial : forall total peak maxLiftValue lift maxLift, (1 <= peak <= total)%nat -> 1 <= maxLiftValue ->
    (forall n, (1 <= n <= total)%nat -> peakLift total peak maxLiftValue 1 n = Some (lift n)) ->
    (forall n, (1 <= n < total)%nat -> peakMaxLift total peak maxLiftValue 1 n = Some (Some (maxLift n))) ->
    admissible_nonneg lift maxLift total.
Proof. exact peak_admissible. Qed.
Print Assumptions C51_peak_partial.

Example C51_peak_partial_example : (1 <= 3 <= 3)%nat /\ 1 <= 2 /\
  (forall n, (1 <= n <= 3)%nat -> peakLift 3 3 2 1 n = Some (1 + (INR n - 1) / 2)) /\
  (forall n, (1 <= n < 3)%nat -> peakMaxLift 3 3 2 1 n = Some (Some 2)).
Proof.
  split; [lia|]. split; [lra|]. split; intros n Hn.
  - rewrite peak_value. f_equal. destruct n as [|[|[|[|n]]]]; try lia; simpl; lra.
  - unfold peakMaxLift. destruct (Nat.ltb_spec n 3); [reflexivity|lia].
Qed.

(** The maximum lift of the peak lift function is not an upper bound, using the default configuration and four labels. *)
Theorem C51_bound_refuted : exists total peak m k a b, (1 <= m <= k)%nat /\ (k <= total)%nat /\ peak = configuredPeak 2 total 1 /\
  peakMaxLift total peak M108 1 m = Some (Some a) /\ peakLift total peak M108 1 k = Some b /\ a < b.
Proof. exact peak_not_bounded. Qed.
Print Assumptions C51_bound_refuted.

(** The lift is less than one and increases after the peak. *)
Theorem C51_increase_refuted : exists total peak n a b, (peak < n < total)%nat /\ peak = configuredPeak 2 total 1 /\
  peakLift total peak M108 1 n = Some a /\ peakLift total peak M108 1 (S n) = Some b /\ a < 1 /\ a < b.
Proof. exact peak_increases. Qed.
Print Assumptions C51_increase_refuted.

(** With a curvature of two, the lift is not a number for all heads after the peak that do not predict for all labels. *)
Theorem C51_nan_partial : forall total peak M n, (1 <= peak < n)%nat -> (n < total)%nat -> peakLift total peak M 2 n = None.
Proof. exact peak_nan. Qed.
Print Assumptions C51_nan_partial.

Example C51_nan_partial_example : (1 <= 2 < 3)%nat /\ (3 < 4)%nat /\ peakLift 4 2 2 2 3 = None.
Proof. split; [lia|]. split; [lia|]. apply peak_nan; lia. Qed.

(** If there is a single label, an array is always accessed beyond its end. *)
Theorem C51_out_of_bounds_partial : forall total peakLabel labelCardinality M curvature, total = 1%nat -> (labelCardinality <= total)%nat ->
    peakMaxLift total (configuredPeak peakLabel total labelCardinality) M curvature 1 = None.
Proof. exact peak_out_of_bounds. Qed.
Print Assumptions C51_out_of_bounds_partial.

Example C51_out_of_bounds_partial_example : (0 <= 1)%nat /\ peakMaxLift 1 (configuredPeak 2 1 0) 2 1 1 = None.
Proof. split; [lia|]. apply peak_out_of_bounds; auto. Qed.

(** The best head is discarded, using the default configuration and four labels with negative qualities. *)
Theorem C51_pruning_refuted : exists total peak lift maxLift entries head, peak = configuredPeak 2 total 1 /\
  (forall n, (1 <= n <= total)%nat -> peakLift total peak M108 1 n = Some (lift n)) /\
  (forall n, (1 <= n < total)%nat -> peakMaxLift total peak M108 1 n = Some (Some (maxLift n))) /\
  length entries = total /\ sorted_by_quality entries entries /\ is_head entries head /\
  exists indices predictions quality, selectHead lift maxLift entries = Some (indices, predictions, quality) /\
    quality < head_quality lift head.
Proof. exact peak_prunes_best. Qed.
Print Assumptions C51_pruning_refuted.

(** ** C52: Partial head search finds the best prefix *)
Definition qualities52 : heuristicFunction := fun c _ => IZR (cmRp c).
Definition covered52 : list confusion := [mkConfusion 0 0 0 1; mkConfusion 0 0 0 5; mkConfusion 0 0 0 4].
Definition total52 : list confusion := repeat (mkConfusion 3 3 3 7) 4.
Example matrices52 : matrices_for [0; 1; 3]%nat total52 covered52.
Proof. split; [repeat constructor|reflexivity]. Qed.
Definition entries52 : list entry := [mkEntry 1 5 false; mkEntry 3 4 true; mkEntry 0 1 true].

(** Among all heads that predict for a subset of the labels, one with the best quality is selected. *)
Theorem C52_best_head : forall h lift maxLift majority indices total covered, StronglySorted lt majority -> StronglySorted le indices -> indices <> [] ->
    matrices_for indices total covered ->
    exists entries, labelEntries h majority indices total covered = Some entries /\
      exact_entries h majority indices total covered entries /\
      forall sorted, sorted_by_quality entries sorted ->
        (admissible lift maxLift (length indices) \/
         Forall (fun e => 0 <= eQuality e) entries /\ admissible_nonneg lift maxLift (length indices)) ->
        selects_best lift maxLift entries sorted.
Proof. exact partial_evaluation. Qed.
Print Assumptions C52_best_head.

Example C52_best_head_example : StronglySorted lt [1; 2]%nat /\ StronglySorted le [0; 1; 3]%nat /\
  matrices_for [0; 1; 3]%nat total52 covered52 /\
  labelEntries qualities52 [1; 2]%nat [0; 1; 3]%nat total52 covered52 = Some [mkEntry 0 1 true; mkEntry 1 5 false; mkEntry 3 4 true] /\
  sorted_by_quality [mkEntry 0 1 true; mkEntry 1 5 false; mkEntry 3 4 true] entries52 /\
  admissible (fun n => if Nat.eqb n 2 then 3 / 2 else 1) (fun _ => 3 / 2) 3 /\
  selectHead (fun n => if Nat.eqb n 2 then 3 / 2 else 1) (fun _ => 3 / 2) entries52 = Some ([1; 3]%nat, [false; true], (5 + 4) / 2 * (3 / 2)).
Proof.
  split; [repeat constructor|]. split; [repeat (constructor; auto)|]. split; [apply matrices52|]. split; [reflexivity|].
  split; [split; [|repeat constructor; simpl; lra]|].
  { apply (Permutation_cons_app [mkEntry 1 5 false; mkEntry 3 4 true] []). apply Permutation_refl. }
  split; [repeat split; [intros k _|intros m k _ _]; destruct (Nat.eqb k 2); lra|].
  unfold selectHead, entries52. simpl. unfold liftedQuality. simpl. destruct (Rlt_dec _ _); [|lra]. destruct (Rlt_dec _ _); [lra|].
  destruct (Rlt_dec _ _); [lra|]. destruct (Rlt_dec _ _); reflexivity.
Qed.

(** The KLN lift function can be used with arbitrary heuristics. *)
Theorem C52_kln : forall h k majority indices total covered, 0 <= k -> StronglySorted lt majority -> StronglySorted le indices -> indices <> [] ->
    matrices_for indices total covered ->
    exists entries, labelEntries h majority indices total covered = Some entries /\
      forall sorted, sorted_by_quality entries sorted -> selects_best (klnLift k) (klnMaxLift k (length indices)) entries sorted.
Proof. exact kln_evaluation. Qed.
Print Assumptions C52_kln.

Example C52_kln_example : 0 <= 1 /\ StronglySorted lt [1; 2]%nat /\ StronglySorted le [0; 1; 3]%nat /\ [0; 1; 3]%nat <> [] /\
  matrices_for [0; 1; 3]%nat total52 covered52.
Proof. split; [lra|]. split; [repeat constructor|]. split; [repeat (constructor; auto)|]. split; [discriminate|apply matrices52]. Qed.

(** The peak lift function with the default curvature can be used with heuristics that are not negative. *)
Theorem C52_peak : forall total peak maxLiftValue lift maxLift entries sorted, (1 <= peak <= total)%nat -> 1 <= maxLiftValue ->
    (forall n, (1 <= n <= total)%nat -> peakLift total peak maxLiftValue 1 n = Some (lift n)) ->
    (forall n, (1 <= n < total)%nat -> peakMaxLift total peak maxLiftValue 1 n = Some (Some (maxLift n))) ->
    length entries = total -> sorted_by_quality entries sorted -> Forall (fun e => 0 <= eQuality e) entries ->
    selects_best lift maxLift entries sorted.
Proof. exact peak_best_head. Qed.
Print Assumptions C52_peak.

Example C52_peak_example : (1 <= 3 <= 3)%nat /\ 1 <= 2 /\
  (forall n, (1 <= n <= 3)%nat -> peakLift 3 3 2 1 n = Some (1 + (INR n - 1) / 2)) /\
  (forall n, (1 <= n < 3)%nat -> peakMaxLift 3 3 2 1 n = Some (Some 2)) /\
  sorted_by_quality entries52 entries52 /\ Forall (fun e => 0 <= eQuality e) entries52.
Proof.
  split; [lia|]. split; [lra|]. split; [apply C51_peak_partial_example|]. split; [apply C51_peak_partial_example|].
  split; [split; [apply Permutation_refl|]|]; repeat constructor; simpl; lra.
Qed.

(** ** C90: Heads are scored by the qualities of their labels *)
(** Rules that predict for all of the given labels. *)
Theorem C90_complete : forall h lift majority indices total covered, StronglySorted lt majority -> StronglySorted le indices ->
    matrices_for indices total covered ->
    exists entries, exact_entries h majority indices total covered entries /\
      evaluateComplete lift h majority indices total covered = Some (map ePrediction entries, head_quality lift entries).
Proof. exact complete_evaluation. Qed.
Print Assumptions C90_complete.

Example C90_complete_example : StronglySorted lt [1; 2]%nat /\ StronglySorted le [0; 1; 3]%nat /\
  matrices_for [0; 1; 3]%nat total52 covered52 /\
  evaluateComplete noLift qualities52 [1; 2]%nat [0; 1; 3]%nat total52 covered52 = Some ([true; false; true], (0 + 1 + 5 + 4) / (1 + 1 + 1) * 1).
Proof. split; [repeat constructor|]. split; [repeat (constructor; auto)|]. split; [apply matrices52|reflexivity]. Qed.

(** Rules that predict for a single label: the first one with the best quality is selected. The labels may be given in any order. *)
Theorem C90_single : forall h majority indices total covered, StronglySorted lt majority -> indices <> [] -> matrices_for indices total covered ->
    exists entries i e, exact_entries h majority indices total covered entries /\ nth_error entries i = Some e /\
      evaluateSingle h majority indices total covered = Some (eIndex e, ePrediction e, eQuality e) /\
      forall j e', nth_error entries j = Some e' -> eQuality e' <= eQuality e /\ ((j < i)%nat -> eQuality e' < eQuality e).
Proof. exact single_evaluation. Qed.
Print Assumptions C90_single.

Example C90_single_example : StronglySorted lt [1; 2]%nat /\ [3; 1; 0]%nat <> [] /\ matrices_for [3; 1; 0]%nat total52 covered52 /\
  evaluateSingle qualities52 [1; 2]%nat [3; 1; 0]%nat total52 covered52 = Some (1%nat, false, 5).
Proof.
  split; [repeat constructor|]. split; [discriminate|]. split; [split; [repeat constructor|reflexivity]|].
  unfold evaluateSingle, outputQuality, qualities52. simpl. destruct (Rlt_dec 1 5); [|lra]. simpl. destruct (Rlt_dec 5 4); [lra|]. reflexivity.
Qed.
