(** Properties of the configurations of rule learners. *)
From Coq Require Import QArith Bool List.
From Verif Require Import Model.Configuration Spec.Configuration Proofs.Configuration.
Import ListNotations.
Open Scope nat_scope.

(** ** C146: the order in which components are configured does not matter, and every configuration is complete *)

(** A pointer is determined by the last method that affects it, regardless of previous and subsequent methods. *)
Theorem C146_last :
  forall (P : Type) (c : configuration P) fs f p gs s v,
    In (s, v) (assignments f) ->
    (forall g, In g gs -> ~ affects (fst g) s) ->
    useAll (fs ++ (f, p) :: gs) c s = match v with Some k => Some (k, p) | None => None end.
Proof. exact last_method. Qed.
Print Assumptions C146_last.

Example C146_last_example :
  In (RegressionLossSlot, None) (assignments (useClassificationLoss NonDecomposableLogisticLossConfig)) /\
  (forall g, In g [(useHeads CompleteHeadConfig, 3)] -> ~ affects (fst g) RegressionLossSlot).
Proof.
  split; [right; left; reflexivity|]. intros g [<-|[]] [v H]. cbn in H. destruct H as [H|[]]. discriminate H.
Qed.

(** A pointer does not change if no method affects it. *)
Theorem C146_unaffected :
  forall (P : Type) (c : configuration P) fs s,
    (forall f, In f fs -> ~ affects (fst f) s) -> useAll fs c s = c s.
Proof. exact unaffected_pointer. Qed.
Print Assumptions C146_unaffected.

Example C146_unaffected_example :
  forall f, In f [(useHeads CompleteHeadConfig, 3); (useLoss DecomposableSquaredErrorLossConfig, 4)] -> ~ affects (fst f) RNGSlot.
Proof.
  intros f H. cbn in H. destruct H as [<-|[<-|[]]]; intros [v H]; cbn in H; repeat (destruct H as [H|H]; [discriminate H|]);
    exact H.
Qed.

(** Sequences of methods result in the same configuration if the methods that affect the same pointer are invoked in the same order. *)
Theorem C146_order :
  forall (P : Type) (c : configuration P) fs gs,
    (forall s, exists hs, affecting s fs hs /\ affecting s gs hs) ->
    forall s, useAll fs c s = useAll gs c s.
Proof. exact order_irrelevant. Qed.
Print Assumptions C146_order.

(** Two methods that do not have a pointer in common, where the first one is invoked twice. *)
Example C146_order_example :
  let f := (useStatistics DenseStatisticsConfig, 1) in
  let g := (useStatistics SparseStatisticsConfig, 2) in
  let h := (useLoss DecomposableSquaredErrorLossConfig, 3) in
  exists hs, affecting RegressionStatisticsSlot [f; h; g] hs /\ affecting RegressionStatisticsSlot [h; f; g] hs /\ length hs = 2.
Proof.
  cbv zeta. eexists. split; [|split].
  - apply affecting_keep; [exists (Some DenseStatisticsConfig); cbn; tauto|]. apply affecting_skip.
    + intros [v H]. cbn in H. destruct H as [H|[H|[]]]; discriminate H.
    + apply affecting_keep; [exists (Some SparseStatisticsConfig); cbn; tauto|]. apply affecting_nil.
  - apply affecting_skip.
    + intros [v H]. cbn in H. destruct H as [H|[H|[]]]; discriminate H.
    + apply affecting_keep; [exists (Some DenseStatisticsConfig); cbn; tauto|].
      apply affecting_keep; [exists (Some SparseStatisticsConfig); cbn; tauto|]. apply affecting_nil.
  - reflexivity.
Qed.

(** Methods that do not affect the same pointer commute. *)
Theorem C146_adjacent :
  forall (P : Type) (c : configuration P) fs f g gs,
    (forall s, ~ (affects (fst f) s /\ affects (fst g) s)) ->
    forall s, useAll (fs ++ f :: g :: gs) c s = useAll (fs ++ g :: f :: gs) c s.
Proof. exact adjacent_methods. Qed.
Print Assumptions C146_adjacent.

Example C146_adjacent_example :
  forall s, ~ (affects (useHeads CompleteHeadConfig) s /\ affects (useClassificationLoss DecomposableLogisticLossConfig) s).
Proof.
  intros s [[v Hv] [w Hw]]. cbn in Hv, Hw. destruct Hv as [Hv|[]]. injection Hv as <- _.
  destruct Hw as [Hw|[Hw|[]]]; discriminate Hw.
Qed.

(** Regardless of the methods that are invoked by a user, neither training nor predicting accesses a null pointer, and components do
    not use each other infinitely. *)
Theorem C146_completes :
  forall (P : Type) l (q : component -> P) fs u,
    allAvailable l fs ->
    In u (usedForTraining l ++ usedForPrediction l) ->
    completes (useAll fs (createConfig l q)) (fst u) (snd u).
Proof. exact training_completes. Qed.
Print Assumptions C146_completes.

(** The components that depend on each other automatically. *)
Example C146_completes_example :
  allAvailable BoomerClassifier [(useLoss NonDecomposableSquaredErrorLossConfig, 1); (useDefaultRule AutomaticDefaultRuleConfig, 2)] /\
  In (One ClassificationStatisticsSlot, createClassification)
     (usedForTraining BoomerClassifier ++ usedForPrediction BoomerClassifier).
Proof.
  split; [|cbn; tauto]. intros f H. cbn in H. destruct H as [<-|[<-|[]]]; reflexivity.
Qed.

(** The loss function and the format for storing statistics that are taken into account by other components are those that are used for
    training a classifier ... *)
Theorem C146_classifier :
  forall (P : Type) (q : component -> P) fs,
    allAvailable BoomerClassifier fs ->
    let c := useAll fs (createConfig BoomerClassifier q) in
    c ClassificationLossSlot <> None /\
    getProperty c LossProperty = c ClassificationLossSlot /\
    getProperty c StatisticsProperty = c ClassificationStatisticsSlot.
Proof. exact classifier_properties. Qed.
Print Assumptions C146_classifier.

Example C146_classifier_example :
  let fs := [(useLoss DecomposableSquaredErrorLossConfig, 1); (useClassificationLoss DecomposableSquaredHingeLossConfig, 2)] in
  allAvailable BoomerClassifier fs /\
  getProperty (useAll fs (createConfig BoomerClassifier (fun _ => 0))) LossProperty = Some (DecomposableSquaredHingeLossConfig, 2).
Proof.
  split; [|reflexivity]. intros f H. cbn in H. destruct H as [<-|[<-|[]]]; reflexivity.
Qed.

(** ... or a regressor. *)
Theorem C146_regressor :
  forall (P : Type) (q : component -> P) fs,
    allAvailable BoomerRegressor fs ->
    let c := useAll fs (createConfig BoomerRegressor q) in
    c RegressionLossSlot <> None /\
    getProperty c LossProperty = c RegressionLossSlot /\
    getProperty c StatisticsProperty = c RegressionStatisticsSlot.
Proof. exact regressor_properties. Qed.
Print Assumptions C146_regressor.

Example C146_regressor_example :
  let fs := [(useLoss NonDecomposableSquaredErrorLossConfig, 1)] in
  allAvailable BoomerRegressor fs /\
  getProperty (useAll fs (createConfig BoomerRegressor (fun _ => 0))) LossProperty = Some (NonDecomposableSquaredErrorLossConfig, 1).
Proof. split; [|reflexivity]. intros f [<-|[]]. reflexivity. Qed.

(** ** C147: false; full statement: unless a component is configured by a user, the component that is documented as the default setting
    is used ([documented]). Unless a parameter of a component is configured by a user, it has the documented default value
    ([documentedValue]). *)

(** Missing: feature binning. *)
Theorem C147_boosting_partial :
  forall l fs s k,
    isBoosting l = true ->
    (forall f, In f fs -> ~ affects (fst f) s) ->
    documented l s = Some k -> s <> FeatureBinningSlot ->
    useAll fs (createConfig l (defaultParameters l)) s = Some (k, defaultParameters l k).
Proof. exact boosting_defaults. Qed.
Print Assumptions C147_boosting_partial.

Example C147_boosting_partial_example :
  let fs := [(useLoss DecomposableSquaredErrorLossConfig, [])] in
  (forall f, In f fs -> ~ affects (fst f) SizeStoppingCriterionSlot) /\
  documented BoomerRegressor SizeStoppingCriterionSlot = Some SizeStoppingCriterionConfig /\
  useAll fs (createConfig BoomerRegressor (defaultParameters BoomerRegressor)) SizeStoppingCriterionSlot =
  Some (SizeStoppingCriterionConfig, [(MaxRules, 1000%Q)]).
Proof.
  cbv zeta. split; [|split; reflexivity]. intros f [<-|[]] [v H]. cbn in H. destruct H as [H|[H|[]]]; discriminate H.
Qed.

(** Missing: holdout sets, the pruning of individual rules, as well as the sampling of features and examples. *)
Theorem C147_seco_partial :
  forall fs s k,
    (forall f, In f fs -> ~ affects (fst f) s) ->
    documented SeCoClassifier s = Some k ->
    ~ In s [ClassificationPartitionSamplingSlot; RulePruningSlot; FeatureSamplingSlot; ClassificationInstanceSamplingSlot] ->
    useAll fs (createConfig SeCoClassifier (defaultParameters SeCoClassifier)) s = Some (k, defaultParameters SeCoClassifier k).
Proof. exact seco_defaults. Qed.
Print Assumptions C147_seco_partial.

Example C147_seco_partial_example :
  documented SeCoClassifier HeuristicSlot = Some FMeasureConfig /\
  useAll [(useRNG, [])] (createConfig SeCoClassifier (defaultParameters SeCoClassifier)) HeuristicSlot =
  Some (FMeasureConfig, [(BetaValue, 25 # 100)]).
Proof. split; reflexivity. Qed.

(** Missing: five parameters, two of which are only affected if rules are learned via separate-and-conquer. *)
Theorem C147_values_partial :
  forall l k x v,
    documentedValue k x = Some v ->
    ~ (k = InstanceSamplingWithReplacementConfig /\ x = SampleSize) ->
    ~ (k = PrePruningConfig /\ x = Aggregation) ->
    ~ (k = FMeasureConfig /\ x = BetaValue) ->
    ~ (l = SeCoClassifier /\ (x = MaxRules \/ x = RecalculatePredictions)) ->
    In (x, v) (defaultParameters l k) /\ (forall w, In (x, w) (defaultParameters l k) -> w = v).
Proof. exact default_values. Qed.
Print Assumptions C147_values_partial.

Example C147_values_partial_example :
  documentedValue PrePruningConfig MinimumImprovement = Some (5 # 1000).
Proof. reflexivity. Qed.

(** By default, an automatic strategy is used for feature binning, rather than none. *)
Theorem C147_binning_refuted :
  forall l, isBoosting l = true ->
    documented l FeatureBinningSlot = Some NoFeatureBinningConfig /\
    forall fs, (forall f, In f fs -> ~ affects (fst f) FeatureBinningSlot) ->
      useAll fs (createConfig l (defaultParameters l)) FeatureBinningSlot = Some (AutomaticFeatureBinningConfig, []).
Proof. exact boosting_binning. Qed.
Print Assumptions C147_binning_refuted.

(** By default, individual rules are pruned. *)
Theorem C147_pruning_refuted :
  exists s k k',
    documented SeCoClassifier s = Some k /\ k <> k' /\
    forall fs, (forall f, In f fs -> ~ affects (fst f) s) ->
      useAll fs (createConfig SeCoClassifier (defaultParameters SeCoClassifier)) s =
      Some (k', defaultParameters SeCoClassifier k').
Proof. exact seco_components. Qed.
Print Assumptions C147_pruning_refuted.

(** By default, examples are sampled, whereas features are not. An automatic strategy for using holdout sets does not exist. *)
Theorem C147_sampling_refuted :
  forall fs,
    (forall f s, In f fs -> In s [ClassificationPartitionSamplingSlot; FeatureSamplingSlot; ClassificationInstanceSamplingSlot] ->
       ~ affects (fst f) s) ->
    let c := useAll fs (createConfig SeCoClassifier (defaultParameters SeCoClassifier)) in
    documented SeCoClassifier ClassificationPartitionSamplingSlot = Some AutomaticPartitionSamplingConfig /\
    c ClassificationPartitionSamplingSlot = Some (NoPartitionSamplingConfig, []) /\
    documented SeCoClassifier FeatureSamplingSlot = Some FeatureSamplingWithoutReplacementConfig /\
    c FeatureSamplingSlot = Some (NoFeatureSamplingConfig, []) /\
    documented SeCoClassifier ClassificationInstanceSamplingSlot = Some NoInstanceSamplingConfig /\
    c ClassificationInstanceSamplingSlot =
      Some (OutputWiseStratifiedInstanceSamplingConfig, [(SampleSize, 66 # 100); (MinSamples, 1%Q); (MaxSamples, 0%Q)]).
Proof. exact seco_sampling. Qed.
Print Assumptions C147_sampling_refuted.

(** The default value for the maximum number of rules differs from the documented one. *)
Theorem C147_rules_refuted :
  exists f x v w,
    available SeCoClassifier f = true /\ In (x, v) (defaultParameters SeCoClassifier (created f)) /\
    documentedValue (created f) x = Some w /\ ~ (v == w)%Q.
Proof. exact seco_values. Qed.
Print Assumptions C147_rules_refuted.

(** The same applies to four other parameters. *)
Theorem C147_values_refuted :
  documentedValue GreedyTopDownRuleInductionConfig RecalculatePredictions = Some yes /\
  In (RecalculatePredictions, no) (defaultParameters SeCoClassifier GreedyTopDownRuleInductionConfig) /\
  documentedValue FMeasureConfig BetaValue = Some 1%Q /\
  In (BetaValue, 25 # 100) (defaultParameters SeCoClassifier FMeasureConfig) /\
  documentedValue PrePruningConfig Aggregation = Some minAggregation /\
  (forall l, In (Aggregation, meanAggregation) (defaultParameters l PrePruningConfig)) /\
  documentedValue InstanceSamplingWithReplacementConfig SampleSize = Some 1%Q /\
  (forall l, In (SampleSize, 66 # 100) (defaultParameters l InstanceSamplingWithReplacementConfig)).
Proof. exact differing_values. Qed.
Print Assumptions C147_values_refuted.
