(** Properties of the selection of statistics, rule evaluation and default rule by the boosting algorithm. *)
From Coq Require Import Arith Bool Lia.
From Verif Require Import Model.BoostConfig Spec.BoostConfig Proofs.BoostConfig.

(** ** C112: A default rule is only omitted, if it prevents sparse statistics
    Missing: the default rule is also omitted in cases, where sparse statistics are not used anyway. *)
(** If sparse statistics are used in the absence of a default rule, the default rule is omitted. Otherwise, it may only be missing in the listed cases. *)
Theorem C112_default_rule_auto_partial : forall p c m t t',
  cfgDefaultRule c = DefaultRuleAuto -> train p c m = Some t ->
  train p (with_default_rule c (DefaultRule false)) m = Some t' ->
  (stored_sparsely t' -> trDefaultRule t = None /\ stored_sparsely t) /\
  (stored_sparsely t -> trDefaultRule t = None) /\
  (trDefaultRule t = None ->
   stored_sparsely t' \/
   isDecomposable (cfgLoss c) = false /\
   (cfgFormat c = FormatSparse \/
    cfgFormat c = FormatAuto /\ omIsSparse m = true /\ 120 < omNumOutputs m /\
    cfgHead c <> HeadAuto /\ cfgHead c <> HeadComplete) \/
   cfgLoss c = DecomposableSquaredHinge /\ cfgFormat c = FormatSparse /\
   (cfgHead c = HeadComplete \/ cfgHead c = HeadAuto /\ omNumOutputs m <= 1)).
Proof. exact default_rule_auto. Qed.
Print Assumptions C112_default_rule_auto_partial.

Example C112_default_rule_auto_partial_example :
  let c := mkConfig DecomposableSquaredHinge HeadAuto FormatAuto DefaultRuleAuto BinningAuto in
  (exists t t', train Classification c (mkOutputMatrix true 121) = Some t /\
     train Classification (with_default_rule c (DefaultRule false)) (mkOutputMatrix true 121) = Some t' /\
     stored_sparsely t /\ stored_sparsely t' /\ trDefaultRule t = None /\ trRules t = DecomposableSingleOutput) /\
  (exists t t', train Classification c (mkOutputMatrix true 120) = Some t /\
     train Classification (with_default_rule c (DefaultRule false)) (mkOutputMatrix true 120) = Some t' /\
     ~ stored_sparsely t /\ ~ stored_sparsely t' /\ trDefaultRule t = Some (DecomposableComplete false)).
Proof.
  split.
  - eexists. eexists. split; [vm_compute; reflexivity|]. split; [vm_compute; reflexivity|].
    split; [reflexivity|]. split; [reflexivity|]. split; reflexivity.
  - eexists. eexists. split; [vm_compute; reflexivity|]. split; [vm_compute; reflexivity|].
    split; [discriminate|]. split; [discriminate|]. reflexivity.
Qed.

(** The default rule is omitted if a non-decomposable loss is used with partial heads and many sparse labels, although such losses do not support sparse statistics. *)
Theorem C112_non_decomposable_refuted : exists p c m t t',
    cfgDefaultRule c = DefaultRuleAuto /\ cfgFormat c = FormatAuto /\ train p c m = Some t /\
    train p (with_default_rule c (DefaultRule false)) m = Some t' /\
    train p (with_default_rule c (DefaultRule true)) m <> None /\
    trDefaultRule t = None /\ ~ stored_sparsely t /\ ~ stored_sparsely t'.
Proof. exact default_rule_dropped_non_decomposable_refuted. Qed.
Print Assumptions C112_non_decomposable_refuted.

(** The default rule is omitted if a sparse format is requested, although the heads do not support it. *)
Theorem C112_complete_heads_refuted : exists p c m t t',
    cfgDefaultRule c = DefaultRuleAuto /\ isDecomposable (cfgLoss c) = true /\ train p c m = Some t /\
    train p (with_default_rule c (DefaultRule false)) m = Some t' /\
    trDefaultRule t = None /\ ~ stored_sparsely t /\ ~ stored_sparsely t'.
Proof. exact default_rule_dropped_complete_refuted. Qed.
Print Assumptions C112_complete_heads_refuted.

(** ** C113: A default rule predicts for all outputs
    Missing: a default rule that has explicitly been requested together with sparse statistics. *)
(** Unless a default rule and sparse statistics have been requested explicitly, a default rule predicts for all outputs. *)
Theorem C113_default_rule_complete_partial : forall p c m t e k,
  train p c m = Some t -> trDefaultRule t = Some e -> may_predict e (omNumOutputs m) k ->
  k = omNumOutputs m \/
  cfgDefaultRule c = DefaultRule true /\ cfgFormat c = FormatSparse /\ cfgLoss c = DecomposableSquaredHinge /\
  cfgHead c <> HeadComplete /\ stored_sparsely t.
Proof. exact default_rule_complete. Qed.
Print Assumptions C113_default_rule_complete_partial.

Example C113_default_rule_complete_partial_example :
  exists t e, train Regression (mkConfig NonDecomposableSquaredError HeadSingle FormatSparse (DefaultRule true) BinningNone)
                    (mkOutputMatrix true 7) = Some t /\
    trDefaultRule t = Some e /\ may_predict e 7 7 /\ trRules t = DecomposableSingleOutput.
Proof.
  eexists. eexists. split; [vm_compute; reflexivity|]. split; [reflexivity|]. split; reflexivity.
Qed.

(** With sparse statistics, a requested default rule predicts for a single output. *)
Theorem C113_single_output_refuted : exists p c m t e,
    cfgDefaultRule c = DefaultRule true /\ train p c m = Some t /\ trDefaultRule t = Some e /\
    omNumOutputs m = 5 /\ forall k, may_predict e (omNumOutputs m) k -> k = 1.
Proof. exact default_rule_single_output_refuted. Qed.
Print Assumptions C113_single_output_refuted.

(** ** C114: Label binning is used as configured
    Missing: regular rules with complete heads ignore the configuration, if the loss is decomposable. *)
(** Rules use bins if and only if requested, except for those that predict for a single output and, if a decomposable loss is used, those with complete heads. *)
Theorem C114_binning_partial : forall p c m t,
  train p c m = Some t ->
  (cfgBinning c = BinningNone ->
   (forall e, trDefaultRule t = Some e -> uses_bins e = false) /\ uses_bins (trRules t) = false /\ uses_bins (trPruning t) = false) /\
  (cfgBinning c = BinningEqualWidth ->
   (forall e, trDefaultRule t = Some e -> uses_bins e = true \/ e = DecomposableSingleOutput) /\
   (uses_bins (trRules t) = true /\ uses_bins (trPruning t) = true \/
    trRules t = DecomposableSingleOutput /\ trPruning t = DecomposableSingleOutput \/
    isDecomposable (cfgLoss c) = true /\ (cfgHead c = HeadAuto \/ cfgHead c = HeadComplete) /\
    trRules t = DecomposableComplete false /\ trPruning t = DecomposableComplete false)) /\
  (cfgBinning c = BinningAuto ->
   (forall e, trDefaultRule t = Some e -> uses_bins e = negb (isDecomposable (cfgLoss c)) \/ e = DecomposableSingleOutput) /\
   (uses_bins (trRules t) = negb (isDecomposable (cfgLoss c)) \/ trRules t = DecomposableSingleOutput) /\
   uses_bins (trPruning t) = uses_bins (trRules t)).
Proof. exact binning_as_configured. Qed.
Print Assumptions C114_binning_partial.

Example C114_binning_partial_example :
  exists t e, train Classification (mkConfig DecomposableLogistic HeadPartialDynamic FormatAuto DefaultRuleAuto BinningEqualWidth)
                    (mkOutputMatrix false 30) = Some t /\
    trDefaultRule t = Some e /\ uses_bins e = true /\ uses_bins (trRules t) = true /\ may_predict (trRules t) 30 2.
Proof.
  eexists. eexists. split; [vm_compute; reflexivity|]. split; [reflexivity|]. split; [reflexivity|]. split; [reflexivity|].
  cbn. lia.
Qed.

(** If a decomposable loss is used with complete heads, label binning is used for the default rule, but not for the other ones. *)
Theorem C114_complete_heads_refuted : exists p c m t e,
    cfgBinning c = BinningEqualWidth /\ train p c m = Some t /\ trDefaultRule t = Some e /\
    uses_bins e = true /\ uses_bins (trRules t) = false /\ may_predict (trRules t) (omNumOutputs m) 30.
Proof. exact binning_ignored_refuted. Qed.
Print Assumptions C114_complete_heads_refuted.

(** ** C115: Rules have heads of the configured type *)
(** Rules, other than the default rule, have heads of the requested type, also when pruned. If the type is chosen automatically, rules predict for a single output, if sparse statistics are used, and for all outputs otherwise. *)
Theorem C115_head_types : forall p c m t,
  train p c m = Some t ->
  has_head_type (cfgHead c) (trRules t) /\ trPruning t = trRules t /\
  (cfgHead c = HeadAuto ->
   stored_sparsely t /\ trRules t = DecomposableSingleOutput \/
   ~ stored_sparsely t /\ forall k, may_predict (trRules t) (omNumOutputs m) k <-> k = omNumOutputs m) /\
  (stored_sparsely t -> forall e, trDefaultRule t = Some e -> e = trRules t).
Proof. exact heads_as_configured. Qed.
Print Assumptions C115_head_types.

Example C115_head_types_example :
  exists t, train Classification (mkConfig NonDecomposableLogistic HeadPartialFixed FormatSparse (DefaultRule true) BinningAuto)
                  (mkOutputMatrix true 121) = Some t /\
    ~ stored_sparsely t /\ trRules t = NonDecomposableFixedPartial true /\ trPruning t = NonDecomposableFixedPartial true.
Proof.
  eexists. split; [vm_compute; reflexivity|]. split; [discriminate|]. split; reflexivity.
Qed.

(** ** C116: The statistics are stored in the configured format
    Missing: if a sparse format is requested, it is not used for complete heads. *)
(** A sparse format is only used, if supported by the loss and not ruled out. It is used, if requested and supported by the loss and the heads. *)
Theorem C116_format_partial : forall p c m t,
  train p c m = Some t ->
  (stored_sparsely t -> p = Classification /\ supports_sparse_statistics (cfgLoss c) /\ cfgFormat c <> FormatDense) /\
  (cfgFormat c = FormatAuto -> stored_sparsely t ->
   omIsSparse m = true /\ 120 < omNumOutputs m /\ trDefaultRule t = None) /\
  (cfgFormat c = FormatSparse -> p = Classification -> supports_sparse_statistics (cfgLoss c) ->
   stored_sparsely t \/ cfgHead c = HeadComplete \/ cfgHead c = HeadAuto /\ omNumOutputs m <= 1).
Proof. exact format_as_configured. Qed.
Print Assumptions C116_format_partial.

Example C116_format_partial_example :
  exists t, train Classification (mkConfig DecomposableSquaredHinge HeadPartialFixed FormatSparse DefaultRuleAuto BinningNone)
                  (mkOutputMatrix false 3) = Some t /\ stored_sparsely t /\ trDefaultRule t = None.
Proof.
  eexists. split; [vm_compute; reflexivity|]. split; reflexivity.
Qed.

(** A dense format is used, although a sparse one has been requested and is supported by the loss. *)
Theorem C116_complete_heads_refuted : exists p c m t,
    p = Classification /\ cfgFormat c = FormatSparse /\ supports_sparse_statistics (cfgLoss c) /\ train p c m = Some t /\
    omIsSparse m = true /\ omNumOutputs m = 5 /\ ~ stored_sparsely t.
Proof. exact format_ignored_refuted. Qed.
Print Assumptions C116_complete_heads_refuted.
