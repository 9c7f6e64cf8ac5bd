(** Properties of the predictions that are obtained from Python. *)
From Coq Require Import List Bool Arith ZArith Lia.
From Verif Require Import Lib.Arr Model.Estimators Model.Incremental Spec.Estimators Spec.Incremental Proofs.Incremental.
Import ListNotations.

(** ** C157: incremental predictions correspond to the predictions of a model with fewer rules *)

(** The array that has been obtained most recently corresponds to the prediction of a model that is restricted to the number of rules that have been used so far. Arrays that have been obtained before are missing. *)
Theorem C157_latest_partial :
  forall {R A P : Type} (step : A -> R -> A) (init : A) (out : A -> P) (empty : P) native k rules maxRules steps,
  steps <> [] -> Forall (fun s => 1 <= s) steps ->
  exists w p arrays array,
  run step init out (map ApplyNext steps) (createIncremental init empty native k rules maxRules) = Some w /\
  wresults w = arrays ++ [array] /\ length arrays + 1 = length steps /\
  readResult w array = Some (predict step init out rules (restrict maxRules (list_sum steps))) /\
  wpredictor w = Some p /\ getNumNext p = numRules (length rules) maxRules - list_sum steps.
Proof. exact (@latest). Qed.
Print Assumptions C157_latest_partial.

(** All arrays correspond to such predictions, also if the estimator or the predictor is deleted or the estimator is fitted again, if the predictor does not support incremental predictions natively or if probabilities are predicted for a single label. *)
Theorem C157_owned_partial :
  forall {R A P : Type} (step : A -> R -> A) (init : A) (out : A -> P) (empty : P) native k rules maxRules steps rest,
  Forall (fun s => 1 <= s) steps -> Forall cleanup rest -> ownsMemory native k ->
  exists w,
  run step init out (map ApplyNext steps ++ rest) (createIncremental init empty native k rules maxRules) = Some w /\
  map (readResult w) (wresults w) = map (fun t => Some (predict step init out rules (restrict maxRules t))) (totals steps).
Proof. exact (@owned). Qed.
Print Assumptions C157_owned_partial.

(** A model of four rules, of which at most three are used. *)
Example C157_latest_partial_example :
  let rules := [1; 2; 4; 8] in
  Forall (fun s => 1 <= s) [1; 5] /\ restrict 3 (list_sum [1; 5]) = 3 /\ predict Nat.add 0 (fun s => s) rules 3 = 7 /\
  match run Nat.add 0 (fun s => s) (map ApplyNext [1; 5]) (createIncremental 0 0 true Scores rules 3) with
  | Some w => map (readResult w) (wresults w) = [Some 7; Some 7]
  | None => False
  end.
Proof. cbv zeta. split; [repeat constructor; lia|]. vm_compute. repeat split. Qed.

Example C157_owned_partial_example :
  let rules := [1; 2; 4; 8] in
  Forall (fun s => 1 <= s) [1; 5] /\ Forall cleanup [DeleteEstimator; DeletePredictor : statement nat] /\ ownsMemory false Scores /\
  match run Nat.add 0 (fun s => s) (map ApplyNext [1; 5] ++ [DeleteEstimator; DeletePredictor])
          (createIncremental 0 0 false Scores rules 3) with
  | Some w => map (readResult w) (wresults w) = [Some 1; Some 7]
  | None => False
  end.
Proof. cbv zeta. split; [repeat constructor; lia|]. split; [repeat constructor|]. split; [left; reflexivity|]. vm_compute. reflexivity. Qed.

(** An array that does not correspond to the rules that had been used anymore, after obtaining another one. *)
Theorem C157_overwritten_refuted :
  exists (k : kind) (rules : list nat) w array,
  run Nat.add 0 (fun s => s) [ApplyNext 1; ApplyNext 1] (createIncremental 0 0 true k rules 0) = Some w /\
  nth_error (wresults w) 0 = Some array /\ readResult w array <> Some (predict Nat.add 0 (fun s => s) rules 1).
Proof. exact overwritten_refuted. Qed.
Print Assumptions C157_overwritten_refuted.

(** An array whose memory has been freed, because the incremental predictor is not used anymore. *)
Theorem C157_freed_refuted :
  exists (k : kind) (rules : list nat) w array,
  run Nat.add 0 (fun s => s) [ApplyNext 1; DeletePredictor] (createIncremental 0 0 true k rules 0) = Some w /\
  nth_error (wresults w) 0 = Some array /\ readResult w array = None.
Proof. exact freed_refuted. Qed.
Print Assumptions C157_freed_refuted.

(** The memory of a model that has been deleted is accessed, because the estimator is not used anymore or fitted again. *)
Theorem C157_deleted_refuted :
  exists (k : kind) (rules rules' : list nat), forall native,
  run Nat.add 0 (fun s => s) [DeleteEstimator; ApplyNext 1] (createIncremental 0 0 native k rules 0) = None /\
  run Nat.add 0 (fun s => s) [Fit rules'; ApplyNext 1] (createIncremental 0 0 native k rules 0) = None.
Proof. exact deleted_refuted. Qed.
Print Assumptions C157_deleted_refuted.

(** ** C158: predictions that are not supported are reported as documented *)

(** The documented exception is raised. The method "predict_proba_incrementally" is missing. *)
Theorem C158_methods_partial :
  forall m supported limit, m <> PredictProbaIncrementally \/ supported = true -> 3 <= limit ->
  callMethod m supported limit = (if supported then Predicted else NotSupported, 1).
Proof. exact call_outcome. Qed.
Print Assumptions C158_methods_partial.

Example C158_methods_partial_example :
  (PredictProba <> PredictProbaIncrementally \/ false = true) /\ callMethod PredictProba false 3 = (NotSupported, 1) /\
  callMethod PredictScores true 3 = (Predicted, 1).
Proof. split; [left; discriminate|]. split; reflexivity. Qed.

(** A method that calls itself until the limit is exceeded. *)
Theorem C158_recursion_refuted :
  exists m supported, forall limit, callMethod m supported limit = (RecursionError, limit / 2).
Proof. exact recursion_refuted. Qed.
Print Assumptions C158_recursion_refuted.

(** ** C159: the value of sparse elements is used for training and evaluation *)

(** The same feature values are used for training and for obtaining predictions. Probabilities are missing, unless sparse elements are zero. *)
Theorem C159_values_partial :
  forall t p x sparseFeatureValue training query, validInput x -> (sparseFeatureValue = Some 0%Z \/ ~ storesZero (Some 0%Z) x) ->
  (t <> PROBABILITIES \/ sparseFeatureValue = Some 0%Z) ->
  trainingMatrix p x sparseFeatureValue = Some (Created training) ->
  evaluationMatrix t p x sparseFeatureValue = Some (Created query) ->
  forall i j v, inShape x i j -> (elementIs training i j v <-> elementIs query i j v).
Proof. exact same_values. Qed.
Print Assumptions C159_values_partial.

Example C159_values_partial_example :
  let x := SparseInput (SMatrix CSR 2 2 [((0, 0), Some 5%Z)]) in
  validInput x /\ ~ storesZero (Some 0%Z) x /\
  trainingMatrix ForceSparse x (Some 7%Z) = Some (Created (SparseMatrix 2 2 [((0, 0), Some 5%Z)] (Some 7%Z))) /\
  evaluationMatrix SCORES ForceDense x (Some 7%Z) = Some (Created (DenseMatrix [[Some 5%Z; Some 7%Z]; [Some 7%Z; Some 7%Z]])).
Proof.
  cbv zeta. split; [split; [constructor; [intros []|constructor]|repeat constructor]|].
  split; [intros (ij & [H|[]]); discriminate|]. split; vm_compute; reflexivity.
Qed.

(** A sparse element that is considered as zero when predicting probabilities, although a different value is used for training. *)
Theorem C159_probabilities_refuted :
  exists x sparseFeatureValue i j v w training query, validInput x /\ ~ storesZero (Some 0%Z) x /\ usable x /\
  (forall p, trainingMatrix p x sparseFeatureValue = Some (Created (training p)) /\
             evaluationMatrix PROBABILITIES p x sparseFeatureValue = Some (Created (query p)) /\
             elementIs (training p) i j v /\ elementIs (query p) i j w) /\
  v <> w.
Proof. exact probabilities_refuted. Qed.
Print Assumptions C159_probabilities_refuted.

(** ** C160: incremental evaluations report the number of rules that have been used *)

(** The predictions of increasingly large models, whose sizes are reported correctly, are evaluated until all rules are used. A maximum size that is less than the number of available rules is missing. *)
Theorem C160_sizes_partial :
  forall minSize maxSize stepSize available, validOptions minSize maxSize stepSize = true -> (maxSize = 0 \/ available <= maxSize) ->
  exists sizes, evaluateIncrementally minSize maxSize stepSize available = map (fun s => (s, s)) sizes /\
  (forall k s, nth_error sizes k = Some s -> s = Nat.min (firstSize minSize stepSize + k * stepSize) available) /\
  (forall k s s', nth_error sizes k = Some s -> nth_error sizes (S k) = Some s' -> s < s') /\
  (0 < available -> last sizes 0 = available).
Proof. exact evaluated_sizes. Qed.
Print Assumptions C160_sizes_partial.

Example C160_sizes_partial_example :
  validOptions 2 0 3 = true /\ evaluateIncrementally 2 0 3 9 = [(2, 2); (5, 5); (8, 8); (9, 9)].
Proof. split; vm_compute; reflexivity. Qed.

(** More rules than allowed are used, and the size that is reported is wrong. *)
Theorem C160_maximum_refuted :
  exists minSize maxSize stepSize available, validOptions minSize maxSize stepSize = true /\
  exists reported actual, In (reported, actual) (evaluateIncrementally minSize maxSize stepSize available) /\
  maxSize <> 0 /\ maxSize < actual /\ reported <> actual.
Proof. exact maximum_refuted. Qed.
Print Assumptions C160_maximum_refuted.
