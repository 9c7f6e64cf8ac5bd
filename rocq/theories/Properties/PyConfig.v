(** Properties of the parameters of the rule learners that are available in Python. *)
From Coq Require Import List Bool Ascii String QArith Permutation.
From Verif Require Import Model.Options Model.PyConfig Proofs.PyConfig Spec.Options Spec.PyConfig.
Import ListNotations.
Open Scope nat_scope.

(** ** C149: documented values of nominal parameters are supported and others are rejected *)

(** All documented values, except for those listed as defects, select the documented component and change the documented settings. *)
Theorem C149_values_partial :
  nominalParametersWork boomerClassifier defectsOfClassifier documentedForClassifier /\
  nominalParametersWork boomerRegressor defectsOfRegressor documentedForRegressor /\
  nominalParametersWork secoClassifier defectsOfSeCo documentedForSeCo.
Proof. exact nominal_parameters_work. Qed.
Print Assumptions C149_values_partial.

(** The value [equal-width{bin_ratio=0.5}] of the parameter [feature_binning]. *)
Example C149_values_example :
  exists strategies s, In (str "feature_binning", strategies) documentedForClassifier /\ In s strategies /\
    written s (str "equal-width{bin_ratio=0.5}") [(str "bin_ratio", str "0.5")] /\
    ~ In (str "feature_binning", strategyValue s) defectsOfClassifier /\
    let env := mkEnvironment pystr (fun _ => false) (fun _ => true) (fun x => x) (fun _ => None) (fun _ => None) (fun _ _ => true) in
    wellTyped env s [(str "bin_ratio", str "0.5")] /\ allAccepted env s [(str "bin_ratio", str "0.5")].
Proof.
  pose (mem := fun (x : pystr) (l : documentation) => find (fun e => pyEq (fst e) x) l).
  destruct (mem (str "feature_binning") documentedForClassifier) as [[n ss]|] eqn:E; [|discriminate E].
  pose proof (find_some _ _ E) as [Hin Hn]. cbn [fst] in Hn.
  assert (En : n = str "feature_binning") by (vm_compute in E; vm_compute; congruence). subst n.
  destruct (find (fun s => pyEq (strategyValue s) (str "equal-width")) ss) as [s|] eqn:Es.
  2:{ vm_compute in E. injection E as <-. discriminate Es. }
  pose proof (find_some _ _ Es) as [Hs _].
  assert (Evs : s = mkStrategy (strategyValue s) (strategyCpp s) (strategyOptions s)) by (destruct s; reflexivity).
  vm_compute in E. injection E as <-. vm_compute in Es. injection Es as <-.
  eexists; eexists. split; [exact Hin|]. split; [exact Hs|]. split; [|split; [|split]].
  - right. split; [discriminate|]. split; [repeat constructor|]. exists (str "bin_ratio=0.5"). split; [|reflexivity].
    apply last_element. apply (pair_element (str "bin_ratio") (str "0.5")); unfold word; cbn; intuition discriminate.
  - vm_compute. intuition discriminate.
  - intros o text Ho Hl. cbn in Ho. destruct Ho as [<-|[<-|[<-|[]]]]; cbn in Hl; try discriminate Hl; reflexivity.
  - intros before o Ho. reflexivity.
Qed.

(** All texts that are not documented are rejected. *)
Theorem C149_rejected :
  undocumentedRejected boomerClassifier documentedForClassifier /\
  undocumentedRejected boomerRegressor documentedForRegressor /\
  undocumentedRejected secoClassifier documentedForSeCo.
Proof. exact undocumented_texts_rejected. Qed.
Print Assumptions C149_rejected.

(** An option that does not exist. *)
Example C149_rejected_example :
  exists strategies p, In (str "feature_binning", strategies) documentedForClassifier /\
    In p (parametersOf boomerClassifier) /\ nameOf p = str "feature_binning" /\
    let env := mkEnvironment pystr (fun _ => true) (fun _ => true) (fun x => x) (fun _ => None) (fun _ => None) (fun _ _ => true) in
    configure env (configOf boomerClassifier) [] p (str "equal-width{bins=5}") = ValueError.
Proof.
  pose (mem := fun (x : pystr) (l : documentation) => find (fun e => pyEq (fst e) x) l).
  destruct (mem (str "feature_binning") documentedForClassifier) as [[n ss]|] eqn:E; [|discriminate E].
  pose proof (find_some _ _ E) as [Hin Hn].
  assert (En : n = str "feature_binning") by (vm_compute in E; vm_compute; congruence). subst n.
  exists ss, featureBinningParameter. split; [exact Hin|]. split; [cbn; tauto|]. split; reflexivity.
Qed.

(** All values that are passed to the constructor of a rule learner are applied as documented. *)
Theorem C149_learners_partial :
  learnerConfigured boomerClassifier defectsOfClassifier documentedForClassifier /\
  learnerConfigured boomerRegressor defectsOfRegressor documentedForRegressor /\
  learnerConfigured secoClassifier defectsOfSeCo documentedForSeCo.
Proof. exact learners_configured. Qed.
Print Assumptions C149_learners_partial.

(** A rule learner with two parameters, the default values of all other parameters are used. *)
Example C149_learners_example :
  let env := mkEnvironment pystr (fun _ => true) (fun _ => true) (fun x => x) (fun _ => Some 1%Q) (fun _ => Some 1%Q) (fun _ _ => true) in
  let arguments := [(str "feature_binning", str "equal-width{min_bins=5}"); (str "holdout", str "random")] in
  exists learner calls, createLearner boomerClassifier (fun _ => None) arguments = Some learner /\
    configureLearner env boomerClassifier (parametersOf boomerClassifier) learner = Ok calls /\ List.length calls = 6.
Proof. cbv zeta. eexists; eexists. split; [vm_compute; reflexivity|]. split; [vm_compute; reflexivity|]. reflexivity. Qed.

(** Not all documented values are supported. *)
Theorem C149_values_refuted :
  ~ nominalParametersWork boomerClassifier [] documentedForClassifier /\
  ~ nominalParametersWork boomerRegressor [] documentedForRegressor /\
  ~ nominalParametersWork secoClassifier [] documentedForSeCo.
Proof. exact documented_values_refuted. Qed.
Print Assumptions C149_values_refuted.

(** The documented value "auto" of several parameters is rejected. *)
Theorem C149_automatic_refuted :
  forall A (env : environment A) v before cls name,
    In cls [boomerClassifier; boomerRegressor] ->
    In name [str "holdout"; str "head_type"; str "parallel_rule_refinement"; str "parallel_statistic_update"] ->
    toStr env v = str "auto" ->
    exists p, In p (parametersOf cls) /\ nameOf p = name /\ configure env (configOf cls) before p v = ValueError.
Proof. exact automatic_values_rejected. Qed.
Print Assumptions C149_automatic_refuted.

(** The value "auto" of the parameter "binary_predictor" does not select the automatic strategy. *)
Theorem C149_predictor_refuted :
  forall A (env : environment A) v before, toStr env v = str "auto" ->
    exists p, In p (parametersOf boomerClassifier) /\ nameOf p = str "binary_predictor" /\
      configure env (configOf boomerClassifier) before p v =
        Ok (before ++ [CallUse (str "useOutputWiseBinaryPredictor")]).
Proof. exact binary_predictor_ignored. Qed.
Print Assumptions C149_predictor_refuted.

(** The documented value "auto" of the parameter "holdout" is rejected by SeCoClassifier. *)
Theorem C149_holdout_refuted :
  forall A (env : environment A) v before, toStr env v = str "auto" ->
    exists p, In p (parametersOf secoClassifier) /\ nameOf p = str "holdout" /\
      configure env (configOf secoClassifier) before p v = ValueError.
Proof. exact seco_holdout_rejected. Qed.
Print Assumptions C149_holdout_refuted.

(** The documented parameter "default_rule" is not an argument of the constructor of SeCoClassifier. *)
Theorem C149_default_rule_refuted :
  forall A (v : A) defaults arguments, createLearner secoClassifier defaults ((str "default_rule", v) :: arguments) = None.
Proof. exact seco_default_rule_missing. Qed.
Print Assumptions C149_default_rule_refuted.

(** ** C150: numerical parameters are applied as documented *)

(** All numerical parameters are applied, except for the parameter "random_state" of BoomerRegressor. *)
Theorem C150_numbers_partial :
  (forall d, In d documentedNumbersOfBoomer -> numberWorks boomerClassifier d) /\
  (forall d, In d documentedNumbersOfBoomer -> numberName d <> str "random_state" -> numberWorks boomerRegressor d) /\
  (forall d, In d documentedNumbers -> numberWorks secoClassifier d).
Proof. exact numbers_work. Qed.
Print Assumptions C150_numbers_partial.

(** The parameter [max_rules] of a [BoomerClassifier]. *)
Example C150_numbers_example :
  let env := mkEnvironment nat (fun _ => true) (fun _ => true) (fun _ => []) (fun n => Some (Z.of_nat n # 1)%Q) (fun _ => None) (fun _ _ => true) in
  exists d, In d documentedNumbersOfBoomer /\ numberName d = str "max_rules" /\ convertNumber env (numberKind d) 50 = Some 50%Q.
Proof.
  cbv zeta. destruct (find (fun d => pyEq (numberName d) (str "max_rules")) documentedNumbersOfBoomer) as [d|] eqn:E; [|discriminate E].
  pose proof (find_some _ _ E) as [Hin _]. exists d. split; [exact Hin|]. vm_compute in E. injection E as <-. split; reflexivity.
Qed.

(** The seed that is passed to BoomerRegressor does not have any effect. *)
Theorem C150_seed_refuted :
  forall A (env : environment A) defaults arguments learner order seed1 seed2,
    createLearner boomerRegressor defaults ((str "random_state", seed1) :: arguments) = Some learner ->
    Permutation order (parametersOf boomerRegressor) ->
    exists learner2,
      createLearner boomerRegressor defaults ((str "random_state", seed2) :: arguments) = Some learner2 /\
      configureLearner env boomerRegressor order learner2 = configureLearner env boomerRegressor order learner /\
      forall calls, configureLearner env boomerRegressor order learner = Ok calls -> ~ In (CallUse (str "useRNG")) calls.
Proof. exact regressor_ignores_seed. Qed.
Print Assumptions C150_seed_refuted.

Example C150_seed_example :
  exists learner, createLearner boomerRegressor (fun _ => None) [(str "random_state", 42); (str "max_rules", 10)] = Some learner.
Proof. eexists. vm_compute. reflexivity. Qed.

(** Not all numerical parameters are applied as documented. *)
Theorem C150_numbers_refuted :
  exists d, In d documentedNumbersOfBoomer /\ ~ numberWorks boomerRegressor d.
Proof. exact random_state_refuted. Qed.
Print Assumptions C150_numbers_refuted.
