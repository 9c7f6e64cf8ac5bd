(** Properties of the methods for setting parameters that are available in Python. *)
From Coq Require Import List Bool Ascii String ZArith.
From Verif Require Import Model.Options Model.PyConfig Model.Floats Model.Setters Spec.Floats Spec.Setters Proofs.Setters.
Import ListNotations.
Open Scope Z_scope.

(** ** C151: values that are set in Python are stored or rejected *)

(** A value is stored exactly (or rounded to single precision), or an exception is raised. The classes for sampling examples and outputs are missing. *)
Theorem C151_exact_partial :
  forall cls st s v, reachable cls st -> In s setters -> setterClass s = cls -> hasType s v -> ~ In cls samplingClasses ->
  storedOrRejected s st v.
Proof. exact stored_regular. Qed.
Print Assumptions C151_exact_partial.

(** The number one third is rounded, a ratio of one is rejected. *)
Example C151_exact_partial_example :
  let cls := str "EqualWidthFeatureBinningConfig" in
  let third := round64 (one / 3) in
  reachable cls (newConfig cls) /\ ~ In cls samplingClasses /\
  match findSetter cls (str "set_bin_ratio") with
  | Some s =>
      hasType s (PyFloat third) /\ callSetter s (newConfig cls) (PyFloat (Finite one)) = Raised /\
      match callSetter s (newConfig cls) (PyFloat third) with
      | Returned st => st (str "get_bin_ratio") = CFloat (toFloat32 third) /\ st (str "get_min_bins") = CInt 2
      | _ => False
      end
  | None => False
  end.
Proof. cbv zeta. split; [constructor|]. split; vm_compute; [intuition discriminate|]. repeat split. Qed.

(** This holds for all classes, if integers do not exceed 2^24 and if floating point values can be represented with single precision. *)
Theorem C151_small_partial :
  forall cls st s v, reachable cls st -> In s setters -> setterClass s = cls -> hasType s v -> representable s v ->
  storedOrRejected s st v.
Proof. exact stored_small. Qed.
Print Assumptions C151_small_partial.

Example C151_small_partial_example :
  let cls := str "InstanceSamplingWithoutReplacementConfig" in
  reachable cls (newConfig cls) /\
  match findSetter cls (str "set_max_samples") with
  | Some s =>
      hasType s (PyInt 16777216) /\ representable s (PyInt 16777216) /\
      match callSetter s (newConfig cls) (PyInt 16777216) with
      | Returned st => st (str "get_max_samples") = CInt 16777216
      | _ => False
      end
  | None => False
  end.
Proof. cbv zeta. split; [constructor|]. vm_compute. repeat split. discriminate. Qed.

(** An integer that is changed without any notice. *)
Theorem C151_changed_refuted :
  exists cls st st' s n m, reachable cls st /\ In s setters /\ setterClass s = cls /\ hasType s (PyInt n) /\ 0 <= n < 2 ^ 32 /\
  callSetter s st (PyInt n) = Returned st' /\ st' (setterField s) = CInt m /\ m <> n.
Proof. exact changed_refuted. Qed.
Print Assumptions C151_changed_refuted.

(** An integer that causes undefined behavior. *)
Theorem C151_undefined_refuted :
  exists cls st s n, reachable cls st /\ In s setters /\ setterClass s = cls /\ hasType s (PyInt n) /\ 0 <= n < 2 ^ 32 /\
  callSetter s st (PyInt n) = UndefinedBehavior.
Proof. exact undefined_refuted. Qed.
Print Assumptions C151_undefined_refuted.

(** A valid ratio that terminates the process, because the C++ exception is not translated. *)
Theorem C151_terminated_refuted :
  exists cls st s r z, reachable cls st /\ In s setters /\ setterClass s = cls /\ hasType s (PyFloat (Finite z)) /\ round64 z = Finite z /\
  documentedRange s r /\ inDocRange r st (PyFloat (Finite z)) /\ callSetter s st (PyFloat (Finite z)) = Terminated.
Proof. exact terminated_refuted. Qed.
Print Assumptions C151_terminated_refuted.

(** ** C152: the values that are accepted in Python are those that are documented to be valid *)

(** A value is accepted if and only if it is in the documented range. The value one of the parameter "min_support" and values that cannot be represented or are no numbers are missing. *)
Theorem C152_ranges_partial :
  forall cls st s r v, reachable cls st -> In s setters -> setterClass s = cls -> hasType s v -> representable s v -> documentedRange s r ->
  ~ (isMinSupport s /\ pyNumber v = num 1) ->
  ((exists st', callSetter s st v = Returned st') <-> inDocRange r st v).
Proof. exact accepted_documented. Qed.
Print Assumptions C152_ranges_partial.

(** There is a documented range for each method. *)
Theorem C152_documented :
  forall s, In s setters -> exists r, documentedRange s r.
Proof. exact documented. Qed.
Print Assumptions C152_documented.

(** A maximum is accepted if it is not less than the minimum. *)
Example C152_ranges_partial_example :
  let cls := str "FixedPartialHeadConfig" in
  reachable cls (newConfig cls) /\
  match findSetter cls (str "set_max_outputs") with
  | Some s =>
      hasType s (PyInt 2) /\ representable s (PyInt 2) /\ documentedRange s (AtLeastFieldOrZero (str "get_min_outputs")) /\
      ~ isMinSupport s /\ (exists st, callSetter s (newConfig cls) (PyInt 2) = Returned st) /\
      callSetter s (newConfig cls) (PyInt 1) = Raised /\ callSetter s (newConfig cls) (PyInt 4294967296) = Raised
  | None => False
  end.
Proof.
  cbv zeta. split; [constructor|]. vm_compute findSetter. cbv iota. split; [exact I|]. split; [vm_compute; discriminate|].
  split; [exists "FixedPartialHeadConfig"%string, "set_max_outputs"%string; split; [vm_compute; tauto|split; reflexivity]|].
  split; [discriminate|]. split; [eexists; vm_compute; reflexivity|]. split; vm_compute; reflexivity.
Qed.

(** A documented value that is rejected. *)
Theorem C152_one_refuted :
  exists cls st s r v, reachable cls st /\ In s setters /\ setterClass s = cls /\ hasType s v /\ representable s v /\
  documentedRange s r /\ inDocRange r st v /\ callSetter s st v = Raised.
Proof. exact one_refuted. Qed.
Print Assumptions C152_one_refuted.

(** According to the user guide, the sample size one is valid for outputs and features, but it is rejected. *)
Theorem C152_guide_refuted :
  Forall (fun cls => exists s, In s setters /\ setterClass s = cls /\ setterName s = str "set_sample_size" /\
    forall st, callSetter s st (PyFloat (num 1)) = Raised)
    [str "OutputSamplingWithoutReplacementConfig"; str "FeatureSamplingWithoutReplacementConfig"].
Proof. exact guide_refuted. Qed.
Print Assumptions C152_guide_refuted.

(** A value that is not documented to be valid, but accepted. *)
Theorem C152_nan_refuted :
  exists cls st st' s r, reachable cls st /\ In s setters /\ setterClass s = cls /\ hasType s (PyFloat NaN) /\
  documentedRange s r /\ ~ inDocRange r st (PyFloat NaN) /\ callSetter s st (PyFloat NaN) = Returned st'.
Proof. exact nan_refuted. Qed.
Print Assumptions C152_nan_refuted.

(** ** C153: options do not make the default values of other options invalid *)

(** If all options that are given are valid, they are applied and all others keep their default values. The sampling of outputs and pre-pruning are missing. *)
Theorem C153_options_partial :
  forall cls l given, In (cls, l) strategiesWithOptions ->
  cls <> str "OutputSamplingWithoutReplacementConfig" -> cls <> str "PrePruningConfig" -> optionsValid cls l given ->
  exists st, applyOptions cls given (newConfig cls) l = Returned st /\ finalFields cls l given st.
Proof. exact options_applied. Qed.
Print Assumptions C153_options_partial.

(** The minimum and the maximum number of bins are given, the ratio keeps its default value. *)
Example C153_options_partial_example :
  let cls := str "EqualWidthLabelBinningConfig" in
  let l := labelBinningParameterConfigure (str "equal-width") in
  let given := fun key => if pyEq key (str "min_bins") then Some (PyInt 5)
                          else if pyEq key (str "max_bins") then Some (PyInt 5) else None in
  In (cls, l) strategiesWithOptions /\
  match applyOptions cls given (newConfig cls) l with
  | Returned st => st (str "get_bin_ratio") = CFloat (round32 (one / 25)) /\ st (str "get_min_bins") = CInt 5 /\ st (str "get_max_bins") = CInt 5
  | _ => False
  end.
Proof. cbv zeta. split; [unfold strategiesWithOptions; do 19 right; left; reflexivity|]. vm_compute. repeat split. Qed.

(** An option that is valid on its own. *)
Example C153_options_partial_valid_example :
  let cls := str "ManualMultiThreadingConfig" in
  let l := parallelPredictionParameterConfigure (str "true") in
  In (cls, l) strategiesWithOptions /\
  optionsValid cls l (fun key => if pyEq key (str "num_preferred_threads") then Some (PyInt 8) else None).
Proof.
  cbv zeta. split; [unfold strategiesWithOptions; do 17 right; left; reflexivity|].
  destruct (findSetter (str "ManualMultiThreadingConfig") (str "set_num_preferred_threads")) as [s|] eqn:F; [|vm_compute in F; discriminate].
  destruct (findSetter_sound _ _ _ F) as (_ & C & N).
  apply (single_option _ _ _ (str "set_num_preferred_threads") _ s (AtLeastNumberOrZero 1)); [vm_compute; reflexivity|exact F| | | | |].
  - vm_compute in F. injection F as <-. exact I.
  - vm_compute in F. injection F as <-. vm_compute. discriminate.
  - exists "ManualMultiThreadingConfig"%string, "set_num_preferred_threads"%string. split; [vm_compute; tauto|auto].
  - unfold isMinSupport. rewrite N. discriminate.
  - intros st. right. left. reflexivity.
Qed.

(** A valid minimum number of outputs is rejected unless a maximum is given as well. *)
Theorem C153_output_sampling_refuted :
  exists l n, In (str "OutputSamplingWithoutReplacementConfig", l) strategiesWithOptions /\
  let cls := str "OutputSamplingWithoutReplacementConfig" in
  let given := fun key => if pyEq key (str "min_samples") then Some (PyInt n) else None in
  optionsValid cls l given /\ applyOptions cls given (newConfig cls) l = Raised.
Proof. exact max_samples_refuted. Qed.
Print Assumptions C153_output_sampling_refuted.

(** A valid update interval is rejected unless a stop interval is given as well. *)
Theorem C153_pre_pruning_refuted :
  exists l n, In (str "PrePruningConfig", l) strategiesWithOptions /\
  let cls := str "PrePruningConfig" in
  let given := fun key => if pyEq key (str "update_interval") then Some (PyInt n) else None in
  optionsValid cls l given /\ applyOptions cls given (newConfig cls) l = Raised.
Proof. exact stop_interval_refuted. Qed.
Print Assumptions C153_pre_pruning_refuted.
