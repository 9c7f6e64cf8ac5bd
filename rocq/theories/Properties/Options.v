(** Properties of parameter values in bracket notation. *)
From Coq Require Import List Bool Ascii String.
From Verif Require Import Model.Options Model.PyConfig Proofs.Options Proofs.PyConfig Spec.Options.
Import ListNotations.

(** ** C148: parameter values in bracket notation are understood as documented *)

(** Every text that adheres to the notation is understood, and all other texts result in a ValueError. *)
Theorem C148_notation :
  forall allowed text, unambiguous allowed ->
    (forall v ps, specifies allowed text v ps ->
       exists o, parseParamAndOptions text allowed = Ok (v, o) /\ forall k, dictGet k o = lastValue k ps) /\
    (forall v o, parseParamAndOptions text allowed = Ok (v, o) ->
       exists ps, specifies allowed text v ps /\ forall k, dictGet k o = lastValue k ps) /\
    ((forall v ps, ~ specifies allowed text v ps) <-> parseParamAndOptions text allowed = ValueError).
Proof. exact bracket_notation. Qed.
Print Assumptions C148_notation.

(** The text [a{x=1,,y=2,x=3}] specifies the value [a] and three key-value pairs, of which the last one counts for [x]. *)
Example C148_notation_example :
  let allowed := [(str "b", []); (str "a", [str "x"; str "y"])] in
  unambiguous allowed /\
  specifies allowed (str "a{x=1,,y=2,x=3}") (str "a")
    [(str "x", str "1"); (str "y", str "2"); (str "x", str "3")] /\
  lastValue (str "x") [(str "x", str "1"); (str "y", str "2"); (str "x", str "3")] = Some (str "3").
Proof.
  cbv zeta. split; [|split; [|reflexivity]].
  - split.
    + repeat constructor; cbn; intuition discriminate.
    + intros v w Hv Hw [s E]. cbn in Hv, Hw. destruct Hv as [<-|[<-|[]]], Hw as [<-|[<-|[]]]; cbn in E; try discriminate E;
        reflexivity.
  - exists [str "x"; str "y"]. split; [cbn; tauto|]. split; [repeat constructor; cbn; tauto|].
    exists [], []. split; [constructor|]. split; [constructor|]. right. exists (str "x=1,,y=2,x=3").
    split; [|reflexivity].
    apply (more_elements (str "x=1") [(str "x", str "1")] (str ",y=2,x=3") [(str "y", str "2"); (str "x", str "3")]).
    + apply (pair_element (str "x") (str "1")); unfold word; cbn; intuition discriminate.
    + apply (more_elements [] [] (str "y=2,x=3") [(str "y", str "2"); (str "x", str "3")]); [apply empty_element|].
      apply (more_elements (str "y=2") [(str "y", str "2")] (str "x=3") [(str "x", str "3")]).
      * apply (pair_element (str "y") (str "2")); unfold word; cbn; intuition discriminate.
      * apply last_element. apply (pair_element (str "x") (str "3")); unfold word; cbn; intuition discriminate.
Qed.

(** A value and key-value pairs that are written down in the usual way are understood. *)
Theorem C148_written :
  forall allowed v keys ps, unambiguous allowed -> In (v, keys) allowed ->
    Forall (fun p => In (fst p) keys /\ word (fst p) /\ word (snd p)) ps ->
    exists o, parseParamAndOptions (v ++ "{"%char :: writePairs ps ++ ["}"%char]) allowed = Ok (v, o) /\
      forall k, dictGet k o = lastValue k ps.
Proof. exact written_options. Qed.
Print Assumptions C148_written.

Example C148_written_example :
  parseParamAndOptions (str "equal-width" ++ "{"%char :: writePairs [(str "bin_ratio", str "0.5"); (str "min_bins", str "2")] ++ ["}"%char])
    [(str "none", []); (str "equal-width", [str "bin_ratio"; str "min_bins"; str "max_bins"])] =
  Ok (str "equal-width", [(str "bin_ratio", str "0.5"); (str "min_bins", str "2")]) /\
  Forall (fun p => In (fst p) [str "bin_ratio"; str "min_bins"; str "max_bins"] /\ word (fst p) /\ word (snd p))
    [(str "bin_ratio", str "0.5"); (str "min_bins", str "2")].
Proof. split; [reflexivity|]. repeat constructor; unfold word; cbn; intuition discriminate. Qed.

(** A text has at most one meaning. *)
Theorem C148_unique :
  forall allowed text v ps w qs, unambiguous allowed ->
    specifies allowed text v ps -> specifies allowed text w qs ->
    v = w /\ forall k, lastValue k ps = lastValue k qs.
Proof. exact meaning_unique. Qed.
Print Assumptions C148_unique.

(** A text with two readings that differ in white space only. *)
Example C148_unique_example :
  let allowed := [(str "a", [str "x"])] in
  unambiguous allowed /\ specifies allowed (str "a {}") (str "a") [].
Proof.
  cbv zeta. split.
  - split; [repeat constructor; cbn; tauto|]. intros v w [<-|[]] [<-|[]] _. reflexivity.
  - exists [str "x"]. split; [cbn; tauto|]. split; [constructor|]. exists [" "%char], [].
    split; [repeat constructor|]. split; [constructor|]. right. exists []. split; [|reflexivity].
    apply last_element. apply empty_element.
Qed.

(** The condition of the above theorems is necessary: if a value is the prefix of another value, a text that adheres to the notation may be rejected. *)
Theorem C148_ambiguity_refuted :
  exists allowed text v ps, NoDup (map fst allowed) /\ specifies allowed text v ps /\
    parseParamAndOptions text allowed = ValueError.
Proof. exact ambiguity_refuted. Qed.
Print Assumptions C148_ambiguity_refuted.

(** The condition of the above theorems is met by all parameters of the available rule learners. *)
Theorem C148_parameters :
  forall cls p, In cls [boomerClassifier; boomerRegressor; secoClassifier] -> In p (parametersOf cls) ->
    unambiguous (supportedValues (configOf cls) (valuesOf p)).
Proof. exact parameters_unambiguous. Qed.
Print Assumptions C148_parameters.

Example C148_parameters_example :
  exists p, In p (parametersOf boomerClassifier) /\ nameOf p = str "feature_binning" /\
    supportedValues (configOf boomerClassifier) (valuesOf p) <> [].
Proof.
  exists featureBinningParameter. split; [cbn; tauto|]. split; [reflexivity|]. cbn. discriminate.
Qed.
