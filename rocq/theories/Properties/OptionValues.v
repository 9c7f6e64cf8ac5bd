(** Properties of the values of options that are given in bracket notation. *)
From Coq Require Import List Bool Ascii String.
From Verif Require Import Model.Options Spec.Options Proofs.OptionValues.
Import ListNotations.

(** ** C148: parameter values in bracket notation are understood as documented *)

(** The values that are obtained for individual options are the last ones that have been specified, or the default value. The texts [true] and [false], and no others, are accepted as Boolean values. *)
Theorem C148_options :
  forall allowed text v ps, unambiguous allowed -> specifies allowed text v ps ->
  exists o, parseParamAndOptions text allowed = Ok (v, o) /\
  (forall k d, getString o k d = match lastValue k ps with Some s => s | None => d end) /\
  (forall k d b, getBool o k d = Ok b <->
     (lastValue k ps = None /\ b = d) \/ (lastValue k ps = Some (str "true") /\ b = true) \/ (lastValue k ps = Some (str "false") /\ b = false)) /\
  (forall k d, getBool o k d = ValueError <-> exists s, lastValue k ps = Some s /\ s <> str "true" /\ s <> str "false") /\
  (forall (N : Type) (convert : pystr -> option N) k d n, getNumber convert o k d = Ok n <->
     (lastValue k ps = None /\ n = d) \/ exists s, lastValue k ps = Some s /\ convert s = Some n) /\
  (forall (N : Type) (convert : pystr -> option N) k d, getNumber convert o k d = ValueError <->
     exists s, lastValue k ps = Some s /\ convert s = None).
Proof. exact option_values. Qed.
Print Assumptions C148_options.

Example C148_options_example :
  let allowed := [(str "a", [str "x"; str "y"])] in
  unambiguous allowed /\ specifies allowed (str "a{x=true}") (str "a") [(str "x", str "true")] /\
  getBool [(str "x", str "true")] (str "x") false = Ok true /\ getBool [(str "x", str "True")] (str "x") false = ValueError /\
  getBool [(str "x", str "true")] (str "y") false = Ok false.
Proof.
  cbv zeta. split.
  - split; [repeat constructor; cbn; tauto|]. intros v w [<-|[]] [<-|[]] _. reflexivity.
  - split; [|repeat split].
    exists [str "x"; str "y"]. split; [cbn; tauto|]. split; [repeat constructor; cbn; tauto|]. exists [], []. split; [constructor|].
    split; [constructor|]. right. exists (str "x=true"). split; [|reflexivity]. apply last_element.
    apply (pair_element (str "x") (str "true")); unfold word; cbn; intuition discriminate.
Qed.
