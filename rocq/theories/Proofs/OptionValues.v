(** * The values of options that are given in bracket notation *)

From Coq Require Import List Bool Ascii String.
From Verif Require Import Model.Options Spec.Options Proofs.Options.
Import ListNotations.

Lemma option_values :
  forall allowed text v ps, unambiguous allowed -> specifies allowed text v ps ->
  exists o, parseParamAndOptions text allowed = Ok (v, o) /\
  (forall k d, getString o k d = match lastValue k ps with Some s => s | None => d end) /\
  (forall k d b, getBool o k d = Ok b <->
     (lastValue k ps = None /\ b = d) \/ (lastValue k ps = Some (str "true") /\ b = true) \/ (lastValue k ps = Some (str "false") /\ b = false)) /\
  (forall k d, getBool o k d = ValueError <-> exists s, lastValue k ps = Some s /\ s <> str "true" /\ s <> str "false") /\
  (forall (N : Type) (convert : pystr -> option N) k d n, getNumber convert o k d = Ok n <->
     (lastValue k ps = None /\ n = d) \/ exists s, lastValue k ps = Some s /\ convert s = Some n) /\
  (forall (N : Type) (convert : pystr -> option N) k d, getNumber convert o k d = ValueError <->
     exists s, lastValue k ps = Some s /\ convert s = None).
Proof.
  intros allowed text v ps U S. destruct (proj1 (bracket_notation allowed text U) v ps S) as [o [P D]]. exists o. split; [exact P|].
  split; [intros k d; unfold getString; rewrite D; reflexivity|]. split; [|split; [|split]].
  - intros k d b. unfold getBool. rewrite D. destruct (lastValue k ps) as [s|].
    + unfold parseBoolean. destruct (pyEq s (str "true")) eqn:E1; [apply pyEq_eq in E1; subst s|].
      * split; [intros [= <-]; auto|]. intros [[H _]|[[_ ->]|[H _]]]; [discriminate|reflexivity|discriminate].
      * destruct (pyEq s (str "false")) eqn:E2; [apply pyEq_eq in E2; subst s|].
        -- split; [intros [= <-]; auto|]. intros [[H _]|[[H _]|[_ ->]]]; [discriminate|discriminate|reflexivity].
        -- split; [discriminate|]. intros [[H _]|[[[= ->] _]|[[= ->] _]]]; [discriminate| |]; exfalso;
             [rewrite pyEq_refl in E1|rewrite pyEq_refl in E2]; discriminate.
    + split; [intros [= <-]; auto|]. intros [[_ ->]|[[H _]|[H _]]]; [reflexivity|discriminate|discriminate].
  - intros k d. unfold getBool. rewrite D. destruct (lastValue k ps) as [s|].
    + unfold parseBoolean. destruct (pyEq s (str "true")) eqn:E1; [apply pyEq_eq in E1; subst s|].
      * split; [discriminate|]. intros [s [H0 [H1 _]]]. elim H1. symmetry. exact (f_equal (fun o => match o with Some x => x | None => [] end) H0).
      * destruct (pyEq s (str "false")) eqn:E2; [apply pyEq_eq in E2; subst s|].
        -- split; [discriminate|]. intros [s [H0 [_ H1]]]. elim H1. symmetry. exact (f_equal (fun o => match o with Some x => x | None => [] end) H0).
        -- split; [|reflexivity]. intros _. exists s. split; [reflexivity|]. split; intros ->; rewrite pyEq_refl in *; discriminate.
    + split; [discriminate|]. intros [s [H _]]. discriminate.
  - intros N convert k d n. unfold getNumber. rewrite D. destruct (lastValue k ps) as [s|].
    + destruct (convert s) as [m|] eqn:E.
      * split; [intros [= <-]; right; exists s; auto|]. intros [[H _]|[t [[= <-] H]]]; [discriminate|]. congruence.
      * split; [discriminate|]. intros [[H _]|[t [[= <-] H]]]; [discriminate|congruence].
    + split; [intros [= <-]; auto|]. intros [[_ ->]|[t [H _]]]; [reflexivity|discriminate].
  - intros N convert k d. unfold getNumber. rewrite D. destruct (lastValue k ps) as [s|].
    + destruct (convert s) as [m|] eqn:E.
      * split; [discriminate|]. intros [t [[= <-] H]]. congruence.
      * split; [|reflexivity]. intros _. exists s. auto.
    + split; [discriminate|]. intros [t [H _]]. discriminate.
Qed.
