(** Properties of the predictions of decision lists. *)
From Coq Require Import NArith ZArith Arith List Bool Sorted Lia.
From Verif Require Import Lib.Arr Model.Rules Model.Prediction Model.SecoPrediction Spec.Rules Spec.SecoPrediction Proofs.SecoPrediction.
Import ListNotations.
Open Scope nat_scope.

(** ** C53: Decision list semantics
    Missing: sparse predictions do not follow the semantics of decision lists. *)
Definition rules53 : ruleList (rule bool) :=
  mkRuleList (Some (EmptyBody, CompleteHead [false; true; false]))
    [(ConjunctiveBody (mkBody [(0, Fin 3)] [] [] [] [] []), PartialHead [(0, true); (2, false)]); (EmptyBody, PartialHead [(2, true)]);
     (EmptyBody, CompleteHead [true; true; true])] 3 false.
Definition features53 : featureMatrix := DenseMatrix [[Fin 1]; [Fin 5]].
Definition row53 (i : nat) : list fval := nth i [[Fin 1]; [Fin 5]] [].

(** Dense predictions follow the semantics of decision lists for dense and sparse features. [junkLabels]: uninitialized memory. *)
Theorem C53_dense_partial : forall junk junkLabels m l numLabels maxRules row,
    rlNumUsed l <= rlGetNumRules l -> (N.of_nat (rlGetNumRules l) < 2 ^ 32)%N ->
    let order := expected_order (rlDefault l) (rlRules l) (rlPrecedence l) (limitRules maxRules (rlGetNumUsed l)) in
    (forall i, i < fmRows m -> example_row m i (row i)) ->
    (forall i r, i < fmRows m -> In r order -> coversDense (row i) (fst r) <> None) ->
    (forall r, In r order -> head_for numLabels (snd r)) ->
    default_for numLabels (rlDefault l) -> length junkLabels = fmRows m -> Forall (fun r => length r = numLabels) junkLabels ->
    exists result, predictDense junk junkLabels m l numLabels maxRules = Some result /\ length result = fmRows m /\
      forall i labels, nth_error result i = Some labels -> length labels = numLabels /\
        forall label, label < numLabels -> nth_error labels label = Some true <->
          decide (fun r => match coversDense (row i) (fst r) with Some true => true | _ => false end) order label = Some true.
Proof. exact dense_predictions. Qed.
Print Assumptions C53_dense_partial.

Example C53_dense_partial_example :
  rlNumUsed rules53 <= rlGetNumRules rules53 /\ (N.of_nat (rlGetNumRules rules53) < 2 ^ 32)%N /\
  (forall i, i < 2 -> example_row features53 i (row53 i)) /\ default_for 3 (rlDefault rules53) /\
  (forall i r, i < 2 -> In r (expected_order (rlDefault rules53) (rlRules rules53) false 3) ->
     coversDense (row53 i) (fst r) <> None /\ head_for 3 (snd r)) /\
  predictDense NaN [[true; true; true]; [true; true; true]] features53 rules53 3 0 = Some [[true; true; false]; [false; true; true]].
Proof.
  split; [vm_compute; lia|]. split; [reflexivity|]. split; [intros [|[|i]] Hi; try lia; reflexivity|].
  split; [split; [reflexivity|]; eexists; split; reflexivity|]. split; [|reflexivity].
  intros [|[|i]] r Hi Hr; try lia; simpl in Hr; destruct Hr as [<-|[<-|[<-|[]]]]; (split; [discriminate|repeat constructor]).
Qed.

(** Sparse predictions are the labels that are predicted as relevant by any of the covering rules. *)
Theorem C53_sparse_partial : forall junk m l numLabels maxRules row,
    rlNumUsed l <= rlGetNumRules l -> (N.of_nat (rlGetNumRules l) < 2 ^ 32)%N ->
    let order := expected_order (rlDefault l) (rlRules l) (rlPrecedence l) (limitRules maxRules (rlGetNumUsed l)) in
    (forall i, i < fmRows m -> example_row m i (row i)) ->
    (forall i r, i < fmRows m -> In r order -> coversDense (row i) (fst r) <> None) ->
    (forall r, In r order -> head_for numLabels (snd r)) -> (forall r, In r order -> head_sorted (snd r)) ->
    exists result, predictSparse junk m l numLabels maxRules = Some result /\ length result = fmRows m /\
      forall i labels, nth_error result i = Some labels -> StronglySorted lt labels /\
        forall label, In label labels <->
          some_relevant (fun r => match coversDense (row i) (fst r) with Some true => true | _ => false end) order label.
Proof. exact sparse_predictions. Qed.
Print Assumptions C53_sparse_partial.

Example C53_sparse_partial_example :
  (forall r, In r (expected_order (rlDefault rules53) (rlRules rules53) false 3) -> head_sorted (snd r)) /\
  predictSparse NaN features53 rules53 3 0 = Some [[0; 1; 2]; [1; 2]].
Proof. split; [|reflexivity]. intros r Hr. simpl in Hr. destruct Hr as [<-|[<-|[<-|[]]]]; simpl; repeat constructor. Qed.

(** Dense and sparse predictions agree if no rule that predicts a label as irrelevant precedes one that predicts it as relevant. *)
Theorem C53_agree_partial : forall junk junk' junkLabels m l numLabels maxRules row,
    rlNumUsed l <= rlGetNumRules l -> (N.of_nat (rlGetNumRules l) < 2 ^ 32)%N ->
    let order := expected_order (rlDefault l) (rlRules l) (rlPrecedence l) (limitRules maxRules (rlGetNumUsed l)) in
    let covers i r := match coversDense (row i) (fst r) with Some true => true | _ => false end in
    (forall i, i < fmRows m -> example_row m i (row i)) ->
    (forall i r, i < fmRows m -> In r order -> coversDense (row i) (fst r) <> None) ->
    (forall r, In r order -> head_for numLabels (snd r)) -> (forall r, In r order -> head_sorted (snd r)) ->
    default_for numLabels (rlDefault l) -> length junkLabels = fmRows m -> Forall (fun r => length r = numLabels) junkLabels ->
    (forall i label pre r suf, i < fmRows m -> order = pre ++ r :: suf -> covers i r = true -> predicts (snd r) label = Some false ->
       ~ some_relevant (covers i) suf label) ->
    exists dense sparse, predictDense junk junkLabels m l numLabels maxRules = Some dense /\
      predictSparse junk' m l numLabels maxRules = Some sparse /\
      forall i labels relevant label, nth_error dense i = Some labels -> nth_error sparse i = Some relevant -> label < numLabels ->
        (nth_error labels label = Some true <-> In label relevant).
Proof. exact predictions_agree. Qed.
Print Assumptions C53_agree_partial.

Example C53_agree_partial_example :
  let l := mkRuleList (Some (EmptyBody, CompleteHead [false; false])) [(EmptyBody, PartialHead [(1, true)])] 0 false in
  let order := expected_order (rlDefault l) (rlRules l) (rlPrecedence l) (limitRules 0 (rlGetNumUsed l)) in
  (forall label pre r suf, order = pre ++ r :: suf -> predicts (snd r) label = Some false -> ~ some_relevant (fun _ => true) suf label) /\
  predictDense NaN [[true; true]] (DenseMatrix [[]]) l 2 0 = Some [[false; true]] /\
  predictSparse NaN (DenseMatrix [[]]) l 2 0 = Some [[1]].
Proof.
  cbv zeta. split; [|split; reflexivity]. intros label pre r suf E HP. cbn in E.
  destruct pre as [|a [|b [|c pre]]]; try discriminate; injection E; intros; subst.
  - destruct label as [|[|label]]; discriminate.
  - intros (q & [] & _).
Qed.

(** Dense and sparse predictions disagree if a rule predicts a label as irrelevant and the default rule predicts it as relevant. *)
Theorem C53_sparse_refuted : exists m l numLabels, rlDefault l = Some (EmptyBody, CompleteHead [true]) /\
  rlRules l = [(EmptyBody, PartialHead [(0, false)])] /\ rlPrecedence l = false /\
  forall junk junkLabels, predictDense junk [[junkLabels]] m l numLabels 0 = Some [[false]] /\
    predictSparse junk m l numLabels 0 = Some [[0]].
Proof. exact sparse_disagrees. Qed.
Print Assumptions C53_sparse_refuted.

(** Sparse predictions may contain a label twice if the labels of heads are not in ascending order. The function only searches in sequences that are partitioned as required by [std::lower_bound]. *)
Theorem C53_unsorted_refuted : exists m l numLabels maxRules labels, (forall r, In r (rlRules l) -> head_for numLabels (snd r)) /\
  (forall junk, predictSparse junk m l numLabels maxRules = Some [labels]) /\ ~ NoDup labels /\ ~ StronglySorted le labels.
Proof. exact sparse_duplicates. Qed.
Print Assumptions C53_unsorted_refuted.
