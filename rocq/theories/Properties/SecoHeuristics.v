(** Properties of the heuristics used by separate-and-conquer algorithms. *)
From Coq Require Import QArith List Bool Lqa.
From Verif Require Import Model.SecoHeuristics Spec.SecoHeuristics Proofs.SecoHeuristics.
Import ListNotations.
Open Scope Q_scope.

(** ** C50: Heuristics are bounded and well defined
    Missing: the weighted relative accuracy may be negative, the accuracy is wrong for rules that predict a label as
    irrelevant. *)

(** Two covered examples, one of them predicted correctly, and three that are not covered. *)
Definition samples50 : list sample :=
  [mkSample 2 true true true; mkSample 1 false true true; mkSample 1 true true false; mkSample (1 # 2) false true false;
   mkSample 3 false true false].
Example samples50_valid : valid samples50.
Proof. repeat constructor; discriminate. Qed.

(** All heuristics but those based on the weighted relative accuracy are in [0, 1]. *)
Theorem C50_range_partial : forall h l, valid l -> valid_heuristic h -> is_fraction h -> exists q, score h l = Some q /\ 0 <= q <= 1.
Proof. exact heuristics_range. Qed.
Print Assumptions C50_range_partial.

Example C50_range_partial_example : valid samples50 /\ valid_heuristic (FMeasure (Finite (1 # 2))) /\
  exists q, score (FMeasure (Finite (1 # 2))) samples50 = Some q /\ q == 2 # 3.
Proof. split; [apply samples50_valid|]. split; [discriminate|]. eexists. split; reflexivity. Qed.

(** There are no divisions by zero. *)
Theorem C50_defined_partial : forall h l, valid l -> valid_heuristic h -> exists q, score h l = Some q.
Proof. exact heuristics_defined. Qed.
Print Assumptions C50_defined_partial.

Example C50_defined_partial_example : valid [] /\ valid_heuristic (MEstimate (Finite 0)) /\
  map (fun h => score h []) [Accuracy; Precision; Recall; Laplace; Wra; FMeasure (Finite 1); MEstimate (Finite 0)] =
    [Some 0; Some 0; Some 0; Some (1 # 2); Some 0; Some 0; Some 0].
Proof. split; [constructor|]. split; [discriminate|reflexivity]. Qed.

(** The range of the weighted relative accuracy. *)
Theorem C50_wra_range_partial : forall h l, valid l -> h = Wra \/ h = MEstimate Infinite -> exists q, score h l = Some q /\ - (1 # 4) <= q <= 1 # 4.
Proof. exact wra_range. Qed.
Print Assumptions C50_wra_range_partial.

Example C50_wra_range_partial_example : valid samples50 /\ exists q, score Wra samples50 = Some q /\ q == 8 # 75.
Proof. split; [apply samples50_valid|]. eexists. split; reflexivity. Qed.

(** All heuristics but the accuracy coincide with their definitions. *)
Theorem C50_textbook_partial : forall h l q, h <> Accuracy -> valid l -> valid_heuristic h -> textbook h l = Some q ->
    exists q', score h l = Some q' /\ q' == q.
Proof. exact heuristics_textbook. Qed.
Print Assumptions C50_textbook_partial.

Example C50_textbook_partial_example : valid samples50 /\ exists q, textbook (MEstimate (Finite 2)) samples50 = Some q /\ q == 14 # 25.
Proof. split; [apply samples50_valid|]. eexists. split; reflexivity. Qed.

(** The accuracy is right for rules that predict a label as relevant. *)
Theorem C50_accuracy_positive_partial : forall l q, valid l -> Forall (fun s => sPredicted s = true) l -> textbook Accuracy l = Some q ->
    exists q', score Accuracy l = Some q' /\ q' == q.
Proof. exact accuracy_positive. Qed.
Print Assumptions C50_accuracy_positive_partial.

Example C50_accuracy_positive_partial_example : valid samples50 /\ Forall (fun s => sPredicted s = true) samples50 /\
  exists q, textbook Accuracy samples50 = Some q /\ q == 11 # 15.
Proof. split; [apply samples50_valid|]. split; [repeat constructor|]. eexists. split; reflexivity. Qed.

(** Using recall for an infinite beta is the limit of the F-measure. *)
Theorem C50_f_measure_limit_partial : forall l eps, valid l -> 0 < eps -> exists bound, forall beta, bound <= beta ->
    exists f r, score (FMeasure (Finite beta)) l = Some f /\ score Recall l = Some r /\ - eps <= f - r <= eps.
Proof. exact f_measure_limit. Qed.
Print Assumptions C50_f_measure_limit_partial.

Example C50_f_measure_limit_partial_example : valid (firstn 2 samples50) /\ 0 < 1 # 100 /\
  exists f, score (FMeasure (Finite 100)) (firstn 2 samples50) = Some f /\ exists r, score Recall (firstn 2 samples50) = Some r /\ ~ f == r.
Proof. split; [repeat constructor; discriminate|]. split; [reflexivity|]. eexists. split; [reflexivity|]. eexists. split; [reflexivity|]. vm_compute. discriminate. Qed.

(** Using the weighted relative accuracy for an infinite m is consistent with the order of rules for large values. *)
Theorem C50_m_estimate_limit_partial : forall l1 l2 q1 q2, valid l1 -> valid l2 ->
    weightOf everything l1 == weightOf everything l2 -> weightOf correct l1 == weightOf correct l2 ->
    score Wra l1 = Some q1 -> score Wra l2 = Some q2 -> q1 < q2 ->
    exists bound, forall m, bound <= m ->
      exists r1 r2, score (MEstimate (Finite m)) l1 = Some r1 /\ score (MEstimate (Finite m)) l2 = Some r2 /\ r1 < r2.
Proof. exact m_estimate_limit. Qed.
Print Assumptions C50_m_estimate_limit_partial.

Definition samples50' : list sample :=
  [mkSample 2 true true true; mkSample 1 false true false; mkSample 1 true true true; mkSample (1 # 2) false true false;
   mkSample 3 false true false].
Example C50_m_estimate_limit_partial_example : valid samples50 /\ valid samples50' /\
  weightOf everything samples50 == weightOf everything samples50' /\ weightOf correct samples50 == weightOf correct samples50' /\
  exists q1 q2, score Wra samples50 = Some q1 /\ score Wra samples50' = Some q2 /\ q1 < q2.
Proof.
  split; [apply samples50_valid|]. split; [repeat constructor; discriminate|]. split; [reflexivity|]. split; [reflexivity|].
  do 2 eexists. split; [reflexivity|]. split; reflexivity.
Qed.

(** The accuracy is not the fraction of correct predictions. *)
Theorem C50_accuracy_refuted : exists l q q', valid l /\ textbook Accuracy l = Some q /\ score Accuracy l = Some q' /\ ~ q' == q.
Proof. exact accuracy_wrong. Qed.
Print Assumptions C50_accuracy_refuted.

(** For rules that predict a label as irrelevant, the accuracy does not even depend on the examples that are covered. *)
Theorem C50_accuracy_constant_partial : forall l1 l2, Forall (fun s => sPredicted s = false) l1 ->
    Forall2 (fun a b => sWeight a = sWeight b /\ sRelevant a = sRelevant b /\ sPredicted a = sPredicted b) l1 l2 ->
    valid l1 -> exists q1 q2, score Accuracy l1 = Some q1 /\ score Accuracy l2 = Some q2 /\ q1 == q2.
Proof. exact accuracy_constant. Qed.
Print Assumptions C50_accuracy_constant_partial.

Example C50_accuracy_constant_partial_example :
  exists q, score Accuracy [mkSample 1 true false true; mkSample 1 false false false] = Some q /\
  exists q', score Accuracy [mkSample 1 true false false; mkSample 1 false false true] = Some q' /\ q == q'.
Proof. eexists. split; [reflexivity|]. eexists. split; reflexivity. Qed.

(** The weighted relative accuracy may be negative. *)
Theorem C50_wra_refuted : exists l q, valid l /\ score Wra l = Some q /\ ~ (0 <= q <= 1).
Proof. exact wra_negative. Qed.
Print Assumptions C50_wra_refuted.
