(** Properties C27, C28, C74-C76: isotonic calibration. *)
From Coq Require Import ZArith QArith Arith List Bool Permutation Lqa.
From Verif Require Import Lib.Arr Model.Stopping Model.Isotonic Spec.Stopping Spec.Isotonic Proofs.Isotonic
  Proofs.Calibration Proofs.CalibrationFindings.
Import ListNotations.
Open Scope nat_scope.

(** ** C27 *)
Theorem C27_fitted_bins :
  forall bins sorted : list (Q * Q), bins <> [] -> Permutation bins sorted -> thresholds_sorted sorted ->
    exists out, fitSorted sorted = Some out /\ out <> [] /\ thresholds_increasing out /\ probabilities_increasing out /\
      (forall t, In t (map fst out) -> In t (map fst bins)) /\
      (forall lo hi, (forall b, In b bins -> (lo <= snd b <= hi)%Q) -> forall b, In b out -> (lo <= snd b <= hi)%Q).
Proof. exact fit_lemma. Qed.
Print Assumptions C27_fitted_bins.

(** Only consecutive bins with non-increasing probabilities are merged, by averaging them. *)
Theorem C27_pooling :
  forall bins : list (Q * Q), bins <> [] ->
    exists groups out, aggregateNonIncreasingBins bins = Some out /\ concat groups = bins /\ Forall2 pooled groups out /\
      probabilities_increasing out.
Proof. exact pool_lemma. Qed.
Print Assumptions C27_pooling.

Theorem C27_calibration :
  forall bins sorted out : list (Q * Q), bins <> [] -> Permutation bins sorted -> thresholds_sorted sorted ->
    (forall b, In b bins -> (0 <= fst b <= 1)%Q /\ (0 <= snd b <= 1)%Q) ->
    fitSorted sorted = Some out ->
    (forall p, (0 < p <= 1)%Q -> exists v, calibrateProbability out p = Some (Some v) /\ (0 <= v <= 1)%Q /\
       interpolates ((0, 0)%Q :: out ++ [(1, 1)%Q]) p v) /\
    (forall p p' v v', (0 < p)%Q -> (p <= p')%Q -> (p' <= 1)%Q ->
       calibrateProbability out p = Some (Some v) -> calibrateProbability out p' = Some (Some v') -> (v <= v')%Q).
Proof. exact C27_calibration_lemma. Qed.
Print Assumptions C27_calibration.

Example C27_example :
  let bins := [(3 # 10, 0); (1 # 10, 1); (9 # 10, 1); (5 # 10, 1 # 4)]%Q in
  let sorted := [(1 # 10, 1); (3 # 10, 0); (5 # 10, 1 # 4); (9 # 10, 1)]%Q in
  Permutation bins sorted /\ thresholds_sorted sorted /\
  fitSorted sorted = Some [(1 # 10, 12 # 32); (9 # 10, 1)]%Q /\
  exists w, calibrateProbability [(1 # 10, 12 # 32); (9 # 10, 1)]%Q (1 # 2) = Some (Some w) /\ (w == 11 # 16)%Q.
Proof.
  split; [|split; [|split; [vm_compute; reflexivity|]]].
  - apply (Permutation_cons_app [_] [_; _]). apply perm_skip. apply perm_swap.
  - intros i j a b Hij Ha Hb.
    do 4 (destruct j as [|j]; [do 4 (destruct i as [|i]; [simpl in *; injection Ha as <-; injection Hb as <-;
      first [unfold Qle; simpl; Lia.lia | Lia.lia]|]); destruct i; discriminate|]).
    destruct j; discriminate.
  - eexists. split; vm_compute; reflexivity.
Qed.

(** ** C28: false; full statement: bins that share a threshold are merged into a single bin holding their mean
    probability. The bins with the greatest threshold are not averaged. *)
Theorem C28_duplicate_thresholds_refuted :
  exists bins, forall sorted, Permutation bins sorted -> thresholds_sorted sorted ->
    exists out b, eliminateDuplicates sorted = Some out /\ In b out /\
      ~ is_mean (map snd (sharing bins (fst b))) (snd b).
Proof. exact duplicates_refuted. Qed.
Print Assumptions C28_duplicate_thresholds_refuted.

(** It holds if the greatest threshold is not shared and thresholds are not approximately equal unless they are equal. *)
Theorem C28_duplicate_thresholds_partial :
  forall sorted : list (Q * Q), sorted <> [] -> thresholds_sorted sorted ->
    (forall a b, In a sorted -> In b sorted -> isEqualQ (fst a) (fst b) = true -> (fst a == fst b)%Q) ->
    (forall b0, sharing sorted (fst (last sorted b0)) = [last sorted b0]) ->
    exists out, eliminateDuplicates sorted = Some out /\ thresholds_increasing out /\
      (forall b, In b out -> is_mean (map snd (sharing sorted (fst b))) (snd b)) /\
      (forall b, In b sorted -> exists b', In b' out /\ (fst b == fst b')%Q).
Proof. exact duplicates_partial. Qed.
Print Assumptions C28_duplicate_thresholds_partial.

Example C28_example :
  let sorted := [(1 # 10, 1); (3 # 10, 0); (3 # 10, 1 # 4); (3 # 10, 1); (9 # 10, 1)]%Q in
  (forall b0, sharing sorted (fst (last sorted b0)) = [last sorted b0]) /\
  exists v, eliminateDuplicates sorted = Some [(1 # 10, 1); (3 # 10, v); (9 # 10, 1)]%Q /\ (v == 5 # 12)%Q.
Proof.
  split; [intros b0; vm_compute; reflexivity|]. eexists. split; vm_compute; reflexivity.
Qed.

(** ** C74: false; full statement: no non-decreasing assignment of probabilities to the given bins has a smaller sum of
    squared errors than the fitted one. Pools are averaged without taking their sizes into account. *)
Theorem C74_least_squares_refuted :
  exists bins out (fit : nat -> Q),
    thresholds_increasing bins /\ fitSorted bins = Some out /\ (forall i j, i <= j -> (fit i <= fit j)%Q) /\
    (squared_error fit (map snd bins) <
     squared_error (fun i => assigned out (fst (nth i bins (0, 0)%Q))) (map snd bins))%Q.
Proof. exact least_squares_refuted. Qed.
Print Assumptions C74_least_squares_refuted.

(** ** C75: false; full statement: each probability in [0, 1] is calibrated to a probability. For positive ones, see
    [C27_calibration]. *)
Theorem C75_calibrating_zero_refuted :
  exists bins out,
    (forall b, In b bins -> (0 <= fst b <= 1)%Q /\ (0 <= snd b <= 1)%Q) /\ thresholds_increasing bins /\
    fitSorted bins = Some out /\ calibrateProbability out 0 = Some None.
Proof. exact zero_refuted. Qed.
Print Assumptions C75_calibrating_zero_refuted.

(** It holds if the smallest threshold is positive. *)
Theorem C75_calibrating_zero_partial :
  forall (bins : list (Q * Q)) (b : Q * Q) (rest : list (Q * Q)), bins = b :: rest -> (0 < fst b)%Q ->
    exists v, calibrateProbability bins 0 = Some (Some v) /\ (v == 0)%Q.
Proof. exact calibrate_zero. Qed.
Print Assumptions C75_calibrating_zero_partial.

Example C75_example : exists v, calibrateProbability [(1 # 10, 1 # 3); (9 # 10, 1)]%Q 0 = Some (Some v) /\ (v == 0)%Q.
Proof. eexists. split; vm_compute; reflexivity. Qed.

(** ** C76: false; full statement: an example counts as an occurrence of a label vector iff its relevant labels are those
    of the label vector. *)
Theorem C76_label_vector_equality_refuted :
  exists l lv, areLabelVectorsEqual l lv = Some true /\ l <> lv.
Proof. exact equal_refuted. Qed.
Print Assumptions C76_label_vector_equality_refuted.

(** The label vector is only required to be a prefix. *)
Theorem C76_label_vector_equality_partial :
  forall l lv, (areLabelVectorsEqual l lv = Some true <-> exists rest, l = lv ++ rest) /\
    (length l <= length lv -> (areLabelVectorsEqual l lv = Some true <-> l = lv)).
Proof. exact equal_partial. Qed.
Print Assumptions C76_label_vector_equality_partial.

Example C76_example :
  areLabelVectorsEqual [1; 3] [1; 4] = Some false /\ areLabelVectorsEqual [1; 3] [1; 3] = Some true /\
  areLabelVectorsEqual [1] [1; 3] = Some false /\ areLabelVectorsEqual [1; 3] [] = Some true.
Proof. repeat split. Qed.
