(** Properties of the matrices and feature types that are handed from Python to C++. *)
From Coq Require Import List Bool Arith ZArith NArith Lia.
From Verif Require Import Lib.Arr Model.Estimators Spec.Estimators Proofs.Estimators.
Import ListNotations.

(** ** C154: the values that are used do not depend on the format of matrices *)

(** Feature values are those given by the user, regardless of the format. Matrices that explicitly store zeros are missing, unless sparse elements are zero. *)
Theorem C154_features_partial :
  forall colWise p x sparseValue m, validInput x -> (sparseValue = Some 0%Z \/ ~ storesZero (Some 0%Z) x) ->
  createFeatureMatrix colWise p x sparseValue = Some (Created m) ->
  forall i j v, inShape x i j -> (elementIs m i j v <-> given x sparseValue i j v).
Proof. exact feature_values. Qed.
Print Assumptions C154_features_partial.

(** No exception is raised. Matrices without any elements and unsupported formats are missing. *)
Theorem C154_features_created_partial :
  forall colWise p x sparseValue, validInput x -> usable x ->
  exists m, createFeatureMatrix colWise p x sparseValue = Some (Created m).
Proof. exact feature_created. Qed.
Print Assumptions C154_features_created_partial.

(** A sparse matrix with missing and sparse values is converted into a dense one. *)
Example C154_features_partial_example :
  let x := SparseInput (SMatrix CSC 2 2 [((0, 1), Some 3%Z); ((1, 0), None)]) in
  validInput x /\ ~ storesZero (Some 0%Z) x /\ usable x /\
  createFeatureMatrix true Auto x (Some 7%Z) = Some (Created (DenseMatrix [[Some 7%Z; Some 3%Z]; [None; Some 7%Z]])) /\
  inShape x 1 1 /\ given x (Some 7%Z) 1 1 (Some 7%Z) /\ given x (Some 7%Z) 0 1 (Some 3%Z).
Proof.
  cbv zeta. split.
  { split; [|repeat constructor]. constructor; [intros [H|[]]; discriminate|constructor; [intros []|constructor]]. }
  split; [intros (ij & [H|[H|[]]]); discriminate|]. split; [split; [simpl; tauto|discriminate]|].
  split; [vm_compute; reflexivity|]. split; [split; simpl; lia|]. split; [|left; left; reflexivity].
  right. split; [|reflexivity]. intros [H|[H|[]]]; discriminate.
Qed.

(** Regression scores are those given by the user. *)
Theorem C154_regression :
  forall p y m, validInput y -> createRegressionMatrix p y = Some (Created m) ->
  forall i j v, inShape y i j -> (elementIs m i j v <-> given y (Some 0%Z) i j v).
Proof. exact regression_values. Qed.
Print Assumptions C154_regression.

Example C154_regression_example :
  let y := SparseInput (SMatrix CSR 1 2 [((0, 1), Some (-3)%Z)]) in
  validInput y /\ createRegressionMatrix ForceSparse y = Some (Created (SparseMatrix 1 2 [((0, 1), Some (-3)%Z)] (Some 0%Z))) /\
  createRegressionMatrix Auto y = Some (Created (DenseMatrix [[Some 0%Z; Some (-3)%Z]])).
Proof.
  cbv zeta. split; [|split; vm_compute; reflexivity]. split; [|repeat constructor]. constructor; [intros []|constructor].
Qed.

(** A label is relevant if and only if its value is one. Matrices that explicitly store zeros are missing. *)
Theorem C154_labels_partial :
  forall p y m, validInput y -> binaryInput y -> ~ storesZero 0%Z y -> createLabelMatrix p y = Some (Created m) ->
  forall i j, inShape y i j -> (relevantIn m i j <-> given y 0%Z i j 1%Z).
Proof. exact label_values. Qed.
Print Assumptions C154_labels_partial.

(** No exception is raised. Matrices without any elements and unsupported formats are missing. *)
Theorem C154_labels_created_partial :
  forall p y, validInput y -> usable y -> exists m, createLabelMatrix p y = Some (Created m).
Proof. exact label_created. Qed.
Print Assumptions C154_labels_created_partial.

Example C154_labels_partial_example :
  let y := SparseInput (SMatrix LIL 2 2 [((1, 0), 1%Z)]) in
  validInput y /\ binaryInput y /\ ~ storesZero 0%Z y /\ usable y /\
  createLabelMatrix ForceSparse y = Some (Created (SparseLabels 2 2 [(1, 0)])) /\
  createLabelMatrix Auto y = Some (Created (DenseLabels [[0%Z; 0%Z]; [1%Z; 0%Z]])) /\
  given y 0%Z 1 0 1%Z /\ ~ given y 0%Z 0 0 1%Z.
Proof.
  cbv zeta. split.
  { split; [|repeat constructor]. constructor; [intros []|constructor]. }
  split; [constructor; [right; reflexivity|constructor]|]. split; [intros (ij & [H|[]]); discriminate|].
  split; [split; [simpl; tauto|discriminate]|]. split; [vm_compute; reflexivity|]. split; [vm_compute; reflexivity|].
  split; [left; left; reflexivity|]. intros [[H|[]]|[_ H]]; discriminate.
Qed.

(** A matrix that explicitly stores a zero, whose value is different when training a model and obtaining predictions. *)
Theorem C154_zeros_refuted :
  exists x sparseValue training query, validInput x /\ usable x /\
  createFeatureMatrix true Auto x sparseValue = Some (Created training) /\
  createFeatureMatrix false Auto x sparseValue = Some (Created query) /\
  elementIs training 0 0 (Some 0%Z) /\ elementIs query 0 0 sparseValue /\ sparseValue <> Some 0%Z.
Proof. exact zeros_refuted. Qed.
Print Assumptions C154_zeros_refuted.

(** Matrices without any elements that cause an exception to be raised, unless a dense format is used. *)
Theorem C154_empty_refuted :
  exists colWise x y, validInput x /\ (forall i j, given x (Some 0%Z) i j (Some 0%Z)) /\
  createFeatureMatrix colWise Auto x (Some 0%Z) = Some IndexError /\
  (exists m, createFeatureMatrix colWise ForceDense x (Some 0%Z) = Some (Created m)) /\
  validInput y /\ createLabelMatrix Auto y = Some IndexError /\ (exists m, createLabelMatrix ForceDense y = Some (Created m)).
Proof. exact empty_refuted. Qed.
Print Assumptions C154_empty_refuted.

(** A label that is irrelevant according to the user, but considered as relevant when using a sparse format. *)
Theorem C154_labels_refuted :
  exists y sparse dense i j, validInput y /\ binaryInput y /\ usable y /\ given y 0%Z i j 0%Z /\
  createLabelMatrix ForceSparse y = Some (Created sparse) /\ relevantIn sparse i j /\
  createLabelMatrix ForceDense y = Some (Created dense) /\ ~ relevantIn dense i j.
Proof. exact labels_refuted. Qed.
Print Assumptions C154_labels_refuted.

(** ** C155: the format of matrices is chosen as documented *)

(** A sparse format is used for features if and only if it does not require more memory. *)
Theorem C155_features :
  forall colWise s sparseValue, validInput (SparseInput s) -> usable (SparseInput s) ->
  let r := createFeatureMatrix colWise Auto (SparseInput s) sparseValue in
  (usesSparse r <-> sparseBytes s colWise 4 <= denseBytes s 4) /\
  (usesDense r <-> denseBytes s 4 < sparseBytes s colWise 4).
Proof. exact feature_format. Qed.
Print Assumptions C155_features.

(** A format that is requested by the user is used. Matrices without any elements and unsupported formats are missing. *)
Theorem C155_forced_partial :
  forall colWise x sparseValue y, validInput x -> usable x -> validInput y -> usable y ->
  usesDense (createFeatureMatrix colWise ForceDense x sparseValue) /\ usesDenseLabels (createLabelMatrix ForceDense y) /\
  match x with
  | SparseInput s => usesSparse (createFeatureMatrix colWise ForceSparse x sparseValue)
  | DenseInput m => usesDense (createFeatureMatrix colWise ForceSparse x sparseValue)
  end /\
  match y with
  | SparseInput s => usesSparseLabels (createLabelMatrix ForceSparse y)
  | DenseInput m => usesDenseLabels (createLabelMatrix ForceSparse y)
  end.
Proof. exact forced_format. Qed.
Print Assumptions C155_forced_partial.

(** A sparse format is used for labels if and only if it requires at most three additional bytes, and if predictions are sparse. *)
Theorem C155_labels_partial :
  forall s, validInput (SparseInput s) -> usable (SparseInput s) ->
  let r := createLabelMatrix Auto (SparseInput s) in
  (usesSparseLabels r <-> sparseBytes s false 0 < denseBytes s 1 + 4) /\
  (usesDenseLabels r -> denseBytes s 1 + 4 <= sparseBytes s false 0) /\
  (usesSparseLabels r <-> sparsePredictions Auto (SparseInput s) = true).
Proof. exact label_format. Qed.
Print Assumptions C155_labels_partial.

(** If a sparse format is used for regression scores, it requires less memory. The converse is missing. *)
Theorem C155_regression_partial :
  forall s, validInput (SparseInput s) -> usable (SparseInput s) ->
  usesSparse (createRegressionMatrix Auto (SparseInput s)) -> sparseBytes s false 4 < denseBytes s 4.
Proof. exact regression_format. Qed.
Print Assumptions C155_regression_partial.

(** The sparse format requires 28 of 32 bytes for features, if it is row-wise, but 36 bytes, if it is column-wise. *)
Example C155_features_example :
  let s := SMatrix CSR 2 4 [((0, 1), Some 3%Z); ((1, 0), None)] in
  validInput (SparseInput s) /\ usable (SparseInput s) /\
  sparseBytes s false 4 = 28 /\ sparseBytes s true 4 = 36 /\ denseBytes s 4 = 32 /\
  usesSparse (createFeatureMatrix false Auto (SparseInput s) (Some 0%Z)) /\
  usesDense (createFeatureMatrix true Auto (SparseInput s) (Some 0%Z)).
Proof.
  cbv zeta. split.
  { split; [|repeat constructor; simpl; lia]. constructor; [intros [H|[]]; discriminate|constructor; [intros []|constructor]]. }
  split; [split; [simpl; tauto|discriminate]|]. vm_compute. tauto.
Qed.

(** A sparse format is used for labels and regression scores. *)
Example C155_labels_partial_example :
  let s := SMatrix CSR 1 20 [((0, 1), 1%Z)] in
  let s' := SMatrix CSR 1 20 [((0, 1), Some (-1)%Z)] in
  validInput (SparseInput s) /\ usable (SparseInput s) /\ usesSparseLabels (createLabelMatrix Auto (SparseInput s)) /\
  validInput (SparseInput s') /\ usable (SparseInput s') /\ usesSparse (createRegressionMatrix Auto (SparseInput s')).
Proof.
  cbv zeta. split; [split; [constructor; [intros []|constructor]|repeat constructor; simpl; lia]|].
  split; [split; [simpl; tauto|discriminate]|]. split; [vm_compute; exact I|].
  split; [split; [constructor; [intros []|constructor]|repeat constructor; simpl; lia]|].
  split; [split; [simpl; tauto|discriminate]|]. vm_compute. exact I.
Qed.

(** A sparse format is used for labels, although it requires more memory. *)
Theorem C155_labels_refuted :
  exists s, validInput (SparseInput s) /\ usable (SparseInput s) /\
  usesSparseLabels (createLabelMatrix Auto (SparseInput s)) /\ denseBytes s 1 < sparseBytes s false 0.
Proof. exact label_format_refuted. Qed.
Print Assumptions C155_labels_refuted.

(** A dense format is used for regression scores, although it requires twice as much memory. *)
Theorem C155_regression_refuted :
  exists s, validInput (SparseInput s) /\ usable (SparseInput s) /\
  usesDense (createRegressionMatrix Auto (SparseInput s)) /\ 2 * sparseBytes s false 4 <= denseBytes s 4.
Proof. exact regression_format_refuted. Qed.
Print Assumptions C155_regression_refuted.

(** A matrix that is not converted into a dense format, although this is requested and possible. *)
Theorem C155_unsupported_refuted :
  exists s, validInput (SparseInput s) /\ sstored s <> [] /\
  createFeatureMatrix true ForceDense (SparseInput s) (Some 0%Z) = Some ValueError /\ exists m, enforceDense s (Some 0%Z) = Some m.
Proof. exact unsupported_refuted. Qed.
Print Assumptions C155_unsupported_refuted.

(** ** C156: features have the types that are set by the user *)

(** Features have the types that are set by the user. The cases where only one list of indices is set or where indices are invalid or not unique are missing. *)
Theorem C156_types_partial :
  forall numFeatures ordinal nominal, (Z.of_nat numFeatures < 4294967296)%Z -> validIndices numFeatures ordinal nominal ->
  (ordinal = None <-> nominal = None) ->
  exists info, createFeatureInfo numFeatures ordinal nominal = Some (Info info) /\
  forall i t, i < numFeatures -> (createFeatureType info i = Some t <-> typeIs ordinal nominal i t).
Proof. exact feature_types. Qed.
Print Assumptions C156_types_partial.

Example C156_types_partial_example :
  let ordinal := Some [2%Z] in
  let nominal := Some [40%Z; 0%Z] in
  validIndices 41 ordinal nominal /\ typeIs ordinal nominal 40 NominalType /\ typeIs ordinal nominal 2 OrdinalType /\
  typeIs ordinal nominal 1 NumericalType.
Proof.
  cbv zeta. split; [|split; [left; reflexivity|split; [left; reflexivity|]]].
  - split; simpl.
    + constructor; [intros [H|[H|[]]]; discriminate|]. constructor; [intros [H|[]]; discriminate|]. constructor; [intros []|constructor].
    + intros i [<-|[<-|[<-|[]]]]; lia.
  - split; simpl; intros H; lia.
Qed.

(** Only nominal features are set, which causes an exception to be raised. *)
Theorem C156_single_refuted :
  exists numFeatures nominal, validIndices numFeatures None (Some nominal) /\ nominal <> [] /\
  createFeatureInfo numFeatures None (Some nominal) = Some TypeError.
Proof. exact single_refuted. Qed.
Print Assumptions C156_single_refuted.

(** Indices that are given twice cause a feature to be nominal that has not been set. *)
Theorem C156_duplicates_refuted :
  exists numFeatures nominal i info, (forall k, In k nominal -> (0 <= k < Z.of_nat numFeatures)%Z) /\ i < numFeatures /\
  createFeatureInfo numFeatures (Some []) (Some nominal) = Some (Info info) /\
  createFeatureType info i = Some NominalType /\ ~ In (Z.of_nat i) nominal.
Proof. exact duplicates_refuted. Qed.
Print Assumptions C156_duplicates_refuted.

(** A feature that is set to be ordinal and nominal may be considered as any of both. *)
Theorem C156_overlap_refuted :
  exists numFeatures ordinal1 ordinal2 nominal1 nominal2 info1 info2,
  In 0%Z ordinal1 /\ In 0%Z nominal1 /\ In 0%Z ordinal2 /\ In 0%Z nominal2 /\
  createFeatureInfo numFeatures (Some ordinal1) (Some nominal1) = Some (Info info1) /\
  createFeatureInfo numFeatures (Some ordinal2) (Some nominal2) = Some (Info info2) /\
  createFeatureType info1 0 = Some OrdinalType /\ createFeatureType info2 0 = Some NominalType.
Proof. exact overlap_refuted. Qed.
Print Assumptions C156_overlap_refuted.

(** An invalid index may be ignored or cause undefined behavior. *)
Theorem C156_range_refuted :
  exists numFeatures nominal1 nominal2 info,
  (exists i, In i nominal1 /\ (Z.of_nat numFeatures <= i)%Z) /\ (exists i, In i nominal2 /\ (Z.of_nat numFeatures <= i)%Z) /\
  createFeatureInfo numFeatures (Some []) (Some nominal1) = Some (Info info) /\
  createFeatureInfo numFeatures (Some []) (Some nominal2) = None.
Proof. exact range_refuted. Qed.
Print Assumptions C156_range_refuted.
