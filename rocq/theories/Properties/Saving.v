(** Properties of data sets that are saved to ARFF files. *)
From Coq Require Import List Bool Arith ZArith QArith String Lia.
From Verif Require Import Model.Testbed Model.Saving Spec.Saving Proofs.Saving.
Import ListNotations.
Open Scope nat_scope.

(** ** C169: data sets that are saved can be loaded *)

(** A data set that is saved to an ARFF and an XML file is loaded again, including its meta data. Sparse data sets, where the last output is irrelevant to all examples or the last example consists of zeros, and other outputs are missing. *)
Theorem C169_round_trip_partial :
  forall sparse numFeatures numOutputs examples, 0 < numFeatures -> 0 < numOutputs -> validExamples numFeatures numOutputs examples ->
  (sparse = true -> lastUsed numOutputs examples) ->
  exists f xml meta, saveDataSetAndMetaData sparse numFeatures numOutputs examples = (f, xml, meta) /\
  loadDataSetAndMetaData f (Some xml)
  = Some (map (fun e => map (fun v => Some v) (fst e)) examples, map (fun e => map (fun v => Some v) (snd e)) examples, meta).
Proof. exact round_trip. Qed.
Print Assumptions C169_round_trip_partial.

(** If the last output is irrelevant to all examples of a sparse data set, other labels are loaded. *)
Theorem C169_sparse_refuted :
  exists numFeatures numOutputs examples f xml meta x y, 0 < numFeatures /\ 0 < numOutputs /\ validExamples numFeatures numOutputs examples /\
  saveDataSetAndMetaData true numFeatures numOutputs examples = (f, xml, meta) /\
  loadDataSetAndMetaData f (Some xml) = Some (x, y, meta) /\
  List.length x = List.length examples /\ y <> map (fun e => map (fun v => Some v) (snd e)) examples.
Proof. exact sparse_round_trip_refuted. Qed.
Print Assumptions C169_sparse_refuted.

(** If the XML file is not saved, the outputs that are declared by the relation are not found. *)
Theorem C169_relation_refuted :
  exists numFeatures numOutputs examples f meta x y meta', 0 < numFeatures /\ 0 < numOutputs /\ validExamples numFeatures numOutputs examples /\
  saveDataSet false numFeatures numOutputs examples = (f, meta) /\
  loadDataSetAndMetaData f None = Some (x, y, meta') /\
  outputs meta <> [] /\ outputs meta' = [] /\ x <> map (fun e => map (fun v => Some v) (fst e)) examples.
Proof. exact without_xml_refuted. Qed.
Print Assumptions C169_relation_refuted.

Example C169_example :
  let examples := [([1%Q; 0%Q], [0%Z; 1%Z]); ([0%Q; (1 # 2)%Q], [2%Z; 0%Z])] in
  validExamples 2 2 examples /\ lastUsed 2 examples /\
  saveDataSetAndMetaData true 2 2 examples
  = (Arff (Some (-2)%Z) [("X0", NumericAttribute); ("X1", NumericAttribute); ("y0", NumericAttribute); ("y1", NumericAttribute)]%string
       (SparseRows [[(0, Some 1%Q); (3, Some 1%Q)]; [(1, Some (1 # 2)%Q); (2, Some 2%Q)]]),
     ["y0"; "y1"]%string, MetaData [("X0", NUMERICAL); ("X1", NUMERICAL)]%string ["y0"; "y1"]%string false).
Proof.
  cbv zeta. split; [|split; [|reflexivity]].
  - intros x y [[= <- <-]|[[= <- <-]|[]]]; (split; [reflexivity|split; [reflexivity|split]]);
      try (intros q [<-|[<-|[]]] E; try reflexivity; vm_compute in E; discriminate); intros z [<-|[<-|[]]]; lia.
  - split.
    + exists [1%Q; 0%Q], [0%Z; 1%Z], 1%Z. cbn. intuition discriminate.
    + exists [([1%Q; 0%Q], [0%Z; 1%Z])], [0%Q; (1 # 2)%Q], [2%Z; 0%Z]. split; [reflexivity|]. right. exists 2%Z. cbn. intuition discriminate.
Qed.
