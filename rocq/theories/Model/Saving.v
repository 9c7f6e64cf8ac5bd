(** * Data sets that are saved to ARFF files

    Model of parts of python/subprojects/testbed/mlrl/testbed/data.py. Simplifications: The textual representation of ARFF and XML files is
    not modelled. Values are not missing. *)

From Coq Require Import List Bool Arith ZArith QArith String DecimalString DecimalNat.
From Verif Require Import Lib.Arr Model.Testbed.
Import ListNotations.
Open Scope nat_scope.

(** The function [str], applied to a number that is not negative. *)
Definition strNat (i : nat) : string := NilEmpty.string_of_uint (Nat.to_uint i).

(** data.py, lines 207-211. *)
Definition savedMetaData (numFeatures numOutputs : nat) : metaData :=
  {| features := map (fun i => ("X" ++ strNat i, NUMERICAL)%string) (seq 0 numFeatures);
     outputs := map (fun i => "y" ++ strNat i)%string (seq 0 numOutputs);
     outputsAtStart := false |}.

(** data.py, lines 259-268: the values of an example, features before outputs. Zeros are not stored, if both matrices are sparse. *)
Definition denseRow (x : list Q) (y : list Z) : list cell := map (fun v => Some v) x ++ map (fun v => Some (inject_Z v)) y.

Definition sparseRow (x : list Q) (y : list Z) : list (nat * cell) :=
  filter (fun e => match snd e with Some q => negb (Qeq_bool q 0) | None => true end)
    (combine (seq 0 (List.length x + List.length y)) (denseRow x y)).

(** data.py, lines 192-213 and 216-278, where the attributes are numeric, because there are no nominal values. *)
Definition saveDataSet (sparse : bool) (numFeatures numOutputs : nat) (examples : list (list Q * list Z)) : arff * metaData :=
  let meta := savedMetaData numFeatures numOutputs in
  let xFeatures := map (fun f => (fst f, NumericAttribute)) (features meta) in
  let yFeatures := map (fun o => (o, NumericAttribute)) (outputs meta) in
  let relationSign := if outputsAtStart meta then 1%Z else (-1)%Z in
  let attrs := if outputsAtStart meta then yFeatures ++ xFeatures else xFeatures ++ yFeatures in
  let rows := if sparse then SparseRows (map (fun e => sparseRow (fst e) (snd e)) examples)
              else DenseRows (map (fun e => denseRow (fst e) (snd e)) examples) in
  ({| relation := Some (Z.of_nat numOutputs * relationSign)%Z; attributes := attrs; data := rows |}, meta).

(** data.py, lines 172-189: the outputs in the XML file are given in the order of the meta data. *)
Definition saveDataSetAndMetaData (sparse : bool) (numFeatures numOutputs : nat) (examples : list (list Q * list Z))
  : arff * list string * metaData :=
  let (f, meta) := saveDataSet sparse numFeatures numOutputs examples in (f, outputs meta, meta).
