(** Model of the conversion of a sparse label matrix (CSR) to the column-wise format (CSC).
    Source: cpp/subprojects/common/src/mlrl/common/sampling/stratified_sampling_output_wise.cpp, lines 36-92. *)
From Coq Require Import Arith List Bool.
From Verif Require Import Lib.Arr.
Import ListNotations.

(** Lines 46-55: counts the examples of each label. [rows]: the labels of each row of the CSR matrix. *)
Definition countLabels (rows : list (list nat)) (examples indptr : list nat) : option (list nat) :=
  forL examples (fun e indptr =>
    let* labels := aget rows e in
    forL labels (fun l indptr => let* n := aget indptr l in aset indptr l (n + 1)) indptr) indptr.

(** Lines 59-65: turns counts into offsets. *)
Definition countsToOffsets (numLabels : nat) (indptr : list nat) : option (list nat * nat) :=
  forN numLabels 0 (fun i '(indptr, tmp) =>
    let* n := aget indptr i in
    let* indptr' := aset indptr i tmp in
    Some (indptr', tmp + n)) (indptr, 0).

(** Lines 68-79: writes the row indices, advancing the offsets. *)
Definition fillColumns (rows : list (list nat)) (examples out indptr : list nat) : option (list nat * list nat) :=
  forL examples (fun e st =>
    let* labels := aget rows e in
    forL labels (fun l '(out, indptr) =>
      let* position := aget indptr l in
      let* out' := aset out position e in
      let* indptr' := aset indptr l (position + 1) in
      Some (out', indptr')) st) (out, indptr).

(** Lines 82-88: restores the offsets. *)
Definition restoreOffsets (numLabels : nat) (indptr : list nat) : option (list nat * nat) :=
  forN numLabels 0 (fun i '(indptr, tmp) =>
    let* n := aget indptr i in
    let* indptr' := aset indptr i tmp in
    Some (indptr', n)) (indptr, 0).

(** Lines 36-92. [out], [indptr]: arrays with arbitrary content; line 43 clears [numLabels] elements of the latter,
    line 91 truncates the former. *)
Definition csrToCsc (rows : list (list nat)) (numLabels : nat) (examples out indptr : list nat)
  : option (list nat * list nat) :=
  let* indptr := forN numLabels 0 (fun i indptr => aset indptr i 0) indptr in
  let* indptr := countLabels rows examples indptr in
  let* (indptr, _) := countsToOffsets numLabels indptr in
  let* (out, indptr) := fillColumns rows examples out indptr in
  let* (indptr, tmp) := restoreOffsets numLabels indptr in
  let* indptr := aset indptr numLabels tmp in
  Some (firstn tmp out, indptr).
