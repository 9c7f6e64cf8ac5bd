(** * Parameters, models and characteristics of data sets in experiments

    Model of parts of python/subprojects/testbed/mlrl/testbed: experiments.py and parameters.py (parameters that are loaded from files),
    persistence.py and io.py (models that are saved to and loaded from files) and characteristics.py (characteristics of output matrices).

    Simplifications: The values of parameters are strings, because they are converted by [str], if they are written to a CSV file, and
    converted back when the learner is configured. Errors when accessing files are not modelled. *)

From Coq Require Import List Bool Arith ZArith QArith String DecimalString DecimalNat.
From Verif Require Import Lib.Arr.
Import ListNotations.
Open Scope nat_scope.

(** ** Parameters *)

(** The parameters of a learner: their names and values, where the value [None] is the default value. *)
Notation params := (list (string * option string)).

(** The first value of a key. *)
Fixpoint assoc {V} (l : list (string * V)) (key : string) : option V :=
  match l with
  | [] => None
  | (k, v) :: l => if String.eqb k key then Some v else assoc l key
  end.

(** The replacement of the value of a key. *)
Fixpoint replace {V} (l : list (string * V)) (key : string) (value : V) : list (string * V) :=
  match l with
  | [] => []
  | (k, v) :: l => if String.eqb k key then (k, value) :: l else (k, v) :: replace l key value
  end.

(** The method [set_params] of estimators in scikit-learn: An exception is raised, if a parameter does not exist. *)
Definition setParams (p : params) (values : list (string * string)) : option params :=
  forL values (fun kv p =>
    match assoc p (fst kv) with
    | None => None
    | Some _ => Some (replace p (fst kv) (Some (snd kv)))
    end) p.

(** parameters.py, lines 98-109: the values that are written to a file. *)
Definition tabularizeParams (p : params) : list (string * string) :=
  flat_map (fun kv => match snd kv with Some v => [(fst kv, v)] | None => [] end) p.

(** experiments.py, lines 320-330: the parameters of the learner that is used, given the base learner, which has been created from the
    command line arguments, and the content of the file that stores parameters, if available. *)
Definition currentParams (base : params) (file : option (list (string * string))) : option params :=
  match file with
  | Some values => if List.length values =? 0 then Some base else setParams base values
  | None => Some base
  end.

(** ** Models *)

(** io.py, lines 35-56. *)
Definition getFileName (name suffix : string) : string := (name ++ "." ++ suffix)%string.

Definition getFileNamePerFold (name suffix : string) (fold : option nat) : string :=
  getFileName (name ++ "_" ++ (match fold with
    | None => "overall"
    | Some fold => "fold-" ++ NilEmpty.string_of_uint (Nat.to_uint (fold + 1))
    end))%string suffix.

(** persistence.py, lines 29-67, where a directory is given as an association list. *)
Definition saveModel {L} (dir : list (string * L)) (name : string) (fold : option nat) (model : L) : list (string * L) :=
  (getFileNamePerFold name "model" fold, model) :: dir.

Definition loadModel {L} (dir : list (string * L)) (name : string) (fold : option nat) : option L :=
  assoc dir (getFileNamePerFold name "model" fold).

(** experiments.py, lines 344-361: the model that is used for a fold, given a function that trains a model, and whether it has been
    trained. The class of a learner that is loaded is the same. *)
Definition useModel {L} (dir : list (string * L)) (name : string) (fold : option nat) (train : option nat -> L)
  : list (string * L) * (L * bool) :=
  match loadModel dir name fold with
  | Some model => (dir, (model, false))
  | None => (saveModel dir name fold (train fold), (train fold, true))
  end.

(** The models that are used for all folds of an experiment. *)
Fixpoint useModels {L} (dir : list (string * L)) (name : string) (folds : list (option nat)) (train : option nat -> L)
  : list (string * L) * list (L * bool) :=
  match folds with
  | [] => (dir, [])
  | fold :: folds =>
      let (dir, used) := useModel dir name fold train in
      let (dir, l) := useModels dir name folds train in (dir, used :: l)
  end.

(** ** Characteristics of output matrices *)

(** An output matrix: a list of rows or a list of the columns and values that are explicitly stored per row. *)
Inductive omatrix := DenseOutputs (numCols : nat) (r : list (list Z)) | SparseOutputs (numCols : nat) (r : list (list (nat * Z))).

Definition numColsOf (m : omatrix) : nat := match m with DenseOutputs c _ => c | SparseOutputs c _ => c end.
Definition numRows (m : omatrix) : nat := match m with DenseOutputs _ r => List.length r | SparseOutputs _ r => List.length r end.

(** The function [count_nonzero] of numpy. *)
Definition countNonzero (l : list Z) : nat := List.length (filter (fun v => negb (v =? 0)%Z) l).

(** The numbers of dense elements per row, i.e., the differences of pointers in the CSR format (characteristics.py, lines 57-61). *)
Definition densePerRow (m : omatrix) : list nat :=
  match m with
  | DenseOutputs _ r => map countNonzero r
  | SparseOutputs _ r => map (@List.length _) r
  end.

(** The numbers of dense elements per column, i.e., the differences of pointers in the CSC format (characteristics.py, lines 89-93). *)
Definition densePerCol (m : omatrix) : list nat :=
  match m with
  | DenseOutputs c r => map (fun j => countNonzero (map (fun row => nth j row 0%Z) r)) (seq 0 c)
  | SparseOutputs c r => map (fun j => List.length (filter (fun e : nat * Z => fst e =? j) (List.concat r))) (seq 0 c)
  end.

Definition ratio (a b : nat) : Q := (inject_Z (Z.of_nat a) / inject_Z (Z.of_nat b))%Q.

(** characteristics.py, lines 31-46. *)
Definition density (m : omatrix) : Q :=
  let numElements := numRows m * numColsOf m in
  if 0 <? numElements then ratio (list_sum (densePerRow m)) numElements else 0%Q.

(** characteristics.py, lines 49-63. The average of an empty array is not a number. *)
Definition labelCardinality (m : omatrix) : option Q :=
  if numRows m =? 0 then None else Some (ratio (list_sum (densePerRow m)) (numRows m)).

(** characteristics.py, lines 66-78. *)
Definition distinctLabelVectors (m : omatrix) : nat :=
  match m with
  | DenseOutputs _ r => List.length (nodup (list_eq_dec Z.eq_dec) r)
  | SparseOutputs _ r => List.length (nodup (list_eq_dec Nat.eq_dec) (map (map fst) r))
  end.

(** characteristics.py, lines 81-100. *)
Definition labelImbalanceRatio (m : omatrix) : Q :=
  let l := filter (fun n => negb (n =? 0)) (densePerCol m) in
  if 0 <? List.length l then
    (fold_right Qplus 0%Q (map (fun n => ratio (list_max l) n) l) / inject_Z (Z.of_nat (List.length l)))%Q
  else 0%Q.
