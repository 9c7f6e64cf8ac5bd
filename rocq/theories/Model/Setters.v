(** * The methods for setting parameters that are available in Python

    Model of the Cython classes (python/subprojects/*/mlrl/*/cython) that provide access to the configurations of components: a
    method checks a given value, converts it into the type that is declared for the parameter of the C++ function (in a .pxd file)
    and calls the function, which converts it into the actual type of the parameter, checks it again and stores it.

    Simplifications: Only methods with a number as an argument are considered, i.e., those that are annotated with [int] or [float].
    Values of other types are not considered, because they are converted before (see Model/PyConfig.v). Values of the type [float]
    are represented as in Model/Floats.v. The messages and types of exceptions are omitted. *)

From Coq Require Import List Bool Ascii String ZArith.
From Verif Require Import Model.Options Model.PyConfig Model.Floats Model.Parameters.
Import ListNotations.
Open Scope Z_scope.

(** A number in Python. *)
Inductive pyvalue := PyInt (n : Z) | PyFloat (x : float).

(** The types of C++ that are used (python/subprojects/common/mlrl/common/cython/_types.pxd, lines 6-11, and
    cpp/subprojects/common/include/mlrl/common/data/types.hpp, lines 8-14). *)
Inductive ctype := Uint32 | Float32 | Float64.

(** A value in C++. *)
Inductive cvalue := CInt (n : Z) | CFloat (x : float).

(** The values of the variables of a configuration, given the names of the corresponding getters in Python. *)
Definition fields := pystr -> cvalue.

(** The assignment of a variable. *)
Definition assign (st : fields) (f : pystr) (v : cvalue) : fields := fun g => if pyEq g f then v else st g.

(** The conditions that may be checked by the functions in python/subprojects/common/mlrl/common/cython/validation.py, lines 6-69,
    and cpp/subprojects/common/include/mlrl/common/util/validation.hpp, lines 19-88, where the value of a variable may be used as a
    threshold. *)
Inductive check :=
| IsGreater (n : Z)
| IsGreaterOrEqual (n : Z)
| IsLess (n : Z)
| IsLessOrEqual (n : Z)
| IsGreaterOrEqualField (f : pystr)
| IsMultipleOf (f : pystr).

(** A method in Python (argument [pyUnlessZero]: whether the value zero is not checked), the declaration of the C++ function in a .pxd
    file (argument [translated]: whether it is declared with [except +]), and the C++ function. *)
Record setter := mkSetter {
  setterClass : pystr;
  setterName : pystr;
  setterField : pystr;
  pyUnlessZero : bool;
  pyChecks : list check;
  pxdType : ctype;
  translated : bool;
  cppType : ctype;
  cppUnlessZero : bool;
  cppChecks : list check
}.

(** The value of a number, the comparison of numbers in Python is exact. *)
Definition pyNumber (v : pyvalue) : float :=
  match v with
  | PyInt n => Finite (n * one)
  | PyFloat x => x
  end.

(** The conversion of a value that is returned by a getter. *)
Definition toPython (v : cvalue) : pyvalue :=
  match v with
  | CInt n => PyInt n
  | CFloat x => PyFloat x
  end.

(** Whether a function in validation.py does not raise an exception (python/subprojects/common/mlrl/common/cython/validation.py, lines
    14, 27, 40, 53 and 66). The operator [%] is only used for values of type [int], it raises an exception if the divisor is zero. *)
Definition pyAssert (st : fields) (v : pyvalue) (c : check) : bool :=
  match c with
  | IsGreater n => negb (leqb (pyNumber v) (pyNumber (PyInt n)))
  | IsGreaterOrEqual n => negb (gtb (pyNumber (PyInt n)) (pyNumber v))
  | IsLess n => negb (leqb (pyNumber (PyInt n)) (pyNumber v))
  | IsLessOrEqual n => negb (gtb (pyNumber v) (pyNumber (PyInt n)))
  | IsGreaterOrEqualField f => negb (gtb (pyNumber (toPython (st f))) (pyNumber v))
  | IsMultipleOf f =>
      match v, st f with
      | PyInt n, CInt m => if m =? 0 then false else n mod m =? 0
      | _, _ => false
      end
  end.

(** Whether a value is zero in Python. *)
Definition pyIsZero (v : pyvalue) : bool :=
  match pyNumber v with
  | Finite z => z =? 0
  | _ => false
  end.

(** The checks that are performed by a method in Python. *)
Definition pyAccepts (s : setter) (st : fields) (v : pyvalue) : bool :=
  (pyUnlessZero s && pyIsZero v) || forallb (pyAssert st v) (pyChecks s).

(** The conversion into the type that is declared for the parameter, [None] if an exception is raised. An integer must be in range
    or it is converted into a value of type [float64] first. A value of type [float64] is rounded if the type is [float32]. *)
Definition convert (t : ctype) (v : pyvalue) : option cvalue :=
  match t, v with
  | Uint32, PyInt n => if (0 <=? n) && (n <? 2 ^ 32) then Some (CInt n) else None
  | Uint32, PyFloat _ => None
  | Float64, PyFloat x => Some (CFloat x)
  | Float32, PyFloat x => Some (CFloat (toFloat32 x))
  | Float64, PyInt n => match round64 (n * one) with Finite z => Some (CFloat (Finite z)) | _ => None end
  | Float32, PyInt n => match round64 (n * one) with Finite z => Some (CFloat (toFloat32 (Finite z))) | _ => None end
  end.

(** The conversion into the type of the parameter of the C++ function, [None] if the behavior is undefined. *)
Definition cast (t : ctype) (c : cvalue) : option cvalue :=
  match t, c with
  | Uint32, CInt n => Some (CInt n)
  | Uint32, CFloat x => match toUint32 x with Some n => Some (CInt n) | None => None end
  | Float32, CFloat x => Some (CFloat (toFloat32 x))
  | Float64, CFloat x => Some (CFloat x)
  | Float32, CInt n => Some (CFloat (uint32ToFloat32 n))
  | Float64, CInt n => Some (CFloat (Finite (n * one)))
  end.

(** Whether a function in validation.hpp does not throw an exception (cpp/subprojects/common/include/mlrl/common/util/validation.hpp,
    lines 19-88), [None] if the behavior is undefined, i.e., if the divisor is zero. *)
Definition cppAssert (st : fields) (v : cvalue) (c : check) : option bool :=
  match v, c with
  | CFloat x, IsGreater n => Some (assertGreater x (Finite (n * one)))
  | CFloat x, IsGreaterOrEqual n => Some (assertGreaterOrEqual x (Finite (n * one)))
  | CFloat x, IsLess n => Some (assertLess x (Finite (n * one)))
  | CFloat x, IsLessOrEqual n => Some (assertLessOrEqual x (Finite (n * one)))
  | CInt k, IsGreater n => Some (n <? k)
  | CInt k, IsGreaterOrEqual n => Some (n <=? k)
  | CInt k, IsLess n => Some (k <? n)
  | CInt k, IsLessOrEqual n => Some (k <=? n)
  | CInt k, IsGreaterOrEqualField f => match st f with CInt m => Some (m <=? k) | CFloat _ => None end
  | CInt k, IsMultipleOf f => match st f with CInt m => if m =? 0 then None else Some (k mod m =? 0) | CFloat _ => None end
  | CFloat _, _ => None
  end.

(** A sequence of checks. *)
Fixpoint cppAsserts (st : fields) (v : cvalue) (cs : list check) : option bool :=
  match cs with
  | [] => Some true
  | c :: cs' =>
      match cppAssert st v c with
      | Some true => cppAsserts st v cs'
      | r => r
      end
  end.

(** Whether a value is considered as zero in C++ (cpp/subprojects/common/include/mlrl/common/data/types.hpp, lines 61-64). *)
Definition cppIsZero (v : cvalue) : bool :=
  match v with
  | CInt n => n =? 0
  | CFloat x => isEqualToZero32 x
  end.

(** The checks that are performed by a C++ function. *)
Definition cppAccepts (s : setter) (st : fields) (v : cvalue) : option bool :=
  if cppUnlessZero s && cppIsZero v then Some true else cppAsserts st v (cppChecks s).

(** The outcome of a method in Python: it returns, it raises an exception, the process is terminated, because a C++ exception is not
    translated into an exception in Python, or the behavior is undefined. *)
Inductive outcome := Returned (st : fields) | Raised | Terminated | UndefinedBehavior.

(** A call of a method, see [setters] for the files and lines. *)
Definition callSetter (s : setter) (st : fields) (v : pyvalue) : outcome :=
  if pyAccepts s st v then
    match convert (pxdType s) v with
    | None => Raised
    | Some c =>
        match cast (cppType s) c with
        | None => UndefinedBehavior
        | Some c' =>
            match cppAccepts s st c' with
            | None => UndefinedBehavior
            | Some true => Returned (assign st (setterField s) c')
            | Some false => if translated s then Raised else Terminated
            end
        end
    end
  else Raised.

(** The class [FixedPartialHeadConfig] (python/subprojects/boosting/mlrl/boosting/cython/head_type.pyx, lines 31-34, 52-53,
    72-74, python/subprojects/boosting/mlrl/boosting/cython/head_type.pxd, lines 12, 16, 20, and
    cpp/subprojects/boosting/src/mlrl/boosting/rule_evaluation/head_type_partial_fixed.cpp, lines 35-42, 49-52, 59-62). *)
Definition fixedPartialHeadConfigSetters : list setter :=
  [mkSetter (str "FixedPartialHeadConfig") (str "set_output_ratio") (str "get_output_ratio")
     true [IsGreater 0; IsLess 1] Float32 true Float32 true [IsGreater 0; IsLess 1];
   mkSetter (str "FixedPartialHeadConfig") (str "set_min_outputs") (str "get_min_outputs")
     false [IsGreaterOrEqual 2] Uint32 true Uint32 false [IsGreaterOrEqual 2];
   mkSetter (str "FixedPartialHeadConfig") (str "set_max_outputs") (str "get_max_outputs")
     true [IsGreaterOrEqualField (str "get_min_outputs")] Uint32 true Uint32 true [IsGreaterOrEqualField (str "get_min_outputs")]].

(** The class [DynamicPartialHeadConfig] (python/subprojects/boosting/mlrl/boosting/cython/head_type.pyx, lines 105-107,
    127-128, python/subprojects/boosting/mlrl/boosting/cython/head_type.pxd, lines 31, 35, and
    cpp/subprojects/boosting/src/mlrl/boosting/rule_evaluation/head_type_partial_dynamic.cpp, lines 19-23, 30-33). *)
Definition dynamicPartialHeadConfigSetters : list setter :=
  [mkSetter (str "DynamicPartialHeadConfig") (str "set_threshold") (str "get_threshold")
     false [IsGreater 0; IsLess 1] Float32 true Float32 false [IsGreater 0; IsLess 1];
   mkSetter (str "DynamicPartialHeadConfig") (str "set_exponent") (str "get_exponent")
     false [IsGreaterOrEqual 1] Float32 true Float32 false [IsGreaterOrEqual 1]].

(** The class [EqualWidthLabelBinningConfig] (python/subprojects/boosting/mlrl/boosting/cython/label_binning.pyx, lines 31-33,
    52-53, 73-75, python/subprojects/boosting/mlrl/boosting/cython/label_binning.pxd, lines 12, 16, 20, and
    cpp/subprojects/boosting/src/mlrl/boosting/binning/label_binning_equal_width.cpp, lines 176-180, 187-190, 197-200). *)
Definition equalWidthLabelBinningConfigSetters : list setter :=
  [mkSetter (str "EqualWidthLabelBinningConfig") (str "set_bin_ratio") (str "get_bin_ratio")
     false [IsGreater 0; IsLess 1] Float32 true Float32 false [IsGreater 0; IsLess 1];
   mkSetter (str "EqualWidthLabelBinningConfig") (str "set_min_bins") (str "get_min_bins")
     false [IsGreaterOrEqual 1] Uint32 true Uint32 false [IsGreaterOrEqual 1];
   mkSetter (str "EqualWidthLabelBinningConfig") (str "set_max_bins") (str "get_max_bins")
     true [IsGreaterOrEqualField (str "get_min_bins")] Uint32 true Uint32 true [IsGreaterOrEqualField (str "get_min_bins")]].

(** The class [ConstantShrinkageConfig] (python/subprojects/boosting/mlrl/boosting/cython/post_processor.pyx, lines 27-29,
    python/subprojects/boosting/mlrl/boosting/cython/post_processor.pxd, line 12, and
    cpp/subprojects/boosting/src/mlrl/boosting/post_processing/shrinkage_constant.cpp, lines 64-68). *)
Definition constantShrinkageConfigSetters : list setter :=
  [mkSetter (str "ConstantShrinkageConfig") (str "set_shrinkage") (str "get_shrinkage")
     false [IsGreater 0; IsLess 1] Float64 true Float64 false [IsGreater 0; IsLess 1]].

(** The class [ManualRegularizationConfig] (python/subprojects/boosting/mlrl/boosting/cython/regularization.pyx, lines 29-30,
    python/subprojects/boosting/mlrl/boosting/cython/regularization.pxd, line 12, and
    cpp/subprojects/boosting/src/mlrl/boosting/rule_evaluation/regularization_manual.cpp, lines 13-16). *)
Definition manualRegularizationConfigSetters : list setter :=
  [mkSetter (str "ManualRegularizationConfig") (str "set_regularization_weight") (str "get_regularization_weight")
     false [IsGreater 0] Float64 true Float64 false [IsGreater 0]].

(** The class [EqualWidthFeatureBinningConfig] (python/subprojects/common/mlrl/common/cython/feature_binning.pyx, lines 31-33,
    52-53, 73-75, python/subprojects/common/mlrl/common/cython/feature_binning.pxd, lines 10, 14, 18, and
    cpp/subprojects/common/src/mlrl/common/input/feature_binning_equal_width.cpp, lines 232-236, 243-246, 253-256). *)
Definition equalWidthFeatureBinningConfigSetters : list setter :=
  [mkSetter (str "EqualWidthFeatureBinningConfig") (str "set_bin_ratio") (str "get_bin_ratio")
     false [IsGreater 0; IsLess 1] Float32 true Float32 false [IsGreater 0; IsLess 1];
   mkSetter (str "EqualWidthFeatureBinningConfig") (str "set_min_bins") (str "get_min_bins")
     false [IsGreaterOrEqual 2] Uint32 true Uint32 false [IsGreaterOrEqual 2];
   mkSetter (str "EqualWidthFeatureBinningConfig") (str "set_max_bins") (str "get_max_bins")
     true [IsGreaterOrEqualField (str "get_min_bins")] Uint32 true Uint32 true [IsGreaterOrEqualField (str "get_min_bins")]].

(** The class [EqualFrequencyFeatureBinningConfig] (python/subprojects/common/mlrl/common/cython/feature_binning.pyx, lines
    103-105, 124-125, 145-147, python/subprojects/common/mlrl/common/cython/feature_binning.pxd, lines 29, 33, 37, and
    cpp/subprojects/common/src/mlrl/common/input/feature_binning_equal_frequency.cpp, lines 226-230, 237-240, 247-250). *)
Definition equalFrequencyFeatureBinningConfigSetters : list setter :=
  [mkSetter (str "EqualFrequencyFeatureBinningConfig") (str "set_bin_ratio") (str "get_bin_ratio")
     false [IsGreater 0; IsLess 1] Float32 true Float32 false [IsGreater 0; IsLess 1];
   mkSetter (str "EqualFrequencyFeatureBinningConfig") (str "set_min_bins") (str "get_min_bins")
     false [IsGreaterOrEqual 2] Uint32 true Uint32 false [IsGreaterOrEqual 2];
   mkSetter (str "EqualFrequencyFeatureBinningConfig") (str "set_max_bins") (str "get_max_bins")
     true [IsGreaterOrEqualField (str "get_min_bins")] Uint32 true Uint32 true [IsGreaterOrEqualField (str "get_min_bins")]].

(** The class [FeatureSamplingWithoutReplacementConfig] (python/subprojects/common/mlrl/common/cython/feature_sampling.pyx,
    lines 30-32, 51-52, 72-74, 94-95, python/subprojects/common/mlrl/common/cython/feature_sampling.pxd, lines 12, 16, 20, 24,
    and cpp/subprojects/common/src/mlrl/common/sampling/feature_sampling_without_replacement.cpp, lines 108-112, 119-122,
    129-132, 139-142). *)
Definition featureSamplingWithoutReplacementConfigSetters : list setter :=
  [mkSetter (str "FeatureSamplingWithoutReplacementConfig") (str "set_sample_size") (str "get_sample_size")
     false [IsGreaterOrEqual 0; IsLess 1] Float32 true Float32 false [IsGreaterOrEqual 0; IsLess 1];
   mkSetter (str "FeatureSamplingWithoutReplacementConfig") (str "set_min_samples") (str "get_min_samples")
     false [IsGreaterOrEqual 1] Uint32 true Uint32 false [IsGreaterOrEqual 1];
   mkSetter (str "FeatureSamplingWithoutReplacementConfig") (str "set_max_samples") (str "get_max_samples")
     true [IsGreaterOrEqualField (str "get_min_samples")] Uint32 true Uint32 true [IsGreaterOrEqualField (str "get_min_samples")];
   mkSetter (str "FeatureSamplingWithoutReplacementConfig") (str "set_num_retained") (str "get_num_retained")
     false [IsGreaterOrEqual 0] Uint32 true Uint32 false [IsGreaterOrEqual 0]].

(** The class [ExampleWiseStratifiedInstanceSamplingConfig]
    (python/subprojects/common/mlrl/common/cython/instance_sampling.pyx, lines 30-32, 51-52, 72-74,
    python/subprojects/common/mlrl/common/cython/instance_sampling.pxd, lines 12, 16, 20, and
    cpp/subprojects/common/src/mlrl/common/sampling/instance_sampling_stratified_example_wise.cpp, lines 131-136, 143-147,
    154-158). *)
Definition exampleWiseStratifiedInstanceSamplingConfigSetters : list setter :=
  [mkSetter (str "ExampleWiseStratifiedInstanceSamplingConfig") (str "set_sample_size") (str "get_sample_size")
     false [IsGreater 0; IsLess 1] Float32 false Float32 false [IsGreater 0; IsLess 1];
   mkSetter (str "ExampleWiseStratifiedInstanceSamplingConfig") (str "set_min_samples") (str "get_min_samples")
     false [IsGreaterOrEqual 1] Float32 false Uint32 false [IsGreaterOrEqual 1];
   mkSetter (str "ExampleWiseStratifiedInstanceSamplingConfig") (str "set_max_samples") (str "get_max_samples")
     true [IsGreaterOrEqualField (str "get_min_samples")] Float32 false Uint32 true [IsGreaterOrEqualField (str "get_min_samples")]].

(** The class [OutputWiseStratifiedInstanceSamplingConfig]
    (python/subprojects/common/mlrl/common/cython/instance_sampling.pyx, lines 101-103, 122-123, 143-145,
    python/subprojects/common/mlrl/common/cython/instance_sampling.pxd, lines 31, 35, 39, and
    cpp/subprojects/common/src/mlrl/common/sampling/instance_sampling_stratified_output_wise.cpp, lines 130-135, 142-146,
    153-157). *)
Definition outputWiseStratifiedInstanceSamplingConfigSetters : list setter :=
  [mkSetter (str "OutputWiseStratifiedInstanceSamplingConfig") (str "set_sample_size") (str "get_sample_size")
     false [IsGreater 0; IsLess 1] Float32 false Float32 false [IsGreater 0; IsLess 1];
   mkSetter (str "OutputWiseStratifiedInstanceSamplingConfig") (str "set_min_samples") (str "get_min_samples")
     false [IsGreaterOrEqual 1] Float32 false Uint32 false [IsGreaterOrEqual 1];
   mkSetter (str "OutputWiseStratifiedInstanceSamplingConfig") (str "set_max_samples") (str "get_max_samples")
     true [IsGreaterOrEqualField (str "get_min_samples")] Float32 false Uint32 true [IsGreaterOrEqualField (str "get_min_samples")]].

(** The class [InstanceSamplingWithReplacementConfig] (python/subprojects/common/mlrl/common/cython/instance_sampling.pyx,
    lines 171-173, 192-193, 213-215, python/subprojects/common/mlrl/common/cython/instance_sampling.pxd, lines 50, 54, 58, and
    cpp/subprojects/common/src/mlrl/common/sampling/instance_sampling_with_replacement.cpp, lines 197-201, 208-211, 218-221).
    *)
Definition instanceSamplingWithReplacementConfigSetters : list setter :=
  [mkSetter (str "InstanceSamplingWithReplacementConfig") (str "set_sample_size") (str "get_sample_size")
     false [IsGreater 0; IsLess 1] Float32 false Float32 false [IsGreater 0; IsLessOrEqual 1];
   mkSetter (str "InstanceSamplingWithReplacementConfig") (str "set_min_samples") (str "get_min_samples")
     false [IsGreaterOrEqual 1] Float32 false Uint32 false [IsGreaterOrEqual 1];
   mkSetter (str "InstanceSamplingWithReplacementConfig") (str "set_max_samples") (str "get_max_samples")
     true [IsGreaterOrEqualField (str "get_min_samples")] Float32 false Uint32 true [IsGreaterOrEqualField (str "get_min_samples")]].

(** The class [InstanceSamplingWithoutReplacementConfig] (python/subprojects/common/mlrl/common/cython/instance_sampling.pyx,
    lines 241-243, 262-263, 283-285, python/subprojects/common/mlrl/common/cython/instance_sampling.pxd, lines 69, 73, 77, and
    cpp/subprojects/common/src/mlrl/common/sampling/instance_sampling_without_replacement.cpp, lines 164-168, 175-178,
    185-188). *)
Definition instanceSamplingWithoutReplacementConfigSetters : list setter :=
  [mkSetter (str "InstanceSamplingWithoutReplacementConfig") (str "set_sample_size") (str "get_sample_size")
     false [IsGreater 0; IsLess 1] Float32 false Float32 false [IsGreater 0; IsLess 1];
   mkSetter (str "InstanceSamplingWithoutReplacementConfig") (str "set_min_samples") (str "get_min_samples")
     false [IsGreaterOrEqual 1] Float32 false Uint32 false [IsGreaterOrEqual 1];
   mkSetter (str "InstanceSamplingWithoutReplacementConfig") (str "set_max_samples") (str "get_max_samples")
     true [IsGreaterOrEqualField (str "get_min_samples")] Float32 false Uint32 true [IsGreaterOrEqualField (str "get_min_samples")]].

(** The class [ManualMultiThreadingConfig] (python/subprojects/common/mlrl/common/cython/multi_threading.pyx, lines 31-33,
    python/subprojects/common/mlrl/common/cython/multi_threading.pxd, line 12, and
    cpp/subprojects/common/src/mlrl/common/multi_threading/multi_threading_manual.cpp, lines 12-15). *)
Definition manualMultiThreadingConfigSetters : list setter :=
  [mkSetter (str "ManualMultiThreadingConfig") (str "set_num_preferred_threads") (str "get_num_preferred_threads")
     true [IsGreaterOrEqual 1] Uint32 true Uint32 true [IsGreaterOrEqual 1]].

(** The class [OutputSamplingWithoutReplacementConfig] (python/subprojects/common/mlrl/common/cython/output_sampling.pyx,
    lines 29-31, 50-51, 71-73, python/subprojects/common/mlrl/common/cython/output_sampling.pxd, lines 12, 16, 20, and
    cpp/subprojects/common/src/mlrl/common/sampling/output_sampling_without_replacement.cpp, lines 77-81, 88-91, 98-101). *)
Definition outputSamplingWithoutReplacementConfigSetters : list setter :=
  [mkSetter (str "OutputSamplingWithoutReplacementConfig") (str "set_sample_size") (str "get_sample_size")
     false [IsGreater 0; IsLess 1] Float32 false Float32 false [IsGreater 0; IsLess 1];
   mkSetter (str "OutputSamplingWithoutReplacementConfig") (str "set_min_samples") (str "get_min_samples")
     false [IsGreaterOrEqual 1] Float32 false Uint32 false [IsGreaterOrEqual 1];
   mkSetter (str "OutputSamplingWithoutReplacementConfig") (str "set_max_samples") (str "get_max_samples")
     true [IsGreaterOrEqualField (str "get_min_samples")] Float32 false Uint32 true [IsGreaterOrEqualField (str "get_min_samples")]].

(** The class [ExampleWiseStratifiedBiPartitionSamplingConfig]
    (python/subprojects/common/mlrl/common/cython/partition_sampling.pyx, lines 31-33,
    python/subprojects/common/mlrl/common/cython/partition_sampling.pxd, line 12, and
    cpp/subprojects/common/src/mlrl/common/sampling/partition_sampling_bi_stratified_example_wise.cpp, lines 92-97). *)
Definition exampleWiseStratifiedBiPartitionSamplingConfigSetters : list setter :=
  [mkSetter (str "ExampleWiseStratifiedBiPartitionSamplingConfig") (str "set_holdout_set_size") (str "get_holdout_set_size")
     false [IsGreater 0; IsLess 1] Float32 true Float32 false [IsGreater 0; IsLess 1]].

(** The class [OutputWiseStratifiedBiPartitionSamplingConfig]
    (python/subprojects/common/mlrl/common/cython/partition_sampling.pyx, lines 61-63,
    python/subprojects/common/mlrl/common/cython/partition_sampling.pxd, line 23, and
    cpp/subprojects/common/src/mlrl/common/sampling/partition_sampling_bi_stratified_output_wise.cpp, lines 93-98). *)
Definition outputWiseStratifiedBiPartitionSamplingConfigSetters : list setter :=
  [mkSetter (str "OutputWiseStratifiedBiPartitionSamplingConfig") (str "set_holdout_set_size") (str "get_holdout_set_size")
     false [IsGreater 0; IsLess 1] Float32 true Float32 false [IsGreater 0; IsLess 1]].

(** The class [RandomBiPartitionSamplingConfig] (python/subprojects/common/mlrl/common/cython/partition_sampling.pyx, lines
    90-92, python/subprojects/common/mlrl/common/cython/partition_sampling.pxd, line 34, and
    cpp/subprojects/common/src/mlrl/common/sampling/partition_sampling_bi_random.cpp, lines 105-109). *)
Definition randomBiPartitionSamplingConfigSetters : list setter :=
  [mkSetter (str "RandomBiPartitionSamplingConfig") (str "set_holdout_set_size") (str "get_holdout_set_size")
     false [IsGreater 0; IsLess 1] Float32 true Float32 false [IsGreater 0; IsLess 1]].

(** The class [SequentialPostOptimizationConfig] (python/subprojects/common/mlrl/common/cython/post_optimization.pyx, lines
    29-30, python/subprojects/common/mlrl/common/cython/post_optimization.pxd, line 14, and
    cpp/subprojects/common/src/mlrl/common/post_optimization/post_optimization_sequential.cpp, lines 172-175). *)
Definition sequentialPostOptimizationConfigSetters : list setter :=
  [mkSetter (str "SequentialPostOptimizationConfig") (str "set_num_iterations") (str "get_num_iterations")
     false [IsGreaterOrEqual 1] Uint32 true Uint32 false [IsGreaterOrEqual 1]].

(** The class [RNGConfig] (python/subprojects/common/mlrl/common/cython/rng.pyx, lines 27-28,
    python/subprojects/common/mlrl/common/cython/rng.pxd, line 12, and cpp/subprojects/common/src/mlrl/common/random/rng.cpp,
    lines 40-43). *)
Definition rNGConfigSetters : list setter :=
  [mkSetter (str "RNGConfig") (str "set_random_state") (str "get_random_state")
     false [IsGreaterOrEqual 1] Uint32 true Uint32 false [IsGreaterOrEqual 1]].

(** The class [GreedyTopDownRuleInductionConfig] (python/subprojects/common/mlrl/common/cython/rule_induction.pyx, lines
    29-30, 50-53, 74-76, 99-101, python/subprojects/common/mlrl/common/cython/rule_induction.pxd, lines 12, 16, 20, 24, and
    cpp/subprojects/common/src/mlrl/common/rule_induction/rule_induction_top_down_greedy.cpp, lines 186-189, 196-203, 210-213,
    220-223). *)
Definition greedyTopDownRuleInductionConfigSetters : list setter :=
  [mkSetter (str "GreedyTopDownRuleInductionConfig") (str "set_min_coverage") (str "get_min_coverage")
     false [IsGreaterOrEqual 1] Uint32 true Uint32 false [IsGreaterOrEqual 1];
   mkSetter (str "GreedyTopDownRuleInductionConfig") (str "set_min_support") (str "get_min_support")
     true [IsGreater 0; IsLess 1] Float32 true Float32 true [IsGreater 0; IsLess 1];
   mkSetter (str "GreedyTopDownRuleInductionConfig") (str "set_max_conditions") (str "get_max_conditions")
     true [IsGreaterOrEqual 1] Uint32 true Uint32 true [IsGreaterOrEqual 1];
   mkSetter (str "GreedyTopDownRuleInductionConfig") (str "set_max_head_refinements") (str "get_max_head_refinements")
     true [IsGreaterOrEqual 1] Uint32 true Uint32 true [IsGreaterOrEqual 1]].

(** The class [BeamSearchTopDownRuleInductionConfig] (python/subprojects/common/mlrl/common/cython/rule_induction.pyx, lines
    148-149, 190-191, 211-214, 235-237, 260-262, python/subprojects/common/mlrl/common/cython/rule_induction.pxd, lines 39,
    47, 51, 55, 59, and cpp/subprojects/common/src/mlrl/common/rule_induction/rule_induction_top_down_beam_search.cpp, lines
    445-448, 465-468, 475-482, 489-492, 499-503). *)
Definition beamSearchTopDownRuleInductionConfigSetters : list setter :=
  [mkSetter (str "BeamSearchTopDownRuleInductionConfig") (str "set_beam_width") (str "get_beam_width")
     false [IsGreaterOrEqual 2] Uint32 true Uint32 false [IsGreaterOrEqual 2];
   mkSetter (str "BeamSearchTopDownRuleInductionConfig") (str "set_min_coverage") (str "get_min_coverage")
     false [IsGreaterOrEqual 1] Uint32 true Uint32 false [IsGreaterOrEqual 1];
   mkSetter (str "BeamSearchTopDownRuleInductionConfig") (str "set_min_support") (str "get_min_support")
     true [IsGreater 0; IsLess 1] Float32 true Float32 true [IsGreater 0; IsLess 1];
   mkSetter (str "BeamSearchTopDownRuleInductionConfig") (str "set_max_conditions") (str "get_max_conditions")
     true [IsGreaterOrEqual 2] Uint32 true Uint32 true [IsGreaterOrEqual 2];
   mkSetter (str "BeamSearchTopDownRuleInductionConfig") (str "set_max_head_refinements") (str "get_max_head_refinements")
     true [IsGreaterOrEqual 1] Uint32 true Uint32 true [IsGreaterOrEqual 1]].

(** The class [SizeStoppingCriterionConfig] (python/subprojects/common/mlrl/common/cython/stopping_criterion.pyx, lines 31-32,
    python/subprojects/common/mlrl/common/cython/stopping_criterion.pxd, line 14, and
    cpp/subprojects/common/src/mlrl/common/stopping/stopping_criterion_size.cpp, lines 63-66). *)
Definition sizeStoppingCriterionConfigSetters : list setter :=
  [mkSetter (str "SizeStoppingCriterionConfig") (str "set_max_rules") (str "get_max_rules")
     false [IsGreaterOrEqual 1] Uint32 true Uint32 false [IsGreaterOrEqual 1]].

(** The class [TimeStoppingCriterionConfig] (python/subprojects/common/mlrl/common/cython/stopping_criterion.pyx, lines 56-57,
    python/subprojects/common/mlrl/common/cython/stopping_criterion.pxd, line 25, and
    cpp/subprojects/common/src/mlrl/common/stopping/stopping_criterion_time.cpp, lines 81-84). *)
Definition timeStoppingCriterionConfigSetters : list setter :=
  [mkSetter (str "TimeStoppingCriterionConfig") (str "set_time_limit") (str "get_time_limit")
     false [IsGreaterOrEqual 1] Uint32 true Uint32 false [IsGreaterOrEqual 1]].

(** The class [PrePruningConfig] (python/subprojects/common/mlrl/common/cython/stopping_criterion.pyx, lines 166-167, 186-187,
    207-208, 226-227, 246-247, 266-268, python/subprojects/common/mlrl/common/cython/stopping_criterion.pxd, lines 59, 63, 67,
    71, 75, 79, and cpp/subprojects/common/src/mlrl/common/stopping/global_pruning_pre.cpp, lines 229-232, 239-242, 249-252,
    259-262, 269-272, 279-283). *)
Definition prePruningConfigSetters : list setter :=
  [mkSetter (str "PrePruningConfig") (str "set_min_rules") (str "get_min_rules")
     false [IsGreaterOrEqual 1] Uint32 true Uint32 false [IsGreaterOrEqual 1];
   mkSetter (str "PrePruningConfig") (str "set_update_interval") (str "get_update_interval")
     false [IsGreaterOrEqual 1] Uint32 true Uint32 false [IsGreaterOrEqual 1];
   mkSetter (str "PrePruningConfig") (str "set_stop_interval") (str "get_stop_interval")
     false [IsMultipleOf (str "get_update_interval")] Uint32 true Uint32 false [IsMultipleOf (str "get_update_interval")];
   mkSetter (str "PrePruningConfig") (str "set_num_past") (str "get_num_past")
     false [IsGreaterOrEqual 1] Uint32 true Uint32 false [IsGreaterOrEqual 1];
   mkSetter (str "PrePruningConfig") (str "set_num_current") (str "get_num_current")
     false [IsGreaterOrEqual 1] Uint32 true Uint32 false [IsGreaterOrEqual 1];
   mkSetter (str "PrePruningConfig") (str "set_min_improvement") (str "get_min_improvement")
     false [IsGreaterOrEqual 0; IsLessOrEqual 1] Float64 true Float64 false [IsGreaterOrEqual 0; IsLessOrEqual 1]].

(** The class [PostPruningConfig] (python/subprojects/common/mlrl/common/cython/stopping_criterion.pyx, lines 337-338,
    358-359, python/subprojects/common/mlrl/common/cython/stopping_criterion.pxd, lines 98, 102, and
    cpp/subprojects/common/src/mlrl/common/stopping/global_pruning_post.cpp, lines 121-124, 131-134). *)
Definition postPruningConfigSetters : list setter :=
  [mkSetter (str "PostPruningConfig") (str "set_min_rules") (str "get_min_rules")
     false [IsGreaterOrEqual 1] Uint32 true Uint32 false [IsGreaterOrEqual 1];
   mkSetter (str "PostPruningConfig") (str "set_interval") (str "get_interval")
     false [IsGreaterOrEqual 1] Uint32 true Uint32 false [IsGreaterOrEqual 1]].

(** The class [FMeasureConfig] (python/subprojects/seco/mlrl/seco/cython/heuristic.pyx, lines 30-31,
    python/subprojects/seco/mlrl/seco/cython/heuristic.pxd, line 12, and
    cpp/subprojects/seco/src/mlrl/seco/heuristics/heuristic_f_measure.cpp, lines 74-77). *)
Definition fMeasureConfigSetters : list setter :=
  [mkSetter (str "FMeasureConfig") (str "set_beta") (str "get_beta")
     false [IsGreaterOrEqual 0] Float64 true Float64 false [IsGreaterOrEqual 0]].

(** The class [MEstimateConfig] (python/subprojects/seco/mlrl/seco/cython/heuristic.pyx, lines 57-58,
    python/subprojects/seco/mlrl/seco/cython/heuristic.pxd, line 23, and
    cpp/subprojects/seco/src/mlrl/seco/heuristics/heuristic_m_estimate.cpp, lines 77-80). *)
Definition mEstimateConfigSetters : list setter :=
  [mkSetter (str "MEstimateConfig") (str "set_m") (str "get_m")
     false [IsGreaterOrEqual 0] Float64 true Float64 false [IsGreaterOrEqual 0]].

(** The class [PeakLiftFunctionConfig] (python/subprojects/seco/mlrl/seco/cython/lift_function.pyx, lines 29-31, 49-50, 69-70,
    python/subprojects/seco/mlrl/seco/cython/lift_function.pxd, lines 12, 16, 20, and
    cpp/subprojects/seco/src/mlrl/seco/lift_functions/lift_function_peak.cpp, lines 122-125, 132-135, 142-145). *)
Definition peakLiftFunctionConfigSetters : list setter :=
  [mkSetter (str "PeakLiftFunctionConfig") (str "set_peak_label") (str "get_peak_label")
     true [IsGreaterOrEqual 1] Uint32 true Uint32 true [IsGreaterOrEqual 1];
   mkSetter (str "PeakLiftFunctionConfig") (str "set_max_lift") (str "get_max_lift")
     false [IsGreaterOrEqual 1] Float64 true Float64 false [IsGreaterOrEqual 1];
   mkSetter (str "PeakLiftFunctionConfig") (str "set_curvature") (str "get_curvature")
     false [IsGreater 0] Float64 true Float64 false [IsGreater 0]].

(** The class [KlnLiftFunctionConfig] (python/subprojects/seco/mlrl/seco/cython/lift_function.pyx, lines 96-97,
    python/subprojects/seco/mlrl/seco/cython/lift_function.pxd, line 31, and
    cpp/subprojects/seco/src/mlrl/seco/lift_functions/lift_function_kln.cpp, lines 72-75). *)
Definition klnLiftFunctionConfigSetters : list setter :=
  [mkSetter (str "KlnLiftFunctionConfig") (str "set_k") (str "get_k")
     false [IsGreater 0] Float64 true Float64 false [IsGreater 0]].

(** The class [CoverageStoppingCriterionConfig] (python/subprojects/seco/mlrl/seco/cython/stopping_criterion.pyx, lines 29-30,
    python/subprojects/seco/mlrl/seco/cython/stopping_criterion.pxd, line 12, and
    cpp/subprojects/seco/src/mlrl/seco/stopping/stopping_criterion_coverage.cpp, lines 69-72). *)
Definition coverageStoppingCriterionConfigSetters : list setter :=
  [mkSetter (str "CoverageStoppingCriterionConfig") (str "set_threshold") (str "get_threshold")
     false [IsGreaterOrEqual 0] Float64 true Float64 false [IsGreaterOrEqual 0]].

(** All methods, see above for the files and lines. *)
Definition setters : list setter :=
  fixedPartialHeadConfigSetters ++ dynamicPartialHeadConfigSetters ++ equalWidthLabelBinningConfigSetters ++
  constantShrinkageConfigSetters ++ manualRegularizationConfigSetters ++ equalWidthFeatureBinningConfigSetters ++
  equalFrequencyFeatureBinningConfigSetters ++ featureSamplingWithoutReplacementConfigSetters ++
  exampleWiseStratifiedInstanceSamplingConfigSetters ++ outputWiseStratifiedInstanceSamplingConfigSetters ++
  instanceSamplingWithReplacementConfigSetters ++ instanceSamplingWithoutReplacementConfigSetters ++
  manualMultiThreadingConfigSetters ++ outputSamplingWithoutReplacementConfigSetters ++
  exampleWiseStratifiedBiPartitionSamplingConfigSetters ++ outputWiseStratifiedBiPartitionSamplingConfigSetters ++
  randomBiPartitionSamplingConfigSetters ++ sequentialPostOptimizationConfigSetters ++ rNGConfigSetters ++
  greedyTopDownRuleInductionConfigSetters ++ beamSearchTopDownRuleInductionConfigSetters ++ sizeStoppingCriterionConfigSetters
  ++ timeStoppingCriterionConfigSetters ++ prePruningConfigSetters ++ postPruningConfigSetters ++ fMeasureConfigSetters ++
  mEstimateConfigSetters ++ peakLiftFunctionConfigSetters ++ klnLiftFunctionConfigSetters ++
  coverageStoppingCriterionConfigSetters.

(** The values that are assigned to variables by constructors (paths are relative to cpp/subprojects). A decimal number is rounded
    to the nearest value of the respective type.
    - boosting/src/mlrl/boosting/rule_evaluation/head_type_partial_fixed.cpp, lines 26-29
    - boosting/src/mlrl/boosting/rule_evaluation/head_type_partial_dynamic.cpp, lines 10-13
    - boosting/src/mlrl/boosting/binning/label_binning_equal_width.cpp, lines 166-170
    - boosting/src/mlrl/boosting/post_processing/shrinkage_constant.cpp, line 58
    - boosting/src/mlrl/boosting/rule_evaluation/regularization_manual.cpp, line 7
    - common/src/mlrl/common/input/feature_binning_equal_width.cpp, line 226
    - common/src/mlrl/common/input/feature_binning_equal_frequency.cpp, line 220
    - common/src/mlrl/common/sampling/feature_sampling_without_replacement.cpp, lines 101-102
    - common/src/mlrl/common/sampling/instance_sampling_stratified_example_wise.cpp, lines 123-125
    - common/src/mlrl/common/sampling/instance_sampling_stratified_output_wise.cpp, lines 122-124
    - common/src/mlrl/common/sampling/instance_sampling_with_replacement.cpp, lines 190-191
    - common/src/mlrl/common/sampling/instance_sampling_without_replacement.cpp, lines 156-158
    - common/src/mlrl/common/multi_threading/multi_threading_manual.cpp, line 6
    - common/src/mlrl/common/sampling/output_sampling_without_replacement.cpp, lines 70-71
    - common/src/mlrl/common/sampling/partition_sampling_bi_stratified_example_wise.cpp, lines 84-86
    - common/src/mlrl/common/sampling/partition_sampling_bi_stratified_output_wise.cpp, lines 85-87
    - common/src/mlrl/common/sampling/partition_sampling_bi_random.cpp, lines 98-99
    - common/src/mlrl/common/post_optimization/post_optimization_sequential.cpp, lines 164-166
    - common/src/mlrl/common/random/rng.cpp, line 34
    - common/src/mlrl/common/rule_induction/rule_induction_top_down_greedy.cpp, lines 175-180
    - common/src/mlrl/common/rule_induction/rule_induction_top_down_beam_search.cpp, lines 433-439
    - common/src/mlrl/common/stopping/stopping_criterion_size.cpp, line 57
    - common/src/mlrl/common/stopping/stopping_criterion_time.cpp, line 75
    - common/src/mlrl/common/stopping/global_pruning_pre.cpp, lines 194-196
    - common/src/mlrl/common/stopping/global_pruning_post.cpp, line 97
    - seco/src/mlrl/seco/heuristics/heuristic_f_measure.cpp, line 68
    - seco/src/mlrl/seco/heuristics/heuristic_m_estimate.cpp, line 71
    - seco/src/mlrl/seco/lift_functions/lift_function_peak.cpp, line 116
    - seco/src/mlrl/seco/lift_functions/lift_function_kln.cpp, line 66
    - seco/src/mlrl/seco/stopping/stopping_criterion_coverage.cpp, line 63 *)
Definition initialField (cls f : pystr) : option cvalue :=
  if pyEq cls (str "FixedPartialHeadConfig") then
    if pyEq f (str "get_output_ratio") then Some (CFloat (round32 (0 * one / 1))) else
    if pyEq f (str "get_min_outputs") then Some (CInt 2) else
    if pyEq f (str "get_max_outputs") then Some (CInt 0) else
    None else
  if pyEq cls (str "DynamicPartialHeadConfig") then
    if pyEq f (str "get_threshold") then Some (CFloat (round32 (1 * one / 50))) else
    if pyEq f (str "get_exponent") then Some (CFloat (round32 (2 * one / 1))) else
    None else
  if pyEq cls (str "EqualWidthLabelBinningConfig") then
    if pyEq f (str "get_bin_ratio") then Some (CFloat (round32 (1 * one / 25))) else
    if pyEq f (str "get_min_bins") then Some (CInt 1) else
    if pyEq f (str "get_max_bins") then Some (CInt 0) else
    None else
  if pyEq cls (str "ConstantShrinkageConfig") then
    if pyEq f (str "get_shrinkage") then Some (CFloat (round64 (3 * one / 10))) else
    None else
  if pyEq cls (str "ManualRegularizationConfig") then
    if pyEq f (str "get_regularization_weight") then Some (CFloat (Finite (1 * one))) else
    None else
  if pyEq cls (str "EqualWidthFeatureBinningConfig") then
    if pyEq f (str "get_bin_ratio") then Some (CFloat (round32 (33 * one / 100))) else
    if pyEq f (str "get_min_bins") then Some (CInt 2) else
    if pyEq f (str "get_max_bins") then Some (CInt 0) else
    None else
  if pyEq cls (str "EqualFrequencyFeatureBinningConfig") then
    if pyEq f (str "get_bin_ratio") then Some (CFloat (round32 (33 * one / 100))) else
    if pyEq f (str "get_min_bins") then Some (CInt 2) else
    if pyEq f (str "get_max_bins") then Some (CInt 0) else
    None else
  if pyEq cls (str "FeatureSamplingWithoutReplacementConfig") then
    if pyEq f (str "get_sample_size") then Some (CFloat (Finite (0 * one))) else
    if pyEq f (str "get_min_samples") then Some (CInt 1) else
    if pyEq f (str "get_max_samples") then Some (CInt 0) else
    if pyEq f (str "get_num_retained") then Some (CInt 0) else
    None else
  if pyEq cls (str "ExampleWiseStratifiedInstanceSamplingConfig") then
    if pyEq f (str "get_sample_size") then Some (CFloat (round32 (33 * one / 50))) else
    if pyEq f (str "get_min_samples") then Some (CInt 1) else
    if pyEq f (str "get_max_samples") then Some (CInt 0) else
    None else
  if pyEq cls (str "OutputWiseStratifiedInstanceSamplingConfig") then
    if pyEq f (str "get_sample_size") then Some (CFloat (round32 (33 * one / 50))) else
    if pyEq f (str "get_min_samples") then Some (CInt 1) else
    if pyEq f (str "get_max_samples") then Some (CInt 0) else
    None else
  if pyEq cls (str "InstanceSamplingWithReplacementConfig") then
    if pyEq f (str "get_sample_size") then Some (CFloat (round32 (33 * one / 50))) else
    if pyEq f (str "get_min_samples") then Some (CInt 1) else
    if pyEq f (str "get_max_samples") then Some (CInt 0) else
    None else
  if pyEq cls (str "InstanceSamplingWithoutReplacementConfig") then
    if pyEq f (str "get_sample_size") then Some (CFloat (round32 (33 * one / 50))) else
    if pyEq f (str "get_min_samples") then Some (CInt 1) else
    if pyEq f (str "get_max_samples") then Some (CInt 0) else
    None else
  if pyEq cls (str "ManualMultiThreadingConfig") then
    if pyEq f (str "get_num_preferred_threads") then Some (CInt 0) else
    None else
  if pyEq cls (str "OutputSamplingWithoutReplacementConfig") then
    if pyEq f (str "get_sample_size") then Some (CFloat (round32 (33 * one / 100))) else
    if pyEq f (str "get_min_samples") then Some (CInt 1) else
    if pyEq f (str "get_max_samples") then Some (CInt 1) else
    None else
  if pyEq cls (str "ExampleWiseStratifiedBiPartitionSamplingConfig") then
    if pyEq f (str "get_holdout_set_size") then Some (CFloat (round32 (33 * one / 100))) else
    None else
  if pyEq cls (str "OutputWiseStratifiedBiPartitionSamplingConfig") then
    if pyEq f (str "get_holdout_set_size") then Some (CFloat (round32 (33 * one / 100))) else
    None else
  if pyEq cls (str "RandomBiPartitionSamplingConfig") then
    if pyEq f (str "get_holdout_set_size") then Some (CFloat (round32 (33 * one / 100))) else
    None else
  if pyEq cls (str "SequentialPostOptimizationConfig") then
    if pyEq f (str "get_num_iterations") then Some (CInt 2) else
    None else
  if pyEq cls (str "RNGConfig") then
    if pyEq f (str "get_random_state") then Some (CInt 1) else
    None else
  if pyEq cls (str "GreedyTopDownRuleInductionConfig") then
    if pyEq f (str "get_min_coverage") then Some (CInt 1) else
    if pyEq f (str "get_min_support") then Some (CFloat (round32 (0 * one / 1))) else
    if pyEq f (str "get_max_conditions") then Some (CInt 0) else
    if pyEq f (str "get_max_head_refinements") then Some (CInt 1) else
    None else
  if pyEq cls (str "BeamSearchTopDownRuleInductionConfig") then
    if pyEq f (str "get_beam_width") then Some (CInt 4) else
    if pyEq f (str "get_min_coverage") then Some (CInt 1) else
    if pyEq f (str "get_min_support") then Some (CFloat (round32 (0 * one / 1))) else
    if pyEq f (str "get_max_conditions") then Some (CInt 0) else
    if pyEq f (str "get_max_head_refinements") then Some (CInt 1) else
    None else
  if pyEq cls (str "SizeStoppingCriterionConfig") then
    if pyEq f (str "get_max_rules") then Some (CInt 10) else
    None else
  if pyEq cls (str "TimeStoppingCriterionConfig") then
    if pyEq f (str "get_time_limit") then Some (CInt 3600) else
    None else
  if pyEq cls (str "PrePruningConfig") then
    if pyEq f (str "get_min_rules") then Some (CInt 100) else
    if pyEq f (str "get_update_interval") then Some (CInt 1) else
    if pyEq f (str "get_stop_interval") then Some (CInt 1) else
    if pyEq f (str "get_num_past") then Some (CInt 50) else
    if pyEq f (str "get_num_current") then Some (CInt 50) else
    if pyEq f (str "get_min_improvement") then Some (CFloat (round64 (1 * one / 200))) else
    None else
  if pyEq cls (str "PostPruningConfig") then
    if pyEq f (str "get_min_rules") then Some (CInt 100) else
    if pyEq f (str "get_interval") then Some (CInt 1) else
    None else
  if pyEq cls (str "FMeasureConfig") then
    if pyEq f (str "get_beta") then Some (CFloat (round64 (1 * one / 4))) else
    None else
  if pyEq cls (str "MEstimateConfig") then
    if pyEq f (str "get_m") then Some (CFloat (round64 (11233 * one / 500))) else
    None else
  if pyEq cls (str "PeakLiftFunctionConfig") then
    if pyEq f (str "get_peak_label") then Some (CInt 2) else
    if pyEq f (str "get_max_lift") then Some (CFloat (round64 (27 * one / 25))) else
    if pyEq f (str "get_curvature") then Some (CFloat (Finite (1 * one))) else
    None else
  if pyEq cls (str "KlnLiftFunctionConfig") then
    if pyEq f (str "get_k") then Some (CFloat (round64 (1 * one / 5))) else
    None else
  if pyEq cls (str "CoverageStoppingCriterionConfig") then
    if pyEq f (str "get_threshold") then Some (CFloat (Finite (0 * one))) else
    None else
  None.

(** The variables of a new configuration, those that are not considered are represented by zero. *)
Definition newConfig (cls : pystr) : fields := fun f => match initialField cls f with Some v => v | None => CInt 0 end.

(** The method of a class. *)
Definition findSetter (cls name : pystr) : option setter :=
  find (fun s => pyEq (setterClass s) cls && pyEq (setterName s) name) setters.

(** The statements [conf.setter(options.get(key, conf.getter()))] in a function [_configure], see Model/PyConfig.v, where [given] is the
    value of an option, if it has been specified. Options whose values are no numbers are skipped. *)
Fixpoint applyOptions (cls : pystr) (given : pystr -> option pyvalue) (st : fields) (l : list statement) : outcome :=
  match l with
  | [] => Returned st
  | SetOption name (GetInt | GetFloat) key getter :: l' =>
      match findSetter cls name with
      | None => Raised
      | Some s =>
          match callSetter s st (match given key with Some v => v | None => toPython (st getter) end) with
          | Returned st' => applyOptions cls given st' l'
          | r => r
          end
      end
  | _ :: l' => applyOptions cls given st l'
  end.

(** The values of nominal parameters that have numerical options, the class that is returned by the corresponding method and the
    statements to be executed. The classes result from python/subprojects/boosting/mlrl/boosting/cython/learner_boomer.pyx, lines
    175-491, and python/subprojects/seco/mlrl/seco/cython/learner_seco.pyx, lines 153-395. *)
Definition strategiesWithOptions : list (pystr * list statement) :=
  [(str "GreedyTopDownRuleInductionConfig", ruleInductionParameterConfigure (str "top-down-greedy"));
   (str "BeamSearchTopDownRuleInductionConfig", ruleInductionParameterConfigure (str "top-down-beam-search"));
   (str "EqualFrequencyFeatureBinningConfig", featureBinningParameterConfigure (str "equal-frequency"));
   (str "EqualWidthFeatureBinningConfig", featureBinningParameterConfigure (str "equal-width"));
   (str "OutputSamplingWithoutReplacementConfig", outputSamplingParameterConfigure (str "without-replacement"));
   (str "InstanceSamplingWithReplacementConfig", instanceSamplingParameterConfigure (str "with-replacement"));
   (str "InstanceSamplingWithoutReplacementConfig", instanceSamplingParameterConfigure (str "without-replacement"));
   (str "OutputWiseStratifiedInstanceSamplingConfig", instanceSamplingParameterConfigure (str "stratified-output-wise"));
   (str "ExampleWiseStratifiedInstanceSamplingConfig", instanceSamplingParameterConfigure (str "stratified-example-wise"));
   (str "FeatureSamplingWithoutReplacementConfig", featureSamplingParameterConfigure (str "without-replacement"));
   (str "RandomBiPartitionSamplingConfig", partitionSamplingParameterConfigure (str "random"));
   (str "OutputWiseStratifiedBiPartitionSamplingConfig", partitionSamplingParameterConfigure (str "stratified-output-wise"));
   (str "ExampleWiseStratifiedBiPartitionSamplingConfig", partitionSamplingParameterConfigure (str "stratified-example-wise"));
   (str "PostPruningConfig", globalPruningParameterConfigure (str "post-pruning"));
   (str "PrePruningConfig", globalPruningParameterConfigure (str "pre-pruning"));
   (str "ManualMultiThreadingConfig", parallelRuleRefinementParameterConfigure (str "true"));
   (str "ManualMultiThreadingConfig", parallelStatisticUpdateParameterConfigure (str "true"));
   (str "ManualMultiThreadingConfig", parallelPredictionParameterConfigure (str "true"));
   (str "SequentialPostOptimizationConfig", sequentialPostOptimizationParameterConfigure (str "true"));
   (str "EqualWidthLabelBinningConfig", labelBinningParameterConfigure (str "equal-width"));
   (str "FixedPartialHeadConfig", headTypeParameterConfigure (str "partial-fixed"));
   (str "DynamicPartialHeadConfig", headTypeParameterConfigure (str "partial-dynamic"));
   (str "PeakLiftFunctionConfig", liftFunctionParameterConfigure (str "peak"));
   (str "KlnLiftFunctionConfig", liftFunctionParameterConfigure (str "kln"));
   (str "FMeasureConfig", heuristicParameterConfigure (str "f-measure"));
   (str "MEstimateConfig", heuristicParameterConfigure (str "m-estimate"));
   (str "FMeasureConfig", pruningHeuristicParameterConfigure (str "f-measure"));
   (str "MEstimateConfig", pruningHeuristicParameterConfigure (str "m-estimate"))].
