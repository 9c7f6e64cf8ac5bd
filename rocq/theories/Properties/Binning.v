(** Properties C38, C39, C88: the assignment of numerical values to bins. *)
From Coq Require Import ZArith Arith List Bool Sorted Lia.
From Verif Require Import Lib.Arr Model.Search Model.Filter Model.Binning Spec.Search Spec.Binning Proofs.SearchFindings
  Proofs.Binning Proofs.BinningWidth Proofs.BinningFindings.
Import ListNotations.
Open Scope nat_scope.

(** ** C38 *)

(** Full statement: for all numerical vectors, and for the comparison that tolerates small differences, equal-frequency
    binning is free of undefined behaviour and its result satisfies [binned_vector]. Proved for exact comparisons, and
    as long as no memory is accessed out of bounds, which [C38_safe_partial] rules out for dense vectors. *)
Theorem C38_bins_partial :
  forall (mean : Z -> Z -> Z) (examples : list nat) (value : nat -> Z) (v : list (nat * Z)) (sparseValue : Z) (sparse : bool),
    separates mean -> numerical_vector examples value v sparseValue sparse ->
    forall (junk : arrays) (numBins numExamples : nat) (missing : list nat), v <> [] -> 1 < numBins ->
    forall vec, equalFrequency Z.eqb mean (perBin (length v) numBins) junk numBins numExamples v sparseValue sparse missing
                = Some vec ->
      vec = EqualVec \/ exists thresholds bins sparseBin, vec = BinnedVec thresholds bins sparseBin missing /\
        2 <= length bins <= numBins /\ binned_vector examples value thresholds bins sparseBin.
Proof. exact frequency_vector. Qed.
Print Assumptions C38_bins_partial.

Theorem C38_safe_partial :
  forall (mean : Z -> Z -> Z) (examples : list nat) (value : nat -> Z) (v : list (nat * Z)) (sparseValue : Z) (sparse : bool),
    numerical_vector examples value v sparseValue sparse ->
    forall (junk : arrays) (numBins numExamples : nat) (missing : list nat), v <> [] -> 1 < numBins ->
    allocated junk numBins (length v) ->
    sparse = false \/ length v <= (numBins - 1) * perBin (length v) numBins ->
    exists vec, equalFrequency Z.eqb mean (perBin (length v) numBins) junk numBins numExamples v sparseValue sparse missing
                = Some vec.
Proof. exact frequency_safe. Qed.
Print Assumptions C38_safe_partial.

Example C38_example :
  let v := [(3, (-2)%Z); (0, 1%Z); (5, 1%Z); (1, 4%Z); (2, 7%Z)] in
  separates midpoint /\
  numerical_vector [0; 1; 2; 3; 4; 5] (table [1; 4; 7; -2; 0; 1]%Z) v 0 true /\
  allocated (memory 10) 4 (length v) /\ length v <= (4 - 1) * perBin (length v) 4 /\
  equalFrequency Z.eqb midpoint (perBin (length v) 4) (memory 10) 4 6 v 0 true [] =
    Some (BinnedVec [0; 2]%Z [[]; [0; 5]; [1; 2]] 0 []).
Proof. cbv zeta. split; [exact midpoint_separates|]. split; [nv|]. split; [mem|]. split; [cbn; lia|reflexivity]. Qed.

(** The arrays are too small if the sparse value splits the other values unevenly. *)
Theorem C38_out_of_bounds_refuted : exists mean examples value v sparseValue junk numBins numExamples,
  separates mean /\ numerical_vector examples value v sparseValue true /\ numExamples = length examples /\
  1 < numBins /\ allocated junk numBins (length v) /\
  equalFrequency Z.eqb mean (perBin (length v) numBins) junk numBins numExamples v sparseValue true [] = None.
Proof. exact frequency_out_of_bounds. Qed.
Print Assumptions C38_out_of_bounds_refuted.

(** If small differences are tolerated, a bin contains values that exceed its threshold. *)
Theorem C38_tolerance_refuted : exists (tolerance : Z) mean examples value v sparseValue junk numBins thresholds bins sparseBin p ids t i,
  (0 <= tolerance)%Z /\ separates mean /\ numerical_vector examples value v sparseValue false /\
  1 < numBins /\ allocated junk numBins (length v) /\
  equalFrequency (fun a b => Z.abs (a - b) <=? tolerance)%Z mean (perBin (length v) numBins) junk numBins (length examples)
    v sparseValue false [] = Some (BinnedVec thresholds bins sparseBin []) /\
  nth_error bins p = Some ids /\ In i ids /\ nth_error thresholds p = Some t /\ (t < value i)%Z.
Proof. exact frequency_tolerance. Qed.
Print Assumptions C38_tolerance_refuted.

(** ** C88 *)

(** Full statement: the same for sparse vectors, where the examples with the sparse value count as well. *)
Theorem C88_even_bins_partial :
  forall (mean : Z -> Z -> Z) (examples : list nat) (value : nat -> Z) (v : list (nat * Z)) (sparseValue : Z) (sparse : bool),
    separates mean -> numerical_vector examples value v sparseValue sparse ->
    forall (junk : arrays) (numBins numExamples : nat) (missing : list nat), v <> [] -> 1 < numBins ->
    forall vec, sparse = false ->
      equalFrequency Z.eqb mean (perBin (length v) numBins) junk numBins numExamples v sparseValue sparse missing
        = Some vec ->
      (vec = EqualVec /\ not_overfull value (perBin (length v) numBins) (map fst v)) \/
      exists thresholds bins sparseBin, vec = BinnedVec thresholds bins sparseBin missing /\
        Forall (not_overfull value (perBin (length v) numBins)) bins /\
        Forall (fun ids => perBin (length v) numBins <= length ids) (removelast bins) /\
        concat bins = map fst v.
Proof. exact frequency_even. Qed.
Print Assumptions C88_even_bins_partial.

Example C88_example :
  let v := [(0, 1%Z); (1, 2%Z); (2, 3%Z); (3, 4%Z); (4, 4%Z); (5, 4%Z); (6, 9%Z)] in
  numerical_vector [0; 1; 2; 3; 4; 5; 6] (table [1; 2; 3; 4; 4; 4; 9]%Z) v 0 false /\
  equalFrequency Z.eqb midpoint (perBin (length v) 4) (memory 10) 4 7 v 0 false [7] =
    Some (BinnedVec [2; 6]%Z [[0; 1]; [2; 3; 4; 5]; [6]] 0 [7]).
Proof. cbv zeta. split; [nv|reflexivity]. Qed.

(** Missing values are counted like sparse ones, such that no example belongs to the first bin. *)
Theorem C88_missing_refuted : exists mean examples value v sparseValue junk numBins missing thresholds bins sparseBin t,
  separates mean /\ numerical_vector examples value v sparseValue true /\
  1 < numBins /\ allocated junk numBins (length v) /\ NoDup (examples ++ missing) /\
  equalFrequency Z.eqb mean (perBin (length v) numBins) junk numBins (length (examples ++ missing)) v sparseValue true missing =
    Some (BinnedVec thresholds bins sparseBin missing) /\
  nth_error thresholds 0 = Some t /\ forall i, In i examples -> (t < value i)%Z.
Proof. exact frequency_missing. Qed.
Print Assumptions C88_missing_refuted.

(** ** C39 *)

(** Full statement: equal-width binning is free of undefined behaviour and its result satisfies [binned_vector]. Only
    the lower end of the interval of each bin is proved to be correct, and values at its boundary may belong to both. *)
Theorem C39_bins_partial :
  forall (examples : list nat) (value : nat -> Z) (v : list (nat * Z)) (sparseValue : Z) (sparse : bool),
    numerical_vector examples value v sparseValue sparse ->
    forall (junk : arrays) (junkMapping : list nat) (numWidths : nat) (missing : list nat) (vec : fvec),
    equalWidth junk junkMapping numWidths v sparseValue sparse missing = Some vec ->
    (numWidths <= 1 /\ vec = EqualVec) \/
    exists thresholds bins sparseBin bin, vec = BinnedVec thresholds bins sparseBin missing /\
      2 <= length bins < numWidths /\ ordered_bins examples value bins sparseBin bin /\ bin sparseValue = sparseBin /\
      (forall lo hi i j, (forall i, In i examples -> (lo <= value i <= hi)%Z) ->
         (sparse = true -> (lo <= sparseValue <= hi)%Z) -> In i examples -> In j examples ->
         bin (value i) = bin (value j) -> (Z.of_nat numWidths * (value i - value j) <= hi - lo)%Z) /\
      StronglySorted Z.lt thresholds /\ length bins = S (length thresholds) /\
      (forall i p t, In i examples -> p < bin (value i) -> nth_error thresholds p = Some t ->
         (t <= Z.of_nat numWidths * value i)%Z).
Proof. exact width_vector. Qed.
Print Assumptions C39_bins_partial.

Example C39_example :
  let v := [(0, (-5)%Z); (1, 2%Z); (4, 2%Z); (2, 10%Z)] in
  numerical_vector [0; 1; 2; 3; 4] (table [-5; 2; 10; 0; 2]%Z) v 0 true /\
  equalWidth (memory 10) (repeat 99 10) 5 v 0 true [7] =
    Some (BinnedVec [-10; 5; 20]%Z [[0]; []; [4; 1]; [2]] 1 [7]).
Proof. cbv zeta. split; [nv|reflexivity]. Qed.

(** No undefined behaviour, if zero is between the smallest and largest value, which are different, and if a bin is left empty. *)
Theorem C39_safe_partial : forall (examples : list nat) (value : nat -> Z) (v : list (nat * Z)) (sparseValue : Z) (sparse : bool),
    numerical_vector examples value v sparseValue sparse ->
    forall (junk : arrays) (junkMapping : list nat) (numWidths : nat) (missing : list nat) (lo hi : Z) (w : nat),
    allocated junk numWidths (length v) -> numWidths <= length junkMapping -> (Z.of_nat numWidths < 2 ^ 32)%Z ->
    (lo < hi)%Z -> (forall i, In i examples -> (lo <= value i <= hi)%Z) -> (lo <= sparseValue <= hi)%Z ->
    (exists i, In i examples /\ value i = lo) \/ sparse = true /\ sparseValue = lo ->
    (exists i, In i examples /\ value i = hi) \/ sparse = true /\ sparseValue = hi ->
    w < numWidths ->
    (forall z, z = sparseValue \/ (exists i, In i examples /\ value i = z) ->
       ~ (Z.of_nat numWidths * lo + Z.of_nat w * (hi - lo) <= Z.of_nat numWidths * z <= Z.of_nat numWidths * lo + Z.of_nat (w + 1) * (hi - lo))%Z) ->
    exists vec, equalWidth junk junkMapping numWidths v sparseValue sparse missing = Some vec.
Proof. exact width_safe. Qed.
Print Assumptions C39_safe_partial.

Example C39_safe_example :
  let v := [(0, (-5)%Z); (1, 2%Z); (4, 2%Z); (2, 10%Z)] in
  numerical_vector [0; 1; 2; 3; 4] (table [-5; 2; 10; 0; 2]%Z) v 0 true /\ allocated (memory 10) 5 (length v) /\
  (forall z, z = 0%Z \/ (exists i, In i [0; 1; 2; 3; 4] /\ table [-5; 2; 10; 0; 2]%Z i = z) ->
     ~ (Z.of_nat 5 * -5 + Z.of_nat 3 * (10 - -5) <= Z.of_nat 5 * z <= Z.of_nat 5 * -5 + Z.of_nat (3 + 1) * (10 - -5))%Z).
Proof.
  cbv zeta. split; [nv|]. split; [mem|]. intros z [->|(i & Hi & <-)]; [cbn; lia|].
  repeat destruct Hi as [<-|Hi]; try (destruct Hi); cbn; lia.
Qed.

(** The thresholds of the bins that remain after empty ones have been removed are too small. *)
Theorem C39_threshold_refuted : exists examples value v sparseValue junk junkMapping numWidths thresholds bins sparseBin p ids t i,
  numerical_vector examples value v sparseValue false /\
  equalWidth junk junkMapping numWidths v sparseValue false [] = Some (BinnedVec thresholds bins sparseBin []) /\
  nth_error bins p = Some ids /\ In i ids /\ nth_error thresholds p = Some t /\ (t < Z.of_nat numWidths * value i)%Z.
Proof. exact width_threshold. Qed.
Print Assumptions C39_threshold_refuted.

(** A value at the boundary belongs to the upper bin, but satisfies the condition of the lower one. *)
Theorem C39_boundary_refuted : exists examples value v sparseValue junk junkMapping numWidths thresholds bins sparseBin p q ids t i,
  numerical_vector examples value v sparseValue false /\
  equalWidth junk junkMapping numWidths v sparseValue false [] = Some (BinnedVec thresholds bins sparseBin []) /\
  nth_error bins p = Some ids /\ In i ids /\ q < p /\ nth_error thresholds q = Some t /\ (Z.of_nat numWidths * value i <= t)%Z.
Proof. exact width_boundary. Qed.
Print Assumptions C39_boundary_refuted.

(** One more threshold than there is memory for is stored if no bin is empty. *)
Theorem C39_out_of_bounds_refuted : exists examples value v sparseValue junk junkMapping numWidths,
  numerical_vector examples value v sparseValue false /\ In (0, sparseValue) v /\
  allocated junk numWidths (length v) /\ numWidths <= length junkMapping /\
  equalWidth junk junkMapping numWidths v sparseValue false [] = None.
Proof. exact width_out_of_bounds. Qed.
Print Assumptions C39_out_of_bounds_refuted.

(** If all values of a dense vector exceed zero, a negative number is converted into an index. *)
Theorem C39_dense_refuted : exists examples value v,
  numerical_vector examples value v 0%Z false /\ 1 < length v /\ NoDup (map snd v) /\
  forall junk junkMapping numWidths, 0 < numWidths -> equalWidth junk junkMapping numWidths v 0%Z false [] = None.
Proof. exact width_dense. Qed.
Print Assumptions C39_dense_refuted.

(** If the sparse value is the only one, not-a-number is converted into an index. *)
Theorem C39_sparse_refuted : exists examples value v,
  numerical_vector examples value v 0%Z true /\ 0 < length v < length examples /\
  forall junk junkMapping numWidths, 0 < numWidths -> equalWidth junk junkMapping numWidths v 0%Z true [] = None.
Proof. exact width_sparse. Qed.
Print Assumptions C39_sparse_refuted.
