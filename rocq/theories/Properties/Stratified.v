(** Properties C08, C09, C67-C69: stratified sampling. *)
From Coq Require Import NArith Arith List Bool Lia Permutation ZArith QArith Qround Sorting.Sorted.
From Verif Require Import Lib.Arr Model.Rng Model.Sampling Model.Stratified Model.Csc Spec.Labels Spec.Stratified
  Proofs.Stratified Proofs.StratifiedOutput Proofs.Csc Proofs.StratifiedFindings.
Import ListNotations.
Open Scope nat_scope.

(** ** C08 *)
Theorem C08_stratified_weights :
  forall (rows : list (list bool)) (indices : list nat) (order : list (list nat)) (q : Q) (minS maxS : nat)
         (w : list bool) (s : N),
    NoDup indices -> (forall i, In i indices -> i < length rows) -> length rows <= length w ->
    (N.of_nat (length indices) < 2 ^ 32)%N -> (0 <= q)%Q -> (q <= 1)%Q -> (1 <= s < 2 ^ 32)%N ->
    forall groups, groupExamples equalRows rows indices [] = Some groups ->
    Permutation order (map snd groups) -> sortedBySize order ->
    exists order' w' n s', stratifiedWeights order (length indices) q minS maxS w s = Some (order', w', n, s') /\
      (1 <= s' < 2 ^ 32)%N /\
      Forall2 (@Permutation nat) order order' /\
      length w' = length w /\
      (forall i, ~ In i indices -> nth_error w' i = nth_error w i) /\
      n = numSelected w' indices /\
      (forall row, let stratum := stratumOf rows indices row in
         let x := (q * inject_Z (Z.of_nat (length stratum)))%Q in
         Z.of_nat (numSelected w' stratum) = Qfloor x \/ Z.of_nat (numSelected w' stratum) = Qceiling x).
Proof. exact C08_weights_lemma. Qed.
Print Assumptions C08_stratified_weights.

Theorem C08_stratified_holdout :
  forall (share : nat -> nat -> nat -> bool -> option nat) (rows : list (list bool)) (indices : list nat)
         (order : list (list nat)) (first second : list nat) (s : N),
    (forall a b n up, 0 < a + b -> exists m, share a b n up = Some m /\ m <= n) ->
    (forall i, In i indices -> i < length rows) ->
    (N.of_nat (length indices) < 2 ^ 32)%N -> (1 <= s < 2 ^ 32)%N ->
    length first + length second = length indices ->
    forall groups, groupExamples equalRows rows indices [] = Some groups ->
    Permutation order (map snd groups) ->
    exists order' first' second' s',
      stratifiedPartition share order first second s = Some (order', first', second', s') /\
      Forall2 (@Permutation nat) order order' /\ (1 <= s' < 2 ^ 32)%N /\
      length first' = length first /\ length second' = length second /\
      Permutation (first' ++ second') indices.
Proof. exact C08_partition_lemma. Qed.
Print Assumptions C08_stratified_holdout.

Theorem C08_holdout_share :
  forall a b n up, 0 < a + b -> exists m, exactShare a b n up = Some m /\ m <= n.
Proof. exact exactShare_ok. Qed.
Print Assumptions C08_holdout_share.

Example C08_example :
  let rows := [[true; false]; [true; false]; [false; true]; [true; false]; [true; true]; [false; true]] in
  let order := [[4]; [2; 5]; [0; 1; 3]] in
  (exists groups, groupExamples equalRows rows [0; 1; 2; 3; 4; 5] [] = Some groups /\
    Permutation order (map snd groups)) /\ sortedBySize order /\
  stratifiedWeights order 6 (1 # 2) 1 0 (repeat false 6) 1 =
    Some ([[4]; [5; 2]; [3; 1; 0]], [false; false; false; true; true; true], 3, 307599695%N) /\
  stratifiedPartition exactShare order [0; 0; 0; 0] [0; 0] 1 =
    Some ([[4]; [5; 2]; [3; 1; 0]], [4; 5; 2; 3], [1; 0], 307599695%N).
Proof.
  cbv zeta. split; [|split; [|split; vm_compute; reflexivity]].
  - eexists. split; [vm_compute; reflexivity|]. simpl. apply (Permutation_rev [[4]; [2; 5]; [0; 1; 3]]).
  - repeat constructor.
Qed.

(** ** C09 *)
Theorem C09_stratified_holdout :
  forall (share : nat -> nat -> nat -> bool -> option nat) (rows : list (list nat)) (numLabels : nat)
         (indices first second : list nat) (s : N),
    (forall a b n up, 0 < a + b -> exists m, share a b n up = Some m /\ m <= n) ->
    (forall r, In r rows -> NoDup r /\ forall l, In l r -> l < numLabels) ->
    NoDup indices -> (forall e, In e indices -> e < length rows) ->
    (N.of_nat (length indices) < 2 ^ 32)%N -> (1 <= s < 2 ^ 32)%N ->
    length first + length second = length indices ->
    exists columns columns' first' second' s',
      stratificationMatrix rows numLabels indices = Some columns /\
      stratifiedPartition share columns first second s = Some (columns', first', second', s') /\
      Forall2 (@Permutation nat) columns columns' /\ (1 <= s' < 2 ^ 32)%N /\
      length first' = length first /\ length second' = length second /\
      Permutation (first' ++ second') indices.
Proof. exact C09_partition_lemma. Qed.
Print Assumptions C09_stratified_holdout.

Theorem C09_stratified_weights :
  forall (rows : list (list nat)) (numLabels : nat) (indices : list nat) (q : Q) (minS maxS : nat)
         (w : list bool) (s : N),
    (forall r, In r rows -> NoDup r /\ forall l, In l r -> l < numLabels) ->
    NoDup indices -> (forall e, In e indices -> e < length rows) -> length rows <= length w ->
    (N.of_nat (length indices) < 2 ^ 32)%N -> (0 <= q)%Q -> (q <= 1)%Q -> (1 <= s < 2 ^ 32)%N ->
    exists columns columns' w' n s',
      stratificationMatrix rows numLabels indices = Some columns /\
      stratifiedWeights columns (length indices) q minS maxS w s = Some (columns', w', n, s') /\
      Permutation (concat columns) indices /\ (1 <= s' < 2 ^ 32)%N /\
      length w' = length w /\ (forall i, ~ In i indices -> nth_error w' i = nth_error w i) /\
      n = numSelected w' indices /\
      (forall column, In column columns ->
         Z.of_nat (numSelected w' column) = Qfloor (q * inject_Z (Z.of_nat (length column))) \/
         Z.of_nat (numSelected w' column) = Qceiling (q * inject_Z (Z.of_nat (length column)))).
Proof. exact C09_weights_lemma. Qed.
Print Assumptions C09_stratified_weights.

Example C09_example :
  let rows := [[0]; [0]; [1]; []; [0; 1]; [1]] in
  stratificationMatrix rows 2 [0; 1; 2; 3; 4; 5] = Some [[0; 1; 4]; [2; 5]; [3]] /\
  stratifiedPartition exactShare [[0; 1; 4]; [2; 5]; [3]] [0; 0; 0; 0] [0; 0] 1 =
    Some ([[0; 4; 1]; [5; 2]; [3]], [0; 4; 5; 2], [1; 3], 307599695%N).
Proof. split; vm_compute; reflexivity. Qed.

(** ** C67: the number of examples selected by stratified sampling is the requested one. *)
Theorem C67_stratified_sample_size_refuted :
  exists (rows : list (list bool)) (order : list (list nat)) groups,
    groupExamples equalRows rows (seq 0 (length rows)) [] = Some groups /\
    Permutation order (map snd groups) /\ sortedBySize order /\
    (exists order' w n s', calculateBoundedFraction (length rows) (9 # 10) 1 0 = 18 /\
      stratifiedWeights order (length rows) (9 # 10) 1 0 (repeat false (length rows)) 1 = Some (order', w, n, s') /\ n = 19) /\
    (exists order' w n s', calculateBoundedFraction (length rows) 1 1 3 = 3 /\
      stratifiedWeights order (length rows) 1 1 3 (repeat false (length rows)) 1 = Some (order', w, n, s') /\ n = 20).
Proof. exact C67_lemma. Qed.
Print Assumptions C67_stratified_sample_size_refuted.

(** ** C68: the strata do not depend on whether labels are stored densely or sparsely. *)
Theorem C68_strata_storage_independent_refuted :
  (exists (rows : list (list bool)) (indices indptr : list nat) (keys : list (list nat)),
     csr_represents indices indptr rows /\
     (forall r, r < length rows -> csrRowKey indices indptr 2 r = nth_error keys r) /\
     Forall (fun row => length row = 2) rows /\
     groupExamples equalRows rows [0; 1; 2; 3] [] =
       Some [([true; false], [0; 1]); ([false; true], [2]); ([true; true], [3])] /\
     groupExamples (fun a b => if list_eq_dec Nat.eq_dec a b then true else false) keys [0; 1; 2; 3] [] =
       Some [([0; 0], [0]); ([0; 1], [1; 3]); ([1; 0], [2])]) /\
  (exists (rows : list (list bool)) (indices indptr : list nat),
     csr_represents indices indptr rows /\ Forall (fun row => length row = 2) rows /\
     csrRowKey indices indptr 2 0 = None).
Proof. exact C68_lemma. Qed.
Print Assumptions C68_strata_storage_independent_refuted.

(** ** C69 *)
Theorem C69_csr_to_csc :
  forall (rows : list (list nat)) (n : nat) (examples out indptr : list nat),
    (forall r, In r rows -> NoDup r /\ forall l, In l r -> l < n) ->
    (forall e, In e examples -> e < length rows) ->
    length indptr = S n ->
    length (concat (map (fun e => nth e rows []) examples)) <= length out ->
    exists out' indptr', csrToCsc rows n examples out indptr = Some (out', indptr') /\ length indptr' = S n /\
      nth_error indptr' 0 = Some 0 /\ nth_error indptr' n = Some (length out') /\
      forall l, l < n -> exists a b, nth_error indptr' l = Some a /\ nth_error indptr' (S l) = Some b /\ a <= b /\
        firstn (b - a) (skipn a out') = filter (fun e => existsb (Nat.eqb l) (nth e rows [])) examples.
Proof. exact (fun rows n examples out indptr H1 H2 => csrToCsc_ok rows n examples H1 H2 out indptr). Qed.
Print Assumptions C69_csr_to_csc.

Example C69_example :
  csrToCsc [[0]; [0]; [1]; []; [0; 1]; [1]] 2 [5; 0; 4] (repeat 9 6) [7; 7; 7] = Some ([0; 4; 5; 4], [0; 2; 4]).
Proof. reflexivity. Qed.
