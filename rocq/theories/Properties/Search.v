(** Properties C32-C34, C81-C83: the search for conditions that use a single feature. *)
From Coq Require Import ZArith Arith List Bool Sorted Lia.
From Verif Require Import Lib.Arr Model.Search Spec.Search Proofs.Search Proofs.SearchOrdinal Proofs.SearchNumerical
  Proofs.SearchBinned Proofs.SearchFindings.
Import ListNotations.
Open Scope nat_scope.

(** ** C32 *)
Theorem C32_nominal_search :
  forall (examples : list nat) (weight : nat -> bool) (value : nat -> Z) (minCoverage : nat) (values : list Z)
    (bins : list (list nat)) (majority : Z),
    nominal_vector examples value values bins majority -> values <> [] ->
    exists l, searchNominal weight (filter weight examples) (length (filter weight examples)) minCoverage
                values bins majority = Some l /\
      (forall e, In e l -> exact examples weight value bins e) /\
      (forall v, In v (majority :: values) ->
         (In (Eq v) (map eTest l) <-> minCoverage <= support examples weight value (Eq v)) /\
         (In (Neq v) (map eTest l) <-> minCoverage <= support examples weight value (Neq v))).
Proof. exact nominal_exact. Qed.
Print Assumptions C32_nominal_search.

Theorem C32_binary_search :
  forall (examples : list nat) (weight : nat -> bool) (value : nat -> Z) (minCoverage : nat) (minority majority : Z)
    (ids : list nat),
    nominal_vector examples value [minority] [ids] majority ->
    let l := searchBinary weight (filter weight examples) (length (filter weight examples)) minCoverage
               minority majority ids in
    (forall e, In e l -> exact examples weight value [ids] e) /\
    (forall v, v = minority \/ v = majority ->
       (In (Eq v) (map eTest l) <-> minCoverage <= support examples weight value (Eq v))).
Proof. exact binary_exact. Qed.
Print Assumptions C32_binary_search.

Example C32_example :
  let value i := nth i [7; 5; 7; 2; 5; 7]%Z 0%Z in
  let weight i := negb (i =? 1) in
  nominal_vector [0; 1; 2; 3; 4; 5] value [2; 5]%Z [[3]; [1; 4]] 7 /\
  searchNominal weight [0; 2; 3; 4; 5] 5 2 [2; 5]%Z [[3]; [1; 4]] 7 =
    Some [mkEval [0; 2; 4; 5] 0 1 true 4 (Neq 2); mkEval [0; 2; 3; 5] 1 2 true 4 (Neq 5);
          mkEval [3; 4] 0 2 false 2 (Neq 7); mkEval [0; 2; 5] 0 2 true 3 (Eq 7)].
Proof.
  cbv zeta. split; [|reflexivity]. split; [split; [|split]|split; [reflexivity|split; [|split]]].
  - repeat (constructor; [simpl; intuition congruence|]); constructor.
  - simpl. repeat (constructor; [simpl; intuition congruence|]); constructor.
  - intros x H. simpl in *. intuition.
  - repeat (constructor; [simpl; intuition congruence|]); constructor.
  - intros p ids v i H1 H2 H3.
    destruct p as [|[|p]]; [| |destruct p; discriminate]; injection H1 as <-; injection H2 as <-; simpl in H3; intuition; subst; reflexivity.
  - simpl. intros i H1 H2. intuition; subst; reflexivity.
Qed.

(** ** C33 *)
Theorem C33_ordinal_search_partial :
  forall (examples : list nat) (weight : nat -> bool) (value : nat -> Z) (minCoverage : nat) (values : list Z)
    (bins : list (list nat)) (majority : Z),
    ordinal_vector examples value values bins majority -> values <> [] -> outermost weight values bins majority ->
    exists l, searchOrdinal weight (filter weight examples) (length (filter weight examples)) minCoverage
                values bins majority = Some l /\
      (forall e, In e l -> exact examples weight value bins e) /\
      (forall z t, t = Leq z \/ t = Gr z -> separating examples weight value z ->
         minCoverage <= support examples weight value t -> considered examples value t l).
Proof. exact ordinal_exact. Qed.
Print Assumptions C33_ordinal_search_partial.

Theorem C33_first_bin_refuted :
  exists examples weight value values bins majority l e,
    ordinal_vector examples value values bins majority /\ values <> [] /\ (forall i, In i (last bins []) -> weight i = true) /\
    searchOrdinal weight (filter weight examples) (length (filter weight examples)) 1 values bins majority = Some l /\
    In e l /\ ~ exactly_scored examples weight value e.
Proof. exact ordinal_first. Qed.
Print Assumptions C33_first_bin_refuted.

Theorem C33_last_bin_refuted :
  exists examples weight value values bins majority l e,
    ordinal_vector examples value values bins majority /\ values <> [] /\ (forall i, In i (hd [] bins) -> weight i = true) /\
    searchOrdinal weight (filter weight examples) (length (filter weight examples)) 1 values bins majority = Some l /\
    In e l /\ ~ exactly_scored examples weight value e.
Proof. exact ordinal_last. Qed.
Print Assumptions C33_last_bin_refuted.

Example C33_example :
  let value i := nth i [1; 2; 4; 4; 6]%Z 0%Z in
  let weight i := negb (i =? 1) in
  ordinal_vector [0; 1; 2; 3; 4] value [1; 2; 6]%Z [[0]; [1]; [4]] 4 /\
  outermost weight [1; 2; 6]%Z [[0]; [1]; [4]] 4 /\ separating [0; 1; 2; 3; 4] weight value 5 /\
  searchOrdinal weight [0; 2; 3; 4] 4 2 [1; 2; 6]%Z [[0]; [1]; [4]] 4 =
    Some [mkEval [2; 3; 4] 0 1 true 3 (Gr 1); mkEval [0; 2; 3] 2 3 true 3 (Leq 4); mkEval [2; 3; 4] 0 2 true 3 (Gr 2)].
Proof.
  cbv zeta. split; [|split; [|split; [|reflexivity]]].
  - split; [|repeat constructor]. split; [split; [|split]|split; [reflexivity|split; [|split]]].
    + repeat (constructor; [simpl; intuition congruence|]); constructor.
    + simpl. repeat (constructor; [simpl; intuition congruence|]); constructor.
    + intros x H. simpl in *. intuition.
    + repeat (constructor; [simpl; intuition congruence|]); constructor.
    + intros p ids v i H1 H2 H3.
      destruct p as [|[|[|p]]]; [| | |destruct p; discriminate]; injection H1 as <-; injection H2 as <-; simpl in H3; intuition; subst; reflexivity.
    + simpl. intros i H1 H2. intuition; subst; reflexivity.
  - split; simpl; intros v ids _ _ [= <-]; [exists 0|exists 4]; simpl; auto.
  - split; [exists 0|exists 4]; simpl; intuition; lia.
Qed.

(** ** C34 *)
Theorem C34_numerical_search_partial :
  forall (examples : list nat) (weight : nat -> bool) (value : nat -> Z) (minCoverage : nat) (isEqual : Z -> Z -> bool)
    (v : list (nat * Z)) (sparseValue : Z) (sparse : bool),
    numerical_vector examples value v sparseValue sparse -> (forall a, isEqual a a = true) ->
    exists l, searchNumerical weight (filter weight examples) (length (filter weight examples)) minCoverage isEqual
                v sparseValue sparse = Some l /\
      (forall e, In e l ->
         eEnd e < less_than_sparse v sparseValue \/ less_than_sparse v sparseValue < eStart e \/
         (sparse = true /\ eStart e = 0 /\ 0 < eEnd e /\ eEnd e = less_than_sparse v sparseValue) ->
         exact examples weight value (positions v) e) /\
      ((forall a b, isEqual a b = true -> a = b) -> (forall i, In i examples -> weight i = true) ->
       forall z t, t = Leq z \/ t = Gr z -> separating examples weight value z ->
         (exists p i x, p < less_than_sparse v sparseValue /\ nth_error v p = Some (i, x) /\ (z < x)%Z) \/
         (exists p i x, less_than_sparse v sparseValue < p /\ nth_error v p = Some (i, x) /\ (x <= z)%Z) ->
         minCoverage <= support examples weight value t -> considered examples value t l).
Proof. exact numerical_exact. Qed.
Print Assumptions C34_numerical_search_partial.

Theorem C34_threshold_missed_refuted :
  exists examples weight value v,
    numerical_vector examples value v 0 false /\ (forall i, In i examples -> weight i = true) /\
    separating examples weight value 1 /\
    searchNumerical weight (filter weight examples) (length (filter weight examples)) 1 Z.eqb v 0 false = Some [].
Proof. exact numerical_missed. Qed.
Print Assumptions C34_threshold_missed_refuted.

Theorem C34_dense_refuted :
  exists examples weight value v l e,
    numerical_vector examples value v 0 false /\ (forall i, In i examples -> weight i = true) /\
    searchNumerical weight (filter weight examples) (length (filter weight examples)) 1 Z.eqb v 0 false = Some l /\
    In e l /\ ~ exactly_scored examples weight value e.
Proof. exact numerical_dense. Qed.
Print Assumptions C34_dense_refuted.

Theorem C34_sparse_refuted :
  exists examples weight value v l e,
    numerical_vector examples value v 0 true /\ (forall i, In i examples -> weight i = true /\ (0 <= value i)%Z) /\
    searchNumerical weight (filter weight examples) (length (filter weight examples)) 1 Z.eqb v 0 true = Some l /\
    In e l /\ ~ exact_interval examples value (positions v) e.
Proof. exact numerical_sparse. Qed.
Print Assumptions C34_sparse_refuted.

Theorem C34_negative_refuted :
  exists examples weight value v l e,
    numerical_vector examples value v 0 true /\ (forall i, In i examples -> weight i = true /\ (value i <= 0)%Z) /\
    searchNumerical weight (filter weight examples) (length (filter weight examples)) 1 Z.eqb v 0 true = Some l /\
    In e l /\ ~ exactly_scored examples weight value e.
Proof. exact numerical_negative. Qed.
Print Assumptions C34_negative_refuted.

Theorem C34_hidden_threshold_refuted :
  exists examples weight value v,
    numerical_vector examples value v 0 false /\ separating examples weight value (-3) /\
    searchNumerical weight (filter weight examples) (length (filter weight examples)) 1 Z.eqb v 0 false = Some [].
Proof. exact numerical_hidden. Qed.
Print Assumptions C34_hidden_threshold_refuted.

Example C34_example :
  let value i := nth i [-4; -2; 3; 5; 8]%Z 0%Z in
  let v := [(0, (-4)%Z); (1, (-2)%Z); (2, 3%Z); (3, 5%Z); (4, 8%Z)] in
  let weight (i : nat) := true in
  numerical_vector [0; 1; 2; 3; 4; 5; 6] value v 0 true /\ less_than_sparse v 0 = 2 /\
  separating [0; 1; 2; 3; 4; 5; 6] weight value 6 /\
  searchNumerical weight [0; 1; 2; 3; 4; 5; 6] 7 3 Z.eqb v 0 true =
    Some [mkEval [1; 2; 3; 4; 5; 6] 0 1 true 6 (GrMean (-4) (-2)); mkEval [0; 1; 2; 3; 5; 6] 4 5 true 6 (LeqMean 5 8);
          mkEval [0; 1; 2; 5; 6] 2 5 true 5 (LeqMean 0 5); mkEval [2; 3; 4; 5; 6] 0 2 true 5 (GrMean (-2) 0)].
Proof.
  cbv zeta. split; [|split; [reflexivity|split; [|reflexivity]]].
  - split; [|split; [|split; [|split; [|split]]]].
    + repeat (constructor; [simpl; intuition congruence|]); constructor.
    + simpl. repeat (constructor; [simpl; intuition congruence|]); constructor.
    + intros x H. simpl in *. intuition.
    + cbn [map snd]. repeat (constructor; [|repeat constructor; lia]). constructor.
    + intros i z H. simpl in H. intuition; match goal with [H : (_, _) = (_, _) |- _] => injection H as <- <- end; reflexivity.
    + simpl. intros i H1 H2. intuition; subst; reflexivity.
  - split; [exists 0|exists 4]; simpl; intuition; lia.
Qed.

(** ** C81 *)
Theorem C81_missing_values_refuted :
  exists examples missing weight value values bins majority l e,
    NoDup (examples ++ missing) /\ nominal_vector examples value values bins majority /\ values <> [] /\
    searchNominal weight (filter weight examples) (length (filter weight (examples ++ missing))) 2 values bins majority
      = Some l /\
    In e l /\ exactly_scored examples weight value (mkEval (eScored e) (eStart e) (eEnd e) (eInverse e) 1 (eTest e)) /\
    eCovered e = 2.
Proof. exact missing_counted. Qed.
Print Assumptions C81_missing_values_refuted.

(** ** C82 *)
Theorem C82_binned_search_partial :
  forall (examples : list nat) (weight : nat -> bool) (value : nat -> Z) (minCoverage : nat) (thresholds : list Z)
    (bins : list (list nat)) (sparseBin : nat),
    binned_vector examples value thresholds bins sparseBin -> 0 < minCoverage -> sparseBin < length thresholds ->
    exists l, searchBinned weight (filter weight examples) (length (filter weight examples)) minCoverage
                thresholds bins sparseBin = Some l /\
      forall e, In e l -> (exact examples weight value bins e /\ minCoverage <= eCovered e) \/
                          (eInverse e = true /\ eStart e = S sparseBin /\ eEnd e = length bins).
Proof. exact binned_search. Qed.
Print Assumptions C82_binned_search_partial.

Theorem C82_negated_condition_refuted :
  exists examples weight value thresholds bins sparseBin l e,
    binned_vector examples value thresholds bins sparseBin /\ sparseBin < length thresholds /\
    (forall i, In i examples -> weight i = true) /\
    searchBinned weight (filter weight examples) (length (filter weight examples)) 1 thresholds bins sparseBin = Some l /\
    In e l /\ ~ exactly_scored examples weight value e.
Proof. exact binned_negated. Qed.
Print Assumptions C82_negated_condition_refuted.

Theorem C82_last_bin_refuted :
  exists examples weight value thresholds bins sparseBin,
    binned_vector examples value thresholds bins sparseBin /\ (forall i, In i examples -> weight i = true) /\
    searchBinned weight (filter weight examples) (length (filter weight examples)) 1 thresholds bins sparseBin = None.
Proof. exact binned_last. Qed.
Print Assumptions C82_last_bin_refuted.

Example C82_example :
  let value i := nth i [-3; 0; 4; 4; 9]%Z 0%Z in
  binned_vector [0; 1; 2; 3; 4] value [-1; 2; 6]%Z [[0]; []; [3; 2]; [4]] 1 /\
  searchBinned (fun _ => true) [0; 1; 2; 3; 4] 5 2 [-1; 2; 6]%Z [[0]; []; [3; 2]; [4]] 1 =
    Some [mkEval [0; 1; 2; 3] 3 4 true 4 (Leq 6); mkEval [4; 3; 2] 2 4 false 3 (Gr 2); mkEval [4; 3; 2] 2 4 true 2 (Leq 2);
          mkEval [1; 2; 3; 4] 0 1 true 4 (Gr (-1))].
Proof.
  cbv zeta. split; [|reflexivity]. split; [split; [|split]|split; [|split; [reflexivity|split; [simpl; lia|]]]].
  - repeat (constructor; [simpl; intuition congruence|]); constructor.
  - simpl. repeat (constructor; [simpl; intuition congruence|]); constructor.
  - intros x H. simpl in *. intuition.
  - repeat (constructor; [|repeat constructor; lia]). constructor.
  - intros i H. simpl in H.
    assert (HS: forall p ids j, nth_error [[0]; []; [3; 2]; [4]] p = Some ids -> In j ids ->
              stored_between [[0]; []; [3; 2]; [4]] p (S p) j) by (intros p ids j H1 H2; exists p, ids; auto).
    destruct H as [<-|[<-|[<-|[<-|[<-|[]]]]]]; [exists 0|exists 1|exists 2|exists 2|exists 3];
      (split; [simpl; lia|split; [simpl; intros t [= <-]; lia || intros; discriminate|split;
        [simpl; intros t q [= <-] [= <-]; lia || intros; discriminate|split; [(intros H; exfalso; apply H; reflexivity) || intros _|
         intros H; try discriminate H]]]]).
    all: try (eapply HS; [reflexivity|simpl; auto]; fail).
    intros q ids Eq Hq. do 4 (destruct q as [|q]; [injection Eq as <-; simpl in Hq; intuition discriminate|]).
    destruct q; discriminate.
Qed.

(** ** C83 *)
Theorem C83_minimum_coverage :
  forall (weight : nat -> bool) (total : list nat) (numWeighted minCoverage : nat) (isEqual : Z -> Z -> bool),
    (forall values bins majority l,
       searchNominal weight total numWeighted minCoverage values bins majority = Some l ->
       Forall (fun e => minCoverage <= eCovered e) l) /\
    (forall minority majority ids,
       Forall (fun e => minCoverage <= eCovered e)
         (searchBinary weight total numWeighted minCoverage minority majority ids)) /\
    (forall values bins majority l,
       searchOrdinal weight total numWeighted minCoverage values bins majority = Some l ->
       Forall (fun e => minCoverage <= eCovered e) l) /\
    (forall v sparseValue sparse l,
       searchNumerical weight total numWeighted minCoverage isEqual v sparseValue sparse = Some l ->
       Forall (fun e => minCoverage <= eCovered e) l) /\
    (forall thresholds bins sparseBin l,
       searchBinned weight total numWeighted minCoverage thresholds bins sparseBin = Some l ->
       Forall (fun e => minCoverage <= eCovered e) l).
Proof.
  exact (fun weight total N minCoverage isEqual =>
    conj (nominal_min weight total N minCoverage) (conj (binary_min weight total N minCoverage)
      (conj (ordinal_min weight total N minCoverage) (conj (numerical_min weight total N minCoverage isEqual)
        (binned_min weight total N minCoverage))))).
Qed.
Print Assumptions C83_minimum_coverage.

Example C83_example :
  searchNominal (fun _ => true) [0; 1; 2] 3 2 [4]%Z [[1]] 9 = Some [mkEval [0; 2] 0 1 true 2 (Neq 4); mkEval [0; 2] 0 1 true 2 (Eq 9)].
Proof. reflexivity. Qed.
