(** Properties of predictions that are based on known label vectors. *)
From Coq Require Import QArith List Bool Arith Permutation Sorted Lia.
From Verif Require Import Lib.Arr Model.Containers Model.JointPrediction Spec.Stopping Spec.Containers Spec.JointPrediction.
From Verif Require Import Proofs.JointPrediction.
Import ListNotations.
Open Scope Q_scope.

(** ** C60: GFM maximises the expected example-wise F1-measure *)
(** Predictions in dense and sparse format. [memory1] and [memory2] are the initial contents of temporary vectors. *)
Theorem C60_gfm_optimal : forall sort sortByIndex labelVectors probabilities numLabels memory1 memory2,
    (forall k (l : list (nat * Q)), (k <= length l)%nat -> partialSort k l (sort k l)) -> (forall l, sortedByIndex l (sortByIndex l)) ->
    NoDup labelVectors -> Forall (fun lv => NoDup lv /\ Forall (fun l => (l < numLabels)%nat) lv) labelVectors ->
    length probabilities = length labelVectors -> length memory1 = numLabels -> length memory2 = numLabels ->
    exists prediction row,
      applyGfm sort labelVectors probabilities numLabels memory1 memory2 = Some prediction /\
      applyGfmSparse sort sortByIndex labelVectors probabilities numLabels memory1 memory2 = Some row /\
      length prediction = numLabels /\ StronglySorted lt row /\ (forall l, In l row <-> nth l prediction false = true) /\
      forall other, length other = numLabels ->
        expectation labelVectors probabilities (f1 other) <= expectation labelVectors probabilities (f1 prediction).
Proof. exact gfm_optimal. Qed.
Print Assumptions C60_gfm_optimal.

Example C60_gfm_optimal_example :
  let sortEntries before :=
    match before with [a; b] => if Qle_bool (snd b) (snd a) then [a; b] else [b; a] | _ => before end in
  partialSort 1 [(0%nat, 1 # 2); (1%nat, 2 # 3)] (sortEntries [(0%nat, 1 # 2); (1%nat, 2 # 3)]) /\
  NoDup [[]; [0%nat]; [1%nat]; [0%nat; 1%nat]] /\
  applyGfm (fun _ => sortEntries) [[]; [0%nat]; [1%nat]; [0%nat; 1%nat]] [3 # 10; 0; 4 # 10; 3 # 10] 2 [(0%nat, 0); (0%nat, 0)]
    [(0%nat, 0); (0%nat, 0)] = Some [false; true] /\
  applyGfmSparse (fun _ => sortEntries) (fun l => l) [[]; [0%nat]; [1%nat]; [0%nat; 1%nat]] [3 # 10; 0; 4 # 10; 3 # 10] 2
    [(0%nat, 0); (0%nat, 0)] [(0%nat, 0); (0%nat, 0)] = Some [1%nat] /\
  expectation [[]; [0%nat]; [1%nat]; [0%nat; 1%nat]] [3 # 10; 0; 4 # 10; 3 # 10] (f1 [false; true]) == 6 # 10.
Proof.
  intros sortEntries. split; [|split; [|split; [|split]]]; try reflexivity.
  - split; [|split].
    + apply perm_swap.
    + repeat constructor.
    + repeat constructor. unfold precedes. simpl. discriminate.
  - repeat constructor; simpl; intros H; intuition discriminate.
Qed.

(** ** C61: Marginal probabilities are sums over label vectors *)
(** [expectation] of the indicator of a label is its probability. *)
Theorem C61_marginal_probabilities : forall labelVectors jointProbabilities numLabels,
    Forall (fun lv => NoDup lv /\ Forall (fun l => (l < numLabels)%nat) lv) labelVectors -> length jointProbabilities = length labelVectors ->
    exists probabilities, marginalize labelVectors jointProbabilities numLabels = Some probabilities /\ length probabilities = numLabels /\
      (forall l, (l < numLabels)%nat ->
         nth l probabilities 0 == expectation labelVectors jointProbabilities (fun lv => if relevant lv l then 1 else 0)) /\
      (Forall (fun p => 0 <= p) jointProbabilities -> Qsum jointProbabilities <= 1 -> Forall (fun p => 0 <= p <= 1) probabilities).
Proof. exact marginal_probabilities. Qed.
Print Assumptions C61_marginal_probabilities.

Example C61_marginal_probabilities_example :
  Forall (fun lv => NoDup lv /\ Forall (fun l => (l < 3)%nat) lv) [[0%nat; 2%nat]; [2%nat]; []] /\
  marginalize [[0%nat; 2%nat]; [2%nat]; []] [1 # 2; 1 # 4; 1 # 4] 3 = Some [0 + (1 # 2); 0; 0 + (1 # 2) + (1 # 4)].
Proof.
  split; [|reflexivity]. repeat constructor; simpl; try lia; intros H; intuition discriminate.
Qed.

(** ** C62: Example-wise prediction returns a known label vector of minimal distance *)
(** [d i] is the distance of the label vector at index [i]. If several label vectors have minimal distance and are equally frequent, the first one is chosen. *)
Theorem C62_closest_label_vector : forall (distance : nat -> list nat -> option Q) (d : nat -> Q) labelVectors frequencies,
    labelVectors <> [] -> length frequencies = length labelVectors -> Forall (StronglySorted lt) labelVectors ->
    (forall i lv, nth_error labelVectors i = Some lv -> distance i lv = Some (d i)) ->
    exists i lv, nth_error labelVectors i = Some lv /\
      (forall j, (j < length labelVectors)%nat -> d i <= d j) /\
      (forall j, (j < length labelVectors)%nat -> d j == d i -> (nth j frequencies 0 <= nth i frequencies 0)%nat) /\
      (forall j, (j < i)%nat -> d j == d i -> (nth j frequencies 0 < nth i frequencies 0)%nat) /\
      (forall prediction, predictExampleWise distance labelVectors frequencies prediction =
         Some (map (relevant lv) (seq 0 (length prediction)))) /\
      predictExampleWiseSparse distance labelVectors frequencies = Some lv.
Proof. exact closest_label_vector. Qed.
Print Assumptions C62_closest_label_vector.

Example C62_closest_label_vector_example :
  Forall (StronglySorted lt) [[0%nat]; [1%nat; 2%nat]; [2%nat]] /\
  predictExampleWise (fun i _ => Some (nth i [2; 1; 1] 0)) [[0%nat]; [1%nat; 2%nat]; [2%nat]] [3%nat; 4%nat; 5%nat] [true; true; true] =
    Some [false; false; true] /\
  predictExampleWiseSparse (fun i _ => Some (nth i [2; 1; 1] 0)) [[0%nat]; [1%nat; 2%nat]; [2%nat]] [3%nat; 4%nat; 4%nat] = Some [1%nat; 2%nat].
Proof. split; [repeat constructor|]. split; reflexivity. Qed.

(** If the distance is derived from joint probabilities, the most probable label vector is chosen. *)
Theorem C62_most_probable_label_vector : forall (joint : nat -> list nat -> option Q) (p : nat -> Q) labelVectors frequencies,
    labelVectors <> [] -> length frequencies = length labelVectors ->
    (forall i lv, nth_error labelVectors i = Some lv -> joint i lv = Some (p i)) ->
    exists i lv, getClosestLabelVector (measureDistance joint) labelVectors frequencies = Some lv /\
      nth_error labelVectors i = Some lv /\ (forall j, (j < length labelVectors)%nat -> p j <= p i).
Proof. exact most_probable_label_vector. Qed.
Print Assumptions C62_most_probable_label_vector.

Example C62_most_probable_label_vector_example :
  getClosestLabelVector (measureDistance (fun i _ => Some (nth i [1 # 4; 1 # 2; 1 # 4] 0))) [[0%nat]; [1%nat; 2%nat]; [2%nat]]
    [3%nat; 1%nat; 5%nat] = Some [1%nat; 2%nat].
Proof. reflexivity. Qed.

(** ** C63: Joint probabilities via chain rule form a distribution *)
(** [joint] is the product of the marginal probabilities. [allLabelVectors] enumerates each label vector exactly once. *)
Theorem C63_chain_rule : forall (S : Type) (zero : S) (marginal : nat -> S -> Q) (calibrate : nat -> Q -> Q) (scores : list S),
    let n := length scores in
    let joint lv := productQ n (fun i => if relevant lv i then marginal i (nth i scores zero) else 1 - marginal i (nth i scores zero)) in
    (forall index lv, StronglySorted lt lv -> chainRule marginal calibrate index lv scores = Some (calibrate index (joint lv))) /\
    Qsum (map joint (allLabelVectors n)) == 1 /\
    ((forall i s, 0 <= marginal i s <= 1) -> forall lv, 0 <= joint lv <= 1) /\
    NoDup (allLabelVectors n) /\
    (forall lv, In lv (allLabelVectors n) <-> StronglySorted lt lv /\ Forall (fun l => (l < n)%nat) lv).
Proof. exact chain_rule. Qed.
Print Assumptions C63_chain_rule.

Example C63_chain_rule_example : StronglySorted lt [1%nat] /\ length (allLabelVectors 2) = 4%nat /\
  chainRule (fun _ score => score) (fun _ probability => probability) 0 [1%nat] [1 # 4; 1 # 3] = Some (1 * (1 - (1 # 4)) * (1 # 3)).
Proof. split; [repeat constructor|]. split; reflexivity. Qed.

(** Scores that are stored in sparse format: any row that results from a sequence of operations is treated like the corresponding row in dense format. *)
Theorem C63_chain_rule_sparse : forall (S : Type) (zero : S) (marginal : nat -> S -> Q) (calibrate : nat -> Q -> Q) index lv n ops row,
    StronglySorted lt lv -> Forall (ss_op_in_range n) ops -> ss_run (ss_empty S n) ops = Some row ->
    exists scores, length scores = n /\
      chainRuleSparse zero marginal calibrate index lv row n = chainRule marginal calibrate index lv scores /\
      (forall i, (i < n)%nat -> ss_get row i = Some (Some (i, nth i scores zero)) \/ ss_get row i = Some None /\ nth i scores zero = zero).
Proof. exact chain_rule_sparse. Qed.
Print Assumptions C63_chain_rule_sparse.

Example C63_chain_rule_sparse_example : exists row,
  ss_run (ss_empty Q 2) [SsEmplace 1%nat (1 # 3)] = Some row /\
  chainRuleSparse 0 (fun _ score => score) (fun _ probability => probability) 0 [1%nat] row 2 = Some (1 * (1 - 0) * (1 # 3)).
Proof. eexists. split; reflexivity. Qed.

(** The probabilities of the known label vectors are normalised, such that they sum up to one and their ratios are preserved. *)
Theorem C63_normalisation : forall (joint : nat -> list nat -> option Q) (p : nat -> Q) labelVectors memory,
    length memory = length labelVectors ->
    (forall i lv, nth_error labelVectors i = Some lv -> joint i lv = Some (p i)) -> (forall i, (i < length labelVectors)%nat -> 0 <= p i) ->
    exists probabilities, transformScoresIntoJointProbabilities joint labelVectors memory = Some probabilities /\
      length probabilities = length labelVectors /\
      (forall i, (i < length labelVectors)%nat -> 0 <= nth i probabilities 0) /\
      ((exists i, (i < length labelVectors)%nat /\ 0 < p i) ->
         Qsum probabilities == 1 /\
         forall i j, (i < length labelVectors)%nat -> (j < length labelVectors)%nat ->
           nth i probabilities 0 * p j == nth j probabilities 0 * p i) /\
      ((forall i, (i < length labelVectors)%nat -> p i == 0) -> forall i, (i < length labelVectors)%nat -> nth i probabilities 0 == 0).
Proof. exact normalisation. Qed.
Print Assumptions C63_normalisation.

Example C63_normalisation_example :
  transformScoresIntoJointProbabilities (fun i _ => Some (nth i [1 # 4; 3 # 4; 1] 0)) [[0%nat]; [1%nat]; []] [5; 6; 7] =
    Some [(1 # 4) / (0 + (1 # 4) + (3 # 4) + 1); (3 # 4) / (0 + (1 # 4) + (3 # 4) + 1); 1 / (0 + (1 # 4) + (3 # 4) + 1)].
Proof. reflexivity. Qed.
