(** Properties of the data sets, cross validations and reports of the testbed. *)
From Coq Require Import List Bool Arith ZArith QArith Qround String Permutation Sorted Lia.
From Verif Require Import Lib.Arr Model.Testbed Spec.Testbed Proofs.Testbed.
Import ListNotations.
Open Scope nat_scope.

(** ** C161: the examples in ARFF files are those that are used *)

(** The feature values and labels in an ARFF file are assigned to the features and outputs with the same names, also if a file with the same attributes is loaded later on. Sparse files that omit the last attribute or end with an empty row, outputs that are declared in a different order and outputs that are not small integers are missing. *)
Theorem C161_loaded_partial :
  forall f xml feats outs,
  declares f xml outs -> located f feats outs -> NoDup (names f) -> outs <> [] -> supportedTypes f outs -> validRows f -> lastGiven f ->
  exists x y meta, loadDataSetAndMetaData f xml = Some (x, y, meta) /\ outputs meta = outs /\ map fst (features meta) = feats /\
    (forall n t, In (n, t) (features meta) -> exists t', In (n, t') (attributes f) /\ corresponds t' t) /\
    correctMatrices f feats outs x y /\
    forall f2, names f2 = names f -> validRows f2 -> lastGiven f2 ->
      exists x2 y2, loadDataSet f2 meta = Some (x2, y2) /\ correctMatrices f2 feats outs x2 y2.
Proof. exact data_set_loaded. Qed.
Print Assumptions C161_loaded_partial.

(** A sparse file with a feature and two labels at the start, which are declared by the relation. *)
Example C161_loaded_partial_example :
  let f := Arff (Some 2%Z) [("l1"%string, NominalAttribute ["0"; "1"]%string); ("l2"%string, NominalAttribute ["0"; "1"]%string);
    ("f1"%string, IntegerAttribute)] (SparseRows [[(1, Some 1%Q)]; []; [(0, Some 1%Q); (2, Some (7 # 2)%Q)]]) in
  declares f None ["l1"; "l2"]%string /\ located f ["f1"%string] ["l1"; "l2"]%string /\ NoDup (names f) /\
  supportedTypes f ["l1"; "l2"]%string /\ validRows f /\ lastGiven f /\
  loadDataSetAndMetaData f None = Some ([[Some 0%Q]; [Some 0%Q]; [Some (7 # 2)%Q]],
    [[Some 0%Z; Some 1%Z]; [Some 0%Z; Some 0%Z]; [Some 1%Z; Some 0%Z]], MetaData [("f1"%string, ORDINAL)] ["l1"; "l2"]%string true).
Proof.
  cbv zeta. split; [split; [reflexivity|exists ["f1"%string]; reflexivity]|]. split; [left; reflexivity|].
  split; [repeat constructor; cbn; intuition discriminate|].
  split; [intros n t H N; cbn in H; intuition (try congruence)|].
  split; [repeat constructor; cbn; intuition (try discriminate)|].
  split; [|vm_compute; reflexivity]. split.
  - exists [[(1, Some 1%Q)]; []], [(0, Some 1%Q); (2, Some (7 # 2)%Q)]. split; [reflexivity|discriminate].
  - exists [(0, Some 1%Q); (2, Some (7 # 2)%Q)], 2. cbn. tauto.
Qed.

(** If the last label is not relevant to any example in a sparse file, feature values are used as labels. *)
Theorem C161_shifted_refuted :
  exists f xml feats outs x y meta,
  declares f xml outs /\ located f feats outs /\ NoDup (names f) /\ outs <> [] /\ supportedTypes f outs /\ validRows f /\
  loadDataSetAndMetaData f xml = Some (x, y, meta) /\ isCell f 0 0 (Some 5%Q) /\ isElement y 0 0 (Some 5%Z) /\ Forall (fun r => r = []) x.
Proof. exact columns_shifted_refuted. Qed.
Print Assumptions C161_shifted_refuted.

(** Empty rows at the end of a sparse file are dropped. *)
Theorem C161_dropped_refuted :
  exists f xml feats outs x y meta,
  declares f xml outs /\ located f feats outs /\ NoDup (names f) /\ outs <> [] /\ supportedTypes f outs /\ validRows f /\
  loadDataSetAndMetaData f xml = Some (x, y, meta) /\ numRowsOf f = 2 /\ List.length x = 1.
Proof. exact rows_dropped_refuted. Qed.
Print Assumptions C161_dropped_refuted.

(** If labels are declared in a different order in the XML file, they are confused with each other. *)
Theorem C161_order_refuted :
  exists f xml outs x y meta a l name v w,
  declares f xml outs /\ Permutation (names f) (outs ++ ["f1"%string]) /\ NoDup (names f) /\ supportedTypes f outs /\ validRows f /\ lastGiven f /\
  loadDataSetAndMetaData f xml = Some (x, y, meta) /\ nth_error (names f) a = Some name /\ nth_error (outputs meta) l = Some name /\
  isCell f 0 a (Some (inject_Z v)) /\ isElement y 0 l (Some w) /\ v <> w.
Proof. exact names_swapped_refuted. Qed.
Print Assumptions C161_order_refuted.

(** Regression scores are truncated. *)
Theorem C161_scores_refuted :
  exists f xml feats outs x y meta v,
  declares f xml outs /\ located f feats outs /\ NoDup (names f) /\ outs <> [] /\ supportedTypes f outs /\ validRows f /\ lastGiven f /\
  loadDataSetAndMetaData f xml = Some (x, y, meta) /\ isCell f 0 1 (Some v) /\ isElement y 0 0 (Some 0%Z) /\ ~ (v == 0)%Q.
Proof. exact scores_truncated_refuted. Qed.
Print Assumptions C161_scores_refuted.

(** If the number in the declaration of the relation is negative, which denotes outputs at the end, there are no features and all attributes are used as outputs without names. *)
Theorem C161_negative_refuted :
  exists f x y meta,
  relation f = Some (-1)%Z /\ List.length (attributes f) = 2 /\ validRows f /\ lastGiven f /\
  loadDataSetAndMetaData f None = Some (x, y, meta) /\ outputs meta = [] /\ Forall (fun r => r = []) x /\
  Forall (fun r => List.length r = 2) y.
Proof. exact negative_number_refuted. Qed.
Print Assumptions C161_negative_refuted.

(** ** C162: each example is used for testing exactly once in a cross validation *)

(** Predefined folds: Each example is contained in exactly one test set, and used for training in all other runs. Individual folds correspond to those of a full cross validation. *)
Theorem C162_predefined :
  forall {E : Type} (d : list (list E)),
  exists runs, predefinedCrossValidation d (-1)%Z = Some runs /\ List.length runs = List.length d /\
  Permutation (List.concat (map rtest runs)) (List.concat d) /\
  forall fold r, nth_error runs fold = Some r ->
    rfold r = fold /\ nth_error d fold = Some (rtest r) /\ Permutation (rtrain r ++ rtest r) (List.concat d) /\
    (rlast r = true <-> fold + 1 = List.length d) /\
    predefinedCrossValidation d (Z.of_nat fold) = Some [Run fold (rtrain r) (rtest r) false].
Proof. exact (@predefined_folds). Qed.
Print Assumptions C162_predefined.

(** Random folds: In addition, the sizes of test sets differ by at most one. *)
Theorem C162_random :
  forall {E : Type} (examples : list E) numFolds perm,
  0 < numFolds <= List.length examples -> Permutation perm (seq 0 (List.length examples)) ->
  exists runs, crossValidation examples numFolds perm (-1)%Z = Some runs /\ List.length runs = numFolds /\
  Permutation (List.concat (map rtest runs)) examples /\
  forall fold r, nth_error runs fold = Some r ->
    rfold r = fold /\ Permutation (rtrain r ++ rtest r) examples /\
    List.length examples / numFolds <= List.length (rtest r) <= List.length examples / numFolds + 1 /\
    (rlast r = true <-> fold + 1 = numFolds) /\
    crossValidation examples numFolds perm (Z.of_nat fold) = Some [Run fold (rtrain r) (rtest r) false].
Proof. exact (@random_folds). Qed.
Print Assumptions C162_random.

Example C162_predefined_example :
  predefinedCrossValidation [[1; 2]; [3]; [2]] (-1)%Z
  = Some [Run 0 [3; 2] [1; 2] false; Run 1 [1; 2; 2] [3] false; Run 2 [1; 2; 3] [2] true] /\
  predefinedCrossValidation [[1; 2]; [3]; [2]] 1%Z = Some [Run 1 [1; 2; 2] [3] false].
Proof. split; reflexivity. Qed.

Example C162_random_example :
  0 < 2 <= List.length [10; 20; 30] /\ Permutation [2; 0; 1] (seq 0 3) /\
  crossValidation [10; 20; 30] 2 [2; 0; 1] (-1)%Z = Some [Run 0 [20] [10; 30] false; Run 1 [10; 30] [20] true].
Proof.
  split; [simpl; lia|]. split; [|reflexivity]. apply NoDup_Permutation; [repeat constructor; simpl; lia|apply seq_NoDup|].
  intros x. simpl. tauto.
Qed.

(** ** C163: results that are averaged across folds *)

(** If a single model is evaluated per fold, a single average across the scores of all folds is written. Models that are evaluated incrementally are missing. *)
Theorem C163_single_partial :
  forall {S : Type} (scores : list (nat * S)), scores <> [] ->
  exists out size, evaluateFolds (map (fun p => [p]) scores) = Some out /\
  averages out = [(size, map snd scores)] /\ In size (map fst scores) /\ map snd (foldResults out) = map snd scores.
Proof. exact (@averages_single). Qed.
Print Assumptions C163_single_partial.

(** If models of different sizes are evaluated, the final scores of all folds except for the last one are averaged, regardless of the size that is reported. *)
Theorem C163_incremental_partial :
  forall {S : Type} (earlier : list (list (nat * S))) finals lastScores,
  Forall2 (fun l s => exists size l', l = l' ++ [(size, s)]) earlier finals -> lastScores <> [] ->
  exists out, evaluateFolds (earlier ++ [lastScores]) = Some out /\
  averages out = map (fun p => (fst p, finals ++ [snd p])) lastScores /\
  foldResults out = flat_map (fun fl => map (fun p => (fst fl, fst p, snd p)) (snd fl))
    (combine (seq 0 (List.length earlier + 1)) (earlier ++ [lastScores])).
Proof. exact (@averages_characterised). Qed.
Print Assumptions C163_incremental_partial.

Example C163_single_partial_example :
  evaluateFolds (map (fun p => [p]) [(5, 10%Z); (7, 20%Z)])
  = Some [FoldResult 0 5 10%Z; FoldResult 1 7 20%Z; Average 7 [10%Z; 20%Z]].
Proof. reflexivity. Qed.

Example C163_incremental_partial_example :
  let earlier := [[(1, 10%Z); (2, 20%Z)]; [(1, 30%Z)]] in
  Forall2 (fun (l : list (nat * Z)) s => exists size l', l = l' ++ [(size, s)]) earlier [20%Z; 30%Z] /\
  match evaluateFolds (earlier ++ [[(1, 50%Z); (2, 60%Z)]]) with
  | Some out => averages out = [(1, [20%Z; 30%Z; 50%Z]); (2, [20%Z; 30%Z; 60%Z])]
  | None => False
  end.
Proof.
  cbv zeta. split; [|vm_compute; reflexivity]. constructor; [exists 2, [(1, 10%Z)]; reflexivity|].
  constructor; [exists 1, []; reflexivity|constructor].
Qed.

(** An average that is reported for models of a certain size does not correspond to the scores of these models. *)
Theorem C163_size_refuted :
  exists (scores : list (list (nat * Z))) out size avg,
  evaluateFolds scores = Some out /\ In (size, avg) (averages out) /\
  avg <> flat_map (fun l => map snd (filter (fun p => fst p =? size) l)) scores.
Proof. exact averages_refuted. Qed.
Print Assumptions C163_size_refuted.

(** ** C164: the characteristics of rules *)

(** There is a row for each rule of a model, including the default rule, regardless of its position, that provides the numbers of its conditions and predictions. *)
Theorem C164_rows :
  forall rules,
  (forall i j r s, nth_error rules i = Some r -> nth_error rules j = Some s -> cbody r = None -> cbody s = None -> i = j) ->
  exists rows, tabularize (visitRules rules) = Some rows /\ List.length rows = List.length rules /\
  forall i r, nth_error rules i = Some r -> exists row, nth_error rows i = Some row /\ tnumber row = i + 1 /\
    (tdefault row = true <-> cbody r = None) /\
    (forall c, cbody r = Some c -> tcounts row = c) /\ (cbody r = None -> tcounts row = Counts 0 0 0 0 0 0) /\
    tpos row = numPositive (cscores r) /\ tneg row = numNonPositive (cscores r).
Proof. exact characteristics. Qed.
Print Assumptions C164_rows.

(** A default rule at the end. *)
Example C164_rows_example :
  let rules := [CRule (Some (Counts 1 0 0 2 0 0)) [1%Q; (-1)%Q]; CRule None [0%Q; 3%Q; 4%Q]] in
  (forall i j r s, nth_error rules i = Some r -> nth_error rules j = Some s -> cbody r = None -> cbody s = None -> i = j) /\
  tabularize (visitRules rules) = Some [TRow 1 false (Counts 1 0 0 2 0 0) 1 1; TRow 2 true (Counts 0 0 0 0 0 0) 2 1].
Proof.
  cbv zeta. split; [|vm_compute; reflexivity]. intros i j r s Hi Hj Er Es.
  destruct i as [|[|[|i]]], j as [|[|[|j]]]; simpl in *; try congruence; injection Hi as <-; try discriminate; injection Hj as <-; discriminate.
Qed.

(** ** C165: the textual representation of durations *)

(** The numbers and units sum up to the duration, rounded down to milliseconds. Units are given in descending order, numbers are positive and smaller than the next larger unit. *)
Theorem C165_duration :
  forall duration, (0 <= duration)%Q ->
  totalMillis (durationParts duration) = Qfloor (duration * inject_Z 1000) /\
  Forall bounded (durationParts duration) /\
  Forall (fun p => (0 <= fst p)%Z /\ (fst p = 0%Z -> durationParts duration = [(0%Z, Milliseconds)])) (durationParts duration) /\
  StronglySorted (fun p q => (millisOf (snd q) < millisOf (snd p))%Z) (durationParts duration) /\
  durationParts duration <> [].
Proof. exact duration_parts. Qed.
Print Assumptions C165_duration.

(** 90061.0015 seconds. *)
Example C165_duration_example :
  (0 <= 900610015 # 10000)%Q /\
  durationParts (900610015 # 10000) = [(1%Z, Days); (1%Z, Hours); (1%Z, Minutes); (1%Z, Seconds); (1%Z, Milliseconds)] /\
  durationParts (1 # 2000) = [(0%Z, Milliseconds)].
Proof. split; [discriminate|]. split; reflexivity. Qed.
