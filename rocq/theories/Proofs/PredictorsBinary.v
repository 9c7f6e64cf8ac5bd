(** Proofs of the properties of the predictors of binary labels. *)
From Coq Require Import ZArith NArith QArith List Bool Arith Lia Permutation Sorted.
From Verif Require Import Lib.Arr Model.Labels Model.Rules Model.Prediction Model.JointPrediction Model.Predictors.
From Verif Require Import Spec.Labels Spec.Rules Spec.JointPrediction Spec.Predictors.
From Verif Require Import Proofs.Rules Proofs.Prediction Proofs.Labels Proofs.JointPrediction Proofs.Predictors.
Import ListNotations.
Open Scope nat_scope.

Lemma scores_exist {V} (add : V -> V -> V) zero m (l : ruleList (rule V)) numLabels maxRules row (scores : nat -> list V) :
  (forall i, i < fmRows m -> example_row m i (row i) /\
     score_of add (fun r => coversDense (row i) (fst r))
       (expected_order (rlDefault l) (rlRules l) (rlPrecedence l) (limitRules maxRules (rlGetNumUsed l)))
       (repeat zero numLabels) = Some (scores i)) ->
  forall i, i < fmRows m -> example_row m i (row i) /\
     exists s, score_of add (fun r => coversDense (row i) (fst r))
       (expected_order (rlDefault l) (rlRules l) (rlPrecedence l) (limitRules maxRules (rlGetNumUsed l)))
       (repeat zero numLabels) = Some s.
Proof. intros H i Hi. destruct (H i Hi). eauto. Qed.

Lemma binary_batch :
  forall (V : Type) (add : V -> V -> V) (zero : V) (junk : fval) (m : featureMatrix) (l : ruleList (rule V))
    (numLabels maxRules : nat) (row : nat -> list fval) (scores : nat -> list V) (f : list V -> list bool)
    (apply : list V -> list bool -> option (list bool)) (applySparse : list V -> list nat -> option (list nat))
    (order : list (nat * nat)) (realMemory : list (list V)) (memory : list (list bool)) (u : nat),
    rlNumUsed l <= rlGetNumRules l -> (N.of_nat (rlGetNumRules l) < 2 ^ 32)%N ->
    (forall i, i < fmRows m -> example_row m i (row i) /\
       score_of add (fun r => coversDense (row i) (fst r))
         (expected_order (rlDefault l) (rlRules l) (rlPrecedence l) (limitRules maxRules (rlGetNumUsed l)))
         (repeat zero numLabels) = Some (scores i)) ->
    Permutation (map fst order) (seq 0 (fmRows m)) -> Forall (fun t => t < length realMemory) (map snd order) ->
    Forall (fun r => length r = numLabels) realMemory -> length memory = fmRows m -> Forall (fun r => length r = numLabels) memory ->
    (writes_labels numLabels f apply ->
       predictBinary add zero junk (Some apply) m l numLabels maxRules order realMemory memory =
         Some (map (fun i => f (scores i)) (seq 0 (fmRows m)))) /\
    (appends_labels numLabels f applySparse ->
       (N.of_nat (length (concat (map (fun i => relevant_labels (f (scores i))) (seq 0 (fmRows m))))) < 2 ^ 32)%N ->
       exists indices indptr, predictBinarySparse add zero junk (Some applySparse) m l maxRules order realMemory u = Some (indices, indptr) /\
         length indptr = fmRows m + 1 /\ forall i, i < fmRows m -> csrRow indices indptr i = Some (relevant_labels (f (scores i)))).
Proof.
  intros V add zero junk m l numLabels maxRules row scores f apply applySparse order realMemory memory u HU H32 HS HP HT HR HM HF.
  pose proof (scores_exist _ _ _ _ _ _ _ _ HS) as HE.
  assert (ES : forall i, In i (seq 0 (fmRows m)) ->
    scores i = prefix_scores add zero l numLabels maxRules row (limitRules maxRules (rlGetNumUsed l)) i).
  { intros i Hi. apply in_seq in Hi. destruct (HS i ltac:(lia)) as (_ & E).
    pose proof (prefix_ok add zero m l numLabels maxRules row HE (limitRules maxRules (rlGetNumUsed l)) i ltac:(lia)) as E'.
    rewrite firstn_all2 in E' by (rewrite (model_order l maxRules HU); lia). congruence. }
  split.
  - intros HW. rewrite (predict_dense add zero junk m l numLabels maxRules row HU H32 HE f) by auto.
    f_equal. apply map_ext_in. intros i Hi. rewrite ES by auto. reflexivity.
  - intros HW HC. destruct (predict_sparse add zero junk m l numLabels maxRules row HU H32 HE f applySparse order realMemory u) as (a & b & E & L & HA); auto.
    + rewrite (map_ext_in _ (fun i => relevant_labels (f (scores i)))); [exact HC|]. intros i Hi. rewrite ES by auto. reflexivity.
    + exists a, b. split; [exact E|]. split; [exact L|]. intros i Hi. rewrite HA by auto. rewrite ES by (apply in_seq; lia). reflexivity.
Qed.

Lemma binary_incremental :
  forall (V : Type) (add : V -> V -> V) (zero : V) (junk : fval) (m : featureMatrix) (l : ruleList (rule V))
    (numLabels maxRules : nat) (row : nat -> list fval) (scores : nat -> nat -> list V) (f : list V -> list bool)
    (apply : list V -> list bool -> option (list bool)) (applySparse : list V -> list nat -> option (list nat))
    (steps : list (nat * list (nat * nat))) (realMemory : list (list V)) (memory : list (list bool)) (u : nat),
    rlNumUsed l <= rlGetNumRules l -> (N.of_nat (rlGetNumRules l) < 2 ^ 32)%N ->
    (forall i, i < fmRows m -> example_row m i (row i) /\ forall k,
       score_of add (fun r => coversDense (row i) (fst r))
         (firstn k (expected_order (rlDefault l) (rlRules l) (rlPrecedence l) (limitRules maxRules (rlGetNumUsed l))))
         (repeat zero numLabels) = Some (scores k i)) ->
    Forall (fun step => Permutation (map fst (snd step)) (seq 0 (fmRows m))) steps ->
    length memory = fmRows m -> Forall (fun r => length r = numLabels) memory ->
    (writes_labels numLabels f apply -> (forall x, length x = numLabels -> length (f x) = numLabels) ->
       exists results, applyAll add junk (Some apply) m steps
           (createIncremental zero (Some apply) m l numLabels maxRules realMemory memory) = Some results /\
         length results = length steps /\
         forall q, q < length steps -> nth_error results q =
           Some (map (fun i => f (scores (list_sum (map fst (firstn (S q) steps))) i)) (seq 0 (fmRows m)))) /\
    (appends_labels numLabels f applySparse ->
       (forall k, N.of_nat (length (concat (map (fun i => relevant_labels (f (scores k i))) (seq 0 (fmRows m))))) < 2 ^ 32)%N ->
       exists results, applyAllSparse add junk (Some applySparse) m u steps
           (createIncrementalSparse zero (Some applySparse) m l numLabels maxRules realMemory) = Some results /\
         length results = length steps /\
         forall q, q < length steps -> exists indices indptr, nth_error results q = Some (indices, indptr) /\ length indptr = fmRows m + 1 /\
           forall i, i < fmRows m -> csrRow indices indptr i =
             Some (relevant_labels (f (scores (list_sum (map fst (firstn (S q) steps))) i)))).
Proof.
  intros V add zero junk m l numLabels maxRules row scores f apply applySparse steps realMemory memory u HU H32 HS HO HM HF.
  set (n := limitRules maxRules (rlGetNumUsed l)) in *.
  set (order := expected_order (rlDefault l) (rlRules l) (rlPrecedence l) n) in *.
  assert (HE : forall i, i < fmRows m -> example_row m i (row i) /\
     exists s, score_of add (fun r => coversDense (row i) (fst r)) order (repeat zero numLabels) = Some s).
  { intros i Hi. destruct (HS i Hi) as (HX & HY). split; [auto|]. exists (scores n i). specialize (HY n).
    rewrite firstn_all2 in HY by (pose proof (model_order l maxRules HU) as E; fold n in E; fold order in E; lia). exact HY. }
  assert (ES : forall k i, i < fmRows m -> scores k i = prefix_scores add zero l numLabels maxRules row k i).
  { intros k i Hi. destruct (HS i Hi) as (_ & E). specialize (E k). pose proof (prefix_ok add zero m l numLabels maxRules row HE k i Hi) as E'.
    fold n in E'. fold order in E'. congruence. }
  assert (ER : repeat (repeat zero numLabels) (fmRows m) = map (prefix_scores add zero l numLabels maxRules row 0) (seq 0 (fmRows m))).
  { transitivity (map (fun _ : nat => repeat zero numLabels) (seq 0 (fmRows m))).
    - rewrite map_const, seq_length. reflexivity.
    - apply map_ext_in. intros i Hi. apply in_seq in Hi. symmetry. apply (prefix_0 add zero m l numLabels maxRules row HE). lia. }
  split.
  - intros HW HL. destruct (run_dense add zero junk m l numLabels maxRules row HU H32 HE f apply HW HL steps 0
      (createIncremental zero (Some apply) m l numLabels maxRules realMemory memory) HO) as (results & E & L & HR).
    + split; [reflexivity|]. split; [reflexivity|]. split; [lia|]. split; [exact ER|]. split; [exact HM|exact HF].
    + exists results. split; [exact E|]. split; [exact L|]. intros q Hq. rewrite HR by auto. f_equal. apply map_ext_in.
      intros i Hi. apply in_seq in Hi. rewrite ES by lia. rewrite min_prefix by assumption. reflexivity.
  - intros HW HC. destruct (run_sparse add zero junk m l numLabels maxRules row HU H32 HE f applySparse u HW steps 0
      (createIncrementalSparse zero (Some applySparse) m l numLabels maxRules realMemory) HO) as (results & E & L & HR).
    + split; [reflexivity|]. split; [reflexivity|]. split; [lia|]. split; [exact ER|].
      split; [apply repeat_length|]. apply Forall_forall. auto.
    + intros q. rewrite (map_ext_in _ (fun i => relevant_labels (f (scores q i)))); [apply HC|]. intros i Hi. apply in_seq in Hi.
      rewrite ES by lia. reflexivity.
    + exists results. split; [exact E|]. split; [exact L|]. intros q Hq. destruct (HR q Hq) as (a & b & EN & LN & HA).
      exists a, b. split; [exact EN|]. split; [exact LN|]. intros i Hi. rewrite HA by auto. rewrite ES by lia.
      rewrite min_prefix by assumption. reflexivity.
Qed.

(** ** No transformation *)

Lemma empty_csr u k : exists indices indptr, lilToCsr (repeat u 0) (repeat u (length (repeat (@nil nat) k) + 1)) (repeat [] k) 0 = Some (indices, indptr) /\
  length indptr = k + 1 /\ forall i, i < k -> csrRow indices indptr i = Some [].
Proof.
  destruct (C17_lemma (repeat u 0) (repeat u (length (repeat (@nil nat) k) + 1)) (repeat [] k) 0) as (a & b & E & _ & L & _ & _ & HR).
  - reflexivity.
  - apply repeat_length.
  - induction k; simpl; auto.
  - exists a, b. split; [exact E|]. split; [rewrite L, repeat_length; reflexivity|]. intros i Hi. apply HR.
    apply nth_error_repeat. auto.
Qed.

Lemma binary_none :
  forall (V : Type) (add : V -> V -> V) (zero : V) (junk : fval) (m : featureMatrix) (l : ruleList (rule V)) (numLabels maxRules : nat)
    (order : list (nat * nat)) (steps : list (nat * list (nat * nat))) (realMemory : list (list V)) (memory : list (list bool)) (u : nat),
    let nothing := repeat (repeat false numLabels) (fmRows m) in
    predictBinary add zero junk None m l numLabels maxRules order realMemory memory = Some nothing /\
    applyAll add junk None m steps (createIncremental (T := unit) zero None m l numLabels maxRules realMemory memory) =
      Some (repeat nothing (length steps)) /\
    exists indices indptr, predictBinarySparse add zero junk None m l maxRules order realMemory u = Some (indices, indptr) /\
      length indptr = fmRows m + 1 /\ (forall i, i < fmRows m -> csrRow indices indptr i = Some []) /\
      applyAllSparse add junk None m u steps (createIncrementalSparse (T := unit) zero None m l numLabels maxRules realMemory) =
        Some (repeat (indices, indptr) (length steps)).
Proof.
  intros. split; [reflexivity|]. split.
  - unfold createIncremental. generalize (rlUsedBegin l maxRules) as it. generalize (rlUsedEnd l maxRules) as stop.
    intros stop. induction steps as [|(s, o) steps IH]; intros it; [reflexivity|]. cbn [applyAll applyNext].
    rewrite IH. reflexivity.
  - destruct (empty_csr u (fmRows m)) as (a & b & E & L & HR). exists a, b. split; [exact E|]. split; [exact L|]. split; [exact HR|].
    unfold createIncrementalSparse. generalize (rlUsedBegin l maxRules) as it. generalize (rlUsedEnd l maxRules) as stop.
    intros stop. induction steps as [|(s, o) steps IH]; intros it; [reflexivity|]. cbn [applyAllSparse]. unfold applyNextSparse.
    cbn [ipReal ipPredictions ipCurrent ipEnd]. change (N.to_nat 0) with 0. rewrite E. rewrite IH. reflexivity.
Qed.

(** ** Transformations *)

Lemma output_wise :
  forall (V : Type) (zero : V) (discretize : nat -> V -> bool) (numLabels : nat),
    let f := fun scores => map (fun label => discretize label (nth label scores zero)) (seq 0 (length scores)) in
    writes_labels numLabels f (applyOutputWise discretize) /\ appends_labels numLabels f (applyOutputWiseSparse discretize).
Proof. intros. split; [apply output_wise_dense|apply output_wise_sparse]. Qed.

Lemma filter_seq_sorted (p : nat -> bool) n : StronglySorted lt (filter p (seq 0 n)).
Proof.
  assert (H : forall k a, StronglySorted lt (filter p (seq a k)) /\ Forall (fun x => a <= x) (filter p (seq a k))).
  { induction k as [|k IH]; intros a; simpl; [split; constructor|]. destruct (IH (S a)) as (A & B).
    assert (B' : Forall (fun x => a <= x) (filter p (seq (S a) k))) by (eapply Forall_impl; [|exact B]; simpl; intros; lia).
    destruct (p a); [|split; auto]. split; [constructor; auto|constructor; auto]. }
  apply H.
Qed.

Lemma example_wise :
  forall (V : Type) (distance : list V -> nat -> list nat -> option Q) (labelVectors : list (list nat)) (frequencies : list nat) (numLabels : nat),
    labelVectors <> [] -> length frequencies = length labelVectors ->
    Forall (fun lv => StronglySorted lt lv /\ Forall (fun label => label < numLabels) lv) labelVectors ->
    (forall scores i lv, nth_error labelVectors i = Some lv -> exists d, distance scores i lv = Some d) ->
    exists f, writes_labels numLabels f (fun scores => predictExampleWise (distance scores) labelVectors frequencies) /\
      appends_labels numLabels f (applySparse (fun scores => predictExampleWiseSparse (distance scores) labelVectors frequencies)) /\
      (forall scores, length (f scores) = numLabels) /\ forall scores, In (relevant_labels (f scores)) labelVectors.
Proof.
  intros V distance lvs freqs n HN HF HL HD.
  assert (HS : Forall (StronglySorted lt) lvs) by (eapply Forall_impl; [|exact HL]; simpl; tauto).
  set (closest := fun scores => match predictExampleWiseSparse (distance scores) lvs freqs with Some lv => lv | None => [] end).
  assert (HC : forall scores, In (closest scores) lvs /\
    (forall prediction, predictExampleWise (distance scores) lvs freqs prediction = Some (map (relevant (closest scores)) (seq 0 (length prediction)))) /\
    predictExampleWiseSparse (distance scores) lvs freqs = Some (closest scores)).
  { intros scores.
    destruct (closest_label_vector (distance scores) (fun i => match nth_error lvs i with
       | Some lv => match distance scores i lv with Some d => d | None => 0%Q end | None => 0%Q end) lvs freqs HN HF HS)
      as (i & lv & Ei & _ & _ & _ & ED & E).
    - intros i lv Ei. rewrite Ei. destruct (HD scores i lv Ei) as (d & Ed). rewrite Ed. reflexivity.
    - unfold closest. rewrite E. split; [eapply nth_error_In; eauto|]. split; [exact ED|reflexivity]. }
  assert (HR : forall scores, relevant_labels (map (relevant (closest scores)) (seq 0 n)) = closest scores).
  { intros scores. rewrite relevant_labels_map. destruct (HC scores) as (HI & _). rewrite Forall_forall in HL. destruct (HL _ HI) as (SS & B).
    apply sorted_ext; [apply filter_seq_sorted|exact SS|]. intros x. rewrite filter_In, in_seq, relevant_spec. rewrite Forall_forall in B.
    split; [tauto|]. intros Hx. split; [|auto]. specialize (B x Hx). lia. }
  exists (fun scores => map (relevant (closest scores)) (seq 0 n)). split; [|split; [|split]].
  - intros scores prediction _ Hp. destruct (HC scores) as (_ & E & _). rewrite E, Hp. reflexivity.
  - intros scores r _. unfold applySparse. destruct (HC scores) as (_ & _ & E). rewrite E, HR. reflexivity.
  - intros scores. rewrite map_length, seq_length. reflexivity.
  - intros scores. rewrite HR. apply HC.
Qed.

Lemma gfm :
  forall (V : Type) sort sortByIndex (joint : list V -> list Q) labelVectors numLabels memory1 memory2,
    (forall k (l : list (nat * Q)), k <= length l -> partialSort k l (sort k l)) -> (forall l, sortedByIndex l (sortByIndex l)) ->
    NoDup labelVectors -> Forall (fun lv => NoDup lv /\ Forall (fun label => label < numLabels) lv) labelVectors ->
    (forall scores, length (joint scores) = length labelVectors) -> length memory1 = numLabels -> length memory2 = numLabels ->
    exists f, writes_labels numLabels f (fun scores _ => applyGfm sort labelVectors (joint scores) numLabels memory1 memory2) /\
      appends_labels numLabels f
        (applySparse (fun scores => applyGfmSparse sort sortByIndex labelVectors (joint scores) numLabels memory1 memory2)) /\
      forall scores, length (f scores) = numLabels.
Proof.
  intros V sort sortByIndex joint lvs n m1 m2 HS HB HN HL HJ H1 H2.
  set (f := fun scores => match applyGfm sort lvs (joint scores) n m1 m2 with Some p => p | None => [] end).
  assert (HC : forall scores, applyGfm sort lvs (joint scores) n m1 m2 = Some (f scores) /\ length (f scores) = n /\
    applyGfmSparse sort sortByIndex lvs (joint scores) n m1 m2 = Some (relevant_labels (f scores))).
  { intros scores. destruct (gfm_optimal sort sortByIndex lvs (joint scores) n m1 m2) as (p & r & Ep & Er & Lp & SS & HI & _); auto.
    unfold f. rewrite Ep. split; [reflexivity|]. split; [exact Lp|]. rewrite Er. f_equal. unfold relevant_labels.
    apply sorted_ext; [exact SS|apply filter_seq_sorted|]. intros x. rewrite filter_In, in_seq, HI. split; [|tauto].
    intros Hx. split; [|exact Hx]. destruct (Nat.lt_ge_cases x (length p)); [lia|]. rewrite nth_overflow in Hx by auto. discriminate. }
  exists f. split; [|split].
  - intros scores prediction _ _. apply HC.
  - intros scores r _. unfold applySparse. destruct (HC scores) as (_ & _ & E). rewrite E. reflexivity.
  - intros scores. apply HC.
Qed.

(** ** Threads *)

Lemma threads_available :
  forall cores preferred, 1 <= cores ->
  1 <= getNumAvailableThreads true cores preferred /\ getNumAvailableThreads true cores preferred <= cores /\
  (0 < preferred -> getNumAvailableThreads true cores preferred <= preferred) /\
  forall thread, thread < getNumAvailableThreads true cores preferred -> getThreadIndex true thread < getNumAvailableThreads true cores preferred.
Proof.
  intros cores preferred H. unfold getNumAvailableThreads, getThreadIndex. destruct (Nat.ltb_spec 0 preferred); repeat split; intros; lia.
Qed.

Lemma threads_unavailable :
  forall (V : Type) (add : V -> V -> V) (zero : V) (junk : fval) (m : featureMatrix) (l : ruleList (rule V))
    (numLabels maxRules cores preferred : nat) apply applySparse (memory : list (list bool)) (realMemory : list (list V)) (u : nat),
    0 < fmRows m -> length realMemory = getNumAvailableThreads false cores preferred ->
    let order := map (fun i => (i, getThreadIndex false 0)) (seq 0 (fmRows m)) in
    predictBinary add zero junk (Some apply) m l numLabels maxRules order realMemory memory = None /\
    predictBinarySparse add zero junk (Some applySparse) m l maxRules order realMemory u = None.
Proof.
  intros V add zero junk m l numLabels maxRules cores preferred apply applySparse memory realMemory u HR HL. cbv zeta.
  destruct (fmRows m) as [|k] eqn:Em; [lia|]. cbn [seq map]. unfold getThreadIndex. change (getNumAvailableThreads false cores preferred) with 1 in HL.
  destruct realMemory as [|r [|r2 realMemory]]; try discriminate. unfold predictBinarySparse. rewrite Em. split; reflexivity.
Qed.

Lemma multi_threaded :
  forall (V : Type) (add : V -> V -> V) (zero : V) (junk : fval) (m : featureMatrix) (l : ruleList (rule V))
    (numLabels maxRules cores preferred : nat) (row : nat -> list fval) (scores : nat -> list V) (f : list V -> list bool)
    (apply : list V -> list bool -> option (list bool)) (applySparse : list V -> list nat -> option (list nat))
    (assignment : list (nat * nat)) (realMemory : list (list V)) (memory : list (list bool)) (u : nat),
    1 <= cores -> rlNumUsed l <= rlGetNumRules l -> (N.of_nat (rlGetNumRules l) < 2 ^ 32)%N ->
    (forall i, i < fmRows m -> example_row m i (row i) /\
       score_of add (fun r => coversDense (row i) (fst r))
         (expected_order (rlDefault l) (rlRules l) (rlPrecedence l) (limitRules maxRules (rlGetNumUsed l)))
         (repeat zero numLabels) = Some (scores i)) ->
    Permutation (map fst assignment) (seq 0 (fmRows m)) ->
    Forall (fun thread => thread < getNumAvailableThreads true cores preferred) (map snd assignment) ->
    length realMemory = getNumAvailableThreads true cores preferred -> Forall (fun r => length r = numLabels) realMemory ->
    length memory = fmRows m -> Forall (fun r => length r = numLabels) memory ->
    let order := map (fun '(i, thread) => (i, getThreadIndex true thread)) assignment in
    (writes_labels numLabels f apply ->
       predictBinary add zero junk (Some apply) m l numLabels maxRules order realMemory memory =
         Some (map (fun i => f (scores i)) (seq 0 (fmRows m)))) /\
    (appends_labels numLabels f applySparse ->
       (N.of_nat (length (concat (map (fun i => relevant_labels (f (scores i))) (seq 0 (fmRows m))))) < 2 ^ 32)%N ->
       exists indices indptr, predictBinarySparse add zero junk (Some applySparse) m l maxRules order realMemory u = Some (indices, indptr) /\
         length indptr = fmRows m + 1 /\ forall i, i < fmRows m -> csrRow indices indptr i = Some (relevant_labels (f (scores i)))).
Proof.
  intros V add zero junk m l numLabels maxRules cores preferred row scores f apply applySparse assignment realMemory memory u
    HC HU H32 HS HP HT LR FR LM FM order.
  assert (E : order = assignment).
  { unfold order. rewrite <- (map_id assignment) at 2. apply map_ext. intros (i, t). reflexivity. }
  rewrite E. eapply binary_batch; eauto. rewrite LR. exact HT.
Qed.

Lemma single_threaded_refuted :
  exists (m : featureMatrix) (l : ruleList (rule Z)) (apply : list Z -> list bool -> option (list bool))
      (memory : list (list bool)) (realMemory : list (list Z)) cores preferred,
    let predict := fun multiThreadingSupport => predictBinary Z.add 0%Z NaN (Some apply) m l 1 0
      (map (fun i => (i, getThreadIndex multiThreadingSupport 0)) (seq 0 (fmRows m))) realMemory memory in
    length realMemory = getNumAvailableThreads false cores preferred /\ length realMemory = getNumAvailableThreads true cores preferred /\
    predict true = Some [[true]] /\ predict false = None.
Proof.
  exists (DenseMatrix [[Fin 1]]), (mkRuleList (Some (EmptyBody, CompleteHead [2%Z])) [] 0 true), (applyOutputWise (fun _ => Z.ltb 0)),
    [[false]], [[7%Z]], 4, 1. repeat split.
Qed.
