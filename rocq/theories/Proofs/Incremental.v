(** Proofs about the predictions that are obtained from Python. *)
From Coq Require Import List Bool Arith ZArith Lia.
From Verif Require Import Lib.Arr Model.Estimators Model.Incremental Proofs.Estimators Spec.Estimators Spec.Incremental.
Import ListNotations.

Section Incremental.
Context {R A P : Type} (step : A -> R -> A) (init : A) (out : A -> P) (rules : list R) (maxRules : nat).

Let total := numRules (length rules) maxRules.
Let accOf (c : nat) : A := fold_left step (firstn c rules) init.
Let W (native : bool) (k : kind) (c : nat) (mem : option P) (res : list (result P)) : world R A P :=
  World [Some rules] (Some 0) (Some (if native then Native k 0 c total (accOf c) else NonNative k 0 total c)) mem res.

Lemma total_le : total <= length rules.
Proof. unfold total, numRules. destruct (Nat.ltb_spec 0 maxRules); lia. Qed.

Lemma predict_total s : 1 <= s -> predict step init out rules (Nat.min total s) = out (accOf (Nat.min total s)).
Proof.
  intros H. unfold predict, accOf. f_equal. f_equal. unfold numRules at 1.
  destruct (Nat.ltb_spec 0 (Nat.min total s)) as [G|G].
  - rewrite Nat.min_r; auto. pose proof total_le. lia.
  - assert (total = 0) by lia. assert (L : length rules = 0).
    { unfold total, numRules in *. destruct (Nat.ltb_spec 0 maxRules); lia. }
    apply length_zero_iff_nil in L. rewrite L, !firstn_nil. reflexivity.
Qed.

Lemma predict_restrict s : 1 <= s -> predict step init out rules (restrict maxRules s) = out (accOf (Nat.min total s)).
Proof.
  intros H. unfold predict, accOf. f_equal. f_equal. unfold restrict, total, numRules.
  destruct (Nat.eqb_spec maxRules 0) as [->|N].
  - replace (0 <? s) with true by (symmetry; apply Nat.ltb_lt; lia). reflexivity.
  - replace (0 <? maxRules) with true by (symmetry; apply Nat.ltb_lt; lia).
    replace (0 <? Nat.min maxRules s) with true by (symmetry; apply Nat.ltb_lt; lia).
    f_equal. lia.
Qed.

Lemma fold_skip c n : c + n <= length rules -> fold_left step (firstn n (skipn c rules)) (accOf c) = accOf (c + n).
Proof.
  intros H. unfold accOf. rewrite <- fold_left_app. f_equal.
  rewrite <- (firstn_skipn c rules) at 3. rewrite firstn_app, firstn_firstn, firstn_length.
  replace (Nat.min (c + n) c) with c by lia. f_equal. f_equal. lia.
Qed.

Lemma apply_one native k c s mem res : c <= total -> 1 <= s ->
  exists mem',
  applyNext step init out s (W native k c mem res)
  = Some (W native k (Nat.min total (c + s)) mem'
       (res ++ [if native && returnsView k then View else Owned (out (accOf (Nat.min total (c + s))))])) /\
  (native = true -> mem' = Some (out (accOf (Nat.min total (c + s))))).
Proof.
  intros Hc Hs. pose proof total_le as T. unfold applyNext, W. cbn [wpredictor]. destruct native; cbn [andb].
  - replace (s =? 0) with false by (symmetry; apply Nat.eqb_neq; lia). rewrite andb_false_r.
    cbn [wmodels westimator wresults]. cbv zeta.
    replace (c + Nat.min s (total - c)) with (Nat.min total (c + s)) by lia.
    assert (E : (if Nat.min total (c + s) =? c then Some (accOf c)
                 else let* r := rulesOf [Some rules] 0 in
                      Some (fold_left step (firstn (Nat.min total (c + s) - c) (skipn c r)) (accOf c)))
                = Some (accOf (Nat.min total (c + s)))).
    { destruct (Nat.eqb_spec (Nat.min total (c + s)) c) as [->|N]; auto.
      cbn [rulesOf aget nth_error]. rewrite fold_skip by lia. f_equal. f_equal. lia. }
    rewrite E. eexists. split; [reflexivity|]. auto.
  - replace (s =? 0) with false by (symmetry; apply Nat.eqb_neq; lia).
    cbn [wmodels westimator wresults wmemory rulesOf aget nth_error]. cbv zeta.
    rewrite predict_total by lia. eexists. split; [reflexivity|]. discriminate.
Qed.

Lemma apply_all native k steps : Forall (fun s => 1 <= s) steps -> forall c mem res, c <= total ->
  exists mem',
  run step init out (map ApplyNext steps) (W native k c mem res)
  = Some (W native k (Nat.min total (c + list_sum steps)) mem'
       (res ++ map (fun t => if native && returnsView k then View else Owned (out (accOf (Nat.min total (c + t))))) (totals steps))) /\
  (native = true -> steps <> [] -> mem' = Some (out (accOf (Nat.min total (c + list_sum steps))))).
Proof.
  unfold run. induction 1 as [|s steps Hs F IH]; intros c mem res Hc.
  - simpl. exists mem. rewrite Nat.add_0_r, app_nil_r, Nat.min_r by lia. split; auto. intros _ H. now destruct H.
  - cbn [map forL execute]. destruct (apply_one native k c s mem res Hc Hs) as (mem1 & E1 & M1). rewrite E1.
    destruct (IH (Nat.min total (c + s)) mem1
                (res ++ [if native && returnsView k then View else Owned (out (accOf (Nat.min total (c + s))))]) ltac:(lia))
      as (mem2 & E2 & M2). exists mem2. rewrite E2. split.
    + f_equal. change (list_sum (s :: steps)) with (s + list_sum steps).
      replace (Nat.min total (Nat.min total (c + s) + list_sum steps)) with (Nat.min total (c + (s + list_sum steps))) by lia.
      f_equal. cbn [totals map]. rewrite <- app_assoc. f_equal. cbn [app]. f_equal. rewrite map_map. apply map_ext. intros t.
      replace (Nat.min total (Nat.min total (c + s) + t)) with (Nat.min total (c + (s + t))) by lia. reflexivity.
    + intros Hn _. change (list_sum (s :: steps)) with (s + list_sum steps). destruct steps as [|s' steps].
      * apply (f_equal (option_map wmemory)) in E2. cbn [map forL option_map W wmemory] in E2. injection E2 as E2. rewrite <- E2, (M1 Hn).
        change (list_sum []) with 0. now rewrite Nat.add_0_r.
      * rewrite M2 by (auto; discriminate).
        replace (Nat.min total (Nat.min total (c + s) + list_sum (s' :: steps))) with (Nat.min total (c + (s + list_sum (s' :: steps)))) by lia.
        reflexivity.
Qed.

Lemma totals_last steps : steps <> [] -> exists l, totals steps = l ++ [list_sum steps].
Proof.
  induction steps as [|s steps IH]; intros H; [now destruct H|]. destruct steps as [|s' steps].
  - exists []. simpl. now rewrite Nat.add_0_r.
  - destruct IH as [l E]; [discriminate|]. exists (s :: map (fun t => s + t) l). cbn [totals]. cbn [totals] in E. rewrite E.
    rewrite map_app. reflexivity.
Qed.

Lemma totals_pos steps : Forall (fun s => 1 <= s) steps -> Forall (fun t => 1 <= t) (totals steps).
Proof.
  induction 1 as [|s steps Hs F IH]; simpl; constructor; auto. apply Forall_map. eapply Forall_impl; [|exact IH]. simpl. lia.
Qed.

Lemma created_W native k empty : createIncremental init empty native k rules maxRules = W native k 0 (Some empty) [].
Proof. reflexivity. Qed.

Lemma latest_here native k empty steps : steps <> [] -> Forall (fun s => 1 <= s) steps ->
  exists w p arrays array,
  run step init out (map ApplyNext steps) (createIncremental init empty native k rules maxRules) = Some w /\
  wresults w = arrays ++ [array] /\ length arrays + 1 = length steps /\
  readResult w array = Some (predict step init out rules (restrict maxRules (list_sum steps))) /\
  wpredictor w = Some p /\ getNumNext p = numRules (length rules) maxRules - list_sum steps.
Proof.
  intros N F. rewrite created_W.
  destruct (apply_all native k steps F 0 (Some empty) [] ltac:(lia)) as (mem & E & M). rewrite E. clear E.
  destruct (totals_last steps N) as [l El]. cbn [app]. rewrite El, map_app. cbn [map].
  do 4 eexists. split; [reflexivity|]. split; [cbn [wresults W]; reflexivity|]. split.
  { rewrite map_length. assert (L : length (totals steps) = length steps).
    { clear. induction steps; simpl; auto. now rewrite map_length, IHsteps. }
    rewrite El, app_length in L. simpl in L. lia. }
  assert (S1 : 1 <= list_sum steps).
  { destruct steps as [|s steps]; [now destruct N|]. inversion F; subst. simpl. lia. }
  split; [|split].
  - rewrite predict_restrict by auto. rewrite Nat.add_0_l in *. destruct (native && returnsView k) eqn:V.
    + apply andb_prop in V. destruct V as [V _]. cbn [readResult W wmemory]. now apply M.
    + reflexivity.
  - cbn [W wpredictor]. reflexivity.
  - unfold total. destruct native; cbn [getNumNext]; lia.
Qed.

Lemma cleanup_results rest : Forall cleanup rest -> forall w : world R A P,
  exists w', run step init out rest w = Some w' /\ wresults w' = wresults w.
Proof.
  unfold run. induction 1 as [|s rest C F IH]; intros w; simpl; eauto.
  assert (E : exists w1, execute step init out s w = Some w1 /\ wresults w1 = wresults w).
  { destruct s as [n|r| |]; simpl in C |- *; [destruct C| | |]; try (eexists; split; reflexivity).
    destruct (westimator w); eexists; split; reflexivity. }
  destruct E as (w1 & E & Er). rewrite E. destruct (IH w1) as (w2 & E2 & Er2). exists w2. split; auto. congruence.
Qed.

Lemma forL_app {X S} (l1 l2 : list X) (body : X -> S -> option S) st :
  forL (l1 ++ l2) body st = (let* st' := forL l1 body st in forL l2 body st').
Proof. revert st. induction l1 as [|a l1 IH]; intros st; simpl; auto. destruct (body a st); auto. Qed.

Lemma owned_here native k empty steps rest : Forall (fun s => 1 <= s) steps -> Forall cleanup rest -> ownsMemory native k ->
  exists w,
  run step init out (map ApplyNext steps ++ rest) (createIncremental init empty native k rules maxRules) = Some w /\
  map (readResult w) (wresults w) = map (fun t => Some (predict step init out rules (restrict maxRules t))) (totals steps).
Proof.
  intros F C O. rewrite created_W. unfold run. rewrite forL_app.
  destruct (apply_all native k steps F 0 (Some empty) [] ltac:(lia)) as (mem & E & _). unfold run in E. rewrite E.
  match goal with |- context [forL rest _ ?w] => destruct (cleanup_results rest C w) as (w' & E' & Er) end. unfold run in E'.
  exists w'. split; auto. rewrite Er. cbn [W wresults app].
  replace (native && returnsView k) with false by (destruct O as [-> | ->]; [|destruct native]; reflexivity).
  rewrite map_map. apply map_ext_in. intros t Ht. cbn [readResult]. rewrite Nat.add_0_l. f_equal. symmetry. apply predict_restrict.
  pose proof (totals_pos steps F) as G. rewrite Forall_forall in G. now apply G.
Qed.

End Incremental.

Lemma latest :
  forall {R A P : Type} (step : A -> R -> A) (init : A) (out : A -> P) (empty : P) native k rules maxRules steps,
  steps <> [] -> Forall (fun s => 1 <= s) steps ->
  exists w p arrays array,
  run step init out (map ApplyNext steps) (createIncremental init empty native k rules maxRules) = Some w /\
  wresults w = arrays ++ [array] /\ length arrays + 1 = length steps /\
  readResult w array = Some (predict step init out rules (restrict maxRules (list_sum steps))) /\
  wpredictor w = Some p /\ getNumNext p = numRules (length rules) maxRules - list_sum steps.
Proof. intros. now apply latest_here. Qed.

Lemma owned :
  forall {R A P : Type} (step : A -> R -> A) (init : A) (out : A -> P) (empty : P) native k rules maxRules steps rest,
  Forall (fun s => 1 <= s) steps -> Forall cleanup rest -> ownsMemory native k ->
  exists w,
  run step init out (map ApplyNext steps ++ rest) (createIncremental init empty native k rules maxRules) = Some w /\
  map (readResult w) (wresults w) = map (fun t => Some (predict step init out rules (restrict maxRules t))) (totals steps).
Proof. intros. now apply owned_here. Qed.

Lemma overwritten_refuted :
  exists (k : kind) (rules : list nat) w array,
  run Nat.add 0 (fun s => s) [ApplyNext 1; ApplyNext 1] (createIncremental 0 0 true k rules 0) = Some w /\
  nth_error (wresults w) 0 = Some array /\ readResult w array <> Some (predict Nat.add 0 (fun s => s) rules 1).
Proof.
  exists DenseBinary, [1; 1]. do 2 eexists. split; [vm_compute; reflexivity|]. split; [reflexivity|]. vm_compute. discriminate.
Qed.

Lemma freed_refuted :
  exists (k : kind) (rules : list nat) w array,
  run Nat.add 0 (fun s => s) [ApplyNext 1; DeletePredictor] (createIncremental 0 0 true k rules 0) = Some w /\
  nth_error (wresults w) 0 = Some array /\ readResult w array = None.
Proof.
  exists Scores, [1; 1]. do 2 eexists. split; [vm_compute; reflexivity|]. split; reflexivity.
Qed.

Lemma deleted_refuted :
  exists (k : kind) (rules rules' : list nat), forall native,
  run Nat.add 0 (fun s => s) [DeleteEstimator; ApplyNext 1] (createIncremental 0 0 native k rules 0) = None /\
  run Nat.add 0 (fun s => s) [Fit rules'; ApplyNext 1] (createIncremental 0 0 native k rules 0) = None.
Proof. exists DenseBinary, [1; 1], [1]. intros []; split; reflexivity. Qed.

(** ** Predictions that are not supported *)

Lemma call_outcome :
  forall m supported limit, m <> PredictProbaIncrementally \/ supported = true -> 3 <= limit ->
  callMethod m supported limit = (if supported then Predicted else NotSupported, 1).
Proof.
  intros m s limit H L. do 3 (destruct limit as [|limit]; [lia|]). destruct m; destruct s; try reflexivity. destruct H; congruence.
Qed.

Lemma proba_recursion limit : 
  predictProbaIncrementally false limit = (RecursionError, limit / 2) /\
  predictProbaIncrementally false (S limit) = (RecursionError, S limit / 2).
Proof.
  induction limit as [|limit [IH1 IH2]]; [split; reflexivity|]. split; auto.
  cbn [predictProbaIncrementally _predictProbaIncrementally]. 
  change (predictProbaIncrementally false limit) with (predictProbaIncrementally false limit) in *.
  rewrite IH1. f_equal. replace (S (S limit)) with (limit + 1 * 2) by lia. rewrite Nat.div_add by lia. reflexivity.
Qed.

Lemma recursion_refuted :
  exists m supported, forall limit, callMethod m supported limit = (RecursionError, limit / 2).
Proof. exists PredictProbaIncrementally, false. intros limit. apply proba_recursion. Qed.

(** ** Evaluation *)

Lemma same_values :
  forall t p x sparseFeatureValue training query, validInput x -> (sparseFeatureValue = Some 0%Z \/ ~ storesZero (Some 0%Z) x) ->
  (t <> PROBABILITIES \/ sparseFeatureValue = Some 0%Z) ->
  trainingMatrix p x sparseFeatureValue = Some (Created training) ->
  evaluationMatrix t p x sparseFeatureValue = Some (Created query) ->
  forall i j v, inShape x i j -> (elementIs training i j v <-> elementIs query i j v).
Proof.
  intros t p x sv m1 m2 V Z T E1 E2 i j v SH. unfold evaluationMatrix in E2.
  replace (match t with PROBABILITIES => Some 0%Z | _ => sv end) with sv in E2 by (destruct T as [T| ->]; destruct t; congruence).
  rewrite (feature_values _ _ _ _ _ V Z E1 i j v SH), (feature_values _ _ _ _ _ V Z E2 i j v SH). reflexivity.
Qed.

Lemma probabilities_refuted :
  exists x sparseFeatureValue i j v w training query, validInput x /\ ~ storesZero (Some 0%Z) x /\ usable x /\
  (forall p, trainingMatrix p x sparseFeatureValue = Some (Created (training p)) /\
             evaluationMatrix PROBABILITIES p x sparseFeatureValue = Some (Created (query p)) /\
             elementIs (training p) i j v /\ elementIs (query p) i j w) /\
  v <> w.
Proof.
  set (s := SMatrix CSR 2 2 [((0, 0), Some 5%Z)]).
  exists (SparseInput s), (Some 7%Z), 1, 1, (Some 7%Z), (Some 0%Z),
    (fun p => match p with ForceSparse => SparseMatrix 2 2 (sstored s) (Some 7%Z)
              | _ => DenseMatrix [[Some 5%Z; Some 7%Z]; [Some 7%Z; Some 7%Z]] end),
    (fun p => match p with ForceSparse => SparseMatrix 2 2 (sstored s) (Some 0%Z)
              | _ => DenseMatrix [[Some 5%Z; Some 0%Z]; [Some 0%Z; Some 0%Z]] end).
  split; [split; repeat constructor; simpl; tauto|].
  split; [intros [ij [H|[]]]; discriminate|]. split; [simpl; intuition discriminate|]. split; [|discriminate].
  intros p. split; [destruct p; vm_compute; reflexivity|]. split; [destruct p; vm_compute; reflexivity|].
  split; destruct p; simpl; eauto; (split; [lia|right; split; [intuition congruence|reflexivity]]).
Qed.

Lemma evaluateLoop_spec available stepSize : 1 <= stepSize -> forall fuel next considered,
  1 <= next -> considered <= available -> available - considered < fuel ->
  exists sizes, evaluateLoop fuel stepSize available next (Nat.min available (considered + next)) considered available
                = map (fun s => (s, s)) sizes /\
    (forall k s, nth_error sizes k = Some s -> s = Nat.min (considered + next + k * stepSize) available) /\
    (considered < available -> last sizes 0 = available) /\
    (forall k s s', nth_error sizes k = Some s -> nth_error sizes (S k) = Some s' -> s < s') /\
    (forall s, nth_error sizes 0 = Some s -> considered < s).
Proof.
  intros Hs. induction fuel as [|fuel IH]; intros next c Hn Hc Hf; [lia|]. cbn [evaluateLoop].
  destruct (Nat.ltb_spec 0 (available - c)) as [L|L].
  - cbv zeta. set (c' := Nat.min available (c + next)).
    replace (Nat.min (c' + stepSize) available) with (Nat.min available (c' + stepSize)) by lia.
    destruct (IH stepSize c' Hs ltac:(lia) ltac:(lia)) as (sizes & E & G1 & G2 & G3 & G4). exists (c' :: sizes). rewrite E.
    split; [reflexivity|]. split; [|split; [|split]].
    + intros [|k] s H; simpl in H.
      * injection H as <-. unfold c'. lia.
      * apply G1 in H. subst s. unfold c'. simpl. lia.
    + intros _. destruct (Nat.ltb_spec c' available) as [Lc|Lc].
      * specialize (G2 Lc). destruct sizes; [simpl in G2; lia|]. exact G2.
      * assert (Ec : c' = available) by (unfold c' in *; lia). destruct sizes as [|s sizes]; [exact Ec|].
        pose proof (G4 s eq_refl). pose proof (G1 0 s eq_refl). lia.
    + intros [|k] s s' H1 H2; simpl in H1.
      * injection H1 as <-. now apply G4.
      * simpl in H2. eapply G3; eauto.
    + intros s H. simpl in H. injection H as <-. unfold c'. lia.
  - exists []. split; [reflexivity|]. split; [intros [|k] s H; discriminate|]. split; [lia|].
    split; [intros [|k] s s' H; discriminate|intros s H; discriminate].
Qed.

Lemma evaluated_sizes :
  forall minSize maxSize stepSize available, validOptions minSize maxSize stepSize = true -> (maxSize = 0 \/ available <= maxSize) ->
  exists sizes, evaluateIncrementally minSize maxSize stepSize available = map (fun s => (s, s)) sizes /\
  (forall k s, nth_error sizes k = Some s -> s = Nat.min (firstSize minSize stepSize + k * stepSize) available) /\
  (forall k s s', nth_error sizes k = Some s -> nth_error sizes (S k) = Some s' -> s < s') /\
  (0 < available -> last sizes 0 = available).
Proof.
  intros mn mx st av V M. unfold validOptions in V. apply andb_prop in V. destruct V as [_ V]. apply Nat.leb_le in V.
  unfold evaluateIncrementally.
  replace (if 0 <? mx then Nat.min mx av else av) with av by (destruct (Nat.ltb_spec 0 mx); lia).
  replace (if 0 <? mn then mn else st) with (firstSize mn st)
    by (unfold firstSize; destruct (Nat.eqb_spec mn 0); destruct (Nat.ltb_spec 0 mn); lia).
  assert (F : 1 <= firstSize mn st) by (unfold firstSize; destruct (Nat.eqb_spec mn 0); lia).
  cbv zeta. rewrite Nat.min_comm.
  destruct (evaluateLoop_spec av st V (S av) (firstSize mn st) 0 F ltac:(lia) ltac:(lia)) as (sizes & E & G1 & G2 & G3 & _).
  exists sizes. split; [exact E|]. split; [exact G1|]. split; [exact G3|exact G2].
Qed.

Lemma maximum_refuted :
  exists minSize maxSize stepSize available, validOptions minSize maxSize stepSize = true /\
  exists reported actual, In (reported, actual) (evaluateIncrementally minSize maxSize stepSize available) /\
  maxSize <> 0 /\ maxSize < actual /\ reported <> actual.
Proof.
  exists 2, 10, 2, 12. split; [reflexivity|]. exists 10, 12. split; [vm_compute; tauto|]. lia.
Qed.
