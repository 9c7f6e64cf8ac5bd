(** Proofs about the selection of statistics, rule evaluation and default rule. *)
From Coq Require Import Arith Bool Lia.
From Verif Require Import Model.BoostConfig Spec.BoostConfig.

Local Arguments Nat.ltb : simpl never.

Lemma train_cases : forall p c m t,
  train p c m = Some t ->
  exists q, createStatisticsProvider p c m = Some q /\ trStorage t = pStorage q /\
    trDefaultRule t = (if isDefaultRuleUsed c m then Some (pInitial q) else None) /\
    trRules t = pRegular q /\ trPruning t = pPruning q.
Proof.
  intros p c m t H. unfold train in H. destruct (createStatisticsProvider p c m) as [q|]; [|discriminate].
  injection H as <-. exists q. repeat split; reflexivity.
Qed.

(* The statistics are only sparse in a classification problem, if the squared hinge loss is used, sparse statistics are
   preferred and the heads permit it. *)
Lemma sparse_storage : forall p c m q,
  createStatisticsProvider p c m = Some q ->
  (pStorage q = SparseDecomposable <->
   p = Classification /\ cfgLoss c = DecomposableSquaredHinge /\ preferSparseStatistics c m = true /\
   cfgHead c <> HeadComplete /\ (cfgHead c = HeadAuto -> 1 < omNumOutputs m)).
Proof.
  intros p c m q H. unfold createStatisticsProvider in H. destruct p.
  - injection H as <-. unfold lossClassification. destruct (preferSparseStatistics c m).
    + destruct c as [l h f d b]. cbn [cfgLoss cfgHead cfgBinning].
      destruct l, h; cbn; try (split; [discriminate|intros (_ & D & _); discriminate D]);
        try (split; [intros _; repeat split; discriminate|reflexivity]).
      * destruct (Nat.ltb 1 (omNumOutputs m)) eqn:E; cbn.
        -- apply Nat.ltb_lt in E. split; [intros _; repeat split; try discriminate; intros _; exact E|reflexivity].
        -- apply Nat.ltb_ge in E. split; [discriminate|]. intros (_ & _ & _ & _ & D). specialize (D eq_refl). lia.
      * split; [discriminate|]. intros (_ & _ & _ & D & _). exfalso. apply D. reflexivity.
    + split; [|intros (_ & _ & D & _); discriminate D].
      destruct c as [l h f d b]. cbn [cfgLoss cfgHead cfgBinning]. destruct l, h; cbn; discriminate.
  - split; [|intros (D & _); discriminate D]. unfold lossRegression in H.
    destruct c as [l h f d b]; cbn [cfgLoss cfgHead cfgBinning] in H; destruct l; try discriminate H; injection H as <-;
      destruct h; cbn; discriminate.
Qed.

Lemma train_sparse : forall p c m t,
  train p c m = Some t ->
  (stored_sparsely t <->
   p = Classification /\ cfgLoss c = DecomposableSquaredHinge /\ preferSparseStatistics c m = true /\
   cfgHead c <> HeadComplete /\ (cfgHead c = HeadAuto -> 1 < omNumOutputs m)).
Proof.
  intros p c m t H. destruct (train_cases _ _ _ _ H) as (q & E & Es & _). unfold stored_sparsely. rewrite Es.
  exact (sparse_storage _ _ _ _ E).
Qed.

(** ** C112 *)

Lemma default_rule_auto :
  forall p c m t t',
  cfgDefaultRule c = DefaultRuleAuto -> train p c m = Some t ->
  train p (with_default_rule c (DefaultRule false)) m = Some t' ->
  (stored_sparsely t' -> trDefaultRule t = None /\ stored_sparsely t) /\
  (stored_sparsely t -> trDefaultRule t = None) /\
  (trDefaultRule t = None ->
   stored_sparsely t' \/
   isDecomposable (cfgLoss c) = false /\
   (cfgFormat c = FormatSparse \/
    cfgFormat c = FormatAuto /\ omIsSparse m = true /\ 120 < omNumOutputs m /\
    cfgHead c <> HeadAuto /\ cfgHead c <> HeadComplete) \/
   cfgLoss c = DecomposableSquaredHinge /\ cfgFormat c = FormatSparse /\
   (cfgHead c = HeadComplete \/ cfgHead c = HeadAuto /\ omNumOutputs m <= 1)).
Proof.
  intros p c m t t' Ed H H'. pose proof (train_sparse _ _ _ _ H) as S1. pose proof (train_sparse _ _ _ _ H') as S2.
  destruct (train_cases _ _ _ _ H) as (q & _ & _ & Eq & _).
  assert (U : trDefaultRule t = None <-> isDefaultRuleUsed c m = false).
  { rewrite Eq. destruct (isDefaultRuleUsed c m); split; intros; congruence. }
  split; [|split].
  - intros X. apply S2 in X. destruct X as (E1 & E2 & E3 & E4 & E5).
    assert (N : isDefaultRuleUsed c m = false /\ preferSparseStatistics c m = true).
    { destruct c as [l h f d b]. cbn in *. subst. unfold preferSparseStatistics, isDefaultRuleUsed in *. cbn in *.
      destruct f; cbn in *; [|discriminate|split; reflexivity].
      unfold shouldSparseStatisticsBePreferred in *. cbn in *.
      destruct (omIsSparse m); [|discriminate E3]. cbn in *. destruct (Nat.ltb 120 (omNumOutputs m)); [|discriminate E3].
      cbn in *. destruct (isPartial h DecomposableSquaredHinge); [|discriminate E3]. split; reflexivity. }
    destruct N as (N1 & N2). split; [apply U, N1|]. apply S1. repeat split; assumption.
  - intros X. apply S1 in X. destruct X as (E1 & E2 & E3 & E4 & E5). apply U.
    destruct c as [l h f d b]. cbn in *. subst. unfold preferSparseStatistics, isDefaultRuleUsed in *. cbn in *.
    destruct f; cbn in *; [|discriminate|reflexivity].
    unfold shouldSparseStatisticsBePreferred in *. cbn in *.
    destruct (omIsSparse m); [|discriminate E3]. cbn in *. destruct (Nat.ltb 120 (omNumOutputs m)); [|discriminate E3].
    cbn in *. destruct (isPartial h DecomposableSquaredHinge); [reflexivity|discriminate E3].
  - intros X. apply U in X. clear Eq U q S1.
    destruct c as [l h f d b]. cbn in Ed. subst d. cbn in *. unfold isDefaultRuleUsed in X. cbn in X.
    destruct f; [|discriminate X|].
    + apply orb_false_iff in X. destruct X as (X1 & X2). apply negb_false_iff in X1, X2.
      unfold shouldSparseStatisticsBePreferred in X2. apply andb_prop in X2. destruct X2 as (X2 & X5).
      apply andb_prop in X2. destruct X2 as (X2 & _). apply andb_prop in X2. destruct X2 as (X3 & X4).
      apply Nat.ltb_lt in X4.
      destruct l; try discriminate X1.
      * left. apply S2. assert (p = Classification) as -> by (destruct p; [reflexivity|discriminate H]).
        split; [reflexivity|]. split; [reflexivity|]. split.
        { unfold preferSparseStatistics, shouldSparseStatisticsBePreferred. cbn. rewrite X3.
          apply Nat.ltb_lt in X4. rewrite X4, X5. reflexivity. }
        split; [intros ->; discriminate X5|]. intros _. lia.
      * right. left. split; [reflexivity|]. right. repeat split; try assumption; intros ->; discriminate X5.
      * right. left. split; [reflexivity|]. right. repeat split; try assumption; intros ->; discriminate X5.
      * right. left. split; [reflexivity|]. right. repeat split; try assumption; intros ->; discriminate X5.
    + apply negb_false_iff in X. destruct l; try discriminate X; try (right; left; split; [reflexivity|left; reflexivity]).
      assert (p = Classification) as -> by (destruct p; [reflexivity|discriminate H]).
      destruct (le_lt_dec (omNumOutputs m) 1) as [L|L];
        destruct h; try (right; right; split; [reflexivity|]; split; [reflexivity|]; first [left; reflexivity|right; split; [reflexivity|exact L]]);
        left; apply S2; repeat split; try discriminate; intros _; exact L.
Qed.

Lemma default_rule_dropped_non_decomposable_refuted :
  exists p c m t t',
    cfgDefaultRule c = DefaultRuleAuto /\ cfgFormat c = FormatAuto /\ train p c m = Some t /\
    train p (with_default_rule c (DefaultRule false)) m = Some t' /\
    train p (with_default_rule c (DefaultRule true)) m <> None /\
    trDefaultRule t = None /\ ~ stored_sparsely t /\ ~ stored_sparsely t'.
Proof.
  exists Classification, (mkConfig NonDecomposableLogistic HeadSingle FormatAuto DefaultRuleAuto BinningAuto),
    (mkOutputMatrix true 121).
  eexists. eexists. split; [reflexivity|]. split; [reflexivity|]. split; [vm_compute; reflexivity|]. split; [vm_compute; reflexivity|].
  split; [discriminate|]. split; [reflexivity|]. split; discriminate.
Qed.

Lemma default_rule_dropped_complete_refuted :
  exists p c m t t',
    cfgDefaultRule c = DefaultRuleAuto /\ isDecomposable (cfgLoss c) = true /\ train p c m = Some t /\
    train p (with_default_rule c (DefaultRule false)) m = Some t' /\
    trDefaultRule t = None /\ ~ stored_sparsely t /\ ~ stored_sparsely t'.
Proof.
  exists Classification, (mkConfig DecomposableSquaredHinge HeadComplete FormatSparse DefaultRuleAuto BinningAuto),
    (mkOutputMatrix true 5).
  eexists. eexists. split; [reflexivity|]. split; [reflexivity|]. split; [vm_compute; reflexivity|]. split; [vm_compute; reflexivity|].
  split; [reflexivity|]. split; discriminate.
Qed.

(** ** C113 *)

Lemma initial_complete : forall p c m q,
  createStatisticsProvider p c m = Some q -> pStorage q <> SparseDecomposable ->
  exists b, pInitial q = DecomposableComplete b \/ pInitial q = NonDecomposableComplete b.
Proof.
  intros p c m q H N. unfold createStatisticsProvider in H. destruct c as [l h f d b]. destruct p.
  - injection H as <-. unfold lossClassification in *. cbn [cfgLoss cfgHead cfgBinning] in *.
    destruct (preferSparseStatistics _ m); destruct l, h; cbn in *; try (exfalso; apply N; reflexivity);
      try destruct (Nat.ltb 1 (omNumOutputs m)); cbn in *; try (exfalso; apply N; reflexivity);
      eexists; first [left; reflexivity|right; reflexivity].
  - unfold lossRegression in H. cbn [cfgLoss cfgHead cfgBinning] in *.
    destruct l; try discriminate H; injection H as <-; destruct h; cbn in *;
      eexists; first [left; reflexivity|right; reflexivity].
Qed.

Lemma default_rule_complete :
  forall p c m t e k,
  train p c m = Some t -> trDefaultRule t = Some e -> may_predict e (omNumOutputs m) k ->
  k = omNumOutputs m \/
  cfgDefaultRule c = DefaultRule true /\ cfgFormat c = FormatSparse /\ cfgLoss c = DecomposableSquaredHinge /\
  cfgHead c <> HeadComplete /\ stored_sparsely t.
Proof.
  intros p c m t e k H E M. pose proof (train_sparse _ _ _ _ H) as S1.
  destruct (train_cases _ _ _ _ H) as (q & Hq & Es & Ed & _).
  assert (D : stored_sparsely t \/ ~ stored_sparsely t).
  { unfold stored_sparsely. destruct (trStorage t); first [left; reflexivity|right; discriminate]. }
  destruct D as [D|D].
  - right. pose proof (proj1 S1 D) as (E1 & E2 & E3 & E4 & E5).
    rewrite E in Ed. destruct (isDefaultRuleUsed c m) eqn:U; [|discriminate Ed].
    assert (X : cfgDefaultRule c = DefaultRule true /\ cfgFormat c = FormatSparse).
    { unfold preferSparseStatistics in E3. destruct (cfgFormat c) eqn:F.
      - rewrite U in E3. unfold shouldSparseStatisticsBePreferred in E3. cbn [negb] in E3. rewrite andb_false_r in E3. discriminate E3.
      - discriminate E3.
      - unfold isDefaultRuleUsed in U. destruct (cfgDefaultRule c) as [|u].
        + rewrite F, E2 in U. discriminate U.
        + subst u. split; reflexivity. }
    destruct X as (X1 & X2). repeat split; assumption.
  - left. rewrite E in Ed. destruct (isDefaultRuleUsed c m); [|discriminate Ed]. injection Ed as ->.
    unfold stored_sparsely in D. rewrite Es in D.
    destruct (initial_complete _ _ _ _ Hq D) as (b & [X|X]); rewrite X in M; exact M.
Qed.

Lemma default_rule_single_output_refuted :
  exists p c m t e,
    cfgDefaultRule c = DefaultRule true /\ train p c m = Some t /\ trDefaultRule t = Some e /\
    omNumOutputs m = 5 /\ forall k, may_predict e (omNumOutputs m) k -> k = 1.
Proof.
  exists Classification, (mkConfig DecomposableSquaredHinge HeadAuto FormatSparse (DefaultRule true) BinningAuto),
    (mkOutputMatrix true 5).
  eexists. eexists. split; [reflexivity|]. split; [vm_compute; reflexivity|]. split; [reflexivity|]. split; [reflexivity|].
  intros k H. exact H.
Qed.

(** ** C114 *)

Lemma binning_as_configured :
  forall p c m t,
  train p c m = Some t ->
  (cfgBinning c = BinningNone ->
   (forall e, trDefaultRule t = Some e -> uses_bins e = false) /\ uses_bins (trRules t) = false /\ uses_bins (trPruning t) = false) /\
  (cfgBinning c = BinningEqualWidth ->
   (forall e, trDefaultRule t = Some e -> uses_bins e = true \/ e = DecomposableSingleOutput) /\
   (uses_bins (trRules t) = true /\ uses_bins (trPruning t) = true \/
    trRules t = DecomposableSingleOutput /\ trPruning t = DecomposableSingleOutput \/
    isDecomposable (cfgLoss c) = true /\ (cfgHead c = HeadAuto \/ cfgHead c = HeadComplete) /\
    trRules t = DecomposableComplete false /\ trPruning t = DecomposableComplete false)) /\
  (cfgBinning c = BinningAuto ->
   (forall e, trDefaultRule t = Some e -> uses_bins e = negb (isDecomposable (cfgLoss c)) \/ e = DecomposableSingleOutput) /\
   (uses_bins (trRules t) = negb (isDecomposable (cfgLoss c)) \/ trRules t = DecomposableSingleOutput) /\
   uses_bins (trPruning t) = uses_bins (trRules t)).
Proof.
  intros p c m t H. destruct (train_cases _ _ _ _ H) as (q & Hq & _ & Ed & Er & Ep). rewrite Er, Ep.
  assert (G : forall e, trDefaultRule t = Some e -> e = pInitial q).
  { intros e E. rewrite E in Ed. destruct (isDefaultRuleUsed c m); congruence. }
  clear Ed Er Ep H. unfold createStatisticsProvider in Hq. destruct p.
  - injection Hq as <-. revert G. unfold lossClassification. generalize (preferSparseStatistics c m) as pr.
    destruct c as [l h f d b]. cbn [cfgLoss cfgHead cfgBinning]. intros pr G.
    destruct b; (split; [|split]); intros X; try discriminate X; clear X;
      (split; [intros e E; rewrite (G e E); clear e E|]); clear G; try split;
      destruct pr, l, h; cbn; try destruct (Nat.ltb 1 (omNumOutputs m)); cbn; intuition congruence.
  - revert G. unfold lossRegression in Hq. destruct c as [l h f d b]. cbn [cfgLoss cfgHead cfgBinning] in *. intros G.
    destruct l; try discriminate Hq; injection Hq as <-;
    destruct b; (split; [|split]); intros X; try discriminate X; clear X;
      (split; [intros e E; rewrite (G e E); clear e E|]); clear G; try split;
      destruct h; cbn; intuition congruence.
Qed.

Lemma binning_ignored_refuted :
  exists p c m t e,
    cfgBinning c = BinningEqualWidth /\ train p c m = Some t /\ trDefaultRule t = Some e /\
    uses_bins e = true /\ uses_bins (trRules t) = false /\ may_predict (trRules t) (omNumOutputs m) 30.
Proof.
  exists Classification, (mkConfig DecomposableLogistic HeadComplete FormatAuto DefaultRuleAuto BinningEqualWidth),
    (mkOutputMatrix false 30).
  eexists. eexists. split; [reflexivity|]. split; [vm_compute; reflexivity|]. split; [reflexivity|].
  split; [reflexivity|]. split; reflexivity.
Qed.

(** ** C115 *)

Lemma heads_as_configured :
  forall p c m t,
  train p c m = Some t ->
  has_head_type (cfgHead c) (trRules t) /\ trPruning t = trRules t /\
  (cfgHead c = HeadAuto ->
   stored_sparsely t /\ trRules t = DecomposableSingleOutput \/
   ~ stored_sparsely t /\ forall k, may_predict (trRules t) (omNumOutputs m) k <-> k = omNumOutputs m) /\
  (stored_sparsely t -> forall e, trDefaultRule t = Some e -> e = trRules t).
Proof.
  intros p c m t H. destruct (train_cases _ _ _ _ H) as (q & Hq & Es & Ed & Er & Ep).
  unfold stored_sparsely. rewrite Es, Er, Ep.
  assert (G : forall e, trDefaultRule t = Some e -> e = pInitial q).
  { intros e E. rewrite E in Ed. destruct (isDefaultRuleUsed c m); congruence. }
  clear Es Ed Er Ep H. unfold createStatisticsProvider in Hq. destruct p.
  - injection Hq as <-. revert G. unfold lossClassification. generalize (preferSparseStatistics c m) as pr.
    destruct c as [l h f d b]. cbn [cfgLoss cfgHead cfgBinning]. intros pr G.
    destruct pr, l, h; cbn in *; try destruct (Nat.ltb 1 (omNumOutputs m)); cbn in *;
      (split; [first [exact I|reflexivity|eexists; first [left; reflexivity|right; reflexivity]]|]);
      (split; [reflexivity|]);
      (split; [intros X; try discriminate X;
               first [left; split; reflexivity|right; split; [discriminate|intros k; split; intros Y; exact Y]]|]);
      intros X; try discriminate X; intros e E; rewrite (G e E); reflexivity.
  - revert G. unfold lossRegression in Hq. destruct c as [l h f d b]. cbn [cfgLoss cfgHead cfgBinning] in *. intros G.
    destruct l; try discriminate Hq; injection Hq as <-; destruct h; cbn in *;
      (split; [first [exact I|reflexivity|eexists; first [left; reflexivity|right; reflexivity]]|]);
      (split; [reflexivity|]);
      (split; [intros X; try discriminate X;
               first [left; split; reflexivity|right; split; [discriminate|intros k; split; intros Y; exact Y]]|]);
      intros X; try discriminate X; intros e E; rewrite (G e E); reflexivity.
Qed.

(** ** C116 *)

Lemma format_as_configured :
  forall p c m t,
  train p c m = Some t ->
  (stored_sparsely t -> p = Classification /\ supports_sparse_statistics (cfgLoss c) /\ cfgFormat c <> FormatDense) /\
  (cfgFormat c = FormatAuto -> stored_sparsely t ->
   omIsSparse m = true /\ 120 < omNumOutputs m /\ trDefaultRule t = None) /\
  (cfgFormat c = FormatSparse -> p = Classification -> supports_sparse_statistics (cfgLoss c) ->
   stored_sparsely t \/ cfgHead c = HeadComplete \/ cfgHead c = HeadAuto /\ omNumOutputs m <= 1).
Proof.
  intros p c m t H. pose proof (train_sparse _ _ _ _ H) as S1.
  destruct (train_cases _ _ _ _ H) as (q & Hq & Es & Ed & _). split; [|split].
  - intros X. apply S1 in X. destruct X as (E1 & E2 & E3 & _). split; [exact E1|]. split; [exact E2|].
    intros F. unfold preferSparseStatistics in E3. rewrite F in E3. discriminate E3.
  - intros F X. apply S1 in X. destruct X as (E1 & E2 & E3 & _). unfold preferSparseStatistics in E3. rewrite F in E3.
    unfold shouldSparseStatisticsBePreferred in E3. apply andb_prop in E3. destruct E3 as (E3 & _).
    apply andb_prop in E3. destruct E3 as (E3 & E4). apply andb_prop in E3. destruct E3 as (E3 & E5).
    split; [exact E3|]. split; [apply Nat.ltb_lt, E5|]. rewrite Ed. apply negb_true_iff in E4. rewrite E4. reflexivity.
  - intros F Ep El. destruct (le_lt_dec (omNumOutputs m) 1) as [L|L].
    + destruct (cfgHead c) eqn:Eh; [right; right; split; [reflexivity|exact L]| | | |right; left; reflexivity];
        left; apply S1; unfold preferSparseStatistics; rewrite F; repeat split; try assumption; discriminate.
    + destruct (cfgHead c) eqn:Eh; [| | | |right; left; reflexivity];
        left; apply S1; unfold preferSparseStatistics; rewrite F; repeat split; try assumption; try discriminate; intros _; exact L.
Qed.

Lemma format_ignored_refuted :
  exists p c m t,
    p = Classification /\ cfgFormat c = FormatSparse /\ supports_sparse_statistics (cfgLoss c) /\ train p c m = Some t /\
    omIsSparse m = true /\ omNumOutputs m = 5 /\ ~ stored_sparsely t.
Proof.
  exists Classification, (mkConfig DecomposableSquaredHinge HeadComplete FormatSparse (DefaultRule false) BinningAuto),
    (mkOutputMatrix true 5).
  eexists. split; [reflexivity|]. split; [reflexivity|]. split; [reflexivity|]. split; [vm_compute; reflexivity|].
  split; [reflexivity|]. split; [reflexivity|]. discriminate.
Qed.
