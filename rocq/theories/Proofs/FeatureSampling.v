(** Proofs about the number of features that are sampled. *)
From Coq Require Import NArith ZArith QArith Qround Arith List Bool Lia.
From Verif Require Import Lib.Arr Model.Rng Model.Sampling Model.FeatureSampling Proofs.Rng Proofs.Sampling
  Spec.FeatureSampling.
Import ListNotations.
Open Scope nat_scope.

Lemma fraction_samples :
  forall (c : featureSamplingConfig) (numFeatures : nat),
    (0 < fSampleSize c)%Q -> (fSampleSize c <= 1)%Q -> 1 <= fMinSamples c ->
    fMaxSamples c = 0 \/ fMinSamples c <= fMaxSamples c ->
    exists k r, createFeatureSamplingFactory c numFeatures = Some (k, r) /\ r = Nat.min (fNumRetained c) numFeatures /\
      k + r <= numFeatures /\
      Nat.min (fMinSamples c) (numFeatures - r) <= k /\ (fMaxSamples c <> 0 -> k <= fMaxSamples c) /\
      (Nat.min (fMinSamples c) (numFeatures - r) < k -> fMaxSamples c = 0 \/ k < fMaxSamples c ->
       (inject_Z (Z.of_nat k - 1) < fSampleSize c * inject_Z (Z.of_nat (numFeatures - r)) <= inject_Z (Z.of_nat k))%Q).
Proof.
  intros [q mn mx rt] n; cbn [fSampleSize fMinSamples fMaxSamples fNumRetained]. intros H0 H1 HM HX.
  unfold createFeatureSamplingFactory, numFeatureSamples. cbn [fSampleSize fMinSamples fMaxSamples fNumRetained].
  destruct (Qle_bool q 0) eqn:E; [apply Qle_bool_iff in E; exfalso; apply (Qlt_not_le _ _ H0 E)|].
  eexists. eexists. split; [reflexivity|]. split; [reflexivity|]. set (r := Nat.min rt n). set (t := n - r).
  destruct (bounded_fraction_ok t q mn mx) as (B1 & B2 & B3); [apply Qlt_le_weak; auto|auto|].
  assert (r <= n) by (unfold r; lia). split; [unfold t in *; lia|]. split; [auto|]. split; [intros; apply B2; lia|].
  unfold calculateBoundedFraction. set (z := (q * inject_Z (Z.of_nat t))%Q).
  assert (Z0: (0 <= Qceiling z)%Z).
  { assert (H2: (0 <= z)%Q) by (unfold z; apply Qmult_le_0_compat; [apply Qlt_le_weak; auto|change 0%Q with (inject_Z 0); rewrite <- Zle_Qle; lia]).
    assert (C := Qle_ceiling z). assert (C2: (inject_Z 0 <= inject_Z (Qceiling z))%Q) by (eapply Qle_trans; eauto). rewrite <- Zle_Qle in C2. auto. }
  destruct (Nat.ltb_spec (Z.to_nat (Qceiling z)) (Nat.min mn t)); [intros; lia|].
  destruct ((mn <=? mx) && (mx <? Z.to_nat (Qceiling z))) eqn:EM.
  - apply andb_true_iff in EM. destruct EM as (E1 & E2). apply Nat.leb_le in E1. intros; lia.
  - intros _ _. rewrite Z2Nat.id by auto. split; [|apply Qle_ceiling]. apply Qceiling_lt.
Qed.

Lemma logarithmic_samples :
  forall (c : featureSamplingConfig) (numFeatures : nat),
    (fSampleSize c == 0)%Q -> fNumRetained c + 2 <= numFeatures ->
    exists k, createFeatureSamplingFactory c numFeatures = Some (k, fNumRetained c) /\
      1 <= k /\ k + fNumRetained c < numFeatures /\ 2 ^ (k - 1) <= numFeatures - fNumRetained c - 1 < 2 ^ k.
Proof.
  intros [q mn mx rt] n; cbn [fSampleSize fMinSamples fMaxSamples fNumRetained]. intros H0 H1.
  unfold createFeatureSamplingFactory, numFeatureSamples. cbn [fSampleSize fMinSamples fMaxSamples fNumRetained].
  destruct (Qle_bool q 0) eqn:E; [|exfalso; assert (Qle_bool q 0 = true) by (apply Qle_bool_iff; rewrite H0; apply Qle_refl); congruence].
  rewrite Nat.min_l by lia. destruct (Nat.eqb_spec (n - rt) 0); [lia|]. destruct (Nat.eqb_spec (n - rt) 1); [lia|].
  eexists. split; [reflexivity|]. assert (L := Nat.log2_spec (n - rt - 1) ltac:(lia)). assert (L2 := Nat.log2_lt_lin (n - rt - 1) ltac:(lia)).
  rewrite Nat.add_sub. replace (Nat.log2 (n - rt - 1) + 1) with (S (Nat.log2 (n - rt - 1))) by lia. lia.
Qed.

Lemma sampleFeatures_same fuel n k r v s : k + r <= n -> sampleFeatures fuel n k r v s = featureSample fuel n k r v s.
Proof. intros H. unfold sampleFeatures, featureSample. rewrite Nat.max_l by lia. reflexivity. Qed.

Lemma repeatedly_same fuel n k r : k + r <= n -> forall calls v s,
  sampleRepeatedly fuel n k r calls v s = featureRun fuel n k r calls v s.
Proof.
  intros H. induction calls as [|calls IH]; intros v s; [reflexivity|]. cbn [sampleRepeatedly featureRun].
  rewrite sampleFeatures_same by auto. destruct (featureSample fuel n k r v s) as [(v' & s')|]; [rewrite IH|]; reflexivity.
Qed.

Lemma valid_samples :
  forall (fuel : nat) (c : featureSamplingConfig) (numFeatures calls : nat) (s : N),
    (2 ^ 32 <= N.of_nat fuel)%N -> (1 <= s < 2 ^ 32)%N -> (N.of_nat numFeatures < 2 ^ 32)%N ->
    (0 <= fSampleSize c)%Q -> (fSampleSize c <= 1)%Q -> 1 <= fMinSamples c ->
    fMaxSamples c = 0 \/ fMinSamples c <= fMaxSamples c ->
    (0 < fSampleSize c)%Q \/ fNumRetained c + 2 <= numFeatures ->
    exists k r samples, createFeatureSamplingFactory c numFeatures = Some (k, r) /\
      featureSamples fuel c numFeatures calls s = Some samples /\ length samples = calls /\
      Forall (valid_sample numFeatures k r) samples.
Proof.
  intros fuel c n calls s HF HS HN H0 H1 HM HX HC.
  assert (K: exists k r, createFeatureSamplingFactory c n = Some (k, r) /\ k + r <= n).
  { destruct (Qlt_le_dec 0 (fSampleSize c)) as [L|L].
    - destruct (fraction_samples c n L H1 HM HX) as (k & r & E & _ & E2 & _). eauto.
    - destruct HC as [HC|HC]; [exfalso; apply (Qlt_not_le _ _ HC L)|].
      destruct (logarithmic_samples c n (Qle_antisym _ _ L H0) HC) as (k & E & _ & E2 & _). exists k, (fNumRetained c). split; [auto|lia]. }
  destruct K as (k & r & E & L). destruct (C10_lemma fuel n k r calls s HF HS HN L) as (v & samples & E1 & E2 & E3 & E4).
  exists k, r, samples. split; [auto|]. unfold featureSamples. rewrite E, E1, (repeatedly_same _ _ _ _ L). split; [auto|].
  split; [auto|]. eapply Forall_impl; [|exact E4]. cbv beta. unfold valid_sample. tauto.
Qed.

Lemma single_feature :
  exists (numFeatures : nat), numFeatures = 1 /\ forall fuel calls s,
    createFeatureSamplingFactory defaultFeatures numFeatures = None /\
    featureSamples fuel defaultFeatures numFeatures calls s = None.
Proof. exists 1. repeat split; reflexivity. Qed.

Lemma single_remaining :
  forall (c : featureSamplingConfig) (fuel calls : nat) (s : N),
    (fSampleSize c == 0)%Q -> featureSamples fuel c (S (fNumRetained c)) calls s = None.
Proof.
  intros [q mn mx rt] fuel calls s; cbn [fSampleSize fNumRetained]. intros H0. unfold featureSamples, createFeatureSamplingFactory, numFeatureSamples.
  cbn [fSampleSize fMinSamples fMaxSamples fNumRetained].
  destruct (Qle_bool q 0) eqn:E; [|exfalso; assert (Qle_bool q 0 = true) by (apply Qle_bool_iff; rewrite H0; apply Qle_refl); congruence].
  rewrite Nat.min_l by lia. replace (S rt - rt) with 1 by lia. reflexivity.
Qed.

Lemma all_retained :
  exists (c : featureSamplingConfig) (numFeatures : nat) (sample : list nat),
    fSampleSize c = 0%Q /\ fNumRetained c = numFeatures /\
    (forall fuel s, featureSamples fuel c numFeatures 1 s = Some [sample]) /\
    length sample = numFeatures + 32 /\ ~ NoDup sample /\ exists i, In i sample /\ numFeatures <= i.
Proof.
  exists (mkFeatures 0 1 0 3), 3, ([0; 1; 2] ++ seq 0 32). split; [reflexivity|]. split; [reflexivity|]. split; [intros; reflexivity|].
  split; [reflexivity|]. split.
  - intros H. cbn in H. apply NoDup_cons_iff in H. destruct H as (H & _). apply H. simpl. auto.
  - exists 31. split; [simpl; tauto|lia].
Qed.

Lemma bounds_ignored :
  exists (c1 c2 : featureSamplingConfig) (numFeatures k1 k2 : nat),
    fMinSamples c1 <= fMaxSamples c1 /\ createFeatureSamplingFactory c1 numFeatures = Some (k1, 0) /\ fMaxSamples c1 < k1 /\
    fMinSamples c2 < numFeatures /\ createFeatureSamplingFactory c2 numFeatures = Some (k2, 0) /\ k2 < fMinSamples c2.
Proof.
  exists (mkFeatures 0 1 3 0), (mkFeatures 0 10 0 0), 100, 7, 7. cbn [fMinSamples fMaxSamples].
  split; [lia|]. split; [reflexivity|]. split; [lia|]. split; [lia|]. split; [reflexivity|lia].
Qed.
