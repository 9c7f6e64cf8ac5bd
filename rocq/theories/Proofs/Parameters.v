From Coq Require Import ZArith Bool List Lia.
From Verif Require Import Model.Floats Model.Parameters Spec.Floats Spec.Parameters Proofs.Floats Proofs.FloatFractions.
Import ListNotations.
Open Scope Z_scope.

(** * Comparisons *)
Lemma gtb_finite (a b : Z) : gtb (Finite a) (Finite b) = (b <? a).
Proof. cbn [gtb leqb]. rewrite Z.ltb_antisym. reflexivity. Qed.

Lemma one_positive : 0 < one.
Proof. reflexivity. Qed.

Ltac ranges :=
  unfold accepts, assertGreater, assertGreaterOrEqual, assertLess, assertLessOrEqual; cbn [documented inRange];
  rewrite ?gtb_finite, ?andb_true_iff, ?negb_true_iff, ?Z.ltb_lt, ?Z.ltb_ge.

Lemma accepts_documented :
  forall p x, p <> MinSupport -> p <> OutputRatio -> p <> InstancesWithReplacement -> x <> NaN ->
  accepts p x = true <-> inRange (documented p) x.
Proof.
  intros p x H1 H2 H3 Hn. pose proof one_positive as H0.
  destruct x as [z | negative | ]; [| |congruence];
    destruct p; try congruence; clear H1 H2 H3 Hn; try (ranges; lia);
    unfold accepts, assertGreater, assertGreaterOrEqual, assertLess, assertLessOrEqual; cbn [documented inRange];
    destruct negative; cbn [gtb leqb negb andb]; split; congruence || tauto.
Qed.

(** Values that are not a number. *)
Lemma accepts_nan :
  forall p, accepts p NaN = true <->
  p = MinImprovement \/ p = HeadExponent \/ p = Beta \/ p = MEstimateM \/ p = PeakMaxLift \/ p = CoverageThreshold.
Proof.
  intros p. destruct p; cbn; split; intros H; try congruence; try tauto; repeat destruct H as [H | H]; congruence.
Qed.

(** Approximate equality with zero. *)
Lemma epsilon_exact : round64 (one / 2 ^ 23) = Finite (2 ^ 1052).
Proof. vm_compute. reflexivity. Qed.

Lemma equal_zero (z : Z) :
  isFloat32 z -> isEqualToZero32 (Finite z) = true <-> Z.abs z <= 2 ^ 1052.
Proof.
  intros H. unfold isEqualToZero32, isEqual. cbn [sub negate add]. replace (z + - 0) with z by lia.
  rewrite (round32_exact z H). cbn [fabs].
  assert (E1 : fmax (Finite (Z.abs z)) (Finite (Z.abs 0)) = Finite (Z.abs z)).
  { unfold fmax, leqb. destruct (Z.leb_spec (Z.abs z) (Z.abs 0)); f_equal; lia. }
  rewrite E1.
  assert (E2 : fmax (Finite one) (Finite (Z.abs z)) = Finite (Z.max one (Z.abs z))).
  { unfold fmax, leqb. destruct (Z.leb_spec one (Z.abs z)); f_equal; lia. }
  rewrite E2. cbn [scale64]. pose proof (float32_range z H) as Hr. pose proof one_positive as H0.
  destruct (Z.le_gt_cases (Z.abs z) one) as [C|C].
  - rewrite Z.max_l by lia. rewrite epsilon_exact. cbn [leqb]. apply Z.leb_le.
  - rewrite Z.max_r by lia. set (a := Z.abs z) in *.
    assert (Hp : 0 < a) by lia. pose proof (Z.log2_spec a Hp) as [L1 L2]. set (k := Z.log2 a) in *.
    assert (Hk : 1075 <= k).
    { unfold k. rewrite <- (Z.log2_pow2 1075) by lia. apply Z.log2_le_mono. unfold one in C. lia. }
    assert (E3 : 2 ^ k = 2 ^ 22 * 2 ^ (k - 22)) by (rewrite <- Z.pow_add_r by lia; f_equal; lia).
    assert (E4 : 2 ^ Z.succ k = 2 ^ 23 * 2 ^ (k - 22)) by (rewrite <- Z.pow_add_r by lia; f_equal; lia).
    assert (Pk : 0 < 2 ^ (k - 22)) by (apply Z.pow_pos_nonneg; lia).
    assert (F : isFloat32 (2 ^ (k - 22))).
    { exists 1, (k - 22). rewrite Z.abs_eq by lia. split; [lia|]. split; [reflexivity|]. split; [lia|].
      change (2 ^ 22) with 4194304 in E3. lia. }
    destruct (round64_between 0 (2 ^ (k - 22)) (a / 2 ^ 23) zero_float32 F) as (y & -> & By).
    { split; [apply Z.div_pos; [lia|reflexivity]|]. apply Z.div_le_upper_bound; [reflexivity|]. lia. }
    cbn [leqb]. rewrite Z.leb_le. change (2 ^ 22) with 4194304 in E3.
    assert (2 ^ 1052 < one) by reflexivity. lia.
Qed.

Lemma infinity_is_zero (negative : bool) : isEqualToZero32 (Infinite negative) = true.
Proof. destruct negative; reflexivity. Qed.

Lemma accepts_near_zero :
  forall p z, p = MinSupport \/ p = OutputRatio -> isFloat32 z ->
  accepts p (Finite z) = true <-> - 2 ^ 1052 <= z < one.
Proof.
  intros p z Hp H. pose proof one_positive as H0. assert (H1 : 2 ^ 1052 < one) by reflexivity.
  assert (H2 : 0 < 2 ^ 1052) by reflexivity.
  assert (E : accepts p (Finite z) = if isEqualToZero32 (Finite z) then true else (0 <? z) && (z <? one)).
  { destruct Hp as [-> | ->]; unfold accepts, assertGreater, assertLess; rewrite !gtb_finite; reflexivity. }
  rewrite E. destruct (isEqualToZero32 (Finite z)) eqn:Ez.
  - apply (equal_zero z H) in Ez. split; [intros _|reflexivity]. lia.
  - assert (Hz : ~ Z.abs z <= 2 ^ 1052) by (intros C; apply (equal_zero z H) in C; congruence).
    rewrite andb_true_iff, !Z.ltb_lt. lia.
Qed.

Lemma accepts_not_a_number :
  exists p, accepts p NaN = true /\ ~ inRange (documented p) NaN.
Proof. exists MinImprovement. split; [reflexivity|exact (fun H => H)]. Qed.

Lemma accepts_infinite :
  exists p, accepts p (Infinite false) = true /\ ~ inRange (documented p) (Infinite false) /\
  forall n minimum maximum, 1 <= n < 2 ^ 32 -> calculateBoundedFraction n (Infinite false) minimum maximum = None.
Proof.
  exists MinSupport. split; [reflexivity|]. split; [exact (fun H => H)|]. intros n minimum maximum Hn.
  unfold calculateBoundedFraction.
  assert (Hf : exists m, uint32ToFloat32 n = Finite m /\ 0 < m).
  { unfold uint32ToFloat32.
    destruct (round32_between one (2 ^ 32 * one) (n * one)) as (y & E & B).
    - exists 1, 1075. repeat split; reflexivity || lia.
    - exists 1, 1107. repeat split; reflexivity || lia.
    - pose proof one_positive. nia.
    - exists y. pose proof one_positive. split; [exact E|lia]. }
  destruct Hf as (m & -> & Hm). cbn [mul]. destruct (Z.eqb_spec m 0); [lia|]. reflexivity.
Qed.

Lemma rejects_one :
  exists p, inRange (documented p) (Finite one) /\ accepts p (Finite one) = false.
Proof. exists MinSupport. pose proof one_positive. split; [cbn [documented inRange]; lia|vm_compute; reflexivity]. Qed.

Lemma accepts_one :
  exists p, ~ inRange (documented p) (Finite one) /\ accepts p (Finite one) = true.
Proof. exists InstancesWithReplacement. split; [cbn [documented inRange]; lia|vm_compute; reflexivity]. Qed.

Lemma accepts_integers :
  forall p n, 0 <= n -> acceptsInt p n = true <-> documentedInt p n.
Proof.
  intros p n Hn. destruct p; unfold acceptsInt, assertAtLeast; cbn [documentedInt];
    try destruct (Z.eqb_spec n 0); rewrite ?negb_true_iff, ?Z.ltb_ge; split; intros; try reflexivity; try lia; try tauto.
Qed.

(** * Sizes *)
Definition wellFormed (k : sizeConfig) (s : sizes) : Prop :=
  leastMin k <= sMin s /\ 0 <= sMax s /\ accepts (ratioParameter k) (sRatio s) = true.

Lemma initial_wellFormed (k : sizeConfig) : wellFormed k (initialSizes k).
Proof. unfold wellFormed. destruct k; (split; [|split]); vm_compute; congruence. Qed.

Lemma apply_wellFormed (k : sizeConfig) (s : sizes) (c : call) :
  representable c -> wellFormed k s -> wellFormed k (applyCall k s c).
Proof.
  intros Hc (H1 & H2 & H3). unfold applyCall. destruct (acceptsCall k s c) eqn:E; [|repeat split; assumption].
  destruct c as [x|n|n]; unfold wellFormed; cbn [sRatio sMin sMax]; cbn [acceptsCall representable] in *.
  - repeat split; assumption.
  - unfold assertAtLeast in E. rewrite negb_true_iff, Z.ltb_ge in E. repeat split; assumption.
  - repeat split; try assumption; lia.
Qed.

Lemma calls_wellFormed (k : sizeConfig) (calls : list call) : forall s,
  Forall representable calls -> wellFormed k s -> wellFormed k (applyCalls k s calls).
Proof.
  induction calls as [|c calls IH]; intros s Hc Hs; [exact Hs|]. inversion Hc; subst.
  cbn [applyCalls fold_left]. apply IH; [assumption|]. apply apply_wellFormed; assumption.
Qed.

Lemma accepted_not_nan (k : sizeConfig) (x : float) : accepts (ratioParameter k) x = true -> x <> NaN.
Proof. intros H ->. apply accepts_nan in H. destruct k; cbn [ratioParameter] in H; repeat destruct H as [H|H]; discriminate. Qed.

Lemma sizes_values :
  forall k calls, Forall representable calls ->
  let s := applyCalls k (initialSizes k) calls in
  documentedMin k <= sMin s /\ 0 <= sMax s /\
  (k <> FixedHead -> k <> WithReplacement -> inRange (documented (ratioParameter k)) (sRatio s)).
Proof.
  intros k calls Hc s. destruct (calls_wellFormed k calls _ Hc (initial_wellFormed k)) as (H1 & H2 & H3). fold s in H1, H2, H3.
  split; [exact H1|]. split; [exact H2|]. intros N1 N2.
  apply accepts_documented; try (destruct k; cbn; congruence); [|exact H3]. eapply accepted_not_nan. exact H3.
Qed.

(** The effects of a call. *)
Lemma calls_effects :
  forall k calls c,
  let s := applyCalls k (initialSizes k) calls in
  let s' := applyCalls k (initialSizes k) (calls ++ [c]) in
  (acceptsCall k s c = false -> s' = s) /\
  (acceptsCall k s c = true ->
   match c with
   | SetRatio x => sRatio s' = x /\ sMin s' = sMin s /\ sMax s' = sMax s
   | SetMin n => sRatio s' = sRatio s /\ sMin s' = n /\ sMax s' = sMax s
   | SetMax n => sRatio s' = sRatio s /\ sMin s' = sMin s /\ sMax s' = n
   end).
Proof.
  intros k calls c s s'. assert (E : s' = applyCall k s c).
  { unfold s', s, applyCalls. rewrite fold_left_app. reflexivity. }
  rewrite E. unfold applyCall. destruct (acceptsCall k s c); split; intros H; try discriminate; [|reflexivity].
  destruct c; repeat split; reflexivity.
Qed.

(** The maximum is at least the minimum as long as the minimum does not change. *)
Definition ordered (s : sizes) : Prop := sMax s = 0 \/ sMin s <= sMax s.

Lemma apply_ordered (k : sizeConfig) (s : sizes) (c : call) : ~ setsMin c -> ordered s -> ordered (applyCall k s c).
Proof.
  intros Hc Hs. unfold applyCall. destruct (acceptsCall k s c) eqn:E; [|exact Hs].
  destruct c as [x|n|n]; unfold ordered in *; cbn [sRatio sMin sMax]; cbn [acceptsCall setsMin] in *; [exact Hs|tauto|].
  destruct (Z.eqb_spec n 0); [left; assumption|]. unfold assertAtLeast in E. rewrite negb_true_iff, Z.ltb_ge in E. right. exact E.
Qed.

Lemma calls_ordered (k : sizeConfig) (calls : list call) : forall s,
  Forall (fun c => ~ setsMin c) calls -> ordered s -> ordered (applyCalls k s calls).
Proof.
  induction calls as [|c calls IH]; intros s Hc Hs; [exact Hs|]. inversion Hc; subst.
  cbn [applyCalls fold_left]. apply IH; [assumption|]. apply apply_ordered; assumption.
Qed.

Lemma initial_ordered (k : sizeConfig) : ordered (initialSizes k).
Proof. unfold ordered. destruct k; cbn [initialSizes sMin sMax]; lia. Qed.

Lemma ordered_after_max (k : sizeConfig) (h1 h2 : list call) (m : Z) :
  acceptsCall k (applyCalls k (initialSizes k) h1) (SetMax m) = true -> Forall (fun c => ~ setsMin c) h2 ->
  ordered (applyCalls k (initialSizes k) (h1 ++ SetMax m :: h2)).
Proof.
  intros Ha H2. unfold applyCalls in *. rewrite fold_left_app. cbn [fold_left]. apply calls_ordered; [exact H2|].
  unfold applyCall at 1. rewrite Ha. unfold ordered. cbn [sMin sMax]. cbn [acceptsCall] in Ha.
  destruct (Z.eqb_spec m 0); [left; assumption|]. right. unfold assertAtLeast in Ha. rewrite negb_true_iff, Z.ltb_ge in Ha. exact Ha.
Qed.

(** A maximum that is less than the minimum does not have an effect. *)
Lemma ignored_maximum (n : Z) (f : float) (minimum maximum : Z) :
  1 <= minimum -> maximum < minimum ->
  calculateBoundedFraction n f minimum maximum = calculateBoundedFraction n f minimum 0.
Proof.
  intros H1 H2. unfold calculateBoundedFraction. destruct (toUint32 _); [|reflexivity]. cbv zeta.
  replace (minimum <=? maximum) with false by (symmetry; apply Z.leb_gt; lia).
  replace (minimum <=? 0) with false by (symmetry; apply Z.leb_gt; lia). reflexivity.
Qed.

Lemma numElements_fraction (k : sizeConfig) (fallback : float) (s : sizes) (n f : Z) :
  usesFraction k fallback s f -> numElements k fallback s n = calculateBoundedFraction n (Finite f) (sMin s) (sMax s).
Proof.
  intros (_ & Hf & [E | (-> & E & ->)]); unfold numElements.
  - rewrite E. destruct k; try reflexivity; rewrite gtb_finite; destruct (Z.ltb_spec 0 f); try reflexivity; lia.
  - rewrite E. reflexivity.
Qed.

Lemma least_positive (k : sizeConfig) : 1 <= leastMin k.
Proof. destruct k; cbn; lia. Qed.

Lemma sizes_minimum :
  forall k fallback calls n f, Forall representable calls -> 1 <= n < 2 ^ 32 ->
  let s := applyCalls k (initialSizes k) calls in
  usesFraction k fallback s f ->
  exists r, numElements k fallback s n = Some r /\ Z.min (sMin s) n <= r <= n.
Proof.
  intros k fallback calls n f Hc Hn s Hf. rewrite (numElements_fraction _ _ _ n f Hf). destruct Hf as (F1 & F2 & _).
  destruct (calls_wellFormed k calls _ Hc (initial_wellFormed k)) as (H1 & H2 & _). fold s in H1, H2.
  pose proof (least_positive k) as Hl. destruct (Z.lt_ge_cases (sMax s) (sMin s)) as [C|C].
  - rewrite ignored_maximum by lia.
    destruct (bounded_fraction_range n f (sMin s) 0 Hn F1 F2 ltac:(lia) ltac:(lia) ltac:(lia)) as (r & Er & Br & _).
    exists r. split; [exact Er|exact Br].
  - destruct (bounded_fraction_range n f (sMin s) (sMax s) Hn F1 F2 ltac:(lia) H2 ltac:(lia)) as (r & Er & Br & _).
    exists r. split; [exact Er|exact Br].
Qed.

Lemma ordered_maximum (k : sizeConfig) (fallback : float) (s : sizes) (n f : Z) :
  1 <= n < 2 ^ 32 -> wellFormed k s -> ordered s -> usesFraction k fallback s f ->
  exists r, numElements k fallback s n = Some r /\ Z.min (sMin s) n <= r <= n /\ (sMax s <> 0 -> r <= sMax s).
Proof.
  intros Hn (H1 & H2 & _) Ho Hf. rewrite (numElements_fraction _ _ _ n f Hf). destruct Hf as (F1 & F2 & _).
  pose proof (least_positive k) as Hl. apply bounded_fraction_range; try assumption; lia.
Qed.

Lemma sizes_after_max :
  forall k fallback before m after n f,
  let calls := before ++ SetMax m :: after in
  let s := applyCalls k (initialSizes k) calls in
  Forall representable calls -> acceptsCall k (applyCalls k (initialSizes k) before) (SetMax m) = true ->
  Forall (fun c => ~ setsMin c) after -> 1 <= n < 2 ^ 32 -> usesFraction k fallback s f ->
  exists r, numElements k fallback s n = Some r /\ Z.min (sMin s) n <= r <= n /\ (sMax s <> 0 -> r <= sMax s).
Proof.
  intros k fallback before m after n f calls s Hc Ha H2 Hn Hf. apply (ordered_maximum k fallback s n f); try assumption.
  - apply calls_wellFormed; [exact Hc|apply initial_wellFormed].
  - apply ordered_after_max; assumption.
Qed.

Lemma sizes_without_min :
  forall k fallback calls n f,
  let s := applyCalls k (initialSizes k) calls in
  Forall representable calls -> Forall (fun c => ~ setsMin c) calls -> 1 <= n < 2 ^ 32 -> usesFraction k fallback s f ->
  exists r, numElements k fallback s n = Some r /\ Z.min (sMin s) n <= r <= n /\ (sMax s <> 0 -> r <= sMax s).
Proof.
  intros k fallback calls n f s Hc H2 Hn Hf. apply (ordered_maximum k fallback s n f); try assumption.
  - apply calls_wellFormed; [exact Hc|apply initial_wellFormed].
  - apply calls_ordered; [exact H2|apply initial_ordered].
Qed.

Lemma sizes_order_counterexample :
  exists calls r, let s := applyCalls WithoutReplacement (initialSizes WithoutReplacement) calls in
  Forall representable calls /\ allAccepted WithoutReplacement (initialSizes WithoutReplacement) calls /\
  numElements WithoutReplacement NaN s 1000 = Some r /\ sMax s <> 0 /\ sMax s < r.
Proof.
  exists [SetMax 10; SetMin 20], 660. intros s. split; [repeat constructor; (discriminate || reflexivity)|]. split; [cbn; tauto|]. split; [vm_compute; reflexivity|].
  split; vm_compute; congruence.
Qed.

Lemma sizes_default_counterexample :
  exists calls r, let s := applyCalls FeatureSampling (initialSizes FeatureSampling) calls in
  Forall representable calls /\ allAccepted FeatureSampling (initialSizes FeatureSampling) calls /\
  numElements FeatureSampling NaN s 100 = Some r /\ sMax s <> 0 /\ sMax s < r.
Proof.
  exists [SetMin 2; SetMax 3], 7. intros s. split; [repeat constructor; (discriminate || reflexivity)|]. split; [cbn; tauto|]. split; [vm_compute; reflexivity|].
  split; vm_compute; congruence.
Qed.

Lemma sizes_default_minimum_counterexample :
  exists calls r, let s := applyCalls FeatureSampling (initialSizes FeatureSampling) calls in
  Forall representable calls /\ allAccepted FeatureSampling (initialSizes FeatureSampling) calls /\
  numElements FeatureSampling NaN s 100 = Some r /\ sMin s <= 100 /\ r < sMin s.
Proof.
  exists [SetMin 50], 7. intros s. split; [repeat constructor; (discriminate || reflexivity)|]. split; [cbn; tauto|]. split; [vm_compute; reflexivity|].
  split; vm_compute; congruence.
Qed.
