From Coq Require Import ZArith List Lia Permutation.
From Verif Require Import Model.Floats Model.Rounding Proofs.Floats Spec.Rounding.
Import ListNotations.
Open Scope Z_scope.

Lemma unit_facts (k : Z) :
  55 <= k -> 2 ^ (k - 53) = 2 * 2 ^ (k - 54) /\ 2 ^ 53 * 2 ^ (k - 54) = 2 ^ (k - 1) /\ 2 ^ k = 2 * 2 ^ (k - 1) /\ 0 < 2 ^ (k - 54).
Proof.
  intros H. split; [|split; [|split]].
  - replace (k - 53) with (1 + (k - 54)) by lia. rewrite Z.pow_add_r by lia. reflexivity.
  - rewrite <- Z.pow_add_r by lia. f_equal. lia.
  - replace k with (1 + (k - 1)) at 1 by lia. rewrite Z.pow_add_r by lia. reflexivity.
  - apply Z.pow_pos_nonneg; lia.
Qed.

Lemma round64_moderate (k x : Z) :
  55 <= k <= 2099 -> Z.abs x + 2 ^ (k - 54) < 2 ^ k ->
  exists y, round64 x = Finite y /\ Z.abs (y - x) <= 2 ^ (k - 54).
Proof.
  intros Hk Hx. destruct (unit_facts k ltac:(lia)) as (U1 & U2 & U3 & U4).
  unfold round64, round. cbv zeta. set (e := exponent 53 1 x).
  assert (E1 : 1 <= e) by (unfold e, exponent; lia).
  assert (E2 : e <= k - 53).
  { unfold e, exponent. destruct (Z.eq_dec x 0) as [->|N]; [cbn [Z.abs Z.log2]; lia|].
    assert (Z.log2 (Z.abs x) < k) by (apply Z.log2_lt_pow2; lia). lia. }
  pose proof (nearest_error x e ltac:(lia)) as E3. set (y := nearest x e * 2 ^ e) in *.
  assert (E4 : 2 ^ e <= 2 ^ (k - 53)) by (apply Z.pow_le_mono_r; lia).
  assert (E5 : 2 ^ k <= range64) by (apply Z.pow_le_mono_r; lia).
  destruct (Z.ltb_spec (Z.abs y) range64); [|lia]. exists y. split; [reflexivity|lia].
Qed.

Lemma roundings_nonneg (h : list operation) : 0 <= roundings h.
Proof. unfold roundings, total. induction h as [|[] h IH]; cbn [map fold_right] in *; lia. Qed.

Lemma volume_bound (h : list operation) : Z.abs (exact h) <= volume h.
Proof. unfold exact, volume, total. induction h as [|o h IH]; cbn [map fold_right] in *; lia. Qed.

Lemma exact_cons o h : exact (o :: h) = effect o + exact h. Proof. reflexivity. Qed.
Lemma volume_cons o h : volume (o :: h) = Z.abs (effect o) + volume h. Proof. reflexivity. Qed.

Lemma mul_weight (x w : Z) : mul round64 (Finite x) (Finite (w * one)) = round64 (x * w).
Proof.
  unfold mul. f_equal. rewrite Z.mul_assoc. apply Z.div_mul. unfold one. pose proof (Z.pow_pos_nonneg 2 1075). lia.
Qed.

(** A single operation, given that the entry [a] differs from the exact value [b] by at most [r] rounding errors. *)
Lemma perform_accurate (k a b r v : Z) (o : operation) :
  55 <= k <= 2099 -> Z.abs b <= v -> v + Z.abs (effect o) <= 2 ^ (k - 1) -> 0 <= r -> r + roundings [o] < 2 ^ 53 ->
  accurate k r a b ->
  exists y, perform (Finite a) o = Finite y /\ accurate k (r + roundings [o]) y (b + effect o).
Proof.
  intros Hk Hb Hv Hr Hn Ha. unfold accurate in *. destruct (unit_facts k ltac:(lia)) as (U1 & U2 & U3 & U4).
  set (u := 2 ^ (k - 54)) in *. set (p := 2 ^ 53) in *. set (t := 2 ^ (k - 1)) in *.
  assert (D : forall m, m < p -> (m + 1) * u <= t) by (intros m Hm; rewrite <- U2; apply Z.mul_le_mono_nonneg_r; lia).
  assert (W : forall x w, Z.abs (x * w) + v <= t -> r + 2 < p ->
    exists z, mul round64 (Finite x) (Finite (w * one)) = Finite z /\ Z.abs (z - x * w) <= u).
  { intros x w H1 H2. rewrite mul_weight. apply round64_moderate; [lia|]. fold u. specialize (D 1).
    assert (2 * u <= t) by lia. lia. }
  assert (A : forall z m, Z.abs (z - effect o) <= m * u -> 0 <= m -> r + m + 1 < p ->
    exists y, add round64 (Finite a) (Finite z) = Finite y /\ Z.abs (y - (b + effect o)) <= (r + m + 1) * u).
  { intros z m H1 H2 H3. cbn [add]. specialize (D (r + m + 1) H3).
    destruct (round64_moderate k (a + z) Hk) as (y & -> & E); [fold u; lia|].
    exists y. split; [reflexivity|]. fold u in E. lia. }
  destruct o as [x|x|x w|x w]; cbn [perform effect] in *; unfold roundings, total in *; cbn [map fold_right] in *; unfold sub.
  - destruct (A x 0) as (y & E1 & E2); [lia..|]. exists y. split; [exact E1|lia].
  - cbn [negate]. destruct (A (- x) 0) as (y & E1 & E2); [lia..|]. exists y. split; [exact E1|lia].
  - destruct (W x w) as (z & -> & E); [lia..|]. destruct (A z 1) as (y & E1 & E2); [lia..|]. exists y. split; [exact E1|lia].
  - destruct (W x w) as (z & -> & E); [lia..|]. cbn [negate].
    destruct (A (- z) 1) as (y & E1 & E2); [lia..|]. exists y. split; [exact E1|lia].
Qed.

Lemma fold_accurate (k : Z) (h : list operation) :
  forall a b r v, 55 <= k <= 2099 -> Z.abs b <= v -> v + volume h <= 2 ^ (k - 1) -> 0 <= r -> r + roundings h < 2 ^ 53 ->
  accurate k r a b ->
  exists y, fold_left perform h (Finite a) = Finite y /\ accurate k (r + roundings h) y (b + exact h).
Proof.
  induction h as [|o h IH]; intros a b r v Hk Hb Hv Hr Hn Ha.
  - exists a. split; [reflexivity|]. unfold roundings, exact, total. cbn [map fold_right]. now rewrite !Z.add_0_r.
  - rewrite volume_cons in Hv. rewrite exact_cons.
    assert (E : roundings (o :: h) = roundings [o] + roundings h)
      by (unfold roundings, total; cbn [map fold_right]; lia).
    rewrite E in *. pose proof (roundings_nonneg h). pose proof (roundings_nonneg [o]).
    assert (0 <= volume h) by (pose proof (volume_bound h); lia).
    destruct (perform_accurate k a b r v o) as (c & E1 & E2); [lia..|exact Ha|].
    cbn [fold_left]. rewrite E1.
    destruct (IH c (b + effect o) (r + roundings [o]) (v + Z.abs (effect o))) as (y & E3 & E4); [lia..|exact E2|].
    exists y. split; [exact E3|]. unfold accurate in *. rewrite !Z.add_assoc. exact E4.
Qed.

Lemma maintain_accurate :
  forall magnitude history,
  moderate magnitude (volume history) (roundings history) ->
  exists y, maintain history = Finite y /\ accurate magnitude (roundings history) y (exact history).
Proof.
  intros k h (H1 & H2 & H3). destruct (fold_accurate k h 0 0 0 0) as (y & E1 & E2); try lia.
  - unfold accurate. cbn. lia.
  - exists y. split; [exact E1|]. exact E2.
Qed.

Lemma total_app (l m : list Z) : total (l ++ m) = total l + total m.
Proof. unfold total. induction l as [|x l IH]; cbn [app fold_right]; lia. Qed.

Lemma total_permutation (l m : list Z) : Permutation l m -> total l = total m.
Proof. unfold total. induction 1; cbn [fold_right]; lia. Qed.

Lemma exact_app (l m : list operation) : exact (l ++ m) = exact l + exact m.
Proof. unfold exact. rewrite map_app. apply total_app. Qed.

Lemma exact_permutation (l m : list operation) : Permutation l m -> exact l = exact m.
Proof. intros H. unfold exact. apply total_permutation. now apply Permutation_map. Qed.

Lemma applied_reverted (h : list operation) :
  unweighted h -> exact h = total (applied h) - total (reverted h).
Proof.
  unfold exact, unweighted. induction 1 as [|o h Ho H IH]; [reflexivity|]. unfold applied, reverted in *.
  destruct o; try contradiction; cbn [map flat_map app effect] in *; unfold total in *; cbn [fold_right] in *; lia.
Qed.

Lemma unweighted_roundings (h : list operation) : unweighted h -> roundings h = Z.of_nat (length h).
Proof.
  unfold unweighted, roundings. induction 1 as [|o h Ho H IH]; [reflexivity|].
  destruct o; try contradiction; unfold total in *; cbn [map fold_right length]; lia.
Qed.

Lemma scores_accurate :
  forall magnitude history remaining,
  unweighted history -> Permutation (applied history) (reverted history ++ remaining) ->
  moderate magnitude (volume history) (roundings history) ->
  moderate magnitude (volume (map Add remaining)) (roundings (map Add remaining)) ->
  exists score prediction,
  maintain history = Finite score /\ maintain (map Add remaining) = Finite prediction /\
  accurate magnitude (Z.of_nat (length history + length remaining)) score prediction.
Proof.
  intros k h l Hu Hp H1 H2. destruct (maintain_accurate k h H1) as (y & -> & A1).
  destruct (maintain_accurate k _ H2) as (z & -> & A2). exists y, z. split; [reflexivity|]. split; [reflexivity|].
  rewrite (unweighted_roundings h Hu) in A1. rewrite (unweighted_roundings (map Add l)) in A2.
  - rewrite map_length in A2. rewrite (applied_reverted h Hu) in A1. rewrite (total_permutation _ _ Hp), total_app in A1.
    assert (E : exact (map Add l) = total l) by (unfold exact; rewrite map_map; cbn [effect]; now rewrite map_id).
    rewrite E in A2. unfold accurate in *. rewrite Nat2Z.inj_add, Z.mul_add_distr_r. lia.
  - unfold unweighted. apply Forall_map. apply Forall_forall. auto.
Qed.

Lemma exact_inverse (l : list operation) : exact (map inverse l) = - exact l.
Proof.
  unfold exact. induction l as [|o l IH]; [reflexivity|]. unfold total in *. cbn [map fold_right]. rewrite IH.
  destruct o; cbn [inverse effect]; lia.
Qed.

Lemma sub_accurate (k y x r v y' x' r' v' : Z) :
  55 <= k <= 2099 -> v + v' <= 2 ^ (k - 1) -> r + r' + 1 < 2 ^ 53 -> Z.abs x <= v -> Z.abs x' <= v' ->
  accurate k r y x -> accurate k r' y' x' ->
  exists z, sub round64 (Finite y) (Finite y') = Finite z /\ accurate k (r + r' + 1) z (x - x').
Proof.
  intros Hk Hv Hr Hx Hx' A A'. unfold accurate in *. destruct (unit_facts k ltac:(lia)) as (U1 & U2 & U3 & U4).
  set (u := 2 ^ (k - 54)) in *. set (t := 2 ^ (k - 1)) in *.
  assert (D : (r + r' + 2) * u <= t) by (rewrite <- U2; apply Z.mul_le_mono_nonneg_r; lia).
  unfold sub. cbn [negate add]. destruct (round64_moderate k (y + - y') Hk) as (z & -> & E); [fold u; lia|].
  exists z. split; [reflexivity|]. fold u in E. lia.
Qed.

Lemma uncovered_accurate :
  forall magnitude all excluded covered others,
  let coverable := all ++ map inverse excluded in
  Permutation all (excluded ++ covered ++ others) ->
  moderate magnitude (volume coverable + volume covered) (roundings coverable + roundings covered + 1) ->
  exists y, uncovered coverable covered = Finite y /\
  accurate magnitude (roundings coverable + roundings covered + 1) y (exact others).
Proof.
  intros k all ex c o t Hp (H1 & H2 & H3). pose proof (volume_bound t) as B1. pose proof (volume_bound c) as B2.
  pose proof (roundings_nonneg t). pose proof (roundings_nonneg c).
  destruct (maintain_accurate k t) as (y & E1 & A1); [split; [lia|]; split; lia|].
  destruct (maintain_accurate k c) as (z & E2 & A2); [split; [lia|]; split; lia|].
  unfold uncovered. rewrite E1, E2.
  destruct (sub_accurate k y (exact t) (roundings t) (volume t) z (exact c) (roundings c) (volume c)) as (w & E & A);
    [lia..|exact A1|exact A2|].
  exists w. split; [exact E|].
  replace (exact o) with (exact t - exact c); [exact A|].
  unfold t. rewrite exact_app, exact_inverse, (exact_permutation _ _ Hp), !exact_app. lia.
Qed.

Lemma volume_app (l m : list operation) : volume (l ++ m) = volume l + volume m.
Proof. unfold volume. rewrite map_app. apply total_app. Qed.

Lemma roundings_app (l m : list operation) : roundings (l ++ m) = roundings l + roundings m.
Proof. unfold roundings. rewrite map_app. apply total_app. Qed.

Lemma volume_nonneg (l : list operation) : 0 <= volume l.
Proof. pose proof (volume_bound l). lia. Qed.

Lemma accumulate_fold (k : Z) (groups : list (list operation)) :
  forall a b r v, 55 <= k <= 2099 -> Z.abs b <= v -> v + volume (concat groups) <= 2 ^ (k - 1) -> 0 <= r ->
  r + roundings (concat groups) + Z.of_nat (length groups) < 2 ^ 53 -> accurate k r a b ->
  exists y, fold_left (fun entry group => add round64 entry (maintain group)) groups (Finite a) = Finite y /\
  accurate k (r + roundings (concat groups) + Z.of_nat (length groups)) y (b + exact (concat groups)).
Proof.
  induction groups as [|g gs IH]; intros a b r v Hk Hb Hv Hr Hn Ha.
  - exists a. split; [reflexivity|]. unfold roundings, exact, total. cbn [concat length map fold_right Z.of_nat].
    now rewrite !Z.add_0_r.
  - cbn [concat length fold_left] in *. rewrite volume_app in Hv. rewrite roundings_app in *. rewrite exact_app.
    pose proof (volume_nonneg g). pose proof (volume_nonneg (concat gs)). pose proof (volume_bound g).
    pose proof (roundings_nonneg g). pose proof (roundings_nonneg (concat gs)).
    destruct (maintain_accurate k g) as (z & -> & A); [split; [lia|]; split; lia|].
    destruct (sub_accurate k a b r v (- z) (- exact g) (roundings g) (volume g)) as (y & E1 & E2); [lia..|exact Ha| |].
    { unfold accurate in *. lia. }
    unfold sub in E1. cbn [negate] in E1. rewrite Z.opp_involutive in E1. rewrite E1.
    destruct (IH y (b + exact g) (r + roundings g + 1) (v + volume g)) as (w & E3 & E4); [lia..| |].
    { replace (b + exact g) with (b - - exact g) by lia. exact E2. }
    exists w. split; [exact E3|]. unfold accurate in *.
    replace (r + (roundings g + roundings (concat gs)) + Z.of_nat (S (length gs)))
      with (r + roundings g + 1 + roundings (concat gs) + Z.of_nat (length gs)) by lia.
    replace (b + (exact g + exact (concat gs))) with (b + exact g + exact (concat gs)) by lia. exact E4.
Qed.

Lemma accumulated_accurate :
  forall magnitude all excluded groups others,
  let coverable := all ++ map inverse excluded in
  let errors := roundings coverable + roundings (concat groups) + Z.of_nat (length groups) in
  groups <> [] -> Permutation all (excluded ++ concat groups ++ others) ->
  moderate magnitude (volume coverable + volume (concat groups)) errors ->
  exists covered y,
  accumulate groups = Some (Finite covered) /\ accurate magnitude errors covered (exact (concat groups)) /\
  uncoveredAccumulated coverable groups = Some (Finite y) /\ accurate magnitude errors y (exact others).
Proof.
  intros k all ex gs o t n Hg Hp (H1 & H2 & H3). destruct gs as [|g gs]; [congruence|]. clear Hg. unfold n in *. clear n.
  unfold uncoveredAccumulated, accumulate. cbn [concat length] in *.
  rewrite volume_app in H2. rewrite roundings_app in *. rewrite exact_app.
  pose proof (volume_nonneg t). pose proof (volume_nonneg g). pose proof (volume_nonneg (concat gs)).
  pose proof (volume_bound g). pose proof (volume_bound (concat gs)). pose proof (volume_bound t).
  pose proof (roundings_nonneg t). pose proof (roundings_nonneg g). pose proof (roundings_nonneg (concat gs)).
  destruct (unit_facts k ltac:(lia)) as (_ & _ & _ & U).
  destruct (maintain_accurate k t) as (y & -> & A1); [split; [lia|]; split; lia|].
  destruct (maintain_accurate k g) as (z & -> & A2); [split; [lia|]; split; lia|].
  destruct (accumulate_fold k gs z (exact g) (roundings g) (volume g)) as (w & -> & A3); [lia..|exact A2|].
  destruct (sub_accurate k y (exact t) (roundings t) (volume t) w (exact g + exact (concat gs))
    (roundings g + roundings (concat gs) + Z.of_nat (length gs)) (volume g + volume (concat gs))) as (x & -> & A);
    [lia..|exact A1|exact A3|].
  exists w, x. split; [reflexivity|]. split.
  - unfold accurate in *. eapply Z.le_trans; [exact A3|]. apply Z.mul_le_mono_nonneg_r; lia.
  - split; [reflexivity|]. replace (exact o) with (exact t - (exact g + exact (concat gs))).
    + unfold accurate in *. eapply Z.le_trans; [exact A|]. apply Z.mul_le_mono_nonneg_r; lia.
    + unfold t. rewrite exact_app, exact_inverse, (exact_permutation _ _ Hp), !exact_app. lia.
Qed.

Definition power (e : Z) : Z := 2 ^ (1075 + e).

Lemma power_float64 (e : Z) : -1074 <= e < 1024 -> isFloat64 (power e) /\ 0 < power e.
Proof.
  intros H. unfold power. assert (P : 0 < 2 ^ (1075 + e)) by (apply Z.pow_pos_nonneg; lia). split; [|exact P].
  exists 1, (1075 + e). split; [lia|]. split; [reflexivity|]. split; [lia|].
  rewrite Z.abs_eq by lia. apply Z.pow_lt_mono_r; lia.
Qed.

Lemma revert_not_exact :
  exists first second,
  isFloat64 first /\ isFloat64 second /\ 0 < first /\
  maintain [Add first; Add second; Remove second] = Finite 0 /\ maintain [Add first] = Finite first.
Proof.
  exists (power (-60)), (power 0). split; [apply power_float64; lia|]. split; [apply power_float64; lia|].
  split; [apply power_float64; lia|]. split; vm_compute; reflexivity.
Qed.

Lemma uncovered_sign :
  exists all covered others y,
  allPositive all /\ Permutation all (covered ++ others) /\ others <> [] /\
  uncovered all covered = Finite y /\ y < 0 /\ 0 < exact others.
Proof.
  exists [Add (power 0); Add (power (-53)); Add (power (-53)); Add (power (-60))],
    [Add (power (-53)); Add (power (-53)); Add (power 0)], [Add (power (-60))], (- power (-52)).
  split; [|split; [|split; [discriminate|split; [vm_compute; reflexivity|split; [vm_compute; reflexivity|vm_compute; reflexivity]]]]].
  - repeat apply Forall_cons; try apply Forall_nil; apply power_float64; lia.
  - apply (Permutation_app (l := [_; _; _]) (l' := [_; _; _])); [|reflexivity].
    apply (Permutation_cons_append [Add (power (-53)); Add (power (-53))]).
Qed.
