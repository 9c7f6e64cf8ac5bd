(** Proofs of the properties of numbers of elements that are computed from fractions. *)
From Coq Require Import ZArith Znumtheory Lia Bool.
From Verif Require Import Model.Floats Spec.Floats Proofs.Floats.
Open Scope Z_scope.

(** The distance between one and the largest single-precision value that is less than one. *)
Definition ulpBelowOne : Z := 2 ^ 1051.

Lemma pow_1075 : 0 < one. Proof. reflexivity. Qed.

Lemma int_float32 (k : Z) : 0 <= k <= 2 ^ 24 -> isFloat32 (k * one).
Proof.
  intros H. assert (R : Z.abs (k * one) < range32).
  { rewrite Z.abs_mul, (Z.abs_eq one), Z.abs_eq by (lia || discriminate).
    assert (range32 = 2 ^ 128 * one) as -> by reflexivity.
    apply Z.mul_lt_mono_pos_r; [reflexivity|]. assert (2 ^ 24 < 2 ^ 128) by reflexivity. lia. }
  destruct (Z.eq_dec k (2 ^ 24)) as [->|N].
  - exists 1, 1099. split; [reflexivity|]. split; [reflexivity|]. split; [lia|exact R].
  - exists k, 1075. split; [reflexivity|]. split; [lia|]. split; [lia|exact R].
Qed.

(** The conversion of an integer to single precision. *)
Lemma uint32_conversion (n : Z) :
  1 <= n < 2 ^ 32 ->
  exists m, uint32ToFloat32 n = Finite (m * one) /\ 1 <= m /\ (n <= 2 ^ 24 -> m = n) /\
  Z.abs (2 * (m * one - n * one)) <= 2 ^ exponent 24 926 (n * one) /\ isFloat32 (m * one).
Proof.
  intros H. unfold uint32ToFloat32. pose proof pow_1075 as P.
  assert (Htop : exists top, isFloat32 top /\ top = 2 ^ 32 * one /\ top < range32).
  { exists (2 ^ 1107). split; [exists 1, 1107; repeat split; (reflexivity || lia)|]. split; reflexivity. }
  destruct Htop as (top & H32 & E32 & Htop).
  assert (H1 : isFloat32 (1 * one)) by (apply int_float32; lia).
  assert (B : 1 * one <= n * one <= top).
  { rewrite E32. split; apply Z.mul_le_mono_nonneg_r; lia. }
  destruct (round32_between _ _ _ H1 H32 B) as (y & R & By).
  assert (Hm : exists m, y = m * one).
  { assert (R' := R). apply round_inv in R'. pose proof (exponent_bounds 24 926 (n * one)) as (B1 & _).
    set (e := exponent 24 926 (n * one)) in *.
    destruct (Z.le_gt_cases 1075 e) as [L|L].
    - exists (nearest (n * one) e * 2 ^ (e - 1075)). rewrite R', <- Z.mul_assoc. unfold one. rewrite <- Z.pow_add_r by lia.
      do 2 f_equal. lia.
    - exists n. rewrite R'. apply nearest_exact; [lia|]. apply Z.divide_mul_r. unfold one. apply pow_divide. lia. }
  destruct Hm as (m & ->). exists m. split; [exact R|]. split; [apply (Z.mul_le_mono_pos_r _ _ one); lia|].
  split; [|split].
  - intros L. assert (R2 : round32 (n * one) = Finite (n * one)) by (apply round32_exact, int_float32; lia).
    rewrite R2 in R. injection R as R. apply Z.mul_cancel_r in R; lia.
  - eapply round_error; [|exact R]. lia.
  - pose proof (exponent_bounds 24 926 (n * one)) as (B1 & _).
    assert (R' := R). apply round_inv in R'. set (e := exponent 24 926 (n * one)) in *.
    set (q := nearest (n * one) e) in *. assert (Pe : 0 < 2 ^ e) by (apply Z.pow_pos_nonneg; lia).
    assert (Hr : Z.abs (m * one) < range32).
    { rewrite Z.abs_eq by lia. lia. }
    assert (Hq : 0 <= q) by nia.
    assert (Hq2 : q <= 2 ^ 24).
    { apply nearest_le; [lia|]. pose proof (Z.log2_spec (n * one) ltac:(nia)) as (_ & L).
      rewrite <- Z.pow_add_r by lia. apply Z.lt_le_incl. eapply Z.lt_le_trans; [exact L|]. apply Z.pow_le_mono_r; [lia|].
      subst e. unfold exponent. rewrite Z.abs_eq by nia. lia. }
    destruct (Z.eq_dec q (2 ^ 24)) as [Eq|N].
    + exists 1, (24 + e). rewrite R', Eq, Z.pow_add_r by lia. split; [lia|]. split; [reflexivity|]. split; [lia|].
      rewrite R', Eq in Hr. exact Hr.
    + exists q, e. split; [exact R'|]. split; [lia|]. split; [lia|exact Hr].
Qed.

Lemma float32_less_than_one (f : Z) : isFloat32 f -> 0 < f < one -> f <= one - ulpBelowOne.
Proof.
  intros Hf H. destruct (Z.lt_ge_cases f (2 ^ 1074)) as [L|L].
  - assert (G : 2 ^ 1074 <= one - ulpBelowOne) by (vm_compute; discriminate). apply Z.lt_le_incl. eapply Z.lt_le_trans; eassumption.
  - pose proof (float32_pow f Hf) as Hd.
    assert (E : exponent 24 926 f = 1051).
    { unfold exponent. clear Hf Hd. rewrite Z.abs_eq by lia.
      assert (Z.log2 f = 1074) as ->; [|reflexivity]. apply Z.log2_unique; [lia|]. split; [exact L|].
      apply H. }
    rewrite E in Hd. assert (Hd2 : (ulpBelowOne | one - f)).
    { apply Z.divide_sub_r; [apply pow_divide; lia|exact Hd]. }
    clear L. apply Z.divide_pos_le in Hd2; lia.
Qed.

(** The product of a fraction and a number of elements, after rounding twice. *)
Lemma product_bounds (n f : Z) :
  1 <= n < 2 ^ 32 -> isFloat32 f -> 0 < f < one ->
  exists y, mul round32 (Finite f) (uint32ToFloat32 n) = Finite y /\ 0 < y < n * one.
Proof.
  intros Hn Hf Hb. destruct (uint32_conversion n Hn) as (m & -> & Hm & _ & Err & HF).
  pose proof pow_1075 as P. cbn [mul]. rewrite Z.mul_assoc, Z.div_mul by lia.
  pose proof (float32_unit f Hf) as Hu. apply Z.divide_pos_le in Hu; [|lia].
  pose proof (float32_less_than_one f Hf Hb) as Hf1.
  assert (P51 : one = 2 ^ 24 * ulpBelowOne) by reflexivity.
  set (N1 := m * one) in *. set (Nn := n * one) in *.
  assert (HP : f * m <= N1 - m * ulpBelowOne).
  { unfold N1. rewrite (Z.mul_comm f m), <- Z.mul_sub_distr_l. apply Z.mul_le_mono_nonneg_l; lia. }
  assert (Hlow : least32 <= f * m).
  { assert (f * 1 <= f * m) by (apply Z.mul_le_mono_nonneg_l; lia). lia. }
  assert (H926 : isFloat32 least32) by (exists 1, 926; repeat split; (reflexivity || lia)).
  assert (Q : 0 < ulpBelowOne) by reflexivity.
  assert (Hm51 : 0 < m * ulpBelowOne) by nia.
  destruct (round32_between least32 N1 (f * m) H926 HF ltac:(lia)) as (y & R & By).
  exists y. split; [exact R|]. split; [assert (0 < least32) by reflexivity; lia|].
  pose proof (exponent_bounds 24 926 N1) as (B1 & B2). set (e := exponent 24 926 N1) in *.
  assert (HN1 : one <= N1) by (unfold N1; rewrite <- (Z.mul_1_l one) at 1; apply Z.mul_le_mono_nonneg_r; lia).
  assert (He : 1052 <= e).
  { unfold e, exponent. rewrite Z.abs_eq by lia. apply Z.log2_le_mono in HN1. assert (Z.log2 one = 1075) by reflexivity. lia. }
  destruct (B2 ltac:(lia)) as [B3|B3]; [|lia]. rewrite Z.abs_eq in B3 by lia. replace (e + 24 - 1) with (e + 23) in B3 by lia.
  assert (Pe : 0 < 2 ^ (e - 2)) by (apply Z.pow_pos_nonneg; lia).
  assert (Pe1 : 2 ^ e = 4 * 2 ^ (e - 2)) by (change 4 with (2 ^ 2); rewrite <- Z.pow_add_r by lia; f_equal; lia).
  assert (Pe2 : 2 ^ (e - 1) = 2 * 2 ^ (e - 2)) by (rewrite <- Z.pow_succ_r by lia; f_equal; lia).
  assert (Pe23 : 2 ^ (e + 23) = 2 ^ 25 * 2 ^ (e - 2)) by (rewrite <- Z.pow_add_r by lia; f_equal; lia).
  assert (HNm : N1 = 2 ^ 24 * (m * ulpBelowOne)) by (unfold N1; rewrite P51; lia).
  set (w := 2 ^ (e - 2)) in *.
  change (2 ^ 25) with 33554432 in Pe23. change (2 ^ 24) with 16777216 in HNm.
  (* the distance between the product and the number of elements *)
  assert (Hgap : f * m <= N1 - 2 * w) by lia.
  destruct (Z.eq_dec N1 (2 ^ (e + 23))) as [Eq|N].
  - (* a power of two *)
    assert (Hz : y <= N1 - 2 * w).
    { eapply (round32_le (f * m) (N1 - 2 * w)); [|exact Hgap|exact R].
      exists (2 ^ 24 - 1), (e - 1). change (2 ^ 24 - 1) with 16777215. split; [lia|]. split; [reflexivity|]. split; [lia|].
      pose proof (float32_range N1 HF). lia. }
    destruct (Z.le_gt_cases N1 Nn) as [C|C]; [lia|].
    assert (Ee : exponent 24 926 Nn <= e - 1).
    { assert (L : Z.log2 Nn < e + 23) by (apply Z.log2_lt_pow2; lia). unfold exponent. rewrite Z.abs_eq by lia. lia. }
    assert (2 ^ exponent 24 926 Nn <= 2 ^ (e - 1)) by (apply Z.pow_le_mono_r; lia). lia.
  - (* strictly larger than a power of two *)
    pose proof (float32_pow N1 HF) as Hd. fold e in Hd.
    assert (Hgap2 : f * m < N1 - 2 * w) by lia.
    pose proof (exponent_mono 24 926 (f * m) N1 ltac:(lia)) as Em. fold e in Em.
    assert (Hz : y <= N1 - 4 * w).
    { destruct (Z.eq_dec (exponent 24 926 (f * m)) e) as [E1|E1].
      - pose proof (round_error 24 926 range32 _ _ ltac:(lia) R) as Err3. rewrite E1 in Err3.
        assert (Hy : y < N1) by lia.
        assert (Hdy : (2 ^ e | N1 - y)).
        { apply Z.divide_sub_r; [exact Hd|]. apply round_inv in R. rewrite E1 in R. rewrite R. exists (nearest (f * m) e). lia. }
        apply Z.divide_pos_le in Hdy; lia.
      - assert (Hl : f * m <= 2 ^ (e + 23)).
        { assert (Hlog : Z.log2 (f * m) < e + 23).
          { unfold exponent in Em, E1. rewrite Z.abs_eq in Em, E1 by lia. lia. }
          apply Z.lt_le_incl. apply Z.log2_lt_pow2; lia. }
        assert (y <= 2 ^ (e + 23)).
        { eapply (round32_le (f * m)); [|exact Hl|exact R]. exists 1, (e + 23). split; [lia|]. split; [reflexivity|]. split; [lia|].
          pose proof (float32_range N1 HF). lia. }
        assert (Hdy : (2 ^ e | N1 - 2 ^ (e + 23))) by (apply Z.divide_sub_r; [exact Hd|apply pow_divide; lia]).
        apply Z.divide_pos_le in Hdy; lia. }
    destruct (Z.le_gt_cases N1 Nn) as [C|C]; [lia|].
    pose proof (exponent_mono 24 926 Nn N1 ltac:(lia)) as En. fold e in En.
    assert (2 ^ exponent 24 926 Nn <= 2 ^ e) by (apply Z.pow_le_mono_r; [lia|exact En]). lia.
Qed.

(** ** Rounding to integers *)

Lemma ceil_bounds (z : Z) :
  exists c, ceil (Finite z) = Finite (c * one) /\ z <= c * one < z + one.
Proof.
  exists (- (- z / one)). split; [reflexivity|]. pose proof pow_1075 as P.
  pose proof (Z.div_mod (- z) one ltac:(lia)) as D. pose proof (Z.mod_pos_bound (- z) one P) as B.
  set (q := - z / one) in *. set (r := (- z) mod one) in *. clearbody q r.
  assert (E : - q * one = - (one * q)) by lia. rewrite E. set (u := one * q) in *. clearbody u. lia.
Qed.

Lemma toUint32_int (c : Z) : 0 <= c < 2 ^ 32 -> toUint32 (Finite (c * one)) = Some c.
Proof.
  intros H. pose proof pow_1075. unfold toUint32. cbv zeta. rewrite Z.quot_mul by lia.
  destruct (Z.leb_spec 0 c); [|lia]. destruct (Z.ltb_spec c (2 ^ 32)); [reflexivity|lia].
Qed.

Lemma toUint32_floor (z : Z) :
  0 <= z < 2 ^ 32 * one -> exists c, toUint32 (Finite z) = Some c /\ c * one <= z < (c + 1) * one.
Proof.
  intros H. pose proof pow_1075 as P. unfold toUint32. cbv zeta. rewrite Z.quot_div_nonneg by lia.
  pose proof (Z.div_mod z one ltac:(lia)) as D. pose proof (Z.mod_pos_bound z one P) as B.
  assert (L : z / one < 2 ^ 32) by (apply Z.div_lt_upper_bound; lia).
  assert (G : 0 <= z / one) by (apply Z.div_pos; lia).
  exists (z / one). set (q := z / one) in *. set (r := z mod one) in *. clearbody q r.
  destruct (Z.leb_spec 0 q); [|lia]. destruct (Z.ltb_spec q (2 ^ 32)); [|lia]. split; [reflexivity|].
  rewrite Z.mul_add_distr_r. rewrite (Z.mul_comm q). set (u := one * q) in *. clearbody u. lia.
Qed.

(** The result before it is restricted to the minimum and the maximum. *)
Lemma ceil_product (n f : Z) :
  1 <= n < 2 ^ 32 -> isFloat32 f -> 0 < f < one ->
  exists r, toUint32 (ceil (mul round32 (Finite f) (uint32ToFloat32 n))) = Some r /\ 1 <= r <= n.
Proof.
  intros Hn Hf Hb. destruct (product_bounds n f Hn Hf Hb) as (y & -> & By).
  destruct (ceil_bounds y) as (c & -> & Bc). pose proof pow_1075 as P.
  assert (0 < c) by (apply (Z.mul_lt_mono_pos_r one); lia).
  assert (c < n + 1).
  { apply (Z.mul_lt_mono_pos_r one); [lia|]. rewrite Z.mul_add_distr_r. lia. }
  exists c. split; [apply toUint32_int; lia|lia].
Qed.

Lemma bounded_fraction_range :
  forall n f minimum maximum,
  1 <= n < 2 ^ 32 -> isFloat32 f -> 0 < f < one -> 1 <= minimum -> 0 <= maximum ->
  maximum = 0 \/ minimum <= maximum ->
  exists r, calculateBoundedFraction n (Finite f) minimum maximum = Some r /\ Z.min minimum n <= r <= n /\
  (maximum <> 0 -> r <= maximum).
Proof.
  intros n f minimum maximum Hn Hf Hb Hmin Hmax HM. destruct (ceil_product n f Hn Hf Hb) as (r & E & Br).
  unfold calculateBoundedFraction. rewrite E. cbv zeta. eexists. split; [reflexivity|].
  assert (Em : (if n <? minimum then n else minimum) = Z.min minimum n) by (destruct (Z.ltb_spec n minimum); lia).
  rewrite Em. destruct (Z.ltb_spec r (Z.min minimum n)); [lia|].
  destruct (Z.leb_spec minimum maximum); destruct (Z.ltb_spec maximum r); cbn [andb]; lia.
Qed.

(** ** Accuracy *)

Lemma product_accuracy (n f k : Z) :
  1 <= n <= 2 ^ 24 -> isFloat32 f -> 0 < f <= one -> 0 <= k <= 2 ^ 24 ->
  exists y, mul round32 (Finite f) (uint32ToFloat32 n) = Finite y /\ 0 < y <= n * one /\
  (k * one <= f * n -> k * one <= y) /\ (f * n <= k * one -> y <= k * one).
Proof.
  intros Hn Hf Hb Hk. pose proof pow_1075 as P.
  assert (N32 : 1 <= n < 2 ^ 32) by (assert (2 ^ 24 < 2 ^ 32) by reflexivity; lia).
  destruct (uint32_conversion n N32) as (m & -> & _ & Em & _ & _). rewrite (Em ltac:(lia)). cbn [mul].
  rewrite Z.mul_assoc, Z.div_mul by lia.
  assert (H926 : isFloat32 least32) by (exists 1, 926; repeat split; (reflexivity || lia)).
  assert (HN : isFloat32 (n * one)) by (apply int_float32; lia).
  pose proof (float32_unit f Hf) as Hu. apply Z.divide_pos_le in Hu; [|lia].
  assert (B : least32 <= f * n <= n * one).
  { split; [assert (f * 1 <= f * n) by (apply Z.mul_le_mono_nonneg_l; lia); lia|].
    rewrite (Z.mul_comm f n). apply Z.mul_le_mono_nonneg_l; lia. }
  destruct (round32_between _ _ _ H926 HN B) as (y & R & By). exists y. split; [exact R|].
  assert (0 < least32) by reflexivity. split; [lia|]. split; intros C.
  - exact (round32_ge _ _ _ (int_float32 k Hk) C R).
  - exact (round32_le _ _ _ (int_float32 k Hk) C R).
Qed.

Lemma bounded_fraction_accuracy :
  forall n f,
  1 <= n <= 2 ^ 24 -> isFloat32 f -> 0 < f <= one ->
  exists r, calculateBoundedFraction n (Finite f) 1 0 = Some r /\ 1 <= r <= n /\ Z.abs (r * one - f * n) < one.
Proof.
  intros n f Hn Hf Hb. pose proof pow_1075 as P.
  assert (Hfn : 0 < f * n <= n * one).
  { split; [nia|]. rewrite (Z.mul_comm f n). apply Z.mul_le_mono_nonneg_l; lia. }
  pose proof (Z.div_mod (f * n) one ltac:(lia)) as D. pose proof (Z.mod_pos_bound (f * n) one P) as M.
  set (q := f * n / one) in *. set (w := (f * n) mod one) in *. clearbody q w.
  assert (Hq0 : 0 <= q) by nia. assert (Hqn : q <= n) by nia.
  rewrite (Z.mul_comm one q) in D.
  destruct (product_accuracy n f q Hn Hf Hb ltac:(lia)) as (y & E & By & L & _).
  specialize (L ltac:(lia)).
  assert (U : y <= (q + 1) * one /\ (w = 0 -> y <= q * one)).
  { rewrite Z.mul_add_distr_r. split.
    - destruct (Z.eq_dec q n) as [->|N]; [lia|].
      destruct (product_accuracy n f (q + 1) Hn Hf Hb ltac:(lia)) as (y' & E' & _ & _ & U).
      rewrite E in E'. injection E' as <-. rewrite Z.mul_add_distr_r in U. apply U. lia.
    - intros W. destruct (product_accuracy n f q Hn Hf Hb ltac:(lia)) as (y' & E' & _ & _ & U).
      rewrite E in E'. injection E' as <-. apply U. lia. }
  unfold calculateBoundedFraction. rewrite E. destruct (ceil_bounds y) as (c & -> & Bc).
  assert (Hc0 : 0 < c) by (apply (Z.mul_lt_mono_pos_r one); lia).
  assert (Hcn : c < n + 1) by (apply (Z.mul_lt_mono_pos_r one); [lia|]; rewrite Z.mul_add_distr_r; lia).
  assert (Hcq : q <= c).
  { assert (q < c + 1); [|lia]. apply (Z.mul_lt_mono_pos_r one); [lia|]. rewrite Z.mul_add_distr_r. lia. }
  assert (Hcu : c < q + 2 /\ (w = 0 -> c < q + 1)).
  { destruct U as (U1 & U2). rewrite Z.mul_add_distr_r in U1. split.
    - apply (Z.mul_lt_mono_pos_r one); [lia|]. rewrite Z.mul_add_distr_r. lia.
    - intros W. specialize (U2 W). apply (Z.mul_lt_mono_pos_r one); [lia|]. rewrite Z.mul_add_distr_r. lia. }
  rewrite toUint32_int by (assert (2 ^ 24 < 2 ^ 32) by reflexivity; lia). cbv zeta.
  exists c. split.
  - destruct (Z.ltb_spec n 1); [lia|]. destruct (Z.ltb_spec c 1); [lia|]. reflexivity.
  - split; [lia|]. rewrite D. assert (Cc : c = q \/ c = q + 1 /\ w <> 0) by lia.
    destruct Cc as [->|(-> & W)]; [|rewrite Z.mul_add_distr_r]; lia.
Qed.

(** ** Holdout sets *)

Lemma holdout_sizes :
  forall n f,
  1 <= n < 2 ^ 32 -> isFloat32 f -> 0 < f < one ->
  exists numTraining numHoldout, holdoutSizes (Finite f) n = Some (numTraining, numHoldout) /\
  1 <= numTraining /\ 0 <= numHoldout /\ numTraining + numHoldout = n.
Proof.
  intros n f Hn Hf Hb. destruct (product_bounds n f Hn Hf Hb) as (y & E & By). pose proof pow_1075 as P.
  assert (n * one <= 2 ^ 32 * one) by (apply Z.mul_le_mono_nonneg_r; lia).
  destruct (toUint32_floor y ltac:(lia)) as (c & E' & Bc). rewrite Z.mul_add_distr_r in Bc.
  assert (0 < c + 1) by (apply (Z.mul_lt_mono_pos_r one); [lia|]; rewrite Z.mul_add_distr_r; lia).
  assert (c < n) by (apply (Z.mul_lt_mono_pos_r one); lia).
  unfold holdoutSizes. rewrite E, E'. exists (n - c), c. split; [rewrite Z.mod_small by lia; reflexivity|lia].
Qed.

Lemma holdout_not_empty :
  forall n f,
  1 <= n <= 2 ^ 24 -> isFloat32 f -> 0 < f < one -> one <= f * n ->
  exists numTraining numHoldout, holdoutSizes (Finite f) n = Some (numTraining, numHoldout) /\
  1 <= numTraining /\ 1 <= numHoldout.
Proof.
  intros n f Hn Hf Hb Hfn. assert (N32 : 1 <= n < 2 ^ 32) by (assert (2 ^ 24 < 2 ^ 32) by reflexivity; lia).
  destruct (holdout_sizes n f N32 Hf Hb) as (t & h & E & Ht & Hh & _). exists t, h. split; [exact E|]. split; [exact Ht|].
  destruct (product_accuracy n f 1 Hn Hf ltac:(lia) ltac:(lia)) as (y & Ey & By & L & _). specialize (L ltac:(lia)).
  unfold holdoutSizes in E. rewrite Ey in E. pose proof pow_1075 as P.
  assert (n * one < 2 ^ 32 * one) by (apply Z.mul_lt_mono_pos_r; lia).
  destruct (toUint32_floor y ltac:(lia)) as (c & E' & Bc). rewrite E' in E. injection E as _ <-.
  assert (1 < c + 1); [|lia]. apply (Z.mul_lt_mono_pos_r one); lia.
Qed.

(** ** Findings *)

(** Large numbers of elements. *)
Lemma bounded_fraction_inaccurate :
  exists n f r, 1 <= n < 2 ^ 32 /\ isFloat32 f /\ 0 < f < one /\ calculateBoundedFraction n (Finite f) 1 0 = Some r /\
  63 * one < Z.abs (r * one - f * n).
Proof.
  exists (2 ^ 31 + 127), (2 ^ 1074), (2 ^ 30). split; [lia|].
  split; [exists 1, 1074; split; [reflexivity|]; split; [reflexivity|]; split; [lia|reflexivity]|].
  split; [split; reflexivity|]. split; [vm_compute; reflexivity|]. vm_compute. reflexivity.
Qed.

(** A fraction of one. *)
Lemma full_fraction_exceeds :
  exists n, 1 <= n < 2 ^ 32 /\ calculateBoundedFraction n (Finite one) 1 0 = Some (n + 1).
Proof. exists (2 ^ 24 + 3). split; [lia|]. vm_compute. reflexivity. Qed.

Lemma full_fraction_undefined :
  exists n, 1 <= n < 2 ^ 32 /\ calculateBoundedFraction n (Finite one) 1 0 = None.
Proof. exists (2 ^ 32 - 1). split; [lia|]. vm_compute. reflexivity. Qed.

(** The default size of the holdout set, 0.33, and three examples. *)
Lemma holdout_empty :
  exists n f numTraining, 1 <= n < 2 ^ 32 /\ isFloat32 f /\ 0 < f < one /\
  holdoutSizes (Finite f) n = Some (numTraining, 0).
Proof.
  exists 3, (11072963 * 2 ^ 1050), 3. split; [lia|].
  split; [exists 11072963, 1050; split; [reflexivity|]; split; [reflexivity|]; split; [lia|reflexivity]|].
  split; [split; reflexivity|]. vm_compute. reflexivity.
Qed.
