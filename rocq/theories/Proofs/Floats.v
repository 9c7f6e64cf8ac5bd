(** Proofs of the properties of thresholds. *)
From Coq Require Import ZArith Znumtheory Lia Bool.
From Verif Require Import Model.Floats Spec.Floats.
Open Scope Z_scope.

(** ** Rounding *)

Lemma nearest_error (x e : Z) :
  0 <= e -> Z.abs (2 * (nearest x e * 2 ^ e - x)) <= 2 ^ e.
Proof.
  intros He. unfold nearest. cbv zeta. assert (P : 0 < 2 ^ e) by (apply Z.pow_pos_nonneg; lia).
  pose proof (Z.div_mod x (2 ^ e) ltac:(lia)) as D. pose proof (Z.mod_pos_bound x (2 ^ e) P) as B.
  set (q := x / 2 ^ e) in *. set (r := x mod 2 ^ e) in *. clearbody q r. set (p := 2 ^ e) in *. clearbody p. subst x.
  destruct (Z.ltb_spec (2 * r) p); [lia|]. destruct (Z.ltb_spec p (2 * r)); [lia|].
  destruct (Z.even q); lia.
Qed.

Lemma nearest_exact (x e : Z) :
  0 <= e -> (2 ^ e | x) -> nearest x e * 2 ^ e = x.
Proof.
  intros He Hd. assert (P : 0 < 2 ^ e) by (apply Z.pow_pos_nonneg; lia). unfold nearest. cbv zeta.
  rewrite (Zdivide_mod _ _ Hd). rewrite Z.mul_0_r. destruct (Z.ltb_spec 0 (2 ^ e)); [|lia].
  destruct Hd as (k & ->). rewrite Z.div_mul by lia. reflexivity.
Qed.

Lemma nearest_ge (x e k : Z) :
  0 <= e -> k * 2 ^ e <= x -> k <= nearest x e.
Proof.
  intros He H. assert (P : 0 < 2 ^ e) by (apply Z.pow_pos_nonneg; lia).
  assert (k <= x / 2 ^ e) by (apply Z.div_le_lower_bound; lia).
  unfold nearest. cbv zeta. destruct (_ <? _); [lia|]. destruct (_ <? _); [lia|]. destruct (Z.even _); lia.
Qed.

Lemma nearest_le (x e k : Z) :
  0 <= e -> x <= k * 2 ^ e -> nearest x e <= k.
Proof.
  intros He H. assert (P : 0 < 2 ^ e) by (apply Z.pow_pos_nonneg; lia).
  pose proof (Z.div_mod x (2 ^ e) ltac:(lia)) as D. pose proof (Z.mod_pos_bound x (2 ^ e) P) as B.
  unfold nearest. cbv zeta. set (q := x / 2 ^ e) in *. set (r := x mod 2 ^ e) in *. clearbody q r.
  set (p := 2 ^ e) in *. clearbody p. subst x.
  destruct (Z.ltb_spec (2 * r) p); [nia|]. assert (q < k) by nia.
  destruct (Z.ltb_spec p (2 * r)); [lia|]. destruct (Z.even q); lia.
Qed.

(** The result of rounding, if there is no overflow. *)
Lemma round_inv (d s r x y : Z) :
  round d s r x = Finite y -> y = nearest x (exponent d s x) * 2 ^ exponent d s x.
Proof. unfold round. cbv zeta. destruct (_ <? _); intros H; [injection H as <-; reflexivity|discriminate]. Qed.

Lemma exponent_bounds (d s x : Z) :
  s <= exponent d s x /\ (s < exponent d s x -> 2 ^ (exponent d s x + d - 1) <= Z.abs x \/ x = 0).
Proof.
  unfold exponent. split; [lia|]. intros H.
  assert (E : Z.max (Z.log2 (Z.abs x) + 1 - d) s = Z.log2 (Z.abs x) + 1 - d) by lia. rewrite E.
  destruct (Z.eq_dec x 0) as [->|N]; [right; reflexivity|left].
  replace (Z.log2 (Z.abs x) + 1 - d + d - 1) with (Z.log2 (Z.abs x)) by lia.
  apply Z.log2_spec. lia.
Qed.

Lemma exponent_mono (d s x y : Z) :
  Z.abs x <= Z.abs y -> exponent d s x <= exponent d s y.
Proof. intros H. unfold exponent. pose proof (Z.log2_le_mono _ _ H). lia. Qed.

(** Values that can be represented with the given number of digits. *)
Lemma round_ge (d s x z k e : Z) :
  0 < d -> 0 <= s -> z = k * 2 ^ e -> Z.abs k < 2 ^ d -> s <= e -> z <= x ->
  z <= nearest x (exponent d s x) * 2 ^ exponent d s x.
Proof.
  intros Hd Hs -> Hk He Hx. pose proof (exponent_bounds d s x) as (B1 & B2). set (f := exponent d s x) in *. clearbody f.
  assert (Pf : 0 < 2 ^ f) by (apply Z.pow_pos_nonneg; lia).
  destruct (Z.le_gt_cases f e) as [Hfe|Hfe].
  - replace e with ((e - f) + f) in * by lia. rewrite Z.pow_add_r in * by lia.
    rewrite Z.mul_assoc in *. apply Z.mul_le_mono_nonneg_r; [lia|]. apply nearest_ge; lia.
  - specialize (B2 ltac:(lia)). assert (Pe : 0 < 2 ^ e) by (apply Z.pow_pos_nonneg; lia).
    assert (Pd : 0 < 2 ^ d) by (apply Z.pow_pos_nonneg; lia).
    assert (Hsmall : Z.abs (k * 2 ^ e) < 2 ^ (f + d - 1)).
    { rewrite Z.abs_mul, (Z.abs_eq (2 ^ e)) by lia.
      assert (2 ^ (f + d - 1) = 2 ^ (f - 1 - e) * (2 ^ d * 2 ^ e)) as ->.
      { rewrite <- !Z.pow_add_r by lia. f_equal. lia. }
      assert (1 <= 2 ^ (f - 1 - e)) by (apply (Z.pow_le_mono_r 2 0 (f - 1 - e)); lia).
      assert (Z.abs k * 2 ^ e < 2 ^ d * 2 ^ e) by (apply Z.mul_lt_mono_pos_r; lia). nia. }
    destruct B2 as [B2| ->].
    + assert (Hx0 : 2 ^ (f + d - 1) <= x) by lia.
      assert (2 ^ (d - 1) <= nearest x f).
      { apply nearest_ge; [lia|]. rewrite <- Z.pow_add_r by lia. replace (d - 1 + f) with (f + d - 1) by lia. exact Hx0. }
      assert (2 ^ (f + d - 1) <= nearest x f * 2 ^ f).
      { replace (f + d - 1) with (d - 1 + f) by lia. rewrite Z.pow_add_r by lia. nia. }
      lia.
    + rewrite nearest_exact; [lia|lia|]. exists 0. lia.
Qed.

Lemma round_le (d s x z k e : Z) :
  0 < d -> 0 <= s -> z = k * 2 ^ e -> Z.abs k < 2 ^ d -> s <= e -> x <= z ->
  nearest x (exponent d s x) * 2 ^ exponent d s x <= z.
Proof.
  intros Hd Hs -> Hk He Hx. pose proof (exponent_bounds d s x) as (B1 & B2). set (f := exponent d s x) in *. clearbody f.
  assert (Pf : 0 < 2 ^ f) by (apply Z.pow_pos_nonneg; lia).
  destruct (Z.le_gt_cases f e) as [Hfe|Hfe].
  - replace e with ((e - f) + f) in * by lia. rewrite Z.pow_add_r in * by lia.
    rewrite Z.mul_assoc in *. apply Z.mul_le_mono_nonneg_r; [lia|]. apply nearest_le; lia.
  - specialize (B2 ltac:(lia)). assert (Pe : 0 < 2 ^ e) by (apply Z.pow_pos_nonneg; lia).
    assert (Pd : 0 < 2 ^ d) by (apply Z.pow_pos_nonneg; lia).
    assert (Hsmall : Z.abs (k * 2 ^ e) < 2 ^ (f + d - 1)).
    { rewrite Z.abs_mul, (Z.abs_eq (2 ^ e)) by lia.
      assert (2 ^ (f + d - 1) = 2 ^ (f - 1 - e) * (2 ^ d * 2 ^ e)) as ->.
      { rewrite <- !Z.pow_add_r by lia. f_equal. lia. }
      assert (1 <= 2 ^ (f - 1 - e)) by (apply (Z.pow_le_mono_r 2 0 (f - 1 - e)); lia).
      assert (Z.abs k * 2 ^ e < 2 ^ d * 2 ^ e) by (apply Z.mul_lt_mono_pos_r; lia). nia. }
    destruct B2 as [B2| ->].
    + assert (Hx0 : x <= - 2 ^ (f + d - 1)) by lia.
      assert (nearest x f <= - 2 ^ (d - 1)).
      { apply nearest_le; [lia|]. rewrite Z.mul_opp_l. rewrite <- Z.pow_add_r by lia.
        replace (d - 1 + f) with (f + d - 1) by lia. exact Hx0. }
      assert (nearest x f * 2 ^ f <= - 2 ^ (f + d - 1)).
      { replace (f + d - 1) with (d - 1 + f) by lia. rewrite Z.pow_add_r by lia. nia. }
      lia.
    + rewrite nearest_exact; [lia|lia|]. exists 0. lia.
Qed.

Lemma nearest_opp (x e : Z) :
  0 <= e -> nearest (- x) e = - nearest x e.
Proof.
  intros He. assert (P : 0 < 2 ^ e) by (apply Z.pow_pos_nonneg; lia). unfold nearest. cbv zeta.
  destruct (Z.eq_dec (x mod 2 ^ e) 0) as [E|N].
  - rewrite (Z.mod_opp_l_z x (2 ^ e)), (Z.div_opp_l_z x (2 ^ e)), E by lia. rewrite Z.mul_0_r.
    destruct (Z.ltb_spec 0 (2 ^ e)); lia.
  - rewrite (Z.mod_opp_l_nz x (2 ^ e)), (Z.div_opp_l_nz x (2 ^ e)) by lia.
    set (q := x / 2 ^ e). set (r := x mod 2 ^ e) in *. set (p := 2 ^ e) in *. clearbody q r p.
    destruct (Z.ltb_spec (2 * (p - r)) p); destruct (Z.ltb_spec (2 * r) p); try lia.
    + destruct (Z.ltb_spec p (2 * r)); lia.
    + destruct (Z.ltb_spec p (2 * (p - r))); lia.
    + destruct (Z.ltb_spec p (2 * (p - r))); destruct (Z.ltb_spec p (2 * r)); try lia.
      replace (- q - 1) with (- (q + 1)) by lia. rewrite Z.even_opp, Z.even_add. simpl (Z.even 1).
      destruct (Z.even q); simpl; lia.
Qed.

Lemma exponent_opp (d s x : Z) : exponent d s (- x) = exponent d s x.
Proof. unfold exponent. now rewrite Z.abs_opp. Qed.

Lemma round_finite_opp (d s r x y : Z) :
  0 <= s -> round d s r x = Finite y -> round d s r (- x) = Finite (- y).
Proof.
  intros Hs. unfold round. cbv zeta. rewrite exponent_opp. pose proof (exponent_bounds d s x) as (B & _).
  rewrite nearest_opp by lia. rewrite Z.mul_opp_l, Z.abs_opp.
  destruct (_ <? _); intros H; [injection H as <-; reflexivity|discriminate].
Qed.

Lemma round_error (d s r x y : Z) :
  0 <= s -> round d s r x = Finite y -> Z.abs (2 * (y - x)) <= 2 ^ exponent d s x.
Proof.
  intros Hs H. apply round_inv in H. subst y. pose proof (exponent_bounds d s x) as (B & _). apply nearest_error. lia.
Qed.

(** ** Single-precision values *)

Lemma float32_pow (z : Z) :
  isFloat32 z -> (2 ^ exponent 24 926 z | z).
Proof.
  intros (k & e & -> & Hk & He & _). destruct (Z.eq_dec k 0) as [->|N]; [exists 0; lia|].
  assert (P : 0 < 2 ^ e) by (apply Z.pow_pos_nonneg; lia).
  assert (Hl : Z.log2 (Z.abs (k * 2 ^ e)) < 24 + e).
  { apply Z.log2_lt_pow2; [nia|]. rewrite Z.abs_mul, (Z.abs_eq (2 ^ e)) by lia. rewrite Z.pow_add_r by lia. nia. }
  assert (Hf : exponent 24 926 (k * 2 ^ e) <= e) by (unfold exponent; lia).
  pose proof (exponent_bounds 24 926 (k * 2 ^ e)) as (B & _). set (f := exponent 24 926 (k * 2 ^ e)) in *. clearbody f.
  exists (k * 2 ^ (e - f)). rewrite <- Z.mul_assoc, <- Z.pow_add_r by lia. do 2 f_equal. lia.
Qed.

Lemma pow_divide (m n : Z) : 0 <= m <= n -> (2 ^ m | 2 ^ n).
Proof. intros H. exists (2 ^ (n - m)). rewrite <- Z.pow_add_r by lia. f_equal. lia. Qed.

Lemma float32_unit (z : Z) : isFloat32 z -> (least32 | z).
Proof.
  intros (k & e & -> & _ & He & _). apply Z.divide_mul_r. apply pow_divide. lia.
Qed.

Lemma float32_range (z : Z) : isFloat32 z -> Z.abs z < range32.
Proof. intros (k & e & _ & _ & _ & H). exact H. Qed.

Lemma round32_ge (x z y : Z) :
  isFloat32 z -> z <= x -> round32 x = Finite y -> z <= y.
Proof.
  intros (k & e & Hz & Hk & He & _) H R. apply round_inv in R. subst y. apply (round_ge 24 926 x z k e); lia.
Qed.

Lemma round32_le (x z y : Z) :
  isFloat32 z -> x <= z -> round32 x = Finite y -> y <= z.
Proof.
  intros (k & e & Hz & Hk & He & _) H R. apply round_inv in R. subst y. apply (round_le 24 926 x z k e); lia.
Qed.

Lemma pow_24_53 : 2 ^ 24 < 2 ^ 53. Proof. apply Z.pow_lt_mono_r; lia. Qed.

Lemma round64_ge (x z y : Z) :
  isFloat32 z -> z <= x -> round64 x = Finite y -> z <= y.
Proof.
  intros (k & e & Hz & Hk & He & _) H R. apply round_inv in R. subst y. pose proof pow_24_53.
  apply (round_ge 53 1 x z k e); lia.
Qed.

Lemma round64_le (x z y : Z) :
  isFloat32 z -> x <= z -> round64 x = Finite y -> y <= z.
Proof.
  intros (k & e & Hz & Hk & He & _) H R. apply round_inv in R. subst y. pose proof pow_24_53.
  apply (round_le 53 1 x z k e); lia.
Qed.

(** Rounding a value that lies between two single-precision values does not cause an overflow. *)
Lemma round32_between (a b x : Z) :
  isFloat32 a -> isFloat32 b -> a <= x <= b -> exists y, round32 x = Finite y /\ a <= y <= b.
Proof.
  intros Ha Hb H. destruct (round32 x) as [y| |] eqn:R.
  - exists y. split; [reflexivity|]. split; [eapply round32_ge|eapply round32_le]; eauto; lia.
  - exfalso. unfold round32, round in R. cbv zeta in R.
    destruct Ha as (k & e & Hz & Hk & He & Hr). destruct Hb as (k' & e' & Hz' & Hk' & He' & Hr').
    pose proof (round_ge 24 926 x a k e ltac:(lia) ltac:(lia) Hz Hk He ltac:(lia)) as L.
    pose proof (round_le 24 926 x b k' e' ltac:(lia) ltac:(lia) Hz' Hk' He' ltac:(lia)) as U.
    set (y := nearest x (exponent 24 926 x) * 2 ^ exponent 24 926 x) in *. clearbody y.
    destruct (Z.ltb_spec (Z.abs y) range32); [discriminate|lia].
  - exfalso. unfold round32, round in R. cbv zeta in R. destruct (_ <? _); discriminate.
Qed.

Lemma pow_ranges : range32 < range64. Proof. apply Z.pow_lt_mono_r; lia. Qed.

Lemma round64_between (a b x : Z) :
  isFloat32 a -> isFloat32 b -> a <= x <= b -> exists y, round64 x = Finite y /\ a <= y <= b.
Proof.
  intros Ha Hb H. destruct (round64 x) as [y| |] eqn:R.
  - exists y. split; [reflexivity|]. split; [eapply round64_ge|eapply round64_le]; eauto; lia.
  - exfalso. unfold round64, round in R. cbv zeta in R. pose proof pow_24_53. pose proof pow_ranges as PR.
    destruct Ha as (k & e & Hz & Hk & He & Hr). destruct Hb as (k' & e' & Hz' & Hk' & He' & Hr').
    pose proof (round_ge 53 1 x a k e ltac:(lia) ltac:(lia) Hz ltac:(lia) ltac:(lia) ltac:(lia)) as L.
    pose proof (round_le 53 1 x b k' e' ltac:(lia) ltac:(lia) Hz' ltac:(lia) ltac:(lia) ltac:(lia)) as U.
    set (y := nearest x (exponent 53 1 x) * 2 ^ exponent 53 1 x) in *. clearbody y.
    destruct (Z.ltb_spec (Z.abs y) range64); [discriminate|lia].
  - exfalso. unfold round64, round in R. cbv zeta in R. destruct (_ <? _); discriminate.
Qed.

(** ** Means *)

Lemma zero_float32 : isFloat32 0.
Proof. exists 0, 926. split; [reflexivity|]. split; [reflexivity|]. split; [lia|]. reflexivity. Qed.

(** Half of a rounded difference is exact. *)
Lemma half_exact (x d : Z) :
  round32 x = Finite d -> exists h, d = 2 * h /\ scale64 1 (Finite d) = Finite h.
Proof.
  intros R. pose proof (exponent_bounds 24 926 x) as (B & _).
  assert (Hd := R). apply round_inv in Hd. set (e := exponent 24 926 x) in *. set (n := nearest x e) in *.
  assert (Hr : Z.abs d < range32).
  { unfold round32, round in R. cbv zeta in R. fold e in R. fold n in R.
    destruct (Z.ltb_spec (Z.abs (n * 2 ^ e)) range32); [|discriminate]. injection R as <-. assumption. }
  assert (Pe : 2 ^ e = 2 * 2 ^ (e - 1)) by (rewrite <- Z.pow_succ_r by lia; f_equal; lia).
  exists (n * 2 ^ (e - 1)). assert (E : d = 2 * (n * 2 ^ (e - 1))) by (rewrite Hd, Pe; lia).
  split; [exact E|]. unfold scale64. change (2 ^ 1) with 2.
  assert (Hh : d / 2 = n * 2 ^ (e - 1)) by (rewrite E, Z.mul_comm, Z.div_mul by lia; reflexivity). rewrite Hh.
  set (h := n * 2 ^ (e - 1)) in *.
  assert (Hn : Z.abs n <= 2 ^ 24).
  { assert (Hx : Z.abs x <= 2 ^ 24 * 2 ^ e).
    { destruct (Z.eq_dec x 0) as [->|N]; [simpl (Z.abs 0); apply Z.mul_nonneg_nonneg; apply Z.pow_nonneg; lia|].
      pose proof (Z.log2_spec (Z.abs x) ltac:(lia)) as (_ & L). rewrite <- Z.pow_add_r by lia.
      assert (2 ^ Z.succ (Z.log2 (Z.abs x)) <= 2 ^ (24 + e)); [|lia].
      apply Z.pow_le_mono_r; [lia|]. subst e. unfold exponent in *. lia. }
    assert (n <= 2 ^ 24) by (apply nearest_le; lia). assert (- 2 ^ 24 <= n) by (apply nearest_ge; lia). lia. }
  pose proof pow_24_53.
  assert (L : h <= nearest h (exponent 53 1 h) * 2 ^ exponent 53 1 h)
    by (apply (round_ge 53 1 h h n (e - 1)); try lia; reflexivity).
  assert (U : nearest h (exponent 53 1 h) * 2 ^ exponent 53 1 h <= h)
    by (apply (round_le 53 1 h h n (e - 1)); try lia; reflexivity).
  unfold round64, round. cbv zeta. replace (nearest h (exponent 53 1 h) * 2 ^ exponent 53 1 h) with h by lia.
  pose proof pow_ranges. destruct (Z.ltb_spec (Z.abs h) range64); [reflexivity|lia].
Qed.

(** The mean is obtained by rounding twice. *)
Lemma mean_steps (a b d : Z) :
  isFloat32 a -> isFloat32 b -> a < b -> sub round32 (Finite b) (Finite a) = Finite d ->
  exists h s t, d = 2 * h /\ 0 <= h /\ a + h <= b /\ round64 (a + h) = Finite s /\ a <= s <= b /\ round32 s = Finite t /\
  a <= t <= b /\ arithmeticMean (Finite a) (Finite b) = Finite t.
Proof.
  intros Ha Hb Hlt Hd. assert (R := Hd). cbn [sub negate add] in R.
  destruct (half_exact _ _ R) as (h & E & Hs).
  assert (H0 : 0 <= d) by (eapply round32_ge; [exact zero_float32| |exact R]; lia).
  assert (HD : (least32 | b + - a)).
  { apply Z.divide_add_r; [apply float32_unit; exact Hb|]. apply Z.divide_opp_r. apply float32_unit. exact Ha. }
  pose proof (round_error 24 926 range32 _ _ ltac:(lia) R) as Err.
  pose proof (exponent_bounds 24 926 (b + - a)) as (B1 & B2). set (e := exponent 24 926 (b + - a)) in *.
  assert (He : 2 ^ e <= 2 * (b + - a)).
  { destruct (Z.eq_dec e 926) as [->|N].
    - fold least32. apply Z.divide_pos_le in HD; lia.
    - destruct (B2 ltac:(lia)) as [B3|B3]; [|lia].
      assert (2 ^ e <= 2 ^ (e + 24 - 1)) by (apply Z.pow_le_mono_r; lia). lia. }
  assert (Hm : a + h <= b) by lia.
  destruct (round64_between a b (a + h) Ha Hb ltac:(lia)) as (s & Rs & Bs).
  destruct (round32_between a b s Ha Hb Bs) as (t & Rt & Bt).
  exists h, s, t. repeat (split; [assumption || lia|]).
  unfold arithmeticMean. rewrite Hd, Hs. cbn [add]. rewrite Rs. cbn [toFloat32]. exact Rt.
Qed.

Lemma mean_between :
  forall a b,
  isFloat32 a -> isFloat32 b -> a < b -> differenceIsFinite a b ->
  leqb (Finite a) (arithmeticMean (Finite a) (Finite b)) = true /\
  leqb (arithmeticMean (Finite a) (Finite b)) (Finite b) = true.
Proof.
  intros a b Ha Hb Hlt (d & Hd). destruct (mean_steps a b d Ha Hb Hlt Hd) as (h & s & t & _ & _ & _ & _ & _ & _ & Bt & ->).
  cbn [leqb]. split; apply Z.leb_le; lia.
Qed.

(** If two values are not considered to be equal, their rounded difference exceeds the distance of the larger one, in terms of
    absolute values, to the next value. *)
Lemma isEqual_false (a b d : Z) :
  isFloat32 a -> isFloat32 b -> a < b -> sub round32 (Finite b) (Finite a) = Finite d ->
  isEqual (Finite a) (Finite b) = false -> 2 ^ exponent 24 926 (Z.max (Z.abs a) (Z.abs b)) < d.
Proof.
  intros Ha Hb Hlt Hd Hn. cbn [sub negate add] in Hd.
  assert (H0 : 0 <= d) by (eapply round32_ge; [exact zero_float32| |exact Hd]; lia).
  assert (Hd' : sub round32 (Finite a) (Finite b) = Finite (- d)).
  { cbn [sub negate add]. replace (a + - b) with (- (b + - a)) by lia. apply round_finite_opp; [lia|exact Hd]. }
  unfold isEqual in Hn. rewrite Hd' in Hn. cbn [fabs] in Hn. rewrite Z.abs_opp, (Z.abs_eq d H0) in Hn.
  set (M := Z.max (Z.abs a) (Z.abs b)).
  assert (EM : fmax (Finite (Z.abs a)) (Finite (Z.abs b)) = Finite M).
  { unfold fmax, leqb. destruct (Z.leb_spec (Z.abs a) (Z.abs b)); f_equal; lia. }
  rewrite EM in Hn.
  assert (EX : fmax (Finite one) (Finite M) = Finite (Z.max one M)).
  { unfold fmax, leqb. destruct (Z.leb_spec one M); f_equal; lia. }
  rewrite EX in Hn. set (X := Z.max one M) in *. cbn [scale64] in Hn.
  destruct (round64 (X / 2 ^ 23)) as [y|n|] eqn:R.
  - cbn [leqb] in Hn. apply Z.leb_gt in Hn.
    pose proof (exponent_bounds 24 926 M) as (B1 & B2). set (e := exponent 24 926 M) in *.
    assert (Hx : 2 ^ e <= X / 2 ^ 23).
    { apply Z.div_le_lower_bound; [reflexivity|]. rewrite <- Z.pow_add_r by lia.
      destruct (Z.eq_dec e 926) as [->|N].
      - assert (2 ^ (23 + 926) <= one) by (apply Z.pow_le_mono_r; lia). lia.
      - destruct (B2 ltac:(lia)) as [B3|B3]; [|lia]. replace (e + 24 - 1) with (23 + e) in B3 by lia. lia. }
    assert (2 ^ e <= y); [|lia]. apply round_inv in R. rewrite R.
    apply (round_ge 53 1 _ (2 ^ e) 1 e); lia.
  - exfalso. unfold round64, round in R. cbv zeta in R.
    assert (HX : 0 <= X / 2 ^ 23) by (apply Z.div_pos; [lia|reflexivity]).
    destruct (_ <? range64); [discriminate|]. injection R as E. destruct n; [apply Z.ltb_lt in E; lia|].
    cbn [leqb] in Hn. discriminate.
  - exfalso. unfold round64, round in R. cbv zeta in R. destruct (_ <? _); discriminate.
Qed.

(** Small differences are exact. *)
Lemma small_difference (a b d : Z) :
  let e := exponent 24 926 (Z.max (Z.abs a) (Z.abs b)) in
  isFloat32 a -> isFloat32 b -> a < b -> b - a < 4 * 2 ^ e -> sub round32 (Finite b) (Finite a) = Finite d ->
  d = b - a /\ (2 ^ Z.max (e - 1) 926 | b - a).
Proof.
  intros e Ha Hb Hlt Hs Hd. set (M := Z.max (Z.abs a) (Z.abs b)) in *.
  pose proof (exponent_bounds 24 926 M) as (B1 & B2). fold e in B1, B2.
  assert (Pe : 0 < 2 ^ e) by (apply Z.pow_pos_nonneg; lia).
  assert (G : forall z, isFloat32 z -> M - Z.abs z < 4 * 2 ^ e -> (2 ^ Z.max (e - 1) 926 | z)).
  { intros z Hz Hc. eapply Z.divide_trans; [|apply float32_pow; exact Hz]. apply pow_divide. split; [lia|].
    apply Z.max_lub; [|apply exponent_bounds]. destruct (Z.eq_dec e 926) as [->|N].
    - pose proof (exponent_bounds 24 926 z). lia.
    - destruct (B2 ltac:(lia)) as [B3|B3]; [|lia].
      assert (E : 2 ^ (e + 24 - 1) = 2 ^ 23 * 2 ^ e) by (rewrite <- Z.pow_add_r by lia; f_equal; lia).
      assert (E' : 2 ^ (e + 22) = 2 ^ 22 * 2 ^ e) by (rewrite <- Z.pow_add_r by lia; f_equal; lia).
      change (2 ^ 23) with 8388608 in E. change (2 ^ 22) with 4194304 in E'.
      assert (Hz2 : 2 ^ (e + 22) <= Z.abs z) by lia.
      apply Z.log2_le_mono in Hz2. rewrite Z.log2_pow2 in Hz2 by lia. unfold exponent. lia. }
  assert (Hdiv : (2 ^ Z.max (e - 1) 926 | b - a)) by (apply Z.divide_sub_r; apply G; try assumption; lia).
  split; [|exact Hdiv]. cbn [sub negate add] in Hd. apply round_inv in Hd. rewrite Hd.
  replace (b + - a) with (b - a) by lia. apply nearest_exact; [pose proof (exponent_bounds 24 926 (b - a)); lia|].
  eapply Z.divide_trans; [|exact Hdiv]. apply pow_divide.
  pose proof (exponent_bounds 24 926 (b - a)) as (B3 & _). split; [lia|].
  assert (L : Z.log2 (Z.abs (b - a)) < e + 2).
  { apply Z.log2_lt_pow2; [lia|]. rewrite Z.pow_add_r by lia. change (2 ^ 2) with 4. lia. }
  unfold exponent in *. lia.
Qed.

Lemma mean_separates :
  forall a b,
  isFloat32 a -> isFloat32 b -> a < b -> isEqual (Finite a) (Finite b) = false -> differenceIsFinite a b ->
  separates (arithmeticMean (Finite a) (Finite b)) a b.
Proof.
  intros a b Ha Hb Hlt Hn (d & Hd). pose proof (isEqual_false a b d Ha Hb Hlt Hd Hn) as Hu.
  pose proof (small_difference a b d) as Small. cbv zeta in Small.
  destruct (mean_steps a b d Ha Hb Hlt Hd) as (h & s & t & Eh & H0 & Hm & Rs & Bs & Rt & Bt & ->).
  set (M := Z.max (Z.abs a) (Z.abs b)) in *. pose proof (exponent_bounds 24 926 M) as (B1 & _).
  pose proof (exponent_mono 24 926 s M ltac:(lia)) as Es.
  pose proof (exponent_mono 53 1 (a + h) M ltac:(lia)) as Em.
  assert (E53 : exponent 53 1 M <= exponent 24 926 M - 3) by (unfold exponent; lia).
  pose proof (exponent_mono 24 926 (b + - a) (2 * M) ltac:(lia)) as Ed.
  assert (E2 : exponent 24 926 (2 * M) <= exponent 24 926 M + 1).
  { unfold exponent. rewrite Z.abs_mul. change (Z.abs 2) with 2. rewrite Z.log2_double by lia. lia. }
  set (e := exponent 24 926 M) in *.
  assert (Pe : 2 ^ e = 8 * 2 ^ (e - 3)) by (change 8 with (2 ^ 3); rewrite <- Z.pow_add_r by lia; f_equal; lia).
  assert (Pe1 : 2 ^ (e - 1) = 4 * 2 ^ (e - 3)) by (change 4 with (2 ^ 2); rewrite <- Z.pow_add_r by lia; f_equal; lia).
  assert (Pw : 0 < 2 ^ (e - 3)) by (apply Z.pow_pos_nonneg; lia).
  pose proof (round_error 53 1 range64 _ _ ltac:(lia) Rs) as Err1.
  pose proof (round_error 24 926 range32 _ _ ltac:(lia) Rt) as Err2.
  assert (P1 : 2 ^ exponent 53 1 (a + h) <= 2 ^ (e - 3)) by (apply Z.pow_le_mono_r; lia).
  assert (P2 : 2 ^ exponent 24 926 s <= 2 ^ e) by (apply Z.pow_le_mono_r; lia).
  assert (Hh : 6 * 2 ^ (e - 3) <= b - (a + h)).
  { destruct (Z.lt_ge_cases (b - a) (4 * 2 ^ e)) as [Hs|Hs].
    - destruct (Small Ha Hb Hlt Hs Hd) as (Ex & Dv).
      destruct (Z.eq_dec e 926) as [E|N].
      + replace (Z.max (e - 1) 926) with e in Dv by lia. destruct Dv as (j & Ej). assert (1 < j) by nia.
        assert (2 * 2 ^ e <= j * 2 ^ e) by (apply Z.mul_le_mono_nonneg_r; lia). lia.
      + replace (Z.max (e - 1) 926) with (e - 1) in Dv by lia. destruct Dv as (j & Ej). assert (2 < j) by nia.
        assert (3 * 2 ^ (e - 1) <= j * 2 ^ (e - 1)) by (apply Z.mul_le_mono_nonneg_r; lia). lia.
    - assert (Hd' := Hd). cbn [sub negate add] in Hd'. pose proof (round_error 24 926 range32 _ _ ltac:(lia) Hd') as Err3.
      assert (P3 : 2 ^ exponent 24 926 (b + - a) <= 2 ^ (e + 1)) by (apply Z.pow_le_mono_r; lia).
      rewrite Z.pow_add_r in P3 by lia. change (2 ^ 1) with 2 in P3. lia. }
  unfold separates, gtb. cbn [leqb]. split; [apply Z.leb_le; lia|]. apply negb_true_iff, Z.leb_gt. lia.
Qed.

(** ** Zero *)

Lemma round32_exact (z : Z) : isFloat32 z -> round32 z = Finite z.
Proof.
  intros H. destruct (round32_between z z z H H ltac:(lia)) as (y & -> & B). f_equal. lia.
Qed.

(** Rounding half of a positive single-precision value to single precision. *)
Lemma round32_half (b h t : Z) :
  isFloat32 b -> 0 < b -> b = 2 * h -> round32 h = Finite t -> t < b /\ (t = 0 <-> b = least32).
Proof.
  intros Hb H0 E R. pose proof (float32_unit b Hb) as (j & Ej).
  assert (P0 : 0 < least32) by reflexivity.
  pose proof (round_error 24 926 range32 _ _ ltac:(lia) R) as Err. pose proof (exponent_bounds 24 926 h) as (B1 & B2).
  assert (E' : b = j * least32) by exact Ej.
  destruct (Z.eq_dec j 1) as [->|N].
  - assert (Hh : h = 2 ^ 925).
    { assert (P : least32 = 2 * 2 ^ 925) by reflexivity. apply (Z.mul_cancel_l _ _ 2); [lia|]. rewrite <- E, <- P, E'. apply Z.mul_1_l. }
    subst h. assert (R0 : round32 (2 ^ 925) = Finite 0) by (vm_compute; reflexivity). rewrite R0 in R. injection R as <-.
    split; [exact H0|]. split; intros _; [|reflexivity]. rewrite E'. apply Z.mul_1_l.
  - assert (Hj : 2 <= j) by nia. assert (Hb2 : least32 <= h) by nia.
    assert (He : 2 ^ exponent 24 926 h <= h).
    { destruct (Z.eq_dec (exponent 24 926 h) 926) as [->|M]; [exact Hb2|].
      destruct (B2 ltac:(lia)) as [B3|B3]; [|lia].
      assert (2 ^ exponent 24 926 h <= 2 ^ (exponent 24 926 h + 24 - 1)) by (apply Z.pow_le_mono_r; lia). lia. }
    split; [lia|]. split; intros; [lia|nia].
Qed.

Lemma mean_zero (b : Z) :
  isFloat32 b -> 0 < b ->
  exists h t, b = 2 * h /\ round64 h = Finite h /\ round32 h = Finite t /\ 0 <= t.
Proof.
  intros Hb H0. destruct (half_exact _ _ (round32_exact b Hb)) as (h & E & Hs).
  unfold scale64 in Hs. change (2 ^ 1) with 2 in Hs. rewrite E, Z.mul_comm, Z.div_mul in Hs by lia.
  destruct (round32_between 0 b h zero_float32 Hb ltac:(lia)) as (t & Rt & Bt).
  exists h, t. repeat (split; [assumption|]). lia.
Qed.

Lemma mean_separates_zero_positive :
  forall b,
  isFloat32 b -> 0 < b -> separates (arithmeticMean (Finite 0) (Finite b)) 0 b.
Proof.
  intros b Hb H0. destruct (mean_zero b Hb H0) as (h & t & E & R & Rt & Ht). unfold arithmeticMean.
  cbn [sub negate add]. replace (b + - 0) with b by lia. rewrite (round32_exact b Hb).
  unfold scale64. change (2 ^ 1) with 2. replace (b / 2) with h by (rewrite E, Z.mul_comm, Z.div_mul by lia; reflexivity).
  rewrite R. cbn [add]. replace (0 + h) with h by lia. rewrite R. cbn [toFloat32]. rewrite Rt.
  destruct (round32_half b h t Hb H0 E Rt) as (L & _).
  unfold separates, gtb. cbn [leqb]. split; [apply Z.leb_le; lia|]. apply negb_true_iff, Z.leb_gt. lia.
Qed.

Lemma float32_opp (z : Z) : isFloat32 z -> isFloat32 (- z).
Proof.
  intros (k & e & -> & H). exists (- k), e. rewrite !Z.abs_opp. split; [lia|exact H].
Qed.

Lemma mean_separates_zero_negative :
  forall a,
  isFloat32 a -> a < 0 -> (separates (arithmeticMean (Finite a) (Finite 0)) a 0 <-> a <> - least32).
Proof.
  intros a Ha H0. destruct (mean_zero (- a) (float32_opp a Ha) ltac:(lia)) as (h & t & E & R & Rt & Ht).
  destruct (round32_half (- a) h t (float32_opp a Ha) ltac:(lia) E Rt) as (L & Z0).
  assert (M : arithmeticMean (Finite a) (Finite 0) = Finite (- t)).
  { unfold arithmeticMean. cbn [sub negate add]. replace (0 + - a) with (- a) by lia.
    rewrite (round32_exact (- a) (float32_opp a Ha)).
    unfold scale64. change (2 ^ 1) with 2. replace (- a / 2) with h by (rewrite E, Z.mul_comm, Z.div_mul by lia; reflexivity).
    rewrite R. cbn [add]. replace (a + h) with (- h) by lia.
    assert (R' : round64 (- h) = Finite (- h)) by (apply round_finite_opp; [lia|exact R]). rewrite R'. cbn [toFloat32].
    apply round_finite_opp; [lia|exact Rt]. }
  rewrite M. unfold separates, gtb. cbn [leqb]. split.
  - intros (_ & G) C. apply negb_true_iff, Z.leb_gt in G. lia.
  - intros C. split; [apply Z.leb_le; lia|]. apply negb_true_iff, Z.leb_gt. lia.
Qed.

(** ** Findings *)

(** A difference that exceeds the range of single-precision values. *)
Lemma mean_overflow :
  exists a b, isFloat32 a /\ isFloat32 b /\ a < b /\ isEqual (Finite a) (Finite b) = false /\
  arithmeticMean (Finite a) (Finite b) = Infinite false /\ ~ separates (arithmeticMean (Finite a) (Finite b)) a b.
Proof.
  exists (- (7 * 2 ^ 1200)), (7 * 2 ^ 1200).
  split; [exists (-7), 1200; repeat split; vm_compute; congruence|].
  split; [exists 7, 1200; repeat split; vm_compute; congruence|].
  split; [reflexivity|]. split; [vm_compute; reflexivity|].
  assert (E : arithmeticMean (Finite (- (7 * 2 ^ 1200))) (Finite (7 * 2 ^ 1200)) = Infinite false) by (vm_compute; reflexivity).
  split; [exact E|]. rewrite E. intros (_ & C). vm_compute in C. discriminate.
Qed.

(** Neighbouring values. The second one is the sparse value. *)
Lemma mean_neighbours :
  exists a b, isFloat32 a /\ isFloat32 b /\ a < b /\ differenceIsFinite a b /\
  arithmeticMean (Finite a) (Finite b) = Finite b /\ ~ separates (arithmeticMean (Finite a) (Finite b)) a b.
Proof.
  exists (- least32), 0.
  assert (Ha : isFloat32 (- least32)) by (exists (-1), 926; repeat split; vm_compute; congruence).
  split; [exact Ha|]. split; [exact zero_float32|]. split; [reflexivity|].
  split; [exists least32; vm_compute; reflexivity|]. split; [vm_compute; reflexivity|].
  rewrite mean_separates_zero_negative; [|exact Ha|reflexivity]. intros C. apply C. reflexivity.
Qed.

Lemma isEqual_symmetric :
  forall a b,
  differenceIsFinite a b -> isEqual (Finite a) (Finite b) = isEqual (Finite b) (Finite a).
Proof.
  intros a b (d & Hd). unfold isEqual. rewrite Hd. cbn [sub negate add] in Hd.
  assert (Hd' : sub round32 (Finite a) (Finite b) = Finite (- d)).
  { cbn [sub negate add]. replace (a + - b) with (- (b + - a)) by lia. apply round_finite_opp; [lia|exact Hd]. }
  rewrite Hd'. cbn [fabs]. rewrite Z.abs_opp. f_equal. f_equal. f_equal. unfold fmax, leqb.
  destruct (Z.leb_spec (Z.abs a) (Z.abs b)); destruct (Z.leb_spec (Z.abs b) (Z.abs a)); f_equal; lia.
Qed.
