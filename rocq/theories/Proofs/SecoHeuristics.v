(** Proofs about the heuristics used by separate-and-conquer algorithms. *)
From Coq Require Import QArith Qabs List Bool Lia Lqa Psatz.
From Verif Require Import Model.SecoHeuristics Spec.SecoHeuristics.
Import ListNotations.
Open Scope Q_scope.

Lemma weightOf_nonneg f l : valid l -> 0 <= weightOf f l.
Proof.
  induction l as [|s l IH]; simpl; intros HV; [lra|]. inversion HV; subst. specialize (IH H2). destruct (f s); lra.
Qed.

Lemma weightOf_split f g h l : (forall s, f s = g s || h s) -> (forall s, g s && h s = false) ->
  weightOf f l == weightOf g l + weightOf h l.
Proof.
  intros H1 H2. induction l as [|s l IH]; simpl; [lra|]. rewrite H1. specialize (H2 s).
  destruct (g s), (h s); simpl in *; try discriminate; lra.
Qed.

Lemma weightOf_ext f g l : (forall s, f s = g s) -> weightOf f l == weightOf g l.
Proof. intros H. induction l as [|s l IH]; simpl; [lra|]. rewrite H. destruct (g s); lra. Qed.

Lemma fdiv_Some a b : ~ b == 0 -> fdiv a b = Some (a / b).
Proof.
  intros H. unfold fdiv. destruct (Qeq_bool b 0) eqn:E; auto. apply Qeq_bool_eq in E. contradiction.
Qed.
Lemma fdiv_None a b : b == 0 -> fdiv a b = None.
Proof. intros H. unfold fdiv. rewrite (proj2 (Qeq_bool_iff b 0) H). auto. Qed.
Lemma gtb_true a b : gtb a b = true <-> b < a.
Proof.
  unfold gtb. destruct (Qle_bool a b) eqn:E; simpl.
  - apply Qle_bool_iff in E. split; [discriminate|lra].
  - split; auto. intros _. apply Qnot_le_lt. intros H. apply Qle_bool_iff in H. congruence.
Qed.
Lemma gtb_false a b : gtb a b = false <-> a <= b.
Proof.
  split; intros H.
  - apply Qnot_lt_le. intros HL. apply gtb_true in HL. congruence.
  - destruct (gtb a b) eqn:E; auto. apply gtb_true in E. lra.
Qed.
Lemma fraction_inv a b q : fraction a b = Some q -> ~ b == 0 /\ q = a / b.
Proof.
  unfold fraction. destruct (Qeq_bool b 0) eqn:E; intros [= <-]. split; auto. intros H. apply Qeq_bool_iff in H. congruence.
Qed.
Lemma divideOrZero_pos a b : 0 < b -> divideOrZero a b = a / b.
Proof. intros. unfold divideOrZero. rewrite fdiv_Some by lra. auto. Qed.
Lemma divideOrZero_zero a b : b == 0 -> divideOrZero a b = 0.
Proof. intros. unfold divideOrZero. rewrite fdiv_None by auto. auto. Qed.

Lemma div_range a b : 0 <= a -> a <= b -> 0 < b -> 0 <= a / b <= 1.
Proof.
  intros. split; [apply Qle_shift_div_l; lra|apply Qle_shift_div_r; lra].
Qed.
Lemma divideOrZero_range a b : 0 <= a -> a <= b -> 0 <= divideOrZero a b <= 1.
Proof.
  intros Ha Hb. destruct (Qeq_dec b 0) as [E|E].
  - rewrite divideOrZero_zero by auto. lra.
  - rewrite divideOrZero_pos by (apply Qnot_le_lt; intros H; apply E; lra). apply div_range; auto.
    apply Qnot_le_lt; intros H; apply E; lra.
Qed.

(** The eight elements. *)
Section Elements.
Variables cin cip crn crp uin uip urn urp : Q.
Hypothesis (H1 : 0 <= cin) (H2 : 0 <= cip) (H3 : 0 <= crn) (H4 : 0 <= crp).
Hypothesis (H5 : 0 <= uin) (H6 : 0 <= uip) (H7 : 0 <= urn) (H8 : 0 <= urp).

Lemma wra_value : exists q, wra cin cip crn crp uin uip urn urp = Some q /\
  (0 < cin + crp + cip + crn ->
   q == (cin + crp + cip + crn) / (cin + crp + cip + crn + (uin + urp + uip + urn)) *
        ((cin + crp) / (cin + crp + cip + crn) - (uin + urp + (cin + crp)) / (cin + crp + cip + crn + (uin + urp + uip + urn)))) /\
  (cin + crp + cip + crn == 0 -> q == 0).
Proof.
  unfold wra. destruct (gtb (cin + crp + cip + crn) 0) eqn:E; cbn [andb].
  - apply gtb_true in E.
    assert (E2 : gtb (cin + crp + cip + crn + (uin + urp + uip + urn)) 0 = true) by (apply gtb_true; lra). rewrite E2.
    rewrite !fdiv_Some by lra. eexists. split; [reflexivity|]. split; [intros; apply Qeq_refl|lra].
  - apply gtb_false in E. exists 0. split; auto. split; [lra|reflexivity].
Qed.

(** The value of the weighted relative accuracy relative to the total. *)
Lemma wra_bounds q : wra cin cip crn crp uin uip urn urp = Some q -> - (1 # 4) <= q <= 1 # 4.
Proof.
  intros E. destruct wra_value as (q' & E' & HP & HZ). rewrite E in E'. injection E' as <-.
  destruct (Qlt_le_dec 0 (cin + crp + cip + crn)) as [HC|HC].
  - specialize (HP HC). rewrite HP. clear HP HZ E q.
    assert (exists c a e t, c = cin + crp + cip + crn /\ a = cin + crp /\ e = uin + urp + (cin + crp) /\
      t = cin + crp + cip + crn + (uin + urp + uip + urn)) as (c & a & e & t & Ec & Ea & Ee & Et) by (do 4 eexists; eauto).
    rewrite <- Ec, <- Ea in *. rewrite <- Ee. replace (c + (uin + urp + uip + urn)) with t by congruence.
    assert (F1 : 0 <= a /\ a <= c /\ a <= e /\ 0 <= e /\ e <= t /\ c <= t /\ c + e - t <= a /\ 0 < t)
      by (rewrite Ec, Ee, Et, Ea in *; repeat split; lra).
    clear Ec Ea Ee Et. destruct F1 as (F1 & F2 & F3 & F4 & F5 & F6 & F7 & Ht).
    assert (Hx : c / t * (a / c - e / t) == (a / t) - (c / t) * (e / t)) by (field; split; lra). rewrite Hx. clear Hx.
    assert (Hc : 0 <= c / t <= 1) by (apply div_range; lra).
    assert (He : 0 <= e / t <= 1) by (apply div_range; lra).
    assert (X : a / t * t == a) by (field; lra).
    assert (Ha1 : a / t <= c / t) by (apply Qle_shift_div_l; auto; rewrite X; lra).
    assert (Ha2 : a / t <= e / t) by (apply Qle_shift_div_l; auto; rewrite X; lra).
    assert (Ha3 : 0 <= a / t) by (apply Qle_shift_div_l; lra).
    assert (Ha4 : c / t + e / t - 1 <= a / t).
    { assert (Y : c / t + e / t - 1 == (c + e - t) / t) by (field; lra). rewrite Y. apply Qle_shift_div_l; auto.
      assert (Y' : (c + e - t) / t * t == c + e - t) by (field; lra). rewrite Y'. lra. }
    revert Hc He Ha1 Ha2 Ha3 Ha4. generalize (c / t) (e / t) (a / t). intros x y z Hx Hy Z1 Z2 Z3 Z4.
    assert (SQ : forall u : Q, 0 <= u * u) by (intros; nra).
    assert (PR : forall u v : Q, 0 <= u -> 0 <= v -> 0 <= u * v) by (intros; nra).
    split.
    + destruct (Qlt_le_dec (x + y) 1).
      * assert (I1 := SQ (x - y)). assert (I2 := PR (1 - x - y) (1 + x + y) ltac:(lra) ltac:(lra)). lra.
      * assert (I1 := SQ (x - y)). assert (I2 := PR (x + y - 1) (3 - x - y) ltac:(lra) ltac:(lra)). lra.
    + destruct (Qlt_le_dec x y).
      * assert (I1 := SQ (x - (1 # 2))). assert (I2 := PR x (y - x) ltac:(lra) ltac:(lra)). lra.
      * assert (I1 := SQ (y - (1 # 2))). assert (I2 := PR y (x - y) ltac:(lra) ltac:(lra)). lra.
  - rewrite HZ; lra.
Qed.

Lemma range_elements h : valid_heuristic h -> is_fraction h -> exists q,
  evaluate h cin cip crn crp uin uip urn urp = Some q /\ 0 <= q <= 1.
Proof.
  intros HV HF. assert (HPr : 0 <= precision cin cip crn crp <= 1) by (apply divideOrZero_range; lra).
  assert (HRe : 0 <= recall cin crp uin urp <= 1) by (apply divideOrZero_range; lra).
  destruct h as [| | | | |[beta|]|[m|]]; simpl in *; try contradiction; try (eexists; split; [reflexivity|auto]).
  - apply divideOrZero_range; lra.
  - unfold laplace. rewrite fdiv_Some by lra. eexists. split; [reflexivity|]. apply div_range; lra.
  - destruct (gtb beta 0) eqn:E; auto. apply divideOrZero_range; nra.
  - unfold mEstimate. destruct (gtb m 0) eqn:E; [|eauto]. apply gtb_true in E.
    remember (cin + crp + cip + crn + (uin + urp) + uip + urn) as t eqn:Et'.
    assert (Et : t == cin + crp + cip + crn + (uin + urp) + uip + urn) by (rewrite Et'; reflexivity).
    destruct (gtb t 0) eqn:ET; [|exists 0; split; auto; lra]. apply gtb_true in ET.
    rewrite fdiv_Some by lra. rewrite fdiv_Some by lra. eexists. split; [reflexivity|].
    assert (HX : 0 <= (cin + crp + (uin + urp)) / t <= 1) by (apply div_range; lra).
    apply div_range; [nra|nra|lra].
Qed.

Lemma defined_elements h : valid_heuristic h -> exists q, evaluate h cin cip crn crp uin uip urn urp = Some q.
Proof.
  intros HV. destruct h as [| | | | |beta|[m|]]; try (destruct wra_value as (q & E & _); exists q; exact E);
    try (destruct (range_elements _ HV I) as (q & E & _); exists q; exact E).
Qed.
End Elements.

Lemma w_nonneg l : valid l -> forall f, 0 <= weightOf f l.
Proof. intros H f. apply weightOf_nonneg, H. Qed.

Lemma heuristics_range :
  forall h l, valid l -> valid_heuristic h -> is_fraction h -> exists q, score h l = Some q /\ 0 <= q <= 1.
Proof. intros h l HV HH HF. apply range_elements; auto; apply weightOf_nonneg, HV. Qed.

Lemma heuristics_defined :
  forall h l, valid l -> valid_heuristic h -> exists q, score h l = Some q.
Proof. intros h l HV HH. apply defined_elements; auto; apply weightOf_nonneg, HV. Qed.

Lemma wra_range :
  forall h l, valid l -> h = Wra \/ h = MEstimate Infinite -> exists q, score h l = Some q /\ - (1 # 4) <= q <= 1 # 4.
Proof.
  intros h l HV HH. destruct (heuristics_defined h l HV) as (q & E). { destruct HH; subst h; exact I. }
  exists q. split; auto. destruct HH; subst h; eapply wra_bounds; try exact E; apply weightOf_nonneg, HV.
Qed.

(** Sums of elements. *)
Definition elem (l : list sample) (covered relevant predicted : bool) : Q :=
  weightOf (fun s => eqb (sCovered s) covered && eqb (sRelevant s) relevant && eqb (sPredicted s) predicted) l.

Ltac bools := intros [? [] [] []]; reflexivity.

Lemma sums l : let w := elem l in
  weightOf coveredCorrect l == w true false false + w true true true /\
  weightOf sCovered l == w true false false + w true true true + w true false true + w true true false /\
  weightOf correct l == w true false false + w true true true + (w false false false + w false true true) /\
  weightOf everything l == w true false false + w true true true + w true false true + w true true false +
                           (w false false false + w false true true + w false false true + w false true false) /\
  weightOf classifiedCorrectly l == w true false false + w true true true + (w false false true + w false true false).
Proof.
  cbv zeta. unfold elem.
  induction l as [|[x [] [] []] l (I1 & I2 & I3 & I4 & I5)]; simpl in *; unfold coveredCorrect, correct, classifiedCorrectly in *; simpl;
    repeat split; lra.
Qed.

Lemma score_elem h l : let w := elem l in score h l =
  evaluate h (w true false false) (w true false true) (w true true false) (w true true true)
             (w false false false) (w false false true) (w false true false) (w false true true).
Proof. reflexivity. Qed.

Lemma nonzero_pos a : 0 <= a -> ~ a == 0 -> 0 < a.
Proof. intros. apply Qnot_le_lt. intros HX. apply H0. lra. Qed.

Lemma heuristics_textbook :
  forall h l q, h <> Accuracy -> valid l -> valid_heuristic h -> textbook h l = Some q ->
    exists q', score h l = Some q' /\ q' == q.
Proof.
  intros h l q HA HV HH HT. rewrite score_elem. cbv zeta.
  destruct (sums l) as (S1 & S2 & S3 & S4 & _). cbv zeta in *.
  assert (HE : forall a b c, 0 <= elem l a b c) by (intros; apply weightOf_nonneg, HV).
  assert (A1 := HE true false false). assert (A2 := HE true false true). assert (A3 := HE true true false). assert (A4 := HE true true true).
  assert (A5 := HE false false false). assert (A6 := HE false false true). assert (A7 := HE false true false). assert (A8 := HE false true true).
  revert S1 S2 S3 S4 A1 A2 A3 A4 A5 A6 A7 A8. clear HE.
  generalize (elem l true false false) (elem l true false true) (elem l true true false) (elem l true true true)
    (elem l false false false) (elem l false false true) (elem l false true false) (elem l false true true).
  intros cin cip crn crp uin uip urn urp S1 S2 S3 S4 A1 A2 A3 A4 A5 A6 A7 A8.
  assert (HWra : forall q, textbookWra l = Some q -> exists q', wra cin cip crn crp uin uip urn urp = Some q' /\ q' == q).
  { clear q HT. unfold textbookWra, textbookPrecision, prior. intros q. destruct (fraction _ _) as [c|] eqn:E1; [|discriminate].
    destruct (fraction (weightOf coveredCorrect l) _) as [p|] eqn:E2; [|discriminate].
    destruct (fraction (weightOf correct l) _) as [r|] eqn:E3; [|discriminate]. intros [= <-].
    apply fraction_inv in E1, E2, E3. destruct E1 as (N1 & ->). destruct E2 as (N2 & ->). destruct E3 as (N3 & ->).
    rewrite S2 in N2. rewrite S4 in N1.
    destruct (wra_value cin cip crn crp uin uip urn urp) as (q' & E & HP & _); auto. exists q'. split; auto.
    rewrite HP by (apply nonzero_pos; lra). rewrite S1, S2, S3, S4. field. split; lra. }
  assert (HPr : forall q, textbookPrecision l = Some q -> 0 < cin + crp + cip + crn /\ precision cin cip crn crp == q).
  { intros r E. apply fraction_inv in E. destruct E as (N & ->). rewrite S2 in N. unfold precision.
    rewrite divideOrZero_pos by (apply nonzero_pos; lra). split; [apply nonzero_pos; lra|]. rewrite S1, S2. reflexivity. }
  assert (HRe : forall q, textbookRecall l = Some q -> 0 < cin + crp + uin + urp /\ recall cin crp uin urp == q).
  { intros r E. apply fraction_inv in E. destruct E as (N & ->). rewrite S3 in N. unfold recall.
    rewrite divideOrZero_pos by (apply nonzero_pos; lra). split; [apply nonzero_pos; lra|]. rewrite S1, S3. apply Qdiv_comp; lra. }
  destruct h as [| | | | |[beta|]|[m|]]; simpl in HT |- *; try contradiction; auto.
  - eexists. split; [reflexivity|]. apply HPr, HT.
  - eexists. split; [reflexivity|]. apply HRe, HT.
  - injection HT as <-. unfold laplace. rewrite fdiv_Some by lra. eexists. split; [reflexivity|]. rewrite S1, S2. reflexivity.
  - destruct (textbookPrecision l) as [p|] eqn:EP; [|discriminate]. destruct (textbookRecall l) as [r|] eqn:ER; [|discriminate].
    destruct (HPr p eq_refl) as (NP & HP). destruct (HRe r eq_refl) as (NR & HR).
    apply fraction_inv in HT. destruct HT as (N & ->). eexists. split; [reflexivity|].
    unfold precision in HP. unfold recall in HR. rewrite divideOrZero_pos in HP, HR by auto.
    destruct (gtb beta 0) eqn:E.
    + apply gtb_true in E. rewrite <- HP, <- HR in *.
      assert (HC : 0 < cin + crp).
      { apply nonzero_pos; [lra|]. intros HZ. apply N. assert (X : (cin + crp) == 0) by lra.
        unfold Qdiv. rewrite X. ring. }
      rewrite divideOrZero_pos by nra.
      assert (HX : 0 < (1 + beta * beta) * (cin + crp) + beta * beta * (uin + urp) + (cip + crn)) by nra.
      field. repeat split; try lra.
      all: try (intros HZ; nra).
    + apply gtb_false in E. simpl in HH. assert (Eb : beta == 0) by lra. unfold precision. rewrite divideOrZero_pos by auto.
      rewrite HP. rewrite Eb in N |- *. field. lra.
  - eexists. split; [reflexivity|]. apply HRe, HT.
  - unfold prior in HT. destruct (fraction (weightOf correct l) _) as [r|] eqn:E3; [|discriminate].
    apply fraction_inv in E3. destruct E3 as (N3 & ->). apply fraction_inv in HT. destruct HT as (N & ->).
    rewrite S4 in N3. simpl in HH. unfold mEstimate. destruct (gtb m 0) eqn:E.
    + apply gtb_true in E.
      assert (ET : gtb (cin + crp + cip + crn + (uin + urp) + uip + urn) 0 = true) by (apply gtb_true, nonzero_pos; lra). rewrite ET.
      rewrite fdiv_Some by lra. rewrite fdiv_Some by lra. eexists. split; [reflexivity|]. rewrite S1, S2, S3, S4. field.
      repeat split; try lra.
    + apply gtb_false in E. assert (Em : m == 0) by lra. rewrite S2, Em in N. eexists. split; [reflexivity|]. unfold precision.
      rewrite divideOrZero_pos by (apply nonzero_pos; lra). rewrite S1, S2, S3, S4, Em. field. repeat split; try lra.
Qed.

(** As beta approaches infinity, the F-measure approaches recall. *)
Lemma f_measure_limit :
  forall l eps, valid l -> 0 < eps -> exists bound, forall beta, bound <= beta ->
    exists f r, score (FMeasure (Finite beta)) l = Some f /\ score Recall l = Some r /\ - eps <= f - r <= eps.
Proof.
  intros l eps HV HEps.
  assert (HE : forall a b c, 0 <= elem l a b c) by (intros; apply weightOf_nonneg, HV).
  assert (A1 := HE true false false). assert (A2 := HE true false true). assert (A3 := HE true true false). assert (A4 := HE true true true).
  assert (A5 := HE false false false). assert (A8 := HE false true true).
  setoid_rewrite score_elem. cbv zeta. simpl.
  generalize dependent (elem l true false false). intros cin A1. generalize dependent (elem l true false true). intros cip A2.
  generalize dependent (elem l true true false). intros crn A3. generalize dependent (elem l true true true). intros crp A4.
  generalize dependent (elem l false false false). intros uin A5. generalize dependent (elem l false true true). intros urp A8.
  set (a := cin + crp). set (u := uin + urp). set (c := cip + crn).
  assert (Ha : 0 <= a) by (unfold a; lra). assert (Hu : 0 <= u) by (unfold u; lra). assert (Hc : 0 <= c) by (unfold c; lra).
  destruct (Qeq_dec a 0) as [Z|Z].
  - exists 1. intros beta HB. do 2 eexists. split; [reflexivity|]. split; [reflexivity|].
    rewrite (proj2 (gtb_true beta 0)) by lra.
    assert (X : forall x y, x == 0 -> divideOrZero x y == 0).
    { intros x y Hx. unfold divideOrZero, fdiv. destruct (Qeq_bool y 0); [reflexivity|]. unfold Qdiv. rewrite Hx. ring. }
    unfold recall. fold a. rewrite !X by (rewrite ?Z; ring || auto). lra.
  - apply nonzero_pos in Z; auto. exists (1 + (u + c) / (a * eps)). intros beta HB.
    assert (HK : 0 <= (u + c) / (a * eps)) by (apply Qle_shift_div_l; nra).
    assert (HB1 : 1 <= beta) by lra.
    do 2 eexists. split; [reflexivity|]. split; [reflexivity|].
    rewrite (proj2 (gtb_true beta 0)) by lra. unfold recall. fold a.
    assert (HN : a + uin + urp == a + u) by (unfold u; ring).
    fold u c. clearbody a u c. clear A1 A2 A3 A4. rewrite !divideOrZero_pos by nra.
    assert (HD : 0 < (1 + beta * beta) * a + beta * beta * u + c) by nra.
    assert (X : (1 + beta * beta) * a / ((1 + beta * beta) * a + beta * beta * u + c) - a / (a + uin + urp) ==
                (u - c) * a / (((1 + beta * beta) * a + beta * beta * u + c) * (a + u))).
    { rewrite HN. field. split; lra. }
    rewrite X. clear X.
    assert (HM : u + c <= beta * (a * eps)).
    { assert (Y : (u + c) / (a * eps) * (a * eps) == u + c) by (field; split; lra).
      assert (Z2 : 0 < a * eps) by nra. rewrite <- Y. apply Qmult_le_compat_r; lra. }
    assert (HDa : beta * a <= (1 + beta * beta) * a + beta * beta * u + c) by nra.
    generalize dependent ((1 + beta * beta) * a + beta * beta * u + c). intros d HD HDa.
    assert (HP : 0 < d * (a + u)) by nra.
    assert (HQ : (u + c) * a <= eps * (d * (a + u))).
    { assert (Y1 : (u + c) * a <= beta * (a * eps) * a) by (apply Qmult_le_compat_r; lra).
      assert (Y2 : beta * a * (a * eps) <= d * (a * eps)) by (apply Qmult_le_compat_r; [lra|nra]).
      assert (Y3 : 0 <= d * eps * u) by (apply Qmult_le_0_compat; nra). lra. }
    split; [apply Qle_shift_div_l|apply Qle_shift_div_r]; nra.
Qed.

(** The m-estimate relative to the prior. *)
Lemma m_estimate_limit :
  forall l1 l2 q1 q2, valid l1 -> valid l2 ->
    weightOf everything l1 == weightOf everything l2 -> weightOf correct l1 == weightOf correct l2 ->
    score Wra l1 = Some q1 -> score Wra l2 = Some q2 -> q1 < q2 ->
    exists bound, forall m, bound <= m ->
      exists r1 r2, score (MEstimate (Finite m)) l1 = Some r1 /\ score (MEstimate (Finite m)) l2 = Some r2 /\ r1 < r2.
Proof.
  intros l1 l2 q1 q2 V1 V2 HT HC E1 E2 HL.
  assert (HD : forall l q, valid l -> score Wra l = Some q ->
    (weightOf everything l == 0 /\ q == 0) \/
    (0 < weightOf everything l /\ 0 <= weightOf sCovered l /\
     forall m, 0 < m -> exists r, score (MEstimate (Finite m)) l = Some r /\
       r == weightOf correct l / weightOf everything l + weightOf everything l * q / (weightOf sCovered l + m))).
  { clear. intros l q HV HS. rewrite score_elem in HS. cbv zeta in HS.
    destruct (sums l) as (S1 & S2 & S3 & S4 & _). cbv zeta in *.
    assert (HE : forall a b c, 0 <= elem l a b c) by (intros; apply weightOf_nonneg, HV).
    assert (A1 := HE true false false). assert (A2 := HE true false true). assert (A3 := HE true true false). assert (A4 := HE true true true).
    assert (A5 := HE false false false). assert (A6 := HE false false true). assert (A7 := HE false true false). assert (A8 := HE false true true).
    setoid_rewrite score_elem. cbv zeta.
    revert S1 S2 S3 S4 A1 A2 A3 A4 A5 A6 A7 A8 HS. clear HE.
    generalize (elem l true false false) (elem l true false true) (elem l true true false) (elem l true true true)
      (elem l false false false) (elem l false false true) (elem l false true false) (elem l false true true).
    intros cin cip crn crp uin uip urn urp S1 S2 S3 S4 A1 A2 A3 A4 A5 A6 A7 A8 HS. simpl in HS.
    destruct (wra_value cin cip crn crp uin uip urn urp) as (q' & E & HP & HZ); auto. rewrite HS in E. injection E as <-.
    destruct (Qeq_dec (weightOf everything l) 0) as [Z|Z].
    { left. split; auto. apply HZ. lra. }
    right. apply nonzero_pos in Z; [|lra]. split; auto. split; [lra|]. intros m Hm. simpl. unfold mEstimate.
    rewrite (proj2 (gtb_true m 0)) by auto.
    assert (ET : gtb (cin + crp + cip + crn + (uin + urp) + uip + urn) 0 = true) by (apply gtb_true; lra). rewrite ET.
    rewrite fdiv_Some by lra. rewrite fdiv_Some by lra. eexists. split; [reflexivity|].
    rewrite S2, S3, S4. destruct (Qeq_dec (cin + crp + cip + crn) 0) as [Y|Y].
    - rewrite (HZ Y). assert (cin == 0 /\ crp == 0 /\ cip == 0 /\ crn == 0) as (-> & -> & -> & ->) by (repeat split; lra).
      field. repeat split; lra.
    - rewrite HP by (apply nonzero_pos; lra). field. repeat split; lra. }
  destruct (HD l1 q1 V1 E1) as [(Z1 & Y1)|(P1 & C1 & F1)]; destruct (HD l2 q2 V2 E2) as [(Z2 & Y2)|(P2 & C2 & F2)]; try lra.
  assert (HB1 := C1). assert (HB2 := C2).
  set (n1 := weightOf sCovered l1) in *. set (n2 := weightOf sCovered l2) in *.
  exists (1 + Qabs ((q1 * n2 - q2 * n1) / (q2 - q1))). intros m Hm.
  assert (HA := Qle_Qabs ((q1 * n2 - q2 * n1) / (q2 - q1))).
  assert (HA2 := Qabs_nonneg ((q1 * n2 - q2 * n1) / (q2 - q1))).
  destruct (F1 m) as (r1 & R1 & X1); [lra|]. destruct (F2 m) as (r2 & R2 & X2); [lra|].
  exists r1, r2. split; auto. split; auto. rewrite X1, X2, HC, HT.
  apply Qplus_lt_r. set (t := weightOf everything l2) in *.
  assert (Hm2 : (q1 * n2 - q2 * n1) / (q2 - q1) < m) by lra.
  assert (HX : q1 * n2 - q2 * n1 < m * (q2 - q1)).
  { assert (Y : (q1 * n2 - q2 * n1) / (q2 - q1) * (q2 - q1) == q1 * n2 - q2 * n1) by (field; lra).
    rewrite <- Y. apply Qmult_lt_compat_r; lra. }
  assert (HK : 0 < m) by lra.
  apply Qlt_shift_div_l; [lra|].
  assert (Y : t * q1 / (n1 + m) * (n2 + m) == t * (q1 * (n2 + m)) / (n1 + m)) by (field; lra). rewrite Y.
  apply Qlt_shift_div_r; [lra|]. nra.
Qed.

(** Counterexamples *)
Lemma accuracy_wrong : exists l q q', valid l /\ textbook Accuracy l = Some q /\ score Accuracy l = Some q' /\ ~ q' == q.
Proof.
  exists [mkSample 1 true true true; mkSample 1 true true false; mkSample 1 false false false; mkSample 1 false true false].
  do 2 eexists. split; [repeat constructor; discriminate|]. split; [reflexivity|]. split; [reflexivity|]. vm_compute. discriminate.
Qed.

(** The heuristic does not depend on the covered examples if the rule predicts a label as irrelevant. *)
Lemma accuracy_constant :
  forall l1 l2, Forall (fun s => sPredicted s = false) l1 ->
    Forall2 (fun a b => sWeight a = sWeight b /\ sRelevant a = sRelevant b /\ sPredicted a = sPredicted b) l1 l2 ->
    valid l1 -> exists q1 q2, score Accuracy l1 = Some q1 /\ score Accuracy l2 = Some q2 /\ q1 == q2.
Proof.
  intros l1 l2 HP HF HV. rewrite !score_elem. cbv zeta. simpl. do 2 eexists. split; [reflexivity|]. split; [reflexivity|].
  assert (forall l, Forall (fun s => sPredicted s = false) l ->
    elem l true false true == 0 /\ elem l true true true == 0 /\ elem l false false true == 0 /\ elem l false true true == 0 /\
    elem l true false false + elem l false false false == weightOf (fun s => negb (sRelevant s)) l /\
    elem l true true false + elem l false true false == weightOf sRelevant l) as HE.
  { clear. unfold elem. induction 1 as [|[w r p c] l Hp HF (I1 & I2 & I3 & I4 & I5 & I6)]; simpl in *; [repeat split; lra|].
    subst p. destruct r, c; simpl; repeat split; lra. }
  assert (HP2 : Forall (fun s => sPredicted s = false) l2).
  { clear -HP HF. induction HF as [|a b l1 l2 (_ & _ & H) HF IH]; constructor; inversion HP; subst; auto. congruence. }
  assert (HR : weightOf sRelevant l1 == weightOf sRelevant l2 /\
    weightOf (fun s => negb (sRelevant s)) l1 == weightOf (fun s => negb (sRelevant s)) l2).
  { clear -HF. induction HF as [|a b l1 l2 (H1 & H2 & _) HF (IH1 & IH2)]; simpl; [split; lra|]. rewrite H1, H2.
    destruct (sRelevant b); simpl; split; lra. }
  destruct (HE l1 HP) as (A1 & A2 & A3 & A4 & A5 & A6). destruct (HE l2 HP2) as (B1 & B2 & B3 & B4 & B5 & B6). destruct HR as (R1 & R2).
  assert (HD : forall a b c d, a == c -> b == d -> divideOrZero a b == divideOrZero c d).
  { clear. intros a b c d H1 H2. unfold divideOrZero, fdiv. destruct (Qeq_bool b 0) eqn:E.
    - apply Qeq_bool_iff in E. rewrite (proj2 (Qeq_bool_iff d 0)) by lra. reflexivity.
    - destruct (Qeq_bool d 0) eqn:E2; [|rewrite H1, H2; reflexivity]. apply Qeq_bool_iff in E2.
      rewrite (proj2 (Qeq_bool_iff b 0)) in E by lra. discriminate. }
  apply HD; lra.
Qed.

(** It is correct for rules that predict a label as relevant. *)
Lemma accuracy_positive :
  forall l q, valid l -> Forall (fun s => sPredicted s = true) l -> textbook Accuracy l = Some q ->
    exists q', score Accuracy l = Some q' /\ q' == q.
Proof.
  intros l q HV HP HT. rewrite score_elem. cbv zeta. simpl in *. eexists. split; [reflexivity|].
  apply fraction_inv in HT. destruct HT as (N & ->).
  destruct (sums l) as (_ & _ & _ & S4 & S5). cbv zeta in *.
  assert (elem l true false false == 0 /\ elem l true true false == 0 /\ elem l false false false == 0 /\ elem l false true false == 0)
    as (E1 & E2 & E3 & E4).
  { clear -HP. unfold elem. induction HP as [|[w r p c] l Hp HF (I1 & I2 & I3 & I4)]; simpl in *; [repeat split; lra|].
    subst p. destruct r, c; simpl; repeat split; lra. }
  assert (HE : forall a b c, 0 <= elem l a b c) by (intros; apply weightOf_nonneg, HV).
  assert (A2 := HE true false true). assert (A4 := HE true true true). assert (A6 := HE false false true). assert (A8 := HE false true true).
  unfold accuracy. rewrite divideOrZero_pos; [rewrite S4, S5; apply Qdiv_comp; lra|]. apply nonzero_pos; [lra|].
  intros E. apply N. lra.
Qed.

Lemma wra_negative : exists l q, valid l /\ score Wra l = Some q /\ ~ (0 <= q <= 1).
Proof.
  exists [mkSample 1 true true false; mkSample 1 false true true]. eexists. split; [repeat constructor; discriminate|].
  split; [reflexivity|]. vm_compute. intros (H & _). apply H. reflexivity.
Qed.
