From Coq Require Import QArith Qabs Reals Qreals List Bool Arith Permutation Sorted Lia Lqa Qround.
From Verif Require Import Lib.Arr Spec.Stopping Proofs.Pruning Model.BoostEvaluation Spec.BoostEvaluation.
Import ListNotations.
Open Scope Q_scope.

Lemma gtb_spec a b : gtb a b = true <-> b < a.
Proof.
  unfold gtb. destruct (Qle_bool a b) eqn:E; simpl.
  - apply Qle_bool_iff in E. split; [discriminate|lra].
  - split; auto. intros _. destruct (Qlt_le_dec b a) as [?|L]; auto. apply Qle_bool_iff in L. congruence.
Qed.
Lemma ltb_spec a b : ltb a b = true <-> a < b.
Proof. exact (gtb_spec b a). Qed.
Lemma gtb_false a b : gtb a b = false <-> a <= b.
Proof.
  split; intros H.
  - destruct (Qlt_le_dec b a) as [L|]; auto. apply gtb_spec in L. congruence.
  - destruct (gtb a b) eqn:E; auto. apply gtb_spec in E. lra.
Qed.
Lemma ltb_false a b : ltb a b = false <-> b <= a.
Proof. exact (gtb_false b a). Qed.

Lemma divideOrZero_spec a b : ~ b == 0 -> SecoHeuristics.divideOrZero a b = a / b.
Proof.
  intros H. unfold SecoHeuristics.divideOrZero, SecoHeuristics.fdiv. destruct (Qeq_bool b 0) eqn:E; auto.
  apply Qeq_bool_iff in E. contradiction.
Qed.

Lemma quality_objective l1 l2 s t : calculateOutputWiseQuality l1 l2 s t == objective l1 l2 t s.
Proof. unfold calculateOutputWiseQuality, objective. field. Qed.

Lemma objective_zero l1 l2 t : objective l1 l2 t 0 == 0.
Proof. unfold objective. rewrite Qabs_pos by lra. ring. Qed.

(** Without L1 regularisation, the score is the minimum of a parabola. *)
Lemma score_optimal l2 t s : 0 < snd t + l2 ->
  objective 0 l2 t s == objective 0 l2 t (calculateOutputWiseScore 0 l2 t)
    + (snd t + l2) / 2 * ((s - calculateOutputWiseScore 0 l2 t) * (s - calculateOutputWiseScore 0 l2 t)).
Proof.
  intros H. unfold calculateOutputWiseScore. rewrite divideOrZero_spec by lra.
  assert (E : getL1RegularizationWeight (fst t) 0 == 0).
  { unfold getL1RegularizationWeight. destruct (gtb _ _); [lra|]. destruct (ltb _ _); lra. }
  unfold objective. rewrite E. field. lra.
Qed.

Lemma score_minimal l2 t s : 0 < snd t + l2 -> objective 0 l2 t (calculateOutputWiseScore 0 l2 t) <= objective 0 l2 t s.
Proof.
  intros H. rewrite (score_optimal l2 t s) by auto. set (d := s - _). clearbody d.
  assert (0 <= (snd t + l2) / 2 * (d * d)). { apply Qmult_le_0_compat; [|nra]. apply Qle_shift_div_l; lra. }
  lra.
Qed.

Lemma score_unique l2 t s : 0 < snd t + l2 ->
  objective 0 l2 t s <= objective 0 l2 t (calculateOutputWiseScore 0 l2 t) -> s == calculateOutputWiseScore 0 l2 t.
Proof.
  intros H. rewrite (score_optimal l2 t s) by auto. set (c := calculateOutputWiseScore 0 l2 t). clearbody c. intros L.
  assert (P : 0 < (snd t + l2) / 2) by (apply Qlt_shift_div_l; lra). set (k := (snd t + l2) / 2) in *. clearbody k.
  set (d := s - c) in *. assert (D : d == 0).
  { assert (L' : k * (d * d) <= 0) by lra. clear L. clearbody d.
    destruct (Q_dec d 0) as [[D|D]|D]; auto; assert (0 < d * d) by nra; assert (0 < k * (d * d)) by (apply Qmult_lt_0_compat; auto); lra. }
  subst d. lra.
Qed.

(** * Complete heads *)

Lemma combine_app {A B} (a1 a2 : list A) (b1 b2 : list B) : length a1 = length b1 ->
  combine (a1 ++ a2) (b1 ++ b2) = combine a1 b1 ++ combine a2 b2.
Proof. revert b1. induction a1; intros [|b b1] H; try discriminate; simpl in *; auto. rewrite IHa1; auto. Qed.

Lemma headObjective_snoc l1 l2 st ps vs p v : length ps = length vs ->
  headObjective l1 l2 st (ps ++ [p]) (vs ++ [v]) == headObjective l1 l2 st ps vs + objective l1 l2 (nth p st (0, 0)) v.
Proof.
  intros H. unfold headObjective. rewrite combine_app by auto. rewrite map_app, Qsum_app. unfold Qsum. simpl. ring.
Qed.

Lemma aget_nth {A} (l : list A) i d : (i < length l)%nat -> aget l i = Some (nth i l d).
Proof. intros. unfold aget. apply nth_error_nth'; auto. Qed.

Lemma seq_snoc n : seq 0 (S n) = seq 0 n ++ [n].
Proof. apply seq_S. Qed.

Lemma evaluateComplete_spec :
  forall (l1 l2 : Q) (indices : list nat) (statistics : list tuple),
  exists sc, evaluateComplete l1 l2 indices statistics = Some sc /\ scIndices sc = indices /\
             scValues sc = map (scoreAt l1 l2 statistics) (everyPosition statistics) /\
             scQuality sc == headObjective l1 l2 statistics (everyPosition statistics) (scValues sc).
Proof.
  intros l1 l2 indices statistics. unfold evaluateComplete, everyPosition.
  destruct (forN_inv (fun k (st : list Q * Q) => fst st = map (scoreAt l1 l2 statistics) (seq 0 k) /\
      snd st == headObjective l1 l2 statistics (seq 0 k) (fst st))
    (fun i '(values, quality) =>
      let* t := aget statistics i in
      let score := calculateOutputWiseScore l1 l2 t in
      Some (values ++ [score], quality + calculateOutputWiseQuality l1 l2 score t)) (length statistics) 0%nat ([], 0))
    as ((vs, q) & E & H1 & H2).
  - split; simpl; auto. unfold headObjective. simpl. reflexivity.
  - intros j (vs, q) Hj (H1 & H2). cbn [fst snd] in *. rewrite (aget_nth (A := tuple) _ _ (0, 0)) by lia. eexists. split; [reflexivity|].
    cbn [fst snd]. rewrite seq_snoc, map_app. split; [rewrite H1; reflexivity|].
    rewrite headObjective_snoc by (rewrite H1, map_length; auto). rewrite H2, quality_objective. reflexivity.
  - simpl plus in *. cbn [fst snd] in *. rewrite E. eexists. split; [reflexivity|]. cbn [scIndices scValues scQuality]. auto.
Qed.

Lemma headObjective_map l1 l2 st f ps : headObjective l1 l2 st ps (map f ps) = Qsum (map (fun p => objective l1 l2 (nth p st (0, 0)) (f p)) ps).
Proof. unfold headObjective. f_equal. induction ps; simpl; auto. rewrite IHps. auto. Qed.

Lemma Qsum_le_map {A} (f g : A -> Q) l : (forall a, In a l -> f a <= g a) -> Qsum (map f l) <= Qsum (map g l).
Proof.
  induction l as [|a l IH]; intros H; unfold Qsum; simpl; [lra|]. pose proof (H a (or_introl eq_refl)).
  pose proof (IH (fun b Hb => H b (or_intror Hb))). unfold Qsum in *. lra.
Qed.

Lemma headObjective_minimal l2 st ps vs : (forall p, In p ps -> 0 < snd (nth p st (0, 0)) + l2) -> length ps = length vs ->
  headObjective 0 l2 st ps (map (scoreAt 0 l2 st) ps) <= headObjective 0 l2 st ps vs.
Proof.
  revert vs. induction ps as [|p ps IH]; intros [|v vs] H L; try discriminate.
  unfold headObjective, Qsum in *; simpl.
  specialize (IH vs (fun q Hq => H q (or_intror Hq)) ltac:(simpl in L; lia)).
  pose proof (score_minimal l2 (nth p st (0, 0)) v (H p (or_introl eq_refl))) as M.
  change (calculateOutputWiseScore 0 l2 (nth p st (0, 0))) with (scoreAt 0 l2 st p) in M. lra.
Qed.

Definition positiveHessians (l2 : Q) (statistics : list tuple) : Prop := Forall (fun t => 0 < snd t + l2) statistics.

Lemma positive_nth l2 st p : positiveHessians l2 st -> (p < length st)%nat -> 0 < snd (nth p st (0, 0)) + l2.
Proof. intros H Hp. unfold positiveHessians in H. rewrite Forall_forall in H. apply H. apply nth_In; auto. Qed.

Lemma headObjective_zeros l1 l2 st ps : headObjective l1 l2 st ps (map (fun _ => 0) ps) == 0.
Proof. rewrite headObjective_map. induction ps; unfold Qsum in *; simpl; [lra|]. rewrite objective_zero. lra. Qed.

Lemma complete_optimal :
  forall (l2 : Q) (indices : list nat) (statistics : list tuple),
  Forall (fun t => 0 < snd t + l2) statistics ->
  exists sc, evaluateComplete 0 l2 indices statistics = Some sc /\ scIndices sc = indices /\
    length (scValues sc) = length statistics /\
    scQuality sc == headObjective 0 l2 statistics (everyPosition statistics) (scValues sc) /\ scQuality sc <= 0 /\
    (forall values, length values = length statistics ->
       scQuality sc <= headObjective 0 l2 statistics (everyPosition statistics) values).
Proof.
  intros l2 indices st H. destruct (evaluateComplete_spec 0 l2 indices st) as (sc & E & E1 & E2 & E3).
  exists sc. split; auto. split; auto. split; [rewrite E2, map_length; apply seq_length|]. split; auto.
  assert (M : forall vs, length vs = length st -> scQuality sc <= headObjective 0 l2 st (everyPosition st) vs).
  { intros vs L. rewrite E3, E2. apply headObjective_minimal.
    - intros p Hp. apply in_seq in Hp. apply (positive_nth l2 st p H). lia.
    - unfold everyPosition. rewrite seq_length. auto. }
  split; auto. rewrite <- (headObjective_zeros 0 l2 st (everyPosition st)). apply M. rewrite map_length. apply seq_length.
Qed.

Lemma complete_quality :
  forall (l1 l2 : Q) (indices : list nat) (statistics : list tuple),
  exists sc, evaluateComplete l1 l2 indices statistics = Some sc /\ scIndices sc = indices /\
    length (scValues sc) = length statistics /\
    scQuality sc == headObjective l1 l2 statistics (everyPosition statistics) (scValues sc).
Proof.
  intros. destruct (evaluateComplete_spec l1 l2 indices statistics) as (sc & E & E1 & E2 & E3).
  exists sc. repeat split; auto. rewrite E2, map_length. apply seq_length.
Qed.

(** With L1 regularisation, the predicted scores are larger than without. *)
Lemma inflated :
  forall (l1 l2 gradient hessian : Q),
  0 < l1 -> l1 < Qabs gradient -> 0 < hessian + l2 ->
  Qabs (calculateOutputWiseScore 0 l2 (gradient, hessian)) < Qabs (calculateOutputWiseScore l1 l2 (gradient, hessian)).
Proof.
  intros l1 l2 g h H1 Hg Hh. unfold calculateOutputWiseScore. cbn [fst snd]. rewrite !divideOrZero_spec by lra.
  assert (K : forall x, Qabs (x / (h + l2)) == Qabs x / (h + l2)).
  { intros x. unfold Qdiv. rewrite Qabs_Qmult. assert (P : 0 < / (h + l2)) by (apply Qinv_lt_0_compat; auto).
    rewrite (Qabs_pos (/ (h + l2))); [reflexivity|lra]. }
  rewrite !K. apply Qmult_lt_compat_r; [apply Qinv_lt_0_compat; auto|].
  unfold getL1RegularizationWeight. destruct (Qlt_le_dec g 0) as [N|N].
  - rewrite (Qabs_neg g) in Hg by lra.
    rewrite (proj2 (gtb_false g 0)), (proj2 (ltb_spec g (- 0))), (proj2 (gtb_false g l1)), (proj2 (ltb_spec g (- l1))) by lra.
    rewrite !Qabs_pos; lra.
  - rewrite (Qabs_pos g) in Hg by lra.
    rewrite (proj2 (gtb_spec g 0)), (proj2 (gtb_spec g l1)) by lra.
    rewrite !Qabs_neg; lra.
Qed.

Lemma softThreshold_optimal l1 l2 g h s : 0 <= l1 -> 0 < h + l2 ->
  objective l1 l2 (g, h) (softThreshold l1 l2 g h) <= objective l1 l2 (g, h) s.
Proof.
  intros H1 Hh. unfold softThreshold.
  assert (A : s <= Qabs s) by apply Qle_Qabs. assert (B : - s <= Qabs s) by (rewrite <- Qabs_opp; apply Qle_Qabs).
  assert (Sq : forall c, 0 <= (h + l2) / 2 * ((s - c) * (s - c))).
  { intros c. apply Qmult_le_0_compat; [apply Qle_shift_div_l; lra|]. set (d := s - c). clearbody d. nra. }
  destruct (Qlt_le_dec l1 g) as [E1|E1]; [|destruct (Qlt_le_dec g (- l1)) as [E2|E2]].
  - specialize (Sq ((l1 - g) / (h + l2))). unfold objective. cbn [fst snd].
    rewrite (Qabs_neg ((l1 - g) / (h + l2))); [|apply Qle_shift_div_r; lra].
    assert (L : - (l1 * s) <= l1 * Qabs s) by nra.
    setoid_replace ((h + l2) / 2 * ((s - (l1 - g) / (h + l2)) * (s - (l1 - g) / (h + l2))))
      with ((h + l2) / 2 * (s * s) - (l1 - g) * s + (l1 - g) * (l1 - g) / (2 * (h + l2))) in Sq by (field; lra).
    setoid_replace (g * ((l1 - g) / (h + l2)) + (h + l2) / 2 * ((l1 - g) / (h + l2) * ((l1 - g) / (h + l2))) + l1 * - ((l1 - g) / (h + l2)))
      with (- ((l1 - g) * (l1 - g) / (2 * (h + l2)))) by (field; lra).
    lra.
  - specialize (Sq ((- l1 - g) / (h + l2))). unfold objective. cbn [fst snd].
    rewrite (Qabs_pos ((- l1 - g) / (h + l2))); [|apply Qle_shift_div_l; lra].
    assert (L : l1 * s <= l1 * Qabs s) by nra.
    setoid_replace ((h + l2) / 2 * ((s - (- l1 - g) / (h + l2)) * (s - (- l1 - g) / (h + l2))))
      with ((h + l2) / 2 * (s * s) - (- l1 - g) * s + (- l1 - g) * (- l1 - g) / (2 * (h + l2))) in Sq by (field; lra).
    setoid_replace (g * ((- l1 - g) / (h + l2)) + (h + l2) / 2 * ((- l1 - g) / (h + l2) * ((- l1 - g) / (h + l2))) + l1 * ((- l1 - g) / (h + l2)))
      with (- ((- l1 - g) * (- l1 - g) / (2 * (h + l2)))) by (field; lra).
    lra.
  - specialize (Sq 0). rewrite objective_zero. unfold objective. cbn [fst snd].
    setoid_replace ((s - 0) * (s - 0)) with (s * s) in Sq by ring.
    assert (L : 0 <= g * s + l1 * Qabs s). { destruct (Qlt_le_dec s 0) as [N|N]; [rewrite Qabs_neg by lra|rewrite Qabs_pos by lra]; nra. }
    lra.
Qed.

(** L2 regularisation has the desired effect. *)
Lemma l2_shrinks :
  forall (l1 l2 l2' gradient hessian : Q),
  0 < hessian + l2 -> l2 <= l2' ->
  Qabs (calculateOutputWiseScore l1 l2' (gradient, hessian)) <= Qabs (calculateOutputWiseScore l1 l2 (gradient, hessian)).
Proof.
  intros l1 l2 l2' g h H L. unfold calculateOutputWiseScore. cbn [fst snd]. rewrite !divideOrZero_spec by lra.
  set (x := - g + getL1RegularizationWeight g l1). clearbody x. unfold Qdiv. rewrite !Qabs_Qmult.
  assert (P : 0 < / (h + l2)) by (apply Qinv_lt_0_compat; auto). assert (P' : 0 < / (h + l2')) by (apply Qinv_lt_0_compat; lra).
  rewrite (Qabs_pos (/ (h + l2))), (Qabs_pos (/ (h + l2'))) by lra.
  assert (M : / (h + l2') <= / (h + l2)).
  { apply Qle_shift_inv_l; [lra|]. setoid_replace (/ (h + l2') * (h + l2)) with ((h + l2) / (h + l2')) by (field; lra).
    apply Qle_shift_div_r; lra. }
  pose proof (Qabs_nonneg x). rewrite (Qmult_comm (Qabs x)), (Qmult_comm (Qabs x)). apply Qmult_le_compat_r; auto.
Qed.

(** As soon as there is any L1 regularisation, the predicted score is not optimal anymore. *)
Lemma never_optimal :
  forall (l1 l2 gradient hessian : Q),
  0 < l1 -> ~ gradient == 0 -> 0 < hessian + l2 ->
  objective l1 l2 (gradient, hessian) (softThreshold l1 l2 gradient hessian)
  < objective l1 l2 (gradient, hessian) (calculateOutputWiseScore l1 l2 (gradient, hessian)).
Proof.
  intros l1 l2 g h H1 Hg Hh. unfold calculateOutputWiseScore, softThreshold, getL1RegularizationWeight, objective. cbn [fst snd].
  rewrite divideOrZero_spec by lra.
  assert (I : 0 < / (h + l2)) by (apply Qinv_lt_0_compat; auto).
  destruct (Qlt_le_dec l1 g) as [E1|E1]; [|destruct (Qlt_le_dec g (- l1)) as [E2|E2]].
  - rewrite (proj2 (gtb_spec g l1)) by auto.
    rewrite (Qabs_neg ((l1 - g) / (h + l2))), (Qabs_neg ((- g + - l1) / (h + l2))) by (apply Qle_shift_div_r; lra).
    assert (D : 0 < 2 * (l1 * l1) * / (h + l2)) by (apply Qmult_lt_0_compat; [nra|auto]).
    setoid_replace (g * ((- g + - l1) / (h + l2)) + (h + l2) / 2 * ((- g + - l1) / (h + l2) * ((- g + - l1) / (h + l2))) + l1 * - ((- g + - l1) / (h + l2)))
      with (g * ((l1 - g) / (h + l2)) + (h + l2) / 2 * ((l1 - g) / (h + l2) * ((l1 - g) / (h + l2))) + l1 * - ((l1 - g) / (h + l2)) + 2 * (l1 * l1) * / (h + l2)) by (field; lra).
    lra.
  - rewrite (proj2 (gtb_false g l1)), (proj2 (ltb_spec g (- l1))) by lra.
    rewrite (Qabs_pos ((- l1 - g) / (h + l2))), (Qabs_pos ((- g + l1) / (h + l2))) by (apply Qle_shift_div_l; lra).
    assert (D : 0 < 2 * (l1 * l1) * / (h + l2)) by (apply Qmult_lt_0_compat; [nra|auto]).
    setoid_replace (g * ((- g + l1) / (h + l2)) + (h + l2) / 2 * ((- g + l1) / (h + l2) * ((- g + l1) / (h + l2))) + l1 * ((- g + l1) / (h + l2)))
      with (g * ((- l1 - g) / (h + l2)) + (h + l2) / 2 * ((- l1 - g) / (h + l2) * ((- l1 - g) / (h + l2))) + l1 * ((- l1 - g) / (h + l2)) + 2 * (l1 * l1) * / (h + l2)) by (field; lra).
    lra.
  - rewrite (proj2 (gtb_false g l1)), (proj2 (ltb_false g (- l1))) by lra.
    rewrite (Qabs_pos 0) by lra. destruct (Qlt_le_dec g 0) as [N|N].
    + rewrite (Qabs_pos ((- g + 0) / (h + l2))) by (apply Qle_shift_div_l; lra).
      assert (D : 0 < ((- g) * (2 * l1 + g)) * / (h + l2)) by (apply Qmult_lt_0_compat; [nra|auto]).
      setoid_replace (g * ((- g + 0) / (h + l2)) + (h + l2) / 2 * ((- g + 0) / (h + l2) * ((- g + 0) / (h + l2))) + l1 * ((- g + 0) / (h + l2)))
        with ((1 # 2) * (((- g) * (2 * l1 + g)) * / (h + l2))) by (field; lra). lra.
    + rewrite (Qabs_neg ((- g + 0) / (h + l2))) by (apply Qle_shift_div_r; lra).
      assert (D : 0 < (g * (2 * l1 - g)) * / (h + l2)). { apply Qmult_lt_0_compat; [|auto]. destruct (Q_dec g 0) as [[?|?]|?]; nra. }
      setoid_replace (g * ((- g + 0) / (h + l2)) + (h + l2) / 2 * ((- g + 0) / (h + l2) * ((- g + 0) / (h + l2))) + l1 * - ((- g + 0) / (h + l2)))
        with ((1 # 2) * ((g * (2 * l1 - g)) * / (h + l2))) by (field; lra). lra.
Qed.

(** * Heads that predict for a single output *)

Lemma evaluateSingle_spec :
  forall (l1 l2 : Q) (indices : list nat) (statistics : list tuple),
  statistics <> [] -> length indices = length statistics ->
  exists sc p, evaluateSingle l1 l2 indices statistics = Some sc /\ (p < length statistics)%nat /\
    predictsFor l1 l2 indices statistics [p] sc /\
    (forall j, (j < length statistics)%nat -> Qabs (scoreAt l1 l2 statistics j) <= Qabs (scoreAt l1 l2 statistics p)).
Proof.
  intros l1 l2 indices st Hne Hl. assert (0 < length st)%nat by (destruct st; [congruence|simpl; lia]).
  unfold evaluateSingle. rewrite (aget_nth st 0 (0, 0)) by auto.
  destruct (forN_inv (fun k (b : Q * nat) => (snd b < length st)%nat /\ fst b = scoreAt l1 l2 st (snd b) /\
      (forall j, (j < k)%nat -> Qabs (scoreAt l1 l2 st j) <= Qabs (fst b)))
    (fun i '(bestScore, bestIndex) =>
      let* t := aget st i in
      let score := calculateOutputWiseScore l1 l2 t in
      Some (if gtb (Qabs score) (Qabs bestScore) then (score, i) else (bestScore, bestIndex)))
    (length st - 1) 1%nat (calculateOutputWiseScore l1 l2 (nth 0 st (0, 0)), 0%nat)) as ((b, p) & E & Hp & Hb & HM).
  - cbn [fst snd]. repeat split; auto. intros j Hj. replace j with 0%nat by lia. apply Qle_refl.
  - intros j (b, p) Hj (Hp & Hb & HM). cbn [fst snd] in *. rewrite (aget_nth st j (0, 0)) by lia. eexists. split; [reflexivity|].
    fold (scoreAt l1 l2 st j). destruct (gtb (Qabs (scoreAt l1 l2 st j)) (Qabs b)) eqn:G; cbn [fst snd].
    + apply gtb_spec in G. repeat split; auto; [lia|]. intros i Hi. destruct (Nat.eq_dec i j) as [->|]; [apply Qle_refl|].
      specialize (HM i ltac:(lia)). lra.
    + apply gtb_false in G. repeat split; auto. intros i Hi. destruct (Nat.eq_dec i j) as [->|]; auto. apply HM. lia.
  - cbn [fst snd] in *. rewrite E. rewrite (aget_nth indices p 0%nat) by lia. rewrite (aget_nth st p (0, 0)) by auto.
    eexists. exists p. split; [reflexivity|]. split; auto. split.
    + repeat split; cbn [scIndices scValues scQuality map]; [rewrite Hb; auto|]. unfold headObjective, Qsum. simpl.
      rewrite quality_objective. lra.
    + intros j Hj. rewrite <- Hb. apply HM. lia.
Qed.

(** The quality that can be achieved for an output without L1 regularisation. *)
Lemma best_objective l2 t : 0 < snd t + l2 ->
  objective 0 l2 t (calculateOutputWiseScore 0 l2 t)
  == - ((snd t + l2) / 2 * (Qabs (calculateOutputWiseScore 0 l2 t) * Qabs (calculateOutputWiseScore 0 l2 t))).
Proof.
  intros H. assert (A : forall x, Qabs x * Qabs x == x * x). { intros x. rewrite <- Qabs_Qmult. apply Qabs_pos. nra. }
  rewrite A. pose proof (score_optimal l2 t 0 H) as E. rewrite objective_zero in E.
  set (s := calculateOutputWiseScore 0 l2 t) in *. clearbody s.
  setoid_replace ((0 - s) * (0 - s)) with (s * s) in E by ring. lra.
Qed.

Lemma stronger_is_better l2 w t t' s : snd t + l2 == w -> snd t' + l2 == w -> 0 < w ->
  Qabs (calculateOutputWiseScore 0 l2 t') <= Qabs (calculateOutputWiseScore 0 l2 t) ->
  objective 0 l2 t (calculateOutputWiseScore 0 l2 t) <= objective 0 l2 t' s.
Proof.
  intros E E' W L. apply Qle_trans with (objective 0 l2 t' (calculateOutputWiseScore 0 l2 t')); [|apply score_minimal; lra].
  rewrite !best_objective by lra. rewrite E, E'.
  pose proof (Qabs_nonneg (calculateOutputWiseScore 0 l2 t')) as P.
  set (a := Qabs (calculateOutputWiseScore 0 l2 t')) in *. set (b := Qabs (calculateOutputWiseScore 0 l2 t)) in *. clearbody a b.
  assert (P2 : 0 < w / 2) by (apply Qlt_shift_div_l; lra). set (k := w / 2) in *. clearbody k.
  assert (a * a <= b * b) by nra. nra.
Qed.

Lemma single_best :
  forall (l2 w : Q) (indices : list nat) (statistics : list tuple),
  statistics <> [] -> length indices = length statistics -> 0 < w -> Forall (fun t => snd t + l2 == w) statistics ->
  exists sc p, evaluateSingle 0 l2 indices statistics = Some sc /\ scIndices sc = [nth p indices 0%nat] /\
    scQuality sc == headObjective 0 l2 statistics [p] (scValues sc) /\
    (forall position value, (position < length statistics)%nat ->
       scQuality sc <= headObjective 0 l2 statistics [position] [value]).
Proof.
  intros l2 w indices st Hne Hl W HF. destruct (evaluateSingle_spec 0 l2 indices st Hne Hl) as (sc & p & E & Hp & (E1 & E2 & E3) & M).
  exists sc, p. repeat split; auto. intros j v Hj. rewrite E3, E2. unfold headObjective, Qsum. simpl. rewrite !Qplus_0_r.
  rewrite Forall_forall in HF. apply (stronger_is_better l2 w); auto; try (apply HF; apply nth_In; auto). apply M; auto.
Qed.

(** * Heads that predict for a fixed number of outputs *)

Lemma NoDup_map_fst_seq {A} (l : list A) : map fst (combine (seq 0 (length l)) l) = seq 0 (length l).
Proof. generalize 0%nat. induction l; intros n; simpl; auto. rewrite IHl. auto. Qed.

Lemma entries_In l1 l2 st e : In e (outputWiseScores l1 l2 st) <-> (fst e < length st)%nat /\ snd e = scoreAt l1 l2 st (fst e).
Proof.
  unfold outputWiseScores. destruct e as (i, v). cbn [fst snd].
  assert (G : forall n l, In (i, v) (combine (seq n (length l)) (map (calculateOutputWiseScore l1 l2) l))
     <-> (n <= i < n + length l)%nat /\ v = calculateOutputWiseScore l1 l2 (nth (i - n) l (0, 0))).
  { intros n l. revert n. induction l as [|t l IH]; intros n; simpl; [split; [tauto|lia]|]. split.
    - intros [H|H].
      + injection H as <- <-. split; [lia|]. rewrite Nat.sub_diag. auto.
      + apply IH in H. destruct H as (H & ->). split; [lia|]. replace (i - n)%nat with (S (i - S n)) by lia. auto.
    - intros (H & ->). destruct (Nat.eq_dec i n) as [->|]; [left; rewrite Nat.sub_diag; auto|right].
      apply IH. split; [lia|]. replace (i - n)%nat with (S (i - S n)) by lia. auto. }
  rewrite G. rewrite Nat.sub_0_r. unfold scoreAt. simpl. intuition lia.
Qed.

Lemma entries_fst l1 l2 st : map fst (outputWiseScores l1 l2 st) = seq 0 (length st).
Proof.
  unfold outputWiseScores. rewrite <- (map_length (calculateOutputWiseScore l1 l2) st) at 1. rewrite NoDup_map_fst_seq.
  rewrite map_length. auto.
Qed.

Lemma evaluateFixed_loop l1 l2 k indices st sorted :
  (k <= length sorted)%nat -> length indices = length st -> (forall e, In e sorted -> In e (outputWiseScores l1 l2 st)) ->
  exists sc, evaluateFixed l1 l2 k indices st sorted = Some sc /\ predictsFor l1 l2 indices st (map fst (firstn k sorted)) sc.
Proof.
  intros Hk Hl HI. unfold evaluateFixed.
  destruct (forN_inv (fun j (b : list nat * list Q * Q) =>
      fst (fst b) = map (fun p => nth p indices 0%nat) (map fst (firstn j sorted)) /\
      snd (fst b) = map (scoreAt l1 l2 st) (map fst (firstn j sorted)) /\
      snd b == headObjective l1 l2 st (map fst (firstn j sorted)) (snd (fst b)))
    (fun i '(predicted, values, quality) =>
      let* (index, score) := aget sorted i in
      let* outputIndex := aget indices index in
      let* t := aget st index in
      Some (predicted ++ [outputIndex], values ++ [score], quality + calculateOutputWiseQuality l1 l2 score t))
    k 0%nat ([], [], 0)) as (((ps, vs), q) & E & H1 & H2 & H3).
  - cbn [fst snd firstn map]. repeat split; auto.
  - intros j ((ps, vs), q) Hj (H1 & H2 & H3). cbn [fst snd] in *.
    destruct (aget_Some sorted j ltac:(lia)) as ((i, v) & Ej). rewrite Ej. unfold aget in Ej.
    pose proof (HI _ (nth_error_In _ _ Ej)) as HE. apply entries_In in HE. cbn [fst snd] in HE. destruct HE as (Hi & ->).
    rewrite (aget_nth indices i 0%nat) by lia. rewrite (aget_nth st i (0, 0)) by auto. eexists. split; [reflexivity|]. cbn [fst snd].
    assert (F : firstn (S j) sorted = firstn j sorted ++ [(i, scoreAt l1 l2 st i)]).
    { clear -Ej. revert j Ej. induction sorted as [|e l IH]; intros [|j] Ej; try discriminate; simpl in *.
      - injection Ej as ->. auto.
      - rewrite IH by auto. auto. }
    rewrite F, !map_app. cbn [map fst]. rewrite H1, H2. split; [reflexivity|split; [reflexivity|]].
    rewrite headObjective_snoc by (rewrite !map_length; reflexivity). rewrite <- H2, H3, quality_objective. reflexivity.
  - simpl plus in *. cbn [fst snd] in *. rewrite E. eexists. split; [reflexivity|].
    repeat split; cbn [scIndices scValues scQuality]; auto.
Qed.

Lemma nodup_firstn {A} (l : list A) k : NoDup l -> NoDup (firstn k l).
Proof.
  revert k. induction l as [|a l IH]; intros [|k] H; simpl; try constructor; inversion H; subst; auto.
  intros Hi. apply H2. rewrite <- (firstn_skipn k l). apply in_or_app. auto.
Qed.

Lemma evaluateFixed_spec :
  forall (l1 l2 : Q) (k : nat) (indices : list nat) (statistics : list tuple) (sorted : list (nat * Q)),
  length indices = length statistics -> NoDup indices ->
  partialSort k (outputWiseScores l1 l2 statistics) sorted ->
  exists sc positions, evaluateFixed l1 l2 k indices statistics sorted = Some sc /\
    length positions = k /\ NoDup positions /\ Forall (fun p => p < length statistics)%nat positions /\
    predictsFor l1 l2 indices statistics positions sc /\ NoDup (scIndices sc) /\
    (forall omitted p, (omitted < length statistics)%nat -> ~ In omitted positions -> In p positions ->
       Qabs (scoreAt l1 l2 statistics omitted) <= Qabs (scoreAt l1 l2 statistics p)).
Proof.
  intros l1 l2 k indices st sorted Hl HN (HP & Hk & HS & HF).
  assert (HI : forall e, In e sorted -> In e (outputWiseScores l1 l2 st)).
  { intros e He. eapply Permutation_in; [apply Permutation_sym; eassumption|auto]. }
  destruct (evaluateFixed_loop l1 l2 k indices st sorted Hk Hl HI) as (sc & E & PF).
  exists sc, (map fst (firstn k sorted)). split; auto.
  assert (ND : NoDup (map fst sorted)).
  { eapply Permutation_NoDup; [apply Permutation_map; eassumption|]. rewrite entries_fst. apply seq_NoDup. }
  assert (ND' : NoDup (map fst (firstn k sorted))) by (rewrite <- firstn_map; apply nodup_firstn; auto).
  assert (B : Forall (fun p => p < length st)%nat (map fst (firstn k sorted))).
  { apply Forall_forall. intros p Hp. apply in_map_iff in Hp. destruct Hp as (e & <- & He).
    assert (In e sorted) by (rewrite <- (firstn_skipn k sorted); apply in_or_app; auto). apply (entries_In l1 l2 st). auto. }
  split; [rewrite map_length; apply firstn_length_le; auto|]. split; auto. split; auto. split; auto. split.
  - destruct PF as (-> & _). clear -ND' B Hl HN. induction (map fst (firstn k sorted)) as [|p ps IH]; simpl; [constructor|].
    inversion ND'; subst. inversion B; subst. constructor; auto. intros H. apply in_map_iff in H. destruct H as (q & Hq & Hi).
    apply H1. replace p with q; auto. rewrite Forall_forall in H4.
    apply (proj1 (NoDup_nth indices 0%nat) HN) in Hq; auto; rewrite Hl; auto.
  - intros j p Hj Hn Hp. apply in_map_iff in Hp. destruct Hp as (e & <- & He).
    assert (Hj' : In (j, scoreAt l1 l2 st j) sorted).
    { eapply Permutation_in; [eassumption|]. apply entries_In. auto. }
    assert (In e sorted) by (rewrite <- (firstn_skipn k sorted); apply in_or_app; auto). apply HI in H. apply entries_In in H.
    destruct H as (_ & Hv). rewrite <- Hv.
    rewrite <- (firstn_skipn k sorted) in Hj'. apply in_app_or in Hj'. destruct Hj' as [Hj'|Hj'].
    + exfalso. apply Hn. change j with (fst (j, scoreAt l1 l2 st j)). apply in_map. auto.
    + rewrite Forall_forall in HF. specialize (HF e He). rewrite Forall_forall in HF. apply (HF _ Hj').
Qed.

(** The sum over elements that are never larger than the others is minimal. *)
Lemma Qsum_pairwise (a b : list Q) : length a = length b -> (forall x y, In x a -> In y b -> x <= y) -> Qsum a <= Qsum b.
Proof.
  revert b. induction a as [|x a IH]; intros [|y b] L H; try discriminate. unfold Qsum in *. simpl.
  pose proof (H x y (or_introl eq_refl) (or_introl eq_refl)).
  specialize (IH b ltac:(simpl in L; lia) (fun u v Hu Hv => H u v (or_intror Hu) (or_intror Hv))). lra.
Qed.

Lemma partition_perm {A} (f : A -> bool) l : Permutation l (filter f l ++ filter (fun x => negb (f x)) l).
Proof.
  induction l as [|a l IH]; simpl; auto. destruct (f a); simpl; [constructor; auto|].
  eapply Permutation_trans; [constructor; eassumption|]. apply Permutation_middle.
Qed.

Lemma top_minimal (q : nat -> Q) ps ps' : NoDup ps -> NoDup ps' -> length ps = length ps' ->
  (forall p o, In p ps -> In o ps' -> ~ In o ps -> q p <= q o) -> Qsum (map q ps) <= Qsum (map q ps').
Proof.
  intros N N' L H. set (f := fun p => if in_dec Nat.eq_dec p ps' then true else false).
  set (g := fun p => if in_dec Nat.eq_dec p ps then true else false).
  assert (P : Permutation (filter f ps) (filter g ps')).
  { apply NoDup_Permutation; try (apply NoDup_filter; auto). intros x. rewrite !filter_In. unfold f, g.
    destruct (in_dec _ x ps'), (in_dec _ x ps); intuition discriminate. }
  pose proof (partition_perm f ps) as P1. pose proof (partition_perm g ps') as P2.
  rewrite (Qsum_perm _ _ (Permutation_map q P1)), (Qsum_perm _ _ (Permutation_map q P2)). rewrite !map_app, !Qsum_app.
  rewrite (Qsum_perm _ _ (Permutation_map q P)). apply Qplus_le_r. apply Qsum_pairwise.
  - rewrite !map_length. apply Permutation_length in P, P1, P2. rewrite app_length in P1, P2. lia.
  - intros x y Hx Hy. apply in_map_iff in Hx. destruct Hx as (p & <- & Hp). apply in_map_iff in Hy. destruct Hy as (o & <- & Ho).
    apply filter_In in Hp, Ho. destruct Hp as (Hp & _). destruct Ho as (Ho & Hg). apply H; auto. unfold g in Hg.
    destruct (in_dec _ o ps); auto. discriminate.
Qed.

Lemma fixed_best :
  forall (l2 w : Q) (k : nat) (indices : list nat) (statistics : list tuple) (sorted : list (nat * Q)),
  length indices = length statistics -> NoDup indices -> 0 < w -> Forall (fun t => snd t + l2 == w) statistics ->
  partialSort k (outputWiseScores 0 l2 statistics) sorted ->
  exists sc, evaluateFixed 0 l2 k indices statistics sorted = Some sc /\ length (scIndices sc) = k /\
    (forall positions values, NoDup positions -> Forall (fun p => p < length statistics)%nat positions ->
       length positions = k -> length values = k ->
       scQuality sc <= headObjective 0 l2 statistics positions values).
Proof.
  intros l2 w k indices st sorted Hl HN W HF HS.
  destruct (evaluateFixed_spec 0 l2 k indices st sorted Hl HN HS) as (sc & ps & E & Lp & ND & B & (E1 & E2 & E3) & _ & M).
  exists sc. split; auto. split; [rewrite E1, map_length; auto|]. intros ps' vs ND' B' L' Lv.
  rewrite Forall_forall in HF, B, B'.
  assert (HW : forall p, (p < length st)%nat -> snd (nth p st (0, 0)) + l2 == w) by (intros; apply HF; apply nth_In; auto).
  apply Qle_trans with (headObjective 0 l2 st ps' (map (scoreAt 0 l2 st) ps')).
  - rewrite E3, E2, !headObjective_map. apply top_minimal; auto; [lia|]. intros p o Hp Ho Hn.
    apply (stronger_is_better l2 w); auto. apply M; auto.
  - apply headObjective_minimal; [|lia]. intros p Hp. rewrite HW; auto.
Qed.

(** * Heads that predict for a variable number of outputs *)

Lemma getMinAndMaxScore_spec l1 l2 st : st <> [] ->
  exists m M, getMinAndMaxScore l1 l2 st = Some (m, M) /\
    isMinimum m (map (fun p => Qabs (scoreAt l1 l2 st p)) (everyPosition st)) /\
    isMaximum M (map (fun p => Qabs (scoreAt l1 l2 st p)) (everyPosition st)).
Proof.
  intros Hne. assert (H0 : (0 < length st)%nat) by (destruct st; [congruence|simpl; lia]).
  unfold getMinAndMaxScore. rewrite (aget_nth st 0 (0, 0)) by auto.
  set (f := fun p => Qabs (scoreAt l1 l2 st p)).
  destruct (forN_inv (fun k (b : Q * Q) => isMinimum (fst b) (map f (seq 0 k)) /\ isMaximum (snd b) (map f (seq 0 k)))
    (fun i '(minAbsScore, maxAbsScore) =>
      let* t := aget st i in
      let absScore := Qabs (calculateOutputWiseScore l1 l2 t) in
      Some (if gtb absScore maxAbsScore then (minAbsScore, absScore)
            else if ltb absScore minAbsScore then (absScore, maxAbsScore) else (minAbsScore, maxAbsScore)))
    (length st - 1) 1%nat (f 0%nat, f 0%nat)) as ((m, M) & E & H1 & H2).
  - cbn [fst snd seq map]. repeat split; try (left; reflexivity); repeat constructor; apply Qle_refl.
  - intros j (m, M) Hj ((I1 & F1) & (I2 & F2)). cbn [fst snd] in *. rewrite (aget_nth st j (0, 0)) by lia.
    eexists. split; [reflexivity|]. change (Qabs (calculateOutputWiseScore l1 l2 (nth j st (0, 0)))) with (f j).
    assert (MM : m <= M) by (rewrite Forall_forall in F1; apply F1; auto).
    rewrite seq_snoc, map_app. cbn [map].
    assert (Hin : forall x, In x (map f (seq 0 j)) -> In x (map f (seq 0 j) ++ [f j])) by (intros; apply in_or_app; auto).
    assert (Hlast : In (f j) (map f (seq 0 j) ++ [f j])) by (apply in_or_app; simpl; auto).
    destruct (gtb (f j) M) eqn:G; [|destruct (ltb (f j) m) eqn:G2]; cbn [fst snd].
    + apply gtb_spec in G. split; split; auto; apply Forall_app; split; auto.
      * repeat constructor. lra.
      * eapply Forall_impl; [|exact F2]. intros x Hx. cbv beta in Hx. lra.
      * repeat constructor. lra.
    + apply gtb_false in G. apply ltb_spec in G2. split; split; auto; apply Forall_app; split; auto.
      * eapply Forall_impl; [|exact F1]. intros x Hx. cbv beta in Hx. lra.
      * repeat constructor. lra.
    + apply gtb_false in G. apply ltb_false in G2. split; split; auto; apply Forall_app; split; auto.
  - replace (1 + (length st - 1))%nat with (length st) in * by lia. cbn [fst snd] in *.
    exists m, M. split; [exact E|]. unfold everyPosition. auto.
Qed.

Lemma Q2R_pos x : 0 < x -> (0 < Q2R x)%R.
Proof. intros H. apply Qlt_Rlt in H. unfold Q2R at 1 in H. simpl in H. rewrite Rmult_0_l in H. auto. Qed.

Lemma Q2R_zero x : x == 0 -> Q2R x = 0%R.
Proof. intros H. rewrite (Qeq_eqR _ _ H). unfold Q2R. simpl. apply Rmult_0_l. Qed.

Lemma pow_pos b e : 0 < b -> pow b e = Rpower (Q2R b) (Q2R e).
Proof.
  intros H. unfold pow. destruct (Qeq_bool b 0) eqn:E; auto. apply Qeq_bool_iff in E. lra.
Qed.

Lemma pow_zero b e : b == 0 -> pow b e = 0%R.
Proof. intros H. unfold pow. apply Qeq_bool_iff in H. rewrite H. auto. Qed.

Lemma Rpower_pos x y : (0 < Rpower x y)%R.
Proof. apply exp_pos. Qed.

Lemma Rpower_div x y e : (0 < x)%R -> (0 < y)%R -> Rpower (x / y) e = (Rpower x e / Rpower y e)%R.
Proof.
  intros Hx Hy. assert (E : (Rpower (x / y) e * Rpower y e = Rpower x e)%R).
  { rewrite Rpower_mult_distr; auto; [|apply Rdiv_lt_0_compat; auto]. f_equal. field. apply Rgt_not_eq. auto. }
  rewrite <- E. field. apply Rgt_not_eq. apply Rpower_pos.
Qed.

Lemma qualifies_spec m M v e c : m <= Qabs v -> Qabs v <= M -> 0 < c ->
  (calculateWeightedScore v m e >= calculateThreshold m M c e)%R <-> qualifies m M e c (Qabs v).
Proof.
  intros Hm HM Hc.
  unfold calculateWeightedScore, calculateThreshold, qualifies. destruct (Qeq_dec M m) as [E|NE].
  - rewrite (pow_zero (M - m)), (pow_zero (Qabs v - m)) by lra. rewrite Rmult_0_l. split; auto. intros _. apply Rle_refl.
  - rewrite (pow_pos (M - m)) by (destruct (Q_dec m M) as [[?|?]|?]; lra). assert (HmM : m < M) by (destruct (Q_dec m M) as [[?|?]|?]; lra).
    assert (L : (0 < Rpower (Q2R (M - m)) (Q2R e) * Q2R c)%R) by (apply Rmult_lt_0_compat; [apply Rpower_pos|apply Q2R_pos; auto]).
    destruct (Qlt_le_dec m (Qabs v)) as [Q|Q].
    + rewrite (pow_pos (Qabs v - m)) by lra.
      assert (D : Q2R ((Qabs v - m) / (M - m)) = (Q2R (Qabs v - m) / Q2R (M - m))%R).
      { unfold Qdiv. rewrite Q2R_mult, Q2R_inv by lra. auto. }
      rewrite D. assert (P1 : (0 < Q2R (Qabs v - m))%R) by (apply Q2R_pos; lra). assert (P2 : (0 < Q2R (M - m))%R) by (apply Q2R_pos; lra).
      rewrite Rpower_div by auto. pose proof (Rpower_pos (Q2R (M - m)) (Q2R e)) as P3.
      set (a := Rpower (Q2R (Qabs v - m)) (Q2R e)). set (b := Rpower (Q2R (M - m)) (Q2R e)) in *. split.
      * intros H. right. split; auto. apply Rmult_le_reg_r with b; auto. unfold Rdiv. rewrite Rmult_assoc, Rinv_l, Rmult_1_r.
        { rewrite Rmult_comm. apply Rge_le. auto. } apply Rgt_not_eq. auto.
      * intros [H|(_ & H)]; [contradiction|]. apply Rle_ge. apply Rmult_le_compat_r with (r := b) in H; [|apply Rlt_le; auto].
        unfold Rdiv in H. rewrite Rmult_assoc, Rinv_l, Rmult_1_r in H; [|apply Rgt_not_eq; auto]. rewrite Rmult_comm. auto.
    + rewrite (pow_zero (Qabs v - m)) by lra. split.
      * intros H. exfalso. apply Rge_not_lt in H. auto.
      * intros [H|(H & _)]; [contradiction|lra].
Qed.

Lemma seq_SS n : forall s, StronglySorted lt (seq s n).
Proof.
  induction n; intros s; simpl; constructor; auto. apply Forall_forall. intros x Hx. apply in_seq in Hx. lia.
Qed.

Lemma SS_snoc l x : StronglySorted lt l -> Forall (fun y => y < x)%nat l -> StronglySorted lt (l ++ [x]).
Proof.
  induction 1 as [|a l HS IH HF]; intros H; simpl; [repeat constructor|]. inversion H; subst. constructor; auto.
  apply Forall_app. split; auto.
Qed.

Lemma evaluateDynamic_spec :
  forall (l1 l2 threshold exponent : Q) (indices : list nat) (statistics : list tuple),
  statistics <> [] -> length indices = length statistics -> 0 < threshold < 1 -> 0 < exponent ->
  exists sc positions minimum maximum, evaluateDynamic l1 l2 threshold exponent indices statistics = Some sc /\
    predictsFor l1 l2 indices statistics positions sc /\ StronglySorted lt positions /\
    isMinimum minimum (map (fun p => Qabs (scoreAt l1 l2 statistics p)) (everyPosition statistics)) /\
    isMaximum maximum (map (fun p => Qabs (scoreAt l1 l2 statistics p)) (everyPosition statistics)) /\
    (forall p, In p positions <-> (p < length statistics)%nat /\
       qualifies minimum maximum exponent (1 - threshold) (Qabs (scoreAt l1 l2 statistics p))) /\
    (forall p, (p < length statistics)%nat -> Qabs (scoreAt l1 l2 statistics p) == maximum -> In p positions) /\
    scIndices sc <> [].
Proof.
  intros l1 l2 th e indices st Hne Hl Hth He.
  destruct (getMinAndMaxScore_spec l1 l2 st Hne) as (m & M & E & HM1 & HM2). unfold evaluateDynamic. rewrite E.
  assert (B : forall p, (p < length st)%nat -> m <= Qabs (scoreAt l1 l2 st p) /\ Qabs (scoreAt l1 l2 st p) <= M).
  { intros p Hp. destruct HM1 as (_ & F1), HM2 as (_ & F2). rewrite Forall_forall in F1, F2.
    assert (In (Qabs (scoreAt l1 l2 st p)) (map (fun p => Qabs (scoreAt l1 l2 st p)) (everyPosition st))).
    { apply in_map_iff. exists p. split; auto. apply in_seq. lia. } split; auto. }
  destruct (forN_inv (fun k (b : list nat * list Q * Q) => exists ps,
      fst (fst b) = map (fun p => nth p indices 0%nat) ps /\ snd (fst b) = map (scoreAt l1 l2 st) ps /\
      snd b == headObjective l1 l2 st ps (snd (fst b)) /\ StronglySorted lt ps /\
      (forall p, In p ps <-> (p < k)%nat /\ qualifies m M e (1 - th) (Qabs (scoreAt l1 l2 st p))))
    (fun i '(predicted, values, quality) =>
      let* t := aget st i in
      let score := calculateOutputWiseScore l1 l2 t in
      if Rge_dec (calculateWeightedScore score m e) (calculateThreshold m M (1 - th) e) then
        let* outputIndex := aget indices i in
        Some (predicted ++ [outputIndex], values ++ [score], quality + calculateOutputWiseQuality l1 l2 score t)
      else Some (predicted, values, quality)) (length st) 0%nat ([], [], 0)) as (((os, vs), q) & EL & ps & H1 & H2 & H3 & HS & HI).
  - exists []. cbn [fst snd map]. split; auto. split; auto. split; [reflexivity|]. split; [constructor|].
    intros p. split; [intros []|lia].
  - intros j ((os, vs), q) Hj (ps & H1 & H2 & H3 & HS & HI). cbn [fst snd] in *. rewrite (aget_nth st j (0, 0)) by lia. cbv zeta.
    fold (scoreAt l1 l2 st j). destruct (B j ltac:(lia)) as (B1 & B2).
    pose proof (qualifies_spec m M (scoreAt l1 l2 st j) e (1 - th) B1 B2 ltac:(lra)) as QS.
    destruct (Rge_dec _ _) as [G|G].
    + rewrite (aget_nth indices j 0%nat) by lia. eexists. split; [reflexivity|]. exists (ps ++ [j]). cbn [fst snd].
      rewrite !map_app. cbn [map]. split; [rewrite H1; reflexivity|]. split; [rewrite H2; reflexivity|]. split; [|split].
      * rewrite H2 in *. rewrite headObjective_snoc by (rewrite map_length; reflexivity). rewrite H3, quality_objective. reflexivity.
      * apply SS_snoc; auto. apply Forall_forall. intros p Hp. apply HI in Hp. lia.
      * intros p. rewrite in_app_iff, HI. simpl. split.
        { intros [(? & ?)|[<-|[]]]; split; auto; apply QS; auto. }
        { intros (Hp & Hq). destruct (Nat.eq_dec p j) as [->|]; auto. left. split; auto. lia. }
    + eexists. split; [reflexivity|]. exists ps. cbn [fst snd]. split; auto. split; auto. split; auto. split; auto.
      intros p. rewrite HI. split; intros (Hp & Hq); split; auto. destruct (Nat.eq_dec p j) as [->|]; [|lia].
      exfalso. apply G. apply QS. auto.
  - simpl plus in *. cbn [fst snd] in *. rewrite EL.
    assert (MX : forall p, (p < length st)%nat -> Qabs (scoreAt l1 l2 st p) == M -> In p ps).
    { intros p Hp HE. apply HI. split; auto. unfold qualifies. destruct (Qeq_dec M m) as [|NE]; auto. right.
      destruct (B p Hp). assert (L : m < M) by (destruct (Q_dec m M) as [[?|?]|?]; lra). split; [lra|].
      assert (ED : (Qabs (scoreAt l1 l2 st p) - m) / (M - m) == 1) by (rewrite HE; field; lra).
      rewrite (Qeq_eqR _ _ ED). unfold Rpower. rewrite RMicromega.Q2R_1, ln_1, Rmult_0_r, exp_0.
      rewrite <- RMicromega.Q2R_1. apply Qle_Rle. lra. }
    eexists. exists ps, m, M. split; [reflexivity|]. split; [repeat split; auto|]. split; auto. split; auto. split; auto. split; auto. split; auto.
    cbn [scIndices]. destruct HM2 as (HM2 & _). apply in_map_iff in HM2. destruct HM2 as (p & Hp & Hs). apply in_seq in Hs.
    specialize (MX p ltac:(lia) ltac:(rewrite Hp; reflexivity)). rewrite H1. destruct ps; [destruct MX|discriminate].
Qed.

Lemma isMinimum_unique m m' l : isMinimum m l -> isMinimum m' l -> m == m'.
Proof. intros (I & F) (I' & F'). rewrite Forall_forall in F, F'. specialize (F _ I'). specialize (F' _ I). lra. Qed.
Lemma isMaximum_unique m m' l : isMaximum m l -> isMaximum m' l -> m == m'.
Proof. intros (I & F) (I' & F'). rewrite Forall_forall in F, F'. specialize (F _ I'). specialize (F' _ I). lra. Qed.

Lemma qualifies_mono m M m' M' e e' c c' v : m == m' -> M == M' -> m <= v -> v <= M -> 0 < e -> e' <= e -> c' <= c ->
  qualifies m M e c v -> qualifies m' M' e' c' v.
Proof.
  intros Em EM Hm HM He HE HC [H|(H & HR)]; [left; lra|].
  destruct (Qeq_dec M m) as [|NE]; [left; lra|right]. assert (L : m < M) by (destruct (Q_dec m M) as [[?|?]|?]; lra).
  split; [lra|]. assert (ED : (v - m') / (M' - m') == (v - m) / (M - m)) by (rewrite Em, EM; reflexivity).
  rewrite (Qeq_eqR _ _ ED). apply Rle_trans with (Q2R c); [apply Qle_Rle; auto|]. apply Rle_trans with (1 := HR).
  assert (X0 : 0 < (v - m) / (M - m)) by (apply Qlt_shift_div_l; lra).
  assert (X1 : (v - m) / (M - m) <= 1) by (apply Qle_shift_div_r; lra).
  set (x := (v - m) / (M - m)) in *. clearbody x. apply Q2R_pos in X0. apply Qle_Rle in X1. rewrite RMicromega.Q2R_1 in X1.
  apply Qle_Rle in HE. unfold Rpower.
  assert (LN : (ln (Q2R x) <= 0)%R).
  { rewrite <- ln_1. destruct (Rle_lt_or_eq_dec _ _ X1) as [L1| ->]; [|apply Rle_refl]. apply Rlt_le. apply ln_increasing; auto. }
  assert (P : (Q2R e * ln (Q2R x) <= Q2R e' * ln (Q2R x))%R).
  { apply Ropp_le_cancel. rewrite <- !Ropp_mult_distr_r_reverse. apply Rmult_le_compat_r; auto.
    rewrite <- Ropp_0. apply Ropp_le_contravar. auto. }
  destruct (Rle_lt_or_eq_dec _ _ P) as [P1|P1]; [apply Rlt_le; apply exp_increasing; auto|rewrite P1; apply Rle_refl].
Qed.

Lemma dynamic_monotone :
  forall (l1 l2 threshold threshold' exponent exponent' : Q) (indices : list nat) (statistics : list tuple) (sc sc' : scores),
  statistics <> [] -> length indices = length statistics -> 0 < threshold -> threshold <= threshold' -> threshold' < 1 ->
  0 < exponent' -> exponent' <= exponent ->
  evaluateDynamic l1 l2 threshold exponent indices statistics = Some sc ->
  evaluateDynamic l1 l2 threshold' exponent' indices statistics = Some sc' ->
  incl (scIndices sc) (scIndices sc').
Proof.
  intros l1 l2 th th' e e' indices st sc sc' Hne Hl H1 H2 H3 H4 H5 E E'.
  destruct (evaluateDynamic_spec l1 l2 th e indices st Hne Hl) as (sc0 & ps & m & M & E0 & P & _ & Hm & HM & HI & _); try lra.
  destruct (evaluateDynamic_spec l1 l2 th' e' indices st Hne Hl) as (sc1 & ps' & m' & M' & E1 & P' & _ & Hm' & HM' & HI' & _); try lra.
  assert (sc0 = sc) by congruence. assert (sc1 = sc') by congruence. subst sc0 sc1.
  destruct P as (-> & _). destruct P' as (-> & _). intros x Hx. apply in_map_iff in Hx. destruct Hx as (p & <- & Hp).
  apply in_map_iff. exists p. split; [reflexivity|]. apply HI'. apply HI in Hp. destruct Hp as (Hp & Q). split; auto.
  assert (In (Qabs (scoreAt l1 l2 st p)) (map (fun p => Qabs (scoreAt l1 l2 st p)) (everyPosition st))).
  { apply in_map_iff. exists p. split; auto. apply in_seq. lia. }
  eapply qualifies_mono; [| | | | | | |exact Q].
  - eapply isMinimum_unique; eassumption.
  - eapply isMaximum_unique; eassumption.
  - destruct Hm as (_ & F). rewrite Forall_forall in F. auto.
  - destruct HM as (_ & F). rewrite Forall_forall in F. apply (F _ H).
  - lra.
  - auto.
  - lra.
Qed.

(** * Counterexamples *)

Lemma complete_refuted :
  exists l1 l2 indices statistics sc values,
    0 <= l1 /\ 0 <= l2 /\ Forall (fun t => 0 < snd t + l2) statistics /\
    evaluateComplete l1 l2 indices statistics = Some sc /\ length values = length statistics /\
    headObjective l1 l2 statistics (everyPosition statistics) values < scQuality sc.
Proof.
  exists 1, 0, [0%nat], [(2, 1)]. eexists. exists [- (1)]. split; [discriminate|]. split; [discriminate|].
  split; [repeat constructor|]. split; [vm_compute; reflexivity|]. split; [reflexivity|]. vm_compute. reflexivity.
Qed.

Lemma complete_positive_refuted :
  exists l1 l2 indices statistics sc,
    0 <= l1 /\ 0 <= l2 /\ Forall (fun t => 0 < snd t + l2) statistics /\
    evaluateComplete l1 l2 indices statistics = Some sc /\ 0 < scQuality sc.
Proof.
  exists 1, 0, [0%nat], [(2, 1)]. eexists. split; [discriminate|]. split; [discriminate|].
  split; [repeat constructor|]. split; [vm_compute; reflexivity|]. vm_compute. reflexivity.
Qed.

Lemma conservative_refuted :
  exists l1 l1' l2 gradient hessian,
    0 <= l1 /\ l1 < l1' /\ 0 <= l2 /\ 0 < hessian /\
    Qabs (calculateOutputWiseScore l1 l2 (gradient, hessian)) < Qabs (calculateOutputWiseScore l1' l2 (gradient, hessian)).
Proof.
  exists 0, 1, 0, 2, 1. split; [discriminate|]. split; [reflexivity|]. split; [discriminate|]. split; [reflexivity|].
  vm_compute. reflexivity.
Qed.

Lemma single_refuted :
  exists l2 indices statistics sc position value,
    0 <= l2 /\ Forall (fun t => 0 < snd t) statistics /\ length indices = length statistics /\
    evaluateSingle 0 l2 indices statistics = Some sc /\ (position < length statistics)%nat /\
    headObjective 0 l2 statistics [position] [value] < scQuality sc.
Proof.
  exists 0, [0%nat; 1%nat], [(- (1), 1 # 10); (- (10), 2)]. eexists. exists 1%nat, 5.
  split; [discriminate|]. split; [repeat constructor|]. split; [reflexivity|]. split; [vm_compute; reflexivity|].
  split; [simpl; lia|]. vm_compute. reflexivity.
Qed.

Lemma documented_refuted :
  exists l1 l2 threshold exponent indices statistics sc p best,
    0 < threshold < 1 /\ 1 <= exponent /\ length indices = length statistics /\ NoDup indices /\
    evaluateDynamic l1 l2 threshold exponent indices statistics = Some sc /\ (p < length statistics)%nat /\
    isMaximum best (map (fun p => Qabs (scoreAt l1 l2 statistics p)) (everyPosition statistics)) /\
    documented exponent threshold (Qabs (scoreAt l1 l2 statistics p)) best /\ ~ In (nth p indices 0%nat) (scIndices sc).
Proof.
  set (st := [(- (10), 1); (- (9), 1)]).
  destruct (evaluateDynamic_spec 0 0 (1 # 5) 1 [0; 1]%nat st) as (sc & ps & m & M & E & P & _ & Hm & HM & HI & _);
    [discriminate|reflexivity|split; reflexivity|reflexivity|].
  exists 0, 0, (1 # 5), 1, [0; 1]%nat, st, sc, 1%nat, M.
  assert (E9 : Qabs (scoreAt 0 0 st 1) == 9) by (vm_compute; reflexivity).
  assert (E10 : Qabs (scoreAt 0 0 st 0) == 10) by (vm_compute; reflexivity).
  assert (Em : m == 9).
  { destruct Hm as (I & F). rewrite Forall_forall in F.
    pose proof (F (Qabs (scoreAt 0 0 st 1)) ltac:(simpl; auto)).
    assert (m == 10 \/ m == 9). { simpl in I. destruct I as [<-|[<-|[]]]; auto. } lra. }
  assert (EM : M == 10).
  { destruct HM as (I & F). rewrite Forall_forall in F.
    pose proof (F (Qabs (scoreAt 0 0 st 0)) ltac:(simpl; auto)).
    assert (M == 10 \/ M == 9). { simpl in I. destruct I as [<-|[<-|[]]]; auto. } lra. }
  split; [split; reflexivity|]. split; [discriminate|]. split; [reflexivity|]. split; [repeat constructor; simpl; intuition discriminate|].
  split; [exact E|]. split; [simpl; lia|]. split; [exact HM|]. split.
  - unfold documented. rewrite (Qeq_eqR _ _ E9), (Qeq_eqR _ _ EM). rewrite RMicromega.Q2R_1.
    rewrite !Rpower_1 by (apply Q2R_pos; reflexivity). rewrite <- Q2R_mult. apply Qlt_Rlt. reflexivity.
  - destruct P as (-> & _). intros H. apply in_map_iff in H. destruct H as (p & Hp & H). apply HI in H. destruct H as (L & H).
    assert (p = 1%nat). { simpl in L. destruct p as [|[|p]]; [discriminate|reflexivity|lia]. } subst p.
    destruct H as [H|(H & _)]; lra.
Qed.
