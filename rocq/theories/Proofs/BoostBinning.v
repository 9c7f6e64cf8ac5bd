From Coq Require Import QArith Qabs Qround Reals Qreals ZArith List Bool Arith Lia Lqa Permutation Sorted.
From Verif Require Import Lib.Arr Spec.Stopping Model.Sampling Model.BoostEvaluation Model.BoostBinning.
From Verif Require Import Spec.BoostEvaluation Spec.BoostBinning Proofs.Sampling Proofs.Pruning Proofs.Stopping Proofs.BoostEvaluation.
Import ListNotations.
Open Scope Q_scope.

(** ** Information about the criteria *)
Definition isNeg (x : Q) : bool := ltb x 0.
Definition isPos (x : Q) : bool := gtb x 0.

Definition negInfo (l : list Q) (info : labelInfo) : Prop :=
  (filter isNeg l = [] /\ minNegative info = 0 /\ maxNegative info = None) \/
  (exists M, maxNegative info = Some M /\ In (minNegative info) l /\ In M l /\ minNegative info < 0 /\ M < 0 /\
     (forall x, In x l -> x < 0 -> minNegative info <= x /\ x <= M)).

Definition posInfo (l : list Q) (info : labelInfo) : Prop :=
  (filter isPos l = [] /\ minPositive info = None /\ maxPositive info = 0) \/
  (exists m, minPositive info = Some m /\ In (maxPositive info) l /\ In m l /\ 0 < maxPositive info /\ 0 < m /\
     (forall x, In x l -> 0 < x -> m <= x /\ x <= maxPositive info)).

Definition infoOk (l : list Q) (info : labelInfo) : Prop :=
  numNegativeBins info = length (filter isNeg l) /\ numPositiveBins info = length (filter isPos l) /\
  negInfo l info /\ posInfo l info.

Lemma filter_nil {A} (f : A -> bool) l x : filter f l = [] -> In x l -> f x = false.
Proof. intros H Hi. destruct (f x) eqn:E; auto. assert (In x (filter f l)) by (apply filter_In; auto). rewrite H in H0. contradiction. Qed.

Lemma filter_snoc {A} (f : A -> bool) l x : filter f (l ++ [x]) = filter f l ++ (if f x then [x] else []).
Proof. rewrite filter_app. simpl. destruct (f x); auto. Qed.

Lemma updateInfo_ok l info x : infoOk l info -> infoOk (l ++ [x]) (updateInfo info x).
Proof.
  intros (Hn & Hp & HN & HP). unfold infoOk, updateInfo. rewrite !filter_snoc. fold (isNeg x) (isPos x).
  assert (IA : forall y, In y (l ++ [x]) -> In y l \/ y = x).
  { intros y Hy. apply in_app_or in Hy. destruct Hy as [?|[?|[]]]; auto. }
  assert (IL : forall y, In y l -> In y (l ++ [x])) by (intros; apply in_or_app; auto).
  assert (IX : In x (l ++ [x])) by (apply in_or_app; simpl; auto).
  destruct (isNeg x) eqn:EN.
  - pose proof EN as Nx. apply ltb_spec in Nx.
    assert (EP : isPos x = false) by (apply gtb_false; lra). rewrite EP, app_nil_r.
    cbn [numNegativeBins numPositiveBins]. rewrite app_length. simpl length. split; [lia|]. split; [auto|]. split.
    + right. unfold negInfo. cbn [minNegative maxNegative].
      destruct HN as [(F & E1 & E2)|(M & E & I1 & I2 & L1 & L2 & B)].
      * rewrite E1, E2. fold (isNeg x). rewrite EN. exists x. split; auto. split; auto. split; auto. split; auto. split; auto.
        intros y Hy Ny. apply IA in Hy. destruct Hy as [Hy| ->]; [|lra].
        apply (filter_nil isNeg l y F) in Hy. apply ltb_spec in Ny. unfold isNeg in Hy. congruence.
      * rewrite E. destruct (ltb x (minNegative info)) eqn:C1, (gtb x M) eqn:C2.
        all: try apply ltb_spec in C1; try apply ltb_false in C1; try apply gtb_spec in C2; try apply gtb_false in C2.
        all: eexists; split; [reflexivity|]; split; [auto|]; split; [auto|]; split; [lra|]; split; [lra|].
        all: intros y Hy Ny; apply IA in Hy; destruct Hy as [Hy| ->]; [specialize (B y Hy Ny); lra|lra].
    + unfold posInfo in *. cbn [minPositive maxPositive]. rewrite filter_snoc, EP, app_nil_r.
      destruct HP as [?|(m & E & I1 & I2 & L1 & L2 & B)]; auto. right. exists m. split; auto. split; auto. split; auto.
      split; auto. split; auto. intros y Hy Ny. apply IA in Hy. destruct Hy as [Hy| ->]; [auto|lra].
  - pose proof EN as Nx. apply ltb_false in Nx. destruct (isPos x) eqn:EP.
    + pose proof EP as Px. apply gtb_spec in Px.
      cbn [numNegativeBins numPositiveBins]. rewrite app_nil_r, app_length. simpl length. split; [lia|]. split; [lia|]. split.
      * unfold negInfo in *. cbn [minNegative maxNegative]. rewrite filter_snoc, EN, app_nil_r.
        destruct HN as [?|(m & E & I1 & I2 & L1 & L2 & B)]; auto. right. exists m. split; auto. split; auto. split; auto.
        split; auto. split; auto. intros y Hy Ny. apply IA in Hy. destruct Hy as [Hy| ->]; [auto|lra].
      * right. cbn [minPositive maxPositive].
        destruct HP as [(F & E1 & E2)|(m & E & I1 & I2 & L1 & L2 & B)].
        -- rewrite E1, E2. fold (isPos x). rewrite EP. exists x. split; auto. split; auto. split; auto. split; auto. split; auto.
           intros y Hy Ny. apply IA in Hy. destruct Hy as [Hy| ->]; [|lra].
           apply (filter_nil isPos l y F) in Hy. apply gtb_spec in Ny. unfold isPos in Hy. congruence.
        -- rewrite E. destruct (ltb x m) eqn:C1, (gtb x (maxPositive info)) eqn:C2.
           all: try apply ltb_spec in C1; try apply ltb_false in C1; try apply gtb_spec in C2; try apply gtb_false in C2.
           all: eexists; split; [reflexivity|]; split; [auto|]; split; [auto|]; split; [lra|]; split; [lra|].
           all: intros y Hy Ny; apply IA in Hy; destruct Hy as [Hy| ->]; [specialize (B y Hy Ny); lra|lra].
    + rewrite !app_nil_r. split; [auto|]. split; [auto|]. pose proof EP as Px. apply gtb_false in Px. split.
      * unfold negInfo in *. rewrite filter_snoc, EN, app_nil_r.
        destruct HN as [?|(m & E & I1 & I2 & L1 & L2 & B)]; auto. right. exists m. split; auto. split; auto. split; auto.
        split; auto. split; auto. intros y Hy Ny. apply IA in Hy. destruct Hy as [Hy| ->]; [auto|lra].
      * unfold posInfo in *. rewrite filter_snoc, EP, app_nil_r.
        destruct HP as [?|(m & E & I1 & I2 & L1 & L2 & B)]; auto. right. exists m. split; auto. split; auto. split; auto.
        split; auto. split; auto. intros y Hy Ny. apply IA in Hy. destruct Hy as [Hy| ->]; [auto|lra].
Qed.

Definition limitBins (c : binningConfig) (n : nat) : nat :=
  if (0 <? n)%nat then calculateBoundedFraction n (binRatio c) (minBins c) (maxBins c) else n.

Lemma getLabelInfo_spec c criteria :
  exists info, getLabelInfo c criteria (length criteria) = Some info /\
    numNegativeBins info = limitBins c (length (filter isNeg criteria)) /\
    numPositiveBins info = limitBins c (length (filter isPos criteria)) /\
    negInfo criteria info /\ posInfo criteria info.
Proof.
  unfold getLabelInfo.
  destruct (forN_inv (fun j info => infoOk (firstn j criteria) info)
     (fun i info => let* criterion := aget criteria i in Some (updateInfo info criterion)) (length criteria) 0
     (mkInfo 0 None 0 0 0 None)) as (info & -> & H).
  - unfold infoOk, negInfo, posInfo. simpl. auto 8.
  - intros j info Hj H. rewrite (aget_nth criteria j 0) by lia. eexists. split; [reflexivity|].
    rewrite (firstn_S_nth criteria j (nth j criteria 0)) by (apply nth_error_nth'; lia). apply updateInfo_ok. auto.
  - simpl in H. rewrite firstn_all in H. destruct H as (Hn & Hp & HN & HP). eexists. split; [reflexivity|].
    cbn [numNegativeBins numPositiveBins]. rewrite Hn, Hp. auto.
Qed.

Lemma limitBins_pos c n : 0 < binRatio c -> (1 <= minBins c)%nat -> (0 < n)%nat -> (0 < limitBins c n)%nat.
Proof.
  intros Hr Hm Hn. unfold limitBins. destruct (Nat.ltb_spec 0 n); [|lia]. rewrite bounded_fraction_exact. lia.
Qed.

(** ** Indices of bins *)
Lemma floor_nat q : 0 <= q -> inject_Z (Z.of_nat (Z.to_nat (Qfloor q))) <= q /\ q < inject_Z (Z.of_nat (Z.to_nat (Qfloor q))) + 1.
Proof.
  intros H. assert (0 <= Qfloor q)%Z. { change 0%Z with (Qfloor 0). apply Qfloor_resp_le. auto. }
  rewrite Z2Nat.id by auto. pose proof (Qfloor_le q). pose proof (Qlt_floor q) as L. rewrite inject_Z_plus in L. split; auto.
Qed.

Lemma inject_nat_lt a b : inject_Z (Z.of_nat a) < inject_Z (Z.of_nat b) + 1 -> (a <= b)%nat.
Proof.
  intros H. change 1 with (inject_Z 1) in H. rewrite <- inject_Z_plus in H. rewrite <- Zlt_Qlt in H. lia.
Qed.

Lemma inject_nat_le a b : (a <= b)%nat -> inject_Z (Z.of_nat a) <= inject_Z (Z.of_nat b).
Proof. intros. rewrite <- Zle_Qle. lia. Qed.

Lemma inject_nat_S a : inject_Z (Z.of_nat (S a)) == inject_Z (Z.of_nat a) + 1.
Proof. rewrite Nat2Z.inj_succ. unfold Z.succ. rewrite inject_Z_plus. reflexivity. Qed.

Section Index.
  Variables (d : nat) (m M : Q) (n : nat).
  Hypothesis (Hn : (0 < n)%nat) (HmM : m <= M).
  Let span := (M - m) / inject_Z (Z.of_nat n).

  Let n_pos : 0 < inject_Z (Z.of_nat n).
  Proof. change 0 with (inject_Z (Z.of_nat 0)). rewrite <- Zlt_Qlt. lia. Qed.

  Lemma span_n : span * inject_Z (Z.of_nat n) == M - m.
  Proof. unfold span. field. lra. Qed.

  Lemma span_nonneg : 0 <= span.
  Proof. unfold span. apply Qle_shift_div_l; auto. lra. Qed.

  Lemma binIndexOf_spec x : m <= x -> x <= M ->
    exists k, binIndexOf (Some d) x m span n = Some k /\ (k < n)%nat /\
      (~ span == 0 -> inject_Z (Z.of_nat k) * span <= x - m /\ x - m <= (inject_Z (Z.of_nat k) + 1) * span /\
        ((S k < n)%nat -> x - m < (inject_Z (Z.of_nat k) + 1) * span)) /\
      (span == 0 -> k = Nat.min d (n - 1) /\ x == m).
  Proof.
    intros H1 H2. unfold binIndexOf. destruct (Qeq_bool span 0) eqn:E.
    - apply Qeq_bool_iff in E. eexists. split; [reflexivity|].
      destruct (Nat.leb_spec n d); (split; [lia|]); (split; [intros; contradiction|]); intros _; (split; [lia|]);
        pose proof span_n as S; rewrite E in S; lra.
    - assert (NE : ~ span == 0) by (intros H; apply Qeq_bool_iff in H; congruence).
      assert (P : 0 < span). { pose proof span_nonneg. destruct (Q_dec span 0) as [[?|?]|?]; lra. }
      set (q := (x - m) / span). assert (Eq : q * span == x - m) by (unfold q; field; auto).
      assert (Q0 : 0 <= q) by (apply Qle_shift_div_l; auto; lra).
      destruct (floor_nat q Q0) as (F1 & F2). set (k := Z.to_nat (Qfloor q)) in *. clearbody k.
      eexists. split; [reflexivity|].
      assert (A1 : inject_Z (Z.of_nat k) * span <= x - m). { rewrite <- Eq. apply Qmult_le_compat_r; lra. }
      assert (A2 : x - m < (inject_Z (Z.of_nat k) + 1) * span).
      { rewrite <- Eq. apply Qmult_lt_compat_r; auto. }
      destruct (Nat.leb_spec n k).
      + split; [lia|]. split; [|intros; contradiction]. intros _.
        assert (En : inject_Z (Z.of_nat n) == inject_Z (Z.of_nat (n - 1)) + 1).
        { rewrite <- inject_nat_S. replace (S (n - 1)) with n by lia. reflexivity. }
        pose proof span_n as S. rewrite En in S. split; [|split].
        * assert (inject_Z (Z.of_nat (n - 1)) <= inject_Z (Z.of_nat k)) by (apply inject_nat_le; lia).
          assert (inject_Z (Z.of_nat (n - 1)) * span <= inject_Z (Z.of_nat k) * span) by (apply Qmult_le_compat_r; lra). lra.
        * setoid_replace ((inject_Z (Z.of_nat (n - 1)) + 1) * span) with (M - m) by (rewrite <- S; ring). lra.
        * intros. lia.
      + split; [auto|]. split; [|intros; contradiction]. intros _. split; [auto|]. split; [lra|]. intros _. auto.
  Qed.

  Lemma binIndexOf_mono x y k l : m <= x -> x <= y -> y <= M ->
    binIndexOf (Some d) x m span n = Some k -> binIndexOf (Some d) y m span n = Some l ->
    (k <= l)%nat /\ (k = l -> (y - x) * inject_Z (Z.of_nat n) <= M - m).
  Proof.
    intros H1 H2 H3 Ek El.
    destruct (binIndexOf_spec x) as (k' & Ek' & Bk & Nk & Zk); [lra|lra|]. rewrite Ek in Ek'. injection Ek' as <-.
    destruct (binIndexOf_spec y) as (l' & El' & Bl & Nl & Zl); [lra|lra|]. rewrite El in El'. injection El' as <-.
    destruct (Qeq_dec span 0) as [E|NE].
    - destruct (Zk E) as (K1 & K2), (Zl E) as (L1 & L2). split; [lia|]. intros _.
      setoid_replace (y - x) with 0 by lra. lra.
    - specialize (Nk NE). specialize (Nl NE). destruct Nk as (K1 & K2 & K3), Nl as (L1 & L2 & L3).
      assert (P : 0 < span). { pose proof span_nonneg. destruct (Q_dec span 0) as [[?|?]|?]; lra. }
      split.
      + destruct (Nat.le_gt_cases (S l) k) as [L|]; [|lia]. specialize (L3 ltac:(lia)).
        apply inject_nat_le in L. rewrite inject_nat_S in L.
        assert ((inject_Z (Z.of_nat l) + 1) * span <= inject_Z (Z.of_nat k) * span) by (apply Qmult_le_compat_r; lra). lra.
      + intros <-. rewrite <- span_n. apply Qle_trans with (span * inject_Z (Z.of_nat n)); [|lra].
        apply Qmult_le_compat_r; [|lra]. lra.
  Qed.
End Index.

Lemma nonpos_mult x n : x <= 0 -> x * inject_Z (Z.of_nat n) <= 0.
Proof.
  intros H. pose proof (inject_nat_le 0 n ltac:(lia)) as P. change (inject_Z (Z.of_nat 0)) with 0 in P.
  set (y := inject_Z (Z.of_nat n)) in *. clearbody y. nra.
Qed.

(** ** Creation of bins *)
Definition binOf (d : nat) (info : labelInfo) (x : Q) (b : option nat) : Prop :=
  (x == 0 /\ b = None) \/
  (x < 0 /\ exists M k, maxNegative info = Some M /\
     binIndexOf (Some d) x (minNegative info) ((M - minNegative info) / inject_Z (Z.of_nat (numNegativeBins info))) (numNegativeBins info) = Some k /\
     b = Some k) \/
  (0 < x /\ exists m k, minPositive info = Some m /\
     binIndexOf (Some d) x m ((maxPositive info - m) / inject_Z (Z.of_nat (numPositiveBins info))) (numPositiveBins info) = Some k /\
     b = Some (numNegativeBins info + k)%nat).

Lemma neg_count l x : In x l -> x < 0 -> (0 < length (filter isNeg l))%nat.
Proof.
  intros Hi H. assert (I : In x (filter isNeg l)) by (apply filter_In; split; auto; apply ltb_spec; auto).
  destruct (filter isNeg l); [contradiction|simpl; lia].
Qed.
Lemma pos_count l x : In x l -> 0 < x -> (0 < length (filter isPos l))%nat.
Proof.
  intros Hi H. assert (I : In x (filter isPos l)) by (apply filter_In; split; auto; apply gtb_spec; auto).
  destruct (filter isPos l); [contradiction|simpl; lia].
Qed.

Lemma neg_case l info x : negInfo l info -> In x l -> x < 0 ->
  exists M, maxNegative info = Some M /\ minNegative info < 0 /\ In (minNegative info) l /\ In M l /\ M < 0 /\
    (forall y, In y l -> y < 0 -> minNegative info <= y /\ y <= M).
Proof.
  intros [(F & _)|(M & H)] Hi Hx.
  - pose proof (neg_count l x Hi Hx). rewrite F in H. simpl in H. lia.
  - destruct H as (? & ? & ? & ? & ? & ?). exists M. auto 8.
Qed.
Lemma pos_case l info x : posInfo l info -> In x l -> 0 < x ->
  exists m, minPositive info = Some m /\ 0 < maxPositive info /\ In (maxPositive info) l /\ In m l /\ 0 < m /\
    (forall y, In y l -> 0 < y -> m <= y /\ y <= maxPositive info).
Proof.
  intros [(F & _)|(M & H)] Hi Hx.
  - pose proof (pos_count l x Hi Hx). rewrite F in H. simpl in H. lia.
  - destruct H as (? & ? & ? & ? & ? & ?). exists M. auto 8.
Qed.

Lemma createBins_spec d c criteria : 0 < binRatio c -> (1 <= minBins c)%nat ->
  exists info bins, getLabelInfo c criteria (length criteria) = Some info /\
    createBins (Some d) info criteria (length criteria) = Some bins /\ length bins = length criteria /\
    numNegativeBins info = limitBins c (length (filter isNeg criteria)) /\
    numPositiveBins info = limitBins c (length (filter isPos criteria)) /\
    negInfo criteria info /\ posInfo criteria info /\
    (forall i, (i < length criteria)%nat -> binOf d info (nth i criteria 0) (nth i bins None)).
Proof.
  intros Hr Hm. destruct (getLabelInfo_spec c criteria) as (info & E & Hn & Hp & HN & HP).
  exists info. unfold createBins.
  match goal with |- context[forN ?n ?s ?f ?z] => destruct (forN_inv (fun j (bins : list (option nat)) => length bins = j /\
     forall i, (i < j)%nat -> binOf d info (nth i criteria 0) (nth i bins None)) f n s z) as (bins & Eb & L & B) end.
  - split; auto. intros; lia.
  - intros j bins Hj (L & B). rewrite (aget_nth criteria j 0) by lia. set (x := nth j criteria 0).
    assert (Ix : In x criteria) by (apply nth_In; lia).
    assert (G : forall b, binOf d info x b -> length (bins ++ [b]) = S j /\
        forall i, (i < S j)%nat -> binOf d info (nth i criteria 0) (nth i (bins ++ [b]) None)).
    { intros b Hb. rewrite app_length. simpl. split; [lia|]. intros i Hi. destruct (Nat.eq_dec i j) as [->|].
      - rewrite app_nth2 by lia. rewrite L, Nat.sub_diag. auto.
      - rewrite app_nth1 by lia. apply B. lia. }
    destruct (ltb x 0) eqn:Ex.
    + apply ltb_spec in Ex. destruct (neg_case criteria info x HN Ix Ex) as (M & EM & L0 & I1 & I2 & L1 & BB).
      rewrite (proj2 (ltb_spec _ _) L0), EM. unfold spanOf. destruct (BB x Ix Ex) as (B1 & B2).
      assert (N0 : (0 < numNegativeBins info)%nat) by (rewrite Hn; apply limitBins_pos; auto; eapply neg_count; eauto).
      destruct (binIndexOf_spec d (minNegative info) M (numNegativeBins info) N0 ltac:(lra) x B1 B2) as (k & Ek & _).
      rewrite Ek. eexists. split; [reflexivity|]. apply G. right. left. split; auto. exists M, k. auto.
    + apply ltb_false in Ex. destruct (gtb x 0) eqn:Ex2.
      * apply gtb_spec in Ex2. destruct (pos_case criteria info x HP Ix Ex2) as (m & EM & L0 & I1 & I2 & L1 & BB).
        rewrite (proj2 (gtb_spec _ _) L0), EM. unfold spanOf. destruct (BB x Ix Ex2) as (B1 & B2).
        assert (N0 : (0 < numPositiveBins info)%nat) by (rewrite Hp; apply limitBins_pos; auto; eapply pos_count; eauto).
        destruct (binIndexOf_spec d m (maxPositive info) (numPositiveBins info) N0 ltac:(lra) x B1 B2) as (k & Ek & _).
        rewrite Ek. eexists. split; [reflexivity|]. apply G. right. right. split; auto. exists m, k. auto.
      * apply gtb_false in Ex2. eexists. split; [reflexivity|]. apply G. left. split; auto. lra.
  - simpl in L, B. exists bins. split; [auto|]. split; [exact Eb|]. auto 10.
Qed.

Lemma bins_valid :
  forall (conversion : nat) (c : binningConfig) (criteria : list Q),
  0 < binRatio c -> (1 <= minBins c)%nat ->
  exists info bins, getLabelInfo c criteria (length criteria) = Some info /\
    createBins (Some conversion) info criteria (length criteria) = Some bins /\ length bins = length criteria /\
    (forall i, (i < length criteria)%nat -> nth i criteria 0 == 0 -> nth i bins None = None) /\
    (forall i, (i < length criteria)%nat -> nth i criteria 0 < 0 ->
       exists k, nth i bins None = Some k /\ (k < numNegativeBins info)%nat) /\
    (forall i, (i < length criteria)%nat -> 0 < nth i criteria 0 ->
       exists k, nth i bins None = Some k /\ (numNegativeBins info <= k < numNegativeBins info + numPositiveBins info)%nat) /\
    (forall i j k l, (i < length criteria)%nat -> (j < length criteria)%nat -> nth i criteria 0 <= nth j criteria 0 ->
       nth i bins None = Some k -> nth j bins None = Some l -> (k <= l)%nat) /\
    (forall i j k, (i < length criteria)%nat -> (j < length criteria)%nat -> nth i bins None = Some k -> nth j bins None = Some k ->
       exists smallest largest, In smallest criteria /\ In largest criteria /\
         ((smallest < 0 /\ largest < 0 /\
           (nth j criteria 0 - nth i criteria 0) * inject_Z (Z.of_nat (numNegativeBins info)) <= largest - smallest) \/
          (0 < smallest /\ 0 < largest /\
           (nth j criteria 0 - nth i criteria 0) * inject_Z (Z.of_nat (numPositiveBins info)) <= largest - smallest))).
Proof.
  intros d c criteria Hr Hm.
  destruct (createBins_spec d c criteria Hr Hm) as (info & bins & E & Eb & L & Hn & Hp & HN & HP & B).
  exists info, bins. split; [auto|]. split; [auto|]. split; [auto|].
  assert (NB : forall i, (i < length criteria)%nat -> nth i criteria 0 < 0 ->
     exists M k, maxNegative info = Some M /\ minNegative info <= nth i criteria 0 <= M /\ (0 < numNegativeBins info)%nat /\
       In (minNegative info) criteria /\ In M criteria /\ minNegative info < 0 /\ M < 0 /\
       binIndexOf (Some d) (nth i criteria 0) (minNegative info) ((M - minNegative info) / inject_Z (Z.of_nat (numNegativeBins info)))
         (numNegativeBins info) = Some k /\ nth i bins None = Some k /\ (k < numNegativeBins info)%nat).
  { intros i Hi Hx. assert (Ix : In (nth i criteria 0) criteria) by (apply nth_In; auto).
    destruct (neg_case criteria info _ HN Ix Hx) as (M & EM & L0 & I1 & I2 & L1 & BB). destruct (BB _ Ix Hx) as (B1 & B2).
    assert (N0 : (0 < numNegativeBins info)%nat) by (rewrite Hn; apply limitBins_pos; auto; eapply neg_count; eauto).
    destruct (B i Hi) as [(Z & _)|[(_ & M' & k & EM' & Ek & Eb')|(P & _)]]; [lra| |lra].
    rewrite EM in EM'. injection EM' as <-.
    destruct (binIndexOf_spec d (minNegative info) M (numNegativeBins info) N0 ltac:(lra) _ B1 B2) as (k' & Ek' & Bk & _).
    rewrite Ek in Ek'. injection Ek' as <-. exists M, k. auto 12. }
  assert (PB : forall i, (i < length criteria)%nat -> 0 < nth i criteria 0 ->
     exists m k, minPositive info = Some m /\ m <= nth i criteria 0 <= maxPositive info /\ (0 < numPositiveBins info)%nat /\
       In m criteria /\ In (maxPositive info) criteria /\ 0 < m /\ 0 < maxPositive info /\
       binIndexOf (Some d) (nth i criteria 0) m ((maxPositive info - m) / inject_Z (Z.of_nat (numPositiveBins info)))
         (numPositiveBins info) = Some k /\ nth i bins None = Some (numNegativeBins info + k)%nat /\ (k < numPositiveBins info)%nat).
  { intros i Hi Hx. assert (Ix : In (nth i criteria 0) criteria) by (apply nth_In; auto).
    destruct (pos_case criteria info _ HP Ix Hx) as (m & EM & L0 & I1 & I2 & L1 & BB). destruct (BB _ Ix Hx) as (B1 & B2).
    assert (N0 : (0 < numPositiveBins info)%nat) by (rewrite Hp; apply limitBins_pos; auto; eapply pos_count; eauto).
    destruct (B i Hi) as [(Z & _)|[(P & _)|(_ & M' & k & EM' & Ek & Eb')]]; [lra|lra|].
    rewrite EM in EM'. injection EM' as <-.
    destruct (binIndexOf_spec d m (maxPositive info) (numPositiveBins info) N0 ltac:(lra) _ B1 B2) as (k' & Ek' & Bk & _).
    rewrite Ek in Ek'. injection Ek' as <-. exists m, k. auto 12. }
  assert (ZB : forall i, (i < length criteria)%nat -> nth i criteria 0 == 0 -> nth i bins None = None).
  { intros i Hi Hx. destruct (B i Hi) as [(Z & ?)|[(P & _)|(P & _)]]; [auto|lra|lra]. }
  split; [exact ZB|]. split; [|split; [|split]].
  - intros i Hi Hx. destruct (NB i Hi Hx) as (M & k & H). exists k. tauto.
  - intros i Hi Hx. destruct (PB i Hi Hx) as (M & k & H). exists (numNegativeBins info + k)%nat.
    decompose [and] H. split; [auto|lia].
  - intros i j k l Hi Hj Le Ek El.
    destruct (Q_dec (nth i criteria 0) 0) as [[Ni|Pi]|Zi]; [| |rewrite ZB in Ek by auto; discriminate];
    (destruct (Q_dec (nth j criteria 0) 0) as [[Nj|Pj]|Zj]; [| |rewrite ZB in El by auto; discriminate]); try lra.
    + destruct (NB i Hi Ni) as (M & k' & EM & (B1 & B2) & N0 & _ & _ & _ & _ & Ei & Ek' & _).
      destruct (NB j Hj Nj) as (M' & l' & EM' & (B1' & B2') & _ & _ & _ & _ & _ & Ej & El' & _).
      rewrite EM in EM'. injection EM' as <-. rewrite Ek in Ek'. injection Ek' as <-. rewrite El in El'. injection El' as <-.
      destruct (binIndexOf_mono d (minNegative info) M (numNegativeBins info) N0 ltac:(lra) _ _ k l B1 Le B2' Ei Ej). auto.
    + destruct (NB i Hi Ni) as (M & k' & _ & _ & _ & _ & _ & _ & _ & _ & Ek' & Bk).
      destruct (PB j Hj Pj) as (m & l' & _ & _ & _ & _ & _ & _ & _ & _ & El' & Bl).
      rewrite Ek in Ek'. injection Ek' as ->. rewrite El in El'. injection El' as ->. lia.
    + destruct (PB i Hi Pi) as (M & k' & EM & (B1 & B2) & N0 & _ & _ & _ & _ & Ei & Ek' & _).
      destruct (PB j Hj Pj) as (M' & l' & EM' & (B1' & B2') & _ & _ & _ & _ & _ & Ej & El' & _).
      rewrite EM in EM'. injection EM' as <-. rewrite Ek in Ek'. injection Ek' as ->. rewrite El in El'. injection El' as ->.
      destruct (binIndexOf_mono d M (maxPositive info) (numPositiveBins info) N0 ltac:(lra) _ _ k' l' B1 Le B2' Ei Ej). lia.
  - intros i j k Hi Hj Ek El.
    destruct (Q_dec (nth i criteria 0) 0) as [[Ni|Pi]|Zi]; [| |rewrite ZB in Ek by auto; discriminate];
    (destruct (Q_dec (nth j criteria 0) 0) as [[Nj|Pj]|Zj]; [| |rewrite ZB in El by auto; discriminate]).
    + destruct (NB i Hi Ni) as (M & k' & EM & (B1 & B2) & N0 & I1 & I2 & L1 & L2 & Ei & Ek' & _).
      destruct (NB j Hj Nj) as (M' & l' & EM' & (B1' & B2') & _ & _ & _ & _ & _ & Ej & El' & _).
      rewrite EM in EM'. injection EM' as <-. rewrite Ek in Ek'. injection Ek' as <-. rewrite El in El'. injection El' as <-.
      exists (minNegative info), M. split; auto. split; auto. left. split; auto. split; auto.
      destruct (Qlt_le_dec (nth j criteria 0) (nth i criteria 0)) as [Lt|Le].
      * apply Qle_trans with 0; [|lra]. apply nonpos_mult. lra.
      * destruct (binIndexOf_mono d (minNegative info) M (numNegativeBins info) N0 ltac:(lra) _ _ k k B1 Le B2' Ei Ej). auto.
    + destruct (NB i Hi Ni) as (M & k' & _ & _ & _ & _ & _ & _ & _ & _ & Ek' & Bk).
      destruct (PB j Hj Pj) as (m & l' & _ & _ & _ & _ & _ & _ & _ & _ & El' & Bl).
      rewrite Ek in Ek'. injection Ek' as ->. rewrite El in El'. injection El' as ->. lia.
    + destruct (PB i Hi Pi) as (m & l' & _ & _ & _ & _ & _ & _ & _ & _ & El' & Bl).
      destruct (NB j Hj Nj) as (M & k' & _ & _ & _ & _ & _ & _ & _ & _ & Ek' & Bk).
      rewrite El in Ek'. injection Ek' as ->. rewrite Ek in El'. injection El' as ->. lia.
    + destruct (PB i Hi Pi) as (M & k' & EM & (B1 & B2) & N0 & I1 & I2 & L1 & L2 & Ei & Ek' & _).
      destruct (PB j Hj Pj) as (M' & l' & EM' & (B1' & B2') & _ & _ & _ & _ & _ & Ej & El' & _).
      rewrite EM in EM'. injection EM' as <-. rewrite Ek in Ek'. injection Ek' as ->. rewrite El in El'.
      assert (l' = k') by (injection El'; lia). subst l'.
      exists M, (maxPositive info). split; auto. split; auto. right. split; auto. split; auto.
      destruct (Qlt_le_dec (nth j criteria 0) (nth i criteria 0)) as [Lt|Le].
      * apply Qle_trans with 0; [|lra]. apply nonpos_mult. lra.
      * destruct (binIndexOf_mono d M (maxPositive info) (numPositiveBins info) N0 ltac:(lra) _ _ k' k' B1 Le B2' Ei Ej). auto.
Qed.

(** ** Evaluation *)
Definition natQ (n : nat) : Q := inject_Z (Z.of_nat n).

Definition binObjective (l1 l2 : Q) (agg : list tuple) (cnt : list nat) (w : nat -> Q) (K : nat) : Q :=
  Qsum (map (fun k => objective (natQ (nth k cnt 0%nat) * l1) (natQ (nth k cnt 0%nat) * l2) (nth k agg (0, 0)) (w k)) (seq 0 K)).

Lemma Qsum_map_eq {A} (f g : A -> Q) l : (forall a, In a l -> f a == g a) -> Qsum (map f l) == Qsum (map g l).
Proof.
  induction l as [|a l IH]; intros H; unfold Qsum in *; simpl; [lra|]. rewrite (H a (or_introl eq_refl)).
  rewrite IH; [lra|]. intros b Hb. apply H. right. auto.
Qed.

Lemma Qsum_cons x l : Qsum (x :: l) == x + Qsum l.
Proof. unfold Qsum. simpl. lra. Qed.

Lemma Qsum_point (f g : nat -> Q) k0 n : forall s, (s <= k0 < s + n)%nat ->
  (forall k, k <> k0 -> f k == g k) -> Qsum (map g (seq s n)) == Qsum (map f (seq s n)) + (g k0 - f k0).
Proof.
  induction n as [|n IH]; intros s Hk H; [lia|]. simpl map. rewrite !Qsum_cons. destruct (Nat.eq_dec s k0) as [->|N].
  - rewrite (Qsum_map_eq g f (seq (S k0) n)); [lra|]. intros k Hi. apply in_seq in Hi. symmetry. apply H. lia.
  - rewrite (IH (S s)) by (auto; lia). rewrite (H s N). lra.
Qed.

Lemma nth_upd {A} (l : list A) i j v d : (i < length l)%nat -> nth j (upd l i v) d = if (i =? j)%nat then v else nth j l d.
Proof.
  intros H. destruct (Nat.eqb_spec i j) as [->|N].
  - apply nth_error_nth. apply nth_error_upd_eq. auto.
  - destruct (nth_error l j) eqn:E.
    + rewrite (nth_error_nth l j d E). apply nth_error_nth. rewrite nth_error_upd_neq; auto.
    + apply nth_error_None in E. rewrite !nth_overflow; auto. rewrite upd_length. auto.
Qed.

Lemma setToZeros_spec {A} (z : A) a n : (n <= length a)%nat ->
  exists a', setToZeros z a n = Some a' /\ length a' = length a /\ (forall k, (k < n)%nat -> forall d, nth k a' d = z).
Proof.
  intros H. unfold setToZeros.
  destruct (forN_inv (fun j a' => length a' = length a /\ forall k, (k < j)%nat -> forall d, nth k a' d = z)
    (fun i a => aset a i z) n 0 a) as (a' & E & L & V).
  - split; auto. intros; lia.
  - intros j a' Hj (L & V). rewrite aset_Some by lia. eexists. split; [reflexivity|]. rewrite upd_length. split; auto.
    intros k Hk d. rewrite nth_upd by lia. destruct (Nat.eqb_spec j k); auto. apply V. lia.
  - exists a'. simpl in V. auto.
Qed.

Lemma natQ_S n : natQ (n + 1) == natQ n + 1.
Proof. unfold natQ. rewrite Nat.add_1_r. apply inject_nat_S. Qed.

Lemma natQ_nonneg n : 0 <= natQ n.
Proof. apply (inject_nat_le 0). lia. Qed.

Lemma objective_add l1 l2 n a t s :
  objective (natQ (n + 1) * l1) (natQ (n + 1) * l2) (addTuple a t) s
  == objective (natQ n * l1) (natQ n * l2) a s + objective l1 l2 t s.
Proof. unfold objective, addTuple. cbn [fst snd]. rewrite natQ_S. field. Qed.

Lemma objective_ext l1 l2 t s s' : s == s' -> objective l1 l2 t s == objective l1 l2 t s'.
Proof. intros E. unfold objective. rewrite E. reflexivity. Qed.

Lemma score_minimal' l1 l2 t s : l1 == 0 -> 0 < snd t + l2 ->
  objective l1 l2 t (calculateOutputWiseScore l1 l2 t) <= objective l1 l2 t s.
Proof.
  intros E H. assert (O : forall s, objective l1 l2 t s == objective 0 l2 t s). { intros. unfold objective. rewrite E. reflexivity. }
  rewrite !O. assert (S : calculateOutputWiseScore l1 l2 t == calculateOutputWiseScore 0 l2 t).
  { unfold calculateOutputWiseScore. rewrite !divideOrZero_spec by lra.
    assert (R : forall l, l == 0 -> getL1RegularizationWeight (fst t) l == 0).
    { intros l El. unfold getL1RegularizationWeight. destruct (gtb _ _); [lra|]. destruct (ltb _ _); lra. }
    rewrite (R l1 E), (R 0 ltac:(lra)). reflexivity. }
  rewrite (objective_ext 0 l2 t _ _ S). apply score_minimal. auto.
Qed.

Lemma calculateBinnedScores_spec l1 l2 agg values cnt K :
  (K <= length agg)%nat -> (K <= length cnt)%nat -> (K <= length values)%nat ->
  exists values' q, calculateBinnedScores l1 l2 agg values cnt K = Some (values', q) /\ length values' = length values /\
    (forall k, (k < K)%nat -> nth k values' 0 =
       calculateOutputWiseScore (natQ (nth k cnt 0%nat) * l1) (natQ (nth k cnt 0%nat) * l2) (nth k agg (0, 0))) /\
    (forall k d, (K <= k)%nat -> nth k values' d = nth k values d) /\
    q == binObjective l1 l2 agg cnt (fun k => nth k values' 0) K.
Proof.
  intros H1 H2 H3. unfold calculateBinnedScores.
  match goal with |- context[forN ?n ?s ?f ?z] => destruct (forN_inv (fun j (b : list Q * Q) =>
    length (fst b) = length values /\
    (forall k, (k < j)%nat -> nth k (fst b) 0 =
       calculateOutputWiseScore (natQ (nth k cnt 0%nat) * l1) (natQ (nth k cnt 0%nat) * l2) (nth k agg (0, 0))) /\
    (forall k d, (j <= k)%nat -> nth k (fst b) d = nth k values d) /\
    snd b == binObjective l1 l2 agg cnt (fun k => nth k (fst b) 0) j) f n s z) as ((vs, q) & E & L & V & U & Hq) end.
  - cbn [fst snd]. split; auto. split; [intros; lia|]. split; auto. reflexivity.
  - intros j (vs, q) Hj (L & V & U & Hq). cbn [fst snd] in *.
    rewrite (aget_nth cnt j 0%nat) by lia. rewrite (aget_nth agg j (0, 0)) by lia. rewrite aset_Some by lia.
    eexists. split; [reflexivity|]. cbn [fst snd]. rewrite upd_length. split; auto. split; [|split].
    + intros k Hk. rewrite nth_upd by lia. destruct (Nat.eqb_spec j k) as [->|]; [reflexivity|]. apply V. lia.
    + intros k d Hk. rewrite nth_upd by lia. destruct (Nat.eqb_spec j k); [lia|]. apply U. lia.
    + unfold binObjective in *. rewrite seq_snoc, map_app, Qsum_app. cbn [map].
      rewrite Qsum_cons. change (Qsum []) with 0. rewrite quality_objective. rewrite Hq.
      rewrite nth_upd by lia. rewrite Nat.eqb_refl.
      apply Qplus_comp; [|unfold natQ; lra]. apply Qsum_map_eq. intros k Hk. apply in_seq in Hk. apply objective_ext.
      rewrite nth_upd by lia. destruct (Nat.eqb_spec j k); [lia|]. reflexivity.
  - cbn [fst snd] in *. simpl in V, U, Hq. exists vs, q. rewrite E. auto.
Qed.

Lemma evaluateBins_spec d c l1 l2 maxB N s outputs statistics criteria :
  0 < binRatio c -> (1 <= minBins c)%nat -> binsFit c criteria maxB -> allocated N maxB s ->
  (length criteria <= N)%nat -> (length criteria <= length statistics)%nat -> length outputs = length criteria ->
  exists info bins score sc s',
    getLabelInfo c criteria (length criteria) = Some info /\
    createBins (Some d) info criteria (length criteria) = Some bins /\ length bins = length criteria /\
    evaluateBins (Some d) c maxB l1 l2 s outputs statistics criteria (length criteria) = Some (sc, s') /\
    allocated N maxB s' /\ scIndices sc = outputs /\ scValues sc = binScores score bins /\
    scQuality sc == headObjective l1 l2 statistics (seq 0 (length criteria)) (scValues sc) /\
    (l1 == 0 -> Forall (fun t => 0 < snd t + l2) statistics -> forall w,
       headObjective l1 l2 statistics (seq 0 (length criteria)) (scValues sc)
       <= headObjective l1 l2 statistics (seq 0 (length criteria)) (binScores w bins)).
Proof.
  intros Hr Hm Hfit HA HN HS HO. set (n := length criteria) in *.
  destruct (createBins_spec d c criteria Hr Hm) as (info0 & bins0 & E0 & Eb0 & L0 & _).
  destruct (bins_valid d c criteria Hr Hm) as (info & bins & E & Eb & L & BZ & BN & BP & _).
  fold n in E, Eb, L, BZ, BN, BP. specialize (Hfit info E).
  destruct HA as (A1 & A2 & A3 & A4 & A5).
  set (K := (numPositiveBins info + numNegativeBins info)%nat) in *.
  assert (BK : forall i k, (i < n)%nat -> nth i bins None = Some k -> (k < K)%nat).
  { intros i k Hi Hk. destruct (Q_dec (nth i criteria 0) 0) as [[Ni|Pi]|Zi].
    - destruct (BN i Hi Ni) as (k' & Ek & ?). rewrite Hk in Ek. injection Ek as <-. unfold K. lia.
    - destruct (BP i Hi Pi) as (k' & Ek & ?). rewrite Hk in Ek. injection Ek as <-. unfold K. lia.
    - rewrite BZ in Hk by auto. discriminate. }
  clear E0 Eb0 L0 info0 bins0.
  unfold evaluateBins. fold n. rewrite E. fold K.
  destruct (setToZeros_spec (0, 0) (stAggregated s) K ltac:(lia)) as (agg0 & Ea & La & Za). rewrite Ea.
  destruct (setToZeros_spec 0%nat (stCounts s) K ltac:(lia)) as (cnt0 & Ec & Lc & Zc). rewrite Ec. rewrite Eb.
  match goal with |- context[forN ?cn ?st ?f ?z] => destruct (forN_inv (fun j (b : list nat * list tuple * list nat) =>
    let '(indices, agg, cnt) := b in
    length indices = N /\ length agg = maxB /\ length cnt = maxB /\
    (forall i, (i < j)%nat -> nth_error indices i = Some (match nth i bins None with Some k => k | None => maxB end)) /\
    (forall w, headObjective l1 l2 statistics (seq 0 j) (binScores w (firstn j bins)) == binObjective l1 l2 agg cnt w K) /\
    (Forall (fun t => 0 < snd t + l2) statistics -> forall k, (k < K)%nat ->
       (nth k cnt 0%nat = 0%nat /\ nth k agg (0, 0) = (0, 0)) \/
       0 < snd (nth k agg (0, 0)) + natQ (nth k cnt 0%nat) * l2)) f cn st z) as (((indices & agg) & cnt) & El & LI & LA & LC & VI & VO & VH) end.
  - split; auto. split; [lia|]. split; [lia|]. split; [intros; lia|]. split.
    + intros w. unfold binObjective. simpl. change (headObjective l1 l2 statistics [] []) with 0.
      rewrite (Qsum_map_eq _ (fun _ => 0)).
      * induction (seq 0 K); unfold Qsum in *; simpl in *; lra.
      * intros k Hk. apply in_seq in Hk. rewrite Za, Zc by lia. unfold objective. cbn [fst snd]. change (natQ 0) with 0. field.
    + intros _ k Hk. left. rewrite Za, Zc by lia. auto.
  - intros j ((indices, agg), cnt) Hj (LI & LA & LC & VI & VO & VH).
    assert (Ej : aget bins j = Some (nth j bins None)) by (apply aget_nth; lia). rewrite Ej.
    assert (FS : firstn (S j) bins = firstn j bins ++ [nth j bins None]) by (apply firstn_S_nth; auto).
    assert (LF : length (seq 0 j) = length (firstn j bins)) by (rewrite seq_length, firstn_length; lia).
    rewrite (aget_nth statistics j (0, 0)) by lia. set (t := nth j statistics (0, 0)).
    destruct (nth j bins None) as [k|] eqn:Bj.
    + pose proof (BK j k ltac:(lia) Bj) as Hk.
      rewrite (aget_nth agg k (0, 0)) by lia. rewrite aset_Some by lia. rewrite (aget_nth cnt k 0%nat) by lia.
      rewrite aset_Some by lia. rewrite aset_Some by lia. eexists. split; [reflexivity|]. cbv beta iota.
      rewrite !upd_length. split; auto. split; auto. split; auto. split; [|split].
      * intros i Hi. rewrite nth_error_upd. destruct (Nat.eqb_spec j i) as [->|].
        -- rewrite Bj. destruct (Nat.ltb_spec i (length indices)); [reflexivity|lia].
        -- simpl. apply VI. lia.
      * intros w. rewrite seq_snoc, FS. unfold binScores. rewrite map_app. simpl map. rewrite headObjective_snoc.
        -- fold (binScores w (firstn j bins)). rewrite VO. unfold binObjective.
           rewrite (Qsum_point (fun k => objective (natQ (nth k cnt 0%nat) * l1) (natQ (nth k cnt 0%nat) * l2) (nth k agg (0, 0)) (w k))
              (fun k0 => objective (natQ (nth k0 (upd cnt k (nth k cnt 0 + 1)%nat) 0%nat) * l1)
                (natQ (nth k0 (upd cnt k (nth k cnt 0 + 1)%nat) 0%nat) * l2)
                (nth k0 (upd agg k (addTuple (nth k agg (0, 0)) t)) (0, 0)) (w k0)) k K 0).
           ++ rewrite !nth_upd by lia. rewrite Nat.eqb_refl. rewrite objective_add. fold t. lra.
           ++ lia.
           ++ intros k' N'. rewrite !nth_upd by lia. destruct (Nat.eqb_spec k k'); [congruence|reflexivity].
        -- rewrite map_length. auto.
      * intros HP k' Hk'. rewrite !nth_upd by lia. destruct (Nat.eqb_spec k k') as [<-|]; [|apply VH; auto].
        right. assert (T : 0 < snd t + l2) by (apply positive_nth; auto; lia). unfold addTuple. cbn [snd].
        rewrite natQ_S. destruct (VH HP k Hk) as [(C0 & G0)|H0].
        -- rewrite C0, G0. change (natQ 0) with 0. cbn [snd]. lra.
        -- lra.
    + rewrite aset_Some by lia. eexists. split; [reflexivity|]. cbv beta iota. rewrite upd_length.
      split; auto. split; auto. split; auto. split; [|split]; auto.
      * intros i Hi. rewrite nth_error_upd. destruct (Nat.eqb_spec j i) as [->|].
        -- rewrite Bj. destruct (Nat.ltb_spec i (length indices)); [reflexivity|lia].
        -- simpl. apply VI. lia.
      * intros w. rewrite seq_snoc, FS. unfold binScores. rewrite map_app. simpl map. rewrite headObjective_snoc.
        -- fold (binScores w (firstn j bins)). rewrite VO. rewrite objective_zero. lra.
        -- rewrite map_length. auto.
  - rewrite El. cbv beta iota. simpl in VI, VO.
    destruct (calculateBinnedScores_spec l1 l2 agg (stValues s) cnt K ltac:(lia) ltac:(lia) ltac:(lia))
      as (values & q & Ev & Lv & Vv & Uv & Hq). rewrite Ev.
    set (score := fun k => nth k values 0).
    assert (Z0 : nth maxB values 1 = 0) by (rewrite Uv by lia; auto).
    assert (GP : exists predicted, forN (length outputs) 0 (fun i predicted =>
       let* binIndex := aget indices i in let* value := aget values binIndex in Some (predicted ++ [value])) [] = Some predicted /\
       predicted = binScores score bins).
    { destruct (forN_inv (fun j (p : list Q) => p = binScores score (firstn j bins))
        (fun i predicted => let* binIndex := aget indices i in let* value := aget values binIndex in Some (predicted ++ [value]))
        (length outputs) 0 []) as (p & Ep & Hp).
      - reflexivity.
      - intros j p Hj ->. assert (Hjn : (j < n)%nat) by lia. change (aget indices j) with (nth_error indices j). rewrite VI by auto.
        assert (FS : firstn (S j) bins = firstn j bins ++ [nth j bins None]) by (apply firstn_S_nth; apply nth_error_nth'; lia).
        rewrite FS. unfold binScores. rewrite map_app. simpl map.
        destruct (nth j bins None) as [k|] eqn:Bj.
        + pose proof (BK j k Hjn Bj). rewrite (aget_nth values k 0) by lia. eexists. split; reflexivity.
        + rewrite (aget_nth values maxB 1) by lia. rewrite Z0. eexists. split; reflexivity.
      - exists p. split; auto. rewrite Hp. simpl. rewrite firstn_all2 by lia. reflexivity. }
    destruct GP as (predicted & Ep & Hp). rewrite Ep. cbv beta iota.
    assert (Q' : q == headObjective l1 l2 statistics (seq 0 n) (binScores score bins)).
    { pose proof (VO score) as V1. rewrite firstn_all2 in V1 by lia. rewrite V1. exact Hq. }
    exists info, bins, score. eexists. eexists. split; [reflexivity|]. split; [auto|]. split; [auto|]. split; [reflexivity|].
    split; [|split; [|split; [|split]]]; cbn [scIndices scValues scQuality].
    + unfold allocated. cbn [stIndices stValues stAggregated stCounts]. split; [auto|]. split; [lia|]. split; [auto|]. split; auto.
    + auto.
    + auto.
    + rewrite Hp. auto.
    + intros E1 HP w. rewrite Hp. pose proof (VO score) as V1. pose proof (VO w) as V2. rewrite firstn_all2 in V1, V2 by lia.
      rewrite V1, V2. unfold binObjective. apply Qsum_le_map. intros k Hk. apply in_seq in Hk.
      unfold score at 1. destruct (VH HP k ltac:(lia)) as [(C0 & G0)|H0].
      * rewrite C0, G0. unfold objective. cbn [fst snd]. change (natQ 0) with 0.
        apply Qle_lteq. right. field.
      * rewrite Vv by lia. apply score_minimal'; auto. rewrite E1. ring.
Qed.

Lemma complete_binned :
  forall (conversion : nat) (c : binningConfig) (l1 l2 : Q) (s : binnedState) (indices : list nat) (statistics : list tuple),
  validBinning c -> length indices = length statistics ->
  allocated (length indices) (getMaxBins c (length indices)) s ->
  binsFit c (individualScores l1 l2 statistics) (getMaxBins c (length indices)) ->
  exists info bins score sc s',
    getLabelInfo c (individualScores l1 l2 statistics) (length statistics) = Some info /\
    createBins (Some conversion) info (individualScores l1 l2 statistics) (length statistics) = Some bins /\
    evaluateCompleteBinned (Some conversion) c l1 l2 s indices statistics = Some (sc, s') /\
    allocated (length indices) (getMaxBins c (length indices)) s' /\
    scIndices sc = indices /\ length bins = length indices /\ scValues sc = binScores score bins /\
    scQuality sc == headObjective l1 l2 statistics (everyPosition statistics) (scValues sc) /\
    (l1 == 0 -> Forall (fun t => 0 < snd t + l2) statistics ->
     scQuality sc <= 0 /\ forall score', scQuality sc <= headObjective l1 l2 statistics (everyPosition statistics) (binScores score' bins)).
Proof.
  intros d c l1 l2 s indices statistics (Hr & _ & Hm & _) HL HA HF. unfold evaluateCompleteBinned.
  destruct (forN_inv (fun j (cr : list Q) => cr = individualScores l1 l2 (firstn j statistics))
     (fun i criteria => let* t := aget statistics i in Some (criteria ++ [calculateOutputWiseScore l1 l2 t]))
     (length indices) 0 []) as (cr & -> & Ecr).
  - reflexivity.
  - intros j cr Hj ->. rewrite (aget_nth statistics j (0, 0)) by lia. eexists. split; [reflexivity|].
    rewrite (firstn_S_nth statistics j (nth j statistics (0, 0))) by (apply nth_error_nth'; lia).
    unfold individualScores. rewrite map_app. reflexivity.
  - simpl in Ecr. rewrite firstn_all2 in Ecr by lia. subst cr.
    assert (LC : length (individualScores l1 l2 statistics) = length statistics) by apply map_length.
    destruct (evaluateBins_spec d c l1 l2 (getMaxBins c (length indices)) (length indices) s indices statistics
      (individualScores l1 l2 statistics)) as (info & bins & score & sc & s' & E1 & E2 & LB & E3 & A & I & V & Qe & Op); auto; try lia.
    rewrite LC in *. rewrite HL in *. exists info, bins, score, sc, s'.
    split; [auto|]. split; [auto|]. split; [auto|]. split; [auto|]. split; [auto|]. split; [lia|]. split; [auto|]. split; [exact Qe|].
    intros H1 HP. assert (G : forall score', scQuality sc <= headObjective l1 l2 statistics (everyPosition statistics) (binScores score' bins)).
    { intros w. rewrite Qe. apply Op; auto. }
    split; [|exact G]. eapply Qle_trans; [apply (G (fun _ => 0))|]. 
    assert (EB : binScores (fun _ => 0) bins = map (fun _ => 0) (everyPosition statistics)).
    { unfold everyPosition. rewrite <- LB. unfold binScores. clear. generalize 0%nat. induction bins as [|[k|] bins IH]; intros m; simpl; auto; rewrite (IH (S m)); auto. }
    rewrite EB. rewrite headObjective_zeros. lra.
Qed.

(** ** Capacity *)
Lemma count_le l : (length (filter isNeg l) + length (filter isPos l) <= length l)%nat.
Proof.
  induction l as [|x l IH]; simpl; auto. destruct (isNeg x) eqn:E1, (isPos x) eqn:E2; simpl; try lia.
  apply ltb_spec in E1. apply gtb_spec in E2. lra.
Qed.

Lemma ceiling_sum a b : (Qceiling a + Qceiling b <= Qceiling (a + b) + 1)%Z.
Proof.
  pose proof (Qceiling_lt a) as A. pose proof (Qceiling_lt b) as B. pose proof (Qle_ceiling (a + b)) as C.
  assert (L : inject_Z (Qceiling a - 1 + (Qceiling b - 1)) < inject_Z (Qceiling (a + b))) by (rewrite inject_Z_plus; lra).
  rewrite <- Zlt_Qlt in L. lia.
Qed.

Lemma default_fits :
  forall (c : binningConfig) (criteria : list Q) (numLabels : nat),
  validBinning c -> minBins c = 1%nat -> (maxBins c <= 1)%nat -> (length criteria <= numLabels)%nat ->
  binsFit c criteria (getMaxBins c numLabels).
Proof.
  intros c criteria n (Hr & Hr1 & Hm & HM) H1 H2 Hn info E.
  destruct (getLabelInfo_spec c criteria) as (info' & E' & EN & EP & _). rewrite E in E'. injection E' as <-.
  rewrite EN, EP. pose proof (count_le criteria) as L. set (a := length (filter isNeg criteria)) in *.
  set (b := length (filter isPos criteria)) in *. clearbody a b. unfold getMaxBins, limitBins.
  rewrite !bounded_fraction_exact, H1. set (r := binRatio c) in *.
  destruct (Nat.eq_dec (maxBins c) 0) as [M0|M1].
  - rewrite M0. change (1 <=? 0)%nat with false. cbv iota.
    assert (Mono : forall x y, (x <= y)%nat -> (Qceiling (r * inject_Z (Z.of_nat x)) <= Qceiling (r * inject_Z (Z.of_nat y)))%Z).
    { intros x y Hxy. apply Qceiling_resp_le. rewrite !(Qmult_comm r). apply Qmult_le_compat_r; [apply inject_nat_le; auto|lra]. }
    assert (P : forall x, (0 < x)%nat -> (0 < Qceiling (r * inject_Z (Z.of_nat x)))%Z).
    { intros x Hx. assert (0 < r * inject_Z (Z.of_nat x)).
      { apply Qmult_lt_0_compat; auto. change 0 with (inject_Z 0). rewrite <- Zlt_Qlt. lia. }
      pose proof (Qle_ceiling (r * inject_Z (Z.of_nat x))). assert (C : inject_Z 0 < inject_Z (Qceiling (r * inject_Z (Z.of_nat x)))) by (change (inject_Z 0) with 0; lra).
      rewrite <- Zlt_Qlt in C. auto. }
    pose proof (ceiling_sum (r * inject_Z (Z.of_nat a)) (r * inject_Z (Z.of_nat b))) as CS.
    assert (EQ : Qceiling (r * inject_Z (Z.of_nat a) + r * inject_Z (Z.of_nat b)) = Qceiling (r * inject_Z (Z.of_nat (a + b)))).
    { apply Qceiling_comp. rewrite Nat2Z.inj_add, inject_Z_plus. ring. }
    rewrite EQ in CS. pose proof (Mono (a + b)%nat n ltac:(lia)) as M1.
    destruct (Nat.ltb_spec 0 a) as [Ha|Ha], (Nat.ltb_spec 0 b) as [Hb|Hb].
    + pose proof (P a Ha). pose proof (P b Hb). pose proof (P n ltac:(lia)). lia.
    + pose proof (P a Ha). pose proof (P n ltac:(lia)). replace (a + b)%nat with a in * by lia. lia.
    + pose proof (P b Hb). pose proof (P n ltac:(lia)). replace (a + b)%nat with b in * by lia. lia.
    + lia.
  - replace (maxBins c) with 1%nat by lia. change (1 <=? 1)%nat with true. cbv iota.
    destruct (Nat.ltb_spec 0 a) as [Ha|Ha], (Nat.ltb_spec 0 b) as [Hb|Hb]; lia.
Qed.

Lemma filter_repeat {A} (f : A -> bool) x k : filter f (repeat x k) = if f x then repeat x k else [].
Proof. induction k; simpl; [destruct (f x); auto|]. rewrite IHk. destruct (f x); auto. Qed.

Lemma map_repeat' {A B} (f : A -> B) x k : map f (repeat x k) = repeat (f x) k.
Proof. induction k; simpl; auto. rewrite IHk. auto. Qed.

Lemma setToZeros_overflow {A} (z : A) a n : (length a < n)%nat -> setToZeros z a n = None.
Proof.
  intros H. unfold setToZeros. replace n with (length a + S (n - length a - 1))%nat by lia. rewrite forN_split. simpl.
  destruct (forN_inv (fun j a' => length a' = length a) (fun i a => aset a i z) (length a) 0 a) as (a' & -> & L); auto.
  - intros j a' Hj L. rewrite aset_Some by lia. eexists. split; [reflexivity|]. rewrite upd_length. auto.
  - simpl. unfold aset. destruct (Nat.ltb_spec (length a) (length a')); [lia|]. auto.
Qed.

Lemma max_overflow :
  forall (conversion : option nat) (c : binningConfig),
  validBinning c -> (2 <= maxBins c)%nat ->
  exists indices statistics, length indices = length statistics /\ NoDup indices /\
    forall s, allocated (length indices) (getMaxBins c (length indices)) s ->
    evaluateCompleteBinned conversion c 0 0 s indices statistics = None.
Proof.
  intros nan c (Hr & Hr1 & Hm & HM) H2. set (M := maxBins c) in *. set (r := binRatio c) in *.
  set (k := Z.to_nat (Qceiling (inject_Z (Z.of_nat M) / r))).
  assert (Mp : 0 < inject_Z (Z.of_nat M)). { change 0 with (inject_Z 0). rewrite <- Zlt_Qlt. lia. }
  assert (D : 0 < inject_Z (Z.of_nat M) / r) by (apply Qlt_shift_div_l; auto; lra).
  assert (Hk : inject_Z (Z.of_nat M) <= r * inject_Z (Z.of_nat k)).
  { pose proof (Qle_ceiling (inject_Z (Z.of_nat M) / r)) as C. unfold k. rewrite Z2Nat.id.
    - assert (E : inject_Z (Z.of_nat M) == r * (inject_Z (Z.of_nat M) / r)) by (field; lra). rewrite E at 1.
      rewrite !(Qmult_comm r). apply Qmult_le_compat_r; lra.
    - apply Z.lt_le_incl. rewrite Zlt_Qlt. change (inject_Z 0) with 0. lra. }
  assert (CB : forall n, (k <= n)%nat -> (M <= n)%nat -> calculateBoundedFraction n r (minBins c) M = M).
  { intros n Hn HMn. rewrite bounded_fraction_exact. destruct HM as [?|HM]; [lia|].
    destruct (Nat.leb_spec (minBins c) M); [|lia].
    assert (Z.of_nat M <= Qceiling (r * inject_Z (Z.of_nat n)))%Z.
    { rewrite <- (Qceiling_Z (Z.of_nat M)). apply Qceiling_resp_le. eapply Qle_trans; [exact Hk|].
      rewrite !(Qmult_comm r). apply Qmult_le_compat_r; [apply inject_nat_le; auto|lra]. }
    lia. }
  assert (kM : (M <= k)%nat).
  { assert (L : inject_Z (Z.of_nat M) <= inject_Z (Z.of_nat k)).
    { assert (0 <= inject_Z (Z.of_nat k)) by (apply (inject_nat_le 0); lia). eapply Qle_trans; [exact Hk|].
      setoid_replace (inject_Z (Z.of_nat k)) with (1 * inject_Z (Z.of_nat k)) at 2 by ring. apply Qmult_le_compat_r; lra. }
    rewrite <- Zle_Qle in L. lia. }
  clearbody k.
  set (st := repeat (1, 1) k ++ repeat (-1, 1) k : list tuple).
  assert (LS : length st = (k + k)%nat) by (unfold st; rewrite app_length, !repeat_length; auto).
  exists (seq 0 (k + k)), st. rewrite seq_length. split; [auto|]. split; [apply seq_NoDup|].
  intros s HA. unfold evaluateCompleteBinned. rewrite seq_length.
  destruct (forN_inv (fun j (cr : list Q) => cr = individualScores 0 0 (firstn j st))
     (fun i criteria => let* t := aget st i in Some (criteria ++ [calculateOutputWiseScore 0 0 t]))
     (k + k) 0 []) as (cr & -> & Ecr).
  - reflexivity.
  - intros j cr Hj ->. rewrite (aget_nth st j (0, 0)) by lia. eexists. split; [reflexivity|].
    rewrite (firstn_S_nth st j (nth j st (0, 0))) by (apply nth_error_nth'; lia).
    unfold individualScores. rewrite map_app. reflexivity.
  - change (0 + (k + k))%nat with (k + k)%nat in Ecr. rewrite firstn_all2 in Ecr by lia.
    assert (LC : length cr = (k + k)%nat) by (rewrite Ecr; unfold individualScores; rewrite map_length; auto).
    destruct (getLabelInfo_spec c cr) as (info & E & EN & EP & _). rewrite LC in E.
    unfold evaluateBins. rewrite E.
    assert (CN : length (filter isNeg cr) = k).
    { rewrite Ecr. unfold individualScores, st. rewrite map_app, filter_app, !map_repeat', !filter_repeat. cbn -[repeat].
      rewrite app_nil_r, repeat_length. auto. }
    assert (CP : length (filter isPos cr) = k).
    { rewrite Ecr. unfold individualScores, st. rewrite map_app, filter_app, !map_repeat', !filter_repeat. cbn -[repeat].
      rewrite repeat_length. auto. }
    rewrite CN in EN. rewrite CP in EP. unfold limitBins in EN, EP. fold M r in EN, EP.
    destruct (Nat.ltb_spec 0 k); [|lia]. rewrite CB in EN, EP by lia. rewrite EN, EP.
    destruct HA as (_ & _ & _ & A4 & _). unfold getMaxBins in A4. fold M r in A4. rewrite CB in A4 by lia.
    rewrite setToZeros_overflow by lia. auto.
Qed.

(** ** Findings *)
Lemma conversion_refuted :
  exists c criteria info, validBinning c /\ getLabelInfo c criteria (length criteria) = Some info /\
    createBins None info criteria (length criteria) = None.
Proof.
  exists (mkBinning (1 # 25) 1 0), [-2; 0; 0]. eexists. split; [|split; vm_compute; reflexivity].
  split; [reflexivity|]. split; [reflexivity|]. split; [auto|]. left. auto.
Qed.

Lemma min_overflow_refuted :
  exists conversion c s indices statistics, validBinning c /\ length indices = length statistics /\ maxBins c = 0%nat /\
    allocated (length indices) (getMaxBins c (length indices)) s /\
    evaluateCompleteBinned (Some conversion) c 0 1 s indices statistics = None.
Proof.
  exists 0%nat, (mkBinning (1 # 25) 3 0),
    (mkState (repeat 0%nat 6) (repeat 0 5) (repeat (0, 0) 4) (repeat 0%nat 4)), (seq 0 6),
    [(1, 1); (2, 1); (3, 1); (-1, 1); (-2, 1); (-3, 1)].
  split; [|split; [|split; [|split]]].
  - split; [reflexivity|]. split; [reflexivity|]. split; [simpl; lia|]. left. auto.
  - reflexivity.
  - reflexivity.
  - split; [|split; [|split; [|split]]]; vm_compute; reflexivity.
  - vm_compute. reflexivity.
Qed.

Lemma fixed_binned_refuted :
  exists conversion c s k indices statistics sorted sc s' p, validBinning c /\ length indices = length statistics /\ NoDup indices /\
    allocated k (getMaxBins c k) s /\ partialSort k (outputWiseScores 0 0 statistics) sorted /\
    evaluateFixedBinned (Some conversion) c 0 0 s k indices statistics sorted = Some (sc, s') /\
    scIndices sc = [nth p indices 0%nat] /\
    scValues sc = [-1] /\ scQuality sc < 0 /\
    10 < headObjective 0 0 statistics [p] (scValues sc) /\ headObjective 0 0 statistics [p] [10] < -40.
Proof.
  exists 0%nat, (mkBinning (1 # 25) 1 0), (mkState [0%nat] [0; 0; 0] [(0, 0); (0, 0)] [0; 0]%nat), 1%nat, [0; 1]%nat,
    [(1, 1); (-10, 1)], [(1%nat, 10); (0%nat, -1)]. eexists. eexists. exists 1%nat.
  split; [|split; [|split; [|split; [|split; [|split]]]]].
  - split; [reflexivity|]. split; [reflexivity|]. split; [simpl; lia|]. left. auto.
  - reflexivity.
  - repeat constructor; simpl; intuition discriminate.
  - split; [|split; [|split; [|split]]]; vm_compute; reflexivity.
  - split; [|split; [|split]].
    + vm_compute. apply perm_swap.
    + simpl. lia.
    + repeat constructor.
    + repeat constructor; unfold precedes; discriminate.
  - vm_compute. reflexivity.
  - split; [reflexivity|]. split; [reflexivity|]. split; [reflexivity|]. split; reflexivity.
Qed.
