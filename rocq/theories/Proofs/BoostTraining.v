(** Proofs about the loss on the training data. *)
From Coq Require Import Reals List Bool Arith Lra Lia.
From Verif Require Import Lib.Arr Model.Losses Model.BoostStatistics Model.BoostTraining Spec.Losses Spec.BoostStatistics
  Proofs.BoostStatistics Proofs.Losses Spec.BoostTraining.
Import ListNotations.
Open Scope R_scope.

(** ** Sums *)

Lemma sumR_le n f g : (forall i, (i < n)%nat -> f i <= g i) -> sumR n f <= sumR n g.
Proof. induction n; simpl; intros H; [lra|]. pose proof (IHn ltac:(intros; apply H; lia)). pose proof (H n ltac:(lia)). lra. Qed.

Lemma sumR_lt n f g k : (forall i, (i < n)%nat -> f i <= g i) -> (k < n)%nat -> f k < g k -> sumR n f < sumR n g.
Proof.
  induction n; simpl; intros H Hk Hlt; [lia|]. pose proof (H n ltac:(lia)).
  destruct (Nat.eq_dec k n) as [->|N].
  - pose proof (sumR_le n f g ltac:(intros; apply H; lia)). lra.
  - pose proof (IHn ltac:(intros; apply H; lia) ltac:(lia) Hlt). lra.
Qed.

Lemma sumR_plus n f g : sumR n (fun i => f i + g i) = sumR n f + sumR n g.
Proof. induction n; simpl; [lra|]. rewrite IHn. lra. Qed.

Lemma sumR_zero n f : (forall i, (i < n)%nat -> f i = 0) -> sumR n f = 0.
Proof. induction n; simpl; intros H; [lra|]. rewrite IHn, H; auto; lra. Qed.

Lemma sumR_swap n m f : sumR n (fun i => sumR m (fun j => f i j)) = sumR m (fun j => sumR n (fun i => f i j)).
Proof. induction n; simpl; [symmetry; apply sumR_zero; auto|]. rewrite IHn, <- sumR_plus. reflexivity. Qed.

Lemma sumR_shift n f : sumR (S n) f = f 0%nat + sumR n (fun i => f (S i)).
Proof. induction n; [simpl; lra|]. change (sumR (S (S n)) f) with (sumR (S n) f + f (S n)). rewrite IHn. simpl. lra. Qed.

Lemma total_combine {A B} (f : A -> B -> R) (a : A) (b : B) l k : length l = length k ->
  total (map (fun q => f (fst q) (snd q)) (combine l k)) = sumR (length l) (fun i => f (nth i l a) (nth i k b)).
Proof.
  revert k. induction l as [|x l IH]; intros [|y k] L; simpl in L; try discriminate; [reflexivity|].
  change (length (x :: l)) with (S (length l)). rewrite sumR_shift. simpl. f_equal. apply IH. lia.
Qed.

Lemma nth_combine {A B} (a : A) (b : B) l k i : length l = length k -> nth i (combine l k) (a, b) = (nth i l a, nth i k b).
Proof. apply combine_nth. Qed.

Lemma sumR_in n (l : list nat) f : NoDup l -> Forall (fun i => (i < n)%nat) l ->
  sumR n (fun i => if in_dec Nat.eq_dec i l then f i else 0) = total (map f l).
Proof.
  induction l as [|x l IH]; intros HN HF.
  - apply sumR_zero. auto.
  - inversion HN; inversion HF; subst. change (total (map f (x :: l))) with (f x + total (map f l)). rewrite <- IH by auto.
    transitivity (sumR n (fun i => if Nat.eq_dec i x then f i else 0) + sumR n (fun i => if in_dec Nat.eq_dec i l then f i else 0)).
    + rewrite <- sumR_plus. apply sumR_ext. intros i Hi. cbv beta.
      destruct (in_dec Nat.eq_dec i (x :: l)) as [I|I], (Nat.eq_dec i x) as [E|E], (in_dec Nat.eq_dec i l) as [J|J]; subst;
        try contradiction; try lra; exfalso; simpl in *; intuition congruence.
    + f_equal. clear - H5. induction n; [lia|]. simpl. destruct (Nat.eq_dec n x) as [->|N].
      * rewrite sumR_zero; [lra|]. intros i Hi. destruct (Nat.eq_dec i x); [lia|auto].
      * rewrite IHn by lia. lra.
Qed.

Lemma sumOf_total w l x : sumOf (map (single w) l) x = total (map (fun i => weightOf w i * x i) l).
Proof. induction l; simpl; [reflexivity|]. unfold total in *. simpl. rewrite <- IHl. reflexivity. Qed.

(** ** The quality of the predicted scores *)

Lemma score_improves k G B D l1 v : 0 < k -> 0 <= B -> 0 <= D -> 0 <= l1 -> 0 <= v -> 2 * B * v <= k * D ->
  let p := divideOrZero (- G + getL1Weight G l1) D * v in
  k * G * p + B * (p * p) <= 0 /\ (p <> 0 -> k * G * p + B * (p * p) < 0).
Proof.
  intros Hk HB HD Hl Hv HC. cbv zeta. unfold divideOrZero. destruct (Req_EM_T D 0) as [E|N].
  { rewrite Rmult_0_l. split; [lra|]. intros H. contradiction. }
  set (N0 := - G + getL1Weight G l1). set (p := N0 / D * v).
  assert (HD' : 0 < D) by lra.
  assert (HN : (G = 0 /\ N0 = 0) \/ (0 < G /\ - (2 * G) < N0 < 0) \/ (G < 0 /\ 0 < N0 < - (2 * G))).
  { unfold N0, getL1Weight. destruct (Rgt_dec G l1); [right; left; lra|]. destruct (Rlt_dec G (- l1)); [right; right; lra|].
    destruct (Rtotal_order G 0) as [|[|]]; [right; right; lra|left; lra|right; left; lra]. }
  assert (Ep : p * D = N0 * v) by (unfold p; field; lra).
  destruct HN as [(-> & EN)|HN].
  { assert (p = 0) by (unfold p; rewrite EN; unfold Rdiv; ring). rewrite H. split; [lra|]. intros X. contradiction. }
  destruct (Req_EM_T v 0) as [->|Nv].
  { assert (p = 0) by (unfold p; ring). rewrite H. split; [lra|]. intros X. contradiction. }
  assert (0 < v) by lra.
  assert (HX : D * (k * G * p + B * (p * p)) < 0); [|split; [|intros _]].
  { replace (D * (k * G * p + B * (p * p))) with (p * (k * G * D + B * (p * D))) by ring. rewrite Ep.
    assert (Hvd : 0 < v / D) by (apply Rdiv_lt_0_compat; lra).
    assert (Epv : p = N0 * (v / D)) by (unfold p; field; lra).
    assert (HBv : 0 <= B * v) by (apply Rmult_le_pos; lra).
    destruct HN as [(HG & H1 & H2)|(HG & H1 & H2)].
    - assert (p < 0) by (rewrite Epv; nra).
      assert (0 < k * G * D + B * (N0 * v)).
      { destruct (Req_EM_T (B * v) 0) as [Z|Z].
        - replace (B * (N0 * v)) with (N0 * (B * v)) by ring. rewrite Z. assert (0 < k * D) by nra. nra.
        - assert (0 < B * v) by lra. nra. }
      nra.
    - assert (0 < p) by (rewrite Epv; nra).
      assert (k * G * D + B * (N0 * v) < 0).
      { destruct (Req_EM_T (B * v) 0) as [Z|Z].
        - replace (B * (N0 * v)) with (N0 * (B * v)) by ring. rewrite Z. assert (0 < k * D) by nra. nra.
        - assert (0 < B * v) by lra. nra. }
      nra. }
  - nra.
  - nra.
Qed.

Section Training.
Context {T : Type} (d : T) (regression : bool) (update : T -> R -> R * R) (truth : list (list T)) (n m : nat).
Hypothesis HT : isMatrix n m truth.

Definition truthAt (i j : nat) : T := nth j (nth i truth []) d.

Definition state_inv (t : training) (s : nat -> nat -> R) : Prop :=
  isMatrix n m (trScores t) /\ isMatrix n m (trStatistics t) /\
  forall i j, (i < n)%nat -> (j < m)%nat ->
    nth j (nth i (trScores t) []) 0 = s i j /\ nth j (nth i (trStatistics t) []) (0, 0) = update (truthAt i j) (s i j).

Lemma matrix_row {A} (rows : list (list A)) i : isMatrix n m rows -> (i < n)%nat -> aget rows i = Some (nth i rows []) /\ length (nth i rows []) = m.
Proof.
  intros (L & F) Hi. split; [apply aget_nth; lia|]. rewrite Forall_forall in F. apply F, nth_In. lia.
Qed.

Lemma upd_matrix {A} (rows : list (list A)) i row : isMatrix n m rows -> length row = m -> isMatrix n m (upd rows i row).
Proof.
  intros (L & F) Lr. split; [rewrite upd_length; auto|]. rewrite Forall_forall in *. intros x Hx. apply In_nth_error in Hx.
  destruct Hx as (k & E). destruct (Nat.eq_dec i k) as [->|N].
  - destruct (Nat.lt_ge_cases k (length rows)); [rewrite nth_error_upd_eq in E by auto; congruence|].
    assert (nth_error (upd rows k row) k = None) by (apply nth_error_None; rewrite upd_length; lia). congruence.
  - rewrite nth_error_upd_neq in E by auto. apply F. eapply nth_error_In; eauto.
Qed.

Lemma nth_upd_row {A} (rows : list (list A)) i k row : (i < length rows)%nat -> nth k (upd rows i row) [] = if Nat.eq_dec i k then row else nth k rows [].
Proof.
  intros Hi. destruct (Nat.eq_dec i k) as [->|N].
  - apply nth_error_nth. apply nth_error_upd_eq. auto.
  - destruct (nth_error rows k) as [x|] eqn:E.
    + rewrite (nth_error_nth _ _ _ E). apply nth_error_nth. rewrite nth_error_upd_neq; auto.
    + rewrite !nth_overflow; auto; [apply nth_error_None; auto|rewrite upd_length; apply nth_error_None; auto].
Qed.

Definition okPrediction (p : prediction) : Prop :=
  valid_prediction m p /\ (regression = true -> exists values, p = CompletePrediction values).

Lemma predicts_dec p l : {predicts p l} + {~ predicts p l}.
Proof. destruct p; simpl; [left; auto|apply in_dec, Nat.eq_dec]. Qed.

Lemma not_predicted p l : ~ predicts p l -> predictedScore p l = 0.
Proof.
  destruct p as [v|ix v]; simpl; [tauto|]. intros H.
  assert (E : filter (fun q => (fst q =? l)%nat) (combine ix v) = []).
  { destruct (filter _ _) as [|[a b] r] eqn:E; auto. exfalso.
    assert (Hin : In (a, b) (filter (fun q => (fst q =? l)%nat) (combine ix v))) by (rewrite E; left; auto).
    apply filter_In in Hin. destruct Hin as (Hin & Eq). apply Nat.eqb_eq in Eq. simpl in Eq. subst a.
    apply H. eapply in_combine_l; eauto. }
  rewrite E. reflexivity.
Qed.

Lemma map_nth_fst (row : list (R * R)) j : nth j (map fst row) 0 = fst (nth j row (0, 0)).
Proof. change 0 with (fst (0, 0)) at 1. apply map_nth. Qed.
Lemma map_nth_snd (row : list (R * R)) j : nth j (map snd row) 0 = snd (nth j row (0, 0)).
Proof. change 0 with (snd (0, 0)) at 1. apply map_nth. Qed.

Lemma updateRow_spec p scores trow row : okPrediction p -> length scores = m -> length trow = m -> length row = m ->
  exists row', updateRow regression update p scores trow row = Some row' /\ length row' = m /\
    forall j, (j < m)%nat -> nth j row' (0, 0) = if predicts_dec p j then update (nth j trow d) (nth j scores 0) else nth j row (0, 0).
Proof.
  intros (HP & HR) L1 L2 L3. unfold updateRow. destruct p as [values|indices values].
  - destruct (updateComplete_spec d update scores trow (length scores) (map fst row) (map snd row) m) as (g & h & -> & G1 & G2 & U & _);
      rewrite ?map_length; auto; [lia|].
    eexists. split; [reflexivity|]. rewrite combine_length. split; [lia|]. intros j Hj. rewrite nth_combine by lia.
    rewrite U by lia. destruct (predicts_dec _ _) as [|X]; [auto|]. exfalso. apply X. exact I.
  - destruct regression; [destruct (HR eq_refl); discriminate|]. destruct HP as (_ & HF).
    destruct (updatePartial_spec d update scores trow indices (map fst row) (map snd row) m) as (g & h & -> & G1 & G2 & U & W);
      rewrite ?map_length; auto.
    eexists. split; [reflexivity|]. rewrite combine_length. split; [lia|]. intros j Hj. rewrite nth_combine by lia.
    destruct (predicts_dec _ _) as [X|X]; [apply U; auto|]. rewrite W by auto. rewrite map_nth_fst, map_nth_snd. destruct (nth j row (0, 0)); auto.
Qed.

Lemma applyToExample_spec p i t s : okPrediction p -> (i < n)%nat -> state_inv t s ->
  exists t', applyToExample regression update truth p i t = Some t' /\
    state_inv t' (fun e l => s e l + if Nat.eq_dec e i then predictedScore p l else 0).
Proof.
  intros HP Hi (HS & HU & HV). unfold applyToExample, denseChange, changeRow.
  destruct (matrix_row _ i HS Hi) as (-> & Ls). destruct (denseAdd_spec p m _ Ls (proj1 HP)) as (row' & -> & Lr & Nr).
  rewrite aset_Some by (destruct HS; lia).
  assert (HS' : isMatrix n m (upd (trScores t) i row')) by (apply upd_matrix; auto).
  destruct (matrix_row _ i HS' Hi) as (-> & _). rewrite nth_upd_row by (destruct HS; lia). destruct (Nat.eq_dec i i) as [_|]; [|congruence].
  destruct (matrix_row _ i HT Hi) as (-> & Lt). destruct (matrix_row _ i HU Hi) as (-> & Lu).
  destruct (updateRow_spec p row' (nth i truth []) (nth i (trStatistics t) []) HP Lr Lt Lu) as (urow & -> & Lur & Nu).
  rewrite aset_Some by (destruct HU; lia). eexists. split; [reflexivity|]. split; [auto|]. split; [apply upd_matrix; auto|].
  intros e l He Hl. cbn [trScores trStatistics]. rewrite !nth_upd_row by (destruct HS, HU; lia). destruct (HV e l He Hl) as (V1 & V2).
  destruct (Nat.eq_dec i e) as [<-|N].
  - destruct (Nat.eq_dec i i) as [_|]; [|congruence]. rewrite Nr, V1 by auto. split; [auto|]. rewrite Nu by auto.
    destruct (predicts_dec p l) as [X|X]; [rewrite Nr, V1 by auto; reflexivity|]. rewrite not_predicted by auto. rewrite Rplus_0_r. exact V2.
  - destruct (Nat.eq_dec e i) as [->|_]; [congruence|]. rewrite Rplus_0_r. auto.
Qed.

Lemma state_ext t s s' : (forall i j, (i < n)%nat -> (j < m)%nat -> s i j = s' i j) -> state_inv t s -> state_inv t s'.
Proof. intros H (A & B & C). split; auto. split; auto. intros i j Hi Hj. rewrite <- H by auto. auto. Qed.

Lemma applyAll_spec p covered : okPrediction p -> NoDup covered -> Forall (fun i => (i < n)%nat) covered -> forall t s, state_inv t s ->
  exists t', forL covered (applyToExample regression update truth p) t = Some t' /\
    state_inv t' (fun e l => s e l + if in_dec Nat.eq_dec e covered then predictedScore p l else 0).
Proof.
  intros HP. induction covered as [|i covered IH]; intros HN HF t s HS.
  - exists t. split; [reflexivity|]. apply (state_ext t s); auto. intros. simpl. lra.
  - inversion HN; inversion HF; subst. destruct (applyToExample_spec p i t s HP ltac:(auto) HS) as (t1 & E1 & S1).
    destruct (IH H2 H6 t1 _ S1) as (t2 & E2 & S2). exists t2. cbn [forL]. rewrite E1. split; [exact E2|].
    apply (state_ext t2 (fun e l => (s e l + (if Nat.eq_dec e i then predictedScore p l else 0)) +
      (if in_dec Nat.eq_dec e covered then predictedScore p l else 0))); auto.
    intros e l He Hl. destruct (Nat.eq_dec e i) as [->|N].
    + destruct (in_dec Nat.eq_dec i covered); [contradiction|]. destruct (in_dec Nat.eq_dec i (i :: covered)) as [|X]; [lra|exfalso; apply X; left; auto].
    + destruct (in_dec Nat.eq_dec e covered) as [X|X], (in_dec Nat.eq_dec e (i :: covered)) as [Y|Y]; try lra; exfalso; simpl in *; intuition congruence.
Qed.

(** The sums of the statistics of an output. *)
Definition sumG (r : rule) (s : nat -> nat -> R) (l : nat) : R :=
  total (map (fun i => weightOf (ruleWeights r) i * fst (update (truthAt i l) (s i l))) (ruleExamples r)).
Definition sumH (r : rule) (s : nat -> nat -> R) (l : nat) : R :=
  total (map (fun i => weightOf (ruleWeights r) i * snd (update (truthAt i l) (s i l))) (ruleExamples r)).

Lemma outputs_length o : length (outputsOf o) = numOutputs o.
Proof. destruct o; simpl; [apply seq_length|auto]. Qed.

Lemma outputs_lt o l : valid_outputs m o -> In l (outputsOf o) -> (l < m)%nat.
Proof. destruct o; simpl; intros H; [subst; rewrite in_seq; lia|]. rewrite Forall_forall in H. auto. Qed.

Lemma total_app a b : total (a ++ b) = total a + total b.
Proof. unfold total. induction a; simpl; [lra|]. rewrite IHa. lra. Qed.

Lemma sumStatistics_spec r t s : valid_rule regression n m r -> state_inv t s ->
  sumStatistics (trStatistics t) r = Some (map (fun l => (sumG r s l, sumH r s l)) (outputsOf (ruleOutputs r))).
Proof.
  intros (_ & _ & HE & HO & _ & _ & HW) (HS & HU & HV). unfold sumStatistics.
  set (o := ruleOutputs r) in *. set (w := ruleWeights r) in *.
  set (G := fun l pre => total (map (fun i => weightOf w i * fst (update (truthAt i l) (s i l))) pre)).
  set (H := fun l pre => total (map (fun i => weightOf w i * snd (update (truthAt i l) (s i l))) pre)).
  assert (X : forall ex pre v, Forall (fun i => (i < n)%nat) ex -> v = map (fun l => (G l pre, H l pre)) (outputsOf o) ->
    forL ex (fun i sums => let* weight := weightAt w i in let* row := aget (trStatistics t) i in denseAddToSubset row o weight sums) v =
      Some (map (fun l => (G l (pre ++ ex), H l (pre ++ ex))) (outputsOf o))).
  { induction ex as [|i ex IH]; intros pre v HF ->.
    - rewrite app_nil_r. reflexivity.
    - apply Forall_cons_iff in HF. destruct HF as (H2 & H3). simpl. destruct (matrix_row _ i HU H2) as (Er & Lr).
      assert (Hw : exists q, weightAt w i = Some q /\ weight1 q = weightOf w i).
      { unfold weightAt, weightOf. destruct w as [k|l]; [eexists; split; [reflexivity|reflexivity]|]. simpl in HW.
        rewrite (aget_nth l i 0) by lia. eexists. split; [reflexivity|reflexivity]. }
      destruct Hw as (q & -> & Eq). rewrite Er.
      destruct (law_addToSubset _ _ _ _ _ _ _ _ _ _ (dense_lawful m) (nth i (trStatistics t) []) o q
        (map (fun l => (G l pre, H l pre)) (outputsOf o))) as (v' & Ev & Lv & Rv); auto.
      { rewrite map_length. apply outputs_length. }
      simpl in Ev. rewrite Ev. cbv beta in Lv. replace (pre ++ i :: ex) with ((pre ++ [i]) ++ ex) by (rewrite <- app_assoc; auto).
      apply IH; auto. apply (nth_ext _ _ (0, 0) (0, 0)); [rewrite map_length, outputs_length; auto|].
      intros k Hk. rewrite Lv in Hk.
      assert (HR : forall b : bool, part b (nth k v' (0, 0)) = part b (nth k (map (fun l => (G l pre, H l pre)) (outputsOf o)) (0, 0)) +
        weight1 q * part b (nth (nth k (outputsOf o) 0%nat) (nth i (trStatistics t) []) (0, 0))).
      { intros b. apply (Rv (b, k)). exact Hk. }
      assert (Hkl : In (nth k (outputsOf o) 0%nat) (outputsOf o)) by (apply nth_In; rewrite outputs_length; auto).
      set (l0 := nth k (outputsOf o) 0%nat) in *.
      assert (EN : forall P, nth k (map (fun l => (G l P, H l P)) (outputsOf o)) (0, 0) = (G l0 P, H l0 P)).
      { intros P. rewrite (nth_indep _ _ ((fun l => (G l P, H l P)) 0%nat)) by (rewrite map_length, outputs_length; auto).
        rewrite (map_nth (fun l => (G l P, H l P))). reflexivity. }
      rewrite EN in HR. rewrite EN. pose proof (outputs_lt _ _ HO Hkl) as Hl. destruct (HV i l0 H2 Hl) as (_ & V2). rewrite V2 in HR.
      pose proof (HR true) as R1. pose proof (HR false) as R2. rewrite Eq in R1, R2.
      unfold G, H. rewrite !map_app, !total_app. simpl. fold (G l0 pre). fold (H l0 pre).
      destruct (nth k v' (0, 0)) as (a, b). unfold part in R1, R2. simpl in R1, R2. f_equal; lra. }
  rewrite (X (ruleExamples r) [] (denseNew (numOutputs o))); auto.
  unfold denseNew, G, H. simpl. rewrite <- outputs_length. clear. induction (outputsOf o); simpl; [auto|]. f_equal. auto.
Qed.

Definition headScore (l1 l2 : R) (r : rule) (s : nat -> nat -> R) (l : nat) : R :=
  if in_dec Nat.eq_dec l (outputsOf (ruleOutputs r)) then outputWiseScore l1 l2 (sumG r s l, sumH r s l) * ruleShrinkage r else 0.

Lemma predictRule_spec l1 l2 r t s : valid_rule regression n m r -> state_inv t s ->
  exists p, predictRule l1 l2 (trStatistics t) r = Some p /\ okPrediction p /\
    forall l, (l < m)%nat -> predictedScore p l = headScore l1 l2 r s l.
Proof.
  intros HR HS. pose proof HR as (_ & _ & _ & HO & HN & HC & _). unfold predictRule. rewrite (sumStatistics_spec r t s) by auto.
  eexists. split; [reflexivity|]. unfold headScore. destruct (ruleOutputs r) as [k|l] eqn:Eo; simpl in HO |- *.
  - subst k. split; [split; [simpl; rewrite !map_length, seq_length; auto|eauto]|]. intros l Hl.
    destruct (in_dec Nat.eq_dec l (seq 0 m)) as [_|X]; [|exfalso; apply X; apply in_seq; lia].
    rewrite map_map. rewrite (nth_indep _ _ ((fun l => outputWiseScore l1 l2 (sumG r s l, sumH r s l) * ruleShrinkage r) 0%nat)) by (rewrite map_length, seq_length; auto).
    rewrite (map_nth (fun l => outputWiseScore l1 l2 (sumG r s l, sumH r s l) * ruleShrinkage r)). rewrite seq_nth by auto. reflexivity.
  - split; [split; [simpl; rewrite !map_length; auto|intros E; destruct (HC E); discriminate]|]. intros j Hj. rewrite map_map.
    simpl in HN. clear - HN. set (f := fun l => outputWiseScore l1 l2 (sumG r s l, sumH r s l) * ruleShrinkage r).
    assert (E : fold_right Rplus 0 (map snd (filter (fun q => (fst q =? j)%nat) (combine l (map f l)))) = if in_dec Nat.eq_dec j l then f j else 0).
    { induction HN as [|x l Hx HN IH]; [reflexivity|]. simpl. destruct (Nat.eqb_spec x j) as [->|N]; simpl.
      - rewrite IH. destruct (Nat.eq_dec j j) as [_|]; [|congruence]. destruct (in_dec Nat.eq_dec j l); [contradiction|]. lra.
      - rewrite IH. destruct (Nat.eq_dec x j); [congruence|]. destruct (in_dec Nat.eq_dec j l); auto. }
    exact E.
Qed.

Lemma applyRule_spec l1 l2 r t s : valid_rule regression n m r -> state_inv t s ->
  exists p t', predictRule l1 l2 (trStatistics t) r = Some p /\ applyRule regression update l1 l2 truth r t = Some t' /\
    (forall l, (l < m)%nat -> predictedScore p l = headScore l1 l2 r s l) /\
    state_inv t' (fun e l => s e l + if in_dec Nat.eq_dec e (ruleCovered r) then headScore l1 l2 r s l else 0).
Proof.
  intros HR HS. destruct (predictRule_spec l1 l2 r t s HR HS) as (p & E & OK & HP). pose proof HR as (HN & HF & _).
  destruct (applyAll_spec p (ruleCovered r) OK HN HF t s HS) as (t' & Et & St). exists p, t'. split; [auto|].
  split; [unfold applyRule; rewrite E; exact Et|]. split; [auto|]. apply (state_ext t' _ _) with (2 := St).
  intros i j Hi Hj. cbv beta. rewrite HP by auto. reflexivity.
Qed.

Lemma startTraining_spec junk : isMatrix n m junk -> exists t, startTraining update truth m junk = Some t /\ state_inv t (fun _ _ => 0).
Proof.
  intros HJ. unfold startTraining. pose proof HT as (LT & _).
  assert (HZ : isMatrix n m (repeat (repeat 0 m) (length truth))).
  { split; [rewrite repeat_length; auto|]. apply Forall_forall. intros x Hx. apply repeat_spec in Hx. subst. apply repeat_length. }
  match goal with |- context[forN ?c ?z ?f ?y] => destruct (forN_inv (fun k (st : list (list (R * R))) => isMatrix n m st /\
    forall i j, (i < k)%nat -> (j < m)%nat -> nth j (nth i st []) (0, 0) = update (truthAt i j) 0) f c z y) as (st & E & HM & HV) end.
  - split; [auto|]. intros; lia.
  - intros i st Hi (HM & HV). assert (Hn : (i < n)%nat) by lia. destruct (matrix_row _ i HZ Hn) as (-> & LZ).
    destruct (matrix_row _ i HT Hn) as (-> & Lt). destruct (matrix_row _ i HM Hn) as (-> & Lm).
    destruct (updateComplete_spec d update (nth i (repeat (repeat 0 m) (length truth)) []) (nth i truth []) m (map fst (nth i st [])) (map snd (nth i st [])) m)
      as (g & h & -> & G1 & G2 & U & _); rewrite ?map_length; auto.
    rewrite aset_Some by (destruct HM; lia). eexists. split; [reflexivity|]. split; [apply upd_matrix; auto; rewrite combine_length; lia|].
    intros i' j Hi' Hj. rewrite nth_upd_row by (destruct HM; lia). destruct (Nat.eq_dec i i') as [<-|N]; [|apply HV; lia].
    rewrite nth_combine by lia. rewrite U by auto. f_equal.
    rewrite (nth_indep _ _ (repeat 0 m)) by (rewrite repeat_length; lia). rewrite nth_repeat. apply nth_repeat.
  - rewrite E. eexists. split; [reflexivity|]. split; [auto|]. split; [auto|]. cbn [trScores trStatistics]. intros i j Hi Hj. split.
    + rewrite (nth_indep _ _ (repeat 0 m)) by (rewrite repeat_length; lia). rewrite nth_repeat. apply nth_repeat.
    + apply HV; simpl; lia.
Qed.

Lemma rules_spec l1 l2 rules : forall t s, Forall (valid_rule regression n m) rules -> state_inv t s ->
  exists t' s', forL rules (applyRule regression update l1 l2 truth) t = Some t' /\ state_inv t' s'.
Proof.
  induction rules as [|r rules IH]; intros t s HF HS; [exists t, s; auto|]. inversion HF; subst.
  destruct (applyRule_spec l1 l2 r t s H1 HS) as (p & t1 & _ & E & _ & S1). simpl. rewrite E. eapply IH; eauto.
Qed.

(** ** The loss *)
Context (evaluate : T -> R -> R).

Lemma trainingLoss_sum weights t s : length weights = n -> state_inv t s ->
  trainingLoss evaluate weights truth (trScores t) =
    sumR n (fun i => nth i weights 0 * (sumR m (fun j => evaluate (truthAt i j) (s i j)) / INR m)).
Proof.
  intros LW (HS & _ & HV). unfold trainingLoss. pose proof HT as (LT & _). pose proof HS as (LS & _).
  pose proof (total_combine (fun w q => w * exampleLoss evaluate (fst q) (snd q)) 0 ([], []) weights (combine truth (trScores t))) as E.
  cbv beta in E. rewrite E by (rewrite combine_length; lia). rewrite LW. apply sumR_ext. intros i Hi. f_equal.
  rewrite nth_combine by lia. cbn [fst snd]. unfold exampleLoss. destruct (matrix_row _ i HT Hi) as (_ & Lt). destruct (matrix_row _ i HS Hi) as (_ & Ls).
  rewrite (total_combine evaluate d 0) by lia. rewrite Lt. f_equal. apply sumR_ext. intros j Hj. destruct (HV i j Hi Hj) as (-> & _). reflexivity.
Qed.

Context (k : R) (bound : T -> R -> R).
Hypothesis Hk : 0 < k.
Hypothesis MAJ : forall t s p, evaluate t (s + p) <= evaluate t s + k * fst (update t s) * p + bound t s * (p * p).
Hypothesis HB : forall t s, 0 <= bound t s.
Hypothesis HH : forall t s, 0 <= snd (update t s).

Definition sumB (r : rule) (s : nat -> nat -> R) (l : nat) : R :=
  total (map (fun i => weightOf (ruleWeights r) i * bound (truthAt i l) (s i l)) (ruleExamples r)).

Lemma weighted_sum weights r x : valid_rule regression n m r -> calculated_from weights r ->
  sumR n (fun i => if in_dec Nat.eq_dec i (ruleCovered r) then nth i weights 0 * x i else 0) =
    total (map (fun i => weightOf (ruleWeights r) i * x i) (ruleExamples r)).
Proof.
  intros (_ & _ & HE & _) (HN & HI & HWt). rewrite <- (sumR_in n (ruleExamples r)) by auto. apply sumR_ext. intros i Hi.
  destruct (in_dec Nat.eq_dec i (ruleCovered r)) as [X|X].
  - rewrite HWt by auto. destruct (in_dec Nat.eq_dec i (ruleExamples r)); lra.
  - destruct (in_dec Nat.eq_dec i (ruleExamples r)) as [Y|Y]; [exfalso; apply X, HI, Y|auto].
Qed.

Lemma total_nonneg l : (forall x, In x l -> 0 <= x) -> 0 <= total l.
Proof. unfold total. induction l; simpl; intros H; [lra|]. pose proof (H a (or_introl eq_refl)). pose proof (IHl ltac:(intros; apply H; auto)). lra. Qed.

Lemma weight_nonneg weights r i : calculated_from weights r -> Forall (fun w => 0 <= w) weights -> In i (ruleExamples r) -> 0 <= weightOf (ruleWeights r) i.
Proof.
  intros (_ & HI & HW) HF Hi. specialize (HW i (HI _ Hi)). destruct (in_dec Nat.eq_dec i (ruleExamples r)); [|contradiction]. rewrite <- HW.
  destruct (Nat.lt_ge_cases i (length weights)); [|rewrite nth_overflow by auto; lra]. rewrite Forall_forall in HF. apply HF, nth_In. auto.
Qed.

Lemma step_loss l1 l2 weights r t s : 0 <= l1 -> 0 <= l2 -> length weights = n -> Forall (fun w => 0 <= w) weights ->
  valid_rule regression n m r -> calculated_from weights r -> 0 <= ruleShrinkage r ->
  (forall l, In l (outputsOf (ruleOutputs r)) -> 2 * sumB r s l * ruleShrinkage r <= k * (sumH r s l + l2)) ->
  state_inv t s ->
  exists p t', predictRule l1 l2 (trStatistics t) r = Some p /\ applyRule regression update l1 l2 truth r t = Some t' /\
    trainingLoss evaluate weights truth (trScores t') <= trainingLoss evaluate weights truth (trScores t) /\
    ((exists l, (l < m)%nat /\ predictedScore p l <> 0) ->
     trainingLoss evaluate weights truth (trScores t') < trainingLoss evaluate weights truth (trScores t)).
Proof.
  intros H1 H2 LW HW HR HC Hv HCond HS. destruct (applyRule_spec l1 l2 r t s HR HS) as (p & t' & Ep & Et & HP & HS').
  exists p, t'. split; [auto|]. split; [auto|].
  rewrite (trainingLoss_sum weights t' _ LW HS'), (trainingLoss_sum weights t s LW HS).
  set (P := headScore l1 l2 r s) in *. set (W := fun i => nth i weights 0).
  assert (HW' : forall i, 0 <= W i).
  { intros i. unfold W. destruct (Nat.lt_ge_cases i (length weights)); [|rewrite nth_overflow by auto; lra]. rewrite Forall_forall in HW. apply HW, nth_In. auto. }
  destruct (Nat.eq_dec m 0) as [Em|Nm].
  { split; [|intros (l & Hl & _); lia]. apply Req_le. apply sumR_ext. intros i Hi. rewrite Em. reflexivity. }
  assert (HI : 0 < / INR m) by (apply Rinv_0_lt_compat, lt_0_INR; lia).
  (* the change of the loss, multiplied by the number of outputs *)
  set (C := fun l => k * sumG r s l * P l + sumB r s l * (P l * P l)).
  assert (HD : forall l, (l < m)%nat -> C l <= 0 /\ (P l <> 0 -> C l < 0)).
  { intros l Hl. unfold C, P, headScore. destruct (in_dec Nat.eq_dec l (outputsOf (ruleOutputs r))) as [X|X].
    - unfold outputWiseScore. cbn [fst snd]. apply score_improves; auto.
      + apply total_nonneg. intros x Hx. apply in_map_iff in Hx. destruct Hx as (i & <- & Hi). apply Rmult_le_pos; [eapply weight_nonneg; eauto|apply HB].
      + assert (0 <= sumH r s l); [|lra]. apply total_nonneg. intros x Hx. apply in_map_iff in Hx. destruct Hx as (i & <- & Hi). apply Rmult_le_pos; [eapply weight_nonneg; eauto|apply HH].
    - split; [lra|]. intros Y. contradiction. }
  assert (HX : sumR n (fun i => W i * (sumR m (fun j => evaluate (truthAt i j) (s i j + (if in_dec Nat.eq_dec i (ruleCovered r) then P j else 0))) / INR m)) <=
    sumR n (fun i => W i * (sumR m (fun j => evaluate (truthAt i j) (s i j)) / INR m)) + / INR m * sumR m C).
  { assert (Hb : sumR m C = sumR n (fun i => W i * sumR m (fun j => if in_dec Nat.eq_dec i (ruleCovered r) then
        k * fst (update (truthAt i j) (s i j)) * P j + bound (truthAt i j) (s i j) * (P j * P j) else 0))).
    { rewrite (sumR_ext n (fun i => W i * _) (fun i => sumR m (fun j => W i * (if in_dec Nat.eq_dec i (ruleCovered r) then
        k * fst (update (truthAt i j) (s i j)) * P j + bound (truthAt i j) (s i j) * (P j * P j) else 0)))) by (intros; symmetry; apply sumR_scale).
      rewrite sumR_swap. apply sumR_ext. intros j Hj. unfold C, sumG, sumB.
      rewrite <- (weighted_sum weights r (fun i => fst (update (truthAt i j) (s i j)))), <- (weighted_sum weights r (fun i => bound (truthAt i j) (s i j))) by auto.
      replace (k * sumR n (fun i => if in_dec Nat.eq_dec i (ruleCovered r) then nth i weights 0 * fst (update (truthAt i j) (s i j)) else 0) * P j) with
        ((k * P j) * sumR n (fun i => if in_dec Nat.eq_dec i (ruleCovered r) then nth i weights 0 * fst (update (truthAt i j) (s i j)) else 0)) by ring.
      rewrite (Rmult_comm _ (P j * P j)). rewrite <- !sumR_scale, <- sumR_plus. apply sumR_ext. intros i Hi.
      destruct (in_dec Nat.eq_dec i (ruleCovered r)); unfold W; ring. }
    rewrite Hb, <- sumR_scale, <- sumR_plus. apply sumR_le. intros i Hi.
    replace (W i * (sumR m (fun j => evaluate (truthAt i j) (s i j)) / INR m) + / INR m * (W i * sumR m (fun j => if in_dec Nat.eq_dec i (ruleCovered r) then
        k * fst (update (truthAt i j) (s i j)) * P j + bound (truthAt i j) (s i j) * (P j * P j) else 0))) with
      (W i * ((sumR m (fun j => evaluate (truthAt i j) (s i j)) + sumR m (fun j => if in_dec Nat.eq_dec i (ruleCovered r) then
        k * fst (update (truthAt i j) (s i j)) * P j + bound (truthAt i j) (s i j) * (P j * P j) else 0)) / INR m)) by (unfold Rdiv; ring).
    apply Rmult_le_compat_l; [apply HW'|]. unfold Rdiv. apply Rmult_le_compat_r; [lra|]. rewrite <- sumR_plus. apply sumR_le. intros j Hj.
    destruct (in_dec Nat.eq_dec i (ruleCovered r)); [|rewrite Rplus_0_r; lra]. pose proof (MAJ (truthAt i j) (s i j) (P j)). lra. }
  fold (W 0%nat) in HX. change (fun i => nth i weights 0 * (sumR m (fun j => evaluate (truthAt i j) (s i j)) / INR m)) with
    (fun i => W i * (sumR m (fun j => evaluate (truthAt i j) (s i j)) / INR m)).
  change (fun i => nth i weights 0 * (sumR m (fun j => evaluate (truthAt i j) (s i j + (if in_dec Nat.eq_dec i (ruleCovered r) then P j else 0))) / INR m)) with
    (fun i => W i * (sumR m (fun j => evaluate (truthAt i j) (s i j + (if in_dec Nat.eq_dec i (ruleCovered r) then P j else 0))) / INR m)).
  split.
  - assert (sumR m C <= 0). { replace 0 with (sumR m (fun _ => 0)) by (apply sumR_zero; auto). apply sumR_le. intros l Hl. apply HD; auto. }
    assert (/ INR m * sumR m C <= 0) by nra. lra.
  - intros (l & Hl & Np). rewrite HP in Np by auto.
    assert (sumR m C < 0). { replace 0 with (sumR m (fun _ => 0)) by (apply sumR_zero; auto). apply (sumR_lt m _ _ l); auto; [intros i Hi; apply HD; auto|]. apply HD; auto. }
    assert (/ INR m * sumR m C < 0) by nra. lra.
Qed.

End Training.

(** ** Training *)

Lemma forL_snoc {A S} (l : list A) x (f : A -> S -> option S) : forall s s', forL l f s = Some s' -> forL (l ++ [x]) f s = f x s'.
Proof.
  induction l as [|a l IH]; simpl; intros s s' H; [injection H as <-; destruct (f x s); auto|]. destruct (f a s); [apply IH; auto|discriminate].
Qed.

Lemma training_improves {T} (d : T) regression update evaluate k bound : 0 < k ->
  (forall t s p, evaluate t (s + p) <= evaluate t s + k * fst (update t s) * p + bound t s * (p * p)) ->
  (forall t s, 0 <= bound t s) -> (forall t s, 0 <= snd (update t s)) ->
  forall truth n m junk l1 l2 weights rules r,
    isMatrix n m truth -> isMatrix n m junk -> 0 <= l1 -> 0 <= l2 -> length weights = n -> Forall (fun w => 0 <= w) weights ->
    Forall (valid_rule regression n m) rules -> valid_rule regression n m r -> calculated_from weights r -> 0 <= ruleShrinkage r ->
    (forall s l, In l (outputsOf (ruleOutputs r)) -> 2 * sumB d truth bound r s l * ruleShrinkage r <= k * (sumH d update truth r s l + l2)) ->
    exists before p after, train regression update l1 l2 truth m junk rules = Some before /\
      predictRule l1 l2 (trStatistics before) r = Some p /\
      train regression update l1 l2 truth m junk (rules ++ [r]) = Some after /\
      trainingLoss evaluate weights truth (trScores after) <= trainingLoss evaluate weights truth (trScores before) /\
      ((exists l, (l < m)%nat /\ predictedScore p l <> 0) ->
       trainingLoss evaluate weights truth (trScores after) < trainingLoss evaluate weights truth (trScores before)).
Proof.
  intros Hk MAJ HB HH truth n m junk l1 l2 weights rules r HT HJ H1 H2 LW HW HRs HR HC Hv HCond.
  destruct (startTraining_spec d update truth n m HT junk HJ) as (t0 & E0 & S0).
  destruct (rules_spec d regression update truth n m HT l1 l2 rules t0 _ HRs S0) as (t & s & E & HS).
  destruct (step_loss d regression update truth n m HT evaluate k bound Hk MAJ HB HH l1 l2 weights r t s) as (p & t' & Ep & Et & Hle & Hlt); auto.
  exists t, p, t'. unfold train. rewrite E0. split; [exact E|]. split; [exact Ep|]. split; [rewrite (forL_snoc _ _ _ _ _ E); exact Et|]. auto.
Qed.

Lemma total_ext {A} (f g : A -> R) l : (forall x, In x l -> f x = g x) -> total (map f l) = total (map g l).
Proof. intros H. f_equal. apply map_ext_in. auto. Qed.

Lemma constant_bound {T} (d : T) update (bound : T -> R -> R) truth weights r s l l2 : (forall t x, snd (update t x) = bound t x) ->
  (forall t x, 0 <= bound t x) -> 0 <= l2 ->
  calculated_from weights r -> Forall (fun w => 0 <= w) weights -> 0 <= ruleShrinkage r <= 1 ->
  2 * sumB d truth bound r s l * ruleShrinkage r <= 2 * (sumH d update truth r s l + l2).
Proof.
  intros E HB H2 HC HW Hv.
  assert (X : sumH d update truth r s l = sumB d truth bound r s l).
  { apply total_ext. intros i Hi. rewrite E. reflexivity. }
  rewrite X. assert (0 <= sumB d truth bound r s l).
  { apply total_nonneg. intros x Hx. apply in_map_iff in Hx. destruct Hx as (i & <- & Hi). apply Rmult_le_pos; [eapply weight_nonneg; eauto|apply HB]. }
  nra.
Qed.

Lemma squared_error_training :
  forall truth n m junk l1 l2 weights rules r,
    isMatrix n m truth -> isMatrix n m junk -> 0 <= l1 -> 0 <= l2 -> length weights = n -> Forall (fun w => 0 <= w) weights ->
    Forall (valid_rule false n m) rules -> valid_rule false n m r -> calculated_from weights r -> 0 <= ruleShrinkage r <= 1 ->
    exists before p after,
      train false updateSquaredErrorClassification l1 l2 truth m junk rules = Some before /\
      predictRule l1 l2 (trStatistics before) r = Some p /\
      train false updateSquaredErrorClassification l1 l2 truth m junk (rules ++ [r]) = Some after /\
      trainingLoss evaluateSquaredErrorClassification weights truth (trScores after) <=
        trainingLoss evaluateSquaredErrorClassification weights truth (trScores before) /\
      ((exists l, (l < m)%nat /\ predictedScore p l <> 0) ->
       trainingLoss evaluateSquaredErrorClassification weights truth (trScores after) <
         trainingLoss evaluateSquaredErrorClassification weights truth (trScores before)).
Proof.
  intros. apply (training_improves false false _ _ 2 (fun _ _ => 1)) with (n := n); auto; try lra.
  - intros t s p. unfold evaluateSquaredErrorClassification, evaluateSquaredErrorRegression, updateSquaredErrorClassification, updateSquaredErrorRegression. simpl. lra.
  - intros. lra.
  - intros. simpl. lra.
  - intros s l _. eapply constant_bound; eauto. intros; lra.
Qed.

Lemma squared_hinge_training :
  forall truth n m junk l1 l2 weights rules r,
    isMatrix n m truth -> isMatrix n m junk -> 0 <= l1 -> 0 <= l2 -> length weights = n -> Forall (fun w => 0 <= w) weights ->
    Forall (valid_rule false n m) rules -> valid_rule false n m r -> calculated_from weights r -> 0 <= ruleShrinkage r <= 1 ->
    exists before p after,
      train false updateSquaredHinge l1 l2 truth m junk rules = Some before /\
      predictRule l1 l2 (trStatistics before) r = Some p /\
      train false updateSquaredHinge l1 l2 truth m junk (rules ++ [r]) = Some after /\
      trainingLoss evaluateSquaredHinge weights truth (trScores after) <=
        trainingLoss evaluateSquaredHinge weights truth (trScores before) /\
      ((exists l, (l < m)%nat /\ predictedScore p l <> 0) ->
       trainingLoss evaluateSquaredHinge weights truth (trScores after) <
         trainingLoss evaluateSquaredHinge weights truth (trScores before)).
Proof.
  intros. apply (training_improves false false _ _ 2 (fun _ _ => 1)) with (n := n); auto; try lra.
  - intros t s p. unfold evaluateSquaredHinge, updateSquaredHinge. cbn [fst snd].
    destruct t; [destruct (Rlt_dec (s + p) 1), (Rlt_dec s 1)|destruct (Rgt_dec (s + p) 0), (Rgt_dec s 0)]; nra.
  - intros. lra.
  - intros. simpl. lra.
  - intros s l _. eapply constant_bound; eauto. intros; lra.
Qed.

Lemma squared_error_regression_training :
  forall truth n m junk l1 l2 weights rules r,
    isMatrix n m truth -> isMatrix n m junk -> 0 <= l1 -> 0 <= l2 -> length weights = n -> Forall (fun w => 0 <= w) weights ->
    Forall (valid_rule true n m) rules -> valid_rule true n m r -> calculated_from weights r -> 0 <= ruleShrinkage r <= 1 ->
    exists before p after,
      train true updateSquaredErrorRegression l1 l2 truth m junk rules = Some before /\
      predictRule l1 l2 (trStatistics before) r = Some p /\
      train true updateSquaredErrorRegression l1 l2 truth m junk (rules ++ [r]) = Some after /\
      trainingLoss evaluateSquaredErrorRegression weights truth (trScores after) <=
        trainingLoss evaluateSquaredErrorRegression weights truth (trScores before) /\
      ((exists l, (l < m)%nat /\ predictedScore p l <> 0) ->
       trainingLoss evaluateSquaredErrorRegression weights truth (trScores after) <
         trainingLoss evaluateSquaredErrorRegression weights truth (trScores before)).
Proof.
  intros. apply (training_improves 0 true _ _ 2 (fun _ _ => 1)) with (n := n); auto; try lra.
  - intros t s p. unfold evaluateSquaredErrorRegression, updateSquaredErrorRegression. simpl. lra.
  - intros. lra.
  - intros. simpl. lra.
  - intros s l _. eapply constant_bound; eauto. intros; lra.
Qed.

(** The logistic loss is bounded by a quadratic function. *)
Lemma logistic_curvature x : / (1 + exp (- x)) - / (1 + exp (- x)) * / (1 + exp (- x)) <= / 4.
Proof. set (a := / (1 + exp (- x))). assert (0 <= (a - / 2) * (a - / 2)) by apply Rle_0_sqr. lra. Qed.

Lemma logistic_convex x : 0 <= / (1 + exp (- x)) - / (1 + exp (- x)) * / (1 + exp (- x)).
Proof.
  pose proof (exp_pos (- x)). assert (0 < / (1 + exp (- x)) <= 1); [|nra]. split; [apply Rinv_0_lt_compat; lra|].
  rewrite <- Rinv_1 at 2. apply Rinv_le_contravar; lra.
Qed.

Lemma quadratic_bound (f f1 f2 : R -> R) s p : (forall x, derivable_pt_lim f x (f1 x)) -> (forall x, derivable_pt_lim f1 x (f2 x)) ->
  (forall x, f2 x <= / 4) -> f (s + p) <= f s + f1 s * p + / 8 * (p * p).
Proof.
  intros D1 D2 B.
  set (h := fun q => f s + f1 s * (q - s) + / 8 * ((q - s) * (q - s)) - f q).
  assert (Dh : forall q, derivable_pt_lim h q (f1 s + / 4 * (q - s) - f1 q)).
  { intros q. unfold h.
    replace (f1 s + / 4 * (q - s) - f1 q) with (((0 + f1 s * (1 - 0)) + / 8 * ((1 - 0) * (q - s) + (q - s) * (1 - 0))) - f1 q) by lra.
    assert (Di : derivable_pt_lim (fun y => y - s) q (1 - 0)) by (apply derivable_pt_lim_minus; [apply derivable_pt_lim_id|apply derivable_pt_lim_const]).
    apply derivable_pt_lim_minus; [|apply D1]. apply derivable_pt_lim_plus.
    - apply derivable_pt_lim_plus; [apply derivable_pt_lim_const|]. apply (derivable_pt_lim_scal (fun y => y - s)). exact Di.
    - apply (derivable_pt_lim_scal (fun y => (y - s) * (y - s))). apply (derivable_pt_lim_mult (fun y => y - s) (fun y => y - s)); exact Di. }
  assert (M : forall a b, a < b -> f1 b - f1 a <= / 4 * (b - a)).
  { intros a b Hab. destruct (MVT_cor2 f1 f2 a b Hab ltac:(intros; apply D2)) as (c & -> & _). pose proof (B c). nra. }
  assert (E : h s = 0) by (unfold h; ring). enough (0 <= h (s + p)) by (unfold h in *; replace (s + p - s) with p in * by ring; lra).
  destruct (Rtotal_order p 0) as [Hp|[->|Hp]].
  - destruct (MVT_cor2 h _ (s + p) s ltac:(lra) ltac:(intros; apply Dh)) as (c & Ec & Hc). pose proof (M c s ltac:(lra)). nra.
  - rewrite Rplus_0_r, E. lra.
  - destruct (MVT_cor2 h _ s (s + p) ltac:(lra) ltac:(intros; apply Dh)) as (c & Ec & Hc). pose proof (M s c ltac:(lra)). nra.
Qed.

Lemma logistic_bound e label s p : (forall x, x <= 0 -> e x = exp x) ->
  evaluateLogistic e label (s + p) <= evaluateLogistic e label s + 1 * fst (updateLogistic e label s) * p + / 8 * (p * p).
Proof.
  intros E. rewrite !logistic_evaluate, logistic_gradient by auto. cbn [fst].
  pose proof (quadratic_bound (fun y => ln (1 + exp (- expected label * y))) _ _ s p (logistic_derivative label) (logistic_derivative2 label) logistic_curvature) as H.
  cbv beta in H. lra.
Qed.

Lemma total_const {A} (f : A -> R) c l : total (map (fun i => f i * c) l) = total (map f l) * c.
Proof. induction l; unfold total in *; simpl; [lra|]. rewrite IHl. lra. Qed.

Lemma logistic_training :
  forall e : R -> R, (forall x, x <= 0 -> e x = exp x) ->
  forall truth n m junk l1 l2 weights rules r,
    isMatrix n m truth -> isMatrix n m junk -> 0 <= l1 -> 0 <= l2 -> length weights = n -> Forall (fun w => 0 <= w) weights ->
    Forall (valid_rule false n m) rules -> valid_rule false n m r -> calculated_from weights r -> 0 <= ruleShrinkage r ->
    ruleShrinkage r * coveredWeight weights r <= 4 * l2 ->
    exists before p after,
      train false (updateLogistic e) l1 l2 truth m junk rules = Some before /\
      predictRule l1 l2 (trStatistics before) r = Some p /\
      train false (updateLogistic e) l1 l2 truth m junk (rules ++ [r]) = Some after /\
      trainingLoss (evaluateLogistic e) weights truth (trScores after) <=
        trainingLoss (evaluateLogistic e) weights truth (trScores before) /\
      ((exists l, (l < m)%nat /\ predictedScore p l <> 0) ->
       trainingLoss (evaluateLogistic e) weights truth (trScores after) <
         trainingLoss (evaluateLogistic e) weights truth (trScores before)).
Proof.
  intros e He truth n m junk l1 l2 weights rules r HT HJ H1 H2 LW HW HRs HR HC Hv HCond.
  apply (training_improves false false (updateLogistic e) (evaluateLogistic e) 1 (fun _ _ => / 8)) with (n := n); auto; try lra.
  - intros t s p. apply logistic_bound; auto.
  - intros. lra.
  - intros. rewrite logistic_gradient by auto. apply logistic_convex.
  - intros s l _.
    assert (EB : sumB false truth (fun _ _ => / 8) r s l = coveredWeight weights r * / 8).
    { unfold sumB. rewrite total_const. f_equal. unfold coveredWeight.
      transitivity (total (map (fun i => weightOf (ruleWeights r) i * 1) (ruleExamples r))); [apply total_ext; intros; lra|].
      rewrite <- (weighted_sum false n m weights r (fun _ => 1)) by auto.
      rewrite <- (sumR_in n (ruleCovered r) (fun i => nth i weights 0)) by (apply HR).
      apply sumR_ext. intros i Hi. cbv beta. destruct (in_dec Nat.eq_dec i (ruleCovered r)); lra. }
    rewrite EB. assert (0 <= sumH false (updateLogistic e) truth r s l); [|lra].
    apply total_nonneg. intros x Hx. apply in_map_iff in Hx. destruct Hx as (i & <- & Hi).
    apply Rmult_le_pos; [eapply weight_nonneg; eauto|]. rewrite logistic_gradient by auto. apply logistic_convex.
Qed.

(** ** Counterexamples *)

Lemma regression_training_refuted :
  exists (truth : list (list R)) n m junk weights rules r before after,
    isMatrix n m truth /\ isMatrix n m junk /\ length weights = n /\ Forall (fun w => 0 <= w) weights /\
    Forall (valid_rule false n m) rules /\ valid_rule false n m r /\ calculated_from weights r /\ ruleShrinkage r = 1 /\
    train true updateSquaredErrorRegression 0 0 truth m junk rules = Some before /\
    train true updateSquaredErrorRegression 0 0 truth m junk (rules ++ [r]) = Some after /\
    trainingLoss evaluateSquaredErrorRegression weights truth (trScores before) <
      trainingLoss evaluateSquaredErrorRegression weights truth (trScores after).
Proof.
  set (r := mkRule (EqualWeights 1) [0%nat] (SomeOutputs [1%nat]) 1 [0%nat]).
  assert (V : valid_rule false 1 2 r).
  { unfold r, valid_rule. simpl. repeat split; auto; try discriminate; repeat constructor; simpl; auto. }
  assert (D : divideOrZero (- (0 + (0 - 1)) + getL1Weight (0 + (0 - 1)) 0) (0 + 1 + 0) = 1).
  { unfold divideOrZero, getL1Weight. destruct (Rgt_dec (0 + (0 - 1)) 0); [lra|]. destruct (Rlt_dec (0 + (0 - 1)) (- 0)); [|lra].
    destruct (Req_EM_T (0 + 1 + 0) 0); lra. }
  exists [[0; 1]], 1%nat, 2%nat, [[(0, 0); (0, 0)]], [1], [r], r. eexists. eexists.
  do 2 (split; [split; [reflexivity|repeat constructor]|]). split; [reflexivity|]. split; [repeat constructor; lra|].
  split; [constructor; [exact V|constructor]|]. split; [exact V|].
  split. { unfold calculated_from, r; simpl. split; [repeat constructor; simpl; auto|]. split; [intros i Hi; exact Hi|]. intros i [<-|[]]. reflexivity. }
  split; [reflexivity|]. split; [reflexivity|]. split; [reflexivity|].
  cbn. unfold outputWiseScore. cbn. rewrite !D. unfold exampleLoss, evaluateSquaredErrorRegression. cbn. lra.
Qed.

Lemma exp_ge n x : 0 <= 1 + x -> (1 + x) ^ n <= exp (INR n * x).
Proof.
  intros H. induction n as [|n IH]; [simpl; rewrite Rmult_0_l, exp_0; lra|].
  rewrite S_INR. replace ((INR n + 1) * x) with (x + INR n * x) by ring. rewrite exp_plus. simpl.
  apply Rmult_le_compat; auto; [apply pow_le; auto|apply exp_ineq1_le].
Qed.

Definition ctTruth : list (list bool) := repeat [true] 19 ++ [[false]].
Definition ctRule (l : list nat) : rule := mkRule (EqualWeights 20) l (AllOutputs 1) 1 l.

Lemma ct_valid l : NoDup l -> Forall (fun i => (i < 20)%nat) l -> valid_rule false 20 1 (ctRule l).
Proof.
  intros HN HF. unfold ctRule, valid_rule. simpl. split; [auto|]. split; [auto|]. split; [auto|]. split; [reflexivity|].
  split; [repeat constructor; simpl; auto|]. split; [discriminate|reflexivity].
Qed.

Lemma logistic_positive x : updateLogistic exp true x = (- / (1 + exp x), exp x / ((1 + exp x) * (1 + exp x))).
Proof.
  rewrite logistic_gradient by (unfold exponential; auto). unfold expected. rewrite exp_Ropp, Rmult_1_l. pose proof (exp_pos x). f_equal; field; lra.
Qed.
Lemma logistic_negative x : updateLogistic exp false x = (exp x / (1 + exp x), exp x / ((1 + exp x) * (1 + exp x))).
Proof.
  rewrite logistic_gradient by (unfold exponential; auto). unfold expected. replace (-1 * x) with (- x) by ring. rewrite exp_Ropp. pose proof (exp_pos x). f_equal; field; lra.
Qed.

Lemma score_0 G H : H <> 0 -> outputWiseScore 0 0 (G, H) = - G / H.
Proof.
  intros N. unfold outputWiseScore, divideOrZero, getL1Weight. simpl. destruct (Req_EM_T (H + 0) 0); [lra|]. rewrite Rplus_0_r.
  destruct (Rgt_dec G 0); [f_equal; lra|]. destruct (Rlt_dec G (- 0)); f_equal; lra.
Qed.

Lemma ct_all s x : (forall i, (i < 20)%nat -> s i 0%nat = x) ->
  headScore false (updateLogistic exp) ctTruth 0 0 (ctRule (seq 0 20)) s 0 = (19 - exp x) * (1 + exp x) / (20 * exp x).
Proof.
  intros H. pose proof (exp_pos x) as P. unfold headScore, sumG, sumH. cbn [ctRule ruleOutputs ruleExamples ruleWeights ruleShrinkage outputsOf seq map].
  destruct (in_dec Nat.eq_dec 0%nat [0%nat]) as [_|X]; [|exfalso; apply X; left; auto].
  unfold truthAt. cbn [ctTruth nth repeat app weightOf]. rewrite !H by lia. rewrite logistic_positive, logistic_negative. cbn [fst snd]. unfold total. cbn [fold_right].
  set (E := exp x) in *. rewrite score_0.
  - field. split; lra.
  - assert (0 < E / ((1 + E) * (1 + E))) by (apply Rdiv_lt_0_compat; [lra|apply Rmult_lt_0_compat; lra]). lra.
Qed.

Lemma ct_pair s x : s 0%nat 0%nat = x -> s 19%nat 0%nat = x ->
  headScore false (updateLogistic exp) ctTruth 0 0 (ctRule [0; 19]%nat) s 0 = - ((exp x * exp x - 1) / (2 * exp x)).
Proof.
  intros H1 H2. pose proof (exp_pos x) as P. unfold headScore, sumG, sumH. cbn [ctRule ruleOutputs ruleExamples ruleWeights ruleShrinkage outputsOf seq map].
  destruct (in_dec Nat.eq_dec 0%nat [0%nat]) as [_|X]; [|exfalso; apply X; left; auto].
  unfold truthAt. cbn [ctTruth nth repeat app weightOf]. rewrite H1, H2. rewrite logistic_positive, logistic_negative. cbn [fst snd]. unfold total. cbn [fold_right].
  set (E := exp x) in *. rewrite score_0.
  - field. split; lra.
  - assert (0 < E / ((1 + E) * (1 + E))) by (apply Rdiv_lt_0_compat; [lra|apply Rmult_lt_0_compat; lra]). lra.
Qed.

Lemma ct_first : (19 - exp 0) * (1 + exp 0) / (20 * exp 0) = 9 / 5.
Proof. rewrite exp_0. field. Qed.

Lemma ct_second : 5 / 2 <= 9 / 5 + (19 - exp (9 / 5)) * (1 + exp (9 / 5)) / (20 * exp (9 / 5)).
Proof.
  pose proof (exp_ge 18 (- / 10) ltac:(lra)) as H. replace (INR 18 * - / 10) with (- (9 / 5)) in H by (simpl; field).
  rewrite exp_Ropp in H. pose proof (exp_pos (9 / 5)) as P. set (x := exp (9 / 5)) in *.
  assert (Hx : x <= 67 / 10).
  { assert (10 / 67 <= / x) by (eapply Rle_trans; [|exact H]; simpl; lra).
    apply (Rmult_le_compat_r x) in H0; [|lra]. rewrite Rinv_l in H0 by lra. lra. }
  assert (1 < x) by (replace 1 with (exp 0) by apply exp_0; apply exp_increasing; lra).
  assert (7 / 10 <= (19 - x) * (1 + x) / (20 * x)); [|lra].
  apply (Rmult_le_reg_r (20 * x)); [lra|]. unfold Rdiv at 2. rewrite Rmult_assoc, Rinv_l by lra. nra.
Qed.

Lemma ct_third s : 5 / 2 <= s -> 2 * s < (exp s * exp s - 1) / (2 * exp s).
Proof.
  intros H. pose proof (exp_ge 50 (/ 20) ltac:(lra)) as E. replace (INR 50 * / 20) with (5 / 2) in E by (simpl; field).
  assert (E1 : 11 <= exp (5 / 2)) by (eapply Rle_trans; [|exact E]; simpl; lra). clear E.
  assert (E2 : 4 * s + 1 <= exp s).
  { replace s with (5 / 2 + (s - 5 / 2)) at 2 by ring. rewrite exp_plus. pose proof (exp_ineq1_le (s - 5 / 2)). nra. }
  set (x := exp s) in *. apply (Rmult_lt_reg_r (2 * x)); [lra|]. unfold Rdiv. rewrite (Rmult_assoc (x * x - 1)), Rinv_l by lra. nra.
Qed.

Lemma pair_loss u v : 0 < u -> u < v ->
  evaluateLogistic exp true u + evaluateLogistic exp false u < evaluateLogistic exp true (- v) + evaluateLogistic exp false (- v).
Proof.
  intros Hu Hv. rewrite !logistic_evaluate by (unfold exponential; auto). unfold expected.
  replace (- (1) * u) with (- u) by ring. replace (- -1 * u) with u by ring. replace (- (1) * - v) with v by ring. replace (- -1 * - v) with (- v) by ring.
  pose proof (exp_pos u). pose proof (exp_pos v). pose proof (exp_pos (- u)). pose proof (exp_pos (- v)).
  rewrite <- !ln_mult by lra. apply ln_increasing; [apply Rmult_lt_0_compat; lra|]. rewrite !exp_Ropp.
  assert (A : exp u < exp v) by (apply exp_increasing; auto). assert (B : 1 < exp u) by (replace 1 with (exp 0) by apply exp_0; apply exp_increasing; auto).
  set (a := exp u) in *. set (b := exp v) in *.
  replace ((1 + / a) * (1 + a)) with (2 + a + / a) by (field; lra). replace ((1 + b) * (1 + / b)) with (2 + b + / b) by (field; lra).
  assert (/ a - / b = (b - a) * / (a * b)) by (field; lra). assert (/ (a * b) < 1) by (rewrite <- Rinv_1; apply Rinv_lt_contravar; nra). nra.
Qed.

Lemma logistic_training_refuted :
  exists truth n m junk weights rules r before after,
    isMatrix n m truth /\ isMatrix n m junk /\ length weights = n /\ Forall (fun w => 0 <= w) weights /\
    Forall (valid_rule false n m) rules /\ Forall (calculated_from weights) rules /\ valid_rule false n m r /\ calculated_from weights r /\
    ruleShrinkage r = 1 /\
    train false (updateLogistic exp) 0 0 truth m junk rules = Some before /\
    train false (updateLogistic exp) 0 0 truth m junk (rules ++ [r]) = Some after /\
    trainingLoss (evaluateLogistic exp) weights truth (trScores before) <
      trainingLoss (evaluateLogistic exp) weights truth (trScores after).
Proof.
  set (junk := repeat [(0, 0)] 20). set (all := ctRule (seq 0 20)). set (pair := ctRule [0; 19]%nat).
  assert (HT : isMatrix 20 1 ctTruth) by (split; [reflexivity|repeat constructor]).
  assert (HJ : isMatrix 20 1 junk) by (split; [reflexivity|repeat constructor]).
  assert (VA : valid_rule false 20 1 all). { apply ct_valid; [apply seq_NoDup|]. apply Forall_forall. intros i Hi. apply in_seq in Hi. lia. }
  assert (VP : valid_rule false 20 1 pair). { apply ct_valid; [repeat constructor; simpl; intuition lia|repeat constructor]. }
  assert (CF : forall l, NoDup l -> Forall (fun i => (i < 20)%nat) l -> calculated_from (repeat 1 20) (ctRule l)).
  { intros l HN HF. split; [exact HN|]. split; [intros i Hi; exact Hi|]. intros i Hi. cbn [ctRule ruleCovered ruleExamples ruleWeights weightOf] in *.
    destruct (in_dec Nat.eq_dec i l); [|contradiction]. rewrite Forall_forall in HF. specialize (HF i Hi).
    rewrite (nth_indep _ 0 1) by (rewrite repeat_length; auto). apply nth_repeat. }
  destruct (startTraining_spec false (updateLogistic exp) ctTruth 20 1 HT junk HJ) as (t0 & E0 & S0).
  destruct (applyRule_spec false false (updateLogistic exp) ctTruth 20 1 HT 0 0 all t0 _ VA S0) as (p1 & t1 & _ & E1 & _ & S1).
  destruct (applyRule_spec false false (updateLogistic exp) ctTruth 20 1 HT 0 0 all t1 _ VA S1) as (p2 & t2 & _ & E2 & _ & S2).
  set (x := 9 / 5 + (19 - exp (9 / 5)) * (1 + exp (9 / 5)) / (20 * exp (9 / 5))).
  assert (S2' : state_inv false (updateLogistic exp) ctTruth 20 1 t2 (fun _ _ => x)).
  { apply (state_ext _ _ _ _ _ t2 _ _) with (2 := S2). intros i j Hi Hj. assert (j = 0%nat) by lia. subst j. cbv beta.
    assert (I : In i (ruleCovered all)) by (apply in_seq; simpl; lia).
    destruct (in_dec Nat.eq_dec i (ruleCovered all)); [|contradiction]. unfold all. rewrite (ct_all _ 0) by auto. rewrite ct_first.
    rewrite (ct_all _ (9 / 5)); [unfold x; lra|]. intros i' Hi'. fold all.
    destruct (in_dec Nat.eq_dec i' (ruleCovered all)) as [|X]; [|exfalso; apply X, in_seq; simpl; lia].
    rewrite (ct_all _ 0) by auto. rewrite ct_first. lra. }
  destruct (applyRule_spec false false (updateLogistic exp) ctTruth 20 1 HT 0 0 pair t2 _ VP S2') as (p3 & t3 & _ & E3 & _ & S3).
  exists ctTruth, 20%nat, 1%nat, junk, (repeat 1 20), [all; all], pair, t2, t3.
  split; [exact HT|]. split; [exact HJ|]. split; [reflexivity|]. split; [repeat constructor; lra|].
  split; [constructor; [exact VA|constructor; [exact VA|constructor]]|].
  assert (CA : calculated_from (repeat 1 20) all). { apply CF; [apply seq_NoDup|]. apply Forall_forall. intros i Hi. apply in_seq in Hi. lia. }
  split; [constructor; [exact CA|constructor; [exact CA|constructor]]|]. split; [exact VP|].
  split; [apply CF; [repeat constructor; simpl; intuition lia|repeat constructor]|]. split; [reflexivity|].
  split; [unfold train; rewrite E0; cbn [forL]; rewrite E1, E2; reflexivity|].
  split; [unfold train; rewrite E0; cbn [app forL]; rewrite E1, E2, E3; reflexivity|].
  rewrite (trainingLoss_sum false (updateLogistic exp) ctTruth 20 1 HT (evaluateLogistic exp) (repeat 1 20) t2 _ eq_refl S2').
  set (y := (exp x * exp x - 1) / (2 * exp x)).
  assert (Hx : 5 / 2 <= x) by apply ct_second. assert (Hy : 2 * x < y) by (apply ct_third; auto).
  pose proof (pair_loss x (y - x) ltac:(lra) ltac:(lra)) as HL. replace (- (y - x)) with (x + - y) in HL by ring.
  assert (Ep : headScore false (updateLogistic exp) ctTruth 0 0 pair (fun _ _ => x) 0 = - y) by (apply ct_pair; reflexivity).
  assert (S3' : state_inv false (updateLogistic exp) ctTruth 20 1 t3 (fun i _ => if ((i =? 0) || (i =? 19))%nat then x + - y else x)).
  { apply (state_ext _ _ _ _ _ t3 _ _) with (2 := S3). intros i j Hi Hj. assert (j = 0%nat) by lia. subst j. cbv beta. rewrite Ep.
    destruct (in_dec Nat.eq_dec i (ruleCovered pair)) as [X|X]; simpl in X.
    - destruct X as [<- |[<- |[]]]; reflexivity.
    - destruct (Nat.eqb_spec i 0) as [|N1]; [exfalso; apply X; auto|]. destruct (Nat.eqb_spec i 19) as [|N2]; [exfalso; apply X; auto|]. simpl. lra. }
  rewrite (trainingLoss_sum false (updateLogistic exp) ctTruth 20 1 HT (evaluateLogistic exp) (repeat 1 20) t3 _ eq_refl S3').
  unfold truthAt. cbn [sumR ctTruth repeat app nth Nat.eqb orb]. change (INR 1) with 1. lra.
Qed.
