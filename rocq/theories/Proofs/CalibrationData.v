(** Proofs about the data calibration models are fitted to. *)
From Coq Require Import ZArith QArith Qfield Arith List Bool Lia Lqa Sorted Permutation.
From Verif Require Import Lib.Arr Model.Stopping Model.Labels Model.Isotonic Model.Serialization Model.CalibrationData
  Spec.Labels Spec.Isotonic Spec.CalibrationData Proofs.Labels Proofs.Isotonic Proofs.Calibration.
Import ListNotations.
Open Scope nat_scope.

Lemma firstn_snoc {A} (l : list A) i x : nth_error l i = Some x -> firstn (S i) l = firstn i l ++ [x].
Proof.
  revert i. induction l as [|a l IH]; intros [|i] E; try discriminate.
  - injection E as ->. reflexivity.
  - cbn [firstn app]. rewrite <- (IH i E). reflexivity.
Qed.

Lemma nth_upd {A} (l : list A) i j v d : i < length l -> nth j (upd l i v) d = if i =? j then v else nth j l d.
Proof.
  intros Hi. rewrite !nth_default_eq || idtac. destruct (Nat.eqb_spec i j) as [<-|Hn].
  - apply nth_error_nth. apply nth_error_upd_eq. auto.
  - destruct (nth_error l j) as [x|] eqn:E.
    + rewrite (nth_error_nth l j d E). apply nth_error_nth. rewrite nth_error_upd_neq by auto. auto.
    + assert (length l <= j) by (apply nth_error_None; auto).
      rewrite !nth_overflow; auto. rewrite upd_length. auto.
Qed.

Lemma nth_get {A} (l : list A) i d : i < length l -> nth_error l i = Some (nth i l d).
Proof. intros. apply nth_error_nth'. auto. Qed.

Lemma shape_row {A} n k (rows : list (list A)) e : has_shape n k rows -> e < n ->
  exists row, nth_error rows e = Some row /\ length row = k.
Proof.
  intros (H1 & H2) He. destruct (nth_error rows e) as [row|] eqn:E.
  - exists row. split; auto. rewrite Forall_forall in H2. apply H2. eapply nth_error_In; eauto.
  - apply nth_error_None in E. lia.
Qed.

Section Adding.
Context {P : Type}.
Lemma add_bin (m : list (list (P * P))) j a b : j < length m ->
  calAddBin m j a b = Some (upd m j (nth j m [] ++ [(a, b)])).
Proof. intros Hj. unfold calAddBin, aget. rewrite (nth_get m j []) by auto. apply aset_Some. auto. Qed.
End Adding.

Section Marginal.
Context {V P : Type} (zero one : P) (f : nat -> V -> P).
Variables (indices : list nat) (n numLabels : nat) (labels : list (list bool)) (scores : list (list V)).
Hypothesis HL : has_shape n numLabels labels.
Hypothesis HS : has_shape n numLabels scores.
Hypothesis HI : Forall (fun e => e < n) indices.

Lemma marginal_dense : exists m,
  extractMarginalDense zero one f indices numLabels labels scores (calCreate numLabels) = Some m /\
  length m = numLabels /\
  forall j bins, nth_error m j = Some bins ->
    Forall2 (marginal_observation zero one f labels scores j) indices bins.
Proof.
  unfold extractMarginalDense.
  edestruct (forN_inv (fun i (m : list (list (P * P))) => length m = numLabels /\
    forall j, j < numLabels -> Forall2 (marginal_observation zero one f labels scores j) (firstn i indices) (nth j m [])))
    as (m & E & Hm1 & Hm2); [| |exists m; split; [exact E|split; [exact Hm1|]]].
  - unfold calCreate. rewrite repeat_length. split; auto. intros j Hj. rewrite nth_repeat. constructor.
  - intros i m Hi (Hl & Hm). destruct (nth_error indices i) as [e|] eqn:Ee; [|apply nth_error_None in Ee; lia].
    assert (He : e < n) by (rewrite Forall_forall in HI; apply HI; eapply nth_error_In; eauto).
    destruct (shape_row _ _ _ e HL He) as (lr & El & Hlr). destruct (shape_row _ _ _ e HS He) as (sr & Es & Hsr).
    unfold aget at 1 2 3. rewrite Ee, El, Es. cbv beta iota.
    edestruct (forN_inv (fun j (m : list (list (P * P))) => length m = numLabels /\
      (forall k, k < j -> k < numLabels ->
         Forall2 (marginal_observation zero one f labels scores k) (firstn (S i) indices) (nth k m [])) /\
      (forall k, j <= k -> k < numLabels ->
         Forall2 (marginal_observation zero one f labels scores k) (firstn i indices) (nth k m []))))
      as (m' & E' & H1 & H2 & H3); [| |exists m'; split; [exact E'|]].
    + split; [exact Hl|]. split; [intros; lia|]. intros. apply Hm. auto.
    + intros j m0 Hj (A1 & A2 & A3). unfold aget.
      destruct (nth_error lr j) as [l|] eqn:Elj; [|apply nth_error_None in Elj; lia].
      destruct (nth_error sr j) as [v|] eqn:Esj; [|apply nth_error_None in Esj; lia].
      rewrite add_bin by lia. eexists. split; [reflexivity|]. rewrite upd_length. split; [auto|].
      split; intros k Hk Hk'; rewrite nth_upd by lia; destruct (Nat.eqb_spec j k) as [<- |Hn].
      * rewrite (firstn_snoc indices i e Ee). apply Forall2_app; [apply A3; lia|]. repeat constructor.
        exists lr, sr, l, v. repeat split; auto.
      * apply A2; lia.
      * lia.
      * apply A3; lia.
    + split; [exact H1|]. intros j Hj. apply H2; lia.
  - intros j bins Ej. rewrite Nat.add_0_l, firstn_all in Hm2.
    assert (j < numLabels) by (rewrite <- Hm1; apply nth_error_Some; congruence).
    specialize (Hm2 j ltac:(auto)). rewrite (nth_error_nth m j [] Ej) in Hm2. exact Hm2.
Qed.

Lemma incr_read k : forall it i b, nth_error (bi_read k it) i = Some b -> bi_deref (Nat.iter i bi_incr it) = b.
Proof.
  induction k as [|k IH]; intros it i b E; [destruct i; discriminate|]. destruct i as [|i].
  - injection E as <-. reflexivity.
  - cbn [bi_read nth_error] in E. specialize (IH _ _ _ E). rewrite <- IH. f_equal. clear.
    induction i as [|i IHi]; cbn [Nat.iter]; auto. cbn [Nat.iter nat_rect] in *. f_equal. exact IHi.
Qed.

Context (csrIndices indptr : list nat).
Hypothesis HC : csr_represents csrIndices indptr labels.

Lemma csr_row e : e < n -> exists row seg, nth_error labels e = Some row /\ length row = numLabels /\
  csrRow csrIndices indptr e = Some seg /\ StronglySorted lt seg /\ (forall j, In j seg <-> nth_error row j = Some true).
Proof.
  intros He. destruct (shape_row _ _ _ e HL He) as (row & Er & Hr).
  destruct (HC e row Er) as (a & b & seg & E1 & E2 & H3 & -> & H4 & H5).
  exists row. eexists. split; [exact Er|]. split; [exact Hr|]. split; [|split; [exact H4|exact H5]].
  unfold csrRow, aget. rewrite E1, E2. cbv beta iota.
  destruct (Nat.leb_spec a b); [|lia]. destruct (Nat.leb_spec b (length csrIndices)); [|lia]. reflexivity.
Qed.

Lemma marginal_csr m : extractMarginalCsr zero one f indices numLabels csrIndices indptr scores m =
  extractMarginalDense zero one f indices numLabels labels scores m.
Proof.
  unfold extractMarginalCsr, extractMarginalDense. apply forN_ext. clear m. intros i m Hi.
  destruct (aget indices i) as [e|] eqn:Ee; [|reflexivity].
  assert (He : e < n) by (rewrite Forall_forall in HI; apply HI; eapply nth_error_In; eauto).
  destruct (csr_row e He) as (row & seg & Er & Hr & -> & H4 & H5).
  change (aget labels e) with (nth_error labels e). rewrite Er. destruct (aget scores e) as [sr|]; [|reflexivity].
  assert (HR : bi_read numLabels (bi_create seg 0) = row).
  { apply C16_binary; auto.
    - apply Forall_forall. intros. lia.
    - intros p Hp. rewrite Nat.add_0_l. symmetry. apply H5. }
  assert (HD : forall j l, nth_error row j = Some l -> bi_deref (Nat.iter j bi_incr (bi_create seg 0)) = l).
  { intros j l Hl. apply (incr_read numLabels). rewrite HR. exact Hl. }
  enough (forall k j m, j + k = numLabels ->
    forN k j (fun j '(m, it) => let* score := aget sr j in
      let* m := calAddBin m j (f j score) (trueProbabilityOf zero one (bi_deref it)) in Some (m, bi_incr it))
      (m, Nat.iter j bi_incr (bi_create seg 0)) =
    match forN k j (fun j m => let* label := aget row j in let* score := aget sr j in
      calAddBin m j (f j score) (trueProbabilityOf zero one label)) m with
    | Some m => Some (m, Nat.iter (j + k) bi_incr (bi_create seg 0)) | None => None end) as X.
  { specialize (X numLabels 0 m ltac:(lia)). cbn [Nat.iter nat_rect] in X. rewrite X.
    destruct (forN numLabels 0 _ m); reflexivity. }
  clear m. induction k as [|k IH]; intros j m Hk.
  - cbn [forN]. rewrite Nat.add_0_r. reflexivity.
  - cbn [forN]. destruct (nth_error row j) as [l|] eqn:El; [|apply nth_error_None in El; lia].
    rewrite (HD j l El). change (aget row j) with (nth_error row j). rewrite El.
    destruct (aget sr j) as [v|]; [|reflexivity].
    destruct (calAddBin m j (f j v) (trueProbabilityOf zero one l)) as [m'|]; [|reflexivity].
    specialize (IH (S j) m' ltac:(lia)).
    change (Nat.iter (S j) bi_incr (bi_create seg 0)) with (bi_incr (Nat.iter j bi_incr (bi_create seg 0))) in IH.
    rewrite IH.
    replace (j + S k) with (S j + k) by lia. reflexivity.
Qed.
End Marginal.

Section Joint.
Context {V P : Type} (zero one : P) (g : nat -> list nat -> V -> P).
Context (indices : list nat) (n numLabels : nat) (labels : list (list bool)) (scores : list V)
  (labelVectors : list (list nat)).
Hypothesis HL : has_shape n numLabels labels.
Hypothesis HS : length scores = n.
Hypothesis HI : Forall (fun e => e < n) indices.

Lemma equal_some l lv : exists b, areLabelVectorsEqual l lv = Some b.
Proof.
  unfold areLabelVectorsEqual. destruct (equal_loop lv [] l true) as (l' & E). cbn [app length] in E. rewrite E. eauto.
Qed.

Lemma starts_with_iff row lv b : areLabelVectorsEqual (nz_read row) lv = Some b -> (b = true <-> starts_with row lv).
Proof.
  intros E. destruct (C16_non_zero row) as (H1 & H2). split.
  - intros ->. apply equal_prefix in E as (rest & E). exists (nz_read row), rest. repeat split; auto; apply H2.
  - intros (relevant & rest & E1 & E2 & E3). assert (relevant = nz_read row) as ->.
    { apply sorted_ext; auto. intros x. rewrite E3, H2. reflexivity. }
    assert (X : areLabelVectorsEqual (nz_read row) lv = Some true) by (apply equal_prefix; eauto). congruence.
Qed.

Lemma joint_dense : exists m,
  extractJointDense zero one g indices labels scores labelVectors (calCreate (length labelVectors)) = Some m /\
  length m = length labelVectors /\
  forall i labelVector bins, nth_error labelVectors i = Some labelVector -> nth_error m i = Some bins ->
    Forall2 (joint_observation zero one g labels scores i labelVector) indices bins.
Proof.
  unfold extractJointDense.
  edestruct (forN_inv (fun i (m : list (list (P * P))) => length m = length labelVectors /\
    (forall k lv, k < i -> nth_error labelVectors k = Some lv ->
      Forall2 (joint_observation zero one g labels scores k lv) indices (nth k m [])) /\
    (forall k, i <= k -> nth k m [] = [])))
    as (m & E & Hm1 & Hm2 & _); [| |exists m; split; [exact E|split; [exact Hm1|]]].
  - unfold calCreate. rewrite repeat_length. split; auto. split; [intros; lia|]. intros k _. apply nth_repeat.
  - intros i m Hi (Hl & Hm & He0).
    unfold aget at 1. destruct (nth_error labelVectors i) as [lv|] eqn:Elv; [|apply nth_error_None in Elv; lia].
    edestruct (forN_inv (fun j (m' : list (list (P * P))) => length m' = length labelVectors /\
      (forall k, k <> i -> nth k m' [] = nth k m []) /\
      Forall2 (joint_observation zero one g labels scores i lv) (firstn j indices) (nth i m' [])))
      as (m' & E' & H1 & H2 & H3); [| |exists m'; split; [exact E'|]].
    + split; [exact Hl|]. split; [auto|]. rewrite He0 by lia. constructor.
    + intros j m0 Hj (A1 & A2 & A3). unfold aget.
      destruct (nth_error indices j) as [e|] eqn:Ee; [|apply nth_error_None in Ee; lia].
      assert (He : e < n) by (rewrite Forall_forall in HI; apply HI; eapply nth_error_In; eauto).
      destruct (shape_row _ _ _ e HL He) as (lr & El & Hlr). rewrite El.
      destruct (equal_some (nz_read lr) lv) as (b & Eb). rewrite Eb.
      destruct (nth_error scores e) as [sr|] eqn:Es; [|apply nth_error_None in Es; lia].
      rewrite add_bin by lia. eexists. split; [reflexivity|]. rewrite upd_length. split; [auto|]. split.
      * intros k Hk. rewrite nth_upd by lia. destruct (Nat.eqb_spec i k); [lia|]. auto.
      * rewrite nth_upd by lia. rewrite Nat.eqb_refl. rewrite (firstn_snoc indices j e Ee).
        apply Forall2_app; [exact A3|]. repeat constructor. exists lr, sr, b. split; [auto|]. split; [auto|].
        split; [apply starts_with_iff; exact Eb|reflexivity].
    + rewrite Nat.add_0_l, firstn_all in H3. split; [exact H1|]. split.
      * intros k lv' Hk Ek. destruct (Nat.eq_dec k i) as [-> |Hn].
        -- rewrite Elv in Ek. injection Ek as <-. exact H3.
        -- rewrite H2 by auto. apply Hm; auto. lia.
      * intros k Hk. rewrite H2 by lia. apply He0. lia.
  - intros i lv bins Elv Ej.
    assert (i < length labelVectors) by (rewrite <- Hm1; apply nth_error_Some; congruence).
    specialize (Hm2 i lv ltac:(lia) Elv). rewrite (nth_error_nth m i [] Ej) in Hm2. exact Hm2.
Qed.

Context (csrIndices indptr : list nat).
Hypothesis HC : csr_represents csrIndices indptr labels.

Lemma joint_csr m : extractJointCsr zero one g indices csrIndices indptr scores labelVectors m =
  extractJointDense zero one g indices labels scores labelVectors m.
Proof.
  unfold extractJointCsr, extractJointDense. apply forN_ext. clear m. intros i m Hi.
  destruct (aget labelVectors i) as [lv|]; [|reflexivity]. apply forN_ext. clear m. intros j m Hj.
  destruct (aget indices j) as [e|] eqn:Ee; [|reflexivity].
  assert (He : e < n) by (rewrite Forall_forall in HI; apply HI; eapply nth_error_In; eauto).
  destruct (csr_row n numLabels labels HL csrIndices indptr HC e He) as (row & seg & Er & Hr & -> & H4 & H5).
  change (aget labels e) with (nth_error labels e). rewrite Er. destruct (C16_non_zero row) as (A1 & A2).
  rewrite (sorted_ext seg (nz_read row)); auto. intros x. rewrite H5, A2. reflexivity.
Qed.
End Joint.
