(** Proofs about sparse and dense statistics and about the scores of examples. *)
From Coq Require Import Reals Lra List Bool Arith Lia Sorted Permutation NArith.
From Verif Require Import Lib.Arr Model.Containers Model.Losses Model.Sampling Model.BoostStatistics Model.SparseLosses Spec.Containers
  Spec.Losses Spec.BoostStatistics Spec.SparseLosses Proofs.Containers Proofs.Losses Proofs.BoostStatistics Proofs.SparseLosses.
Import ListNotations.
Open Scope R_scope.

(** ** C57: Sparse and dense statistics *)

Definition inside (n : nat) (c : contributions) : Prop := Forall (fun p => (fst p < n)%nat) c.

Lemma inside_app n a b : inside n a -> inside n b -> inside n (a ++ b).
Proof. intros. apply Forall_app. auto. Qed.

Lemma inside_negated n c : inside n c -> inside n (negated c).
Proof. unfold inside, negated. rewrite !Forall_forall. intros H p Hp. apply in_map_iff in Hp. destruct Hp as (q & <- & Hq). apply (H q Hq). Qed.

Lemma inside_singles n w l : Forall (fun i => (i < n)%nat) l -> inside n (map (single w) l).
Proof. unfold inside. rewrite !Forall_forall. intros H p Hp. apply in_map_iff in Hp. destruct Hp as (q & <- & Hq). apply (H q Hq). Qed.

Lemma inside_tracked n w ops : numWeights w = n -> Forall (total_op_in_range n) ops -> inside n (tracked w ops).
Proof.
  intros E F. unfold tracked.
  assert (I : inside n (map (single w) (seq 0 (numWeights w)))).
  { apply inside_singles. rewrite Forall_forall. intros i Hi. apply in_seq in Hi. lia. }
  revert I. generalize (map (single w) (seq 0 (numWeights w))). induction F as [|op ops Hop F IH]; simpl; intros c I; auto.
  apply IH. destruct op; simpl in *; [constructor| |]; apply inside_app; auto; repeat constructor; auto.
Qed.

Lemma inside_added n w ops : Forall (subset_op_in_range n) ops -> inside n (fst (added w ops)) /\ inside n (snd (added w ops)).
Proof.
  intros F. unfold added.
  assert (I : inside n (fst (([], []) : contributions * contributions)) /\ inside n (snd (([], []) : contributions * contributions)))
    by (split; constructor).
  revert I. generalize (([], []) : contributions * contributions). induction F as [|op ops Hop F IH]; simpl; intros c [I1 I2]; auto.
  apply IH. destruct op; simpl in *; split; auto; try constructor; apply inside_app; auto. repeat constructor; auto.
Qed.

Lemma inside_scored n w ops excluded sops k : numWeights w = n -> Forall (total_op_in_range n) ops ->
  Forall (fun i => (i < n)%nat) excluded -> Forall (subset_op_in_range n) sops ->
  inside n (scoredContributions w ops excluded sops k).
Proof.
  intros E F1 F2 F3. destruct (inside_added n w sops F3) as [A1 A2].
  assert (C : inside n (coverable w ops excluded)).
  { apply inside_app; [apply inside_tracked; auto|]. apply inside_negated, inside_singles. auto. }
  destruct k; simpl; auto; apply inside_app; auto; apply inside_negated; auto.
Qed.

Lemma sumOf_ext_inside n c x y : inside n c -> (forall e, (e < n)%nat -> x e = y e) -> sumOf c x = sumOf c y.
Proof.
  intros I H. induction I as [|p c Hp I IH]; simpl; auto. rewrite H, IH; auto.
Qed.

Lemma sumOf_close n c x y d : inside n c -> 0 <= d -> (forall e, (e < n)%nat -> Rabs (x e - y e) <= d) ->
  Rabs (sumOf c x - sumOf c y) <= magnitude c * d.
Proof.
  intros I D H. induction I as [|p c Hp I IH]; simpl.
  - rewrite Rminus_0_r, Rabs_R0. lra.
  - replace (snd p * x (fst p) + sumOf c x - (snd p * y (fst p) + sumOf c y))
      with (snd p * (x (fst p) - y (fst p)) + (sumOf c x - sumOf c y)) by ring.
    eapply Rle_trans; [apply Rabs_triang|]. rewrite Rabs_mult. specialize (H _ Hp). pose proof (Rabs_pos (snd p)). nra.
Qed.

Lemma nth_error_some_nth {A} (l : list A) i : (i < length l)%nat -> exists x, nth_error l i = Some x.
Proof. intros H. destruct (nth_error l i) eqn:E; eauto. apply nth_error_None in E. lia. Qed.

Lemma outputs_bound n o i l : valid_outputs n o -> nth_error (outputsOf o) i = Some l -> (l < n)%nat.
Proof. intros VO E. destruct (outputs_nth o i l E) as [B <-]. apply outputsOf_lt; auto. Qed.

Lemma same_statistics :
  forall sparseRows denseRows weights numCols, Forall (valid_row numCols) sparseRows ->
    Forall (fun row => length row = numCols) denseRows -> length denseRows = length sparseRows ->
    (forall e l, (e < length sparseRows)%nat -> (l < numCols)%nat ->
      sparseStatistic (nth e sparseRows (ss_empty _ 0)) l = nth l (nth e denseRows []) (0, 0)) ->
    numWeights weights = length sparseRows ->
    (forall l, weights = IndividualWeights l -> Forall (fun w => isEqualToZero w = true -> w = 0) l) ->
    forall ops excluded o sops, Forall (total_op_in_range (length sparseRows)) ops ->
      Forall (fun i => (i < length sparseRows)%nat) excluded -> valid_outputs numCols o ->
      Forall (subset_op_in_range (length sparseRows)) sops ->
      forall k, (accumulates k -> In ResetSubset sops) ->
        exists v v',
          (let* total := newWeighted sparseClass sparseRows weights numCols in
           let* total := forL ops (totalStep sparseClass sparseRows weights) total in
           let* s := newSubset sparseClass sparseRows weights total excluded o in
           let* s := forL sops (subsetStep sparseClass sparseRows weights o) s in
           scoredVector sparseClass o s k) = Some v /\
          (let* total := newWeighted denseClass denseRows weights numCols in
           let* total := forL ops (totalStep denseClass denseRows weights) total in
           let* s := newSubset denseClass denseRows weights total excluded o in
           let* s := forL sops (subsetStep denseClass denseRows weights o) s in
           scoredVector denseClass o s k) = Some v' /\
          length v' = numOutputs o /\ forall i, (i < numOutputs o)%nat -> sparseElement v i = nth_error v' i.
Proof.
  intros rs rd w n VS VD LR EQ LW RW ops excluded o sops F1 F2 VO F3 k AK.
  destruct (sparse_aggregation rs w n VS LW RW ops excluded o sops F1 F2 VO F3) as (t0 & t & s0 & s & E1 & E2 & E3 & E4 & H).
  destruct (H k AK) as (v & E5 & L & X). clear H.
  rewrite <- LR in *.
  destruct (dense_aggregation rd w n VD LW ops excluded o sops F1 F2 VO F3) as (t0' & t' & s0' & s' & E1' & E2' & E3' & E4' & H).
  destruct (H k AK) as (v' & E5' & L' & X'). clear H.
  exists v, v'. rewrite E1, E1'. cbv beta iota. rewrite E2, E2'. cbv beta iota. rewrite E3, E3'. cbv beta iota. rewrite E4, E4'. cbv beta iota.
  split; [auto|split; [auto|split]].
  - rewrite L'. apply outputsOf_length.
  - intros i Hi. destruct (nth_error_some_nth (outputsOf o) i) as [l El]; [rewrite outputsOf_length; auto|].
    rewrite (X i l El), (X' i l El). pose proof (outputs_bound n o i l VO El) as Hl.
    pose proof (inside_scored (length rd) w ops excluded sops k LW F1 F2 F3) as I. do 2 f_equal.
    + apply (sumOf_ext_inside (length rd)); auto. intros e He. unfold sparseGradient, denseGradient. rewrite (EQ e l); auto.
    + apply (sumOf_ext_inside (length rd)); auto. intros e He. unfold sparseHessian, denseHessian. rewrite (EQ e l); auto.
Qed.

Lemma nth_combine (a b : list R) i : length a = length b -> nth i (combine a b) (0, 0) = (nth i a 0, nth i b 0).
Proof. intros. apply combine_nth. auto. Qed.

Lemma hinge_example n labels scores rs rd : valid_labels n labels -> valid_row n scores -> sortedRow scores ->
  hingeStatistics n labels scores rs rd ->
  valid_row n rs /\ length rd = n /\ forall l, (l < n)%nat ->
    let x := updateSquaredHinge (isMember labels l) (scoreAt scores l) in
    nth l rd (0, 0) = x /\ sparseStatistic rs l = (if isEqualToZero (fst x) then 0 else fst x, 1).
Proof.
  intros VL VS SS [(row & VR & E) (g & h & g' & h' & Lg & Lh & E' & ->)].
  destruct (sparse_complete_update n labels scores row updateSquaredHinge VL VS SS VR) as (rs' & E2 & V2 & S2).
  { simpl. destruct (Rgt_dec 0 0); [lra|]. apply zero_zero. }
  rewrite E in E2. injection E2 as <-.
  destruct (updateComplete_spec false updateSquaredHinge (denseScores n scores) (denseLabels n labels) n g h n) as
    (g2 & h2 & E3 & G1 & G2 & I & _); auto using denseScores_length, denseLabels_length.
  rewrite E' in E3. injection E3 as <- <-.
  split; [auto|split]. { rewrite combine_length. lia. }
  intros l Hl x. split.
  - rewrite nth_combine by lia. rewrite (I l Hl). rewrite denseLabels_nth, denseScores_nth by auto. auto.
  - unfold sparseStatistic. rewrite S2 by auto. fold x. unfold kept. destruct (isEqualToZero (fst x)); auto.
Qed.

Lemma hinge_statistics :
  forall n examples weights,
    Forall (fun '(labels, scores, sparse, dense) => valid_labels n labels /\ valid_row n scores /\ sortedRow scores /\
      hingeStatistics n labels scores sparse dense) examples ->
    numWeights weights = length examples ->
    (forall l, weights = IndividualWeights l -> Forall (fun w => isEqualToZero w = true -> w = 0) l) ->
    forall ops excluded o sops, Forall (total_op_in_range (length examples)) ops ->
      Forall (fun i => (i < length examples)%nat) excluded -> valid_outputs n o ->
      Forall (subset_op_in_range (length examples)) sops ->
      forall k, (accumulates k -> In ResetSubset sops) ->
        let sparseRows := map (fun '(_, _, sparse, _) => sparse) examples in
        let denseRows := map (fun '(_, _, _, dense) => dense) examples in
        exists v v',
          (let* total := newWeighted sparseClass sparseRows weights n in
           let* total := forL ops (totalStep sparseClass sparseRows weights) total in
           let* s := newSubset sparseClass sparseRows weights total excluded o in
           let* s := forL sops (subsetStep sparseClass sparseRows weights o) s in
           scoredVector sparseClass o s k) = Some v /\
          (let* total := newWeighted denseClass denseRows weights n in
           let* total := forL ops (totalStep denseClass denseRows weights) total in
           let* s := newSubset denseClass denseRows weights total excluded o in
           let* s := forL sops (subsetStep denseClass denseRows weights o) s in
           scoredVector denseClass o s k) = Some v' /\
          forall i, (i < numOutputs o)%nat -> exists gradient hessian gradient' hessian',
            sparseElement v i = Some (gradient, hessian) /\ nth_error v' i = Some (gradient', hessian') /\
            hessian = hessian' /\
            Rabs (gradient - gradient') <= magnitude (scoredContributions weights ops excluded sops k) * / 2 ^ 52.
Proof.
  intros n ex w FE LW RW ops excluded o sops F1 F2 VO F3 k AK rs rd.
  assert (Ls : length rs = length ex) by apply map_length.
  assert (Ld : length rd = length ex) by apply map_length.
  set (d := (([], ss_empty R 0, ss_empty (R * R) 0, []) : list nat * sset R * sset (R * R) * list (R * R))).
  assert (EX : forall e, (e < length ex)%nat -> valid_row n (nth e rs (ss_empty _ 0)) /\ length (nth e rd []) = n /\
    forall l, (l < n)%nat -> exists g, nth l (nth e rd []) (0, 0) = (g, 1) /\
      sparseStatistic (nth e rs (ss_empty _ 0)) l = (if isEqualToZero g then 0 else g, 1)).
  { intros e He. rewrite Forall_forall in FE. specialize (FE (nth e ex d) (nth_In _ _ He)).
    assert (Es : nth e rs (ss_empty _ 0) = (fun '(_, _, sparse, _) => sparse) (nth e ex d)) by (exact (map_nth _ ex d e)).
    assert (Ed : nth e rd [] = (fun '(_, _, _, dense) => dense) (nth e ex d)) by (exact (map_nth (fun '(_, _, _, dense) => dense) ex d e)).
    rewrite Es, Ed. destruct (nth e ex d) as [[[labels scores] r1] r2]. destruct FE as (VL & VS & SS & HS).
    destruct (hinge_example n labels scores r1 r2 VL VS SS HS) as (A & B & C). split; [auto|split; [auto|]].
    intros l Hl. destruct (C l Hl) as [C1 C2]. exists (fst (updateSquaredHinge (isMember labels l) (scoreAt scores l))).
    split; auto. }
  assert (VS : Forall (valid_row n) rs).
  { rewrite Forall_forall. intros r Hr. destruct (In_nth _ _ (ss_empty _ 0) Hr) as (e & He & <-). apply EX. lia. }
  assert (VD : Forall (fun r => length r = n) rd).
  { rewrite Forall_forall. intros r Hr. destruct (In_nth _ _ [] Hr) as (e & He & <-). apply EX. lia. }
  rewrite <- Ls in F1, F2, F3, LW.
  destruct (sparse_aggregation rs w n VS LW RW ops excluded o sops F1 F2 VO F3) as (t0 & t & s0 & s & E1 & E2 & E3 & E4 & H).
  destruct (H k AK) as (v & E5 & L & X). clear H.
  rewrite Ls, <- Ld in F1, F2, F3, LW.
  destruct (dense_aggregation rd w n VD LW ops excluded o sops F1 F2 VO F3) as (t0' & t' & s0' & s' & E1' & E2' & E3' & E4' & H).
  destruct (H k AK) as (v' & E5' & L' & X'). clear H.
  exists v, v'. rewrite E1, E1'. cbv beta iota. rewrite E2, E2'. cbv beta iota. rewrite E3, E3'. cbv beta iota. rewrite E4, E4'. cbv beta iota.
  split; [auto|split; [auto|]].
  intros i Hi. destruct (nth_error_some_nth (outputsOf o) i) as [l El]; [rewrite outputsOf_length; auto|].
  pose proof (outputs_bound n o i l VO El) as Hl.
  pose proof (inside_scored (length rd) w ops excluded sops k LW F1 F2 F3) as I.
  eexists _, _, _, _. split; [exact (X i l El)|split; [exact (X' i l El)|split]].
  - apply (sumOf_ext_inside (length rd)); auto. intros e He. unfold sparseHessian, denseHessian.
    destruct (EX e ltac:(lia)) as (_ & _ & Q). destruct (Q l Hl) as (g & -> & ->). auto.
  - assert (P : 0 < / 2 ^ 52) by (apply Rinv_0_lt_compat; lra).
    apply (sumOf_close (length rd)); auto; [lra|]. intros e He. unfold sparseGradient, denseGradient.
    destruct (EX e ltac:(lia)) as (_ & _ & Q). destruct (Q l Hl) as (g & -> & ->). cbn [fst].
    destruct (isEqualToZero g) eqn:D.
    + apply zero_small in D. rewrite Rminus_0_l, Rabs_Ropp. auto.
    + rewrite Rminus_diag_eq, Rabs_R0 by auto. lra.
Qed.

Lemma hinge_statistics_refuted :
  exists n labels scores sparse dense, valid_labels n labels /\ valid_row n scores /\ sortedRow scores /\
    hingeStatistics n labels scores sparse dense /\
    exists l, (l < n)%nat /\ fst (sparseStatistic sparse l) <> fst (nth l dense (0, 0)).
Proof.
  set (x := / 2 ^ 53). assert (P : 0 < x) by (apply Rinv_0_lt_compat; lra).
  assert (Q : x <= / 2 ^ 52). { unfold x. apply Rinv_le_contravar; lra. }
  set (sc := mkSset [(0%nat, x)] [Some 0%nat]).
  assert (VL : valid_labels 1 []) by (split; constructor).
  assert (VS : valid_row 1 sc). { exists [SsEmplace 0 x]. split; [repeat constructor|reflexivity]. }
  assert (SS : sortedRow sc) by (repeat constructor).
  assert (VE : valid_row 1 (ss_empty (R * R) 1)) by (exists []; split; [constructor|reflexivity]).
  destruct (sparse_complete_update 1 [] sc (ss_empty _ 1) updateSquaredHinge VL VS SS VE) as (rs & E & V2 & S2).
  { simpl. destruct (Rgt_dec 0 0); [lra|]. apply zero_zero. }
  destruct (updateComplete_spec false updateSquaredHinge (denseScores 1 sc) (denseLabels 1 []) 1 [0] [0] 1) as
    (g2 & h2 & E3 & G1 & G2 & I & _); auto.
  exists 1%nat, [], sc, rs, (combine g2 h2).
  assert (HS : hingeStatistics 1 [] sc rs (combine g2 h2)).
  { split; [exists (ss_empty _ 1); auto|]. exists [0], [0], g2, h2. auto. }
  split; [auto|split; [auto|split; [auto|split; [auto|]]]]. exists 0%nat. split; [lia|].
  destruct (hinge_example 1 [] sc rs (combine g2 h2) VL VS SS HS) as (_ & _ & C). destruct (C 0%nat ltac:(lia)) as [-> ->].
  assert (V : updateSquaredHinge (isMember [] 0) (scoreAt sc 0) = (x, 1)).
  { unfold updateSquaredHinge. change (isMember [] 0) with false. change (scoreAt sc 0) with x. cbv iota.
    destruct (Rgt_dec x 0); [auto|lra]. }
  rewrite V. cbn [fst]. rewrite small_zero; [lra|]. rewrite Rabs_right by lra. auto.
Qed.

Lemma tiny_weights_refuted :
  exists rows weights numCols v, Forall (valid_row numCols) rows /\ length weights = length rows /\ Forall (fun w => 0 < w) weights /\
    newWeighted sparseClass rows (IndividualWeights weights) numCols = Some v /\
    exists l x, (l < numCols)%nat /\ sparseElement v l = Some x /\
      snd x <> sumOf (map (single (IndividualWeights weights)) (seq 0 (length rows))) (sparseHessian rows l).
Proof.
  set (x := / 2 ^ 53). assert (P : 0 < x) by (apply Rinv_0_lt_compat; lra).
  assert (Q : x <= / 2 ^ 52). { unfold x. apply Rinv_le_contravar; lra. }
  exists [ss_empty (R * R) 1], [x], 1%nat, (sparseNew 1).
  split; [repeat constructor; exists []; split; [constructor|reflexivity]|].
  split; [auto|split; [repeat constructor; auto|split]].
  - cbn -[isEqualToZero]. unfold sparseAdd, skipped. rewrite small_zero; auto. rewrite Rabs_right by lra. auto.
  - exists 0%nat. eexists. split; [lia|split; [reflexivity|]]. cbn [snd]. clearbody x. unfold sumOf, sparseHessian, sparseStatistic, stored. cbn. lra.
Qed.

(** ** C58: Applying and reverting rules *)

Lemma effect_inverse e l c : effect e l (inverse c) = - effect e l c.
Proof. unfold effect. destruct c; simpl; destruct (_ =? _); lra. Qed.

Lemma effects_app e l a b : effects e l (a ++ b) = effects e l a + effects e l b.
Proof. unfold effects. induction a; simpl; [lra|]. rewrite IHa. lra. Qed.

Lemma effects_perm e l a b : Permutation a b -> effects e l a = effects e l b.
Proof. unfold effects. induction 1; simpl; lra. Qed.

Lemma effects_inverse e l cs : effects e l (map inverse cs) = - effects e l cs.
Proof. unfold effects. induction cs; simpl; [lra|]. rewrite IHcs, effect_inverse. lra. Qed.

Lemma valid_inverse N n c : valid_change N n c -> valid_change N n (inverse c).
Proof. destruct c; auto. Qed.

Lemma valid_inverses N n cs cs' : Permutation (map inverse cs) cs' -> Forall (valid_change N n) cs -> Forall (valid_change N n) cs'.
Proof.
  intros P F. rewrite Forall_forall in *. intros c Hc. apply (Permutation_in _ (Permutation_sym P)) in Hc.
  apply in_map_iff in Hc. destruct Hc as (c' & <- & Hc). apply valid_inverse. auto.
Qed.

Lemma dense_scores :
  forall n rows cs, Forall (fun row => length row = n) rows -> Forall (valid_change (length rows) n) cs ->
    exists rows', forL cs denseChange rows = Some rows' /\ length rows' = length rows /\
      Forall (fun row => length row = n) rows' /\
      forall e l, (e < length rows)%nat -> (l < n)%nat ->
        nth l (nth e rows' []) 0 = nth l (nth e rows []) 0 + effects e l cs.
Proof.
  intros n rows cs F V. destruct (denseChanges_spec n cs (fun e l => nth l (nth e rows []) 0) rows) as (rows' & E & L & [A B]); auto.
  { split; auto. }
  exists rows'. split; [auto|split; [auto|split; [auto|]]]. intros e l He Hl. apply B; lia.
Qed.

Lemma rows_equal n (a b : list (list R)) : Forall (fun row => length row = n) a -> Forall (fun row => length row = n) b ->
  length a = length b -> (forall e l, (e < length a)%nat -> (l < n)%nat -> nth l (nth e a []) 0 = nth l (nth e b []) 0) -> a = b.
Proof.
  intros FA FB L H. apply (nth_ext _ _ [] []); auto. intros e He. rewrite Forall_forall in *.
  assert (La : length (nth e a []) = n) by (apply FA, nth_In; auto).
  assert (Lb : length (nth e b []) = n) by (apply FB, nth_In; lia).
  apply (nth_ext _ _ 0 0); [lia|]. intros l Hl. apply H; lia.
Qed.

Lemma dense_scores_restored :
  forall n rows cs cs', Forall (fun row => length row = n) rows -> Forall (valid_change (length rows) n) cs ->
    Permutation (map inverse cs) cs' ->
    exists rows', forL cs denseChange rows = Some rows' /\ forL cs' denseChange rows' = Some rows.
Proof.
  intros n rows cs cs' F V P. destruct (dense_scores n rows cs F V) as (r1 & E1 & L1 & F1 & H1).
  destruct (dense_scores n r1 cs' F1) as (r2 & E2 & L2 & F2 & H2). { rewrite L1. eapply valid_inverses; eauto. }
  exists r1. split; auto. rewrite E2. f_equal. apply (rows_equal n); auto; [lia|]. intros e l He Hl.
  rewrite H2, H1 by lia. rewrite <- (effects_perm e l _ _ P), effects_inverse. lra.
Qed.

Lemma valid_srows n rows : Forall (valid_row n) rows ->
  srows_hold n (fun e l => scoreAt (nth e rows (ss_empty R 0)) l) rows.
Proof.
  intros F e He. rewrite Forall_forall in F. destruct (valid_inv n _ (F _ (nth_In rows (ss_empty R 0) He))) as [m I].
  exists m. split; auto. intros l Hl. unfold scoreOf, scoreAt. rewrite (inv_stored _ _ _ I) by auto. auto.
Qed.

Lemma sparse_scores :
  forall n rows cs, Forall (valid_row n) rows -> Forall (valid_change (length rows) n) cs ->
    exists rows', forL cs sparseChange rows = Some rows' /\ length rows' = length rows /\
      forall e l, (e < length rows)%nat -> (l < n)%nat -> exists x,
        sparseScore (nth e rows (ss_empty R 0)) l = Some x /\ sparseScore (nth e rows' (ss_empty R 0)) l = Some (x + effects e l cs).
Proof.
  intros n rows cs F V. destruct (sparseChanges_spec n cs _ rows (valid_srows n rows F) V) as (rows' & E & L & H).
  exists rows'. split; [auto|split; [auto|]]. intros e l He Hl. exists (scoreAt (nth e rows (ss_empty R 0)) l). split.
  - apply (sparseScore_at n); auto. rewrite Forall_forall in F. apply F, nth_In. auto.
  - destruct (H e ltac:(lia)) as (m & I & Q). rewrite (sparseScore_get n m) by auto. rewrite Q; auto.
Qed.

Lemma sparse_scores_restored :
  forall n rows cs cs', Forall (valid_row n) rows -> Forall (valid_change (length rows) n) cs ->
    Permutation (map inverse cs) cs' ->
    exists rows' rows'', forL cs sparseChange rows = Some rows' /\ forL cs' sparseChange rows' = Some rows'' /\
      forall e l, (e < length rows)%nat -> (l < n)%nat ->
        sparseScore (nth e rows'' (ss_empty R 0)) l = sparseScore (nth e rows (ss_empty R 0)) l.
Proof.
  intros n rows cs cs' F V P. destruct (sparseChanges_spec n cs _ rows (valid_srows n rows F) V) as (r1 & E1 & L1 & H1).
  destruct (sparseChanges_spec n cs' _ r1 H1) as (r2 & E2 & L2 & H2). { rewrite L1. eapply valid_inverses; eauto. }
  exists r1, r2. split; [auto|split; [auto|]]. intros e l He Hl. destruct (H2 e ltac:(lia)) as (m & I & Q).
  rewrite (sparseScore_get n m) by auto. rewrite Q by auto.
  rewrite (sparseScore_at n); auto; [|rewrite Forall_forall in F; apply F, nth_In; auto].
  rewrite <- (effects_perm e l _ _ P), effects_inverse. f_equal. lra.
Qed.

Lemma unpredicted_zero p l : ~ predicts p l -> predictedScore p l = 0.
Proof.
  destruct p as [v|i v]; simpl; intros H; [tauto|].
  assert (E : filter (fun q => fst q =? l) (combine i v) = []); [|rewrite E; auto].
  destruct (filter _ (combine i v)) as [|[a x] r] eqn:F; auto. exfalso. apply H.
  assert (Q : In (a, x) (filter (fun q => fst q =? l) (combine i v))) by (rewrite F; left; auto).
  apply filter_In in Q. destruct Q as [Q1 Q2]. apply Nat.eqb_eq in Q2. cbn [fst] in Q2. subst a.
  eapply in_combine_l. eauto.
Qed.

Lemma unaffected_scores :
  forall e l cs, (forall c, In c cs -> exampleOf c = e -> ~ predicts (predictionOf c) l) -> effects e l cs = 0.
Proof.
  intros e l cs H. unfold effects. induction cs as [|c cs IH]; simpl; auto. rewrite IH by (intros; apply H; simpl; auto).
  unfold effect. destruct (Nat.eqb_spec (exampleOf c) e); [|lra]. specialize (H c (or_introl eq_refl) e0).
  destruct c; simpl in *; rewrite (unpredicted_zero _ _ H); lra.
Qed.

Lemma sparse_dense_scores :
  forall n numRows cs, Forall (valid_change numRows n) cs ->
    exists dense sparse, forL cs denseChange (repeat (repeat 0 n) numRows) = Some dense /\
      forL cs sparseChange (repeat (ss_empty R n) numRows) = Some sparse /\
      forall e l, (e < numRows)%nat -> (l < n)%nat ->
        sparseScore (nth e sparse (ss_empty R 0)) l = Some (nth l (nth e dense []) 0).
Proof.
  intros n N cs V.
  destruct (dense_scores n (repeat (repeat 0 n) N) cs) as (rd & E1 & L1 & F1 & H1).
  { rewrite Forall_forall. intros r Hr. apply repeat_spec in Hr. subst. apply repeat_length. }
  { rewrite repeat_length. auto. }
  destruct (sparse_scores n (repeat (ss_empty R n) N) cs) as (rs & E2 & L2 & H2).
  { rewrite Forall_forall. intros r Hr. apply repeat_spec in Hr. subst. exists []. split; [constructor|reflexivity]. }
  { rewrite repeat_length. auto. }
  exists rd, rs. split; [auto|split; [auto|]]. rewrite repeat_length in *. intros e l He Hl.
  destruct (H2 e l He Hl) as (x & X1 & X2). rewrite X2. f_equal. rewrite H1 by auto. f_equal.
  assert (Rd : nth e (repeat (repeat 0 n) N) [] = repeat 0 n).
  { rewrite nth_indep with (d' := repeat 0 n) by (rewrite repeat_length; auto). apply nth_repeat_same. }
  assert (Rs : nth e (repeat (ss_empty R n) N) (ss_empty R 0) = ss_empty R n).
  { rewrite nth_indep with (d' := ss_empty R n) by (rewrite repeat_length; auto). apply nth_repeat_same. }
  rewrite Rd, nth_repeat_same. rewrite Rs in X1.
  rewrite (sparseScore_at n) in X1; [|exists []; split; [constructor|reflexivity]|auto]. injection X1 as <-. reflexivity.
Qed.

(** ** C59: Covered and uncovered examples *)

Lemma dense_covered_uncovered :
  forall rows weights numCols, Forall (fun row => length row = numCols) rows -> numWeights weights = length rows ->
    forall ops excluded o sops, Forall (total_op_in_range (length rows)) ops ->
      Forall (fun i => (i < length rows)%nat) excluded -> valid_outputs numCols o ->
      Forall (subset_op_in_range (length rows)) sops ->
      exists s, (let* total := newWeighted denseClass rows weights numCols in
                 let* total := forL ops (totalStep denseClass rows weights) total in
                 let* s := newSubset denseClass rows weights total excluded o in
                 forL sops (subsetStep denseClass rows weights o) s) = Some s /\
        forall k k', k = Covered /\ k' = Uncovered \/ k = CoveredAccumulated /\ k' = UncoveredAccumulated /\ In ResetSubset sops ->
          exists covered uncovered, scoredVector denseClass o s k = Some covered /\ scoredVector denseClass o s k' = Some uncovered /\
            forall i l, nth_error (outputsOf o) i = Some l -> exists x y, nth_error covered i = Some x /\ nth_error uncovered i = Some y /\
              fst x + fst y = sumOf (coverable weights ops excluded) (denseGradient rows l) /\
              snd x + snd y = sumOf (coverable weights ops excluded) (denseHessian rows l).
Proof.
  intros rows w n VD LW ops excluded o sops F1 F2 VO F3.
  destruct (dense_aggregation rows w n VD LW ops excluded o sops F1 F2 VO F3) as (t0 & t & s0 & s & E1 & E2 & E3 & E4 & H).
  exists s. split; [rewrite E1; cbv beta iota; rewrite E2; cbv beta iota; rewrite E3; auto|].
  intros k k' HK.
  destruct (H k) as (v & E & L & X). { destruct HK as [[-> ->]|(-> & -> & HK)]; simpl; tauto. }
  destruct (H k') as (v' & E' & L' & X'). { destruct HK as [[-> ->]|(-> & -> & HK)]; simpl; tauto. }
  exists v, v'. split; [auto|split; [auto|]]. intros i l El. eexists _, _. split; [exact (X i l El)|split; [exact (X' i l El)|]].
  cbn [fst snd]. destruct (covered_uncovered w ops excluded sops (denseGradient rows l)).
  destruct (covered_uncovered w ops excluded sops (denseHessian rows l)). destruct HK as [[-> ->]|(-> & -> & HK)]; auto.
Qed.

(** *** Weights that are considered to be zero *)

Definition clean (w : option R) : option R := match w with None => None | Some x => Some (if isEqualToZero x then 0 else x) end.

Lemma skipped_clean w : skipped (clean w) = skipped w.
Proof. destruct w as [x|]; simpl; auto. destruct (isEqualToZero x) eqn:E; auto. apply zero_zero. Qed.

Lemma kept_clean w : skipped w = false -> clean w = w.
Proof. destruct w as [x|]; simpl; auto. intros ->. auto. Qed.

Lemma sparseAdd_clean row w v : sparseAdd row (clean w) v = sparseAdd row w v.
Proof. unfold sparseAdd. rewrite skipped_clean. destruct (skipped w) eqn:E; auto. rewrite kept_clean; auto. Qed.

Lemma sparseRemove_clean row w v : sparseRemove row (clean w) v = sparseRemove row w v.
Proof. unfold sparseRemove. rewrite skipped_clean. destruct (skipped w) eqn:E; auto. rewrite kept_clean; auto. Qed.

Lemma sparseAddToSubset_clean row o w v : sparseAddToSubset row o (clean w) v = sparseAddToSubset row o w v.
Proof.
  unfold sparseAddToSubset. destruct o; [apply sparseAdd_clean|].
  rewrite skipped_clean. destruct (skipped w) eqn:E; auto. rewrite kept_clean; auto.
Qed.

Lemma weightAt_effective w i : weightAt (effective w) i = let* x := weightAt w i in Some (clean x).
Proof. destruct w as [n|l]; simpl; auto. unfold aget. rewrite nth_error_map. destruct (nth_error l i); auto. Qed.

Lemma numWeights_effective w : numWeights (effective w) = numWeights w.
Proof. destruct w; simpl; auto. apply map_length. Qed.

Lemma addStatistic_effective rows w v i :
  addStatistic sparseClass rows (effective w) v i = addStatistic sparseClass rows w v i.
Proof.
  unfold addStatistic. rewrite weightAt_effective. destruct (weightAt w i); auto. destruct (aget rows i); auto. apply sparseAdd_clean.
Qed.

Lemma removeStatistic_effective rows w v i :
  removeStatistic sparseClass rows (effective w) v i = removeStatistic sparseClass rows w v i.
Proof.
  unfold removeStatistic. rewrite weightAt_effective. destruct (weightAt w i); auto. destruct (aget rows i); auto. apply sparseRemove_clean.
Qed.

Lemma newWeighted_effective rows w n : newWeighted sparseClass rows (effective w) n = newWeighted sparseClass rows w n.
Proof. unfold newWeighted. rewrite numWeights_effective. apply forN_ext. intros. apply addStatistic_effective. Qed.

Lemma totalStep_effective rows w op t : totalStep sparseClass rows (effective w) op t = totalStep sparseClass rows w op t.
Proof. destruct op; simpl; auto using addStatistic_effective, removeStatistic_effective. Qed.

Lemma newSubset_effective rows w t excluded o :
  newSubset sparseClass rows (effective w) t excluded o = newSubset sparseClass rows w t excluded o.
Proof.
  unfold newSubset. erewrite forL_ext; [reflexivity|]. intros. cbv beta. apply removeStatistic_effective.
Qed.

Lemma subsetStep_effective rows w o op s : subsetStep sparseClass rows (effective w) o op s = subsetStep sparseClass rows w o op s.
Proof.
  destruct op; [|reflexivity]. unfold subsetStep. rewrite weightAt_effective. destruct (weightAt w i); auto.
  destruct (aget rows i); auto. unfold sparseClass, vectorAddToSubset. rewrite sparseAddToSubset_clean. auto.
Qed.

Lemma effective_clean w l : effective w = IndividualWeights l -> Forall (fun x => isEqualToZero x = true -> x = 0) l.
Proof.
  destruct w as [n|l']; simpl; [discriminate|]. intros [= <-]. apply Forall_forall. intros x Hx.
  apply in_map_iff in Hx. destruct Hx as (y & <- & _). destruct (isEqualToZero y) eqn:E; auto. congruence.
Qed.

Lemma sparse_aggregation_effective :
  forall rows weights numCols, Forall (valid_row numCols) rows -> numWeights weights = length rows ->
    forall ops excluded o sops, Forall (total_op_in_range (length rows)) ops ->
      Forall (fun i => (i < length rows)%nat) excluded -> valid_outputs numCols o ->
      Forall (subset_op_in_range (length rows)) sops ->
      exists total0 total s0 s, newWeighted sparseClass rows weights numCols = Some total0 /\
        forL ops (totalStep sparseClass rows weights) total0 = Some total /\
        newSubset sparseClass rows weights total excluded o = Some s0 /\
        forL sops (subsetStep sparseClass rows weights o) s0 = Some s /\
        forall k, (accumulates k -> In ResetSubset sops) ->
          exists v, scoredVector sparseClass o s k = Some v /\
            exact_sparse rows (outputsOf o) (scoredContributions (effective weights) ops excluded sops k) v.
Proof.
  intros rows w n VD LW ops excluded o sops F1 F2 VO F3. rewrite <- numWeights_effective in LW.
  destruct (sparse_aggregation rows (effective w) n VD LW (effective_clean w) ops excluded o sops F1 F2 VO F3)
    as (t0 & t & s0 & s & E1 & E2 & E3 & E4 & H).
  exists t0, t, s0, s. rewrite <- newWeighted_effective, <- newSubset_effective. split; [auto|split; [|split; [auto|split; [|auto]]]].
  - rewrite <- E2. symmetry. apply forL_ext. intros. apply totalStep_effective.
  - rewrite <- E4. symmetry. apply forL_ext. intros. apply subsetStep_effective.
Qed.

Lemma sparse_covered_uncovered :
  forall rows weights numCols, Forall (valid_row numCols) rows -> numWeights weights = length rows ->
    forall ops excluded o sops, Forall (total_op_in_range (length rows)) ops ->
      Forall (fun i => (i < length rows)%nat) excluded -> valid_outputs numCols o ->
      Forall (subset_op_in_range (length rows)) sops ->
      exists s, (let* total := newWeighted sparseClass rows weights numCols in
                 let* total := forL ops (totalStep sparseClass rows weights) total in
                 let* s := newSubset sparseClass rows weights total excluded o in
                 forL sops (subsetStep sparseClass rows weights o) s) = Some s /\
        forall k k', k = Covered /\ k' = Uncovered \/ k = CoveredAccumulated /\ k' = UncoveredAccumulated /\ In ResetSubset sops ->
          exists covered uncovered, scoredVector sparseClass o s k = Some covered /\ scoredVector sparseClass o s k' = Some uncovered /\
            forall i l, nth_error (outputsOf o) i = Some l -> exists x y,
              sparseElement covered i = Some x /\ sparseElement uncovered i = Some y /\
              fst x + fst y = sumOf (coverable (effective weights) ops excluded) (sparseGradient rows l) /\
              snd x + snd y = sumOf (coverable (effective weights) ops excluded) (sparseHessian rows l).
Proof.
  intros rows w n VD LW ops excluded o sops F1 F2 VO F3.
  destruct (sparse_aggregation_effective rows w n VD LW ops excluded o sops F1 F2 VO F3) as (t0 & t & s0 & s & E1 & E2 & E3 & E4 & H).
  exists s. split; [rewrite E1; cbv beta iota; rewrite E2; cbv beta iota; rewrite E3; auto|].
  intros k k' HK.
  destruct (H k) as (v & E & L & X). { destruct HK as [[-> ->]|(-> & -> & HK)]; simpl; tauto. }
  destruct (H k') as (v' & E' & L' & X'). { destruct HK as [[-> ->]|(-> & -> & HK)]; simpl; tauto. }
  exists v, v'. split; [auto|split; [auto|]]. intros i l El. eexists _, _. split; [exact (X i l El)|split; [exact (X' i l El)|]].
  cbn [fst snd]. destruct (covered_uncovered (effective w) ops excluded sops (sparseGradient rows l)).
  destruct (covered_uncovered (effective w) ops excluded sops (sparseHessian rows l)). destruct HK as [[-> ->]|(-> & -> & HK)]; auto.
Qed.

Lemma nd_covered_uncovered :
  forall rows weights numCols,
    Forall (fun row => length (fst row) = numCols /\ length (snd row) = (numCols * (numCols + 1) / 2)%nat) rows ->
    numWeights weights = length rows ->
    forall ops excluded o, Forall (total_op_in_range (length rows)) ops ->
      Forall (fun i => (i < length rows)%nat) excluded -> valid_outputs numCols o ->
      exists total : nat -> nat -> R, (StronglySorted le (outputsOf o) -> forall l m, (m <= l)%nat ->
          total l m = sumOf (coverable weights ops excluded) (ndHessian rows l m)) /\
        forall sops, Forall (subset_op_in_range (length rows)) sops ->
        exists s, (let* total := newWeighted ndClass rows weights numCols in
                   let* total := forL ops (totalStep ndClass rows weights) total in
                   let* s := newSubset ndClass rows weights total excluded o in
                   forL sops (subsetStep ndClass rows weights o) s) = Some s /\
          forall k k', k = Covered /\ k' = Uncovered \/ k = CoveredAccumulated /\ k' = UncoveredAccumulated /\ In ResetSubset sops ->
            exists covered uncovered, scoredVector ndClass o s k = Some covered /\ scoredVector ndClass o s k' = Some uncovered /\
              (forall i l, nth_error (outputsOf o) i = Some l -> exists x y,
                nth_error (fst covered) i = Some x /\ nth_error (fst uncovered) i = Some y /\
                x + y = sumOf (coverable weights ops excluded) (ndGradient rows l)) /\
              (forall i j l m, (j <= i)%nat -> nth_error (outputsOf o) i = Some l -> nth_error (outputsOf o) j = Some m -> exists x y,
                nth_error (snd covered) (i * (i + 1) / 2 + j) = Some x /\ nth_error (snd uncovered) (i * (i + 1) / 2 + j) = Some y /\
                x + y = total l m).
Proof.
  intros rows w n VD LW ops excluded o F1 F2 VO.
  exists (fun l m => sumOf (coverable w ops excluded) (fun e => nth (triangularNumber l + m) (snd (nth e rows ([], []))) 0)).
  split.
  { intros _ l m Hlm. apply sumOf_ext. intros e. unfold ndHessian. rewrite Nat.max_l, Nat.min_r by auto. reflexivity. }
  intros sops F3.
  destruct (nd_aggregation_any rows w n VD LW ops excluded o sops F1 F2 VO F3) as (t0 & t & s0 & s & E1 & E2 & E3 & E4 & H).
  exists s. split; [rewrite E1; cbv beta iota; rewrite E2; cbv beta iota; rewrite E3; auto|].
  intros k k' HK.
  destruct (H k) as (v & E & L & X & Y). { destruct HK as [[-> ->]|(-> & -> & HK)]; simpl; tauto. }
  destruct (H k') as (v' & E' & L' & X' & Y'). { destruct HK as [[-> ->]|(-> & -> & HK)]; simpl; tauto. }
  exists v, v'. split; [auto|split; [auto|split]].
  - intros i l El. eexists _, _. split; [exact (X i l El)|split; [exact (X' i l El)|]].
    destruct (covered_uncovered w ops excluded sops (ndGradient rows l)). destruct HK as [[-> ->]|(-> & -> & HK)]; auto.
  - intros i j l m Hij El Em. eexists _, _. split; [exact (Y i j l m Hij El Em)|split; [exact (Y' i j l m Hij El Em)|]].
    match goal with |- sumOf _ ?f + _ = _ => destruct (covered_uncovered w ops excluded sops f) end.
    destruct HK as [[-> ->]|(-> & -> & HK)]; auto.
Qed.

(** ** C103: Subsets of outputs in an arbitrary order *)

Lemma nd_unsorted_refuted :
  exists fuel numCols numSamples seed indices seed' rows v,
    outputSample fuel numCols numSamples (repeat 0%nat numSamples) seed = Some (indices, seed') /\
    Forall (fun row => length (fst row) = numCols /\ length (snd row) = (numCols * (numCols + 1) / 2)%nat) rows /\
    valid_outputs numCols (SomeOutputs indices) /\ NoDup indices /\
    (let* total := newWeighted ndClass rows (EqualWeights (length rows)) numCols in
     let* s := newSubset ndClass rows (EqualWeights (length rows)) total [] (SomeOutputs indices) in
     let* s := subsetStep ndClass rows (EqualWeights (length rows)) (SomeOutputs indices) (AddToSubset 0) s in
     scoredVector ndClass (SomeOutputs indices) s Covered) = Some v /\
    exists i j l m x, (j <= i)%nat /\ nth_error indices i = Some l /\ nth_error indices j = Some m /\
      nth_error (snd v) (i * (i + 1) / 2 + j) = Some x /\ x <> ndHessian rows l m 0.
Proof.
  exists 20%nat, 3%nat, 2%nat, 1%N. eexists _, _. exists [([1; 1; 1], [1; 2; 3; 4; 5; 6])]. eexists.
  split; [vm_compute; reflexivity|]. split; [repeat constructor|]. split; [simpl; repeat constructor; lia|].
  split; [repeat constructor; simpl; intuition lia|]. split; [reflexivity|].
  exists 1%nat, 0%nat, 1%nat, 2%nat. eexists. split; [lia|split; [reflexivity|split; [reflexivity|split; [reflexivity|]]]].
  unfold ndHessian. simpl. lra.
Qed.

(** ** C104: Complete updates and evaluations *)

Lemma emplace_keys {V} n m (row row' : sset V) i d : ss_inv n m row -> (i < n)%nat -> ss_emplace row i d = Some row' ->
  map fst (ss_values row') = if isMember (map fst (ss_values row)) i then map fst (ss_values row) else map fst (ss_values row) ++ [i].
Proof.
  intros (L & A & B & C & D) Hi E. unfold ss_emplace in E. destruct (m i) as [v|] eqn:M.
  - destruct (C i v Hi M) as (j & J1 & J2). unfold aget in E. rewrite J1, J2 in E. injection E as <-.
    replace (isMember (map fst (ss_values row)) i) with true; auto. symmetry. apply isMember_In. apply in_map_iff. exists (i, v).
    split; auto. eapply nth_error_In; eauto.
  - unfold aget in E. rewrite (B i Hi M) in E. rewrite aset_Some in E by lia. injection E as <-. simpl. rewrite map_app. simpl.
    rewrite isMember_not; auto. intros Q. apply in_map_iff in Q. destruct Q as ([i' v] & <- & Q). apply In_nth_error in Q.
    destruct Q as [j J]. destruct (A j i' v J) as (_ & _ & Q). simpl in M. congruence.
Qed.

Lemma map_fst_upd {V} (l : list (nat * V)) j i v w : nth_error l j = Some (i, v) -> map fst (upd l j (i, w)) = map fst l.
Proof.
  intros H. apply nth_error_ext. intros q. rewrite !nth_error_map, nth_error_upd.
  destruct (Nat.eqb_spec j q); simpl; auto. subst q. assert (j < length l)%nat by (apply nth_error_Some; congruence).
  destruct (Nat.ltb_spec j (length l)); [|lia]. rewrite H. auto.
Qed.

Lemma update_keys {V} (row row' : sset V) i f : ss_update row i f = Some row' -> map fst (ss_values row') = map fst (ss_values row).
Proof.
  unfold ss_update. destruct (aget (ss_indices row) i) as [[j|]|] eqn:E; intros H; try discriminate.
  - destruct (aget (ss_values row) j) as [[a x]|] eqn:F; [|discriminate]. cbn [fst snd] in H.
    unfold aget in F. assert (j < length (ss_values row))%nat by (apply nth_error_Some; congruence).
    rewrite aset_Some in H by auto. injection H as <-. simpl. eapply map_fst_upd; eauto.
  - injection H as <-. auto.
Qed.

Lemma loop_step n m (row : sset R) (f : R -> R -> R) i y : ss_inv n m row -> (i < n)%nat ->
  exists row' m', (let* row := ss_emplace row i 0 in ss_update row i (fun x => f x y)) = Some row' /\ ss_inv n m' row' /\
    map fst (ss_values row') = if isMember (map fst (ss_values row)) i then map fst (ss_values row) else map fst (ss_values row) ++ [i].
Proof.
  intros I Hi. destruct (ss_step_inv n m row (SsEmplace i 0) I Hi) as (r1 & E1 & I1).
  destruct (ss_step_inv n _ r1 (SsUpdate i (fun x => f x y)) I1 Hi) as (r2 & E2 & I2). cbn [ss_step] in *.
  exists r2. eexists. rewrite E1. cbv beta iota. split; [auto|split; [eauto|]].
  rewrite (update_keys _ _ _ _ E2). eapply emplace_keys; eauto.
Qed.

Definition full (n : nat) (row : sset R) : Prop := map fst (ss_values row) = seq 0 n.

Lemma isMember_seq n i : isMember (seq 0 n) i = (i <? n).
Proof.
  destruct (Nat.ltb_spec i n).
  - apply isMember_In. apply in_seq. lia.
  - apply isMember_not. rewrite in_seq. lia.
Qed.

Lemma full_loop n m f values indices row : ss_inv n m row -> full n row -> length values = length indices ->
  Forall (fun i => (i < n)%nat) indices ->
  exists row' m', sparseScoreLoop f values indices row = Some row' /\ ss_inv n m' row' /\ full n row'.
Proof.
  intros I FU L F. unfold sparseScoreLoop.
  match goal with |- context[forN ?c ?s ?b ?z] =>
    destruct (forN_inv (fun _ r => exists m', ss_inv n m' r /\ full n r) b c s z) as (r & E & m' & I' & FU') end.
  - eauto.
  - intros i r Hi (m' & I' & FU'). rewrite (aget_nth indices i 0%nat) by lia. cbv beta iota.
    assert (B : (nth i indices 0 < n)%nat) by (rewrite Forall_forall in F; apply F, nth_In; lia).
    destruct (loop_step n m' r f _ (nth i values 0) I' B) as (r' & m2 & E & I2 & K).
    rewrite (aget_nth values i 0) by lia. unfold full in *. rewrite FU', isMember_seq in K.
    destruct (Nat.ltb_spec (nth i indices 0%nat) n); [|lia]. exists r'. split; [|eauto].
    destruct (ss_emplace r (nth i indices 0%nat) 0); [exact E|discriminate].
  - exists r, m'. auto.
Qed.

Lemma empty_loop n m f values row : ss_inv n m row -> ss_values row = [] -> length values = n ->
  exists row' m', sparseScoreLoop f values (seq 0 n) row = Some row' /\ ss_inv n m' row' /\ full n row'.
Proof.
  intros I EM L. unfold sparseScoreLoop. rewrite seq_length.
  match goal with |- context[forN ?c ?s ?b ?z] =>
    destruct (forN_inv (fun k r => exists m', ss_inv n m' r /\ map fst (ss_values r) = seq 0 k) b c s z) as (r & E & m' & I' & FU') end.
  - exists m. rewrite EM. auto.
  - intros i r Hi (m' & I' & FU'). rewrite (aget_nth (seq 0 n) i 0%nat) by (rewrite seq_length; lia). cbv beta iota.
    rewrite seq_nth by lia. cbn [plus].
    destruct (loop_step n m' r f i (nth i values 0) I' ltac:(lia)) as (r' & m2 & E & I2 & K).
    rewrite (aget_nth values i 0) by lia. rewrite FU', isMember_seq in K.
    destruct (Nat.ltb_spec i i); [lia|]. exists r'. split.
    + destruct (ss_emplace r i 0); [exact E|discriminate].
    + exists m2. split; auto. rewrite K, seq_S. auto.
  - exists r, m'. auto.
Qed.

Lemma seq_valid n : Forall (fun i => (i < n)%nat) (seq 0 n).
Proof. rewrite Forall_forall. intros i Hi. apply in_seq in Hi. lia. Qed.

Lemma full_step n m f p row : ss_inv n m row -> full n row -> valid_prediction n p ->
  exists row' m', sparseScoreStep f p row = Some row' /\ ss_inv n m' row' /\ full n row'.
Proof.
  intros I FU V. destruct p as [v|i v]; simpl in V; unfold sparseScoreStep.
  - replace (length (ss_indices row)) with n by (destruct I; auto). apply (full_loop n m); auto; [rewrite seq_length; auto|apply seq_valid].
  - destruct V. apply (full_loop n m); auto.
Qed.

Lemma empty_step n m f v row : ss_inv n m row -> ss_values row = [] -> length v = n ->
  exists row' m', sparseScoreStep f (CompletePrediction v) row = Some row' /\ ss_inv n m' row' /\ full n row'.
Proof.
  intros I EM L. unfold sparseScoreStep. replace (length (ss_indices row)) with n by (destruct I; auto). apply (empty_loop n m); auto.
Qed.

(** Each row is either empty, if the remaining changes start with a complete one, or contains all outputs. *)
Definition rowState (n : nat) (cs : list scoreChange) (rows : list (sset R)) : Prop :=
  forall e, (e < length rows)%nat -> (exists m, ss_inv n m (nth e rows (ss_empty R 0))) /\
    (full n (nth e rows (ss_empty R 0)) \/ ss_values (nth e rows (ss_empty R 0)) = [] /\ firstChangeComplete cs e).

Lemma rowState_change n c cs rows : rowState n (c :: cs) rows -> valid_change (length rows) n c ->
  exists rows', sparseChange c rows = Some rows' /\ length rows' = length rows /\ rowState n cs rows'.
Proof.
  intros H [He Hp]. destruct (H (exampleOf c) He) as [[m I] ST].
  assert (X : forall f, exists row' m', sparseScoreStep f (predictionOf c) (nth (exampleOf c) rows (ss_empty R 0)) = Some row' /\
    ss_inv n m' row' /\ full n row').
  { intros f. destruct ST as [FU|[EM FC]]; [apply (full_step n m); auto|].
    destruct (FC c) as [v Ev]. { simpl. rewrite Nat.eqb_refl. auto. }
    rewrite Ev in *. apply (empty_step n m); auto. }
  assert (Y : forall f, exists rows', changeRow (exampleOf c) (sparseScoreStep f (predictionOf c)) rows = Some rows' /\
    length rows' = length rows /\ rowState n cs rows').
  { intros f. destruct (X f) as (r & m' & E & I' & FU). unfold changeRow. rewrite (aget_nth rows _ (ss_empty R 0) He). cbv beta iota.
    rewrite E. cbv beta iota. rewrite aset_Some by auto. eexists. split; [reflexivity|]. rewrite upd_length. split; auto.
    intros e Hl. rewrite upd_length in Hl. rewrite nth_upd_eq. destruct (Nat.eqb_spec (exampleOf c) e).
    - destruct (Nat.ltb_spec (exampleOf c) (length rows)); [|lia]. simpl. split; eauto.
    - simpl. destruct (H e Hl) as [I2 [F2|[F2 F3]]]; split; auto. right. split; auto. intros c' Q. apply F3. simpl.
      destruct (Nat.eqb_spec (exampleOf c) e); [contradiction|auto]. }
  destruct c as [e p|e p]; simpl in *; [destruct (Y Rplus) as (r & E & Q)|destruct (Y Rminus) as (r & E & Q)];
    exists r; (split; [exact E|auto]).
Qed.

Lemma seq_sorted n : forall a, StronglySorted lt (seq a n).
Proof.
  induction n; intros a; simpl; constructor; auto. rewrite Forall_forall. intros i Hi. apply in_seq in Hi. lia.
Qed.

Lemma scores_sorted :
  forall n numRows cs rows, Forall (valid_change numRows n) cs -> (forall e, firstChangeComplete cs e) ->
    forL cs sparseChange (repeat (ss_empty R n) numRows) = Some rows -> Forall sortedRow rows.
Proof.
  intros n N cs rows V FC E.
  assert (G : forall cs rs, rowState n cs rs -> Forall (valid_change (length rs) n) cs -> exists rs',
    forL cs sparseChange rs = Some rs' /\ rowState n [] rs').
  { clear. induction cs as [|c cs IH]; intros rs H V.
    - exists rs. auto.
    - inversion_clear V as [|? ? V1 V2]. destruct (rowState_change n c cs rs H V1) as (r1 & E1 & L1 & H1).
      destruct (IH r1 H1) as (r2 & E2 & H2); [rewrite L1; auto|]. exists r2. cbn [forL]. rewrite E1. auto. }
  destruct (G cs (repeat (ss_empty R n) N)) as (rs & E' & H).
  - intros e He. rewrite repeat_length in He.
    assert (Rs : nth e (repeat (ss_empty R n) N) (ss_empty R 0) = ss_empty R n).
    { rewrite nth_indep with (d' := ss_empty R n) by (rewrite repeat_length; auto). apply nth_repeat_same. }
    rewrite Rs. split; [exists (fun _ => None); apply ss_empty_inv|]. right. split; auto.
  - rewrite repeat_length. auto.
  - rewrite E in E'. injection E' as <-. rewrite Forall_forall. intros r Hr. destruct (In_nth _ _ (ss_empty R 0) Hr) as (e & He & <-).
    destruct (H e He) as [_ [FU|[EM _]]]; unfold sortedRow.
    + unfold full in FU. rewrite FU. apply seq_sorted.
    + rewrite EM. constructor.
Qed.

Lemma one_nonzero a : Rabs a = 1 -> isEqualToZero a = false.
Proof.
  intros H. apply large_nonzero. rewrite H. rewrite <- Rinv_1. apply Rinv_lt_contravar; lra.
Qed.

(** The scores of two single-output rules that are applied to an example one after the other. *)
Definition unsortedRow : sset R := mkSset [(1%nat, 0 + -1); (0%nat, 0 + 1)] [Some 1%nat; Some 0%nat].

Lemma unsorted_run : forL [Apply 0 (PartialPrediction [1%nat] [-1]); Apply 0 (PartialPrediction [0%nat] [1])] sparseChange
  [ss_empty R 2] = Some [unsortedRow].
Proof. reflexivity. Qed.

Lemma hinge_values : evaluateSquaredHinge true 0 = 1 /\ evaluateSquaredHinge false (0 + -1) = 0 /\
  evaluateSquaredHinge false (0 + 1) = 1 /\ evaluateSquaredHinge true (0 + 1) = 0.
Proof.
  unfold evaluateSquaredHinge. repeat split.
  - destruct (Rlt_dec 0 1); lra.
  - destruct (Rgt_dec (0 + -1) 0); lra.
  - destruct (Rgt_dec (0 + 1) 0); lra.
  - destruct (Rlt_dec (0 + 1) 1); lra.
Qed.

Lemma hinge_updates : updateSquaredHinge true 0 = (-1, 1) /\ updateSquaredHinge false (0 + -1) = (0, 1) /\
  updateSquaredHinge false (0 + 1) = (1, 1) /\ updateSquaredHinge true (0 + 1) = (0, 1).
Proof.
  unfold updateSquaredHinge. repeat split; f_equal.
  - destruct (Rlt_dec 0 1); lra.
  - destruct (Rgt_dec (0 + -1) 0); lra.
  - destruct (Rgt_dec (0 + 1) 0); lra.
  - destruct (Rlt_dec (0 + 1) 1); lra.
Qed.

Lemma sparse_evaluation_refuted :
  exists n labels cs row sparse dense, valid_labels n labels /\ Forall (valid_change 1 n) cs /\
    forL cs sparseChange [ss_empty R n] = Some [row] /\
    evaluateSparse evaluateSquaredHinge labels row n = Some sparse /\
    evaluateMean evaluateSquaredHinge (denseScores n row) (denseLabels n labels) n = Some dense /\ sparse = 1 /\ dense = 0.
Proof.
  destruct hinge_values as (H1 & H2 & H3 & H4).
  exists 2%nat, [0%nat], [Apply 0 (PartialPrediction [1%nat] [-1]); Apply 0 (PartialPrediction [0%nat] [1])], unsortedRow, 1, 0.
  split; [split; repeat constructor|]. split; [repeat constructor|]. split; [apply unsorted_run|]. split; [|split; [|auto]].
  - rewrite evaluateSparse_merge. f_equal.
    replace (mergeAll evaluateSquaredHinge [0%nat] (ss_values unsortedRow)) with
      [(0%nat, evaluateSquaredHinge true 0); (1%nat, evaluateSquaredHinge false (0 + -1)); (0%nat, evaluateSquaredHinge false (0 + 1))]
      by reflexivity.
    rewrite H1, H2, H3. unfold nonZeros. cbn [filter snd].
    rewrite (one_nonzero 1), zero_zero by (apply Rabs_right; lra). simpl. lra.
  - pose proof (evaluateMean_spec false evaluateSquaredHinge (denseScores 2 unsortedRow) (denseLabels 2 [0%nat]) eq_refl) as E.
    change (length (denseLabels 2 [0%nat])) with 2%nat in E. rewrite E. f_equal.
    change (sumR 2 (fun i => evaluateSquaredHinge (nth i (denseLabels 2 [0%nat]) false) (nth i (denseScores 2 unsortedRow) 0))) with
      (0 + evaluateSquaredHinge true (0 + 1) + evaluateSquaredHinge false (0 + -1)).
    rewrite H2, H4. simpl. lra.
Qed.

Lemma sparse_update_refuted :
  exists n labels cs scores row l, valid_labels n labels /\ Forall (valid_change 1 n) cs /\
    forL cs sparseChange [ss_empty R n] = Some [scores] /\ (l < n)%nat /\
    updateSparseComplete updateSquaredHinge labels scores (ss_empty _ n) = Some row /\
    sparseStatistic row l = (1, 1) /\ updateSquaredHinge (isMember labels l) (scoreAt scores l) = (0, 1).
Proof.
  destruct hinge_updates as (H1 & H2 & H3 & H4).
  exists 2%nat, [0%nat], [Apply 0 (PartialPrediction [1%nat] [-1]); Apply 0 (PartialPrediction [0%nat] [1])], unsortedRow,
    (mkSset [(0%nat, (1, 1))] [Some 0%nat; None]), 0%nat.
  split; [split; repeat constructor|]. split; [repeat constructor|]. split; [apply unsorted_run|]. split; [lia|].
  split; [|split; [reflexivity|exact H4]].
  unfold updateSparseComplete. change (ss_clear (ss_empty (R * R) 2)) with (Some (ss_empty (R * R) 2)). cbv beta iota.
  rewrite updateLoop_spec by (unfold enough, size; lia).
  replace (mergeAll updateSquaredHinge [0%nat] (ss_values unsortedRow)) with
    [(0%nat, updateSquaredHinge true 0); (1%nat, updateSquaredHinge false (0 + -1)); (0%nat, updateSquaredHinge false (0 + 1))]
    by reflexivity.
  rewrite H1, H2, H3. unfold nonZeros. cbn [filter snd fst].
  rewrite (one_nonzero (-1)), (one_nonzero 1), zero_zero;
    [reflexivity|apply Rabs_right; lra|rewrite Rabs_left; lra].
Qed.

(** ** C105, C106: Heads *)

Lemma sorted_heads :
  forall indices values h, length values = length indices -> sortHead (processPartialScores indices values false) h ->
    StronglySorted le (headIndices h) /\ length (headValues h) = length (headIndices h) /\
    Permutation indices (headIndices h) /\
    forall l, predictedScore (PartialPrediction (headIndices h) (headValues h)) l = predictedScore (PartialPrediction indices values) l.
Proof.
  intros indices values h L S1. unfold sortHead in S1. simpl in S1. destruct S1 as [_ S1].
  destruct (Nat.ltb_spec 1 (length indices)).
  - destruct S1 as (pairs & P & SS & -> & ->). split; [auto|split; [rewrite !map_length; auto|split]].
    + apply (Permutation_map fst) in P. rewrite <- P. clear -L. revert values L. induction indices; intros [|v values] L; simpl in *; try lia; auto.
    + intros l. unfold predictedScore. replace (combine (map fst pairs) (map snd pairs)) with pairs.
      * clear -P. induction P; simpl; auto.
        { destruct (fst x =? l); simpl; rewrite IHP; auto. }
        { destruct (fst x =? l), (fst y =? l); simpl; lra. }
        { congruence. }
      * clear. induction pairs as [|[a b] pairs IH]; simpl; congruence.
  - destruct S1 as [-> ->]. split; [|auto]. destruct indices as [|i [|j r]]; simpl in *; [constructor|repeat constructor|lia].
Qed.

Lemma unsorted_heads_refuted :
  exists fuel numOutputs numSamples seed indices seed' values h,
    outputSample fuel numOutputs numSamples (repeat 0%nat numSamples) seed = Some (indices, seed') /\
    length values = length indices /\ sortHead (completeRuleEvaluationHead indices values) h /\ ~ StronglySorted le (headIndices h).
Proof.
  exists 20%nat, 3%nat, 2%nat, 1%N. eexists _, _. exists [1; 1]. eexists.
  split; [vm_compute; reflexivity|]. split; [reflexivity|]. split; [reflexivity|]. simpl. intros Q.
  apply StronglySorted_inv in Q. destruct Q as [_ Q]. inversion Q. lia.
Qed.

Lemma csr_update_refuted :
  exists fuel n numSamples seed indices seed' values h labels scores row row' l,
    outputSample fuel n numSamples (repeat 0%nat numSamples) seed = Some (indices, seed') /\
    length values = length indices /\ sortHead (completeRuleEvaluationHead indices values) h /\
    valid_labels n labels /\ length scores = n /\ length row = n /\ In l (headIndices h) /\
    updateDensePartialCsr updateSquaredHinge labels scores (headIndices h) row = Some row' /\
    nth l row' (0, 0) = (0, 1) /\ updateSquaredHinge (isMember labels l) (nth l scores 0) = (-1, 1).
Proof.
  exists 20%nat, 3%nat, 2%nat, 1%N. eexists _, _. exists [1; 1]. eexists. exists [1%nat], [0; 0; 0], [(0, 0); (0, 0); (0, 0)]. eexists. exists 1%nat.
  split; [vm_compute; reflexivity|]. split; [reflexivity|]. split; [reflexivity|]. split; [split; repeat constructor|].
  split; [reflexivity|]. split; [reflexivity|]. split; [simpl; auto|]. split; [reflexivity|]. simpl. split.
  - unfold updateSquaredHinge. f_equal. destruct (Rgt_dec 0 0); lra.
  - apply hinge_updates.
Qed.
