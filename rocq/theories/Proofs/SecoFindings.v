(** Counterexamples regarding the statistics used by separate-and-conquer algorithms. *)
From Coq Require Import ZArith NArith Arith List Bool Sorted Lia Permutation.
From Verif Require Import Lib.Arr Model.Sampling Model.SecoStatistics Spec.Seco Proofs.BinningWidth Proofs.Seco Proofs.SecoExact
  Proofs.SecoMajority Proofs.SecoCoverage.
Import ListNotations.
Open Scope nat_scope.
Local Arguments Nat.leb : simpl never.
Local Arguments Nat.ltb : simpl never.
Local Arguments Nat.mul : simpl never.

(** A label matrix given by rows. *)
Definition tableLabel (rows : list (list bool)) (e l : nat) : bool := nth l (nth e rows []) false.

(** ** The statistics used for the default rule *)

Lemma add_out_of_bounds li majority counts offset w numLabels v :
  length counts <= offset + (numLabels - 1) -> 0 < numLabels -> addInternally li majority counts offset w numLabels v = None.
Proof.
  intros HC HN. unfold addInternally. set (body := fun (i : nat) (st : labelIter * fwd * list confusion) => _).
  replace numLabels with ((numLabels - 1) + 1) by lia. rewrite forN_split.
  destruct (forN (numLabels - 1) 0 body _) as [st|]; auto. simpl. unfold body at 1. destruct st as ((a & b) & c).
  unfold aget. rewrite (proj2 (nth_error_None counts (offset + (numLabels - 1)))); auto.
Qed.

Lemma aset_length {A} (l l' : list A) i x : aset l i x = Some l' -> length l' = length l.
Proof. intros H. apply aset_inv in H. destruct H as (_ & ->). apply upd_length. Qed.

Lemma addInternally_length li majority counts offset w n v v' :
  addInternally li majority counts offset w n v = Some v' -> length v' = length v.
Proof.
  unfold addInternally. set (body := fun (i : nat) (st : labelIter * fwd * list confusion) => _).
  destruct (forN n 0 body _) as [((a & b) & c)|] eqn:E; intros [= <-].
  assert (H := forN_pres (fun _ st => length (snd st) = length v) body n 0 (li, fwdNew majority, v) (a, b, c)).
  apply H; auto. clear. intros j ((a & b) & c) st' Hj HL Hb. unfold body in Hb. simpl in HL.
  destruct (aget counts (offset + j)) as [x|]; [|discriminate]. destruct (x =? 0)%N.
  - destruct (liDeref a); [|discriminate]. destruct (aget c j); [|discriminate].
    destruct (aset c j _) as [c'|] eqn:E; [|discriminate]. injection Hb as <-. simpl. apply aset_length in E. congruence.
  - injection Hb as <-. auto.
Qed.

(** The memory of the coverage matrix is exceeded whenever there are more examples than labels. *)
Lemma unweighted_out_of_bounds lm majority counts weights : length counts = lmRows lm * lmCols lm -> length weights = lmRows lm ->
  lmCols lm < lmRows lm -> unweightedTotal lm majority counts weights = None.
Proof.
  intros HC HW HL. unfold unweightedTotal, initializeVector. rewrite HW.
  set (body := fun (i : nat) (v : list confusion) => _).
  replace (lmRows lm) with ((lmRows lm - 1) + 1) at 1 by lia. rewrite forN_split.
  destruct (forN (lmRows lm - 1) 0 body _) as [v|] eqn:E; auto.
  assert (Hv : length v = lmRows lm).
  { rewrite <- (repeat_length cmZero (lmRows lm)).
    apply (forN_pres (fun _ v => length v = length (repeat cmZero (lmRows lm))) body (lmRows lm - 1) 0 (repeat cmZero (lmRows lm)) v); auto.
    clear. intros j v v' Hj HL Hb. unfold body in Hb. destruct (aget weights j); [|discriminate]. unfold vecAdd in Hb.
    destruct (liNew lm j); [|discriminate]. apply addInternally_length in Hb. congruence. }
  simpl. unfold body at 1. destruct (aget weights (lmRows lm - 1)); auto. unfold vecAdd.
  destruct (liNew lm (lmRows lm - 1)); auto. rewrite add_out_of_bounds; auto; [|lia]. rewrite HC, Hv. nia.
Qed.

Lemma default_rule_out_of_bounds :
  forall lm majority counts, length counts = lmRows lm * lmCols lm -> lmCols lm < lmRows lm ->
    defaultRule lm majority counts = None.
Proof.
  intros lm majority counts HC HL. unfold defaultRule. rewrite unweighted_out_of_bounds; auto. apply repeat_length.
Qed.

Lemma default_rule_safe :
  forall junk lm label, represents lm label -> length junk = lmCols lm -> lmRows lm <= lmCols lm ->
    exists majority sum scores, createStatistics junk lm = Some (majority, sum) /\
      defaultRule lm majority (cvCounts (newCoverage (lmRows lm) (lmCols lm) sum)) = Some scores /\
      length scores = lmCols lm /\
      forall l, l < lmCols lm -> (nth_error scores l = Some true <-> is_majority label (lmRows lm) l).
Proof.
  intros junk lm label HR HJ HL. destruct (majority_labels_exact junk lm label HR HJ) as (majority & EC & HS & HI & HM).
  eexists majority, _. rewrite EC. destruct (HM (seq 0 (lmCols lm))) as (scores & ES & HLs & Hsc).
  { clear. generalize 0. induction (lmCols lm); intros; simpl; constructor; auto. rewrite Forall_forall. intros x Hx. apply in_seq in Hx. lia. }
  exists scores. split; [reflexivity|].
  set (counts := cvCounts _).
  assert (HC : length counts = lmRows lm * lmCols lm) by apply repeat_length.
  split.
  - unfold defaultRule. set (weights := repeat 1%Z (lmRows lm)).
    assert (HW : length weights = lmRows lm) by apply repeat_length.
    assert (exists v, unweightedTotal lm majority counts weights = Some v) as (v & ->).
    { unfold unweightedTotal, initializeVector.
      destruct (forN_inv (fun _ v => length v = lmRows lm)
        (fun i v => let* w := aget weights i in vecAdd lm majority counts i w v) (length weights) 0 (repeat cmZero (lmRows lm)))
        as (v & E & _); eauto.
      - apply repeat_length.
      - intros i v Hi Hv. assert (exists w, aget weights i = Some w) as (w & ->) by (apply aget_Some; lia).
        destruct (vecAdd_spec lm label majority counts HR HC HS i w v) as (v' & E & HB & _); try lia.
        exists v'. split; auto. lia. }
    destruct (forN_inv (fun _ v => length v = lmCols lm)
      (fun i v => let* w := aget weights i in vecAddToSubset lm majority counts (AllOutputs (lmCols lm)) i w v)
      (lmRows lm) 0 (repeat cmZero (lmCols lm))) as (v2 & -> & _); auto.
    + apply repeat_length.
    + intros i v0 Hi Hv. assert (exists w, aget weights i = Some w) as (w & ->) by (apply aget_Some; lia).
      destruct (addToSubset_spec lm label majority counts HR HC HS (AllOutputs (lmCols lm)) i w v0) as (v' & E & HB & _);
        try lia; simpl; auto.
      exists v'. split; auto. lia.
  - rewrite seq_length in HLs. split; auto. intros l Hl.
    rewrite (Hsc l l). { rewrite HI. tauto. }
    rewrite (nth_error_nth' _ 0) by (rewrite seq_length; auto). rewrite seq_nth; auto.
Qed.

Lemma represents_dense n m values rows : length values = n * m ->
  forallb (fun x => match nth_error values (fst x * m + snd x) with
    Some b => Bool.eqb b (tableLabel rows (fst x) (snd x)) | None => false end) (list_prod (seq 0 n) (seq 0 m)) = true ->
  represents (mkLabels n m (DenseLabels values)) (tableLabel rows).
Proof.
  intros HL HF. unfold represents. cbn [lmValues lmRows lmCols]. split; auto. intros e l He Hl. rewrite forallb_forall in HF.
  specialize (HF (e, l)). cbn [fst snd] in HF. destruct (nth_error values (e * m + l)) as [b|].
  - f_equal. apply eqb_prop, HF. apply in_prod; apply in_seq; lia.
  - discriminate HF. apply in_prod; apply in_seq; lia.
Qed.

Ltac rep := apply represents_dense; reflexivity.
Lemma default_rule_fails : exists junk lm label majority sum,
  represents lm label /\ length junk = lmCols lm /\ createStatistics junk lm = Some (majority, sum) /\
  defaultRule lm majority (cvCounts (newCoverage (lmRows lm) (lmCols lm) sum)) = None.
Proof.
  exists [0; 0], (mkLabels 3 2 (DenseLabels [true; false; true; true; false; false])),
    (tableLabel [[true; false]; [true; true]; [false; false]]), [0], 2%Z.
  split; [rep|]. split; [reflexivity|]. split; [reflexivity|]. vm_compute. reflexivity.
Qed.

(** If there are fewer examples than labels, there are no confusion matrices for some of the labels. *)
Lemma unweighted_missing : exists lm label majority counts weights v l,
  represents lm label /\ StronglySorted lt majority /\ length counts = lmRows lm * lmCols lm /\ length weights = lmRows lm /\
  unweightedTotal lm majority counts weights = Some v /\ l < lmCols lm /\ nth_error v l = None.
Proof.
  exists (mkLabels 1 2 (DenseLabels [true; false])), (tableLabel [[true; false]]), [0], [0; 0]%N, [1%Z],
    [mkConfusion 0 0 1 0], 1.
  split; [rep|]. split; [repeat constructor|]. repeat split; auto.
Qed.

(** ** C49 *)
Lemma sum_inexact : exists junk lm label majority sum apps c,
  represents lm label /\ length junk = lmCols lm /\ createStatistics junk lm = Some (majority, sum) /\
  Forall (valid_application (lmRows lm) (lmCols lm)) apps /\
  applyAll (lmCols lm) majority apps (newCoverage (lmRows lm) (lmCols lm) sum) = Some c /\
  cvSum c <> Z.of_nat (count (fun x => deviates label majority x && negb (covered majority apps x)) (cells (lmRows lm) (lmCols lm))) /\
  coverageStops 0 c = true /\
  0 < count (fun x => deviates label majority x && negb (covered majority apps x)) (cells (lmRows lm) (lmCols lm)).
Proof.
  exists [0], (mkLabels 4 1 (DenseLabels [false; false; false; true])), (tableLabel [[false]; [false]; [false]; [true]]), [], 1%Z,
    [(0, CompleteHead [true])], (mkCoverage [1; 0; 0; 0]%N 0).
  split; [rep|]. split; [reflexivity|]. split; [reflexivity|]. split; [repeat constructor; simpl; lia|].
  split; [vm_compute; reflexivity|]. split; [vm_compute; discriminate|]. split; [reflexivity|]. vm_compute. lia.
Qed.

(** ** C89 *)
Lemma advance_inv it i p it' : fwdAdvance it i p = Some it' -> p <= i.
Proof. unfold fwdAdvance. destruct (Nat.ltb_spec i p); [discriminate|auto]. Qed.

Lemma unsorted_head_undefined :
  forall numCols e majority indices scores c c',
    applyPrediction numCols e majority (PartialHead indices scores) c = Some c' -> ascending indices.
Proof.
  intros numCols e majority indices scores c c'. unfold applyPrediction, changeCoverage.
  set (body := fun (i : nat) (st : fwd * nat * coverage) => _).
  destruct (forN (length indices) 0 body _) as [((a & b) & c1)|] eqn:E; intros [= <-].
  assert (H := forN_pres (fun i st => (forall j x, i = S j -> nth_error indices j = Some x -> snd (fst st) = x) /\
      forall j x y, S j < i -> nth_error indices j = Some x -> nth_error indices (S j) = Some y -> x <= y)
    body (length indices) 0 (fwdNew majority, 0, c) (a, b, c1)).
  destruct H as (_ & H); auto.
  - split; intros; lia.
  - clear. intros i ((a & p) & c) st' Hi (HP & HS) Hb. unfold body in Hb.
    destruct (aget indices i) as [index|] eqn:Ei; [|discriminate]. destruct (aget scores i); [|discriminate].
    destruct (fwdAdvance a index p) as [it|] eqn:EA; [|discriminate]. apply advance_inv in EA.
    destruct (if negb _ then _ else _); [|discriminate]. injection Hb as <-. cbn [fst snd] in *. split.
    + intros j x [= ->] Hx. unfold aget in Ei. congruence.
    + intros j x y Hj Hx Hy. destruct (Nat.eq_dec (S j) i) as [<-|]; [|apply (HS j); auto; lia].
      rewrite <- (HP j x eq_refl Hx). unfold aget in Ei. replace y with index by congruence. auto.
  - intros i x y Hx Hy. apply (H i x y); auto. simpl. apply nth_error_Some. congruence.
Qed.

Lemma unsorted_head : exists numCols e majority indices scores counts sum,
  length counts = numCols /\ e = 0 /\ length scores = length indices /\ NoDup indices /\ Forall (fun i => i < numCols) indices /\
  applyPrediction numCols e majority (PartialHead indices scores) (mkCoverage counts sum) = None.
Proof.
  exists 2, 0, [], [1; 0], [true; true], [0; 0]%N, 2%Z. repeat split; try (repeat constructor; simpl; intuition lia).
Qed.

(** Outputs that have been sampled without replacement. *)
Lemma unsorted_sample : exists fuel numOutputs numSamples s indices s' lm label majority counts w,
  outputSample fuel numOutputs numSamples (repeat 0 numSamples) s = Some (indices, s') /\
  represents lm label /\ lmCols lm = numOutputs /\ StronglySorted lt majority /\ length counts = lmRows lm * lmCols lm /\ 0 < lmRows lm /\
  vecAddToSubset lm majority counts (SomeOutputs indices) 0 w (repeat cmZero (length indices)) = None.
Proof.
  exists 20, 4, 2, 2%N. eexists _, _. exists (mkLabels 1 4 (DenseLabels [true; false; false; true])), (tableLabel [[true; false; false; true]]), [],
    [0; 0; 0; 0]%N, 1%Z.
  split; [vm_compute; reflexivity|]. split; [rep|]. split; [reflexivity|]. split; [constructor|]. split; [reflexivity|].
  split; [simpl; lia|]. vm_compute. reflexivity.
Qed.
