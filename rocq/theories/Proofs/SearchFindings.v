(** Counterexamples for the search for conditions, and a property that holds regardless of them. *)
From Coq Require Import ZArith Arith List Bool Sorted Permutation Lia.
From Verif Require Import Lib.Arr Model.Search Spec.Search Proofs.Search Proofs.SearchOrdinal.
Import ListNotations.
Open Scope nat_scope.

Ltac nd := repeat (constructor; [simpl; intuition congruence|]); try constructor.
Ltac ss := repeat (constructor; [|repeat constructor; lia]); try constructor.

Definition table (l : list Z) (i : nat) : Z := nth i l 0%Z.

(** ** Ordinal features *)

Lemma ordinal_first : exists examples weight value values bins majority l e,
  ordinal_vector examples value values bins majority /\ values <> [] /\ (forall i, In i (last bins []) -> weight i = true) /\
  searchOrdinal weight (filter weight examples) (length (filter weight examples)) 1 values bins majority = Some l /\
  In e l /\ ~ exactly_scored examples weight value e.
Proof.
  exists [0; 1; 2; 3], (fun i => negb (i =? 0)), (table [0; 1; 3; 2]%Z), [0; 1; 3]%Z, [[0]; [1]; [2]], 2%Z.
  eexists. exists (mkEval [2] 2 3 false 1 (Gr 1)). split; [|split; [discriminate|split; [simpl; intros i [<-|[]]; reflexivity|split; [vm_compute; reflexivity|split]]]].
  - split; [|ss]. split; [|split; [reflexivity|split; [nd|split]]].
    + split; [nd|split; [simpl; nd|]]. simpl. intros x H. simpl in *. tauto.
    + intros p ids v i H1 H2 H3. do 3 (destruct p as [|p]; [injection H1 as <-; injection H2 as <-; destruct H3 as [<-|[]]; reflexivity|]).
      destruct p; discriminate.
    + simpl. intros i H1 H2. intuition; subst; reflexivity.
  - simpl. auto.
  - intros (_ & H & _). assert (In 3 [2]); [|simpl in *; intuition congruence]. apply H. vm_compute. tauto.
Qed.

Lemma ordinal_last : exists examples weight value values bins majority l e,
  ordinal_vector examples value values bins majority /\ values <> [] /\ (forall i, In i (hd [] bins) -> weight i = true) /\
  searchOrdinal weight (filter weight examples) (length (filter weight examples)) 1 values bins majority = Some l /\
  In e l /\ ~ exactly_scored examples weight value e.
Proof.
  exists [0; 1; 2; 3], (fun i => negb (i =? 2)), (table [1; 2; 3; 0]%Z), [1; 2; 3]%Z, [[0]; [1]; [2]], 0%Z.
  eexists. exists (mkEval [0; 1; 3] 0 3 true 3 (Leq 0)). split; [|split; [discriminate|split; [simpl; intros i [<-|[]]; reflexivity|split; [vm_compute; reflexivity|split]]]].
  - split; [|ss]. split; [|split; [reflexivity|split; [nd|split]]].
    + split; [nd|split; [simpl; nd|]]. simpl. intros x H. simpl in *. tauto.
    + intros p ids v i H1 H2 H3. do 3 (destruct p as [|p]; [injection H1 as <-; injection H2 as <-; destruct H3 as [<-|[]]; reflexivity|]).
      destruct p; discriminate.
    + simpl. intros i H1 H2. intuition; subst; reflexivity.
  - simpl. auto.
  - intros (_ & H & _). assert (F: holds (Leq 0) (table [1; 2; 3; 0]%Z 0) = true); [|discriminate F]. apply (H 0). simpl. auto.
Qed.

(** ** Numerical features *)

Ltac nv := split; [nd|split; [simpl; nd|split; [simpl; intros ? H; simpl in *; tauto|split; [cbn [map fst snd]; ss|split;
  [simpl; intros i z H; intuition; match goal with [H : (_, _) = (_, _) |- _] => injection H as <- <- end; reflexivity
  |simpl; intros i H1 H2; intuition; subst; reflexivity]]]]].

(** The example with the smallest value that is not less than the sparse value is left out. *)
Lemma numerical_missed : exists examples weight value v,
  numerical_vector examples value v 0 false /\ (forall i, In i examples -> weight i = true) /\
  separating examples weight value 1 /\
  searchNumerical weight (filter weight examples) (length (filter weight examples)) 1 Z.eqb v 0 false = Some [].
Proof.
  exists [0; 1], (fun _ => true), (table [1; 2]%Z), [(0, 1%Z); (1, 2%Z)].
  split; [nv|]. split; [auto|]. split; [|vm_compute; reflexivity].
  split; [exists 0|exists 1]; vm_compute; intuition; discriminate.
Qed.

Lemma numerical_dense : exists examples weight value v l e,
  numerical_vector examples value v 0 false /\ (forall i, In i examples -> weight i = true) /\
  searchNumerical weight (filter weight examples) (length (filter weight examples)) 1 Z.eqb v 0 false = Some l /\
  In e l /\ ~ exactly_scored examples weight value e.
Proof.
  exists [0; 1; 2], (fun _ => true), (table [-1; 1; 10]%Z), [(0, (-1)%Z); (1, 1%Z); (2, 10%Z)].
  eexists. exists (mkEval [0] 0 1 false 1 (LeqMean (-1) 10)).
  split; [nv|]. split; [auto|]. split; [vm_compute; reflexivity|]. split; [simpl; auto|].
  intros (_ & H & _). assert (In 1 [0]); [|simpl in *; intuition congruence]. apply H. vm_compute. tauto.
Qed.

Lemma numerical_sparse : exists examples weight value v l e,
  numerical_vector examples value v 0 true /\ (forall i, In i examples -> weight i = true /\ (0 <= value i)%Z) /\
  searchNumerical weight (filter weight examples) (length (filter weight examples)) 1 Z.eqb v 0 true = Some l /\
  In e l /\ ~ exact_interval examples value (positions v) e.
Proof.
  exists [0; 1; 2], (fun _ => true), (table [1; 10; 0]%Z), [(0, 1%Z); (1, 10%Z)].
  eexists. exists (mkEval [1] 0 2 false 1 (GrMean 0 10)).
  split; [nv|]. split; [intros i H; split; [reflexivity|simpl in H; intuition; subst; vm_compute; discriminate]|]. split; [vm_compute; reflexivity|]. split; [simpl; auto|].
  intros H. assert (F: holds (GrMean 0 10) (table [1; 10; 0]%Z 0) = true); [|discriminate F].
  apply (H 0); [simpl; auto|]. exists 0, [0]. simpl. intuition lia.
Qed.

Lemma numerical_negative : exists examples weight value v l e,
  numerical_vector examples value v 0 true /\ (forall i, In i examples -> weight i = true /\ (value i <= 0)%Z) /\
  searchNumerical weight (filter weight examples) (length (filter weight examples)) 1 Z.eqb v 0 true = Some l /\
  In e l /\ ~ exactly_scored examples weight value e.
Proof.
  exists [0; 1], (fun _ => true), (table [-1; 0]%Z), [(0, (-1)%Z)].
  eexists. exists (mkEval [0; 1] 1 1 true 2 (LeqMean 0 (-1))).
  split; [nv|]. split; [intros i H; split; [reflexivity|simpl in H; intuition; subst; vm_compute; discriminate]|]. split; [vm_compute; reflexivity|]. split; [simpl; auto|].
  intros (_ & H & _). assert (F: holds (LeqMean 0 (-1)) (table [-1; 0]%Z 1) = true); [|discriminate F].
  apply (H 1). simpl. auto.
Qed.

(** An example whose weight is zero hides a threshold. *)
Lemma numerical_hidden : exists examples weight value v,
  numerical_vector examples value v 0 false /\ separating examples weight value (-3) /\
  searchNumerical weight (filter weight examples) (length (filter weight examples)) 1 Z.eqb v 0 false = Some [].
Proof.
  exists [0; 1; 2], (fun i => negb (i =? 1)), (table [-3; -2; -2]%Z), [(0, (-3)%Z); (1, (-2)%Z); (2, (-2)%Z)].
  split; [nv|]. split; [|vm_compute; reflexivity].
  split; [exists 0|exists 2]; vm_compute; intuition; discriminate.
Qed.

(** ** Missing values *)

(** Only example 2 lacks a value; the statistics of such examples are not part of the total ones, but
    [numExamplesWithNonZeroWeights] includes them. *)
Lemma missing_counted : exists examples missing weight value values bins majority l e,
  NoDup (examples ++ missing) /\ nominal_vector examples value values bins majority /\ values <> [] /\
  searchNominal weight (filter weight examples) (length (filter weight (examples ++ missing))) 2 values bins majority
    = Some l /\
  In e l /\ exactly_scored examples weight value (mkEval (eScored e) (eStart e) (eEnd e) (eInverse e) 1 (eTest e)) /\
  eCovered e = 2.
Proof.
  exists [0; 1], [2], (fun _ => true), (table [1; 0]%Z), [1]%Z, [[0]], 0%Z.
  eexists. exists (mkEval [1] 0 1 true 2 (Neq 1)). split; [simpl; nd|].
  split; [|split; [discriminate|split; [vm_compute; reflexivity|split; [simpl; auto|split; [|reflexivity]]]]].
  - split; [|split; [reflexivity|split; [nd|split]]].
    + split; [nd|split; [simpl; nd|]]. simpl. intros x H. simpl in *. tauto.
    + intros p ids v i H1 H2 H3. do 1 (destruct p as [|p]; [injection H1 as <-; injection H2 as <-; destruct H3 as [<-|[]]; reflexivity|]).
      destruct p; discriminate.
    + simpl. intros i H1 H2. intuition; subst; reflexivity.
  - split; [nd|split; [|reflexivity]]. simpl. intros i. split.
    + intros [<-|[]]. auto.
    + intros ([<-|[<-|[]]] & _ & H); [discriminate H|auto].
Qed.

(** ** Binned features *)

Lemma binned_negated : exists examples weight value thresholds bins sparseBin l e,
  binned_vector examples value thresholds bins sparseBin /\ sparseBin < length thresholds /\
  (forall i, In i examples -> weight i = true) /\
  searchBinned weight (filter weight examples) (length (filter weight examples)) 1 thresholds bins sparseBin = Some l /\
  In e l /\ ~ exactly_scored examples weight value e.
Proof.
  exists [0; 1; 2], (fun _ => true), (table [0; 3; 7]%Z), [1; 5]%Z, [[]; [1]; [2]], 0.
  eexists. exists (mkEval [2; 1] 1 3 true 1 (Leq 1)).
  split; [|split; [simpl; lia|split; [auto|split; [vm_compute; reflexivity|split; [simpl; auto|]]]]].
  - split; [split; [nd|split; [simpl; nd|]]|]. { simpl. intros x H. simpl in *. tauto. }
    split; [ss|]. split; [reflexivity|]. split; [simpl; lia|].
    intros i H. exists i. simpl in H. destruct H as [<-|[<-|[<-|[]]]]; cbn.
    + split; [lia|]. split; [intros t [= <-]; lia|]. split; [intros; discriminate|].
      split; [intros H; exfalso; apply H; reflexivity|intros _ q ids Eq Hq].
      do 3 (destruct q as [|q]; [injection Eq as <-; simpl in Hq; intuition discriminate|]); destruct q; discriminate.
    + split; [lia|]. split; [intros t [= <-]; lia|]. split; [intros t q [= <-] [= <-]; lia|].
      split; [intros _; exists 1, [1]; simpl; intuition|intros; discriminate].
    + split; [lia|]. split; [intros; discriminate|]. split; [intros t q [= <-] [= <-]; lia|].
      split; [intros _; exists 2, [2]; simpl; intuition|intros; discriminate].
  - intros (_ & H & _). assert (F: holds (Leq 1) (table [0; 3; 7]%Z 2) = true); [|discriminate F].
    apply (H 2). simpl. auto.
Qed.

Lemma binned_last : exists examples weight value thresholds bins sparseBin,
  binned_vector examples value thresholds bins sparseBin /\ (forall i, In i examples -> weight i = true) /\
  searchBinned weight (filter weight examples) (length (filter weight examples)) 1 thresholds bins sparseBin = None.
Proof.
  exists [0; 1], (fun _ => true), (table [-3; 0]%Z), [-1]%Z, [[0]; []], 1.
  split; [|split; [auto|vm_compute; reflexivity]].
  split; [split; [nd|split; [simpl; nd|]]|]. { simpl. intros x H. simpl in *. tauto. }
  split; [ss|]. split; [reflexivity|]. split; [simpl; lia|].
  intros i H. exists i. simpl in H. destruct H as [<-|[<-|[]]]; cbn.
  + split; [lia|]. split; [intros t [= <-]; lia|]. split; [intros; discriminate|].
    split; [intros _; exists 0, [0]; simpl; intuition|intros; discriminate].
  + split; [lia|]. split; [intros; discriminate|]. split; [intros t q [= <-] [= <-]; lia|].
    split; [intros H; exfalso; apply H; reflexivity|intros _ q ids Eq Hq].
    do 2 (destruct q as [|q]; [injection Eq as <-; simpl in Hq; intuition discriminate|]); destruct q; discriminate.
Qed.

(** ** The minimum coverage *)

Section Minimum.
Variables (weight : nat -> bool) (total : list nat) (N minCoverage : nat) (isEqual : Z -> Z -> bool).
Local Notation ok := (Forall (fun e => minCoverage <= eCovered e)).

Lemma consider_min e l : ok l -> ok (consider minCoverage e l).
Proof.
  intros H. unfold consider. destruct (Nat.leb_spec minCoverage (eCovered e)); auto. apply Forall_app. auto.
Qed.

Lemma evaluate_min s a b c t1 t2 l : ok l -> ok (evaluate total N minCoverage s a b c t1 t2 l).
Proof. intros H. unfold evaluate. apply consider_min, consider_min, H. Qed.

Lemma accumulated_min s a b c t1 t2 l l' : ok l ->
  evaluateAccumulated total N minCoverage s a b c t1 t2 l = Some l' -> ok l'.
Proof.
  intros H. unfold evaluateAccumulated. destruct (ssAccumulated s).
  - destruct (Nat.leb_spec minCoverage c), (Nat.leb_spec minCoverage (N - c)); intros [= <-]; rewrite ?Forall_app; auto.
  - destruct (minCoverage <=? c); [discriminate|]. destruct (minCoverage <=? N - c); [discriminate|]. intros [= <-]. auto.
Qed.

Lemma nominal_min values bins majority l : searchNominal weight total N minCoverage values bins majority = Some l -> ok l.
Proof.
  unfold searchNominal. intros E. set (body := fun (i : nat) (st : subset * nat * list evaluated) => _) in E.
  assert (HI: forall cnt i st st', forN cnt i body st = Some st' -> ok (snd st) -> ok (snd st')).
  { induction cnt as [|cnt IH]; intros i st st' F H; [injection F as <-; auto|]. cbn [forN] in F.
    destruct (body i st) as [st1|] eqn:Eb; [|discriminate]. apply (IH _ _ _ F). unfold body in Eb. destruct st as [[s m] l0].
    destruct (aget bins i) as [ids|]; [|discriminate]. rewrite add_all in Eb. destruct (aget values i) as [v|]; [|discriminate].
    injection Eb as <-. cbn [snd]. apply evaluate_min. exact H. }
  destruct (forN _ _ _ _) as [[[s m] l0]|] eqn:F; [|discriminate]. apply HI in F; [|constructor].
  eapply accumulated_min; eauto.
Qed.

Lemma binary_min minority majority ids : ok (searchBinary weight total N minCoverage minority majority ids).
Proof. unfold searchBinary. rewrite add_all. apply evaluate_min. constructor. Qed.

Lemma ordinal_up_min values bins majority cnt : forall i previous c s l r,
  ordinalUp weight total N minCoverage values bins majority cnt i previous c s l = Some r -> ok l -> ok (snd r).
Proof.
  induction cnt as [|cnt IH]; intros i previous c s l r E H; cbn [ordinalUp] in E; [injection E as <-; auto|].
  destruct (aget values i) as [cur|]; [|discriminate]. destruct (majority <=? cur)%Z; [injection E as <-; auto|].
  destruct (aget bins i) as [ids|]; [|discriminate]. rewrite add_all in E. apply (IH _ _ _ _ _ _ E). apply evaluate_min, H.
Qed.

Lemma ordinal_down_min values bins k cnt : forall c s l r,
  ordinalDown weight total N minCoverage values bins k cnt c s l = Some r -> ok l -> ok (snd r).
Proof.
  induction cnt as [|cnt IH]; intros c s l r E H; cbn [ordinalDown] in E; [injection E as <-; auto|].
  destruct (aget values (k + cnt)) as [cur|]; [|discriminate].
  destruct (aget bins (k + cnt)) as [ids|]; [|discriminate]. rewrite add_all in E. apply (IH _ _ _ _ E). apply evaluate_min, H.
Qed.

Lemma ordinal_min values bins majority l : searchOrdinal weight total N minCoverage values bins majority = Some l -> ok l.
Proof.
  unfold searchOrdinal. intros E. destruct (aget values 0) as [v0|]; [|discriminate].
  destruct (if (v0 <? majority)%Z then _ else _) as [[s0 c0]|]; [|discriminate].
  match type of E with match ?x with _ => _ end = _ => assert (H1: forall r, x = Some r -> ok (snd r)) end.
  { destruct (0 <? c0); [|intros r [= <-]; constructor].
    destruct (ordinalUp _ _ _ _ _ _ _ _ _ _ _ _ _) as [[[[[i p] c] s] l1]|] eqn:U; [|discriminate]. intros r [= <-].
    apply ordinal_up_min in U; [exact U|constructor]. }
  match type of E with match ?x with _ => _ end = _ => destruct x as [[[[[k ll] nl] s] l1]|]; [|discriminate] end.
  specialize (H1 _ eq_refl). cbn [snd] in H1.
  destruct (aget values (length values - 1)) as [vl|]; [|discriminate].
  match type of E with match ?x with _ => _ end = _ => destruct x as [[s2 c2]|]; [|discriminate] end.
  match type of E with match ?x with _ => _ end = _ => assert (H2: forall r, x = Some r -> ok (snd r)) end.
  { destruct (0 <? c2); [|intros r [= <-]; auto]. intros r R. eapply ordinal_down_min; eauto. }
  match type of E with match ?x with _ => _ end = _ => destruct x as [[[c3 s3] l3]|]; [|discriminate] end.
  specialize (H2 _ eq_refl). cbn [snd] in H2.
  destruct ((0 <? nl) && (nl <? N)); [eapply accumulated_min; [|exact E]|injection E as <-]; apply evaluate_min; auto.
Qed.

Lemma numerical_up_min v sparseValue cnt : forall i previous c s l r,
  numericalUp weight total N minCoverage isEqual v sparseValue cnt i previous c s l = Some r -> ok l -> ok (snd r).
Proof.
  induction cnt as [|cnt IH]; intros i previous c s l r E H; cbn [numericalUp] in E; [injection E as <-; auto|].
  destruct (aget v i) as [[j z]|]; [|discriminate]. destruct (negb _); [injection E as <-; auto|].
  destruct (weight j); apply IH in E; auto. destruct (isEqual previous z); auto. apply evaluate_min, H.
Qed.

Lemma numerical_down_min v k cnt : forall previous c s l r,
  numericalDown weight total N minCoverage isEqual v k cnt previous c s l = Some r -> ok l -> ok (snd r).
Proof.
  induction cnt as [|cnt IH]; intros previous c s l r E H; cbn [numericalDown] in E; [injection E as <-; auto|].
  destruct (aget v _) as [[j z]|]; [|discriminate].
  destruct (weight j); apply IH in E; auto. destruct (isEqual previous z); auto. apply evaluate_min, H.
Qed.

Lemma numerical_min v sparseValue sparse l :
  searchNumerical weight total N minCoverage isEqual v sparseValue sparse = Some l -> ok l.
Proof.
  unfold searchNumerical. intros E. destruct (numericalFirst _ _ _ _ _) as [[i found]|]; [|discriminate].
  match type of E with match ?x with _ => _ end = _ => assert (H1: forall r, x = Some r -> ok (snd r)) end.
  { destruct found as [[j z]|]; [|intros r [= <-]; constructor].
    destruct (numericalUp _ _ _ _ _ _ _ _ _ _ _ _ _) as [[[[[i' p] c] s] l1]|] eqn:U; [|discriminate]. intros r [= <-].
    apply numerical_up_min in U; [exact U|constructor]. }
  match type of E with match ?x with _ => _ end = _ => destruct x as [[[[[k ll] nl] s] l1]|]; [|discriminate] end.
  specialize (H1 _ eq_refl). cbn [snd] in H1.
  destruct (numericalLast _ _ _ _) as [found2|]; [|discriminate].
  match type of E with match ?x with _ => _ end = _ => assert (H2: forall r, x = Some r -> ok (snd r)) end.
  { destruct found2 as [[[i2 j2] z2]|]; [|intros r [= <-]; auto]. cbv zeta. destruct (0 <? i2); [|intros r [= <-]; auto].
    intros r R. eapply numerical_down_min; eauto. }
  match type of E with match ?x with _ => _ end = _ => destruct x as [[[[p3 c3] s3] l3]|]; [|discriminate] end.
  specialize (H2 _ eq_refl). cbn [snd] in H2.
  assert (H3: ok (if sparse then evaluate total N minCoverage s3 k (length v) c3 (GrMean sparseValue p3) (LeqMean sparseValue p3) l3 else l3)).
  { destruct sparse; auto. apply evaluate_min, H2. }
  destruct ((0 <? nl) && (nl <? N)); [eapply accumulated_min; [|exact E]|injection E as <-]; auto.
Qed.

Lemma at_min s a b c t g l l' : ok l -> evaluateAt total N minCoverage s a b c t g l = Some l' -> ok l'.
Proof.
  intros H. unfold evaluateAt. destruct (_ || _); [|intros [= <-]; auto]. destruct t; [|discriminate].
  destruct g; intros [= <-]; apply evaluate_min; auto.
Qed.

Lemma binned_up_min thresholds bins cnt : forall i c s l r,
  binnedUp weight total N minCoverage thresholds bins cnt i c s l = Some r -> ok l -> ok (snd r).
Proof.
  induction cnt as [|cnt IH]; intros i c s l r E H; cbn [binnedUp] in E; [injection E as <-; auto|].
  destruct (evaluateAt _ _ _ _ _ _ _ _ _ _) as [l1|] eqn:A; [|discriminate]. apply at_min in A; auto.
  destruct (aget bins _) as [ids|]; [|discriminate]. rewrite add_all in E. apply (IH _ _ _ _ _ E A).
Qed.

Lemma binned_down_min thresholds bins k cnt : forall c s l r,
  binnedDown weight total N minCoverage thresholds bins k cnt c s l = Some r -> ok l -> ok (snd r).
Proof.
  induction cnt as [|cnt IH]; intros c s l r E H; cbn [binnedDown] in E; [injection E as <-; auto|].
  destruct (evaluateAt _ _ _ _ _ _ _ _ _ _) as [l1|] eqn:A; [|discriminate]. apply at_min in A; auto.
  destruct (aget bins _) as [ids|]; [|discriminate]. rewrite add_all in E. apply (IH _ _ _ _ E A).
Qed.

Lemma binned_min thresholds bins sparseBin l : searchBinned weight total N minCoverage thresholds bins sparseBin = Some l -> ok l.
Proof.
  unfold searchBinned. intros E. destruct (if 0 <? sparseBin then _ else _) as [[s0 c0]|]; [|discriminate].
  match type of E with match ?x with _ => _ end = _ => assert (H1: forall r, x = Some r -> ok (snd r)) end.
  { destruct (0 <? c0); [|intros r [= <-]; constructor].
    destruct (binnedUp _ _ _ _ _ _ _ _ _ _ _) as [[[c s] l1]|] eqn:U; [|discriminate]. intros r [= <-].
    apply binned_up_min in U; [exact U|constructor]. }
  match type of E with match ?x with _ => _ end = _ => destruct x as [[[nl s] l1]|]; [|discriminate] end.
  specialize (H1 _ eq_refl). cbn [snd] in H1.
  match type of E with match ?x with _ => _ end = _ => destruct x as [[s2 c2]|]; [|discriminate] end.
  match type of E with match ?x with _ => _ end = _ => assert (H2: forall r, x = Some r -> ok (snd r)) end.
  { destruct (0 <? c2); [|intros r [= <-]; auto]. intros r R. eapply binned_down_min; eauto. }
  match type of E with match ?x with _ => _ end = _ => destruct x as [[[c3 s3] l3]|]; [|discriminate] end.
  specialize (H2 _ eq_refl). cbn [snd] in H2.
  match type of E with match ?x with _ => _ end = _ => assert (H3: forall r, x = Some r -> ok r) end.
  { intros r R. unfold evaluateSparseBin in R.
    destruct ((minCoverage <=? c3) || (minCoverage <=? N - c3)); [|injection R as <-; auto].
    destruct (aget thresholds sparseBin); [|discriminate].
    cbv zeta in R. injection R as R. rewrite <- R. apply consider_min, consider_min, H2. }
  match type of E with match ?x with _ => _ end = _ => destruct x as [l4|]; [|discriminate] end.
  specialize (H3 _ eq_refl).
  destruct (_ && _); [|injection E as <-; auto]. destruct (_ || _); [|injection E as <-; auto].
  destruct (aget thresholds _); [|discriminate]. eapply accumulated_min; eauto.
Qed.

End Minimum.
