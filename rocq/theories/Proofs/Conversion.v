(** Proofs about the conversion of non-decomposable statistics. *)
From Coq Require Import Reals List Bool Arith Lia Lra Permutation.
From Verif Require Import Lib.Arr Model.Losses Model.BoostStatistics Model.Conversion Spec.Losses Spec.BoostStatistics.
From Verif Require Model.BoostNonDecomposable Proofs.BoostNonDecomposable Proofs.BoostEvaluation Proofs.Losses Proofs.BoostStatistics Proofs.SparseStatistics.
From Verif Require Import Spec.Conversion.
Import ListNotations.
Open Scope R_scope.

Notation tri := BoostNonDecomposable.triangularNumber.

Lemma nth_error_upd {A} (l : list A) i j v : (i < length l)%nat -> nth_error (upd l i v) j = if Nat.eq_dec i j then Some v else nth_error l j.
Proof. intros H. destruct (Nat.eq_dec i j) as [<-|N]; [apply nth_error_upd_eq|apply nth_error_upd_neq]; auto. Qed.

Lemma nth_nth_error {A} (l : list A) i d : (i < length l)%nat -> nth_error l i = Some (nth i l d).
Proof. intros H. apply nth_error_nth'. auto. Qed.

Lemma tri_diagonal j : (tri (j + 1) - 1 = tri j + j)%nat.
Proof. rewrite Nat.add_1_r. rewrite Losses.tri_S. lia. Qed.
Lemma tri_in j m : (j < m)%nat -> (tri j + j < tri m)%nat.
Proof. intros H. pose proof (BoostNonDecomposable.tri_mono (S j) m ltac:(lia)) as T. rewrite Losses.tri_S in T. lia. Qed.

(** ** Loss functions *)

(** The gradients and Hessians are the same functions [F] of the ground truth and the scores. *)
Definition consistent {T} (m : nat) (loss : ndLoss T) (F : list T -> list R -> nat -> R * R) : Prop :=
  (forall scores truth g h, length scores = m -> length truth = m -> length g = m -> length h = tri m ->
    exists g' h', updateNonDecomposableStatistics loss scores truth g h = Some (g', h') /\ length g' = m /\ length h' = tri m /\
      forall j, (j < m)%nat -> (nth j g' 0, nth (tri j + j) h' 0) = F truth scores j) /\
  (forall scores truth g h, length scores = m -> length truth = m -> length g = m -> length h = m ->
    exists g' h', updateDecomposableStatistics loss scores truth g h = Some (g', h') /\ length g' = m /\ length h' = m /\
      forall j, (j < m)%nat -> (nth j g' 0, nth j h' 0) = F truth scores j).

Lemma stored_consistent {T} (d : T) m term st off loss :
  (forall scores truth g h, length scores = m -> length truth = m ->
     updateNonDecomposableStatistics loss scores truth g h =
       let* (g, s) := storeTerms term scores truth g in writeNonDecomposable (st s) (off s) scores truth g h) ->
  (forall scores truth g h, length scores = m -> length truth = m ->
     updateDecomposableStatistics loss scores truth g h =
       let* (g, s) := storeTerms term scores truth g in writeDecomposable (st s) scores truth g h) ->
  consistent m loss (fun truth scores j => st (sumR m (fun i => term (nth i truth d) (nth i scores 0))) (nth j truth d) (nth j scores 0)
    (term (nth j truth d) (nth j scores 0))).
Proof.
  intros H1 H2. split; intros scores truth g h LS LT LG LH.
  - rewrite H1 by auto. destruct (Losses.storeTerms_spec d term scores truth g) as (g1 & -> & L1 & V1); [lia|lia|].
    destruct (Losses.writeNonDecomposable_spec d (st (sumR (length truth) (fun i => term (nth i truth d) (nth i scores 0))))
      (off (sumR (length truth) (fun i => term (nth i truth d) (nth i scores 0)))) scores truth g1 h)
      as (g' & h' & E & G1 & G2 & G3 & _); [lia|lia|rewrite LH, LT; auto|].
    exists g', h'. rewrite E. split; [auto|]. split; [lia|]. split; [rewrite G2, LT; auto|]. intros j Hj. rewrite G3 by lia. rewrite V1 by lia.
    rewrite LT. auto.
  - rewrite H2 by auto. destruct (Losses.storeTerms_spec d term scores truth g) as (g1 & -> & L1 & V1); [lia|lia|].
    destruct (Losses.writeDecomposable_spec d (st (sumR (length truth) (fun i => term (nth i truth d) (nth i scores 0)))) scores truth g1 h)
      as (g' & h' & E & G1 & G2 & G3); [lia|lia|lia|].
    exists g', h'. rewrite E. split; [auto|]. split; [lia|]. split; [lia|]. intros j Hj. rewrite G3 by lia. rewrite V1 by lia.
    rewrite LT. auto.
Qed.

Lemma hinge_consistent m : exists F, consistent m squaredHingeLoss F.
Proof.
  eexists. eapply (stored_consistent true m hingeTerm (fun s => hingeStatistics s (sqrt s) (pow15 s)) (fun s => hingeOffDiagonal (pow15 s)));
    intros; reflexivity.
Qed.

Lemma error_consistent m : exists F, consistent m squaredErrorLoss F.
Proof.
  eexists. eapply (stored_consistent true m (fun (t : bool) p => p * p + -2 * binaryConversionFunction t * p + 1)
    (fun s t p x => (divideOrZero (p - binaryConversionFunction t) (sqrt s), divideOrZero (s - x) (pow15 s)))
    (fun s t p _ t2 p2 => divideOrZero (- (p - binaryConversionFunction t) * (p2 - binaryConversionFunction t2)) (pow15 s)));
    intros; reflexivity.
Qed.

Section Logistic.
  Variable e : R -> R.
  Definition lx (labels : list bool) (scores : list R) (i : nat) : R := if nth i labels true then - nth i scores 0 else nth i scores 0.
  Fixpoint runMax (labels : list bool) (scores : list R) (k : nat) : R :=
    match k with
    | O => 0
    | S k => if Rgt_dec (lx labels scores k) (runMax labels scores k) then lx labels scores k else runMax labels scores k
    end.
  Definition logisticF (m : nat) (labels : list bool) (scores : list R) (j : nat) : R * R :=
    let M := runMax labels scores m in
    let inv := if nth j labels true then -1 else 1 in
    updateGradientAndHessian e inv (nth j scores 0 * inv) M (e (0 - M) + sumR m (fun i => e (lx labels scores i - M))).

  Lemma logistic_consistent m : consistent m (logisticLoss e) (logisticF m).
  Proof.
    split; intros scores labels g h LS LT LG LH; cbn [logisticLoss updateNonDecomposableStatistics updateDecomposableStatistics].
    - unfold updateLogisticND.
      match goal with |- context[forN ?m ?s ?f (g, 0, 0)] => destruct (forN_inv (fun k (st : list R * R * R) =>
        length (fst (fst st)) = m /\ (forall i, (i < k)%nat -> nth i (fst (fst st)) 0 = lx labels scores i) /\
        snd (fst st) = runMax labels scores k) f m s (g, 0, 0)) as (((g1, mx), m2) & E1 & L1 & V1 & M1) end.
      { cbn [fst snd]. split; [lia|]. split; [intros; lia|reflexivity]. }
      { intros k ((g1, mx), m2) Hk (L & V & M). cbn [fst snd] in *.
        rewrite (BoostEvaluation.aget_nth scores k 0), (BoostEvaluation.aget_nth labels k true) by lia. cbv zeta. fold (lx labels scores k).
        rewrite aset_Some by lia.
        assert (V' : forall i, (i < S k)%nat -> nth i (upd g1 k (lx labels scores k)) 0 = lx labels scores i).
        { intros i Hi. rewrite Losses.nth_upd_R by lia. destruct (Nat.eqb_spec k i) as [->|]; auto. apply V. lia. }
        eexists. split; [reflexivity|]. subst mx. cbn [runMax].
        destruct (Rgt_dec (lx labels scores k) (runMax labels scores k)); [|destruct (Rgt_dec (lx labels scores k) m2)]; cbn [fst snd];
          rewrite upd_length; auto. }
      cbv zeta in E1 |- *. rewrite E1. clear E1. cbn [fst snd] in *. simpl in V1, M1.
      match goal with |- context[forN ?m ?s ?f ?z] => destruct (forN_inv (fun k (st : R * R) =>
        fst st = e (0 - mx) + sumR k (fun i => e (lx labels scores i - mx))) f m s z) as ((s1, s2) & E2 & S1) end.
      { cbn [fst]. simpl. ring. }
      { intros k (s1, s2) Hk S1. cbn [fst snd] in *. rewrite (BoostEvaluation.aget_nth g1 k 0) by lia. rewrite V1 by lia.
        eexists. split; [reflexivity|]. cbn [fst]. rewrite S1. simpl. ring. }
      rewrite E2. clear E2. cbn [fst] in S1. simpl in S1.
      match goal with |- context[writeNonDecomposable ?st ?off _ _ _ _] =>
        destruct (Losses.writeNonDecomposable_spec true st off scores labels g1 h) as (g' & h' & E & G1 & G2 & G3 & _) end;
        [lia|lia|rewrite LH, LT; auto|].
      exists g', h'. split; [exact E|]. split; [lia|]. split; [rewrite G2, LT; auto|]. intros j Hj. rewrite G3 by lia. unfold logisticF. cbv zeta.
      rewrite S1, M1, LT. auto.
    - unfold updateDecomposableLogisticND.
      match goal with |- context[forN ?m ?s ?f (g, 0)] => destruct (forN_inv (fun k (st : list R * R) =>
        length (fst st) = m /\ (forall i, (i < k)%nat -> nth i (fst st) 0 = lx labels scores i) /\
        snd st = runMax labels scores k) f m s (g, 0)) as ((g1, mx) & E1 & L1 & V1 & M1) end.
      { cbn [fst snd]. split; [lia|]. split; [intros; lia|reflexivity]. }
      { intros k (g1, mx) Hk (L & V & M). cbn [fst snd] in *.
        rewrite (BoostEvaluation.aget_nth scores k 0), (BoostEvaluation.aget_nth labels k true) by lia. cbv zeta. fold (lx labels scores k).
        rewrite aset_Some by lia. eexists. split; [reflexivity|]. subst mx. cbn [runMax fst snd]. rewrite upd_length. split; [auto|]. split; [|auto].
        intros i Hi. rewrite Losses.nth_upd_R by lia. destruct (Nat.eqb_spec k i) as [->|]; auto. apply V. lia. }
      cbv zeta in E1 |- *. rewrite E1. clear E1. cbn [fst snd] in *. simpl in V1, M1.
      rewrite (Losses.forN_sum (fun i => e (lx labels scores i - mx))).
      2: { intros i x Hi. rewrite (BoostEvaluation.aget_nth g1 i 0) by lia. rewrite V1 by auto. auto. }
      match goal with |- context[writeDecomposable ?st _ _ _ _] =>
        destruct (Losses.writeDecomposable_spec true st scores labels g1 h) as (g' & h' & E & G1 & G2 & G3) end; [lia|lia|lia|].
      exists g', h'. split; [exact E|]. split; [lia|]. split; [lia|]. intros j Hj. rewrite G3 by lia. unfold logisticF. cbv zeta.
      rewrite M1, LT. auto.
  Qed.
End Logistic.

(** ** Providers *)
Section Provider.
Context {T : Type}.
Variables (n m : nat) (loss : ndLoss T) (F : list T -> list R -> nat -> R * R) (truth : list (list T)).
Hypothesis HF : consistent m loss F.
Hypothesis HT : matrix n m truth.

Lemma matrix_row {A} (rows : list (list A)) i : matrix n m rows -> (i < n)%nat -> aget rows i = Some (nth i rows []) /\ length (nth i rows []) = m.
Proof.
  intros (L & H) Hi. split; [apply BoostEvaluation.aget_nth; lia|]. rewrite Forall_forall in H. apply H, nth_In. lia.
Qed.

Lemma upd_matrix {A} (rows : list (list A)) i row : matrix n m rows -> length row = m -> matrix n m (upd rows i row).
Proof. intros (L & H) Hr. split; [rewrite upd_length; auto|]. apply BoostStatistics.Forall_upd; auto. Qed.

Lemma triangles_row rows i : triangles n m rows -> (i < n)%nat ->
  exists g h, aget rows i = Some (g, h) /\ length g = m /\ length h = tri m.
Proof.
  intros (L & H) Hi. destruct (nth i rows ([], [])) as (g, h) eqn:E. exists g, h.
  rewrite <- E. split; [apply BoostEvaluation.aget_nth; lia|]. rewrite Forall_forall in H. specialize (H (nth i rows ([], [])) ltac:(apply nth_In; lia)).
  rewrite E in H. exact H.
Qed.

Lemma upd_triangles rows i g h : triangles n m rows -> length g = m -> length h = tri m -> triangles n m (upd rows i (g, h)).
Proof. intros (L & H) Hg Hh. split; [rewrite upd_length; auto|]. apply BoostStatistics.Forall_upd; auto. Qed.

(** The statistics of an example. *)
Definition nd_holds (scores : list (list R)) (rows : list (list R * list R)) (i : nat) : Prop :=
  forall j, (j < m)%nat -> exists g h, nth_error rows i = Some (g, h) /\ nth_error g j = Some (fst (F (nth i truth []) (nth i scores []) j)) /\
    nth_error h (tri j + j) = Some (snd (F (nth i truth []) (nth i scores []) j)).
Definition d_holds (scores : list (list R)) (rows : list (list (R * R))) (i : nat) : Prop :=
  forall j, (j < m)%nat -> exists row, nth_error rows i = Some row /\ nth_error row j = Some (F (nth i truth []) (nth i scores []) j).

(** The scores are [scores], the evaluation is [e]. *)
Definition invariant (scores : list (list R)) (e : ruleEvaluation) (p : provider) : Prop :=
  matrix n m scores /\
  ((exists s, nonDecomposableStatistics p = Some s /\ ndScores s = scores /\ ndEvaluation s = e /\ triangles n m (ndRows s) /\
      forall i, (i < n)%nat -> nd_holds scores (ndRows s) i) \/
   (exists s, nonDecomposableStatistics p = None /\ decomposableStatistics p = Some s /\ dScores s = scores /\ dEvaluation s = e /\
      matrix n m (dRows s) /\ forall i, (i < n)%nat -> d_holds scores (dRows s) i)).

Lemma invariant_observed scores e p : invariant scores e p -> currentScores p = Some scores /\ currentEvaluation p = Some e /\
  forall i j, (i < n)%nat -> (j < m)%nat -> currentStatistics p i j = Some (F (nth i truth []) (nth i scores []) j).
Proof.
  intros (_ & [(s & E1 & E2 & E3 & _ & H)|(s & E0 & E1 & E2 & E3 & _ & H)]); unfold currentScores, currentEvaluation, currentStatistics.
  - rewrite E1. cbv beta match. split; [congruence|]. split; [congruence|]. intros i j Hi Hj. destruct (H i Hi j Hj) as (g & h & -> & Eg & Eh).
    fold (tri j). rewrite Eg, Eh. destruct (F _ _ _); auto.
  - rewrite E0, E1. cbv beta match. split; [congruence|]. split; [congruence|]. intros i j Hi Hj. destruct (H i Hi j Hj) as (row & -> & Er). auto.
Qed.

Lemma convertRow_spec g h row : length g = m -> length h = tri m -> length row = m ->
  exists row', convertRow m (g, h) row = Some row' /\ length row' = m /\
    forall j, (j < m)%nat -> nth_error row' j = Some (nth j g 0, nth (tri j + j) h 0).
Proof.
  intros Lg Lh Lr. unfold convertRow.
  match goal with |- context[forN ?c ?s ?f ?z] => destruct (forN_inv (fun k (st : list (R * R)) => length st = m /\
    forall j, (j < k)%nat -> nth_error st j = Some (nth j g 0, nth (tri j + j) h 0)) f c s z) as (row' & E & L & V) end.
  - split; auto. intros; lia.
  - intros j st Hj (L & V). cbn [fst snd]. unfold diagonalAt. rewrite tri_diagonal. pose proof (tri_in j m ltac:(lia)).
    rewrite (BoostEvaluation.aget_nth g j 0), (BoostEvaluation.aget_nth h (tri j + j) 0) by lia. rewrite aset_Some by lia.
    eexists. split; [reflexivity|]. rewrite upd_length. split; [auto|]. intros i Hi. rewrite nth_error_upd by lia.
    destruct (Nat.eq_dec j i) as [->|]; [auto|]. apply V. lia.
  - exists row'. auto.
Qed.

Lemma convert_spec rows : triangles n m rows -> forall order memory, NoDup order -> Forall (fun i => (i < n)%nat) order -> matrix n m memory ->
  exists rows', toDecomposableStatistics m order rows memory = Some rows' /\ matrix n m rows' /\
    (forall i, ~ In i order -> nth_error rows' i = nth_error memory i) /\
    (forall i, In i order -> exists g h row, nth_error rows i = Some (g, h) /\ nth_error rows' i = Some row /\
       forall j, (j < m)%nat -> nth_error row j = Some (nth j g 0, nth (tri j + j) h 0)).
Proof.
  intros HR. unfold toDecomposableStatistics. induction order as [|i order IH]; intros memory ND FA HM.
  - exists memory. split; [reflexivity|]. split; [auto|]. split; [auto|]. intros i [].
  - apply NoDup_cons_iff in ND. destruct ND as (Ni & ND). apply Forall_cons_iff in FA. destruct FA as (Hi & FA). cbn [forL].
    destruct (triangles_row rows i HR Hi) as (g & h & Eg & Lg & Lh). rewrite Eg. destruct (matrix_row memory i HM Hi) as (-> & Lm).
    destruct (convertRow_spec g h (nth i memory []) Lg Lh Lm) as (row & -> & Lrow & V). rewrite aset_Some by (destruct HM; lia).
    destruct (IH (upd memory i row) ND FA (upd_matrix memory i row HM Lrow)) as (rows' & E & HM' & Out & In').
    exists rows'. split; [exact E|]. split; [auto|]. split.
    + intros k Hk. rewrite Out by (intros X; apply Hk; right; auto). rewrite nth_error_upd by (destruct HM; lia).
      destruct (Nat.eq_dec i k) as [->|]; [exfalso; apply Hk; left; auto|auto].
    + intros k [<-|Hk]; [|auto]. exists g, h, row. split; [exact Eg|]. split; [|exact V]. rewrite Out by auto.
      rewrite nth_error_upd by (destruct HM; lia). destruct (Nat.eq_dec i i); [auto|congruence].
Qed.

Lemma order_facts order : Permutation order (seq 0 n) -> NoDup order /\ Forall (fun i => (i < n)%nat) order /\ forall i, (i < n)%nat -> In i order.
Proof.
  intros HP. split; [|split].
  - eapply Permutation_NoDup; [symmetry; exact HP|apply seq_NoDup].
  - rewrite Forall_forall. intros i Hi. eapply Permutation_in in Hi; [|exact HP]. apply in_seq in Hi. lia.
  - intros i Hi. eapply Permutation_in; [symmetry; exact HP|]. apply in_seq. lia.
Qed.

Lemma switch_spec scores e e' p order memory : invariant scores e p -> Permutation order (seq 0 n) -> matrix n m memory ->
  exists p', switchRuleEvaluation m e' order memory p = Some p' /\ invariant scores e' p'.
Proof.
  intros (HS & HI) HP HM. destruct (order_facts order HP) as (ND & FA & All). unfold switchRuleEvaluation.
  destruct HI as [(s & E1 & E2 & E3 & HR & H)|(s & E0 & E1 & E2 & E3 & HR & H)].
  - rewrite E1. destruct (convert_spec (ndRows s) HR order memory ND FA HM) as (rows' & -> & HM' & _ & V).
    eexists. split; [reflexivity|]. split; [auto|]. right. eexists. split; [reflexivity|]. split; [reflexivity|]. cbn [dScores dEvaluation dRows].
    split; [auto|]. split; [auto|]. split; [auto|]. intros i Hi j Hj. destruct (V i (All i Hi)) as (g & h & row & Eg & Er & W).
    exists row. split; [auto|]. rewrite W by auto. destruct (H i Hi j Hj) as (g0 & h0 & Eg0 & Vg & Vh).
    rewrite Eg in Eg0. injection Eg0 as <- <-. rewrite (nth_error_nth g j 0 Vg), (nth_error_nth h (tri j + j) 0 Vh).
    rewrite <- surjective_pairing. reflexivity.
  - rewrite E0, E1. eexists. split; [reflexivity|]. split; [auto|]. right. eexists. split; [reflexivity|]. split; [reflexivity|].
    cbn [dScores dEvaluation dRows]. auto.
Qed.

Lemma denseChange_matrix scores c : matrix n m scores -> valid_change n m c ->
  exists scores', denseChange c scores = Some scores' /\ matrix n m scores' /\
    forall i, i <> changedExample c -> nth i scores' [] = nth i scores [].
Proof.
  intros HS (He & Hp).
  destruct c as [i p|i p]; cbn [exampleOf predictionOf changedExample] in *; unfold denseChange, changeRow; destruct (matrix_row scores i HS He) as (-> & L).
  - destruct (BoostStatistics.denseAdd_spec p m _ L Hp) as (row & -> & Lr & _). rewrite aset_Some by (destruct HS; lia).
    eexists. split; [reflexivity|]. split; [apply upd_matrix; auto|]. intros k Hk. rewrite BoostStatistics.nth_upd_eq. destruct (Nat.eqb_spec i k); [congruence|reflexivity].
  - destruct (BoostStatistics.denseRemove_spec p m _ L Hp) as (row & -> & Lr & _). rewrite aset_Some by (destruct HS; lia).
    eexists. split; [reflexivity|]. split; [apply upd_matrix; auto|]. intros k Hk. rewrite BoostStatistics.nth_upd_eq. destruct (Nat.eqb_spec i k); [congruence|reflexivity].
Qed.

Lemma change_spec scores e p c : invariant scores e p -> valid_change n m c ->
  exists p' scores', handle loss truth m (Change c) p = Some p' /\ denseChange c scores = Some scores' /\ invariant scores' e p'.
Proof.
  intros (HS & HI) HC. destruct (denseChange_matrix scores c HS HC) as (scores' & Ec & HS' & Keep).
  assert (Hi : (changedExample c < n)%nat) by (destruct HC as (X & _); destruct c; exact X). set (i := changedExample c) in *.
  destruct (matrix_row scores' i HS' Hi) as (As & Ls). destruct (matrix_row truth i HT Hi) as (At & Lt).
  destruct HF as (FN & FD). cbn [handle].
  destruct HI as [(s & E1 & E2 & E3 & HR & H)|(s & E0 & E1 & E2 & E3 & HR & H)].
  - rewrite E1. unfold changeNonDecomposable. fold i. rewrite E2, Ec, As, At. destruct (triangles_row (ndRows s) i HR Hi) as (g & h & -> & Lg & Lh).
    destruct (FN _ _ g h Ls Lt Lg Lh) as (g' & h' & -> & Lg' & Lh' & V). rewrite aset_Some by (destruct HR; lia).
    eexists. exists scores'. split; [reflexivity|]. split; [reflexivity|]. split; [auto|]. left. eexists. split; [reflexivity|].
    cbn [ndScores ndEvaluation ndRows]. split; [auto|]. split; [auto|]. split; [apply upd_triangles; auto|]. intros k Hk j Hj.
    destruct (Nat.eq_dec i k) as [<-|N].
    + exists g', h'. rewrite nth_error_upd by (destruct HR; lia). destruct (Nat.eq_dec i i) as [_|]; [|congruence]. split; [auto|].
      rewrite <- V by auto. cbn [fst snd]. split; apply nth_nth_error; [lia|]. rewrite Lh'. apply tri_in. auto.
    + destruct (H k Hk j Hj) as (g0 & h0 & X). exists g0, h0. rewrite nth_error_upd by (destruct HR; lia). destruct (Nat.eq_dec i k) as [|_]; [congruence|].
      rewrite Keep by auto. exact X.
  - rewrite E0, E1. unfold changeDecomposable. fold i. rewrite E2, Ec, As, At. destruct (matrix_row (dRows s) i HR Hi) as (-> & Lr).
    destruct (FD _ _ (map fst (nth i (dRows s) [])) (map snd (nth i (dRows s) [])) Ls Lt) as (g' & h' & -> & Lg' & Lh' & V); [rewrite map_length; auto..|].
    rewrite aset_Some by (destruct HR; lia).
    eexists. exists scores'. split; [reflexivity|]. split; [reflexivity|]. split; [auto|]. right. eexists. split; [reflexivity|]. split; [reflexivity|].
    cbn [dScores dEvaluation dRows]. split; [auto|]. split; [auto|]. split; [apply upd_matrix; auto; rewrite combine_length; lia|]. intros k Hk j Hj.
    destruct (Nat.eq_dec i k) as [<-|N].
    + exists (combine g' h'). rewrite nth_error_upd by (destruct HR; lia). destruct (Nat.eq_dec i i) as [_|]; [|congruence]. split; [auto|].
      rewrite <- V by auto. rewrite (nth_nth_error _ j (0, 0)) by (rewrite combine_length; lia). rewrite combine_nth by lia. auto.
    + destruct (H k Hk j Hj) as (row & X). exists row. rewrite nth_error_upd by (destruct HR; lia). destruct (Nat.eq_dec i k) as [|_]; [congruence|].
      rewrite Keep by auto. exact X.
Qed.

Lemma events_spec : forall es scores e p, invariant scores e p -> Forall (valid_event n m) es ->
  exists p' scores', forL es (handle loss truth m) p = Some p' /\ forL (changes es) denseChange scores = Some scores' /\
    invariant scores' (requested es e) p'.
Proof.
  induction es as [|ev es IH]; intros scores e p HI HV.
  - exists p, scores. split; [reflexivity|]. split; [reflexivity|]. exact HI.
  - apply Forall_cons_iff in HV. destruct HV as (Hv & HV). cbn [forL]. destruct ev as [order memory|order memory|c].
    + destruct Hv as (HP & HM). destruct (switch_spec scores e RegularRuleEvaluation p order memory HI HP HM) as (p1 & E1 & I1).
      cbn [handle]. rewrite E1. exact (IH scores _ p1 I1 HV).
    + destruct Hv as (HP & HM). destruct (switch_spec scores e PruningRuleEvaluation p order memory HI HP HM) as (p1 & E1 & I1).
      cbn [handle]. rewrite E1. exact (IH scores _ p1 I1 HV).
    + destruct (change_spec scores e p c HI Hv) as (p1 & scores1 & E1 & E2 & I1). rewrite E1. cbn [changes forL]. rewrite E2.
      exact (IH scores1 e p1 I1 HV).
Qed.

Lemma create_spec order memory : Permutation order (seq 0 n) -> triangles n m memory ->
  exists p, createProvider loss truth m order memory = Some p /\ invariant (repeat (repeat 0 m) n) DefaultRuleEvaluation p.
Proof.
  intros HP HM. destruct (order_facts order HP) as (ND & FA & All). unfold createProvider.
  assert (Ln : length truth = n) by (destruct HT; auto). rewrite Ln. set (scores := repeat (repeat 0 m) n).
  assert (HS : matrix n m scores).
  { split; [apply repeat_length|]. unfold scores. rewrite Forall_forall. intros x Hx. apply repeat_spec in Hx. subst x. apply repeat_length. }
  assert (X : forall order rows, NoDup order -> Forall (fun i => (i < n)%nat) order -> triangles n m rows ->
    exists rows', forL order (fun i rows =>
      let* scoreRow := aget scores i in
      let* truthRow := aget truth i in
      let* (gradients, hessians) := aget rows i in
      let* row := updateNonDecomposableStatistics loss scoreRow truthRow gradients hessians in
      aset rows i row) rows = Some rows' /\ triangles n m rows' /\ (forall i, ~ In i order -> nth_error rows' i = nth_error rows i) /\
      forall i, In i order -> nd_holds scores rows' i).
  { clear order memory HP HM ND FA All. destruct HF as (FN & _). induction order as [|i order IH]; intros rows ND FA HR.
    - exists rows. split; [reflexivity|]. split; [auto|]. split; [auto|]. intros i [].
    - apply NoDup_cons_iff in ND. destruct ND as (Ni & ND). apply Forall_cons_iff in FA. destruct FA as (Hi & FA). cbn [forL].
      destruct (matrix_row scores i HS Hi) as (-> & Ls). destruct (matrix_row truth i HT Hi) as (-> & Lt).
      destruct (triangles_row rows i HR Hi) as (g & h & -> & Lg & Lh).
      destruct (FN _ _ g h Ls Lt Lg Lh) as (g' & h' & -> & Lg' & Lh' & V). rewrite aset_Some by (destruct HR; lia).
      destruct (IH (upd rows i (g', h')) ND FA (upd_triangles rows i g' h' HR Lg' Lh')) as (rows' & -> & HR' & Out & Inn).
      exists rows'. split; [reflexivity|]. split; [auto|]. split.
      + intros k Hk. rewrite Out by (intros Z; apply Hk; right; auto). rewrite nth_error_upd by (destruct HR; lia).
        destruct (Nat.eq_dec i k) as [->|]; [exfalso; apply Hk; left; auto|auto].
      + intros k [<-|Hk]; [|auto]. intros j Hj. exists g', h'. rewrite Out by auto. rewrite nth_error_upd by (destruct HR; lia).
        destruct (Nat.eq_dec i i) as [_|]; [|congruence]. split; [auto|]. rewrite <- V by auto. cbn [fst snd].
        split; apply nth_nth_error; [lia|]. rewrite Lh'. apply tri_in. auto. }
  destruct (X order memory ND FA HM) as (rows' & -> & HR & _ & V). eexists. split; [reflexivity|]. split; [exact HS|]. left. eexists.
  split; [reflexivity|]. cbn [ndScores ndEvaluation ndRows]. split; [auto|]. split; [auto|]. split; [auto|]. intros i Hi. auto.
Qed.

Lemma changes_only cs : changes (map Change cs) = cs.
Proof. induction cs; simpl; [auto|]. f_equal. auto. Qed.
Lemma requested_changes cs d : requested (map Change cs) d = d.
Proof. induction cs; simpl; auto. Qed.

Lemma provider_consistent order memory es : Permutation order (seq 0 n) -> triangles n m memory -> Forall (valid_event n m) es ->
  exists p0 p q scores, createProvider loss truth m order memory = Some p0 /\
    forL es (handle loss truth m) p0 = Some p /\ forL (map Change (changes es)) (handle loss truth m) p0 = Some q /\
    forL (changes es) denseChange (repeat (repeat 0 m) n) = Some scores /\
    currentScores p = Some scores /\ currentScores q = Some scores /\ currentEvaluation p = Some (requested es DefaultRuleEvaluation) /\
    forall i j, (i < n)%nat -> (j < m)%nat -> exists g h, currentStatistics p i j = Some (g, h) /\ currentStatistics q i j = Some (g, h).
Proof.
  intros HP HM HV. destruct (create_spec order memory HP HM) as (p0 & E0 & I0).
  destruct (events_spec es _ _ p0 I0 HV) as (p & scores & E1 & E2 & I1).
  assert (HV' : Forall (valid_event n m) (map Change (changes es))).
  { clear -HV. induction es as [|ev es IH]; [constructor|]. apply Forall_cons_iff in HV. destruct HV as (H & HV).
    destruct ev; cbn [changes map]; auto. }
  destruct (events_spec _ _ _ p0 I0 HV') as (q & scores' & E3 & E4 & I2). rewrite changes_only in E4.
  assert (scores' = scores) by congruence. subst scores'. exists p0, p, q, scores.
  destruct (invariant_observed _ _ _ I1) as (O1 & O2 & O3). destruct (invariant_observed _ _ _ I2) as (O4 & _ & O5).
  repeat (split; [assumption|]). intros i j Hi Hj. rewrite O3, O5 by auto. destruct (F _ _ _) as (g, h). exists g, h. auto.
Qed.

Lemma provider_statistics order memory es : Permutation order (seq 0 n) -> triangles n m memory -> Forall (valid_event n m) es ->
  exists p0 p scores, createProvider loss truth m order memory = Some p0 /\
    forL es (handle loss truth m) p0 = Some p /\ currentScores p = Some scores /\ matrix n m scores /\
    forL (changes es) denseChange (repeat (repeat 0 m) n) = Some scores /\
    forall i j, (i < n)%nat -> (j < m)%nat -> currentStatistics p i j = Some (F (nth i truth []) (nth i scores []) j).
Proof.
  intros HP HM HV. destruct (create_spec order memory HP HM) as (p0 & E0 & I0).
  destruct (events_spec es _ _ p0 I0 HV) as (p & scores & E1 & E2 & I1). exists p0, p, scores.
  destruct (invariant_observed _ _ _ I1) as (O1 & O2 & O3). pose proof (proj1 I1). auto 8.
Qed.
End Provider.

Lemma logistic_derivatives :
  forall e, (forall x, x <= 0 -> e x = exp x) -> forall n m truth order memory es, matrix n m truth -> Permutation order (seq 0 n) ->
    triangles n m memory -> Forall (valid_event n m) es ->
    exists p0 p scores, createProvider (logisticLoss e) truth m order memory = Some p0 /\
      forL es (handle (logisticLoss e) truth m) p0 = Some p /\ currentScores p = Some scores /\ matrix n m scores /\
      forall i, (i < n)%nat -> let f s := ln (1 + sumR m (fun k => exp (- expected (nth k (nth i truth []) true) * nth k s 0))) in
        forall j, (j < m)%nat -> nth j (nth i scores []) 0 = effects i j (changes es) /\
          exists g h, currentStatistics p i j = Some (g, h) /\ partialDerivative f (nth i scores []) j g /\
            partialDerivative2 f (nth i scores []) j j h.
Proof.
  intros e He n m truth order memory es HT HP HM HV.
  destruct (provider_statistics n m _ _ truth (logistic_consistent e m) HT order memory es HP HM HV) as (p0 & p & scores & E0 & E1 & E2 & HS & Ec & V).
  exists p0, p, scores. repeat (split; [assumption|]). intros i Hi f j Hj.
  destruct (matrix_row n m scores i HS Hi) as (_ & Ls). destruct (matrix_row n m truth i HT Hi) as (_ & Lt). split.
  - destruct (SparseStatistics.dense_scores m (repeat (repeat 0 m) n) (changes es)) as (scores' & Es & _ & _ & Vs).
    + rewrite Forall_forall. intros x Hx. apply repeat_spec in Hx. subst x. apply repeat_length.
    + rewrite repeat_length. clear -HV. induction es as [|ev es IH]; [constructor|]. apply Forall_cons_iff in HV. destruct HV as (H & HV).
      destruct ev; cbn [changes]; auto.
    + rewrite repeat_length in Vs. rewrite Ec in Es. injection Es as <-. rewrite Vs by auto.
      rewrite (nth_indep _ [] (repeat 0 m)) by (rewrite repeat_length; auto). rewrite !nth_repeat. lra.
  - rewrite V by auto. destruct (logisticF e m (nth i truth []) (nth i scores []) j) as (g, h) eqn:EF. exists g, h. split; [auto|].
    destruct (Losses.non_decomposable_logistic_loss_diagonal e He (nth i truth []) (nth i scores []) (repeat 0 m) (repeat 0 m) m Lt Ls
      (repeat_length _ _) (repeat_length _ _)) as (g' & h' & Eu & _ & _ & W). cbv zeta in W.
    destruct (proj2 (logistic_consistent e m) (nth i scores []) (nth i truth []) (repeat 0 m) (repeat 0 m) Ls Lt
      (repeat_length _ _) (repeat_length _ _)) as (g2 & h2 & Eu2 & _ & _ & W2).
    cbn [logisticLoss updateDecomposableStatistics] in Eu2. rewrite Eu in Eu2. injection Eu2 as <- <-.
    specialize (W2 j Hj). rewrite EF in W2. injection W2 as <- <-. exact (W j Hj).
Qed.

Lemma conversion_logistic :
  forall e n m truth order memory es, matrix n m truth -> Permutation order (seq 0 n) -> triangles n m memory ->
    Forall (valid_event n m) es ->
    exists p0 p q scores, createProvider (logisticLoss e) truth m order memory = Some p0 /\
      forL es (handle (logisticLoss e) truth m) p0 = Some p /\
      forL (map Change (changes es)) (handle (logisticLoss e) truth m) p0 = Some q /\
      forL (changes es) denseChange (repeat (repeat 0 m) n) = Some scores /\
      currentScores p = Some scores /\ currentScores q = Some scores /\ currentEvaluation p = Some (requested es DefaultRuleEvaluation) /\
      forall i j, (i < n)%nat -> (j < m)%nat -> exists g h, currentStatistics p i j = Some (g, h) /\ currentStatistics q i j = Some (g, h).
Proof. intros e n m truth order memory es HT. apply (provider_consistent n m _ _ truth (logistic_consistent e m) HT). Qed.

Lemma conversion_squared_hinge :
  forall n m truth order memory es, matrix n m truth -> Permutation order (seq 0 n) -> triangles n m memory ->
    Forall (valid_event n m) es ->
    exists p0 p q scores, createProvider squaredHingeLoss truth m order memory = Some p0 /\
      forL es (handle squaredHingeLoss truth m) p0 = Some p /\
      forL (map Change (changes es)) (handle squaredHingeLoss truth m) p0 = Some q /\
      forL (changes es) denseChange (repeat (repeat 0 m) n) = Some scores /\
      currentScores p = Some scores /\ currentScores q = Some scores /\ currentEvaluation p = Some (requested es DefaultRuleEvaluation) /\
      forall i j, (i < n)%nat -> (j < m)%nat -> exists g h, currentStatistics p i j = Some (g, h) /\ currentStatistics q i j = Some (g, h).
Proof. intros n m truth order memory es HT. destruct (hinge_consistent m) as (F & HF). apply (provider_consistent n m _ F truth HF HT). Qed.

Lemma conversion_squared_error :
  forall n m truth order memory es, matrix n m truth -> Permutation order (seq 0 n) -> triangles n m memory ->
    Forall (valid_event n m) es ->
    exists p0 p q scores, createProvider squaredErrorLoss truth m order memory = Some p0 /\
      forL es (handle squaredErrorLoss truth m) p0 = Some p /\
      forL (map Change (changes es)) (handle squaredErrorLoss truth m) p0 = Some q /\
      forL (changes es) denseChange (repeat (repeat 0 m) n) = Some scores /\
      currentScores p = Some scores /\ currentScores q = Some scores /\ currentEvaluation p = Some (requested es DefaultRuleEvaluation) /\
      forall i j, (i < n)%nat -> (j < m)%nat -> exists g h, currentStatistics p i j = Some (g, h) /\ currentStatistics q i j = Some (g, h).
Proof. intros n m truth order memory es HT. destruct (error_consistent m) as (F & HF). apply (provider_consistent n m _ F truth HF HT). Qed.

(** Switching preserves the statistics for any loss function. *)
Lemma switch_preserves :
  forall n m s order memory e, triangles n m (ndRows s) -> Permutation order (seq 0 n) -> matrix n m memory ->
    exists p, switchRuleEvaluation m e order memory (mkProvider (Some s) None) = Some p /\ nonDecomposableStatistics p = None /\
      currentScores p = Some (ndScores s) /\ currentEvaluation p = Some e /\
      forall i j, (i < n)%nat -> (j < m)%nat ->
        currentStatistics p i j = Some (nth j (fst (nth i (ndRows s) ([], []))) 0, nth (j * (j + 1) / 2 + j) (snd (nth i (ndRows s) ([], []))) 0).
Proof.
  intros n m s order memory e HR HP HM. destruct (order_facts n order HP) as (ND & FA & All).
  destruct (convert_spec n m (ndRows s) HR order memory ND FA HM) as (rows' & E & _ & _ & V).
  unfold switchRuleEvaluation. cbn [nonDecomposableStatistics]. rewrite E. eexists. split; [reflexivity|]. split; [reflexivity|]. split; [reflexivity|].
  split; [reflexivity|]. intros i j Hi Hj. unfold currentStatistics. cbn [nonDecomposableStatistics decomposableStatistics dRows].
  destruct (V i (All i Hi)) as (g & h & row & Eg & -> & W). rewrite W by auto. rewrite (nth_error_nth _ _ ([], []) Eg). reflexivity.
Qed.

Lemma sqrt_form t : sqrt (0 + ((0 + 0) * (0 + 0) + -2 * t * (0 + 0) + 1)) = 1.
Proof. replace (0 + ((0 + 0) * (0 + 0) + -2 * t * (0 + 0) + 1)) with 1 by ring. apply sqrt_1. Qed.
Lemma divide_one x : divideOrZero x 1 = x.
Proof. unfold divideOrZero. destruct (Req_EM_T 1 0); [lra|]. field. Qed.

Lemma regression_refuted :
  forall t, t <> 1 -> exists p0 p q g g' h h',
    createProvider squaredErrorRegressionLoss [[t]] 1 [0%nat] [([0], [0])] = Some p0 /\
    forL [SwitchToRegular [0%nat] [[(0, 0)]]; Change (Apply 0 (CompletePrediction [0]))] (handle squaredErrorRegressionLoss [[t]] 1) p0 = Some p /\
    forL [Change (Apply 0 (CompletePrediction [0]))] (handle squaredErrorRegressionLoss [[t]] 1) p0 = Some q /\
    currentStatistics p 0 0 = Some (g, h) /\ currentStatistics q 0 0 = Some (g', h') /\ g' = - t /\ g <> g'.
Proof.
  intros t Ht. do 7 eexists. split; [reflexivity|]. split; [reflexivity|]. split; [reflexivity|]. split; [reflexivity|]. split; [reflexivity|].
  cbn -[sqrt Rmult Rplus Rminus Ropp Rdiv divideOrZero floatToBool pow15 sumR].
  unfold scoreConversionFunction. rewrite !sqrt_form, !divide_one. split; [ring|]. unfold floatToBool. destruct (Req_EM_T t 0); lra.
Qed.

Lemma regression_refuted_example :
  exists truth n m order memory es p0 p q g h h', matrix n m truth /\ Permutation order (seq 0 n) /\ triangles n m memory /\
    Forall (valid_event n m) es /\ createProvider squaredErrorRegressionLoss truth m order memory = Some p0 /\
    forL es (handle squaredErrorRegressionLoss truth m) p0 = Some p /\
    forL (map Change (changes es)) (handle squaredErrorRegressionLoss truth m) p0 = Some q /\
    currentStatistics p 0 0 = Some (g, h) /\ currentStatistics q 0 0 = Some (5 * g, h') /\ g <> 0.
Proof.
  exists [[5]], 1%nat, 1%nat, [0%nat], [([0], [0])], [SwitchToRegular [0%nat] [[(0, 0)]]; Change (Apply 0 (CompletePrediction [0]))].
  do 6 eexists. split; [repeat constructor|]. split; [apply Permutation_refl|]. split; [repeat constructor|]. split; [repeat constructor|].
  split; [reflexivity|]. split; [reflexivity|]. split; [reflexivity|]. split; [reflexivity|].
  cbn -[sqrt Rmult Rplus Rminus Ropp Rdiv divideOrZero floatToBool pow15 sumR].
  unfold scoreConversionFunction. rewrite !sqrt_form, !divide_one. unfold floatToBool. destruct (Req_EM_T 5 0); [lra|].
  split; [|lra]. f_equal. f_equal. lra.
Qed.
