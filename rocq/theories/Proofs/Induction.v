(** Rule pruning, rule induction and post-optimization. *)
From Coq Require Import ZArith Arith List Bool Lia.
From Verif Require Import Lib.Arr Model.Refinement Model.Induction Spec.Refinement Spec.Induction Proofs.Refinement.
Import ListNotations.
Open Scope nat_scope.

Lemma filterMask_length : forall m c, length m = length c -> length (filterMask m c) = length m.
Proof. induction m as [|a m IH]; intros [|b c] H; simpl in *; auto; lia. Qed.

Lemma nth_filterMask : forall m c e, length m = length c -> e < length m ->
  nth_error (filterMask m c) e = match nth_error m e with Some b => Some (b && nth e c false) | None => None end.
Proof.
  induction m as [|a m IH]; intros [|b c] e HL He; simpl in *; try lia. destruct e; simpl; auto.
  apply IH; lia.
Qed.

Lemma coverage_length n conds : length (coverage n conds) = n.
Proof. unfold coverage. rewrite map_length, seq_length. auto. Qed.

Lemma nth_coverage n conds e : e < n -> nth_error (coverage n conds) e = Some (satisfies conds e).
Proof.
  intros H. unfold coverage. rewrite nth_error_map.
  rewrite (nth_error_nth' (seq 0 n) 0) by (rewrite seq_length; auto). rewrite seq_nth by auto. reflexivity.
Qed.

Lemma coverage_nil n : fullMask n = coverage n [].
Proof.
  apply list_ext_len.
  - unfold fullMask. rewrite repeat_length, coverage_length. auto.
  - intros i Hi. unfold fullMask in *. rewrite repeat_length in Hi. rewrite nth_coverage by auto. unfold satisfies. simpl.
    rewrite (nth_error_nth' _ true) by (rewrite repeat_length; auto). rewrite nth_repeat. auto.
Qed.

Lemma coverage_snoc n conds c : length c = n -> filterMask (coverage n conds) c = coverage n (conds ++ [c]).
Proof.
  intros H. apply list_ext_len.
  - rewrite filterMask_length by (rewrite coverage_length; auto). rewrite !coverage_length. auto.
  - intros i Hi. rewrite filterMask_length in Hi by (rewrite coverage_length; auto). rewrite coverage_length in Hi.
    rewrite nth_filterMask by (rewrite coverage_length; auto). rewrite !nth_coverage by auto.
    unfold satisfies. rewrite forallb_app. simpl. rewrite andb_true_r. auto.
Qed.

Lemma removelast_firstn_len {A} (l : list A) : removelast l = firstn (length l - 1) l.
Proof. rewrite removelast_firstn_len. f_equal. lia. Qed.

Lemma removeLast_spec : forall n conds, n <= length conds -> removeLast n conds = Some (firstn (length conds - n) conds).
Proof.
  induction n as [|n IH]; intros conds H; cbn [removeLast].
  - rewrite Nat.sub_0_r, firstn_all. auto.
  - destruct conds as [|c conds]; [simpl in H; lia|].
    rewrite removelast_firstn_len. rewrite IH.
    + rewrite firstn_length, firstn_firstn. do 2 f_equal. cbn [length]. lia.
    + rewrite firstn_length. cbn [length] in *. lia.
Qed.

Section Irep.
Variables (k : learner) (evaluate : list bool -> Z) (conditions : list cond) (numExamples : nat).
Hypothesis lengths : forall c, In c conditions -> length c = numExamples.
Notation N := (length conditions).
Definition prefixMask (n : nat) : list bool := coverage numExamples (firstn n conditions).
Definition q (n : nat) : Z := evaluate (prefixMask n).

(** After the prefixes of lengths 1, ..., n-1 have been considered; [m] is the length of the best rule so far. *)
Definition irep_inv (n : nat) (st : list bool * Z * list bool * nat) : Prop :=
  let '(mask, bestQ, bestMask, pruned) := st in
  mask = prefixMask (n - 1) /\ exists m, (m = N \/ (1 <= m < n)) /\ pruned = N - m /\ bestMask = prefixMask m /\ bestQ = q m /\
    (forall j, (1 <= j < n \/ j = N) -> ~ better k (q j) (q m)) /\
    (forall j, 1 <= j < n -> j < m -> better k (q m) (q j)).

Lemma irep_loop : 1 < N -> exists st, forN (N - 1) 1 (irepStep k evaluate conditions)
   (fullMask numExamples, evaluate (prefixMask N), prefixMask N, 0) = Some st /\ irep_inv N st.
Proof.
  intros HN.
  destruct (forN_inv irep_inv (irepStep k evaluate conditions) (N - 1) 1
    (fullMask numExamples, evaluate (prefixMask N), prefixMask N, 0)) as (st & E & H).
  - unfold irep_inv. split; [apply coverage_nil|]. exists N. split; [auto|]. split; [lia|]. split; [auto|]. split; [auto|].
    split; [|intros; lia]. intros j [Hj| ->]; [lia|bz].
  - intros n [[[mask bestQ] bestMask] pruned] Hn (-> & m & Hm & -> & -> & -> & Hbest & Hshort). unfold irepStep.
    destruct (aget_Some conditions (n - 1)) as (c & Ec); [lia|]. rewrite Ec.
    assert (Lc: length c = numExamples) by (apply lengths; eapply nth_error_In; eauto).
    assert (EM: filterMask (prefixMask (n - 1)) c = prefixMask n).
    { unfold prefixMask. rewrite coverage_snoc by auto. f_equal.
      replace (firstn n conditions) with (firstn (S (n - 1)) conditions) by (f_equal; lia).
      clear -Ec. unfold aget in Ec. revert Ec. generalize (n - 1). generalize conditions.
      induction conditions0 as [|a l IH]; intros [|i] Ec; simpl in *; try discriminate.
      - injection Ec as ->. reflexivity.
      - f_equal. apply (IH i Ec). }
    rewrite EM. fold (q n).
    assert (HNN: n < N) by lia.
    destruct (compare_spec k (q n) (q m)) as [H1|H1]; cbn [orb].
    + eexists. split; [reflexivity|]. unfold irep_inv. split; [f_equal; lia|]. exists n.
      split; [right; lia|]. split; [auto|]. split; [auto|]. split; [auto|]. split.
      * intros j Hj. destruct (Nat.eq_dec j n) as [-> |Hne]; [bz|].
        assert (~ better k (q j) (q m)) by (apply Hbest; destruct Hj as [Hj| ->]; [left; lia|right; auto]). bz.
      * intros j Hj Hlt. assert (~ better k (q j) (q m)) by (apply Hbest; left; lia). bz.
    + destruct ((N - m =? 0) && negb (compare k (q m) (q n))) eqn:Et.
      * apply andb_true_iff in Et. destruct Et as [E1 E2]. apply Nat.eqb_eq in E1. apply negb_true_iff in E2.
        apply compare_false in E2. assert (m = N) by lia. subst m.
        eexists. split; [reflexivity|]. unfold irep_inv. split; [f_equal; lia|]. exists n.
        split; [right; lia|]. split; [auto|]. split; [auto|]. split; [auto|]. split.
        -- intros j Hj. destruct (Nat.eq_dec j n) as [-> |Hne]; [bz|].
           assert (~ better k (q j) (q N)) by (apply Hbest; destruct Hj as [Hj| ->]; [left; lia|right; auto]). bz.
        -- intros j Hj Hlt. assert (better k (q N) (q j)) by (apply Hshort; lia). bz.
      * eexists. split; [reflexivity|]. unfold irep_inv. split; [f_equal; lia|]. exists m.
        split; [lia|]. split; [auto|]. split; [auto|]. split; [auto|]. split.
        -- intros j Hj. destruct (Nat.eq_dec j n) as [-> |Hne]; [exact H1|]. apply Hbest.
           destruct Hj as [Hj| ->]; [left; lia|right; auto].
        -- intros j Hj Hlt. destruct (Nat.eq_dec j n) as [-> |Hne]; [|apply Hshort; lia].
           apply andb_false_iff in Et. destruct Et as [Et|Et].
           ++ apply Nat.eqb_neq in Et. lia.
           ++ apply negb_false_iff in Et. apply compare_true in Et. exact Et.
  - exists st. split; [exact E|]. replace (1 + (N - 1)) with N in H by lia. exact H.
Qed.

Lemma irep_lemma : 1 < N ->
  exists m, 1 <= m <= N /\
    irep k evaluate conditions (coverage numExamples conditions) =
      Some (firstn m conditions, Some (coverage numExamples (firstn m conditions)),
            coverage numExamples (firstn (N - 1) conditions)) /\
    (forall j, 1 <= j <= N ->
       ~ better k (evaluate (coverage numExamples (firstn j conditions))) (evaluate (coverage numExamples (firstn m conditions)))) /\
    (forall j, 1 <= j < m ->
       better k (evaluate (coverage numExamples (firstn m conditions))) (evaluate (coverage numExamples (firstn j conditions)))).
Proof.
  intros HN. destruct (irep_loop HN) as ([[[mask bestQ] bestMask] pruned] & E & (Em & m & Hm & Ep & EB & EQ & H1 & H2)).
  exists m. split; [lia|]. split; [|split].
  - unfold irep. destruct (Nat.ltb_spec 1 N); [|lia]. rewrite coverage_length.
    unfold prefixMask in E at 1. unfold prefixMask in E at 1. rewrite firstn_all in E. rewrite E.
    rewrite Ep, removeLast_spec by lia. replace (N - (N - m)) with m by lia. rewrite EB, Em. reflexivity.
  - intros j Hj. apply H1. destruct (Nat.eq_dec j N); [right; auto|left; lia].
  - intros j Hj. apply H2; lia.
Qed.
End Irep.

Lemma irep_short k evaluate conditions mask : length conditions <= 1 ->
  irep k evaluate conditions mask = Some (conditions, None, mask).
Proof. intros H. unfold irep. destruct (Nat.ltb_spec 1 (length conditions)); [lia|auto]. Qed.

Lemma induce_not_pruned k pruning recalculate hasZeroWeights evaluate conditions numExamples :
  hasZeroWeights = false \/ pruning = false \/ length conditions <= 1 ->
  induceRule k pruning recalculate hasZeroWeights evaluate conditions (coverage numExamples conditions) =
    Some (conditions, (if hasZeroWeights && recalculate then Some (coverage numExamples conditions) else None),
          coverage numExamples conditions).
Proof.
  intros H. unfold induceRule. destruct hasZeroWeights; [|auto]. destruct pruning.
  - rewrite irep_short by (destruct H as [H|[H|H]]; auto; discriminate). destruct recalculate; auto.
  - destruct recalculate; auto.
Qed.

(** The mask used for the recalculation is always that of the rule. *)
Lemma induce_recalculated k pruning evaluate conditions numExamples :
  (forall c, In c conditions -> length c = numExamples) ->
  exists conditions' mask, induceRule k pruning true true evaluate conditions (coverage numExamples conditions)
    = Some (conditions', Some (coverage numExamples conditions'), mask).
Proof.
  intros HL. destruct (Nat.le_gt_cases (length conditions) 1) as [H|H].
  - eexists _, _. rewrite induce_not_pruned by auto. reflexivity.
  - destruct pruning.
    + destruct (irep_lemma k evaluate conditions numExamples HL H) as (m & _ & E & _). unfold induceRule. rewrite E. eauto.
    + eexists _, _. rewrite induce_not_pruned by auto. reflexivity.
Qed.

(** ** Post-optimization *)
Lemma addScore_length : forall mask s p, length (addScore mask s p) = length p.
Proof. induction mask as [|m mask IH]; intros s [|x p]; simpl; auto. Qed.

Lemma nth_addScore : forall mask s p e x, length mask = length p -> nth_error (addScore mask s p) e = Some x ->
  exists b y, nth_error mask e = Some b /\ nth_error p e = Some y /\ x = (if b then y + s else y)%Z.
Proof.
  induction mask as [|m mask IH]; intros s [|y p] e x HL H; simpl in *; try lia; [destruct e; discriminate|].
  destruct e; simpl in *; [injection H as <-; eauto|]. apply (IH s p); auto.
Qed.

Lemma fold_filterMask n : forall conds pre, (forall c, In c conds -> length c = n) ->
  fold_left filterMask conds (coverage n pre) = coverage n (pre ++ conds).
Proof.
  induction conds as [|c conds IH]; intros pre H; simpl.
  - rewrite app_nil_r. auto.
  - rewrite coverage_snoc by (apply H; left; auto). rewrite IH by (intros; apply H; right; auto). rewrite <- app_assoc. auto.
Qed.

Lemma predicted_upd : forall rules i r r' e, nth_error rules i = Some r ->
  predicted (upd rules i r') e = (predicted rules e - (if satisfies (fst r) e then snd r else 0)
    + (if satisfies (fst r') e then snd r' else 0))%Z.
Proof.
  induction rules as [|a rules IH]; intros [|i] r r' e H; simpl in *; try discriminate.
  - injection H as ->. destruct (satisfies (fst r') e), (satisfies (fst r) e); lia.
  - rewrite (IH i r r' e H). destruct (satisfies (fst a) e); lia.
Qed.

Definition rule_ok (n : nat) (r : srule) : Prop := forall c, In c (fst r) -> length c = n.

Lemma optimizeRule_ok numExamples relearn base rules predictions n i :
  (forall m p r, exists r', relearn m p r = Some (r', coverage numExamples (fst r')) /\ rule_ok numExamples r') ->
  (forall r, In r rules -> rule_ok numExamples r) -> length predictions = numExamples -> i < length rules ->
  up_to_date base rules predictions ->
  exists rules' predictions', optimizeRule numExamples relearn i (rules, predictions, n) = Some (rules', predictions', n + 1) /\
    (forall r, In r rules' -> rule_ok numExamples r) /\ length predictions' = numExamples /\ length rules' = length rules /\
    up_to_date base rules' predictions'.
Proof.
  intros HR HO HL Hi HU. unfold optimizeRule. destruct (aget_Some rules i Hi) as (r & Er). rewrite Er. unfold aget in Er.
  assert (Or: rule_ok numExamples r) by (apply HO; eapply nth_error_In; eauto).
  rewrite coverage_nil, fold_filterMask by exact Or. cbn [app].
  set (rev := addScore (coverage numExamples (fst r)) (- snd r) predictions).
  destruct (HR n rev r) as (r' & E & Or'). rewrite E. rewrite aset_Some by auto. eexists _, _. split; [reflexivity|].
  split; [|split; [|split]].
  - intros x Hx. apply upd_In in Hx. destruct Hx as [-> |Hx]; auto.
  - unfold rev. rewrite !addScore_length. auto.
  - apply upd_length.
  - intros e p Hp. apply nth_addScore in Hp; [|unfold rev; rewrite coverage_length, addScore_length; auto].
    destruct Hp as (b & y & Eb & Ey & ->). unfold rev in Ey.
    apply nth_addScore in Ey; [|rewrite coverage_length; auto]. destruct Ey as (b' & z & Eb' & Ez & ->).
    assert (He: e < numExamples) by (rewrite <- HL; apply nth_error_Some; congruence).
    rewrite nth_coverage in Eb, Eb' by auto. injection Eb as <-. injection Eb' as <-.
    rewrite (predicted_upd rules i r r' e Er). rewrite (HU e z Ez).
    destruct (satisfies (fst r') e), (satisfies (fst r) e); lia.
Qed.

Lemma optimize_ok numExamples numIterations relearn base rules predictions :
  (forall m p r, exists r', relearn m p r = Some (r', coverage numExamples (fst r')) /\
     forall c, In c (fst r') -> length c = numExamples) ->
  (forall r c, In r rules -> In c (fst r) -> length c = numExamples) -> length predictions = numExamples ->
  up_to_date base rules predictions ->
  exists rules' predictions' n, optimizeModel numExamples numIterations relearn rules predictions
      = Some (rules', predictions', n) /\ length rules' = length rules /\ up_to_date base rules' predictions'.
Proof.
  intros HR HO HL HU. unfold optimizeModel.
  set (Inv := fun st : list srule * list Z * nat => let '(rs, ps, n) := st in
    (forall r, In r rs -> rule_ok numExamples r) /\ length ps = numExamples /\ length rs = length rules /\ up_to_date base rs ps).
  destruct (forN_inv (fun _ => Inv) (fun _ st => forN (length rules) 0 (optimizeRule numExamples relearn) st)
    numIterations 0 (rules, predictions, 0)) as ([[rs ps] n] & E & (_ & _ & H3 & H4)).
  - split; [intros r Hr c Hc; exact (HO r c Hr Hc)|]. auto.
  - intros j st _ Hst.
    destruct (forN_inv (fun _ => Inv) (optimizeRule numExamples relearn) (length rules) 0 st Hst) as (st' & E & H).
    + intros i [[rs ps] n] Hi (H1 & H2 & H3 & H4).
      destruct (optimizeRule_ok numExamples relearn base rs ps n i) as (rs' & ps' & E & G1 & G2 & G3 & G4); auto.
      { rewrite H3. lia. }
      exists (rs', ps', n + 1). split; [exact E|]. split; [exact G1|]. split; [exact G2|]. split; [lia|exact G4].
    + exists st'. split; [exact E|exact H].
  - exists rs, ps, n. split; [exact E|]. auto.
Qed.

(** ** Findings *)

(** Three examples; the first condition covers examples 0 and 1, the second one examples 0 and 2; the quality on the
    holdout set is the number of covered examples (to be minimised), so that nothing is pruned. *)
Lemma induce_refuted :
  exists conditions evaluate, (forall c, In c conditions -> length c = 3) /\
    exists conditions' mask, induceRule Boosting true true true evaluate conditions (coverage 3 conditions)
      = Some (conditions', Some (coverage 3 conditions'), mask) /\ mask <> coverage 3 conditions'.
Proof.
  exists [[true; true; false]; [true; false; true]],
    (fun m => Z.of_nat (length (filter (fun b => b) m))). split.
  - intros c [<-|[<-|[]]]; reflexivity.
  - exists [[true; true; false]; [true; false; true]], [true; true; false]. split; vm_compute; [reflexivity|discriminate].
Qed.

Lemma optimize_refuted :
  exists relearn rules predictions, up_to_date (fun _ => 0%Z) rules predictions /\ length predictions = 2 /\
    exists rules' predictions' n, optimizeModel 2 1 relearn rules predictions = Some (rules', predictions', n) /\
      ~ up_to_date (fun _ => 0%Z) rules' predictions'.
Proof.
  exists (fun _ _ _ => None), [([[true; false]], 3%Z)], [3; 0]%Z. split; [|split; [reflexivity|]].
  - intros [|[|e]] p H; simpl in H; try (destruct e; discriminate); injection H as <-; reflexivity.
  - eexists _, _, _. split; [vm_compute; reflexivity|]. intros H. specialize (H 0 0%Z eq_refl). vm_compute in H. discriminate.
Qed.
