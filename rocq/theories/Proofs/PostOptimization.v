(** Proofs about the rules that result from sequential post-optimization. *)
From Coq Require Import ZArith QArith Arith List Bool Lia.
From Verif Require Import Lib.Arr Model.Refinement Model.Induction Model.Rules Model.Stopping Model.BoostConfig
  Model.Training Spec.Rules Spec.Stopping Spec.Induction Spec.Training Spec.PostOptimization
  Proofs.Rules Proofs.Induction Proofs.Stopping Proofs.Training.
Import ListNotations.
Open Scope nat_scope.

Lemma up_to_date_scores n fixed rules predictions : length predictions = n ->
  (forall e p, nth_error predictions e = Some p -> p = predicted (fixed ++ rules) e) -> predictions = scoresOf n (fixed ++ rules).
Proof.
  intros HL HU. apply nth_error_ext. intros e. unfold scoresOf. rewrite nth_error_map.
  destruct (nth_error predictions e) as [p|] eqn:E.
  - assert (He : e < n) by (rewrite <- HL; apply nth_error_Some; congruence).
    rewrite (nth_error_nth' (seq 0 n) 0) by (rewrite seq_length; exact He). rewrite seq_nth by exact He. cbn. f_equal. now apply HU.
  - apply nth_error_None in E. replace (nth_error (seq 0 n) e) with (@None nat); [reflexivity|]. symmetry.
    apply nth_error_None. rewrite seq_length. lia.
Qed.

Lemma predicted_remove rules i r e : nth_error rules i = Some r ->
  predicted (firstn i rules ++ skipn (i + 1) rules) e = (predicted rules e - (if satisfies (fst r) e then snd r else 0))%Z.
Proof.
  intros E. rewrite predicted_app. apply nth_error_split in E. destruct E as (l1 & l2 & -> & <-).
  rewrite firstn_app, firstn_all, Nat.sub_diag, skipn_app. cbn [firstn]. rewrite app_nil_r.
  rewrite skipn_all2 by lia. replace (length l1 + 1 - length l1) with 1 by lia. cbn [skipn app]. rewrite predicted_app. cbn [predicted fold_right].
  fold (predicted l2 e). destruct (satisfies (fst r) e); lia.
Qed.

Lemma upd_split {A} (l : list A) i x : i < length l -> upd l i x = firstn i l ++ x :: skipn (i + 1) l.
Proof.
  revert i. induction l as [|y l IH]; intros [|i] H; cbn in *; try lia; [reflexivity|]. f_equal. apply IH. lia.
Qed.

Lemma iter_shift {A} (f : A -> A) n : forall x, Nat.iter n f (f x) = Nat.iter (S n) f x.
Proof. induction n as [|n IH]; intros x; [reflexivity|]. cbn [Nat.iter nat_rect]. f_equal. exact (IH x). Qed.

Section Replace.
Context (n : nat) (relearn : nat -> list Z -> srule -> option (srule * list bool)) (fixed : list srule).
Hypothesis HR : relearns n relearn.

Definition Inv (N : nat) (st : list srule * list Z * nat) : Prop :=
  let '(rules, predictions, _) := st in
  (forall r, In r rules -> rule_ok n r) /\ length predictions = n /\ length rules = N /\
  up_to_date (predicted fixed) rules predictions.

Lemma replace_step N i st : i < N -> Inv N st ->
  exists st', optimizeRule n relearn i st = Some st' /\ Inv N st' /\
    (fst (fst st'), snd st') = replaceRule n relearn fixed (fst (fst st), snd st) i.
Proof.
  intros Hi HI. destruct st as [[rules predictions] k]. destruct HI as (H1 & H2 & H3 & H4).
  destruct (optimizeRule_ok n relearn (predicted fixed) rules predictions k i) as (rules' & predictions' & E & G1 & G2 & G3 & G4); auto; [lia|].
  exists (rules', predictions', k + 1). split; [exact E|]. split; [repeat split; auto; lia|]. cbn [fst snd].
  unfold optimizeRule in E. destruct (aget_Some rules i ltac:(lia)) as (r & Er). rewrite Er in E. unfold aget in Er.
  assert (Or: rule_ok n r) by (apply H1; eapply nth_error_In; eauto).
  rewrite coverage_nil, fold_filterMask in E by exact Or. cbn [app] in E.
  assert (ES : addScore (coverage n (fst r)) (- snd r) predictions = scoresOf n (fixed ++ firstn i rules ++ skipn (i + 1) rules)).
  { apply up_to_date_scores; [rewrite addScore_length; exact H2|]. intros e p Hp.
    apply nth_addScore in Hp; [|rewrite coverage_length; auto]. destruct Hp as (b & y & Eb & Ey & ->).
    assert (He : e < n) by (rewrite <- H2; apply nth_error_Some; congruence). rewrite nth_coverage in Eb by exact He.
    injection Eb as <-. rewrite predicted_app, (predicted_remove rules i r e Er), (H4 e y Ey).
    destruct (satisfies (fst r) e); lia. }
  rewrite ES in E. unfold replaceRule. rewrite Er. destruct (HR k (scoresOf n (fixed ++ firstn i rules ++ skipn (i + 1) rules)) r) as (r' & E' & _).
  rewrite E' in *. rewrite aset_Some in E by lia. injection E as <- _. rewrite upd_split by lia. reflexivity.
Qed.

Lemma replace_loop N : forall cnt i st, i + cnt <= N -> Inv N st ->
  exists st', forN cnt i (optimizeRule n relearn) st = Some st' /\ Inv N st' /\
    (fst (fst st'), snd st') = fold_left (replaceRule n relearn fixed) (seq i cnt) (fst (fst st), snd st).
Proof.
  induction cnt as [|cnt IH]; intros i st Hc HI; [exists st; auto|]. cbn [forN seq fold_left].
  destruct (replace_step N i st ltac:(lia) HI) as (st1 & E1 & I1 & F1). rewrite E1.
  replace (i + 1) with (S i) by lia. destruct (IH (S i) st1 ltac:(lia) I1) as (st2 & E2 & I2 & F2). exists st2. split; [exact E2|].
  split; [exact I2|]. rewrite F2, F1. reflexivity.
Qed.

Lemma replace_all numIterations rules predictions :
  (forall r, In r rules -> rule_ok n r) -> length predictions = n -> up_to_date (predicted fixed) rules predictions ->
  exists predictions' k, optimizeModel n numIterations relearn rules predictions
    = Some (replaceAll n numIterations relearn fixed rules, predictions', k).
Proof.
  intros H1 H2 H3. unfold optimizeModel, replaceAll.
  assert (G : forall cnt i st, Inv (length rules) st ->
    exists st', forN cnt i (fun _ st => forN (length rules) 0 (optimizeRule n relearn) st) st = Some st' /\
    (fst (fst st'), snd st') = Nat.iter cnt
      (fun st => fold_left (replaceRule n relearn fixed) (seq 0 (length rules)) st) (fst (fst st), snd st)).
  { induction cnt as [|cnt IH]; intros i st HI; [exists st; auto|]. cbn [forN].
    destruct (replace_loop (length rules) (length rules) 0 st ltac:(lia) HI) as (st1 & E1 & I1 & F1). rewrite E1.
    destruct (IH (S i) st1 I1) as (st2 & E2 & F2). exists st2. split; [exact E2|]. rewrite F2, F1.
    apply iter_shift. }
  destruct (G numIterations 0 (rules, predictions, 0)) as ([[rules' predictions'] k] & E & F); [repeat split; auto|].
  exists predictions', k. rewrite E. cbn [fst snd] in F. rewrite <- F. reflexivity.
Qed.
End Replace.

Lemma dlist_default d : dlist d = defaultRules d.
Proof. reflexivity. Qed.

Lemma visit_built d rules u : rlVisit (bBuild true (mkBuilder (drule d) rules u)) = Some (dlist d ++ rules).
Proof.
  rewrite bBuild_eq. rewrite Stopping.visit_all. cbn [rlDefault rlRules rlPrecedence bDefault bRules bNumUsed].
  unfold rlGetNumRules. cbn [rlDefault rlRules bDefault bRules]. destruct d; cbn [drule expected_order dlist app].
  - replace (length rules + 1 - 1) with (length rules) by lia. now rewrite firstn_all.
  - now rewrite Nat.add_0_r, firstn_all.
Qed.

Section Fit.
Context {X C : Type}
        (test : list Z * X -> nat -> C -> option (result * C))
        (learn : list Z -> X -> option (srule * list bool) * X)
        (relearn : nat -> list Z -> srule -> option (srule * list bool)).

Lemma fit_optimized :
  forall fuel numExamples default numIterations x c model scores,
  learns numExamples learn -> relearns numExamples relearn ->
  (forall t m c r c', test t m c = Some (r, c') -> rNumUsed r <= m) ->
  fit test learn relearn fuel numExamples default true (Some numIterations) x c = Some (Some (model, scores)) ->
  exists learned learnedScores rules dropped,
  fit test learn relearn fuel numExamples default false None x c = Some (Some (learned, learnedScores)) /\
  rlVisit learned = Some (defaultRules default ++ rules ++ dropped) /\ rlVisitUsed learned = Some (defaultRules default ++ rules) /\
  rlVisitUsed model
    = Some (defaultRules default ++ replaceAll numExamples numIterations relearn (defaultRules default ++ dropped) rules).
Proof.
  intros fuel n d it x c model scores HL HR HT H. unfold fit in *. fold (drule d) in *.
  destruct (induceRules _ _ _ _ _ _ _) as [[[b [ps x']]|]|] eqn:E; try discriminate.
  apply C42_lemma in E. destruct E as (ts & cs & rules & results & _ & H0 & _ & R & Eb). simpl in Eb.
  destruct (run_up_to_date test learn n d ts cs rules results (ps, x') x HL H0 R) as (L & U & K). cbn [fst] in L, U.
  pose proof (results_bound test learn _ _ _ _ _ _ HT R) as HB.
  assert (Eb': b = mkBuilder (drule d) rules (last_reported (map rNumUsed results))) by (rewrite Eb; destruct d; auto).
  clear Eb. set (u := last_reported (map rNumUsed results)) in *. subst b.
  assert (Hu: u <= bGetNumRules (mkBuilder (drule d) rules u)).
  { unfold bGetNumRules. cbn [bRules bDefault]. destruct d; simpl in *; lia. }
  unfold postOptimize in *.
  destruct (C43_lemma (mkBuilder (drule d) rules u) Hu) as (b' & Er & D1 & D2 & (k & D3) & V). rewrite Er in H.
  cbn [bDefault bRules] in D1, D3. destruct b' as [d' rules' u']. cbn [bDefault bRules bNumUsed] in *. subst d' u' rules'.
  exists (bBuild true (mkBuilder (drule d) rules u)), ps, (firstn k rules), (skipn k rules). split; [reflexivity|].
  rewrite firstn_skipn. split; [apply visit_built|]. split.
  - destruct (V true) as (V1 & _ & _). rewrite <- V1. apply visit_built.
  - destruct (replace_all n relearn (defaultRules d ++ skipn k rules) HR it (firstn k rules) ps) as (ps' & m & EO).
    + intros r Hr c' Hc. apply (K r c'); [|exact Hc]. rewrite <- (firstn_skipn k rules). apply in_or_app. auto.
    + exact L.
    + intros e p Hp. rewrite (U e p Hp), predicted_app, <- dlist_default, predicted_dlist.
      rewrite <- (firstn_skipn k rules) at 1. rewrite predicted_app. lia.
    + rewrite EO in H. injection H as <- <-.
      destruct (visit_split d (replaceAll n it relearn (defaultRules d ++ skipn k rules) (firstn k rules)) 0 (Nat.le_0_l _))
        as (k' & V' & Hk). rewrite V', (Hk eq_refl), firstn_all. reflexivity.
Qed.

Lemma fit_optimized_all :
  forall fuel numExamples default removeUnused numIterations x c model scores,
  learns numExamples learn -> relearns numExamples relearn ->
  (forall t m c r c', test t m c = Some (r, c') -> rNumUsed r = 0) ->
  fit test learn relearn fuel numExamples default removeUnused (Some numIterations) x c = Some (Some (model, scores)) ->
  exists learned learnedScores rules,
  fit test learn relearn fuel numExamples default removeUnused None x c = Some (Some (learned, learnedScores)) /\
  rlVisitUsed learned = Some (defaultRules default ++ rules) /\
  rlVisitUsed model = Some (defaultRules default ++ replaceAll numExamples numIterations relearn (defaultRules default) rules).
Proof.
  intros fuel n d removeUnused it x c model scores HL HR HT H. unfold fit in *. fold (drule d) in *.
  destruct (induceRules _ _ _ _ _ _ _) as [[[b [ps x']]|]|] eqn:E; try discriminate.
  apply C42_lemma in E. destruct E as (ts & cs & rules & results & _ & H0 & _ & R & Eb). simpl in Eb.
  destruct (run_up_to_date test learn n d ts cs rules results (ps, x') x HL H0 R) as (L & U & K). cbn [fst] in L, U.
  rewrite (results_silent test learn _ _ _ _ _ _ HT R) in Eb.
  assert (Eb': b = mkBuilder (drule d) rules 0) by (rewrite Eb; destruct d; auto). clear Eb. subst b.
  unfold postOptimize in *.
  assert (Er: (if removeUnused then removeUnusedRules (mkBuilder (drule d) rules 0)
    else Some (mkBuilder (drule d) rules 0)) = Some (mkBuilder (drule d) rules 0)) by (destruct removeUnused; auto).
  rewrite Er in *. clear Er. cbn [bRules bDefault bNumUsed] in H.
  exists (bBuild true (mkBuilder (drule d) rules 0)), ps, rules. split; [reflexivity|]. split.
  - destruct (visit_split d rules 0 (Nat.le_0_l _)) as (k' & V' & Hk). rewrite V', (Hk eq_refl), firstn_all. reflexivity.
  - destruct (replace_all n relearn (defaultRules d) HR it rules ps) as (ps' & m & EO).
    + intros r Hr c' Hc. exact (K r c' Hr Hc).
    + exact L.
    + intros e p Hp. rewrite (U e p Hp), <- dlist_default, predicted_dlist. reflexivity.
    + rewrite EO in H. injection H as <- <-.
      destruct (visit_split d (replaceAll n it relearn (defaultRules d) rules) 0 (Nat.le_0_l _))
        as (k' & V' & Hk). rewrite V', (Hk eq_refl), firstn_all. reflexivity.
Qed.
End Fit.

(** A single example with the label 1. Rules predict 1. Post-pruning keeps one out of two rules, the other one is removed. Given
    the scores of other rules, the remaining rule is replaced with one that predicts the difference to the label. *)
Lemma optimized_refuted :
  let test := fun (t : list Z * unit) n => listTest critTest
    (mkEnv 0%Z (fun e => (inject_Z (nth e (fst t) 0%Z) - 1) * (inject_Z (nth e (fst t) 0%Z) - 1))%Q) n in
  let learn := fun (_ : list Z) (x : unit) => (Some (([[true]], 1%Z), [true]), x) in
  let relearn := fun (_ : nat) (scores : list Z) (_ : srule) => Some (([[true]], (1 - nth 0 scores 0)%Z), [true]) in
  learns 1 learn /\ relearns 1 relearn /\
  exists learned scores rules model scores' rules',
    fit test learn relearn 5 1 None true None tt [CSize 2; CPost (Single [0]) true 1 1 (postInit 1)]
      = Some (Some (learned, scores)) /\
    fit test learn relearn 5 1 None true (Some 1) tt [CSize 2; CPost (Single [0]) true 1 1 (postInit 1)]
      = Some (Some (model, scores')) /\
    rlVisitUsed learned = Some rules /\ rlVisitUsed model = Some rules' /\
    predicted rules 0 = 1%Z /\ predicted (replaceAll 1 1 relearn [] rules) 0 = 1%Z /\ predicted rules' 0 = 0%Z.
Proof.
  intros test learn relearn. split; [|split].
  - intros p x rule mask x' H. injection H as <- <- _. split; [reflexivity|]. intros c [<-|[]]. reflexivity.
  - intros n p r. exists ([[true]], (1 - nth 0 p 0)%Z). split; [reflexivity|]. intros c [<-|[]]. reflexivity.
  - eexists _, _, _, _, _, _. split; [vm_compute; reflexivity|]. split; [vm_compute; reflexivity|]. split; [vm_compute; reflexivity|].
    split; [vm_compute; reflexivity|]. split; [vm_compute; reflexivity|]. split; vm_compute; reflexivity.
Qed.
