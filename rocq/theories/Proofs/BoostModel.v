(** Proofs about the models that result from training a boosted ensemble. *)
From Coq Require Import Reals ZArith NArith List Bool Arith Lia Lra Permutation.
From Verif Require Import Lib.Arr Model.Rules Model.Losses Model.BoostStatistics Model.BoostTraining Model.Prediction Model.BoostModel
  Proofs.BoostStatistics Proofs.Rules Proofs.Prediction Proofs.Parallel Proofs.BoostTraining
  Spec.Rules Spec.BoostStatistics Spec.BoostTraining Spec.BoostModel.
Import ListNotations.
Open Scope R_scope.

Lemma createHead_ok p row : valid_prediction (length row) p -> addHead Rplus (createHead p) row = denseAddToRow p row.
Proof.
  intros V. rewrite <- applyHead_ok. destruct p as [v|ix v]; simpl in *; unfold applyCompleteHead, applyPartialHead, denseAddToRow, denseScoreStep.
  - rewrite V. reflexivity.
  - destruct V as (L & _). rewrite combine_length, L, Nat.min_id. rewrite <- L. apply forN_ext. intros i st Hi.
    assert (E : aget (combine ix v) i = Some (nth i ix 0%nat, nth i v 0)).
    { rewrite (aget_nth (combine ix v) i (0%nat, 0)) by (rewrite combine_length; lia). rewrite nth_combine by auto. reflexivity. }
    rewrite E. rewrite (aget_nth ix i 0%nat) by lia. rewrite (aget_nth v i 0) by lia. reflexivity.
Qed.

Section Model.
Context {T : Type} (d : T) (regression : bool) (update : T -> R -> R * R) (truth : list (list T)) (n m : nat).
Hypothesis HT : isMatrix n m truth.
Context (l1 l2 : R) (junkF : nat * fval) (junkI : nat * Z) (row : nat -> list fval).

Notation inv := (state_inv d update truth n m).
Notation cov e := (fun r : Prediction.rule R => coversDense (row e) (fst r)).

Lemma step_model r t s : valid_rule regression n m r -> inv t s ->
  exists p t' s', predictRule l1 l2 (trStatistics t) r = Some p /\
    forL (ruleCovered r) (applyToExample regression update truth p) t = Some t' /\ inv t' s' /\
    forall e, (e < n)%nat ->
      (In e (ruleCovered r) -> addHead Rplus (createHead p) (nth e (trScores t) []) = Some (nth e (trScores t') [])) /\
      (~ In e (ruleCovered r) -> nth e (trScores t') [] = nth e (trScores t) []).
Proof.
  intros HR HS. destruct (predictRule_spec d regression update truth n m l1 l2 r t s HR HS) as (p & E & OK & HP). pose proof HR as (HN & HF & _).
  destruct (applyAll_spec d regression update truth n m HT p (ruleCovered r) OK HN HF t s HS) as (t' & Et & St).
  exists p, t'. eexists. split; [auto|]. split; [exact Et|]. split; [exact St|]. intros e He.
  destruct HS as (M1 & _ & V1). destruct St as (M2 & _ & V2). destruct (matrix_row n m _ e M1 He) as (_ & L1). destruct (matrix_row n m _ e M2 He) as (_ & L2).
  split; intros Hin.
  - rewrite createHead_ok by (rewrite L1; apply OK). destruct (denseAdd_spec p m _ L1 (proj1 OK)) as (row' & -> & Lr & Nr). f_equal.
    apply (nth_ext _ _ 0 0); [lia|]. intros l Hl. rewrite Nr by lia. destruct (V1 e l He ltac:(lia)) as (-> & _). destruct (V2 e l He ltac:(lia)) as (-> & _).
    destruct (in_dec Nat.eq_dec e (ruleCovered r)); [reflexivity|contradiction].
  - apply (nth_ext _ _ 0 0); [lia|]. intros l Hl. destruct (V1 e l He ltac:(lia)) as (-> & _). destruct (V2 e l He ltac:(lia)) as (-> & _).
    destruct (in_dec Nat.eq_dec e (ruleCovered r)); [contradiction|lra].
Qed.

Lemma createBody_ok conditions : Forall well_typed conditions -> exists b, createBody junkF junkI conditions = Some b /\
  forall r, Forall (evaluable r) conditions -> exists c, coversDense r b = Some c /\ (c = true <-> Forall (holds r) conditions).
Proof.
  intros W. unfold createBody.
  assert (E : forall l, forL conditions (fun c l => clAdd l c) l = cl_run l (map ClAdd conditions)).
  { clear W. induction conditions as [|c cs IH]; intros l; [reflexivity|]. cbn [forL map cl_run]. destruct (clAdd l c); auto. }
  assert (S : forall pre, surviving pre (map ClAdd conditions) = Some (pre ++ conditions)).
  { clear W E. induction conditions as [|c cs IH]; intros pre; cbn [map surviving]; [rewrite app_nil_r; auto|]. rewrite IH, <- app_assoc. reflexivity. }
  destruct (C20_lemma junkF junkI (map ClAdd conditions) conditions (S []) W) as (l & b & E1 & E2 & _ & _ & H).
  rewrite E, E1, E2. eexists. split; [reflexivity|]. exact H.
Qed.

Definition okRule (cr : list condition * BoostTraining.rule) : Prop :=
  valid_rule regression n m (snd cr) /\ Forall well_typed (fst cr) /\ covers_satisfying n row (fst cr) (snd cr) /\ no_missing n row (fst cr).

Lemma rules_model rules : Forall okRule rules -> forall model t s, inv t s ->
  exists learned final, length learned = length rules /\
    forL rules (learnRule regression update l1 l2 truth junkF junkI) (model, t) = Some (fold_left rlAddRule learned model, final) /\
    forL (map snd rules) (applyRule regression update l1 l2 truth) t = Some final /\
    forall k, exists tk sk, forL (firstn k (map snd rules)) (applyRule regression update l1 l2 truth) t = Some tk /\ inv tk sk /\
      forall e, (e < n)%nat -> score_of Rplus (cov e) (firstn k learned) (nth e (trScores t) []) = Some (nth e (trScores tk) []).
Proof.
  induction rules as [|cr rules IH]; intros HF model t s HS.
  - exists [], t. split; [reflexivity|]. split; [reflexivity|]. split; [reflexivity|]. intros k. exists t, s. destruct k; cbn [map firstn forL score_of]; auto.
  - apply Forall_cons_iff in HF. destruct HF as ((V & W & C & N) & HF).
    destruct (step_model (snd cr) t s V HS) as (p & t1 & s1 & Ep & Et & S1 & R1). destruct (createBody_ok (fst cr) W) as (b & Eb & Hb).
    destruct (IH HF (rlAddRule model (b, createHead p)) t1 s1 S1) as (learned & final & L & E1 & E2 & K).
    assert (EA : applyRule regression update l1 l2 truth (snd cr) t = Some t1) by (unfold applyRule; rewrite Ep; exact Et).
    exists ((b, createHead p) :: learned), final. split; [simpl; auto|]. split.
    { cbn [forL]. unfold learnRule at 1. cbn [fst snd]. rewrite Ep, Et, Eb. exact E1. }
    split; [cbn [map forL]; rewrite EA; exact E2|].
    intros [|k]; [exists t, s; cbn [firstn forL score_of]; auto|]. destruct (K k) as (tk & sk & Ek & Sk & Rk). exists tk, sk.
    cbn [map firstn forL score_of fst snd]. rewrite EA. split; [exact Ek|]. split; [exact Sk|]. intros e He. destruct (Hb (row e) (N e He)) as (c & -> & Hc).
    destruct (R1 e He) as (R1a & R1b). destruct c.
    + rewrite R1a by (apply C; split; [auto|apply Hc; auto]). apply Rk. auto.
    + rewrite <- R1b; [apply Rk; auto|]. intros X. apply C in X. destruct X as (_ & X). apply Hc in X. discriminate.
Qed.

Lemma fold_addRule (learned : list (Prediction.rule R)) : forall model,
  fold_left rlAddRule learned model = mkRuleList (rlDefault model) (rlRules model ++ learned) (rlNumUsed model) (rlPrecedence model).
Proof.
  induction learned as [|r learned IH]; intros model; simpl; [rewrite app_nil_r; destruct model; reflexivity|].
  rewrite IH. simpl. rewrite <- app_assoc. reflexivity.
Qed.
End Model.

Definition defaultOf {A} (l : option A) : list A := match l with Some r => [r] | None => [] end.

Lemma order_prefix {A} (dflt : option A) rules k : (dflt <> None -> 0 < k)%nat -> expected_order dflt rules true k = firstn k (defaultOf dflt ++ rules).
Proof.
  intros H. destruct dflt as [x|]; simpl; [|reflexivity]. destruct k as [|k]; [specialize (H ltac:(discriminate)); lia|]. simpl. rewrite Nat.sub_0_r. reflexivity.
Qed.

Lemma numUsed_limit {A} (l : ruleList A) maxRules : limitRules maxRules (rlGetNumUsed l) = numUsed (rlNumUsed l) maxRules (rlGetNumRules l).
Proof. unfold limitRules, rlGetNumUsed, numUsed. destruct (rlNumUsed l), maxRules; reflexivity. Qed.

Lemma model_scores :
  forall (T : Type) (d : T) regression (update : T -> R -> R * R) l1 l2 (truth : list (list T)) n m junk junkF junkI default rules numUsedRules fm row,
    isMatrix n m truth -> isMatrix n m junk -> fmRows fm = n -> (forall i, (i < n)%nat -> example_row fm i (row i)) ->
    learned_from regression n m row default rules -> Forall (fun cr => no_missing n row (fst cr)) rules ->
    (numUsedRules <= length (allRules default rules))%nat -> (N.of_nat (length (allRules default rules)) < 2 ^ 32)%N ->
    exists model final,
      learnModel regression update l1 l2 truth m junk junkF junkI default rules numUsedRules = Some (model, final) /\
      train regression update l1 l2 truth m junk (allRules default rules) = Some final /\
      forall cell maxRules, exists t,
        train regression update l1 l2 truth m junk (firstn (numUsed numUsedRules maxRules (length (allRules default rules))) (allRules default rules)) = Some t /\
        predictScores Rplus 0 cell fm model m maxRules = Some (trScores t).
Proof.
  intros T d regression update l1 l2 truth n m junk junkF junkI default rules u fm row HT HJ HFm HRow (HD & HRs) HM HU HN.
  destruct (startTraining_spec d update truth n m HT junk HJ) as (t0 & E0 & S0).
  assert (OK : Forall (okRule regression n m row) rules).
  { rewrite Forall_forall in *. intros cr Hc. destruct (HRs cr Hc) as (A & B & C). split; [auto|]. split; [auto|]. split; [auto|]. apply HM. auto. }
  assert (MAIN : exists learned final dr, length learned = length rules /\ length (defaultOf dr) = length (defaultOf default) /\
    learnModel regression update l1 l2 truth m junk junkF junkI default rules u = Some (mkRuleList dr learned u true, final) /\
    train regression update l1 l2 truth m junk (allRules default rules) = Some final /\
    forall k, exists tk sk, train regression update l1 l2 truth m junk (firstn k (allRules default rules)) = Some tk /\ state_inv d update truth n m tk sk /\
      forall e, (e < n)%nat -> score_of Rplus (fun r => coversDense (row e) (fst r)) (firstn k (defaultOf dr ++ learned)) (repeat 0 m) = Some (nth e (trScores tk) [])).
  { assert (Z : forall e, (e < n)%nat -> nth e (trScores t0) [] = repeat 0 m).
    { intros e He. destruct S0 as (M & _ & V). destruct (matrix_row n m _ e M He) as (_ & L). apply (nth_ext _ _ 0 0); [rewrite repeat_length; auto|].
      intros l Hl. destruct (V e l He ltac:(lia)) as (-> & _). rewrite nth_repeat. reflexivity. }
    unfold learnModel, train, allRules. rewrite E0. destruct default as [r|].
    - destruct (HD r eq_refl) as (V & C).
      destruct (step_model d regression update truth n m HT l1 l2 r t0 _ V S0) as (p & t1 & s1 & Ep & Et & S1 & R1).
      assert (EA : applyRule regression update l1 l2 truth r t0 = Some t1) by (unfold applyRule; rewrite Ep; exact Et).
      unfold learnDefaultRule. cbn [fst snd]. rewrite Ep, Et.
      destruct (rules_model d regression update truth n m HT l1 l2 junkF junkI row rules OK (rlAddDefault (rlEmpty true) (EmptyBody, createHead p)) t1 s1 S1)
        as (learned & final & L & E1 & E2 & K).
      exists learned, final, (Some (EmptyBody, createHead p)). split; [auto|]. split; [reflexivity|]. cbv beta iota.
      match goal with |- context[forL rules ?f ?x] => replace (forL rules f x) with (Some (fold_left rlAddRule learned (rlAddDefault (rlEmpty true) (EmptyBody, createHead p) : ruleList (Prediction.rule R)), final)) by (symmetry; exact E1) end.
      rewrite fold_addRule. split; [reflexivity|].
      cbn [app forL]. rewrite EA. split; [exact E2|]. intros [|k].
      + exists t0, (fun _ _ => 0). cbn [firstn forL score_of]. split; [auto|]. split; [auto|]. intros e He. rewrite Z by auto. reflexivity.
      + destruct (K k) as (tk & sk & Ek & Sk & Rk). exists tk, sk. cbn [defaultOf app firstn forL score_of fst snd coversDense]. rewrite EA. split; [exact Ek|].
        split; [exact Sk|]. intros e He. rewrite <- (Z e He). rewrite (proj1 (R1 e He)) by (apply C; auto). apply Rk. auto.
    - destruct (rules_model d regression update truth n m HT l1 l2 junkF junkI row rules OK (rlEmpty true) t0 _ S0) as (learned & final & L & E1 & E2 & K).
      exists learned, final, None. split; [auto|]. split; [reflexivity|]. rewrite E1, fold_addRule. split; [reflexivity|]. split; [exact E2|].
      intros k. destruct (K k) as (tk & sk & Ek & Sk & Rk). exists tk, sk. split; [exact Ek|]. split; [exact Sk|]. intros e He. rewrite <- (Z e He). apply Rk. auto. }
  destruct MAIN as (learned & final & dr & L & LD & EL & ET & K). exists (mkRuleList dr learned u true), final. split; [auto|]. split; [auto|].
  intros cell maxRules.
  assert (LA : rlGetNumRules (mkRuleList dr learned u true) = length (allRules default rules)).
  { unfold rlGetNumRules, allRules. cbn [rlRules rlDefault]. rewrite app_length, map_length, L.
    destruct dr, default; simpl in *; lia. }
  destruct (K (numUsed u maxRules (length (allRules default rules)))) as (tk & sk & Ek & Sk & Rk). exists tk. split; [exact Ek|].
  destruct (C44_scores Rplus 0 cell fm (mkRuleList dr learned u true) maxRules m row (fun e => nth e (trScores tk) []) (seq 0 (fmRows fm))) as (_ & P).
  - rewrite LA. exact HU.
  - rewrite LA. exact HN.
  - intros i Hi. rewrite HFm in Hi. split; [apply HRow; auto|]. rewrite numUsed_limit, LA. cbn [rlDefault rlRules rlPrecedence rlNumUsed].
    rewrite order_prefix; [apply Rk; auto|]. intros HNone. rewrite <- LA. unfold numUsed, rlGetNumRules. cbn [rlRules rlDefault].
    destruct dr; [|congruence]. destruct (Nat.eqb_spec u 0), (Nat.eqb_spec maxRules 0); lia.
  - apply Permutation_refl.
  - rewrite P. f_equal. rewrite HFm. destruct Sk as ((LS & _) & _). apply (nth_ext _ _ [] []); [rewrite map_length, seq_length; auto|].
    intros i Hi. rewrite map_length, seq_length in Hi. rewrite (nth_indep _ _ (nth 0 (trScores tk) [])) by (rewrite map_length, seq_length; auto).
    rewrite (map_nth (fun e => nth e (trScores tk) [])). rewrite seq_nth by auto. reflexivity.
Qed.

(** ** The loss *)

Lemma all_valid regression n m row default rules : learned_from regression n m row default rules -> Forall (valid_rule regression n m) (allRules default rules).
Proof.
  intros (HD & HR). unfold allRules. apply Forall_app. split.
  - destruct default as [r|]; [|constructor]. constructor; [apply HD; auto|constructor].
  - apply Forall_map. rewrite Forall_forall in *. intros cr Hc. apply HR. auto.
Qed.

Lemma prefix_loss (loss : list (list R) -> R) (valid : BoostTraining.rule -> Prop) (tr : list BoostTraining.rule -> option training) all :
  (forall rules r, Forall valid rules -> In r all -> exists before after, tr rules = Some before /\ tr (rules ++ [r]) = Some after /\
     loss (trScores after) <= loss (trScores before)) -> Forall valid all ->
  forall a b ta tb, (a <= b)%nat -> tr (firstn a all) = Some ta -> tr (firstn b all) = Some tb -> loss (trScores tb) <= loss (trScores ta).
Proof.
  intros STEP HV a b ta tb Hab. revert tb. induction Hab as [|b Hab IH]; intros tb Ea Eb; [replace tb with ta by congruence; lra|].
  destruct (Nat.lt_ge_cases b (length all)) as [Hb|Hb]; [|rewrite firstn_all2 in Eb by lia; apply IH; [auto|]; rewrite firstn_all2 by lia; exact Eb].
  destruct (nth_error all b) as [r|] eqn:Er; [|apply nth_error_None in Er; lia].
  assert (E : firstn (S b) all = firstn b all ++ [r]).
  { clear - Er. revert b Er. induction all as [|x all IH]; intros [|b] Er; simpl in *; try discriminate; [congruence|]. f_equal. apply IH. auto. }
  destruct (STEP (firstn b all) r) as (before & after & E1 & E2 & L).
  - rewrite Forall_forall in *. intros x Hx. apply HV. rewrite <- (firstn_skipn b all). apply in_or_app. auto.
  - eapply nth_error_In; eauto.
  - rewrite E, E2 in Eb. injection Eb as <-. specialize (IH before Ea E1). lra.
Qed.

Lemma numUsed_mono u a b t : (0 < a <= b)%nat -> (numUsed u a t <= numUsed u b t)%nat.
Proof. intros H. unfold numUsed. destruct (Nat.eqb_spec a 0), (Nat.eqb_spec b 0); lia. Qed.

Lemma model_loss {T} (d : T) regression (update : T -> R -> R * R) (evaluate : T -> R -> R) l1 l2 (truth : list (list T)) n m junk junkF junkI default rules u fm row weights :
    isMatrix n m truth -> isMatrix n m junk -> fmRows fm = n -> (forall i, (i < n)%nat -> example_row fm i (row i)) ->
    learned_from regression n m row default rules -> Forall (fun cr => no_missing n row (fst cr)) rules ->
    (u <= length (allRules default rules))%nat -> (N.of_nat (length (allRules default rules)) < 2 ^ 32)%N ->
    (forall rs r, Forall (valid_rule regression n m) rs -> In r (allRules default rules) ->
       exists before p after, train regression update l1 l2 truth m junk rs = Some before /\ predictRule l1 l2 (trStatistics before) r = Some p /\
         train regression update l1 l2 truth m junk (rs ++ [r]) = Some after /\
         trainingLoss evaluate weights truth (trScores after) <= trainingLoss evaluate weights truth (trScores before) /\
         ((exists l, (l < m)%nat /\ predictedScore p l <> 0) ->
          trainingLoss evaluate weights truth (trScores after) < trainingLoss evaluate weights truth (trScores before))) ->
    exists model final,
      learnModel regression update l1 l2 truth m junk junkF junkI default rules u = Some (model, final) /\
      forall cell,
        (forall a b, (0 < a <= b)%nat -> exists before after,
           predictScores Rplus 0 cell fm model m a = Some before /\ predictScores Rplus 0 cell fm model m b = Some after /\
           trainingLoss evaluate weights truth after <= trainingLoss evaluate weights truth before) /\
        (forall b, exists after, predictScores Rplus 0 cell fm model m b = Some after /\
           trainingLoss evaluate weights truth after <= trainingLoss evaluate weights truth (repeat (repeat 0 m) n)).
Proof.
  intros HT HJ HFm HRow HL HM HU HN STEP.
  destruct (model_scores T d regression update l1 l2 truth n m junk junkF junkI default rules u fm row) as (model & final & EL & _ & K); auto.
  exists model, final. split; [auto|]. intros cell. pose proof (all_valid _ _ _ _ _ _ HL) as HV.
  assert (MONO : forall a b ta tb, (a <= b)%nat -> train regression update l1 l2 truth m junk (firstn a (allRules default rules)) = Some ta ->
    train regression update l1 l2 truth m junk (firstn b (allRules default rules)) = Some tb ->
    trainingLoss evaluate weights truth (trScores tb) <= trainingLoss evaluate weights truth (trScores ta)).
  { apply (prefix_loss (trainingLoss evaluate weights truth) (valid_rule regression n m)); [|auto]. intros rs r A B.
    destruct (STEP rs r A B) as (before & p & after & E1 & _ & E2 & L & _). exists before, after. auto. }
  split.
  - intros a b Hab. destruct (K cell a) as (ta & Ea & Pa). destruct (K cell b) as (tb & Eb & Pb). exists (trScores ta), (trScores tb).
    split; [auto|]. split; [auto|]. apply (MONO _ _ _ _ (numUsed_mono u a b _ Hab) Ea Eb).
  - intros b. destruct (K cell b) as (tb & Eb & Pb). exists (trScores tb). split; [auto|].
    destruct (startTraining_spec d update truth n m HT junk HJ) as (t0 & E0 & _).
    assert (E0' : trScores t0 = repeat (repeat 0 m) n).
    { unfold startTraining in E0. destruct (forN _ _ _ _) in E0; [|discriminate]. injection E0 as <-. cbn [trScores]. rewrite (proj1 HT). reflexivity. }
    rewrite <- E0'. apply (MONO 0%nat (numUsed u b (length (allRules default rules))) t0 tb); [lia| |auto]. unfold train. rewrite E0. reflexivity.
Qed.

Lemma Forall_In2 {A} (P Q : A -> Prop) l x : Forall P l -> Forall Q l -> In x l -> P x /\ Q x.
Proof. intros H1 H2 Hx. rewrite Forall_forall in *. auto. Qed.

Lemma squared_error_model :
  forall l1 l2 truth n m junk junkF junkI default rules numUsedRules fm row weights,
    isMatrix n m truth -> isMatrix n m junk -> fmRows fm = n -> (forall i, (i < n)%nat -> example_row fm i (row i)) ->
    learned_from false n m row default rules -> Forall (fun cr => no_missing n row (fst cr)) rules ->
    (numUsedRules <= length (allRules default rules))%nat -> (N.of_nat (length (allRules default rules)) < 2 ^ 32)%N ->
    0 <= l1 -> 0 <= l2 -> length weights = n -> Forall (fun w => 0 <= w) weights ->
    Forall (fun r => calculated_from weights r /\ 0 <= ruleShrinkage r <= 1) (allRules default rules) ->
    exists model final,
      learnModel false updateSquaredErrorClassification l1 l2 truth m junk junkF junkI default rules numUsedRules = Some (model, final) /\
      forall cell,
        (forall a b, (0 < a <= b)%nat -> exists before after,
           predictScores Rplus 0 cell fm model m a = Some before /\ predictScores Rplus 0 cell fm model m b = Some after /\
           trainingLoss evaluateSquaredErrorClassification weights truth after <= trainingLoss evaluateSquaredErrorClassification weights truth before) /\
        (forall b, exists after, predictScores Rplus 0 cell fm model m b = Some after /\
           trainingLoss evaluateSquaredErrorClassification weights truth after <=
             trainingLoss evaluateSquaredErrorClassification weights truth (repeat (repeat 0 m) n)).
Proof. intros. apply (model_loss false false) with (row := row); auto. intros rs r A B.
  match goal with HL : learned_from _ _ _ _ _ _, HC : Forall _ (allRules _ _) |- _ => destruct (Forall_In2 _ _ _ _ (all_valid _ _ _ _ _ _ HL) HC B) as (V & C) end.
  cbv beta in C. apply (squared_error_training truth n m); intuition auto.
Qed.

Lemma squared_hinge_model :
  forall l1 l2 truth n m junk junkF junkI default rules numUsedRules fm row weights,
    isMatrix n m truth -> isMatrix n m junk -> fmRows fm = n -> (forall i, (i < n)%nat -> example_row fm i (row i)) ->
    learned_from false n m row default rules -> Forall (fun cr => no_missing n row (fst cr)) rules ->
    (numUsedRules <= length (allRules default rules))%nat -> (N.of_nat (length (allRules default rules)) < 2 ^ 32)%N ->
    0 <= l1 -> 0 <= l2 -> length weights = n -> Forall (fun w => 0 <= w) weights ->
    Forall (fun r => calculated_from weights r /\ 0 <= ruleShrinkage r <= 1) (allRules default rules) ->
    exists model final,
      learnModel false updateSquaredHinge l1 l2 truth m junk junkF junkI default rules numUsedRules = Some (model, final) /\
      forall cell,
        (forall a b, (0 < a <= b)%nat -> exists before after,
           predictScores Rplus 0 cell fm model m a = Some before /\ predictScores Rplus 0 cell fm model m b = Some after /\
           trainingLoss evaluateSquaredHinge weights truth after <= trainingLoss evaluateSquaredHinge weights truth before) /\
        (forall b, exists after, predictScores Rplus 0 cell fm model m b = Some after /\
           trainingLoss evaluateSquaredHinge weights truth after <= trainingLoss evaluateSquaredHinge weights truth (repeat (repeat 0 m) n)).
Proof. intros. apply (model_loss false false) with (row := row); auto. intros rs r A B.
  match goal with HL : learned_from _ _ _ _ _ _, HC : Forall _ (allRules _ _) |- _ => destruct (Forall_In2 _ _ _ _ (all_valid _ _ _ _ _ _ HL) HC B) as (V & C) end.
  cbv beta in C. apply (squared_hinge_training truth n m); intuition auto.
Qed.

Lemma squared_error_regression_model :
  forall l1 l2 truth n m junk junkF junkI default rules numUsedRules fm row weights,
    isMatrix n m truth -> isMatrix n m junk -> fmRows fm = n -> (forall i, (i < n)%nat -> example_row fm i (row i)) ->
    learned_from true n m row default rules -> Forall (fun cr => no_missing n row (fst cr)) rules ->
    (numUsedRules <= length (allRules default rules))%nat -> (N.of_nat (length (allRules default rules)) < 2 ^ 32)%N ->
    0 <= l1 -> 0 <= l2 -> length weights = n -> Forall (fun w => 0 <= w) weights ->
    Forall (fun r => calculated_from weights r /\ 0 <= ruleShrinkage r <= 1) (allRules default rules) ->
    exists model final,
      learnModel true updateSquaredErrorRegression l1 l2 truth m junk junkF junkI default rules numUsedRules = Some (model, final) /\
      forall cell,
        (forall a b, (0 < a <= b)%nat -> exists before after,
           predictScores Rplus 0 cell fm model m a = Some before /\ predictScores Rplus 0 cell fm model m b = Some after /\
           trainingLoss evaluateSquaredErrorRegression weights truth after <= trainingLoss evaluateSquaredErrorRegression weights truth before) /\
        (forall b, exists after, predictScores Rplus 0 cell fm model m b = Some after /\
           trainingLoss evaluateSquaredErrorRegression weights truth after <=
             trainingLoss evaluateSquaredErrorRegression weights truth (repeat (repeat 0 m) n)).
Proof. intros. apply (model_loss 0 true) with (row := row); auto. intros rs r A B.
  match goal with HL : learned_from _ _ _ _ _ _, HC : Forall _ (allRules _ _) |- _ => destruct (Forall_In2 _ _ _ _ (all_valid _ _ _ _ _ _ HL) HC B) as (V & C) end.
  cbv beta in C. apply (squared_error_regression_training truth n m); intuition auto.
Qed.

Lemma logistic_model :
  forall e : R -> R, (forall x, x <= 0 -> e x = exp x) ->
  forall l1 l2 truth n m junk junkF junkI default rules numUsedRules fm row weights,
    isMatrix n m truth -> isMatrix n m junk -> fmRows fm = n -> (forall i, (i < n)%nat -> example_row fm i (row i)) ->
    learned_from false n m row default rules -> Forall (fun cr => no_missing n row (fst cr)) rules ->
    (numUsedRules <= length (allRules default rules))%nat -> (N.of_nat (length (allRules default rules)) < 2 ^ 32)%N ->
    0 <= l1 -> 0 <= l2 -> length weights = n -> Forall (fun w => 0 <= w) weights ->
    Forall (fun r => calculated_from weights r /\ 0 <= ruleShrinkage r /\ ruleShrinkage r * coveredWeight weights r <= 4 * l2) (allRules default rules) ->
    exists model final,
      learnModel false (updateLogistic e) l1 l2 truth m junk junkF junkI default rules numUsedRules = Some (model, final) /\
      forall cell,
        (forall a b, (0 < a <= b)%nat -> exists before after,
           predictScores Rplus 0 cell fm model m a = Some before /\ predictScores Rplus 0 cell fm model m b = Some after /\
           trainingLoss (evaluateLogistic e) weights truth after <= trainingLoss (evaluateLogistic e) weights truth before) /\
        (forall b, exists after, predictScores Rplus 0 cell fm model m b = Some after /\
           trainingLoss (evaluateLogistic e) weights truth after <= trainingLoss (evaluateLogistic e) weights truth (repeat (repeat 0 m) n)).
Proof. intros e He. intros. apply (model_loss false false) with (row := row); auto. intros rs r A B.
  match goal with HL : learned_from _ _ _ _ _ _, HC : Forall _ (allRules _ _) |- _ => destruct (Forall_In2 _ _ _ _ (all_valid _ _ _ _ _ _ HL) HC B) as (V & C) end.
  cbv beta in C. apply (logistic_training e He truth n m); intuition auto.
Qed.

(** A missing value: according to the training procedure, the example is not covered by the rule. *)
Lemma missing_model_refuted :
  exists l1 l2 truth junk rules fm row model final scores,
    isMatrix 2 1 truth /\ isMatrix 2 1 junk /\ fmRows fm = 2%nat /\ (forall i, (i < 2)%nat -> example_row fm i (row i)) /\
    learned_from false 2 1 row None rules /\ Forall (fun r => calculated_from [1; 1] r /\ 0 <= ruleShrinkage r <= 1) (allRules None rules) /\
    (forall junkF junkI, learnModel false updateSquaredErrorClassification l1 l2 truth 1 junk junkF junkI None rules 0 = Some (model, final)) /\
    (forall cell, predictScores Rplus 0 cell fm model 1 0 = Some scores) /\ scores <> trScores final /\
    trainingLoss evaluateSquaredErrorClassification [1; 1] truth (repeat (repeat 0 1) 2) < trainingLoss evaluateSquaredErrorClassification [1; 1] truth scores.
Proof.
  set (x := outputWiseScore 0 0 (plus2 (0, 0) (weighted2 None (updateSquaredErrorClassification true 0))) * 1).
  assert (Ex : x = 1).
  { unfold x, outputWiseScore, divideOrZero, getL1Weight. cbn.
    repeat match goal with |- context[Req_EM_T ?a ?b] => destruct (Req_EM_T a b); try lra | |- context[Rgt_dec ?a ?b] => destruct (Rgt_dec a b); try lra
      | |- context[Rlt_dec ?a ?b] => destruct (Rlt_dec a b); try lra end; lra. }
  exists 0, 0, [[true]; [false]], [[(0, 0)]; [(0, 0)]],
    [([mkCond 0 NUMERICAL_LEQ (TFloat (Fin 3))], mkRule (EqualWeights 2) [0%nat] (AllOutputs 1) 1 [0%nat])],
    (DenseMatrix [[Fin 2]; [NaN]]), (fun i => nth i [[Fin 2]; [NaN]] []),
    (mkRuleList None [(ConjunctiveBody (mkBody [(0%nat, Fin 3)] [] [] [] [] []), CompleteHead [x])] 0 true).
  eexists. exists [[0 + x]; [0 + x]].
  split; [split; [reflexivity|repeat constructor]|]. split; [split; [reflexivity|repeat constructor]|]. split; [reflexivity|].
  split; [intros [|[|i]] Hi; [reflexivity|reflexivity|lia]|]. split.
  { split; [discriminate|]. constructor; [|constructor]. split.
    { unfold valid_rule; simpl. repeat split; try discriminate; try (eexists; reflexivity); repeat constructor; simpl; try lia; intuition lia. }
    split; [repeat constructor|]. intros i. cbn [ruleCovered fst snd]. split.
    - intros [<- |[]]. split; [lia|]. constructor; [|constructor]. exists 2%Z. split; [reflexivity|]. simpl. lia.
    - intros (Hi & H). destruct i as [|[|i]]; [left; auto| |lia]. apply Forall_cons_iff in H. destruct H as ((z & E & _) & _). discriminate E. }
  split.
  { constructor; [|constructor]. split; [|simpl; lra]. split; [repeat constructor; simpl; intuition|]. split; [intros i Hi; exact Hi|].
    intros i Hi. simpl in Hi. destruct Hi as [<- |[]]. reflexivity. }
  split; [intros junkF junkI; reflexivity|]. split; [intros cell; reflexivity|]. cbn [trScores].
  split.
  - intros E. assert (E' : nth 0 (nth 1 [[0 + x]; [0 + x]] []) 0 = 0) by (rewrite E; reflexivity). simpl in E'. lra.
  - unfold trainingLoss, exampleLoss, evaluateSquaredErrorClassification, evaluateSquaredErrorRegression, total. simpl. rewrite Ex. lra.
Qed.
