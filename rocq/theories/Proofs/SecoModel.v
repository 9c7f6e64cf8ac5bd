(** Proofs about the models that result from training a separate-and-conquer algorithm. *)
From Coq Require Import ZArith NArith List Bool Arith Lia Sorted.
From Verif Require Import Lib.Arr Model.Rules Model.SecoStatistics Model.BoostModel Model.Prediction Model.SecoPrediction Model.SecoModel
  Proofs.Rules Proofs.SecoMajority Proofs.SecoCoverage Proofs.SecoPrediction Proofs.BoostModel
  Spec.Rules Spec.Seco Spec.SecoPrediction Spec.BoostModel Spec.SecoModel.
Import ListNotations.
Open Scope nat_scope.

Lemma predicts_createHead h l : predicts (createSecoHead h) l = predictionOf h l.
Proof. destruct h as [s|ix s]; simpl; [reflexivity|]. destruct (find _ (combine ix s)); reflexivity. Qed.

Lemma mem_In majority l : mem majority l = true <-> In l majority.
Proof.
  unfold mem. rewrite existsb_exists. split; [intros (x & H & E); apply Nat.eqb_eq in E; subst; auto|].
  intros H. exists l. split; [auto|apply Nat.eqb_refl].
Qed.

(** No values are missing. *)
Definition complete_rule (n m : nat) (row : nat -> list fval) (r : secoRule) : Prop :=
  NoDup (srCovered r) /\ (forall i, In i (srCovered r) <-> i < n /\ Forall (holds (row i)) (srConditions r)) /\
  (forall i, i < n -> Forall (evaluable (row i)) (srConditions r)) /\ Forall well_typed (srConditions r) /\ valid_head m (srHead r).

Definition appsOf (r : secoRule) : list application := map (fun i => (i, srHead r)) (srCovered r).

Section Run.
Context (n m : nat) (row : nat -> list fval) (majority : list nat) (junkF : nat * fval) (junkI : nat * Z).

Definition matches (r : secoRule) (q : Prediction.rule bool) : Prop :=
  snd q = createSecoHead (srHead r) /\ forall e, e < n -> exists b, coversDense (row e) (fst q) = Some b /\ (b = true <-> In e (srCovered r)).

Lemma rules_run rules : Forall (complete_rule n m row) rules -> forall st c,
  applyAll m majority (flat_map appsOf rules) (ssCoverage st) = Some c ->
  exists learned, Forall2 matches rules learned /\
    forL rules (learnSecoRule m majority junkF junkI) st = Some (mkSecoState (fold_left rlAddRule learned (ssModel st)) (ssDefault st) c).
Proof.
  induction rules as [|r rules IH]; intros HF st c E.
  - exists []. split; [constructor|]. cbn in *. injection E as <-. destruct st; reflexivity.
  - apply Forall_cons_iff in HF. destruct HF as ((HN & HC & HE & HW & HV) & HF). cbn [flat_map] in E. unfold applyAll in E. rewrite forL_app in E.
    unfold appsOf in E at 1. rewrite forL_map in E. cbn [fst snd] in E. cbn [forL]. unfold learnSecoRule at 1.
    destruct (forL (srCovered r) _ (ssCoverage st)) as [c1|]; [|discriminate].
    destruct (createBody_ok junkF junkI (srConditions r) HW) as (b & -> & Hb).
    destruct (IH HF (mkSecoState (rlAddRule (ssModel st) (b, createSecoHead (srHead r))) (ssDefault st) c1) c E) as (learned & F2 & EL).
    exists ((b, createSecoHead (srHead r)) :: learned). split; [|exact EL]. constructor; [|auto]. split; [reflexivity|]. intros e He. cbn [fst].
    destruct (Hb (row e) (HE e He)) as (cv & -> & Hcv). exists cv. split; [reflexivity|]. rewrite Hcv, HC. tauto.
Qed.
End Run.

Lemma fold_addSeco (learned : list (Prediction.rule bool)) : forall model,
  fold_left rlAddRule learned model = mkRuleList (rlDefault model) (rlRules model ++ learned) (rlNumUsed model) (rlPrecedence model).
Proof.
  induction learned as [|r learned IH]; intros model; simpl; [rewrite app_nil_r; destruct model; reflexivity|].
  rewrite IH. simpl. rewrite <- app_assoc. reflexivity.
Qed.

Lemma forN_seq {S} (body : nat -> S -> option S) cnt : forall start st, forN cnt start body st = forL (seq start cnt) body st.
Proof. induction cnt as [|cnt IH]; intros start st; [reflexivity|]. cbn [forN forL seq]. destruct (body start st); auto. Qed.

Lemma seq_le_sorted k : forall s, StronglySorted le (seq s k).
Proof. induction k as [|k IH]; intros s; cbn [seq]; constructor; [auto|]. apply Forall_forall. intros x H. apply in_seq in H. lia. Qed.

Lemma count_app {A} (f : A -> bool) a b : count f (a ++ b) = count f a + count f b.
Proof. unfold count. rewrite filter_app, app_length. reflexivity. Qed.

Lemma count_none {A} (f : A -> bool) l : (forall x, In x l -> f x = false) -> count f l = 0.
Proof. unfold count. induction l as [|x l IH]; intros H; [reflexivity|]. simpl. rewrite (H x) by (simpl; auto). apply IH. intros. apply H. simpl. auto. Qed.

Section Decide.
Context (label : nat -> nat -> bool) (n m : nat) (row : nat -> list fval) (majority : list nat).
Hypothesis HMaj : forall l, In l majority <-> l < m /\ is_majority label n l.

Lemma head_minority h l b : predicts_minority label n h -> valid_head m h -> predictionOf h l = Some b -> l < m /\ b = negb (mem majority l).
Proof.
  intros HP HV E. assert (Hl : l < m).
  { destruct h as [s|ix s]; simpl in *.
    - rewrite <- HV. apply nth_error_Some. congruence.
    - destruct (find _ (combine ix s)) as [q|] eqn:F; [|discriminate]. apply find_some in F. destruct F as (F & Q). apply Nat.eqb_eq in Q.
      destruct q as [i x]. apply in_combine_l in F. destruct HV as (_ & _ & HV). rewrite Forall_forall in HV. simpl in *. subst. auto. }
  split; [auto|]. specialize (HP l b E). assert (M := HMaj l). rewrite <- mem_In in M.
  destruct b, (mem majority l); simpl; auto; exfalso.
  - destruct M as (M & _). destruct (M eq_refl) as (_ & X). apply HP in X. discriminate.
  - destruct HP as (HP & _). destruct M as (_ & M). specialize (M (conj Hl (HP eq_refl))). discriminate.
Qed.

(** How often a label is covered. *)
Lemma rule_covers r e l : NoDup (srCovered r) -> valid_head m (srHead r) -> predicts_minority label n (srHead r) ->
  count (covers majority (e, l)) (appsOf r) = if affects r e l then 1 else 0.
Proof.
  intros HN HV HP. unfold appsOf, affects. induction HN as [|x xs Hx HN IH]; [reflexivity|]. cbn [map existsb].
  change (count (covers majority (e, l)) ((x, srHead r) :: ?t)) with (count (covers majority (e, l)) ([(x, srHead r)] ++ t)).
  rewrite count_app, IH. unfold count, covers at 1. cbn [filter fst snd]. rewrite (Nat.eqb_sym e x).
  destruct (Nat.eqb_spec x e) as [->|Hne]; cbn [andb orb].
  - assert (existsb (Nat.eqb e) xs = false) as ->.
    { destruct (existsb (Nat.eqb e) xs) eqn:X; [|reflexivity]. apply existsb_exists in X. destruct X as (y & Hy & Ey). apply Nat.eqb_eq in Ey. subst. contradiction. }
    destruct (predictionOf (srHead r) l) as [b|] eqn:E; [|reflexivity]. destruct (head_minority _ _ _ HP HV E) as (_ & ->). destruct (mem majority l); reflexivity.
  - reflexivity.
Qed.

Lemma rules_cover rules e l : Forall (fun r => complete_rule n m row r /\ predicts_minority label n (srHead r)) rules ->
  count (covers majority (e, l)) (flat_map appsOf rules) = count (fun r => affects r e l) rules.
Proof.
  induction rules as [|r rules IH]; intros HF; [reflexivity|]. apply Forall_cons_iff in HF. destruct HF as (((HN & _ & _ & _ & HV) & HP) & HF).
  cbn [flat_map]. rewrite count_app, rule_covers, IH by auto. unfold count. cbn [filter]. destruct (affects r e l); reflexivity.
Qed.

Lemma default_covers e l scores : scores = map (mem majority) (seq 0 m) ->
  count (covers majority (e, l)) (map (fun i => (i, SecoStatistics.CompleteHead scores)) (seq 0 n)) = 0.
Proof.
  intros ->. apply count_none. intros x Hx. apply in_map_iff in Hx. destruct Hx as (i & <- & _). unfold covers. cbn [fst snd predictionOf].
  destruct (nth_error (map (mem majority) (seq 0 m)) l) as [b|] eqn:E; [|apply andb_false_r].
  assert (Hl : l < m). { rewrite <- (seq_length m 0), <- (map_length (mem majority)). apply nth_error_Some. congruence. }
  rewrite nth_error_map in E. rewrite (nth_error_nth' _ 0) in E by (rewrite seq_length; auto). rewrite seq_nth in E by auto. cbn in E. injection E as <-.
  destruct (mem majority l); apply andb_false_r.
Qed.

Lemma decide_list rules learned e l : e < n -> l < m ->
  Forall (fun r => complete_rule n m row r /\ predicts_minority label n (srHead r)) rules -> Forall2 (matches n row) rules learned ->
  forall d, predicts (snd d) l = Some (mem majority l) -> coversDense (row e) (fst d) = Some true ->
  decide (fun r => match coversDense (row e) (fst r) with Some true => true | _ => false end) (learned ++ [d]) l
    = Some (if existsb (fun r => affects r e l) rules then negb (mem majority l) else mem majority l).
Proof.
  intros He Hl HF F2 d Hd Hc. induction F2 as [|r q rules learned (Hq & HQ) F2 IH].
  - cbn [app decide existsb]. rewrite Hc, Hd. reflexivity.
  - apply Forall_cons_iff in HF. destruct HF as ((HV & HP) & HF). specialize (IH HF). cbn [app decide existsb].
    destruct (HQ e He) as (b & -> & Hb). rewrite Hq, predicts_createHead. unfold affects at 1.
    assert (Ec : existsb (Nat.eqb e) (srCovered r) = b).
    { apply eq_true_iff_eq. rewrite Hb, existsb_exists. split; [intros (x & Hx & Ex); apply Nat.eqb_eq in Ex; subst; auto|].
      intros H. exists e. split; [auto|apply Nat.eqb_refl]. }
    rewrite Ec. destruct b; cbn [andb orb]; [|exact IH].
    destruct (predictionOf (srHead r) l) as [b|] eqn:E; [|exact IH].
    destruct HV as (_ & _ & _ & _ & HV). destruct (head_minority _ _ _ HP HV E) as (_ & ->). reflexivity.
Qed.
End Decide.

Lemma Forall2_firstn {A B} (P : A -> B -> Prop) k : forall a b, Forall2 P a b -> Forall2 P (firstn k a) (firstn k b).
Proof. induction k as [|k IH]; intros a b H; [constructor|]. destruct H; cbn [firstn]; constructor; auto. Qed.

Lemma forall2_len {A B} (P : A -> B -> Prop) a b : Forall2 P a b -> length a = length b.
Proof. intros H. induction H; simpl; auto. Qed.

Lemma Forall_firstn' {A} (P : A -> Prop) k l : Forall P l -> Forall P (firstn k l).
Proof. intros H. rewrite Forall_forall in *. intros x Hx. apply H. rewrite <- (firstn_skipn k l). apply in_or_app. auto. Qed.

Lemma count_le' {A} (f : A -> bool) l : count f l <= length l.
Proof. unfold count. induction l as [|x l IH]; simpl; [lia|]. destruct (f x); simpl; lia. Qed.

Lemma existsb_count {A} (f : A -> bool) l : existsb f l = negb (count f l =? 0).
Proof. unfold count. induction l as [|x l IH]; [reflexivity|]. simpl. destruct (f x); [reflexivity|auto]. Qed.

(** Training of any number of rules. *)
Lemma learn_ok junk lm label row junkF junkI : represents lm label -> length junk = lmCols lm ->
  exists majority, (forall l, In l majority <-> l < lmCols lm /\ is_majority label (lmRows lm) l) /\
  forall rules u, Forall (fun r => complete_rule (lmRows lm) (lmCols lm) row r /\ predicts_minority label (lmRows lm) (srHead r)) rules ->
    (N.of_nat (S (length rules)) < 2 ^ 32)%N ->
    exists learned c, Forall2 (matches (lmRows lm) row) rules learned /\
      learnDecisionList junk lm junkF junkI true rules u =
        Some (mkRuleList (Some (EmptyBody, Prediction.CompleteHead (map (mem majority) (seq 0 (lmCols lm))))) learned u false, c) /\
      (forall e l, e < lmRows lm -> l < lmCols lm -> nth (e * lmCols lm + l) (cvCounts c) 0%N = N.of_nat (count (fun r => affects r e l) rules)) /\
      cvSum c = (Z.of_nat (count (fun x => deviates label majority x && negb (existsb (fun r => affects r (fst x) (snd x)) rules)) (cells (lmRows lm) (lmCols lm)))
                 - Z.of_nat (count (fun x => negb (deviates label majority x) && existsb (fun r => affects r (fst x) (snd x)) rules) (cells (lmRows lm) (lmCols lm))))%Z.
Proof.
  intros HR HJ. destruct (majority_labels_exact junk lm label HR HJ) as (majority & EC & HS & HMaj & _). exists majority. split; [exact HMaj|].
  intros rules u HF HN. set (n := lmRows lm) in *. set (m := lmCols lm) in *. set (scores := map (mem majority) (seq 0 m)).
  set (apps := map (fun i => (i, SecoStatistics.CompleteHead scores)) (seq 0 n) ++ flat_map appsOf rules).
  assert (HCnt : forall e l, count (covers majority (e, l)) apps = count (fun r => affects r e l) rules).
  { intros e l. unfold apps. rewrite count_app, (default_covers n m) by reflexivity. rewrite (rules_cover label n m row majority HMaj) by auto. reflexivity. }
  destruct (sum_of_uncovered_gen junk lm label majority _ HR HJ EC apps) as (c & EA & HCov & HSum).
  - unfold apps. apply Forall_app. split.
    + apply Forall_forall. intros x Hx. apply in_map_iff in Hx. destruct Hx as (i & <- & Hi). apply in_seq in Hi. split; cbn [fst snd].
      * fold n. lia.
      * cbn [valid_head]. unfold scores. rewrite map_length, seq_length. reflexivity.
    + apply Forall_forall. intros x Hx. apply in_flat_map in Hx. destruct Hx as (r & Hr & Hx). rewrite Forall_forall in HF.
      destruct (HF r Hr) as ((_ & C & _ & _ & V) & _). apply in_map_iff in Hx. destruct Hx as (i & <- & Hi). apply C in Hi. split; cbn [fst snd]; tauto.
  - intros e l _ _. rewrite HCnt. pose proof (count_le' (fun r => affects r e l) rules). lia.
  - fold n m in EA, HCov, HSum. unfold apps, applyAll in EA. rewrite forL_app, forL_map in EA. cbn [fst snd] in EA.
    destruct (forL (seq 0 n) _ (newCoverage n m _)) as [c0|] eqn:E0; [|discriminate].
    destruct (rules_run n m row majority junkF junkI rules) with (st := mkSecoState (rlEmpty false) (Some (Prediction.CompleteHead scores)) c0) (c := c)
      as (learned & F2 & EL); [rewrite Forall_forall in *; intros r Hr; apply HF; auto|exact EA|].
    exists learned, c. split; [exact F2|]. split; [|split].
    + unfold learnDecisionList. rewrite EC. cbv beta iota. unfold learnSecoDefault. fold n m.
      rewrite majorityScores_spec by (auto using seq_le_sorted). fold scores. rewrite forN_seq. cbn [ssCoverage ssModel].
      match goal with |- context[forL (seq 0 n) ?f ?x] => replace (forL (seq 0 n) f x) with (Some c0) by (symmetry; exact E0) end. cbn [createSecoHead]. rewrite EL. cbn [ssModel ssDefault ssCoverage]. rewrite fold_addSeco. reflexivity.
    + intros e l He Hl. rewrite HCov, HCnt by auto. reflexivity.
    + rewrite HSum. assert (X : forall x, covered majority apps x = existsb (fun r => affects r (fst x) (snd x)) rules).
      { intros (e & l). unfold covered. rewrite !existsb_count, HCnt. reflexivity. }
      rewrite (count_ext (fun x => deviates label majority x && negb (covered majority apps x)) (fun x => deviates label majority x && negb (existsb (fun r => affects r (fst x) (snd x)) rules)))
        by (intros x _; rewrite X; reflexivity).
      rewrite (count_ext (fun x => negb (deviates label majority x) && covered majority apps x) (fun x => negb (deviates label majority x) && existsb (fun r => affects r (fst x) (snd x)) rules))
        by (intros x _; rewrite X; reflexivity).
      reflexivity.
Qed.

Lemma decision_list_predictions :
  forall junk lm label row fm junkF junkI rules numUsedRules cell junkLabels maxRules k,
    represents lm label -> length junk = lmCols lm -> fmRows fm = lmRows lm -> (forall i, i < lmRows lm -> example_row fm i (row i)) ->
    Forall (fun r => valid_seco_rule (lmRows lm) (lmCols lm) row r /\ predicts_minority label (lmRows lm) (srHead r)) rules ->
    Forall (fun r => no_missing (lmRows lm) row (srConditions r)) rules ->
    (N.of_nat (S (length rules)) < 2 ^ 32)%N -> numUsedRules <= S (length rules) ->
    length junkLabels = lmRows lm -> Forall (fun r => length r = lmCols lm) junkLabels ->
    numUsed numUsedRules maxRules (S (length rules)) = S k ->
    exists model final prefix c result,
      learnDecisionList junk lm junkF junkI true rules numUsedRules = Some (model, final) /\
      learnDecisionList junk lm junkF junkI true (firstn k rules) 0 = Some (prefix, c) /\
      predictDense cell junkLabels fm model (lmCols lm) maxRules = Some result /\ length result = lmRows lm /\
      (forall e l, e < lmRows lm -> l < lmCols lm ->
        nth (e * lmCols lm + l) (cvCounts c) 0%N = N.of_nat (count (fun r => affects r e l) (firstn k rules)) /\
        exists b, nth_error (nth e result []) l = Some b /\
          (nth (e * lmCols lm + l) (cvCounts c) 0%N = 0%N -> b = true <-> is_majority label (lmRows lm) l) /\
          (nth (e * lmCols lm + l) (cvCounts c) 0%N <> 0%N -> b = true <-> ~ is_majority label (lmRows lm) l)) /\
      Z.of_nat (errors label (lmRows lm) (lmCols lm) (fun e l => nth l (nth e result []) false)) =
        (cvSum c + 2 * Z.of_nat (count (fun x => negb (nth (fst x * lmCols lm + snd x) (cvCounts c) 0 =? 0)%N &&
          negb (eqb (label (fst x) (snd x)) (nth (snd x) (nth (fst x) result []) false))) (cells (lmRows lm) (lmCols lm))))%Z.
Proof.
  intros junk lm label row fm junkF junkI rules u cell junkLabels maxRules k HR HJ HM HRow HF0 HMiss HN HU L1 L2 EK.
  destruct (learn_ok junk lm label row junkF junkI HR HJ) as (majority & HMaj & HL). set (n := lmRows lm) in *. set (m := lmCols lm) in *.
  assert (HF : Forall (fun r => complete_rule n m row r /\ predicts_minority label n (srHead r)) rules).
  { rewrite Forall_forall in *. intros r Hr. destruct (HF0 r Hr) as ((A & B & C & D) & E). split; [|exact E]. split; [exact A|]. split; [exact B|].
    split; [exact (HMiss r Hr)|]. split; [exact C|exact D]. }
  assert (HFk := Forall_firstn' _ k _ HF).
  destruct (HL rules u HF HN) as (learned & final & F2 & EL & _).
  destruct (HL (firstn k rules) 0 HFk) as (learnedk & c & _ & ELk & HC & HSum). { rewrite firstn_length. lia. }
  set (d := (EmptyBody, Prediction.CompleteHead (map (mem majority) (seq 0 m))) : Prediction.rule bool) in *.
  set (model := mkRuleList (Some d) learned u false) in *.
  assert (EN : @rlGetNumRules (body * Prediction.head bool)%type model = S (length rules)). { change (length learned + 1 = S (length rules)). rewrite <- (forall2_len _ _ _ F2). lia. }
  assert (EO : @expected_order (body * Prediction.head bool)%type (@rlDefault (body * Prediction.head bool)%type model) (@rlRules (body * Prediction.head bool)%type model) (@rlPrecedence (body * Prediction.head bool)%type model) (limitRules maxRules (@rlGetNumUsed (body * Prediction.head bool)%type model)) = firstn k learned ++ [d]).
  { rewrite numUsed_limit, EN. unfold model at 1 2 3. cbn [rlDefault rlRules rlPrecedence expected_order].
    change (rlNumUsed model) with u. rewrite EK. cbn [Nat.sub]. rewrite Nat.sub_0_r. reflexivity. }
  assert (F2k := Forall2_firstn _ k _ _ F2).
  assert (HIn : forall q, In q (firstn k learned) -> exists r, In r (firstn k rules) /\ matches n row r q).
  { clear - F2k. induction F2k as [|r q rs qs M F2 IH]; intros x []; [subst; exists r; simpl; auto|]. destruct (IH x) as (r' & A & B); [auto|]. exists r'. simpl. auto. }
  assert (HV : forall r, In r (firstn k rules) -> valid_head m (srHead r)).
  { intros r Hr. rewrite Forall_forall in HFk. destruct (HFk r Hr) as ((_ & _ & _ & _ & V) & _). exact V. }
  destruct (dense_predictions cell junkLabels fm model m maxRules row) as (result & EP & LP & HP).
  - rewrite EN. exact HU.
  - rewrite EN. exact HN.
  - rewrite HM. exact HRow.
  - rewrite EO, HM. intros i q Hi Hq. apply in_app_iff in Hq. destruct Hq as [Hq|[<- |[]]]; [|discriminate].
    destruct (HIn q Hq) as (r & _ & _ & X). destruct (X i Hi) as (b & -> & _). discriminate.
  - rewrite EO. intros q Hq. apply in_app_iff in Hq. destruct Hq as [Hq|[<- |[]]].
    + destruct (HIn q Hq) as (r & Hr & -> & _). specialize (HV r Hr). destruct (srHead r) as [s|ix s]; cbn [createSecoHead head_for valid_head] in *; [exact HV|].
      destruct HV as (_ & _ & V). rewrite Forall_forall in *. intros (i & x) Hx. apply in_combine_l in Hx. cbn [fst]. auto.
    + unfold d. cbn [snd head_for]. rewrite map_length, seq_length. reflexivity.
  - split; [reflexivity|]. eexists. split; [reflexivity|]. rewrite map_length, seq_length. reflexivity.
  - rewrite HM. exact L1.
  - exact L2.
  - exists model, final, (mkRuleList (Some d) learnedk 0 false), c, result. split; [exact EL|]. split; [exact ELk|]. split; [exact EP|].
    rewrite HM in LP. split; [exact LP|].
    assert (V : forall e l, e < n -> l < m -> nth_error (nth e result []) l =
      Some (if existsb (fun r => affects r e l) (firstn k rules) then negb (mem majority l) else mem majority l)).
    { intros e l He Hl. destruct (HP e (nth e result [])) as (Ll & B); [apply nth_error_nth'; lia|]. specialize (B l Hl). rewrite EO in B.
      rewrite (decide_list label n m row majority HMaj (firstn k rules)) in B; auto.
      2:{ unfold d. cbn [snd predicts]. rewrite nth_error_map, (nth_error_nth' _ 0) by (rewrite seq_length; auto). rewrite seq_nth by auto. reflexivity. }
      destruct (nth_error (nth e result []) l) as [x|] eqn:Ex; [|apply nth_error_None in Ex; lia]. f_equal.
      match goal with |- x = ?y => destruct x, y; try reflexivity end.
      - apply proj1 in B. specialize (B eq_refl). congruence.
      - apply proj2 in B. specialize (B eq_refl). congruence. }
    assert (HMm : forall l, l < m -> mem majority l = true <-> is_majority label n l).
    { intros l Hl. rewrite mem_In, HMaj. tauto. }
    split.
    + intros e l He Hl. rewrite (HC e l He Hl). split; [reflexivity|]. eexists. split; [apply V; auto|]. rewrite existsb_count. specialize (HMm l Hl).
      destruct (Nat.eqb_spec (count (fun r => affects r e l) (firstn k rules)) 0) as [E|E]; cbn [negb]; split; intros H; try lia; [exact HMm|].
      rewrite <- HMm. destruct (mem majority l); cbn; split; congruence.
    + rewrite HSum. unfold errors.
      set (cov := fun x : nat * nat => existsb (fun r => affects r (fst x) (snd x)) (firstn k rules)).
      rewrite (count_ext _ (fun x => if cov x then negb (deviates label majority x) else deviates label majority x)).
      2:{ intros (e & l) Hx. apply cells_In in Hx. destruct Hx as (He & Hl). cbn [fst snd] in *. rewrite (nth_error_nth _ _ _ (V e l He Hl)).
          unfold deviates, cov. cbn [fst snd]. destruct (existsb _ (firstn k rules)), (label e l), (mem majority l); reflexivity. }
      rewrite (count_ext (fun x => negb (nth _ _ _ =? 0)%N && _) (fun x => negb (deviates label majority x) && cov x)).
      2:{ intros (e & l) Hx. apply cells_In in Hx. destruct Hx as (He & Hl). cbn [fst snd] in *. rewrite (nth_error_nth _ _ _ (V e l He Hl)).
          rewrite HC by auto. unfold deviates, cov. cbn [fst snd]. rewrite !existsb_count.
          destruct (Nat.eqb_spec (count (fun r => affects r e l) (firstn k rules)) 0) as [E|E].
          - rewrite E. destruct (label e l), (mem majority l); reflexivity.
          - destruct (N.eqb_spec (N.of_nat (count (fun r => affects r e l) (firstn k rules))) 0); [lia|].
            destruct (label e l), (mem majority l); reflexivity. }
      assert (X : forall L, count (fun x => if cov x then negb (deviates label majority x) else deviates label majority x) L
        = count (fun x => deviates label majority x && negb (cov x)) L + count (fun x => negb (deviates label majority x) && cov x) L).
      { unfold count. induction L as [|x L IH]; [reflexivity|]. cbn [filter]. destruct (cov x), (deviates label majority x); cbn [negb andb length]; lia. }
      rewrite X. unfold cov. lia.
Qed.

(** ** Findings *)
Lemma sparse_list_refuted :
  exists junk lm label row fm rules model final result e l,
    represents lm label /\ length junk = lmCols lm /\ fmRows fm = lmRows lm /\ (forall i, i < lmRows lm -> example_row fm i (row i)) /\
    Forall (fun r => valid_seco_rule (lmRows lm) (lmCols lm) row r /\ predicts_minority label (lmRows lm) (srHead r)) rules /\
    Forall (fun r => no_missing (lmRows lm) row (srConditions r)) rules /\
    (forall junkF junkI, learnDecisionList junk lm junkF junkI true rules 0 = Some (model, final)) /\
    (forall cell, predictSparse cell fm model (lmCols lm) 0 = Some result) /\
    e < lmRows lm /\ l < lmCols lm /\ nth (e * lmCols lm + l) (cvCounts final) 0%N <> 0%N /\ label e l = false /\ is_majority label (lmRows lm) l /\
    In l (nth e result []).
Proof.
  set (rows := [[Fin 1]; [Fin 2]; [Fin 5]]).
  exists [0], (mkLabels 3 1 (DenseLabels [true; true; false])), (fun e _ => e <? 2), (fun i => nth i rows []), (DenseMatrix rows),
    [mkSecoRule [mkCond 0 NUMERICAL_GR (TFloat (Fin 3))] [2] (SecoStatistics.PartialHead [0] [false])].
  exists (mkRuleList (Some (EmptyBody, Prediction.CompleteHead [true])) [(ConjunctiveBody (mkBody [] [(0, Fin 3)] [] [] [] []), Prediction.PartialHead [(0, false)])] 0 false),
    (mkCoverage [0; 0; 1]%N 0%Z), [[0]; [0]; [0]], 2, 0.
  split. { split; [reflexivity|]. intros e l He Hl. cbn in He, Hl. destruct l as [|l]; [|lia]. destruct e as [|[|[|e]]]; [reflexivity..|lia]. }
  split; [reflexivity|]. split; [reflexivity|]. split; [intros i Hi; cbn in Hi; destruct i as [|[|[|i]]]; [reflexivity..|lia]|].
  split.
  { constructor; [|constructor]. split.
    - split; [repeat constructor; simpl; tauto|]. split; [|split; [repeat constructor|]].
      + intros i. cbn [srCovered srConditions lmRows]. split.
        * intros [<- |[]]. split; [lia|]. constructor; [|constructor]. exists 5%Z. split; [reflexivity|]. simpl. lia.
        * intros (Hi & H). apply Forall_cons_iff in H. destruct H as ((z & E & H) & _). simpl in H. destruct i as [|[|[|i]]]; simpl in E; [| |left; auto|lia].
          -- injection E as <-. lia.
          -- injection E as <-. lia.
      + cbn. repeat split; repeat constructor.
    - intros l b. cbn. destruct l as [|l]; [|discriminate]. intros [= <-]. unfold is_majority. cbn. split; [lia|reflexivity]. }
  split.
  { constructor; [|constructor]. intros i Hi. cbn in Hi. constructor; [|constructor]. destruct i as [|[|[|i]]]; [eexists; split; [reflexivity|discriminate]..|lia]. }
  split; [intros junkF junkI; reflexivity|]. split; [intros cell; reflexivity|]. cbn.
  split; [lia|]. split; [lia|]. split; [discriminate|]. split; [reflexivity|]. split; [unfold is_majority; cbn; lia|]. auto.
Qed.

Lemma missing_list_refuted :
  exists junk lm label row fm rules model final result e l,
    represents lm label /\ length junk = lmCols lm /\ fmRows fm = lmRows lm /\ (forall i, i < lmRows lm -> example_row fm i (row i)) /\
    Forall (fun r => valid_seco_rule (lmRows lm) (lmCols lm) row r /\ predicts_minority label (lmRows lm) (srHead r)) rules /\
    (forall junkF junkI, learnDecisionList junk lm junkF junkI true rules 0 = Some (model, final)) /\
    (forall cell junkLabels, length junkLabels = lmRows lm -> Forall (fun r => length r = lmCols lm) junkLabels ->
       predictDense cell junkLabels fm model (lmCols lm) 0 = Some result) /\
    e < lmRows lm /\ l < lmCols lm /\ nth (e * lmCols lm + l) (cvCounts final) 0%N = 0%N /\ label e l = false /\
    ~ is_majority label (lmRows lm) l /\ nth_error (nth e result []) l = Some true.
Proof.
  set (rows := [[Fin 1]; [NaN]]).
  exists [0], (mkLabels 2 1 (DenseLabels [true; false])), (fun e _ => e <? 1), (fun i => nth i rows []), (DenseMatrix rows),
    [mkSecoRule [mkCond 0 NUMERICAL_LEQ (TFloat (Fin 3))] [0] (SecoStatistics.PartialHead [0] [true])].
  exists (mkRuleList (Some (EmptyBody, Prediction.CompleteHead [false])) [(ConjunctiveBody (mkBody [(0, Fin 3)] [] [] [] [] []), Prediction.PartialHead [(0, true)])] 0 false),
    (mkCoverage [1; 0]%N 0%Z), [[true]; [true]], 1, 0.
  split. { split; [reflexivity|]. intros e l He Hl. cbn in He, Hl. destruct l as [|l]; [|lia]. destruct e as [|[|e]]; [reflexivity..|lia]. }
  split; [reflexivity|]. split; [reflexivity|]. split; [intros i Hi; cbn in Hi; destruct i as [|[|i]]; [reflexivity..|lia]|].
  split.
  { constructor; [|constructor]. split.
    - split; [repeat constructor; simpl; tauto|]. split; [|split; [repeat constructor|]].
      + intros i. cbn [srCovered srConditions lmRows]. split.
        * intros [<- |[]]. split; [lia|]. constructor; [|constructor]. exists 1%Z. split; [reflexivity|]. simpl. lia.
        * intros (Hi & H). apply Forall_cons_iff in H. destruct H as ((z & E & H) & _). simpl in H. destruct i as [|[|i]]; simpl in E; [left; auto|discriminate|lia].
      + cbn. repeat split; repeat constructor.
    - intros l b. cbn. destruct l as [|l]; [|discriminate]. intros [= <-]. unfold is_majority. cbn. split; [discriminate|lia]. }
  split; [intros junkF junkI; reflexivity|]. split.
  { intros cell junkLabels L F. destruct junkLabels as [|[|a [|? ?]] [|[|b [|? ?]] [|? ?]]]; try discriminate L;
      repeat (apply Forall_cons_iff in F; destruct F as (? & F)); try discriminate. reflexivity. }
  cbn. split; [lia|]. split; [lia|]. split; [reflexivity|]. split; [reflexivity|]. split; [unfold is_majority; cbn; lia|]. reflexivity.
Qed.
