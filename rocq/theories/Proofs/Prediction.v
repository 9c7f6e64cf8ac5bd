(** Proofs about the prediction of scores, incremental and parallel prediction. *)
From Coq Require Import ZArith NArith Arith List Bool Lia Permutation.
From Verif Require Import Lib.Arr Model.Rules Model.Prediction Spec.Rules Proofs.Rules.
Import ListNotations.
Open Scope nat_scope.

Lemma forN_aget {A S} (h : list A) (g : A -> S -> option S) : forall pre st,
  forN (length h) (length pre) (fun i st => let* x := aget (pre ++ h) i in g x st) st = forL h g st.
Proof.
  induction h as [|a h IH]; intros pre st; simpl; auto.
  unfold aget at 1. rewrite nth_error_app2, Nat.sub_diag by lia. simpl.
  destruct (g a st) as [st'|]; auto.
  specialize (IH (pre ++ [a]) st'). rewrite app_length, Nat.add_1_r, <- app_assoc in IH. exact IH.
Qed.

Section Scores.
Context {V : Type} (add : V -> V -> V) (zero : V).

Lemma addComplete_length h : forall s s', addComplete add h s = Some s' -> length s' = length s.
Proof.
  induction h as [|v h IH]; simpl; intros s s' H.
  - injection H as <-. auto.
  - destruct s as [|x s]; [discriminate|]. destruct (addComplete add h s) as [r|] eqn:E; [|discriminate].
    injection H as <-. simpl. f_equal. apply IH; auto.
Qed.

Lemma addAt_upd i v s : addAt add i v s = let* x := aget s i in aset s i (add x v).
Proof.
  unfold addAt, aget. destruct (nth_error s i) as [x|] eqn:E; auto.
  assert (i < length s) by (apply (proj1 (nth_error_Some s i)); congruence).
  rewrite aset_Some by auto. f_equal. destruct (upd_split s i (add x v) x E) as (l1 & l2 & -> & <- & ->).
  rewrite firstn_app, Nat.sub_diag, firstn_all, skipn_app. simpl firstn. rewrite app_nil_r.
  rewrite (skipn_all2 (n := S (length l1)) l1) by lia. rewrite Nat.sub_succ_l by lia. rewrite Nat.sub_diag. auto.
Qed.

Lemma addAt_length i v s s' : addAt add i v s = Some s' -> length s' = length s.
Proof.
  rewrite addAt_upd. unfold aget. destruct (nth_error s i); [|discriminate]. intros H. apply aset_inv in H.
  destruct H as [_ ->]. apply upd_length.
Qed.

Lemma addPartial_length h : forall s s', addPartial add h s = Some s' -> length s' = length s.
Proof.
  induction h as [|[i v] h IH]; simpl; intros s s' H.
  - injection H as <-. auto.
  - destruct (addAt add i v s) eqn:E; [|discriminate]. rewrite (IH _ _ H). eapply addAt_length; eauto.
Qed.

Lemma addHead_length h s s' : addHead add h s = Some s' -> length s' = length s.
Proof. destruct h; [apply addComplete_length|apply addPartial_length]. Qed.

Lemma score_of_length cov rules : forall s s', score_of add cov rules s = Some s' -> length s' = length s.
Proof.
  induction rules as [|r rules IH]; simpl; intros s s' H.
  - injection H as <-. auto.
  - destruct (cov r) as [[]|]; [|auto|discriminate].
    destruct (addHead add (snd r) s) eqn:E; [|discriminate].
    rewrite (IH _ _ H). eapply addHead_length; eauto.
Qed.

Lemma score_of_app cov r1 r2 s :
  score_of add cov (r1 ++ r2) s = let* s' := score_of add cov r1 s in score_of add cov r2 s'.
Proof.
  revert s. induction r1 as [|r r1 IH]; intros s; simpl; auto.
  destruct (cov r) as [[]|]; auto. destruct (addHead add (snd r) s); auto.
Qed.

Lemma applyCompleteHead_gen hb : forall ha sa sb, length ha = length sa ->
  forN (length hb) (length ha) (fun i scores =>
    let* s := aget scores i in
    let* v := aget (ha ++ hb) i in
    aset scores i (add s v)) (sa ++ sb) = option_map (app sa) (addComplete add hb sb).
Proof.
  induction hb as [|v hb IH]; intros ha sa sb Hl; simpl; auto.
  unfold aget at 1. rewrite nth_error_app2 by lia. replace (length ha - length sa) with 0 by lia.
  destruct sb as [|x sb]; simpl; auto.
  unfold aget at 1. rewrite nth_error_app2, Nat.sub_diag by lia. simpl.
  rewrite aset_Some by (rewrite app_length; simpl; lia).
  assert (E: upd (sa ++ x :: sb) (length ha) (add x v) = (sa ++ [add x v]) ++ sb).
  { rewrite Hl. clear. induction sa; simpl; auto. f_equal; auto. }
  rewrite E.
  specialize (IH (ha ++ [v]) (sa ++ [add x v]) sb).
  rewrite !app_length, Nat.add_1_r, <- app_assoc in IH. simpl app in IH. rewrite <- app_assoc in IH.
  simpl app in IH. rewrite <- app_assoc. simpl app. rewrite IH by (simpl; lia).
  destruct (addComplete add hb sb); simpl; auto. rewrite <- app_assoc. auto.
Qed.

Lemma applyHead_ok h s : applyHead add h s = addHead add h s.
Proof.
  destruct h as [h|h]; simpl.
  - unfold applyCompleteHead. pose proof (applyCompleteHead_gen h [] [] s eq_refl) as E. simpl in E.
    etransitivity; [exact E|]. destruct (addComplete add h s); auto.
  - unfold applyPartialHead.
    pose proof (forN_aget h (fun '(index, v) scores =>
      let* s := aget scores index in aset scores index (add s v)) [] s) as E.
    simpl in E. etransitivity; [|etransitivity; [exact E|]].
    + apply forN_ext. intros k st _. destruct (aget h k) as [[index v]|]; reflexivity.
    + clear E. revert s. induction h as [|[i v] h IH]; intros s; simpl; auto.
      rewrite addAt_upd. destruct (let* s0 := aget s i in aset s i (add s0 v)); auto.
Qed.

Definition loops_over {R} (it stop : rlIter R) (rules : list R) : Prop :=
  forall S (f : R -> S -> option S) st, iterLoop it stop f st = forL rules f st.

Lemma applyRulesDense_ok row it stop rules s : loops_over it stop rules ->
  applyRulesDense add row it stop s = score_of add (fun r => coversDense row (fst r)) rules s.
Proof.
  intros Hl. unfold applyRulesDense. rewrite Hl. clear Hl. revert s.
  induction rules as [|r rules IH]; intros s; simpl; auto.
  unfold applyRuleDense at 1. destruct (coversDense row (fst r)) as [[]|]; auto.
  rewrite applyHead_ok. destruct (addHead add (snd r) s); auto.
Qed.

Lemma sparse_loop_ok entries sparseValue row numFeatures rules :
  same_row numFeatures sparseValue entries row ->
  forall s t1 t2 n, length t1 = numFeatures -> length t2 = numFeatures ->
  (forall x, In x t2 -> (x < n)%N) -> (n + N.of_nat (length rules) <= 2 ^ 32)%N ->
  (let* (s', _, _) := forL rules (sparseStep add entries sparseValue) (s, (t1, t2), n) in Some s') =
  score_of add (fun r => coversDense row (fst r)) rules s.
Proof.
  intros Hs. induction rules as [|r rules IH]; intros s t1 t2 n L1 L2 Hn Hlen; [reflexivity|].
  cbn [forL score_of length] in *. unfold sparseStep at 1, applyRuleSparse at 1.
  pose proof (coversSparse_ok entries n t1 t2 row numFeatures sparseValue (fst r) Hs L1 L2) as C.
  assert (Hni: ~ In n t2). { intros Hin. apply Hn in Hin. lia. } specialize (C Hni).
  destruct (coversDense row (fst r)) as [c|].
  2:{ rewrite C. reflexivity. }
  destruct C as (t1' & t2' & -> & L1' & L2' & Ht).
  assert (Hn': forall x, In x t2' -> (x < (n + 1) mod 2 ^ 32)%N \/ rules = []).
  { intros x Hx. destruct rules; [right; auto|left]. rewrite N.mod_small by (simpl length in Hlen; lia).
    destruct (Ht x Hx) as [->|H]; [lia|]. apply Hn in H. lia. }
  destruct c.
  - rewrite applyHead_ok. destruct (addHead add (snd r) s) as [s'|]; [|reflexivity].
    simpl snd. destruct rules as [|r' rules'].
    + reflexivity.
    + apply IH; auto.
      * intros x Hx. destruct (Hn' x Hx) as [H|H]; [auto|discriminate].
      * rewrite N.mod_small by (simpl length in Hlen; lia). lia.
  - simpl snd. destruct rules as [|r' rules'].
    + reflexivity.
    + apply IH; auto.
      * intros x Hx. destruct (Hn' x Hx) as [H|H]; [auto|discriminate].
      * rewrite N.mod_small by (simpl length in Hlen; lia). lia.
Qed.

Lemma applyRulesSparse_ok entries sparseValue junk row it stop rules s :
  same_row (length junk) sparseValue entries row -> loops_over it stop rules ->
  (N.of_nat (length rules) < 2 ^ 32)%N ->
  applyRulesSparse add entries sparseValue junk it stop s =
  score_of add (fun r => coversDense row (fst r)) rules s.
Proof.
  intros Hs Hl Hlen. unfold applyRulesSparse. rewrite Hl.
  apply (sparse_loop_ok entries sparseValue row (length junk) rules Hs); auto.
  - apply repeat_length.
  - intros x Hx. apply repeat_spec in Hx. subst. reflexivity.
  - lia.
Qed.

Lemma C19_sparse_lemma entries sparseValue junk row it stop rules s :
  same_row (length junk) sparseValue entries row ->
  (forall S (f : rule V -> S -> option S) st, iterLoop it stop f st = forL rules f st) ->
  (N.of_nat (length rules) < 2 ^ 32)%N ->
  applyRulesSparse add entries sparseValue junk it stop s = applyRulesDense add row it stop s.
Proof.
  intros. rewrite (applyRulesDense_ok row it stop rules) by auto. apply applyRulesSparse_ok; auto.
Qed.

Lemma aggregate_ok junk m it stop rules i row s :
  example_row m i row -> loops_over it stop rules -> (N.of_nat (length rules) < 2 ^ 32)%N ->
  aggregateScores add junk m it stop i s = score_of add (fun r => coversDense row (fst r)) rules s.
Proof.
  intros Hr Hl Hlen. destruct m as [rows|numCols sv rows]; simpl in *; unfold aget.
  - rewrite Hr. apply applyRulesDense_ok; auto.
  - destruct Hr as (entries & -> & Hs). apply applyRulesSparse_ok; auto. rewrite repeat_length. auto.
Qed.

Lemma accumulateAll_ok junk m it stop rules (row : nat -> list fval) (res : nat -> list V) matrix :
  loops_over it stop rules -> (N.of_nat (length rules) < 2 ^ 32)%N -> length matrix = fmRows m ->
  (forall i, i < fmRows m -> example_row m i (row i) /\
     exists s, nth_error matrix i = Some s /\
       score_of add (fun r => coversDense (row i) (fst r)) rules s = Some (res i)) ->
  accumulateAll add junk m it stop matrix = Some (map res (seq 0 (fmRows m))).
Proof.
  intros Hl Hlen Hm H. unfold accumulateAll.
  match goal with |- forN ?c ?s ?b ?st = _ =>
    pose proof (forN_inv (fun k mat => length mat = fmRows m /\
      forall i, i < fmRows m -> nth_error mat i = if i <? k then Some (res i) else nth_error matrix i) b c s st) as K end.
  destruct K as (mat & -> & L & E).
  - split; auto.
  - intros j mat Hj (L & E). destruct (H j ltac:(lia)) as (Hr & s & Hs & Hsc).
    unfold aget. rewrite E by lia. rewrite Nat.ltb_irrefl, Hs.
    rewrite (aggregate_ok junk m it stop rules j (row j) s) by auto. rewrite Hsc.
    rewrite aset_Some by lia. eexists. split; [reflexivity|]. rewrite upd_length. split; auto.
    intros i Hi. rewrite nth_error_upd, E by auto. destruct (Nat.eqb_spec j i) as [<-|Hne].
    + rewrite (proj2 (Nat.ltb_lt j (length mat))) by lia. simpl.
      rewrite (proj2 (Nat.ltb_lt j (S j))) by lia. auto.
    + simpl. destruct (Nat.ltb_spec i j), (Nat.ltb_spec i (S j)); auto; lia.
  - f_equal. apply nth_error_ext. intros i.
    destruct (Nat.lt_ge_cases i (fmRows m)) as [Hi|Hi].
    + rewrite E by auto. rewrite (proj2 (Nat.ltb_lt _ _)) by lia.
      erewrite map_nth_error; [reflexivity|]. rewrite (nth_error_nth' _ 0) by (rewrite seq_length; auto).
      rewrite seq_nth; auto.
    + transitivity (@None (list V)); [|symmetry]; apply nth_error_None; rewrite ?map_length, ?seq_length; lia.
Qed.

End Scores.

(** ** Incremental prediction *)

Lemma loops_over_range {R} (l : ruleList R) i j n :
  n <= rlGetNumRules l -> (rlDefault l = None \/ 1 <= n) -> i <= j <= n ->
  loops_over (rlMakeIter l i n) (rlMakeIter l j n)
    (firstn (j - i) (skipn i (expected_order (rlDefault l) (rlRules l) (rlPrecedence l) n))).
Proof. intros H1 H2 H3 S f st. apply iterLoop_ok; auto. Qed.

Lemma firstn_firstn_skipn {A} (l : list A) i j : i <= j -> firstn i l ++ firstn (j - i) (skipn i l) = firstn j l.
Proof.
  revert l j. induction i as [|i IH]; intros l j H; simpl.
  - rewrite Nat.sub_0_r. auto.
  - destruct l as [|a l]; simpl.
    + rewrite firstn_nil. destruct j; auto.
    + destruct j as [|j]; [lia|]. simpl. f_equal. apply IH. lia.
Qed.

Section Incremental.
Context {V : Type} (add : V -> V -> V) (zero : V).

Notation cov row := (fun r : rule V => coversDense row (fst r)).

Lemma score_prefix row rules k s s' : score_of add (cov row) rules s = Some s' ->
  exists s'', score_of add (cov row) (firstn k rules) s = Some s''.
Proof.
  rewrite <- (firstn_skipn k rules) at 1. rewrite score_of_app.
  destruct (score_of add (cov row) (firstn k rules) s); [eauto|discriminate].
Qed.

Section Model.
Variables (junk : fval) (m : featureMatrix) (l : ruleList (rule V)) (numOutputs maxRules : nat) (row : nat -> list fval).
Hypothesis Hused : rlNumUsed l <= rlGetNumRules l.
Hypothesis H32 : (N.of_nat (rlGetNumRules l) < 2 ^ 32)%N.
Let n := limitRules maxRules (rlGetNumUsed l).
Let order := expected_order (rlDefault l) (rlRules l) (rlPrecedence l) n.
Hypothesis Hrows : forall i, i < fmRows m -> example_row m i (row i) /\
  exists s, score_of add (cov (row i)) order (repeat zero numOutputs) = Some s.

Let Hn : n <= rlGetNumRules l /\ (rlDefault l = None \/ 1 <= n).
Proof. apply limit_ok; apply rlGetNumUsed_ok; auto. Qed.

Let Hlen : length order = n.
Proof. apply expected_length; apply Hn. Qed.

Definition prefix_scores (k i : nat) : list V :=
  match score_of add (cov (row i)) (firstn k order) (repeat zero numOutputs) with Some s => s | None => [] end.

Lemma prefix_scores_ok k i : i < fmRows m ->
  score_of add (cov (row i)) (firstn k order) (repeat zero numOutputs) = Some (prefix_scores k i).
Proof.
  intros Hi. destruct (Hrows i Hi) as (_ & s & Hs). unfold prefix_scores.
  destruct (score_prefix _ _ k _ _ Hs) as (s' & ->). auto.
Qed.

Lemma accumulate_range i j matrix : i <= j <= n -> length matrix = fmRows m ->
  (forall e, e < fmRows m -> nth_error matrix e = Some (prefix_scores i e)) ->
  accumulateAll add junk m (rlMakeIter l i n) (rlMakeIter l j n) matrix = Some (map (prefix_scores j) (seq 0 (fmRows m))).
Proof.
  intros Hij Hm Hmat.
  apply (accumulateAll_ok add junk m _ _ (firstn (j - i) (skipn i order)) row (prefix_scores j)); auto.
  - apply loops_over_range; [apply Hn|apply Hn|auto].
  - rewrite firstn_length, skipn_length, Hlen. destruct Hn. lia.
  - intros e He. split; [apply Hrows; auto|]. exists (prefix_scores i e). split; [auto|].
    pose proof (prefix_scores_ok j e He) as E. rewrite <- (firstn_firstn_skipn order i j) in E by lia.
    rewrite score_of_app, prefix_scores_ok in E by auto. exact E.
Qed.

Lemma nth_error_map_seq {B} (f : nat -> B) k i : i < k -> nth_error (map f (seq 0 k)) i = Some (f i).
Proof.
  intros H. rewrite (map_nth_error f i (seq 0 k) (d := i)); auto.
  rewrite (nth_error_nth' _ 0) by (rewrite seq_length; auto). rewrite seq_nth; auto.
Qed.

Definition inc_inv (k : nat) (p : incremental V) : Prop :=
  incCurrent p = rlMakeIter l k n /\ incEnd p = rlMakeIter l n n /\ k <= n /\
  incMatrix p = map (prefix_scores k) (seq 0 (fmRows m)).

Lemma incApplyNext_ok k p step : inc_inv k p ->
  exists p', incApplyNext add junk m p step = Some p' /\ inc_inv (Nat.min n (k + step)) p'.
Proof.
  intros (E1 & E2 & Hk & E3). unfold incApplyNext, incNumNext, itDiff. rewrite E1, E2. simpl itIndex.
  assert (Ea: itAdvance (rlMakeIter l k n) (Nat.min step (n - k)) = rlMakeIter l (Nat.min n (k + step)) n).
  { unfold itAdvance, rlMakeIter. simpl. f_equal. lia. }
  rewrite Ea, (accumulate_range k (Nat.min n (k + step))).
  - eexists. split; [reflexivity|]. split; [auto|]. split; [auto|]. split; [lia|]. reflexivity.
  - lia.
  - rewrite E3, map_length, seq_length. auto.
  - intros e He. rewrite E3. apply nth_error_map_seq. auto.
Qed.

Lemma incRun_ok steps : forall k p, inc_inv k p ->
  exists p', incRun add junk m p steps = Some p' /\ inc_inv (Nat.min n (k + list_sum steps)) p'.
Proof.
  induction steps as [|s steps IH]; intros k p H; simpl.
  - exists p. split; auto. rewrite Nat.add_0_r. replace (Nat.min n k) with k; auto. destruct H as (_ & _ & H & _). lia.
  - destruct (incApplyNext_ok k p s H) as (p' & -> & H'). destruct (IH _ _ H') as (p'' & -> & H'').
    exists p''. split; auto. replace (Nat.min n (k + (s + list_sum steps))) with
      (Nat.min n (Nat.min n (k + s) + list_sum steps)) by lia. auto.
Qed.

Lemma map_const {A B} (x : B) (xs : list A) : map (fun _ => x) xs = repeat x (length xs).
Proof. induction xs; simpl; congruence. Qed.

Lemma inc_init : inc_inv 0 (incCreate zero m l numOutputs maxRules).
Proof.
  split; [reflexivity|]. split; [reflexivity|]. split; [lia|]. simpl.
  transitivity (map (fun _ : nat => repeat zero numOutputs) (seq 0 (fmRows m))).
  - rewrite map_const, seq_length. reflexivity.
  - apply map_ext_in. intros i Hi. apply in_seq in Hi.
    pose proof (prefix_scores_ok 0 i ltac:(lia)) as E. simpl in E. congruence.
Qed.

Lemma C45_lemma steps :
  exists p, incRun add junk m (incCreate zero m l numOutputs maxRules) steps = Some p /\
    incNumNext p = n - list_sum steps /\
    length (incMatrix p) = fmRows m /\
    (forall i, i < fmRows m -> nth_error (incMatrix p) i =
       score_of add (cov (row i)) (firstn (list_sum steps) order) (repeat zero numOutputs)) /\
    (n <= list_sum steps -> predictScores add zero junk m l numOutputs maxRules = Some (incMatrix p)).
Proof.
  destruct (incRun_ok steps 0 _ inc_init) as (p & Hp & E1 & E2 & Hk & E3). simpl in E1, Hk, E3.
  exists p. split; [exact Hp|]. split.
  { unfold incNumNext, itDiff. rewrite E1, E2. simpl. lia. }
  split. { rewrite E3, map_length, seq_length. auto. }
  split.
  - intros i Hi. rewrite E3, nth_error_map_seq by auto. rewrite <- prefix_scores_ok by auto.
    f_equal. destruct (Nat.le_ge_cases n (list_sum steps)).
    + rewrite !firstn_all2; auto; lia.
    + f_equal. lia.
  - intros Hle. unfold predictScores. pose proof inc_init as (I1 & I2 & _ & I3).
    unfold incCreate in I1, I2, I3. simpl in I1, I2, I3. rewrite I1, I2, I3.
    rewrite (accumulate_range 0 n).
    + rewrite E3. replace (Nat.min n (list_sum steps)) with n by lia. reflexivity.
    + lia.
    + rewrite map_length, seq_length. auto.
    + intros e He. apply nth_error_map_seq. auto.
Qed.
End Model.
End Incremental.
