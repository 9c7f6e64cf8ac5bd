(** Proofs about the serialization of models. *)
From Coq Require Import ZArith NArith Arith List Bool Lia.
From Verif Require Import Lib.Arr Model.Rules Model.Prediction Model.Serialization.
From Verif Require Import Spec.Rules Spec.Serialization Proofs.Rules.
Import ListNotations.

(** ** Loops *)

Lemma pyForN_inv {A} (Inv : nat -> A -> Prop) (f : nat -> A -> outcome A) cnt : forall i st,
  Inv i st ->
  (forall j st, i <= j < i + cnt -> Inv j st -> exists st', f j st = Returned st' /\ Inv (j + 1) st') ->
  exists st', pyForN cnt i f st = Returned st' /\ Inv (i + cnt) st'.
Proof.
  induction cnt as [|cnt IH]; intros i st H0 Hs; simpl.
  - rewrite Nat.add_0_r. eauto.
  - destruct (Hs i st) as (st' & -> & H1); [lia|auto|].
    destruct (IH (i + 1) st' H1) as (st'' & -> & H2).
    + intros j s Hj. apply Hs. lia.
    + replace (i + S cnt) with (i + 1 + cnt) by lia. eauto.
Qed.

Lemma pyForN_to_L {A B} (xs : list B) (g : B -> A -> outcome A) (f : nat -> A -> outcome A) :
  forall pre st, (forall i x st, nth_error (pre ++ xs) i = Some x -> f i st = g x st) ->
  pyForN (length xs) (length pre) f st = pyForL xs g st.
Proof.
  induction xs as [|x xs IH]; intros pre st H; simpl; auto.
  rewrite (H (length pre) x st).
  2: { rewrite nth_error_app2, Nat.sub_diag; auto. }
  destruct (g x st) as [st'| |]; auto.
  specialize (IH (pre ++ [x]) st'). rewrite app_length in IH. simpl in IH. apply IH.
  intros i y s E. apply H. rewrite <- app_assoc in E. exact E.
Qed.

Lemma pyForN_list {A B} (xs : list B) (g : B -> A -> outcome A) (f : nat -> A -> outcome A) st :
  (forall i x st, nth_error xs i = Some x -> f i st = g x st) ->
  pyForN (length xs) 0 f st = pyForL xs g st.
Proof. intros H. apply (pyForN_to_L xs g f []). exact H. Qed.

Lemma pyForL_pure {A B} (xs : list B) (g : B -> A -> outcome A) (p : A -> B -> A) :
  (forall x st, In x xs -> g x st = Returned (p st x)) ->
  forall st, pyForL xs g st = Returned (fold_left p xs st).
Proof.
  induction xs as [|x xs IH]; intros H st; simpl; auto. rewrite H by (left; auto).
  apply IH. intros. apply H. right. auto.
Qed.

Lemma pyForL_app {A B} (g : B -> A -> outcome A) xs : forall ys st,
  pyForL (xs ++ ys) g st = let! st := pyForL xs g st in pyForL ys g st.
Proof. induction xs as [|x xs IH]; intros; simpl; auto. destruct (g x st); auto. Qed.

Lemma pyForL_raised {A B} (g : B -> A -> outcome A) xs :
  (forall x st, In x xs -> (exists st', g x st = Returned st') \/ g x st = Raised) ->
  forall x, In x xs -> (forall st, g x st = Raised) -> forall st, pyForL xs g st = Raised.
Proof.
  induction xs as [|y xs IH]; intros H x Hx R st; [destruct Hx|]. simpl. destruct Hx as [<-|Hx].
  - rewrite R. auto.
  - destruct (H y st (or_introl eq_refl)) as [(st' & ->)| ->]; auto.
    apply (IH (fun z s Hz => H z s (or_intror Hz)) x); auto.
Qed.

Lemma fold_append {A B} (f : A -> B) xs : forall acc,
  fold_left (fun s x => s ++ [f x]) xs acc = acc ++ map f xs.
Proof.
  induction xs as [|x xs IH]; intros acc; simpl; [rewrite app_nil_r; auto|]. rewrite IH, <- app_assoc. auto.
Qed.

(** ** Arrays *)

Lemma fill_ok {A} (junk : A) (xs : list A) (f : nat -> list A -> option (list A)) :
  (forall i x v, nth_error xs i = Some x -> f i v = aset v i x) ->
  forN (length xs) 0 f (repeat junk (length xs)) = Some xs.
Proof.
  intros H.
  destruct (forN_inv (fun i v => i <= length xs /\ v = firstn i xs ++ repeat junk (length xs - i)) f (length xs) 0
              (repeat junk (length xs))) as (v & -> & _ & E).
  - split; [lia|]. simpl. rewrite Nat.sub_0_r. auto.
  - intros i v Hi (_ & ->).
    destruct (nth_error xs i) as [x|] eqn:E; [|apply nth_error_None in E; lia].
    rewrite (H i x _ E). exists (firstn (S i) xs ++ repeat junk (length xs - S i)).
    split; [|split; [lia|auto]].
    rewrite aset_Some by (rewrite app_length, firstn_length, repeat_length; lia). f_equal.
    apply nth_error_ext. intros k. rewrite nth_error_upd.
    rewrite app_length, firstn_length, repeat_length.
    destruct (Nat.eqb_spec i k) as [<-|N].
    + rewrite (proj2 (Nat.ltb_lt _ _)) by lia. cbn [andb].
      rewrite nth_error_app1 by (rewrite firstn_length; lia).
      rewrite nth_error_firstn'. rewrite (proj2 (Nat.ltb_lt _ _)) by lia. auto.
    + cbn [andb]. destruct (Nat.lt_ge_cases k i) as [L|G].
      * rewrite !nth_error_app1 by (rewrite firstn_length; lia). rewrite !nth_error_firstn'.
        rewrite !(proj2 (Nat.ltb_lt _ _)) by lia. auto.
      * rewrite !nth_error_app2 by (rewrite firstn_length; lia). rewrite !firstn_length.
        rewrite !Nat.min_l by lia.
        replace (length xs - i) with (S (length xs - S i)) by lia.
        replace (k - i) with (S (k - S i)) by lia. auto.
  - rewrite E. cbn [Nat.add]. rewrite firstn_all, Nat.sub_diag, app_nil_r. auto.
Qed.

Definition opt_array {T} (xs : list T) : option (list T) := match xs with [] => None | _ => Some xs end.

Lemma optionalArray_ok {T} (xs : list T) : optionalArray xs = Returned (opt_array xs).
Proof. destruct xs; auto. Qed.

Lemma castToArray_ok {T} (xs : list T) : xs <> [] -> castToArray xs = Returned xs.
Proof. destruct xs; auto. congruence. Qed.

Lemma pairs_ok {A B} (v : list (A * B)) i (a : A) (b : B) :
  nth_error v i = Some (a, b) -> nth_error (map fst v) i = Some a /\ nth_error (map snd v) i = Some b.
Proof. intros E. rewrite !nth_error_map, E. auto. Qed.

Lemma deserializeVector_ok {T} (junk : nat * T) (v : cvec T) :
  deserializeVector junk (opt_array (map snd v)) (opt_array (map fst v)) = Returned v.
Proof.
  destruct v as [|p v']; [reflexivity|]. set (v := p :: v').
  assert (E1 : opt_array (map snd v) = Some (map snd v)) by reflexivity.
  assert (E2 : opt_array (map fst v) = Some (map fst v)) by reflexivity.
  rewrite E1, E2. clearbody v. clear E1 E2 p v'. unfold deserializeVector.
  rewrite map_length. rewrite fill_ok; auto.
  intros i (f, t) w E. destruct (pairs_ok v i f t E) as (E1 & E2).
  unfold aget. rewrite E2, E1. auto.
Qed.

(** ** Rules *)

Definition body_state (b : cbody) : bodyState :=
  mkBodyState (opt_array (map snd (numericalLeq b))) (opt_array (map fst (numericalLeq b)))
    (opt_array (map snd (numericalGr b))) (opt_array (map fst (numericalGr b)))
    (opt_array (map snd (ordinalLeq b))) (opt_array (map fst (ordinalLeq b)))
    (opt_array (map snd (ordinalGr b))) (opt_array (map fst (ordinalGr b)))
    (opt_array (map snd (nominalEq b))) (opt_array (map fst (nominalEq b)))
    (opt_array (map snd (nominalNeq b))) (opt_array (map fst (nominalNeq b))).

Definition head_state {V} (h : @head V) : @headState V :=
  match h with CompleteHead s => OneArray s | PartialHead s => TwoArrays (map snd s) (map fst s) end.

Definition rule_state {V} (r : @rule V) : @ruleState V :=
  (match fst r with EmptyBody => None | ConjunctiveBody b => Some (body_state b) end, Some (head_state (snd r))).

Lemma setHeadState_ok {V} (h : @headState V) state b o :
  setHeadState h (state ++ [(b, o)]) = Returned (state ++ [(b, Some h)]).
Proof.
  unfold setHeadState, aget. rewrite app_length. cbn [length].
  replace (length state + 1 - 1) with (length state) by lia.
  rewrite nth_error_app2, Nat.sub_diag by lia. cbn [nth_error called fst].
  rewrite aset_Some by (rewrite app_length; cbn; lia). cbn [called]. f_equal.
  induction state as [|x state IH]; cbn; auto. f_equal. exact IH.
Qed.

Lemma serializeHead_ok {V} (h : @head V) state b o :
  0 < head_size h ->
  match h with
  | CompleteHead h => serializeCompleteHead h (state ++ [(b, o)])
  | PartialHead h => serializePartialHead h (state ++ [(b, o)])
  end = Returned (state ++ [(b, Some (head_state h))]).
Proof.
  destruct h as [h|h]; cbn [head_size head_state]; intros H.
  - unfold serializeCompleteHead. rewrite castToArray_ok by (destruct h; [simpl in H; lia|discriminate]).
    apply setHeadState_ok.
  - unfold serializePartialHead. rewrite !castToArray_ok by (destruct h; [simpl in H; lia|discriminate]).
    apply setHeadState_ok.
Qed.

Lemma serializeHead_empty {V} (h : @head V) state :
  head_size h = 0 ->
  match h with
  | CompleteHead h => serializeCompleteHead h state
  | PartialHead h => serializePartialHead h state
  end = Raised.
Proof. destruct h as [[|]|[|]]; cbn; auto; discriminate. Qed.

Lemma serializeBody_ok {V} (b : body) (state : list (@ruleState V)) :
  match b with EmptyBody => serializeEmptyBody state | ConjunctiveBody b => serializeConjunctiveBody b state end
  = Returned (state ++ [(match b with EmptyBody => None | ConjunctiveBody b => Some (body_state b) end, None)]).
Proof.
  destruct b as [|b]; [reflexivity|]. unfold serializeConjunctiveBody. rewrite !optionalArray_ok. reflexivity.
Qed.

Lemma serializeRule_ok {V} (r : @rule V) state :
  0 < head_size (snd r) -> serializeRule r state = Returned (state ++ [rule_state r]).
Proof.
  intros H. unfold serializeRule. rewrite serializeBody_ok. rewrite serializeHead_ok by auto. reflexivity.
Qed.

Lemma serializeRule_empty {V} (r : @rule V) state : head_size (snd r) = 0 -> serializeRule r state = Raised.
Proof. intros H. unfold serializeRule. rewrite serializeBody_ok. apply serializeHead_empty. auto. Qed.

Lemma deserializeConjunctiveBody_ok junkF junkI (b : cbody) :
  deserializeConjunctiveBody junkF junkI (body_state b) = Returned b.
Proof.
  unfold deserializeConjunctiveBody, body_state.
  cbn [bs0 bs1 bs2 bs3 bs4 bs5 bs6 bs7 bs8 bs9 bs10 bs11]. rewrite !deserializeVector_ok. destruct b; reflexivity.
Qed.

Lemma deserializeHead_ok {V} (junkV : V) (h : @head V) : deserializeHead junkV (Some (head_state h)) = Returned h.
Proof.
  destruct h as [h|h]; cbn [head_state deserializeHead].
  - unfold deserializeCompleteHead. rewrite fill_ok; auto. intros i x v E. unfold aget. rewrite E. auto.
  - unfold deserializePartialHead. rewrite map_length. rewrite fill_ok; auto.
    intros i (f, t) v E. destruct (pairs_ok h i f t E) as (E1 & E2). unfold aget. rewrite E2, E1. auto.
Qed.

(** ** Rule lists *)

Definition add_rule {V} (l : ruleList (@rule V)) (r : @rule V) : ruleList (@rule V) :=
  match fst r with EmptyBody => rlAddDefault l r | ConjunctiveBody _ => rlAddRule l r end.

Lemma setstate_ok {V} junkF junkI (junkV : V) (rules : list (@rule V)) precedence numUsed :
  setstateRuleList junkF junkI junkV (ruleModelVersion, (map rule_state rules, precedence, numUsed))
  = Returned (rlSetNumUsed (fold_left add_rule rules (rlEmpty precedence)) numUsed).
Proof.
  unfold setstateRuleList. rewrite Nat.eqb_refl. cbn [negb]. rewrite map_length.
  rewrite (pyForN_list rules (fun r l => Returned (add_rule l r))).
  - rewrite (pyForL_pure rules _ add_rule); auto.
  - intros i r l E. unfold aget. rewrite nth_error_map, E. cbn [option_map called].
    destruct r as (b, h). unfold rule_state. cbn [fst snd].
    destruct b as [|b]; cbn [deserializeBody].
    + rewrite deserializeHead_ok. reflexivity.
    + rewrite deserializeConjunctiveBody_ok, deserializeHead_ok. reflexivity.
Qed.

Lemma add_rules {V} (rules : list (@rule V)) : forall l,
  (forall r, In r rules -> exists b, fst r = ConjunctiveBody b) ->
  fold_left add_rule rules l = mkRuleList (rlDefault l) (rlRules l ++ rules) (rlNumUsed l) (rlPrecedence l).
Proof.
  induction rules as [|r rules IH]; intros l H; cbn [fold_left].
  - rewrite app_nil_r. destruct l; auto.
  - destruct (H r (or_introl eq_refl)) as (b & E). rewrite IH by (intros; apply H; right; auto).
    unfold add_rule. rewrite E. unfold rlAddRule. cbn. rewrite <- app_assoc. auto.
Qed.

Lemma visit_all {R} (l : ruleList R) :
  rlVisit l = Some (expected_order (rlDefault l) (rlRules l) (rlPrecedence l) (rlGetNumRules l)).
Proof.
  unfold rlVisit, rlBegin, rlEnd, limitRules. cbn [Nat.ltb Nat.leb].
  assert (D : rlDefault l = None \/ 1 <= rlGetNumRules l).
  { unfold rlGetNumRules. destruct (rlDefault l); [right; lia|auto]. }
  rewrite iterLoop_ok; [|lia|exact D|lia]. rewrite Nat.sub_0_r. cbn [skipn].
  rewrite firstn_all2 by (rewrite expected_length; auto).
  set (o := expected_order _ _ _ _). clearbody o. clear D.
  assert (G : forall acc, forL o (fun r acc => Some (acc ++ [r])) acc = Some (acc ++ o)).
  { induction o as [|r o IH]; intros acc; simpl; [rewrite app_nil_r; auto|]. rewrite IH, <- app_assoc. auto. }
  apply G.
Qed.

Lemma visit_rules {V} (l : ruleList (@rule V)) :
  expected_order (rlDefault l) (rlRules l) (rlPrecedence l) (rlGetNumRules l)
  = match rlDefault l with
    | None => rlRules l
    | Some d => if rlPrecedence l then d :: rlRules l else rlRules l ++ [d]
    end.
Proof.
  unfold expected_order, rlGetNumRules. destruct (rlDefault l) as [d|].
  - replace (length (rlRules l) + 1 - 1) with (length (rlRules l)) by lia. rewrite firstn_all. auto.
  - rewrite Nat.add_0_r, firstn_all. auto.
Qed.

Lemma restored_rules {V} (l : ruleList (@rule V)) :
  learned l ->
  fold_left add_rule (expected_order (rlDefault l) (rlRules l) (rlPrecedence l) (rlGetNumRules l))
    (rlEmpty (rlPrecedence l))
  = mkRuleList (rlDefault l) (rlRules l) 0 (rlPrecedence l).
Proof.
  intros (Hd & Hr). rewrite visit_rules. destruct (rlDefault l) as [d|].
  - specialize (Hd d eq_refl). destruct (rlPrecedence l).
    + cbn [fold_left]. rewrite add_rules by auto. unfold add_rule. rewrite Hd. reflexivity.
    + rewrite fold_left_app. rewrite (add_rules (rlRules l)) by auto. cbn [fold_left]. unfold add_rule. rewrite Hd. reflexivity.
  - rewrite add_rules by auto. reflexivity.
Qed.

Lemma all_visited {V} (l : ruleList (@rule V)) r :
  In r (expected_order (rlDefault l) (rlRules l) (rlPrecedence l) (rlGetNumRules l)) <-> In r (all_rules l).
Proof.
  rewrite visit_rules. unfold all_rules. destruct (rlDefault l) as [d|]; [|reflexivity].
  destruct (rlPrecedence l); [reflexivity|]. rewrite in_app_iff. cbn. tauto.
Qed.

Lemma reduce_ok {V} (l : ruleList (@rule V)) :
  (forall r, In r (all_rules l) -> 0 < head_size (snd r)) ->
  reduceRuleList l = Returned (ruleModelVersion,
    (map rule_state (expected_order (rlDefault l) (rlRules l) (rlPrecedence l) (rlGetNumRules l)),
     rlPrecedence l, rlGetNumUsed l)).
Proof.
  intros H. unfold reduceRuleList. rewrite visit_all. cbn [called].
  rewrite (pyForL_pure _ _ (fun s r => s ++ [rule_state r])).
  - rewrite fold_append. reflexivity.
  - intros r s Hr. apply serializeRule_ok. apply H. apply all_visited. auto.
Qed.

Lemma num_used_again {R} (l : ruleList R) n :
  rlGetNumUsed (rlSetNumUsed (mkRuleList (rlDefault l) (rlRules l) n (rlPrecedence l)) (rlGetNumUsed l))
  = rlGetNumUsed l.
Proof.
  unfold rlGetNumUsed, rlSetNumUsed, rlGetNumRules. cbn [rlDefault rlRules rlNumUsed rlPrecedence].
  destruct (0 <? rlNumUsed l) eqn:H; [rewrite H; auto|].
  match goal with |- context [0 <? ?x] => destruct (0 <? x) end; reflexivity.
Qed.

Lemma restored_model {V} (l : ruleList (@rule V)) junkF junkI junkV :
  learned l -> (forall r, In r (all_rules l) -> 0 < head_size (snd r)) ->
  exists state, reduceRuleList l = Returned state /\
    setstateRuleList junkF junkI junkV state
    = Returned (mkRuleList (rlDefault l) (rlRules l) (rlGetNumUsed l) (rlPrecedence l)).
Proof.
  intros Hl Hh. eexists. split; [apply reduce_ok; auto|]. rewrite setstate_ok, restored_rules by auto. reflexivity.
Qed.

Lemma restored_same {V} (l : ruleList (@rule V)) :
  same_model l (mkRuleList (rlDefault l) (rlRules l) (rlGetNumUsed l) (rlPrecedence l)).
Proof.
  pose proof (num_used_again l 0) as E. unfold rlSetNumUsed in E. cbn [rlDefault rlRules rlNumUsed rlPrecedence] in E.
  unfold same_model. cbn. repeat split; auto.
  unfold rlVisitUsed, rlUsedBegin, rlUsedEnd. rewrite E. reflexivity.
Qed.

(** The property theorems. *)

Lemma C123_restored_lemma :
  forall (V : Type) (l : ruleList (@rule V)) (junkF : nat * fval) (junkI : nat * Z) (junkV : V),
    learned l -> (forall r, In r (all_rules l) -> 0 < head_size (snd r)) ->
    exists state l',
      reduceRuleList l = Returned state /\ setstateRuleList junkF junkI junkV state = Returned l' /\
      same_model l l' /\ reduceRuleList l' = Returned state.
Proof.
  intros V l junkF junkI junkV Hl Hh.
  destruct (restored_model l junkF junkI junkV Hl Hh) as (state & E1 & E2).
  exists state. eexists. split; [exact E1|]. split; [exact E2|]. split; [apply restored_same|].
  rewrite reduce_ok by exact Hh. rewrite reduce_ok in E1 by exact Hh. rewrite <- E1. cbn.
  pose proof (num_used_again l 0) as E. unfold rlSetNumUsed in E. cbn [rlDefault rlRules rlNumUsed rlPrecedence] in E. rewrite E. reflexivity.
Qed.

Lemma C123_predictions_lemma :
  forall (V : Type) (add : V -> V -> V) (zero : V) (l l' : ruleList (@rule V)) (state : @modelState V)
         (junkF : nat * fval) (junkI : nat * Z) (junkV : V),
    learned l -> reduceRuleList l = Returned state -> setstateRuleList junkF junkI junkV state = Returned l' ->
    forall (junk : fval) (m : featureMatrix) (numOutputs maxRules : nat),
      predictScores add zero junk m l' numOutputs maxRules = predictScores add zero junk m l numOutputs maxRules.
Proof.
  intros V add zero l l' state junkF junkI junkV Hl E1 E2 junk m numOutputs maxRules.
  assert (Hh : forall r, In r (all_rules l) -> 0 < head_size (snd r)).
  { intros r Hr. destruct (head_size (snd r)) as [|k] eqn:E; [|lia]. exfalso.
    unfold reduceRuleList in E1. rewrite visit_all in E1. cbn [called] in E1.
    rewrite (pyForL_raised serializeRule) with (x := r) in E1; [discriminate| | |].
    - intros x st _. destruct (head_size (snd x)) eqn:Ex.
      + right. apply serializeRule_empty. auto.
      + left. eexists. apply serializeRule_ok. lia.
    - apply all_visited. auto.
    - intros st. apply serializeRule_empty. auto. }
  destruct (restored_model l junkF junkI junkV Hl Hh) as (state' & E1' & E2').
  rewrite E1 in E1'. injection E1' as <-. rewrite E2 in E2'. injection E2' as ->.
  pose proof (num_used_again l 0) as E. unfold rlSetNumUsed in E. cbn [rlDefault rlRules rlNumUsed rlPrecedence] in E.
  unfold predictScores, rlUsedBegin, rlUsedEnd. rewrite E. reflexivity.
Qed.

Lemma C123_errors_lemma :
  forall (V : Type) (l : ruleList (@rule V)),
    reduceRuleList l = Raised <-> exists r, In r (all_rules l) /\ head_size (snd r) = 0.
Proof.
  intros V l. split.
  - intros E. destruct (existsb (fun r => head_size (snd r) =? 0) (all_rules l)) eqn:X.
    + apply existsb_exists in X as (r & Hr & Z). apply Nat.eqb_eq in Z. eauto.
    + rewrite reduce_ok in E; [discriminate|]. intros r Hr.
      destruct (head_size (snd r)) eqn:Z; [|lia].
      assert (existsb (fun r => head_size (snd r) =? 0) (all_rules l) = true); [|congruence].
      apply existsb_exists. exists r. rewrite Z. auto.
  - intros (r & Hr & Z). unfold reduceRuleList. rewrite visit_all. cbn [called].
    rewrite (pyForL_raised serializeRule) with (x := r); auto.
    + intros x st _. destruct (head_size (snd x)) eqn:Ex.
      * right. apply serializeRule_empty. auto.
      * left. eexists. apply serializeRule_ok. lia.
    + apply all_visited. auto.
    + intros st. apply serializeRule_empty. auto.
Qed.

Lemma C123_versions_lemma :
  forall (V P : Type) junkF junkI (junkV : V) junk version rules vectors (lists : list (list (P * P))),
    (version <> 4 -> setstateRuleList junkF junkI junkV (version, rules) = Raised) /\
    (version <> 3 -> setstateLabelVectorSet junk (version, vectors) = Raised) /\
    (version <> 0 -> setstateCalibration (version, lists) = Raised).
Proof.
  intros. destruct rules as ((rules, precedence), numUsed).
  repeat split; intros H; [unfold setstateRuleList, ruleModelVersion|unfold setstateLabelVectorSet, outputSpaceVersion|
    unfold setstateCalibration, calibrationVersion]; rewrite (proj2 (Nat.eqb_neq _ _) H); reflexivity.
Qed.

(** ** Label vector sets *)

Lemma copy_labels (v : list nat) :
  pyForN (length v) 0 (fun i labels =>
    let! labelIndex := called (aget v i) in Returned (labels ++ [labelIndex])) [] = Returned v.
Proof.
  rewrite (pyForN_list v (fun x labels => Returned (labels ++ [x]))).
  - rewrite (pyForL_pure _ _ (fun s x => s ++ [x])) by auto. rewrite (fold_append (fun x => x)), map_id. reflexivity.
  - intros i x st E. unfold aget. rewrite E. reflexivity.
Qed.

Lemma pyFill {A} (junk : A) (xs : list A) :
  pyForN (length xs) 0 (fun i v => let! x := called (aget xs i) in called (aset v i x)) (repeat junk (length xs))
  = Returned xs.
Proof.
  assert (G : forall cnt i st, pyForN cnt i (fun i v => let! x := called (aget xs i) in called (aset v i x)) st
              = called (forN cnt i (fun i v => let* x := aget xs i in aset v i x) st)).
  { induction cnt as [|cnt IH]; intros i st; cbn [pyForN forN]; auto.
    destruct (aget xs i) as [x|]; cbn [called]; auto.
    destruct (aset st i x); cbn [called]; auto. rewrite IH. rewrite Nat.add_1_r. reflexivity. }
  rewrite G, fill_ok; auto. intros i x v E. unfold aget. rewrite E. auto.
Qed.

Lemma reduce_labels (vs : list (list nat)) (fs : list nat) :
  length vs = length fs -> reduceLabelVectorSet (vs, fs) = Returned (outputSpaceVersion, combine vs fs).
Proof.
  intros L. unfold reduceLabelVectorSet, lvsVisit. cbn [fst snd].
  assert (Lc : length vs = length (combine vs fs)) by (rewrite combine_length; lia).
  rewrite Lc. rewrite (pyForN_list (combine vs fs) (fun p st => Returned (st ++ [p]))).
  - rewrite (pyForL_pure _ _ (fun s x => s ++ [x])) by auto. rewrite (fold_append (fun x => x)), map_id. reflexivity.
  - intros i (v, f) st E.
    assert (E1 : nth_error (map fst (combine vs fs)) i = Some v) by (rewrite nth_error_map, E; auto).
    assert (E2 : nth_error (map snd (combine vs fs)) i = Some f) by (rewrite nth_error_map, E; auto).
    assert (F1 : map fst (combine vs fs) = vs).
    { clear - L. revert fs L. induction vs as [|v vs IH]; destruct fs; simpl; intros; try discriminate; auto.
      f_equal. apply IH. lia. }
    assert (F2 : map snd (combine vs fs) = fs).
    { clear - L. revert vs L. induction fs as [|f fs IH]; destruct vs; simpl; intros; try discriminate; auto.
      f_equal. apply IH. lia. }
    rewrite F1 in E1. rewrite F2 in E2. unfold aget. rewrite E1, E2. cbn [called].
    unfold serializeLabelVector. rewrite copy_labels. reflexivity.
Qed.

Lemma fold_add (ps : list (list nat * nat)) : forall s,
  fold_left (fun s p => lvsAdd s (fst p) (snd p)) ps s = (fst s ++ map fst ps, snd s ++ map snd ps).
Proof.
  induction ps as [|p ps IH]; intros s; simpl; [rewrite !app_nil_r; destruct s; auto|].
  rewrite IH. unfold lvsAdd. cbn [fst snd]. rewrite <- !app_assoc. auto.
Qed.

Lemma C123_label_vectors_lemma :
  forall (vectors : list (list nat)) (frequencies : list nat) (junk : nat),
    length vectors = length frequencies ->
    exists state, reduceLabelVectorSet (vectors, frequencies) = Returned state /\
      setstateLabelVectorSet junk state = Returned (vectors, frequencies).
Proof.
  intros vs fs junk L. eexists. split; [apply reduce_labels; auto|].
  unfold setstateLabelVectorSet. rewrite Nat.eqb_refl. cbn [negb].
  rewrite (pyForN_list (combine vs fs) (fun p s => Returned (lvsAdd s (fst p) (snd p)))).
  - rewrite (pyForL_pure _ _ (fun s p => lvsAdd s (fst p) (snd p))) by auto. rewrite fold_add. cbn. f_equal. f_equal.
    + revert fs L. induction vs as [|v vs IH]; destruct fs; simpl; intros; try discriminate; auto.
      f_equal. apply IH. lia.
    + revert vs L. induction fs as [|f fs IH]; destruct vs; simpl; intros; try discriminate; auto.
      f_equal. apply IH. lia.
  - intros i (v, f) s E. unfold aget. rewrite E. cbn [called fst snd].
    unfold deserializeLabelVector. rewrite pyFill. reflexivity.
Qed.

(** ** Calibration models *)

Lemma add_bins {P} (add : nat -> P * P -> list (list (P * P)) -> outcome (list (list (P * P)))) (i : nat)
  (bins : list (P * P)) :
  (forall b m row, nth_error m i = Some row -> add i b m = called (aset m i (row ++ [b]))) ->
  forall m row, nth_error m i = Some row ->
  pyForL bins (add i) m = Returned (upd m i (row ++ bins)).
Proof.
  intros H. induction bins as [|b bins IH]; intros m row E; cbn [pyForL].
  - rewrite app_nil_r. f_equal. apply nth_error_ext. intros k. rewrite nth_error_upd.
    destruct (Nat.eqb_spec i k) as [<-|]; auto. destruct (_ <? _); auto.
  - rewrite (H b m row E). assert (i < length m) by (apply nth_error_Some; congruence).
    rewrite aset_Some by auto. cbn [called].
    rewrite (IH (upd m i (row ++ [b])) (row ++ [b])) by (apply nth_error_upd_eq; auto).
    rewrite upd_upd, <- app_assoc. auto.
Qed.

Lemma add_all_bins {P} (add : nat -> P * P -> list (list (P * P)) -> outcome (list (list (P * P))))
  (f : nat -> list (list (P * P)) -> outcome (list (list (P * P)))) (lists : list (list (P * P))) :
  (forall i b m row, nth_error m i = Some row -> add i b m = called (aset m i (row ++ [b]))) ->
  (forall i bins m, nth_error lists i = Some bins -> f i m = pyForL bins (add i) m) ->
  pyForN (length lists) 0 f (repeat [] (length lists)) = Returned lists.
Proof.
  intros H Hf.
  destruct (pyForN_inv (fun i m => i <= length lists /\ m = firstn i lists ++ repeat [] (length lists - i)) f
              (length lists) 0 (repeat [] (length lists))) as (v & -> & _ & E).
  - split; [lia|]. simpl. rewrite Nat.sub_0_r. auto.
  - intros i m Hi (_ & ->).
    destruct (nth_error lists i) as [x|] eqn:E; [|apply nth_error_None in E; lia].
    rewrite (Hf i x _ E). exists (firstn (S i) lists ++ repeat [] (length lists - S i)).
    split; [|split; [lia|rewrite Nat.add_1_r; auto]].
    rewrite (add_bins add i x (H i) _ []).
    2: { rewrite nth_error_app2 by (rewrite firstn_length; lia). rewrite firstn_length, Nat.min_l by lia.
         rewrite Nat.sub_diag. replace (length lists - i) with (S (length lists - S i)) by lia. auto. }
    f_equal. cbn [app].
    apply nth_error_ext. intros k. rewrite nth_error_upd.
    rewrite app_length, firstn_length, repeat_length.
    destruct (Nat.eqb_spec i k) as [<-|N].
    + rewrite (proj2 (Nat.ltb_lt _ _)) by lia. cbn [andb].
      rewrite nth_error_app1 by (rewrite firstn_length; lia).
      rewrite nth_error_firstn'. rewrite (proj2 (Nat.ltb_lt _ _)) by lia. auto.
    + cbn [andb]. destruct (Nat.lt_ge_cases k i) as [Lk|G].
      * rewrite !nth_error_app1 by (rewrite firstn_length; lia). rewrite !nth_error_firstn'.
        rewrite !(proj2 (Nat.ltb_lt _ _)) by lia. auto.
      * rewrite !nth_error_app2 by (rewrite firstn_length; lia). rewrite !firstn_length.
        rewrite !Nat.min_l by lia.
        replace (length lists - i) with (S (length lists - S i)) by lia.
        replace (k - i) with (S (k - S i)) by lia. auto.
  - rewrite E. cbn [Nat.add]. rewrite firstn_all, Nat.sub_diag, app_nil_r. auto.
Qed.

Lemma C123_calibration_lemma :
  forall (P : Type) (model : list (list (P * P))),
    exists state, reduceCalibration model = Returned state /\ setstateCalibration state = Returned model.
Proof.
  intros P m. exists (calibrationVersion, m). split.
  - unfold reduceCalibration, calVisit.
    rewrite (add_all_bins (fun i b st => serializeBin i (fst b) (snd b) st)); auto.
    + intros i (t, p) m' row E. unfold serializeBin, aget. rewrite E. auto.
    + intros i bins m' E. unfold aget. rewrite E. reflexivity.
  - unfold setstateCalibration. rewrite Nat.eqb_refl. cbn [negb]. unfold calCreate.
    apply (add_all_bins (fun i b st => called (calAddBin st i (fst b) (snd b)))).
    + intros i (t, p) m' row E. unfold calAddBin, aget. rewrite E. auto.
    + intros i bins m' E. unfold aget. rewrite E. cbn [called].
      apply pyForN_list. intros j (t, p) m'' E'. unfold aget. rewrite E'. reflexivity.
Qed.

(** ** The number of used rules *)

Lemma used_undefined {R S} (f : R -> S -> option S) (it : rlIter R) : forall cnt k st,
  k < cnt -> itDeref (itAdvance it k) = None -> iterRange cnt it f st = None.
Proof.
  intros cnt. revert it. induction cnt as [|cnt IH]; intros it k st Hk E; [lia|]. cbn [iterRange].
  destruct k as [|k].
  - assert (itAdvance it 0 = it) as X. { unfold itAdvance. destruct it; cbn. rewrite Nat.add_0_r. auto. }
    rewrite X in E. rewrite E. auto.
  - destruct (itDeref it) as [r|]; auto. destruct (f r st) as [st'|]; auto.
    apply (IH _ k); [lia|]. rewrite <- E. f_equal. unfold itAdvance. cbn. f_equal. lia.
Qed.

Lemma C124_too_many_lemma :
  forall (R S : Type) (f : R -> S -> option S) (l : ruleList R) (n : nat) (st : S),
    rlGetNumRules l < n ->
    iterLoop (rlUsedBegin (rlSetNumUsed l n) 0) (rlUsedEnd (rlSetNumUsed l n) 0) f st = None.
Proof.
  intros R S f l n st Hn. unfold iterLoop.
  assert (En : rlGetNumUsed (rlSetNumUsed l n) = n).
  { unfold rlGetNumUsed, rlSetNumUsed. cbn [rlNumUsed]. rewrite (proj2 (Nat.ltb_lt _ _)) by lia. auto. }
  assert (D : itDiff (rlUsedEnd (rlSetNumUsed l n) 0) (rlUsedBegin (rlSetNumUsed l n) 0) = n).
  { unfold itDiff, rlUsedEnd, rlUsedBegin. rewrite En. cbn. lia. }
  rewrite D. unfold rlUsedBegin. rewrite En. unfold limitRules. cbn [Nat.ltb Nat.leb].
  unfold rlGetNumRules in Hn. unfold rlMakeIter, rlSetNumUsed. cbn [rlDefault rlPrecedence rlRules].
  destruct (rlDefault l) as [d|] eqn:Ed.
  - destruct (rlPrecedence l); cbn [andb Nat.ltb Nat.leb].
    + apply (used_undefined f _ n (length (rlRules l) + 1)); [lia|].
      unfold itDeref, itAdvance. cbn. rewrite Nat.add_1_r. cbn. apply nth_error_None. lia.
    + apply (used_undefined f _ n (length (rlRules l))); [lia|].
      unfold itDeref, itAdvance. cbn.
      rewrite (proj2 (Nat.eqb_neq _ _)) by lia. rewrite Nat.sub_0_r. apply nth_error_None. lia.
  - rewrite andb_false_r. cbn [Nat.ltb Nat.leb].
    apply (used_undefined f _ n (length (rlRules l))); [lia|].
    unfold itDeref, itAdvance. cbn. destruct (_ =? _); auto. rewrite Nat.sub_0_r. apply nth_error_None. lia.
Qed.

Lemma C124_enough_lemma :
  forall (R S : Type) (f : R -> S -> option S) (l : ruleList R) (n maxRules : nat) (st : S),
    let chosen := if n =? 0 then rlGetNumRules l else n in
    let limited := if maxRules =? 0 then chosen else Nat.min chosen maxRules in
    limited <= rlGetNumRules l ->
    iterLoop (rlUsedBegin (rlSetNumUsed l n) maxRules) (rlUsedEnd (rlSetNumUsed l n) maxRules) f st
    = forL (expected_order (rlDefault l) (rlRules l) (rlPrecedence l) limited) f st.
Proof.
  intros R S f l n maxRules st chosen limited Hn.
  assert (En : rlGetNumUsed (rlSetNumUsed l n) = chosen).
  { unfold rlGetNumUsed, rlSetNumUsed, chosen. cbn [rlNumUsed]. destruct n; reflexivity. }
  assert (El : limitRules maxRules (rlGetNumUsed (rlSetNumUsed l n)) = limited).
  { rewrite En. unfold limitRules, limited. destruct maxRules; reflexivity. }
  unfold rlUsedBegin, rlUsedEnd. rewrite El.
  assert (D : rlDefault (rlSetNumUsed l n) = None \/ 1 <= limited).
  { cbn [rlDefault rlSetNumUsed]. destruct (rlDefault l) as [d|] eqn:Ed; [right|auto].
    assert (1 <= chosen).
    { unfold chosen. destruct n; cbn [Nat.eqb]; [|lia]. unfold rlGetNumRules. rewrite Ed. lia. }
    unfold limited. destruct maxRules; cbn [Nat.eqb]; lia. }
  rewrite iterLoop_ok; [|exact Hn|exact D|lia].
  rewrite Nat.sub_0_r. cbn [skipn]. rewrite firstn_all2 by (rewrite expected_length; auto). reflexivity.
Qed.

Lemma C124_refuted_lemma :
  exists (l : ruleList nat) (n : nat), rlGetNumRules l = 1 /\ rlVisitUsed l = Some [7] /\
    rlVisitUsed (rlSetNumUsed l n) = None.
Proof. exists (rlAddRule (rlEmpty false) 7), 2. vm_compute. auto. Qed.
