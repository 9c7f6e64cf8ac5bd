(** Proofs about configurations. *)
From Coq Require Import QArith Bool List Lia.
From Verif Require Import Model.Configuration Spec.Configuration.
Import ListNotations.
Open Scope nat_scope.

(** ** The effect of individual methods *)

(** What is assigned to a pointer, if any. *)
Definition assigned (f : call) (s : slot) : option (option component) :=
  match find (fun a => slot_beq (fst a) s) (assignments f) with Some a => Some (snd a) | None => None end.

Lemma use_assigned : forall (P : Type) (c : configuration P) f p s,
  use c (f, p) s = match assigned f s with Some (Some k) => Some (k, p) | Some None => None | None => c s end.
Proof. intros P c f p s. unfold use, assigned. cbn [fst snd]. destruct f; destruct s; reflexivity. Qed.

Lemma slot_beq_eq : forall s t, slot_beq s t = true -> s = t.
Proof. exact internal_slot_dec_bl. Qed.

Lemma slot_beq_refl : forall s, slot_beq s s = true.
Proof. intros s. apply internal_slot_dec_lb. reflexivity. Qed.

Lemma assigned_in : forall f s v, assigned f s = Some v -> In (s, v) (assignments f).
Proof.
  intros f s v. unfold assigned. destruct (find _ _) as [[t w]|] eqn:E; [|discriminate]. intros H. injection H as <-.
  apply find_some in E. destruct E as [E1 E2]. cbn in E2. apply slot_beq_eq in E2. subst t. exact E1.
Qed.

Lemma in_assigned : forall f s v, In (s, v) (assignments f) -> assigned f s = Some v.
Proof.
  intros f s v. destruct f; cbn [assignments In];
    intros H; repeat match goal with
    | H : _ \/ _ |- _ => destruct H as [H|H]
    | H : False |- _ => destruct H
    | H : (_, _) = (_, _) |- _ => injection H; clear H; intros; subst; reflexivity
    end.
Qed.

Lemma not_assigned : forall f s, ~ affects f s -> assigned f s = None.
Proof.
  intros f s H. destruct (assigned f s) as [v|] eqn:E; [|reflexivity].
  exfalso. apply H. exists v. apply assigned_in. exact E.
Qed.

Lemma useAll_unaffected : forall (P : Type) (fs : list (call * P)) c s,
  (forall f, In f fs -> ~ affects (fst f) s) -> useAll fs c s = c s.
Proof.
  intros P fs. induction fs as [|[f p] fs IH]; intros c s H; [reflexivity|].
  change (useAll ((f, p) :: fs) c s) with (useAll fs (use c (f, p)) s).
  rewrite IH by (intros g Hg; apply H; right; exact Hg).
  rewrite use_assigned, (not_assigned f s); [reflexivity|]. apply (H (f, p)). left. reflexivity.
Qed.

Lemma useAll_app : forall (P : Type) (fs gs : list (call * P)) c, useAll (fs ++ gs) c = useAll gs (useAll fs c).
Proof. intros P fs gs c. unfold useAll. apply fold_left_app. Qed.

(** ** The order of methods *)

Lemma last_method :
  forall (P : Type) (c : configuration P) fs f p gs s v,
    In (s, v) (assignments f) ->
    (forall g, In g gs -> ~ affects (fst g) s) ->
    useAll (fs ++ (f, p) :: gs) c s = match v with Some k => Some (k, p) | None => None end.
Proof.
  intros P c fs f p gs s v Hin Hgs. rewrite useAll_app.
  change (useAll ((f, p) :: gs) (useAll fs c) s) with (useAll gs (use (useAll fs c) (f, p)) s).
  rewrite useAll_unaffected by exact Hgs. rewrite use_assigned, (in_assigned f s v Hin). reflexivity.
Qed.

Lemma unaffected_pointer :
  forall (P : Type) (c : configuration P) fs s,
    (forall f, In f fs -> ~ affects (fst f) s) -> useAll fs c s = c s.
Proof. intros P c fs s H. apply useAll_unaffected. exact H. Qed.

Lemma affecting_useAll : forall (P : Type) s (fs gs : list (call * P)),
  affecting s fs gs -> forall c c', c s = c' s -> useAll fs c s = useAll gs c' s.
Proof.
  intros P s fs gs H. induction H as [|[f p] fs gs Hf H IH|[f p] fs gs Hf H IH]; intros c c' E.
  - exact E.
  - change (useAll ((f, p) :: fs) c s) with (useAll fs (use c (f, p)) s). apply IH.
    rewrite use_assigned, (not_assigned f s Hf). exact E.
  - change (useAll ((f, p) :: fs) c s) with (useAll fs (use c (f, p)) s).
    change (useAll ((f, p) :: gs) c' s) with (useAll gs (use c' (f, p)) s). apply IH.
    rewrite !use_assigned. destruct Hf as [v Hv]. rewrite (in_assigned f s v Hv). reflexivity.
Qed.

Lemma order_irrelevant :
  forall (P : Type) (c : configuration P) fs gs,
    (forall s, exists hs, affecting s fs hs /\ affecting s gs hs) ->
    forall s, useAll fs c s = useAll gs c s.
Proof.
  intros P c fs gs H s. destruct (H s) as [hs [H1 H2]].
  rewrite (affecting_useAll P s fs hs H1 c c eq_refl), (affecting_useAll P s gs hs H2 c c eq_refl). reflexivity.
Qed.

(** Two adjacent methods that do not affect the same pointer may be swapped. *)
Lemma adjacent_methods :
  forall (P : Type) (c : configuration P) fs f g gs,
    (forall s, ~ (affects (fst f) s /\ affects (fst g) s)) ->
    forall s, useAll (fs ++ f :: g :: gs) c s = useAll (fs ++ g :: f :: gs) c s.
Proof.
  intros P c fs [f p] [g q] gs H s. rewrite !useAll_app.
  change (useAll gs (use (use (useAll fs c) (f, p)) (g, q)) s = useAll gs (use (use (useAll fs c) (g, q)) (f, p)) s).
  set (c0 := useAll fs c). clearbody c0.
  enough (E : forall t, use (use c0 (f, p)) (g, q) t = use (use c0 (g, q)) (f, p) t).
  { revert E. generalize (use (use c0 (f, p)) (g, q)) (use (use c0 (g, q)) (f, p)). clear.
    induction gs as [|[h r] gs IH]; intros c1 c2 E; [apply E|].
    change (useAll gs (use c1 (h, r)) s = useAll gs (use c2 (h, r)) s). apply IH. intros t. rewrite !use_assigned, E. reflexivity. }
  intros t. rewrite !use_assigned. cbn [fst] in H.
  destruct (assigned f t) as [v|] eqn:Ef; destruct (assigned g t) as [w|] eqn:Eg; try reflexivity.
  exfalso. apply (H t). split; [exists v|exists w]; apply assigned_in; assumption.
Qed.

(** ** Components that are stored by reachable configurations *)

(** Pointers that are never null once the default settings have been applied. *)
Definition nonNull (l : learner) (s : slot) : bool :=
  match s with
  | CoverageStoppingCriterionSlot | HeuristicSlot | PruningHeuristicSlot | LiftFunctionSlot => negb (isBoosting l)
  | ClassificationStatisticsSlot | RegressionStatisticsSlot | ClassificationLossSlot | L1Slot | L2Slot | LabelBinningSlot =>
      isBoosting l
  | RegressionLossSlot => negb (isClassifier l)
  | _ => true
  end.

Definition storable (l : learner) (s : slot) (k : component) : Prop :=
  (exists f, available l f = true /\ In (s, Some k) (assignments f)) \/
  newConfiguration l (fun _ => tt) s = Some (k, tt).

Definition wellFormed {P} (l : learner) (c : configuration P) : Prop :=
  (forall s k p, c s = Some (k, p) -> storable l s k) /\ (forall s, nonNull l s = true -> c s <> None).

Lemma available_keeps : forall l f s, available l f = true -> nonNull l s = true -> assigned f s <> Some None.
Proof.
  intros l f s Ha Hn E. apply assigned_in in E. destruct f; cbn [assignments In] in E;
    repeat match goal with
    | H : _ \/ _ |- _ => destruct H as [H|H]
    | H : False |- _ => destruct H
    | H : (_, _) = (_, _) |- _ => inversion H; clear H
    end.
  subst s. cbn in Hn. destruct l; try discriminate. destruct c; discriminate.
Qed.

Lemma use_wellFormed : forall (P : Type) l (c : configuration P) f p,
  available l f = true -> wellFormed l c -> wellFormed l (use c (f, p)).
Proof.
  intros P l c f p Ha [H1 H2]. split.
  - intros s k p'. rewrite use_assigned. destruct (assigned f s) as [[k'|]|] eqn:E.
    + intros H. injection H as <- _. left. exists f. split; [exact Ha|]. apply assigned_in. exact E.
    + discriminate.
    + apply H1.
  - intros s Hs. rewrite use_assigned. destruct (assigned f s) as [[k'|]|] eqn:E.
    + discriminate.
    + exfalso. exact (available_keeps l f s Ha Hs E).
    + apply H2. exact Hs.
Qed.

Lemma useAll_wellFormed : forall (P : Type) l fs (c : configuration P),
  allAvailable l fs -> wellFormed l c -> wellFormed l (useAll fs c).
Proof.
  intros P l fs. induction fs as [|[f p] fs IH]; intros c Ha Hc; [exact Hc|].
  change (useAll ((f, p) :: fs) c) with (useAll fs (use c (f, p))). apply IH.
  - intros g Hg. apply Ha. right. exact Hg.
  - apply use_wellFormed; [|exact Hc]. apply (Ha (f, p)). left. reflexivity.
Qed.

Lemma defaults_available : forall l, forallb (available l) (defaults l) = true.
Proof. intros []; reflexivity. Qed.

Lemma useAll_storable : forall (P : Type) l fs (c : configuration P),
  allAvailable l fs -> (forall s k p, c s = Some (k, p) -> storable l s k) ->
  forall s k p, useAll fs c s = Some (k, p) -> storable l s k.
Proof.
  intros P l fs. induction fs as [|[f p] fs IH]; intros c Ha Hc; [exact Hc|].
  change (useAll ((f, p) :: fs) c) with (useAll fs (use c (f, p))). apply IH.
  - intros g Hg. apply Ha. right. exact Hg.
  - intros s k p'. rewrite use_assigned. destruct (assigned f s) as [[k'|]|] eqn:E; [|discriminate|apply Hc].
    intros H. injection H as <- _. left. exists f. split; [|apply assigned_in; exact E].
    apply (Ha (f, p)). left. reflexivity.
Qed.

Lemma createConfig_wellFormed : forall (P : Type) l (q : component -> P), wellFormed l (createConfig l q).
Proof.
  intros P l q. split.
  - apply useAll_storable.
    + intros f Hf. apply in_map_iff in Hf. destruct Hf as [g [<- Hg]]. cbn [fst].
      exact (proj1 (forallb_forall _ _) (defaults_available l) g Hg).
    + intros s k p H. right. destruct l; destruct s; cbn in *; inversion H; subst; reflexivity.
  - intros s Hs. destruct l; destruct s; (discriminate Hs || (unfold createConfig; cbn; discriminate)).
Qed.

Lemma reachable_wellFormed : forall (P : Type) l (q : component -> P) fs,
  allAvailable l fs -> wellFormed l (useAll fs (createConfig l q)).
Proof. intros P l q fs Ha. apply useAll_wellFormed; [exact Ha|apply createConfig_wellFormed]. Qed.

(** ** Functions of components *)

Definition slotRank (s : slot) : nat :=
  match s with
  | RNGSlot | RulePruningSlot | PostProcessorSlot | HeuristicSlot | PruningHeuristicSlot | LiftFunctionSlot => 0
  | LabelBinningSlot => 1
  | RuleRefinementSlot => 3
  | RuleInductionSlot => 4
  | _ => 5
  end.

Definition providerRank (s : slot) : nat :=
  match s with HeadSlot => 3 | ClassificationLossSlot | RegressionLossSlot => 4 | _ => 5 end.

Definition firstSlot (r : property) : slot := match r with One s => s | Either s _ => s end.

Definition rank (s : slot) (f : function) : nat :=
  match f with
  | createFactory => slotRank s
  | createClassification | createRegression => providerRank s
  | isPartial | isSingleOutput | isLabelVectorSetNeeded => 1
  | getSettings | isDefaultRuleUsed => 2
  | _ => 0
  end.

Definition evaluable (l : learner) (r : property) : bool :=
  match r with One s => nonNull l s | Either s t => nonNull l s end.

Definition wanted (l : learner) (f : function) : bool :=
  match f with createRegression => negb (isClassifier l) | createClassification => isClassifier l | _ => true end.

Definition stepOk (l : learner) (s : slot) (k : component) (f : function) : bool :=
  forallb (fun u => evaluable l (fst u) && wanted l (snd u) && (rank (firstSlot (fst u)) (snd u) <? rank s f)%nat) (uses k f).

Definition functions : list function :=
  [createFactory; createClassification; createRegression; createProbabilityFunction; isDecomposable; isSparse; isFormat; isPartial;
   isSingleOutput; isDefaultRuleUsed; getSettings; isSamplingUsed; shouldUseHoldoutSet; shouldRemoveUnusedRules; getWeight;
   isLabelVectorSetNeeded].

Lemma functions_all : forall f, In f functions.
Proof. intros []; unfold functions; cbn; tauto. Qed.

Definition stepsOk (l : learner) (s : slot) (k : component) : bool :=
  forallb (fun f => negb (wanted l f) || stepOk l s k f) functions.

Lemma storable_steps : forall l s k, storable l s k -> stepsOk l s k = true.
Proof.
  intros l s k [[f [Ha Hi]]|H].
  - destruct f; cbn [assignments In] in Hi;
      repeat match goal with
      | H : _ \/ _ |- _ => destruct H as [H|H]
      | H : False |- _ => destruct H
      | H : (_, _) = (_, _) |- _ => inversion H; clear H; subst
      end; destruct l; try (vm_compute; reflexivity);
      match goal with c : component |- _ => destruct c; try discriminate Ha; vm_compute; reflexivity end.
  - destruct l; destruct s; cbn in H; inversion H; subst; vm_compute; reflexivity.
Qed.

Lemma either_uses : forall k f r g, In (r, g) (uses k f) ->
  match r with One _ => True | Either s t => (s, t) = (ClassificationLossSlot, RegressionLossSlot) \/
                                              (s, t) = (ClassificationStatisticsSlot, RegressionStatisticsSlot) end.
Proof.
  intros k f r g H. destruct r as [s|s t]; [exact I|].
  destruct f, k; cbn in H;
    repeat match goal with
    | H : _ \/ _ |- _ => destruct H as [H|H]
    | H : False |- _ => destruct H
    | H : (_, _) = (_, _) |- _ => inversion H; clear H; subst; cbn; tauto
    end.
Qed.

Lemma completes_rank : forall (P : Type) l (c : configuration P), wellFormed l c ->
  forall n r f, rank (firstSlot r) f < n -> evaluable l r = true -> wanted l f = true -> completes c r f.
Proof.
  intros P l c [H1 H2] n. induction n as [|n IH]; intros r f Hr He Hw; [lia|].
  assert (Hget : exists k p, getProperty c r = Some (k, p) /\ storable l (firstSlot r) k).
  { destruct r as [s|s t]; cbn in He |- *; pose proof (H2 s He) as Hs;
      destruct (c s) as [[k p]|] eqn:E; try contradiction; exists k, p; (split; [reflexivity|]); exact (H1 s k p E). }
  destruct Hget as [k [p [Hget Hst]]].
  apply completes_intro with (k := k) (p := p); [exact Hget|].
  intros [r' f'] Hu. cbn [fst snd].
  pose proof (storable_steps l _ k Hst) as Hs. unfold stepsOk in Hs. rewrite forallb_forall in Hs.
  specialize (Hs f (functions_all f)). rewrite Hw in Hs. cbn [negb orb] in Hs. unfold stepOk in Hs. rewrite forallb_forall in Hs.
  specialize (Hs (r', f') Hu). cbn [fst snd] in Hs. apply andb_true_iff in Hs. destruct Hs as [Hs Hlt].
  apply andb_true_iff in Hs. destruct Hs as [Hev Hwa]. apply Nat.ltb_lt in Hlt. apply IH; [lia|exact Hev|exact Hwa].
Qed.

Lemma training_completes :
  forall (P : Type) l (q : component -> P) fs u,
    allAvailable l fs ->
    In u (usedForTraining l ++ usedForPrediction l) ->
    completes (useAll fs (createConfig l q)) (fst u) (snd u).
Proof.
  intros P l q fs [r f] Ha Hu.
  apply (completes_rank P l _ (reachable_wellFormed P l q fs Ha) (S (rank (firstSlot r) f))); cbn [fst snd].
  - lia.
  - destruct l; cbn in Hu; repeat (destruct Hu as [Hu|Hu]; [inversion Hu; reflexivity|]); destruct Hu.
  - destruct l; cbn in Hu; repeat (destruct Hu as [Hu|Hu]; [inversion Hu; reflexivity|]); destruct Hu.
Qed.

(** ** Loss functions and formats for storing statistics *)

Lemma use_paired : forall (P : Type) (c : configuration P) f p,
  available BoomerRegressor f = true ->
  c ClassificationLossSlot = c RegressionLossSlot -> c ClassificationStatisticsSlot = c RegressionStatisticsSlot ->
  use c (f, p) ClassificationLossSlot = use c (f, p) RegressionLossSlot /\
  use c (f, p) ClassificationStatisticsSlot = use c (f, p) RegressionStatisticsSlot.
Proof.
  intros P c f p Ha H1 H2. rewrite !use_assigned. destruct f; unfold assigned; cbn; auto.
  destruct c0; discriminate.
Qed.

Lemma useAll_paired : forall (P : Type) fs (c : configuration P),
  allAvailable BoomerRegressor fs ->
  c ClassificationLossSlot = c RegressionLossSlot -> c ClassificationStatisticsSlot = c RegressionStatisticsSlot ->
  useAll fs c ClassificationLossSlot = useAll fs c RegressionLossSlot /\
  useAll fs c ClassificationStatisticsSlot = useAll fs c RegressionStatisticsSlot.
Proof.
  intros P fs. induction fs as [|[f p] fs IH]; intros c Ha H1 H2; [split; assumption|].
  change (useAll ((f, p) :: fs) c) with (useAll fs (use c (f, p))).
  destruct (use_paired P c f p (Ha (f, p) (or_introl eq_refl)) H1 H2) as [E1 E2].
  apply IH; [intros g Hg; apply Ha; right; exact Hg|exact E1|exact E2].
Qed.

Lemma classifier_properties :
  forall (P : Type) (q : component -> P) fs,
    allAvailable BoomerClassifier fs ->
    let c := useAll fs (createConfig BoomerClassifier q) in
    c ClassificationLossSlot <> None /\
    getProperty c LossProperty = c ClassificationLossSlot /\
    getProperty c StatisticsProperty = c ClassificationStatisticsSlot.
Proof.
  intros P q fs Ha c. destruct (reachable_wellFormed P BoomerClassifier q fs Ha) as [_ H].
  pose proof (H ClassificationLossSlot eq_refl) as H1. pose proof (H ClassificationStatisticsSlot eq_refl) as H2.
  fold c in H1, H2. split; [exact H1|]. cbn [getProperty LossProperty StatisticsProperty].
  destruct (c ClassificationLossSlot); [|contradiction]. destruct (c ClassificationStatisticsSlot); [|contradiction].
  split; reflexivity.
Qed.

Lemma regressor_properties :
  forall (P : Type) (q : component -> P) fs,
    allAvailable BoomerRegressor fs ->
    let c := useAll fs (createConfig BoomerRegressor q) in
    c RegressionLossSlot <> None /\
    getProperty c LossProperty = c RegressionLossSlot /\
    getProperty c StatisticsProperty = c RegressionStatisticsSlot.
Proof.
  intros P q fs Ha c. destruct (reachable_wellFormed P BoomerRegressor q fs Ha) as [_ H].
  pose proof (H RegressionLossSlot eq_refl) as H1. pose proof (H RegressionStatisticsSlot eq_refl) as H2.
  destruct (useAll_paired P fs (createConfig BoomerRegressor q) Ha eq_refl eq_refl) as [E1 E2].
  fold c in H1, H2, E1, E2. split; [exact H1|]. cbn [getProperty LossProperty StatisticsProperty].
  rewrite E1, E2. destruct (c RegressionLossSlot); [|contradiction]. destruct (c RegressionStatisticsSlot); [|contradiction].
  split; reflexivity.
Qed.

(** ** Default settings *)

Lemma boosting_defaults :
  forall l fs s k,
    isBoosting l = true ->
    (forall f, In f fs -> ~ affects (fst f) s) ->
    documented l s = Some k -> s <> FeatureBinningSlot ->
    useAll fs (createConfig l (defaultParameters l)) s = Some (k, defaultParameters l k).
Proof.
  intros l fs s k Hl Hfs Hd Hs. rewrite useAll_unaffected by exact Hfs.
  destruct l; try discriminate Hl; destruct s; cbn in Hd; try discriminate Hd; try (exfalso; apply Hs; reflexivity);
    injection Hd as <-; reflexivity.
Qed.

Lemma seco_defaults :
  forall fs s k,
    (forall f, In f fs -> ~ affects (fst f) s) ->
    documented SeCoClassifier s = Some k ->
    ~ In s [ClassificationPartitionSamplingSlot; RulePruningSlot; FeatureSamplingSlot; ClassificationInstanceSamplingSlot] ->
    useAll fs (createConfig SeCoClassifier (defaultParameters SeCoClassifier)) s = Some (k, defaultParameters SeCoClassifier k).
Proof.
  intros fs s k Hfs Hd Hs. rewrite useAll_unaffected by exact Hfs.
  destruct s; cbn in Hd; try discriminate Hd; try (exfalso; apply Hs; cbn; tauto); injection Hd as <-; reflexivity.
Qed.

Lemma default_values :
  forall l k x v,
    documentedValue k x = Some v ->
    ~ (k = InstanceSamplingWithReplacementConfig /\ x = SampleSize) ->
    ~ (k = PrePruningConfig /\ x = Aggregation) ->
    ~ (k = FMeasureConfig /\ x = BetaValue) ->
    ~ (l = SeCoClassifier /\ (x = MaxRules \/ x = RecalculatePredictions)) ->
    In (x, v) (defaultParameters l k) /\ (forall w, In (x, w) (defaultParameters l k) -> w = v).
Proof.
  intros l k x v Hd H1 H2 H3 H4.
  destruct k; try discriminate Hd; destruct x; try discriminate Hd;
    try (exfalso; apply H1; split; reflexivity); try (exfalso; apply H2; split; reflexivity);
    try (exfalso; apply H3; split; reflexivity);
    injection Hd as <-; destruct l; try (exfalso; apply H4; split; [reflexivity|tauto]);
    (split; [cbn; tauto|
     intros w Hw; cbn in Hw; repeat (destruct Hw as [Hw|Hw]; [try discriminate Hw; injection Hw; intros; subst; reflexivity|]);
       destruct Hw]).
Qed.

Lemma boosting_binning :
  forall l, isBoosting l = true ->
    documented l FeatureBinningSlot = Some NoFeatureBinningConfig /\
    forall fs, (forall f, In f fs -> ~ affects (fst f) FeatureBinningSlot) ->
      useAll fs (createConfig l (defaultParameters l)) FeatureBinningSlot = Some (AutomaticFeatureBinningConfig, []).
Proof.
  intros l Hl. split; [destruct l; [reflexivity|reflexivity|discriminate Hl]|].
  intros fs Hfs. rewrite useAll_unaffected by exact Hfs. destruct l; [reflexivity|reflexivity|discriminate Hl].
Qed.

Lemma seco_components :
  exists s k k',
    documented SeCoClassifier s = Some k /\ k <> k' /\
    forall fs, (forall f, In f fs -> ~ affects (fst f) s) ->
      useAll fs (createConfig SeCoClassifier (defaultParameters SeCoClassifier)) s =
      Some (k', defaultParameters SeCoClassifier k').
Proof.
  exists RulePruningSlot, NoRulePruningConfig, IrepConfig. split; [reflexivity|]. split; [discriminate|].
  intros fs Hfs. rewrite useAll_unaffected by exact Hfs. reflexivity.
Qed.

Lemma seco_sampling :
  forall fs,
    (forall f s, In f fs -> In s [ClassificationPartitionSamplingSlot; FeatureSamplingSlot; ClassificationInstanceSamplingSlot] ->
       ~ affects (fst f) s) ->
    let c := useAll fs (createConfig SeCoClassifier (defaultParameters SeCoClassifier)) in
    documented SeCoClassifier ClassificationPartitionSamplingSlot = Some AutomaticPartitionSamplingConfig /\
    c ClassificationPartitionSamplingSlot = Some (NoPartitionSamplingConfig, []) /\
    documented SeCoClassifier FeatureSamplingSlot = Some FeatureSamplingWithoutReplacementConfig /\
    c FeatureSamplingSlot = Some (NoFeatureSamplingConfig, []) /\
    documented SeCoClassifier ClassificationInstanceSamplingSlot = Some NoInstanceSamplingConfig /\
    c ClassificationInstanceSamplingSlot =
      Some (OutputWiseStratifiedInstanceSamplingConfig, [(SampleSize, 66 # 100); (MinSamples, 1%Q); (MaxSamples, 0%Q)]).
Proof.
  intros fs H c. unfold c.
  repeat split; rewrite useAll_unaffected; try reflexivity; intros f Hf; apply (H f _ Hf); cbn; tauto.
Qed.

Lemma seco_values :
  exists f x v w,
    available SeCoClassifier f = true /\ In (x, v) (defaultParameters SeCoClassifier (created f)) /\
    documentedValue (created f) x = Some w /\ ~ (v == w)%Q.
Proof.
  exists (useSizeStoppingCriterion SizeStoppingCriterionConfig), MaxRules, 500%Q, 1000%Q.
  repeat split; [left; reflexivity|discriminate].
Qed.

Lemma differing_values :
  documentedValue GreedyTopDownRuleInductionConfig RecalculatePredictions = Some yes /\
  In (RecalculatePredictions, no) (defaultParameters SeCoClassifier GreedyTopDownRuleInductionConfig) /\
  documentedValue FMeasureConfig BetaValue = Some 1%Q /\
  In (BetaValue, 25 # 100) (defaultParameters SeCoClassifier FMeasureConfig) /\
  documentedValue PrePruningConfig Aggregation = Some minAggregation /\
  (forall l, In (Aggregation, meanAggregation) (defaultParameters l PrePruningConfig)) /\
  documentedValue InstanceSamplingWithReplacementConfig SampleSize = Some 1%Q /\
  (forall l, In (SampleSize, 66 # 100) (defaultParameters l InstanceSamplingWithReplacementConfig)).
Proof. repeat split; try (intros []; cbn; tauto); cbn; tauto. Qed.
