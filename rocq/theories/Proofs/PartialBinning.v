(** Proofs about label binning for rules that predict for some of the outputs. *)
From Coq Require Import QArith Qabs Reals List Bool Arith Permutation Sorted Lia Lqa.
From Verif Require Import Lib.Arr Spec.Stopping Model.BoostEvaluation Model.BoostBinning Model.BoostNonDecomposable
  Model.BoostNDBinning Model.PartialBinning Spec.BoostEvaluation Spec.BoostBinning Spec.BoostNonDecomposable Spec.BoostNDBinning
  Proofs.Stopping Proofs.BoostEvaluation Proofs.BoostBinning Proofs.BoostNonDecomposable Proofs.BoostNDBinning.
Import ListNotations.
Open Scope Q_scope.

Lemma forN_sim {A B} (f : nat -> A -> option A) (g : nat -> B -> option B) (R : A -> B -> Prop) :
  (forall i a a' b, R a b -> f i a = Some a' -> exists b', g i b = Some b' /\ R a' b') ->
  forall count start a a' b, R a b -> forN count start f a = Some a' -> exists b', forN count start g b = Some b' /\ R a' b'.
Proof.
  intros H. induction count as [|count IH]; intros start a a' b HR E; simpl in *.
  - injection E as <-. eauto.
  - destruct (f start a) as [a1|] eqn:E1; [|discriminate]. destruct (H _ _ _ _ HR E1) as (b1 & -> & HR1). eauto.
Qed.

(** The outputs that are selected, and those whose positions are collected. *)
Definition selection (a : list nat * list Q * Q) (b : list nat * list Q) : Prop := b = fst a.
Definition located (indices : list nat) (a : list nat * list Q * Q) (positions : list nat) : Prop :=
  Forall2 (fun p o => aget indices p = Some o) positions (fst (fst a)).

Lemma fixed_selection l1 l2 k indices st sorted sc : evaluateFixed l1 l2 k indices st sorted = Some sc ->
  forN k 0 (fun i '(predicted, criteria) =>
    let* (index, score) := aget sorted i in
    let* outputIndex := aget indices index in
    Some (predicted ++ [outputIndex], criteria ++ [score])) ([], []) = Some (scIndices sc, scValues sc) /\
  exists positions, forN k 0 (fun i positions => let* (index, _) := aget sorted i in Some (positions ++ [index])) [] = Some positions /\
    Forall2 (fun p o => aget indices p = Some o) positions (scIndices sc).
Proof.
  unfold evaluateFixed. destruct (forN k 0 _ ([], [], 0)) as [((ps, vs), q)|] eqn:E; [|discriminate]. intros X. injection X as <-.
  cbn [scIndices scValues]. split.
  - match goal with |- forN _ _ ?g ?b0 = _ => match type of E with forN _ _ ?f ?a0 = _ =>
      destruct (forN_sim f g selection) with (count := k) (start := 0%nat) (a := a0) (a' := (ps, vs, q)) (b := b0) as (r & -> & HR) end end.
    + intros i ((p, v), w) a' b -> Ea. cbn [fst]. destruct (aget sorted i) as [(ix, sco)|]; [|discriminate].
      destruct (aget indices ix) as [o|]; [|discriminate]. destruct (aget st ix) as [t|]; [|discriminate]. injection Ea as <-.
      eexists. split; reflexivity.
    + reflexivity.
    + exact E.
    + rewrite HR. reflexivity.
  - match goal with |- context[forN k 0 ?g []] => match type of E with forN _ _ ?f ?a0 = _ =>
      destruct (forN_sim f g (located indices)) with (count := k) (start := 0%nat) (a := a0) (a' := (ps, vs, q)) (b := @nil nat) as (r & -> & HR) end end.
    + intros i ((p, v), w) a' b HL Ea. destruct (aget sorted i) as [(ix, sco)|]; [|discriminate].
      destruct (aget indices ix) as [o|] eqn:Eo; [|discriminate]. destruct (aget st ix) as [t|]; [|discriminate]. injection Ea as <-.
      eexists. split; [reflexivity|]. apply Forall2_app; [exact HL|]. constructor; auto.
    + constructor.
    + exact E.
    + exists r. split; [reflexivity|exact HR].
Qed.

Lemma dynamic_selection l1 l2 th e indices st sc : evaluateDynamic l1 l2 th e indices st = Some sc ->
  exists m M, getMinAndMaxScore l1 l2 st = Some (m, M) /\
  forN (length st) 0 (fun i '(predicted, criteria) =>
    let* t := aget st i in
    let score := calculateOutputWiseScore l1 l2 t in
    if Rge_dec (calculateWeightedScore score m e) (calculateThreshold m M (1 - th) e) then
      let* outputIndex := aget indices i in
      Some (predicted ++ [outputIndex], criteria ++ [score])
    else Some (predicted, criteria)) ([], []) = Some (scIndices sc, scValues sc) /\
  exists positions, forN (length st) 0 (fun i positions =>
      let* t := aget st i in
      let score := calculateOutputWiseScore l1 l2 t in
      Some (if Rge_dec (calculateWeightedScore score m e) (calculateThreshold m M (1 - th) e) then positions ++ [i] else positions)) [] = Some positions /\
    Forall2 (fun p o => aget indices p = Some o) positions (scIndices sc).
Proof.
  unfold evaluateDynamic. destruct (getMinAndMaxScore l1 l2 st) as [(m, M)|]; [|discriminate].
  destruct (forN (length st) 0 _ ([], [], 0)) as [((ps, vs), q)|] eqn:E; [|discriminate]. intros X. injection X as <-.
  exists m, M. split; [reflexivity|]. cbn [scIndices scValues]. split.
  - match goal with |- forN _ _ ?g ?b0 = _ => match type of E with forN _ _ ?f ?a0 = _ =>
      destruct (forN_sim f g selection) with (count := length st) (start := 0%nat) (a := a0) (a' := (ps, vs, q)) (b := b0) as (r & -> & HR) end end.
    + intros i ((p, v), w) a' b -> Ea. cbn [fst]. destruct (aget st i) as [t|]; [|discriminate]. cbv zeta in *.
      destruct (Rge_dec _ _); [|injection Ea as <-; eexists; split; reflexivity].
      destruct (aget indices i) as [o|]; [|discriminate]. injection Ea as <-. eexists. split; reflexivity.
    + reflexivity.
    + exact E.
    + rewrite HR. reflexivity.
  - match goal with |- context[forN (length st) 0 ?g []] => match type of E with forN _ _ ?f ?a0 = _ =>
      destruct (forN_sim f g (located indices)) with (count := length st) (start := 0%nat) (a := a0) (a' := (ps, vs, q)) (b := @nil nat) as (r & -> & HR) end end.
    + intros i ((p, v), w) a' b HL Ea. destruct (aget st i) as [t|]; [|discriminate]. cbv zeta in *.
      destruct (Rge_dec _ _); [|injection Ea as <-; eexists; split; [reflexivity|exact HL]].
      destruct (aget indices i) as [o|] eqn:Eo; [|discriminate]. injection Ea as <-. eexists. split; [reflexivity|].
      apply Forall2_app; [exact HL|]. constructor; auto.
    + constructor.
    + exact E.
    + exists r. split; [reflexivity|exact HR].
Qed.

Lemma positions_indices dsysv l1 l2 tmp indices positions g h sc os :
  Forall2 (fun p o => aget indices p = Some o) positions os ->
  evaluatePositions dsysv l1 l2 tmp indices positions g h = Some sc -> scIndices sc = os.
Proof.
  intros HF. unfold evaluatePositions.
  match goal with |- context[forL positions ?f ([], [])] =>
    assert (H : forall ix o r, forL positions f (ix, o) = Some r -> fst r = ix ++ os) end.
  { clear -HF. induction HF as [|p o ps os Hp HF IH]; intros ix ord r E; cbn [forL] in E.
    - injection E as <-. rewrite app_nil_r. reflexivity.
    - rewrite Hp in E. destruct (aget g p); [|discriminate]. apply IH in E. rewrite E, <- app_assoc. reflexivity. }
  destruct (forL positions _ ([], [])) as [(ix, o)|] eqn:E; [|discriminate]. apply H in E. cbn [fst app] in E. subst ix.
  repeat match goal with |- context[match ?x with Some _ => _ | None => None end] => destruct x; [|discriminate] end.
  intros X. injection X as <-. reflexivity.
Qed.

Lemma fixed_binned :
  forall (conversion : nat) (c : binningConfig) (l1 l2 : Q) (k : nat) (s : binnedState) (indices : list nat) (statistics : list tuple)
      (sorted : list (nat * Q)),
  validBinning c -> length indices = length statistics -> partialSort k (outputWiseScores l1 l2 statistics) sorted ->
  allocated k (getMaxBins c k) s ->
  exists unbinned, evaluateFixed l1 l2 k indices statistics sorted = Some unbinned /\ length (scValues unbinned) = k /\
    (binsFit c (scValues unbinned) (getMaxBins c k) ->
     exists info bins score binned s',
       getLabelInfo c (scValues unbinned) k = Some info /\ createBins (Some conversion) info (scValues unbinned) k = Some bins /\
       evaluateFixedBinned (Some conversion) c l1 l2 s k indices statistics sorted = Some (binned, s') /\
       allocated k (getMaxBins c k) s' /\ scIndices binned = scIndices unbinned /\ scValues binned = binScores score bins).
Proof.
  intros d c l1 l2 k s indices st sorted (Hr & _ & Hm & _) HL (HP & Hk & _) HA.
  assert (HI : forall e, In e sorted -> In e (outputWiseScores l1 l2 st)).
  { intros e He. eapply Permutation_in; [apply Permutation_sym; eassumption|auto]. }
  destruct (evaluateFixed_loop l1 l2 k indices st sorted Hk HL HI) as (sc & E & H1 & H2 & _).
  assert (LP : length (map fst (firstn k sorted)) = k) by (rewrite map_length; apply firstn_length_le; auto).
  exists sc. split; [exact E|]. assert (LV : length (scValues sc) = k) by (rewrite H2, map_length; exact LP). split; [exact LV|]. intros HF.
  assert (LS : length sorted = length st).
  { rewrite <- (Permutation_length HP). unfold outputWiseScores. rewrite combine_length, seq_length, map_length. lia. }
  destruct (evaluateBins_spec d c l1 l2 (getMaxBins c k) k s (scIndices sc) st (scValues sc)) as (info & bins & score & b & s' & E1 & E2 & _ & E3 & HA' & V1 & V2 & _); auto.
  - lia.
  - lia.
  - rewrite H1, H2, !map_length. reflexivity.
  - exists info, bins, score, b, s'. rewrite LV in E1, E2, E3. split; [auto|]. split; [auto|]. split; [|auto].
    unfold evaluateFixedBinned. destruct (fixed_selection _ _ _ _ _ _ _ E) as (-> & _). exact E3.
Qed.

Lemma dynamic_binned :
  forall (conversion : nat) (c : binningConfig) (l1 l2 threshold exponent : Q) (s : binnedState) (indices : list nat) (statistics : list tuple),
  validBinning c -> statistics <> [] -> length indices = length statistics -> 0 < threshold < 1 -> 0 < exponent ->
  allocated (length indices) (getMaxBins c (length indices)) s ->
  exists unbinned, evaluateDynamic l1 l2 threshold exponent indices statistics = Some unbinned /\
    (binsFit c (scValues unbinned) (getMaxBins c (length indices)) ->
     exists info bins score binned s',
       getLabelInfo c (scValues unbinned) (length (scValues unbinned)) = Some info /\
       createBins (Some conversion) info (scValues unbinned) (length (scValues unbinned)) = Some bins /\
       evaluateDynamicBinned (Some conversion) c l1 l2 threshold exponent s indices statistics = Some (binned, s') /\
       allocated (length indices) (getMaxBins c (length indices)) s' /\
       scIndices binned = scIndices unbinned /\ scValues binned = binScores score bins).
Proof.
  intros d c l1 l2 th e s indices st (Hr & _ & Hm & _) HN HL Hth He HA.
  destruct (evaluateDynamic_spec l1 l2 th e indices st HN HL Hth He) as (sc & ps & m & M & E & (H1 & H2 & _) & SS & _ & _ & HI & _).
  exists sc. split; [exact E|]. intros HF.
  assert (LP : (length ps <= length st)%nat).
  { rewrite <- (seq_length (length st) 0). apply NoDup_incl_length.
    - clear -SS. induction SS as [|p ps SS IH Hp]; constructor; auto. intros X. rewrite Forall_forall in Hp. specialize (Hp _ X). lia.
    - intros p Hp. apply HI in Hp. apply in_seq. lia. }
  destruct (evaluateBins_spec d c l1 l2 (getMaxBins c (length indices)) (length indices) s (scIndices sc) st (scValues sc))
    as (info & bins & score & b & s' & E1 & E2 & _ & E3 & HA' & V1 & V2 & _); auto.
  - rewrite H2, map_length. lia.
  - rewrite H2, map_length. lia.
  - rewrite H1, H2, !map_length. reflexivity.
  - exists info, bins, score, b, s'. split; [auto|]. split; [auto|]. split; [|auto].
    unfold evaluateDynamicBinned. destruct (dynamic_selection _ _ _ _ _ _ _ E) as (m' & M' & -> & ES & _). cbv zeta in *. rewrite ES.
    replace (length (scIndices sc)) with (length (scValues sc)) by (rewrite H1, H2, !map_length; reflexivity). exact E3.
Qed.

Lemma fixed_binned_nd :
  forall (dsysv : solver) (conversion : nat) (c : binningConfig) (l1 l2 : Q) (k n : nat) (tmp : list Q) (s : ndBinnedState) (indices : list nat)
      (gradients hessians : list Q) (statistics : list tuple) (sorted : list (nat * Q)),
  validBinning c -> validSolver dsysv -> 0 <= l1 -> 0 <= l2 ->
  length indices = n -> length gradients = n -> length hessians = triangularNumber n ->
  length tmp = (getMaxBins c k * getMaxBins c k)%nat -> allocatedND k (getMaxBins c k) s ->
  diagonal gradients hessians = Some statistics -> partialSort k (outputWiseScores l1 l2 statistics) sorted ->
  exists selected, evaluateFixed l1 l2 k indices statistics sorted = Some selected /\ length (scValues selected) = k /\
    (forall tmp unbinned, evaluateFixedND dsysv l1 l2 tmp k indices gradients hessians sorted = Some unbinned -> scIndices unbinned = scIndices selected) /\
    (binsFit c (scValues selected) (getMaxBins c k) ->
     exists info bins,
       getLabelInfo c (scValues selected) k = Some info /\ createBins (Some conversion) info (scValues selected) k = Some bins /\
       (totalSolver dsysv -> evaluateFixedBinnedND (Some conversion) dsysv c l1 l2 tmp s k indices gradients hessians sorted <> None) /\
       forall binned s', evaluateFixedBinnedND (Some conversion) dsysv c l1 l2 tmp s k indices gradients hessians sorted = Some (binned, s') ->
         allocatedND k (getMaxBins c k) s' /\ scIndices binned = scIndices selected /\ exists score, scValues binned = binScores score bins).
Proof.
  intros dsysv d c l1 l2 k n tmp s indices g h st sorted (Hr & _ & Hm & _) HS H1 H2 LI Lg Lh LT HA ED (HP & Hk & _).
  destruct (diagonal_spec g h ltac:(congruence)) as (st' & ED' & LS & _). rewrite ED in ED'. injection ED' as <-.
  assert (HI : forall e, In e sorted -> In e (outputWiseScores l1 l2 st)).
  { intros e He. eapply Permutation_in; [apply Permutation_sym; eassumption|auto]. }
  destruct (evaluateFixed_loop l1 l2 k indices st sorted Hk ltac:(congruence) HI) as (sc & E & V1 & V2 & _).
  assert (LP : length (map fst (firstn k sorted)) = k) by (rewrite map_length; apply firstn_length_le; auto).
  assert (LV : length (scValues sc) = k) by (rewrite V2, map_length; exact LP).
  assert (LO : length (scIndices sc) = k) by (rewrite V1, map_length; exact LP).
  assert (LSo : length sorted = length st).
  { rewrite <- (Permutation_length HP). unfold outputWiseScores. rewrite combine_length, seq_length, map_length. lia. }
  destruct (fixed_selection _ _ _ _ _ _ _ E) as (ES & ps & EP & FP).
  exists sc. split; [exact E|]. split; [exact LV|]. split.
  { intros tmp' un. unfold evaluateFixedND. rewrite EP. apply positions_indices. exact FP. }
  intros HF. pose proof (tri_mono k n ltac:(lia)).
  destruct (evaluateBinsND_spec d dsysv c l1 l2 (getMaxBins c k) k tmp s (scIndices sc) g h (scValues sc) k)
    as (info & bins & E1 & E2 & LB & T & V); auto; try lia.
  exists info, bins. split; [auto|]. split; [auto|]. unfold evaluateFixedBinnedND. rewrite ES. split; [auto|].
  intros b s' Eb. destruct (V b s' Eb) as (Z1 & Z2 & Z3 & _). auto.
Qed.

Lemma dynamic_binned_nd :
  forall (dsysv : solver) (conversion : nat) (c : binningConfig) (l1 l2 threshold exponent : Q) (n : nat) (tmp : list Q) (s : ndBinnedState)
      (indices : list nat) (gradients hessians : list Q) (statistics : list tuple),
  validBinning c -> validSolver dsysv -> 0 <= l1 -> 0 <= l2 -> 0 < threshold < 1 -> 0 < exponent -> (0 < n)%nat ->
  length indices = n -> length gradients = n -> length hessians = triangularNumber n ->
  length tmp = (getMaxBins c n * getMaxBins c n)%nat -> allocatedND n (getMaxBins c n) s ->
  diagonal gradients hessians = Some statistics ->
  exists selected, evaluateDynamic l1 l2 threshold exponent indices statistics = Some selected /\
    (forall tmp unbinned, evaluateDynamicND dsysv l1 l2 threshold exponent tmp indices gradients hessians = Some unbinned ->
       scIndices unbinned = scIndices selected) /\
    (binsFit c (scValues selected) (getMaxBins c n) ->
     exists info bins,
       getLabelInfo c (scValues selected) (length (scValues selected)) = Some info /\
       createBins (Some conversion) info (scValues selected) (length (scValues selected)) = Some bins /\
       (totalSolver dsysv -> evaluateDynamicBinnedND (Some conversion) dsysv c l1 l2 threshold exponent tmp s indices gradients hessians <> None) /\
       forall binned s', evaluateDynamicBinnedND (Some conversion) dsysv c l1 l2 threshold exponent tmp s indices gradients hessians = Some (binned, s') ->
         allocatedND n (getMaxBins c n) s' /\ scIndices binned = scIndices selected /\ exists score, scValues binned = binScores score bins).
Proof.
  intros dsysv d c l1 l2 th e n tmp s indices g h st (Hr & _ & Hm & _) HS H1 H2 Hth He Hn LI Lg Lh LT HA ED.
  destruct (diagonal_spec g h ltac:(congruence)) as (st' & ED' & LS & _). rewrite ED in ED'. injection ED' as <-.
  assert (HN : st <> []) by (destruct st; simpl in *; [lia|discriminate]).
  destruct (evaluateDynamic_spec l1 l2 th e indices st HN ltac:(congruence) Hth He) as (sc & ps & m & M & E & (V1 & V2 & _) & SS & _ & _ & HI & _).
  assert (LP : (length ps <= length st)%nat).
  { rewrite <- (seq_length (length st) 0). apply NoDup_incl_length.
    - clear -SS. induction SS as [|p ps SS IH Hp]; constructor; auto. intros X. rewrite Forall_forall in Hp. specialize (Hp _ X). lia.
    - intros p Hp. apply HI in Hp. apply in_seq. lia. }
  assert (LV : length (scValues sc) = length ps) by (rewrite V2, map_length; reflexivity).
  assert (LO : length (scIndices sc) = length ps) by (rewrite V1, map_length; reflexivity).
  destruct (dynamic_selection _ _ _ _ _ _ _ E) as (m' & M' & EM & ES & qs & EP & FP).
  exists sc. split; [exact E|]. split.
  { intros tmp' un. unfold evaluateDynamicND. rewrite ED, EM. cbv zeta in *. rewrite EP. apply positions_indices. exact FP. }
  intros HF. pose proof (tri_mono (length ps) n ltac:(lia)). rewrite LV.
  destruct (evaluateBinsND_spec d dsysv c l1 l2 (getMaxBins c n) n tmp s (scIndices sc) g h (scValues sc) (length ps))
    as (info & bins & E1 & E2 & LB & T & V); auto; try lia.
  exists info, bins. split; [auto|]. split; [auto|]. unfold evaluateDynamicBinnedND. rewrite ED, EM. cbv zeta in *. rewrite ES, LO, LI. split; [auto|].
  intros b s' Eb. destruct (V b s' Eb) as (Z1 & Z2 & Z3 & _). auto.
Qed.
