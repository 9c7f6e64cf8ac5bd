(** Proofs about the steps of training a classification model. *)
From Coq Require Import ZArith QArith Arith List Bool Lia.
From Verif Require Import Lib.Arr Model.Refinement Model.Induction Model.Rules Model.Stopping Model.BoostConfig
  Model.Training Spec.Rules Spec.Stopping Spec.Induction Spec.Training Proofs.Rules Proofs.Induction Proofs.Stopping.
Import ListNotations.
Open Scope nat_scope.

(** ** Scores of the statistics *)
Definition base_of (default : option Z) (e : nat) : Z := match default with Some s => s | None => 0%Z end.
Definition drule (default : option Z) : option srule := match default with Some s => Some ([], s) | None => None end.
Definition dlist (default : option Z) : list srule := match default with Some s => [([], s)] | None => [] end.

Lemma predicted_app r1 r2 e : predicted (r1 ++ r2) e = (predicted r1 e + predicted r2 e)%Z.
Proof. induction r1 as [|r r1 IH]; simpl; [lia|]. rewrite IH. destruct (satisfies (fst r) e); lia. Qed.

Lemma predicted_dlist d e : predicted (dlist d) e = base_of d e.
Proof. destruct d; simpl; lia. Qed.

Lemma up_to_date_add n base rules rule predictions : length predictions = n -> up_to_date base rules predictions ->
  up_to_date base (rules ++ [rule]) (addScore (coverage n (fst rule)) (snd rule) predictions).
Proof.
  intros HL HU e p Hp. apply nth_addScore in Hp; [|rewrite coverage_length; auto]. destruct Hp as (b & y & Eb & Ey & ->).
  assert (He: e < n) by (rewrite <- HL; apply nth_error_Some; congruence).
  rewrite nth_coverage in Eb by auto. injection Eb as <-. rewrite predicted_app, (HU e y Ey). simpl.
  destruct (satisfies (fst rule) e); lia.
Qed.

Lemma initial_up_to_date n d : length (initialPredictions n d) = n /\ up_to_date (base_of d) [] (initialPredictions n d).
Proof.
  unfold initialPredictions. split; [rewrite addScore_length, repeat_length; auto|].
  intros e p Hp. apply nth_addScore in Hp; [|unfold fullMask; rewrite !repeat_length; auto].
  destruct Hp as (b & y & Eb & Ey & ->).
  apply nth_error_In in Eb. apply nth_error_In in Ey. apply repeat_spec in Eb. apply repeat_spec in Ey. subst.
  unfold base_of. simpl. destruct d; lia.
Qed.

Lemma optimize_length numExamples numIterations relearn base rules predictions :
  relearns numExamples relearn ->
  (forall r c, In r rules -> In c (fst r) -> length c = numExamples) -> length predictions = numExamples ->
  up_to_date base rules predictions ->
  exists rules' predictions' n, optimizeModel numExamples numIterations relearn rules predictions
      = Some (rules', predictions', n) /\ length predictions' = numExamples /\ length rules' = length rules /\
      up_to_date base rules' predictions'.
Proof.
  intros HR HO HL HU. unfold optimizeModel.
  set (Inv := fun st : list srule * list Z * nat => let '(rs, ps, n) := st in
    (forall r, In r rs -> rule_ok numExamples r) /\ length ps = numExamples /\ length rs = length rules /\ up_to_date base rs ps).
  destruct (forN_inv (fun _ => Inv) (fun _ st => forN (length rules) 0 (optimizeRule numExamples relearn) st)
    numIterations 0 (rules, predictions, 0)) as ([[rs ps] n] & E & (_ & H2 & H3 & H4)).
  - split; [intros r Hr c Hc; exact (HO r c Hr Hc)|]. auto.
  - intros j st _ Hst.
    destruct (forN_inv (fun _ => Inv) (optimizeRule numExamples relearn) (length rules) 0 st Hst) as (st' & E & H).
    + intros i [[rs ps] n] Hi (H1 & H2 & H3 & H4).
      destruct (optimizeRule_ok numExamples relearn base rs ps n i) as (rs' & ps' & E & G1 & G2 & G3 & G4); auto.
      { rewrite H3. lia. }
      exists (rs', ps', n + 1). split; [exact E|]. split; [exact G1|]. split; [exact G2|]. split; [lia|exact G4].
    + exists st'. split; [exact E|exact H].
  - exists rs, ps, n. split; [exact E|]. auto.
Qed.

Section Train.
Context {X C : Type}
        (test : list Z * X -> nat -> C -> option (result * C))
        (learn : list Z -> X -> option (srule * list bool) * X)
        (relearn : nat -> list Z -> srule -> option (srule * list bool)).

Lemma run_up_to_date n d ts cs rules results final x :
  learns n learn -> ts 0 = (initialPredictions n d, x) ->
  training_run test (induceStep learn) (match drule d with Some _ => 1 | None => 0 end) ts cs rules results final ->
  length (fst final) = n /\ up_to_date (base_of d) rules (fst final) /\
  (forall r c, In r rules -> In c (fst r) -> length c = n).
Proof.
  intros HL H0 (A1 & A2 & A3 & A4).
  assert (G: forall i, i <= length rules -> length (fst (ts i)) = n /\
    up_to_date (base_of d) (firstn i rules) (fst (ts i)) /\
    (forall r c, In r (firstn i rules) -> In c (fst r) -> length c = n)).
  { induction i as [|i IH]; intros Hi.
    - rewrite H0. simpl. destruct (initial_up_to_date n d). split; [auto|]. split; [auto|]. intros ? ? [].
    - destruct (IH ltac:(lia)) as (I1 & I2 & I3). destruct (nth_error rules i) as [r|] eqn:E;
        [|apply nth_error_None in E; lia].
      destruct (A3 _ _ E) as (_ & S). rewrite Nat.add_1_r in S. destruct (ts i) as [p y] eqn:Ets. simpl in I1, I2, S.
      destruct (learn p y) as [[[r' mask]|] y'] eqn:El; [|discriminate].
      destruct (HL _ _ _ _ _ El) as (Em & Hc). injection S as -> S. rewrite <- S. cbn [fst].
      rewrite (firstn_S_nth _ _ _ E). split; [rewrite addScore_length; auto|]. split.
      + rewrite Em. apply up_to_date_add; auto.
      + intros r0 c Hr Hin. apply in_app_or in Hr. destruct Hr as [Hr|[<-|[]]]; eauto. }
  destruct (G (length rules) (le_n _)) as (G1 & G2 & G3). rewrite firstn_all in G2, G3.
  destruct A4 as (stop & used & _ & A4). destruct stop.
  - subst final. auto.
  - destruct (ts (length rules)) as [p y]. simpl in A4. destruct (learn p y) as [[[r' mask]|] y'] eqn:El;
      injection A4 as A4; try discriminate. subst final. auto.
Qed.

Lemma results_bound n0 ts cs rules results final :
  (forall t m c r c', test t m c = Some (r, c') -> rNumUsed r <= m) ->
  training_run test (induceStep learn) n0 ts cs rules results final ->
  last_reported (map rNumUsed results) <= n0 + length rules.
Proof.
  intros HT (A1 & A2 & A3 & A4).
  assert (G: forall i r, nth_error results i = Some r -> rNumUsed r <= n0 + length rules).
  { intros i r E. pose proof (HT _ _ _ _ _ (A2 _ _ E)).
    assert (i < length results) by (apply nth_error_Some; congruence). lia. }
  assert (K: forall l, (forall x, In x l -> x <= n0 + length rules) -> last_reported l <= n0 + length rules).
  { induction l as [|y l IH]; intros H; simpl; [lia|].
    destruct (last_reported l =? 0); [apply H; left; auto|apply IH; intros; apply H; right; auto]. }
  apply K. intros y Hy. apply in_map_iff in Hy as (r & <- & Hr). apply In_nth_error in Hr as (i & E). eauto.
Qed.

Lemma results_silent n0 ts cs rules results final :
  (forall t m c r c', test t m c = Some (r, c') -> rNumUsed r = 0) ->
  training_run test (induceStep learn) n0 ts cs rules results final -> last_reported (map rNumUsed results) = 0.
Proof.
  intros HT (A1 & A2 & A3 & A4).
  assert (K: forall l, (forall x, In x l -> x = 0) -> last_reported l = 0).
  { induction l as [|y l IH]; intros H; simpl; auto. rewrite IH by (intros; apply H; right; auto). simpl.
    apply H. left. auto. }
  apply K. intros y Hy. apply in_map_iff in Hy as (r & <- & Hr). apply In_nth_error in Hr as (i & E).
  exact (HT _ _ _ _ _ (A2 _ _ E)).
Qed.

Lemma expected_default d rules n : n = 0 \/ 1 <= n ->
  let k := match drule d with Some _ => 1 | None => 0 end in k <= n ->
  expected_order (drule d) rules true n = dlist d ++ firstn (n - k) rules.
Proof. intros _. destruct d; simpl; intros; rewrite ?Nat.sub_0_r; auto. Qed.

Lemma visit_split d rules u :
  u <= bGetNumRules (mkBuilder (drule d) rules u) ->
  exists k, rlVisitUsed (bBuild true (mkBuilder (drule d) rules u)) = Some (dlist d ++ firstn k rules) /\
    (u = 0 -> k = length rules).
Proof.
  intros H. rewrite bBuild_eq. rewrite visit_used by exact H. cbn [rlDefault rlRules rlPrecedence bDefault bRules bNumUsed].
  unfold rlGetNumUsed, rlGetNumRules. cbn [rlDefault rlRules rlNumUsed bDefault bRules bNumUsed].
  destruct (Nat.ltb_spec 0 u).
  - exists (u - match drule d with Some _ => 1 | None => 0 end). split; [|lia].
    rewrite expected_default; auto; destruct d; simpl in *; lia.
  - exists (length rules). split; auto. rewrite expected_default; [|lia|destruct d; simpl; lia]. do 3 f_equal.
    destruct d; simpl; lia.
Qed.

(** Without sequential post-optimization. *)
Lemma fit_dropped :
  forall fuel numExamples default removeUnused x c model scores,
  learns numExamples learn ->
  (forall t m c r c', test t m c = Some (r, c') -> rNumUsed r <= m) ->
  fit test learn relearn fuel numExamples default removeUnused None x c = Some (Some (model, scores)) ->
  exists used dropped, rlVisitUsed model = Some used /\ length scores = numExamples /\
    forall e p, nth_error scores e = Some p -> p = (predicted used e + predicted dropped e)%Z.
Proof.
  intros fuel n d removeUnused x c model scores HL HT H. unfold fit in H. fold (drule d) in H.
  destruct (induceRules _ _ _ _ _ _ _) as [[[b [ps x']]|]|] eqn:E; try discriminate.
  apply C42_lemma in E. destruct E as (ts & cs & rules & results & _ & H0 & _ & R & Eb). simpl in Eb.
  destruct (run_up_to_date n d ts cs rules results (ps, x') x HL H0 R) as (L & U & _). cbn [fst] in L, U.
  pose proof (results_bound _ _ _ _ _ _ HT R) as HB.
  assert (Eb': b = mkBuilder (drule d) rules (last_reported (map rNumUsed results))) by (rewrite Eb; destruct d; auto).
  clear Eb. set (u := last_reported (map rNumUsed results)) in *. subst b.
  assert (Hu: u <= bGetNumRules (mkBuilder (drule d) rules u)).
  { unfold bGetNumRules. cbn [bRules bDefault]. destruct d; simpl in *; lia. }
  assert (G: exists k, rlVisitUsed model = Some (dlist d ++ firstn k rules) /\ scores = ps).
  { unfold postOptimize in H. destruct removeUnused.
    - destruct (C43_lemma (mkBuilder (drule d) rules u) Hu) as (b' & Er & _ & _ & _ & V). rewrite Er in H. injection H as <- <-.
      destruct (V true) as (_ & V2 & _). rewrite V2. destruct (visit_split d rules u Hu) as (k & -> & _). eauto.
    - injection H as <- <-. destruct (visit_split d rules u Hu) as (k & -> & _). eauto. }
  destruct G as (k & V & ->). exists (dlist d ++ firstn k rules), (skipn k rules). split; auto. split; auto.
  intros e p Hp. rewrite (U e p Hp), predicted_app, predicted_dlist.
  rewrite <- (firstn_skipn k rules) at 1. rewrite predicted_app. lia.
Qed.

(** With sequential post-optimization. *)
Lemma fit_dropped_optimized :
  forall fuel numExamples default removeUnused numIterations x c model scores,
  learns numExamples learn -> relearns numExamples relearn ->
  (forall t m c r c', test t m c = Some (r, c') -> rNumUsed r <= m) ->
  fit test learn relearn fuel numExamples default removeUnused (Some numIterations) x c = Some (Some (model, scores)) ->
  exists used dropped, rlVisitUsed model = Some used /\ length scores = numExamples /\
    forall e p, nth_error scores e = Some p -> p = (predicted used e + predicted dropped e)%Z.
Proof.
  intros fuel n d removeUnused it x c model scores HL HR HT H. unfold fit in H. fold (drule d) in H.
  destruct (induceRules _ _ _ _ _ _ _) as [[[b [ps x']]|]|] eqn:E; try discriminate.
  apply C42_lemma in E. destruct E as (ts & cs & rules & results & _ & H0 & _ & R & Eb). simpl in Eb.
  destruct (run_up_to_date n d ts cs rules results (ps, x') x HL H0 R) as (L & U & K). cbn [fst] in L, U.
  pose proof (results_bound _ _ _ _ _ _ HT R) as HB.
  assert (Eb': b = mkBuilder (drule d) rules (last_reported (map rNumUsed results))) by (rewrite Eb; destruct d; auto).
  clear Eb. set (u := last_reported (map rNumUsed results)) in *. subst b.
  assert (Hu: u <= bGetNumRules (mkBuilder (drule d) rules u)).
  { unfold bGetNumRules. cbn [bRules bDefault]. destruct d; simpl in *; lia. }
  assert (LO : forall base rs ps, length ps = n -> (forall r, In r rs -> In r rules) -> up_to_date base rs ps ->
    forall rs' ps' m, optimizeModel n it relearn rs ps = Some (rs', ps', m) ->
    length ps' = n /\ length rs' = length rs /\ up_to_date base rs' ps').
  { intros base rs qs Lq Hin Uq rs' qs' m EO.
    destruct (optimize_length n it relearn base rs qs HR) as (r1 & q1 & m1 & E1 & G1 & G2 & G3); auto.
    - intros r c0 Hr. apply K. auto.
    - rewrite E1 in EO. injection EO as <- <- <-. auto. }
  unfold postOptimize in H. destruct removeUnused.
  - destruct (C43_lemma (mkBuilder (drule d) rules u) Hu) as (b' & Er & D1 & D2 & (k & D3) & V). rewrite Er in H.
    cbn [bDefault bRules] in D1, D3. destruct b' as [d' rules' u']. cbn [bDefault bRules bNumUsed] in *. subst d' u' rules'.
    destruct (optimizeModel n it relearn (firstn k rules) ps) as [[[rs' ps'] m]|] eqn:EO; [|discriminate]. injection H as <- <-.
    destruct (LO (fun e => (base_of d e + predicted (skipn k rules) e)%Z) (firstn k rules) ps) with (rs' := rs') (ps' := ps') (m := m)
      as (G1 & G2 & G3); auto.
    + intros r Hr. rewrite <- (firstn_skipn k rules). apply in_or_app. auto.
    + intros e p Hp. rewrite (U e p Hp). rewrite <- (firstn_skipn k rules) at 1. rewrite predicted_app. lia.
    + destruct (visit_split d rs' 0 (Nat.le_0_l _)) as (k' & V' & Hk). exists (dlist d ++ rs'), (skipn k rules).
      rewrite V', (Hk eq_refl), firstn_all. split; [reflexivity|]. split; [exact G1|]. intros e p Hp.
      rewrite (G3 e p Hp), predicted_app, predicted_dlist. lia.
  - cbn [bDefault bRules bNumUsed] in H.
    destruct (optimizeModel n it relearn rules ps) as [[[rs' ps'] m]|] eqn:EO; [|discriminate]. injection H as <- <-.
    destruct (LO (base_of d) rules ps L (fun r Hr => Hr) U rs' ps' m EO) as (G1 & G2 & G3).
    destruct (visit_split d rs' u) as (k & V & _); [unfold bGetNumRules in *; cbn [bRules bDefault] in *; lia|].
    exists (dlist d ++ firstn k rs'), (skipn k rs'). split; [exact V|]. split; [exact G1|]. intros e p Hp.
    rewrite (G3 e p Hp), predicted_app, predicted_dlist. rewrite <- (firstn_skipn k rs') at 1. rewrite predicted_app. lia.
Qed.

(** Without global pruning. *)
Lemma fit_all :
  forall fuel numExamples default removeUnused sequential x c model scores,
  learns numExamples learn -> relearns numExamples relearn ->
  (forall t m c r c', test t m c = Some (r, c') -> rNumUsed r = 0) ->
  fit test learn relearn fuel numExamples default removeUnused sequential x c = Some (Some (model, scores)) ->
  exists used, rlVisitUsed model = Some used /\ forall e p, nth_error scores e = Some p -> p = predicted used e.
Proof.
  intros fuel n d removeUnused sequential x c model scores HL HR HT H. unfold fit in H. fold (drule d) in H.
  destruct (induceRules _ _ _ _ _ _ _) as [[[b [ps x']]|]|] eqn:E; try discriminate.
  apply C42_lemma in E. destruct E as (ts & cs & rules & results & _ & H0 & _ & R & Eb). simpl in Eb.
  destruct (run_up_to_date n d ts cs rules results (ps, x') x HL H0 R) as (L & U & K). cbn [fst] in L, U.
  rewrite (results_silent _ _ _ _ _ _ HT R) in Eb.
  assert (Eb': b = mkBuilder (drule d) rules 0) by (rewrite Eb; destruct d; auto). clear Eb. subst b.
  unfold postOptimize in H.
  assert (Er: (if removeUnused then removeUnusedRules (mkBuilder (drule d) rules 0)
    else Some (mkBuilder (drule d) rules 0)) = Some (mkBuilder (drule d) rules 0)) by (destruct removeUnused; auto).
  rewrite Er in H. clear Er.
  assert (G: exists rules', model = bBuild true (mkBuilder (drule d) rules' 0) /\ up_to_date (base_of d) rules' scores).
  { destruct sequential as [it|].
    - cbn [bRules bDefault bNumUsed] in H.
      destruct (optimize_ok n it relearn (base_of d) rules ps HR K L U) as (rules' & ps' & m & E & _ & U').
      rewrite E in H. injection H as <- <-. eauto.
    - injection H as <- <-. eauto. }
  destruct G as (rules' & -> & U'). destruct (visit_split d rules' 0 (Nat.le_0_l _)) as (k & V & Hk).
  eexists. split; [exact V|]. rewrite (Hk eq_refl), firstn_all. intros e p Hp.
  rewrite (U' e p Hp), predicted_app, predicted_dlist. auto.
Qed.
End Train.

(** A single example with the label 1, two rules that predict 1 each, post-pruning, removal of unused rules. *)
Lemma fit_refuted :
  let test := fun (t : list Z * unit) n => listTest critTest
    (mkEnv 0%Z (fun e => (inject_Z (nth e (fst t) 0%Z) - 1) * (inject_Z (nth e (fst t) 0%Z) - 1))%Q) n in
  let learn := fun (_ : list Z) (x : unit) => (Some (([[true]], 1%Z), [true]), x) in
  learns 1 learn /\
  exists model scores used,
    fit test learn (fun _ _ _ => None) 5 1 None true None tt [CSize 2; CPost (Single [0]) true 1 1 (postInit 1)]
      = Some (Some (model, scores)) /\
    rlVisitUsed model = Some used /\ nth_error scores 0 = Some 2%Z /\ predicted used 0 = 1%Z.
Proof.
  intros test learn. split.
  - intros p x rule mask x' H. injection H as <- <- _. split; [reflexivity|]. intros c [<-|[]]. reflexivity.
  - eexists _, _, _. split; [vm_compute; reflexivity|]. split; [vm_compute; reflexivity|]. split; vm_compute; reflexivity.
Qed.

(** ** Rule pruning without instance sampling *)
Lemma set_weights : forall first n weights, length weights = n -> (forall e, In e first -> e < n) ->
  exists weights', forL first (fun index weights => aset weights index true) weights = Some weights' /\
    length weights' = n /\ (forall e, In e first -> nth_error weights' e = Some true) /\
    (forall e, nth_error weights e = Some true -> nth_error weights' e = Some true).
Proof.
  induction first as [|i first IH]; intros n weights HL H; simpl.
  - exists weights. repeat split; auto. intros ? [].
  - rewrite aset_Some by (rewrite HL; apply H; left; auto).
    destruct (IH n (upd weights i true)) as (w' & E & L & A & B); [rewrite upd_length; auto|intros; apply H; right; auto|].
    exists w'. split; [exact E|]. split; [exact L|].
    assert (U: forall e, nth_error weights e = Some true \/ e = i -> nth_error (upd weights i true) e = Some true).
    { intros e [He|He].
      - destruct (Nat.eq_dec e i) as [->|Hne].
        + apply nth_error_upd_eq. rewrite HL. apply H. left. auto.
        + rewrite nth_error_upd_neq by auto. auto.
      - rewrite He. apply nth_error_upd_eq. rewrite HL. apply H. left. auto. }
    split.
    + intros e [<-|He]; auto.
    + intros e He. auto.
Qed.

Lemma irep_equal k q (conditions : list cond) n : (forall c, In c conditions -> length c = n) -> 1 < length conditions ->
  exists m m', irep k (fun _ => q) conditions (coverage n conditions) = Some (firstn 1 conditions, m, m').
Proof.
  intros HL HN. unfold irep. destruct (Nat.ltb_spec 1 (length conditions)); [|lia].
  set (N := length conditions) in *.
  destruct (forN_inv (fun i (st : list bool * Z * list bool * nat) => let '(_, bq, _, pr) := st in bq = q /\
      pr = if i =? 1 then 0 else N - 1) (irepStep k (fun _ => q) conditions) (N - 1) 1
      (fullMask (length (coverage n conditions)), q, coverage n conditions, 0)) as ([[[m bq] bm] pr] & E & (Hq & Hp)).
  - simpl. auto.
  - intros i [[[m bq] bm] pr] Hi (-> & ->). unfold irepStep.
    destruct (aget_Some conditions (i - 1)) as (c & Ec); [unfold N in Hi; lia|]. rewrite Ec.
    assert (Cq: compare k q q = false) by (destruct k; simpl; apply Z.ltb_irrefl). rewrite Cq. simpl.
    destruct (Nat.eqb_spec i 1) as [->|Hi1].
    + simpl. eexists. split; [reflexivity|]. simpl. auto.
    + destruct (Nat.eqb_spec (N - 1) 0); [lia|]. simpl. eexists. split; [reflexivity|]. simpl.
      destruct i as [|[|i]]; [lia|lia|auto].
  - cbv beta in Hp. rewrite E. subst pr. replace (1 + (N - 1)) with N by lia.
    destruct (Nat.eqb_spec N 1); [lia|]. rewrite removeLast_spec by (fold N; lia). fold N.
    replace (N - (N - 1)) with 1 by lia. eauto.
Qed.

Lemma filter_none {A} (f : A -> bool) l : (forall x, In x l -> f x = false) -> filter f l = [].
Proof. induction l as [|a l IH]; intros H; simpl; auto. rewrite (H a) by (left; auto). apply IH. intros; apply H; right; auto. Qed.

Lemma prune_bi :
  forall k recalculate quality numExamples first second (conditions : list cond),
  disjoint_split numExamples first second -> second <> [] ->
  (forall c, In c conditions -> length c = numExamples) -> 1 < length conditions ->
  pruneWithoutSampling k true recalculate quality (Bi first second) conditions (coverage numExamples conditions)
    = Some (firstn 1 conditions).
Proof.
  intros k recalculate quality n first second conditions (ND & HI) HS HL HN. unfold pruneWithoutSampling.
  assert (Hn: length first + length second = n).
  { rewrite <- app_length. rewrite <- (seq_length n 0). apply Nat.le_antisymm.
    - apply NoDup_incl_length; auto. intros e He. apply in_seq. apply HI in He. lia.
    - apply NoDup_incl_length; [apply seq_NoDup|]. intros e He. apply in_seq in He. apply HI. lia. }
  destruct (set_weights first n (repeat false n)) as (w & E & L & A & _); [apply repeat_length|
    intros e He; apply HI; apply in_or_app; auto|].
  unfold noInstanceSampling, partitionSize. rewrite Hn, E. cbv beta iota.
  assert (HZ: hasZeroWeights (w, length first) = true).
  { unfold hasZeroWeights. cbn [fst snd]. apply Nat.ltb_lt. destruct second; [congruence|]. simpl in Hn. lia. }
  rewrite HZ. unfold induceRule. cbn [fst].
  assert (Q: forall mask, quality (outOfSample (Bi first second) w mask) = quality []).
  { intros mask. f_equal. unfold outOfSample. apply filter_none. intros e He. rewrite (nth_error_nth _ _ _ (A e He)). auto. }
  assert (EI: irep k (fun mask => quality (outOfSample (Bi first second) w mask)) conditions (coverage n conditions) =
              irep k (fun _ => quality []) conditions (coverage n conditions)).
  { unfold irep. rewrite Q. destruct (1 <? length conditions); auto.
    erewrite forN_ext; [reflexivity|]. intros i [[[m bq] bm] pr] _. unfold irepStep. destruct (aget conditions (i - 1)); auto.
    rewrite Q. auto. }
  rewrite EI. destruct (irep_equal k (quality []) conditions n HL HN) as (m & m' & ->). auto.
Qed.

Lemma prune_single :
  forall k pruning recalculate quality indices conditions mask,
  pruneWithoutSampling k pruning recalculate quality (Single indices) conditions mask = Some conditions.
Proof.
  intros. unfold pruneWithoutSampling, noInstanceSampling, hasZeroWeights. cbn [fst snd].
  rewrite repeat_length, Nat.ltb_irrefl. reflexivity.
Qed.

Lemma prune_refuted :
  exists first second conditions, disjoint_split 3 first second /\ (forall c, In c conditions -> length c = 3) /\
    exists conditions', conditions' <> conditions /\ forall quality,
      pruneWithoutSampling Boosting true true quality (Bi first second) conditions (coverage 3 conditions)
        = Some conditions'.
Proof.
  exists [0; 2], [1], [[true; true; false]; [true; false; true]].
  assert (D: disjoint_split 3 [0; 2] [1]).
  { split; [repeat constructor; simpl; intuition discriminate|]. intros e. simpl. lia. }
  assert (HL: forall c, In c [[true; true; false]; [true; false; true]] -> length c = 3)
    by (intros c [<-|[<-|[]]]; reflexivity).
  split; [exact D|]. split; [exact HL|]. exists [[true; true; false]]. split; [discriminate|]. intros quality.
  rewrite (prune_bi Boosting true quality 3 [0; 2] [1]); auto; discriminate.
Qed.

(** ** Label vectors *)
Lemma label_vectors_available :
  forall c, let stored := labelVectorsStored c in
  createJointCalibrator (lcLoss c) stored (lcJoint c) <> Throws /\
  createBinaryPredictor (lcLoss c) stored (lcBinary c) <> Throws /\
  createScorePredictor stored (lcScore c) <> Throws /\
  createProbabilityPredictor (lcLoss c) stored (lcProbability c) <> Throws.
Proof.
  intros [l b s p m j g]. unfold labelVectorsStored. cbn [lcLoss lcBinary lcScore lcProbability lcMarginal lcJoint lcPruning].
  destruct l, b as [| |[]|[]|], s, p, j as [|[]]; vm_compute; repeat split; discriminate.
Qed.

Lemma predictors_available :
  forall c, let stored := labelVectorsStored c in
  (createBinaryPredictor (lcLoss c) stored (lcBinary c) = Created <->
     lcBinary c <> BinaryNone /\
     (requires_probabilities (lcBinary c) = true -> hasProbabilityFunctions (lcLoss c) = true)) /\
  (createScorePredictor stored (lcScore c) = Created <-> lcScore c <> ScoreNone) /\
  (createProbabilityPredictor (lcLoss c) stored (lcProbability c) = Created <->
     lcProbability c <> ProbabilityNone /\ hasProbabilityFunctions (lcLoss c) = true).
Proof.
  intros [l b s p m j g]. unfold labelVectorsStored. cbn [lcLoss lcBinary lcScore lcProbability lcMarginal lcJoint lcPruning].
  destruct l, b as [| |[]|[]|], s, p, j as [|[]]; vm_compute; repeat split; intros; try discriminate; try reflexivity; intuition discriminate.
Qed.

Lemma label_vectors_needed :
  forall c, labelVectorsStored c = true ->
  createJointCalibrator (lcLoss c) false (lcJoint c) = Throws \/
  createBinaryPredictor (lcLoss c) false (lcBinary c) = Throws \/
  createProbabilityPredictor (lcLoss c) false (lcProbability c) = Throws \/
  hasProbabilityFunctions (lcLoss c) = false /\
    (lcJoint c <> NoCalibrator \/ requires_probabilities (lcBinary c) = true \/
     lcProbability c = ProbabilityAuto \/ lcProbability c = Marginalized).
Proof.
  intros [l b s p m j g]. unfold labelVectorsStored. cbn [lcLoss lcBinary lcScore lcProbability lcMarginal lcJoint lcPruning].
  destruct l, b as [| |[]|[]|], s, p, j as [|[]]; vm_compute; intros; try discriminate; auto 10; right; right; right; intuition discriminate.
Qed.

(** ** Holdout set *)
Lemma holdout_available : forall c, holdout_set_used c -> autoHoldoutSet c = true.
Proof.
  intros [l b s p m j g] H. unfold holdout_set_used, autoHoldoutSet in *. cbn [lcLoss lcMarginal lcJoint lcPruning] in *.
  destruct H as [-> |[-> |[H|H]]]; auto.
  - destruct m as [|[]]; simpl in H; try discriminate; destruct (hasProbabilityFunctions l); try discriminate.
    simpl. rewrite orb_true_r. auto.
  - destruct j as [|[]]; simpl in H; try discriminate; destruct (hasProbabilityFunctions l); try discriminate.
    simpl. rewrite orb_true_r. auto.
Qed.

Lemma holdout_logistic : forall c, lcLoss c = DecomposableLogistic \/ lcLoss c = NonDecomposableLogistic ->
  (autoHoldoutSet c = true <-> holdout_set_used c).
Proof.
  intros c HL. split; [|apply holdout_available]. destruct c as [l b s p m j g]. unfold autoHoldoutSet, holdout_set_used.
  cbn [lcLoss lcMarginal lcJoint lcPruning] in *. intros H.
  assert (P: hasProbabilityFunctions l = true) by (destruct HL as [-> | ->]; auto).
  apply orb_prop in H as [H|H]; [apply orb_prop in H as [H|H]|].
  - destruct g as [|[]|[]]; simpl in H; try discriminate; auto.
  - destruct m as [|[]]; simpl in *; try discriminate. rewrite P. auto.
  - destruct j as [|[]]; simpl in *; try discriminate. rewrite P. auto.
Qed.

Lemma holdout_refuted :
  exists c, autoHoldoutSet c = true /\ ~ holdout_set_used c.
Proof.
  exists (mkLearnerConfig DecomposableSquaredHinge BinaryAuto ScoreOutputWise ProbabilityNone (Isotonic true) NoCalibrator
    NoGlobalPruning).
  split; [reflexivity|]. unfold holdout_set_used. simpl. intros [H|[H|[H|H]]]; discriminate.
Qed.
