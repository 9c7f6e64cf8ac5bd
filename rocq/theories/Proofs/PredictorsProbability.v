(** Proofs about the predictors of probabilities. *)
From Coq Require Import ZArith NArith QArith List Bool Arith Lia Permutation Sorted.
From Verif Require Import Lib.Arr Model.Labels Model.Rules Model.Prediction Model.JointPrediction Model.Predictors.
From Verif Require Import Spec.Labels Spec.Rules Spec.Stopping Spec.JointPrediction Spec.Predictors.
From Verif Require Import Proofs.Rules Proofs.Prediction Proofs.JointPrediction Proofs.Predictors.
Import ListNotations.
Open Scope nat_scope.

Lemma nth_error_skipn' {A} (l : list A) s i : nth_error (skipn s l) i = nth_error l (s + i).
Proof. revert l. induction s as [|s IH]; intros [|x l]; simpl; auto. destruct i; auto. Qed.

Lemma loadRow_cells memory start count row : cells memory start count row -> loadRow memory start count = Some row.
Proof.
  intros (B & L & E). unfold loadRow. rewrite (proj2 (Nat.leb_le _ _)) by auto. f_equal. apply nth_error_ext. intros i.
  destruct (Nat.lt_ge_cases i count) as [Hi|Hi].
  - rewrite nth_error_firstn_lt by auto. rewrite nth_error_skipn'. auto.
  - transitivity (@None Q); [|symmetry]; apply nth_error_None; rewrite ?firstn_length; lia.
Qed.

Lemma storeRow_cells memory start row : start + length row <= length memory ->
  exists memory', storeRow memory start row = Some memory' /\ length memory' = length memory /\
    cells memory' start (length row) row /\
    forall k, k < start \/ start + length row <= k -> nth_error memory' k = nth_error memory k.
Proof.
  intros B. unfold storeRow.
  match goal with |- context[forN ?c ?s ?b ?st] =>
    destruct (forN_inv (fun k mem => length mem = length memory /\ (forall i, i < k -> nth_error mem (start + i) = nth_error row i) /\
      forall k0, k0 < start \/ start + length row <= k0 -> nth_error mem k0 = nth_error memory k0) b c s st) as (mem & E & L & E1 & E2) end.
  - split; [auto|]. split; [intros; lia|auto].
  - intros j mem Hj (L & E1 & E2). destruct (nth_error row j) as [x|] eqn:Ex; [|apply nth_error_None in Ex; lia].
    unfold aget. rewrite Ex. rewrite aset_Some by lia. eexists. split; [reflexivity|]. rewrite upd_length. split; [auto|]. split.
    + intros i Hi. rewrite nth_error_upd. destruct (Nat.eqb_spec (start + j) (start + i)) as [Heq|Hne].
      * rewrite (proj2 (Nat.ltb_lt _ _)) by lia. replace i with j by lia. auto.
      * apply E1. lia.
    + intros c Hc. rewrite nth_error_upd_neq by lia. auto.
  - exists mem. split; [exact E|]. split; [auto|]. split; [|auto]. split; [lia|]. split; [auto|]. intros i Hi. apply E1. auto.
Qed.

(** ** Transformations *)

Lemma output_wise_probability :
  forall (t : nat -> Q -> Q) n, writes_probabilities n (fun scores => map (fun label => t label (nth label scores 0%Q)) (seq 0 (length scores))) (applyOutputWiseProbability t n).
Proof.
  intros t n memory source target scores (B & L & E) BT HD. unfold applyOutputWiseProbability.
  match goal with |- context[forN ?c ?s ?b ?st] =>
    destruct (forN_inv (fun k mem => length mem = length memory /\ (forall i, i < k -> nth_error mem (target + i) = Some (t i (nth i scores 0%Q))) /\
      forall k0, k0 < target \/ target + k <= k0 -> nth_error mem k0 = nth_error memory k0) b c s st) as (mem & EM & LM & E1 & E2) end.
  - split; [auto|]. split; [intros; lia|auto].
  - intros j mem Hj (LM & E1 & E2). unfold aget. rewrite E2 by lia. rewrite E by lia. rewrite (nth_error_nth' scores 0%Q) by lia.
    rewrite aset_Some by lia. eexists. split; [reflexivity|]. rewrite upd_length. split; [auto|]. split.
    + intros i Hi. rewrite nth_error_upd. destruct (Nat.eqb_spec (target + j) (target + i)) as [Heq|Hne].
      * rewrite (proj2 (Nat.ltb_lt _ _)) by lia. replace i with j by lia. reflexivity.
      * apply E1. lia.
    + intros c Hc. rewrite nth_error_upd_neq by lia. apply E2. lia.
  - exists mem. split; [exact EM|]. split; [auto|]. split; [|intros; apply E2; lia]. split; [lia|]. split; [rewrite map_length, seq_length; auto|].
    intros i Hi. rewrite E1 by lia. rewrite nth_error_map_seq by lia. reflexivity.
Qed.

Lemma forN_sim {A B} (f : nat -> A -> option A) (g : nat -> B -> option B) (R : A -> B -> Prop) :
  (forall i a a' b, R a b -> f i a = Some a' -> exists b', g i b = Some b' /\ R a' b') ->
  forall count start a a' b, R a b -> forN count start f a = Some a' -> exists b', forN count start g b = Some b' /\ R a' b'.
Proof.
  intros H. induction count as [|count IH]; intros start a a' b HR E; simpl in *.
  - injection E as <-. eauto.
  - destruct (f start a) as [a1|] eqn:E1; [|discriminate]. destruct (H _ _ _ _ HR E1) as (b1 & -> & HR1). eauto.
Qed.

Lemma aget_part (pre p post : list Q) i x : aget p i = Some x -> aget (pre ++ p ++ post) (length pre + i) = Some x.
Proof.
  unfold aget. intros H. rewrite nth_error_app2 by lia. replace (length pre + i - length pre) with i by lia.
  rewrite nth_error_app1; auto. apply nth_error_Some. congruence.
Qed.

Lemma aset_part (pre p post : list Q) i x p' : aset p i x = Some p' ->
  aset (pre ++ p ++ post) (length pre + i) x = Some (pre ++ p' ++ post) /\ length p' = length p.
Proof.
  intros H. apply aset_inv in H. destruct H as (Hi & ->). rewrite aset_Some by (rewrite !app_length; lia). rewrite upd_length.
  split; [|reflexivity]. f_equal. induction pre as [|y pre IH]; simpl.
  - clear -Hi. revert i Hi. induction p as [|y p IH]; simpl; intros i Hi; [lia|]. destruct i; simpl; [reflexivity|]. f_equal. apply IH. lia.
  - f_equal. exact IH.
Qed.

Lemma clear_part (pre p post : list Q) : forN (length p) 0 (fun i memory => aset memory (length pre + i) 0%Q) (pre ++ p ++ post) =
  Some (pre ++ repeat 0%Q (length p) ++ post).
Proof.
  match goal with |- forN ?c ?s ?b ?st = _ =>
    destruct (forN_inv (fun k mem => mem = pre ++ (repeat 0%Q k ++ skipn k p) ++ post) b c s st) as (mem & -> & ->) end.
  - reflexivity.
  - intros j mem Hj ->. destruct (aset (repeat 0%Q j ++ skipn j p) j 0%Q) as [p'|] eqn:E.
    2:{ unfold aset in E. rewrite app_length, repeat_length, skipn_length in E. destruct (Nat.ltb_spec j (j + (length p - j))); [discriminate|lia]. }
    destruct (aset_part pre _ post _ _ _ E) as (-> & _). eexists. split; [reflexivity|]. f_equal. f_equal.
    apply aset_inv in E. destruct E as (_ & ->).
    assert (ES : exists x, skipn j p = x :: skipn (S j) p).
    { clear -Hj. assert (j < length p) by lia. clear Hj. revert j H. induction p as [|y p IH]; intros [|j] H; simpl in *; try lia; eauto.
      destruct (IH j ltac:(lia)) as (x & ->). eauto. }
    destruct ES as (x & ->). change (S j) with (1 + j). replace (1 + j) with (j + 1) by lia. rewrite repeat_app. cbn [repeat].
    rewrite <- app_assoc. cbn [app]. replace (j + 1) with (S j) by lia. clear.
    assert (H : forall r t, upd (repeat 0%Q r ++ x :: t) r 0%Q = repeat 0%Q r ++ 0%Q :: t).
    { induction r; intros; simpl; auto. f_equal. auto. }
    apply H.
  - cbn [plus]. rewrite skipn_all, app_nil_r. reflexivity.
Qed.

Lemma cells_split (memory : list Q) target n : target + n <= length memory -> exists pre p post, memory = pre ++ p ++ post /\ length pre = target /\ length p = n.
Proof.
  intros B. exists (firstn target memory), (firstn n (skipn target memory)), (skipn n (skipn target memory)).
  rewrite firstn_skipn, firstn_skipn. split; [reflexivity|]. rewrite !firstn_length, skipn_length. lia.
Qed.

Lemma cells_part (pre p post : list Q) : cells (pre ++ p ++ post) (length pre) (length p) p.
Proof.
  split; [rewrite !app_length; lia|]. split; [reflexivity|]. intros i Hi. rewrite nth_error_app2 by lia.
  replace (length pre + i - length pre) with i by lia. apply nth_error_app1. auto.
Qed.

Lemma marginalized :
  forall (joint : nat -> list nat -> list Q -> option Q) (p : list Q -> nat -> Q) labelVectors jointMemory numLabels,
    Forall (fun lv => NoDup lv /\ Forall (fun label => label < numLabels) lv) labelVectors -> length jointMemory = length labelVectors ->
    (forall scores i lv, length scores = numLabels -> nth_error labelVectors i = Some lv -> joint i lv scores = Some (p scores i)) ->
    (forall scores i, length scores = numLabels -> i < length labelVectors -> (0 <= p scores i)%Q) ->
    exists f, writes_probabilities numLabels f (applyMarginalizedProbability joint labelVectors jointMemory numLabels) /\
      forall scores, length scores = numLabels -> length (f scores) = numLabels /\
        exists probabilities, length probabilities = length labelVectors /\
          ((exists i, i < length labelVectors /\ (0 < p scores i)%Q) -> (Qsum probabilities == 1)%Q) /\
          ((forall i, i < length labelVectors -> (p scores i == 0)%Q) -> forall i, i < length labelVectors -> (nth i probabilities 0 == 0)%Q) /\
          (forall i j, i < length labelVectors -> j < length labelVectors ->
             (nth i probabilities 0 * p scores j == nth j probabilities 0 * p scores i)%Q) /\
          forall label, label < numLabels ->
            (nth label (f scores) 0 == expectation labelVectors probabilities (fun lv => if relevant lv label then 1 else 0))%Q.
Proof.
  intros joint p lvs jm n HL HM HJ HP.
  set (jp := fun scores => match transformScoresIntoJointProbabilities (fun i lv => joint i lv scores) lvs jm with Some x => x | None => [] end).
  set (f := fun scores => match marginalize lvs (jp scores) n with Some x => x | None => [] end).
  assert (HC : forall scores, length scores = n ->
    transformScoresIntoJointProbabilities (fun i lv => joint i lv scores) lvs jm = Some (jp scores) /\ length (jp scores) = length lvs /\
    ((exists i, i < length lvs /\ (0 < p scores i)%Q) -> (Qsum (jp scores) == 1)%Q) /\
    ((forall i, i < length lvs -> (p scores i == 0)%Q) -> forall i, i < length lvs -> (nth i (jp scores) 0 == 0)%Q) /\
    (forall i j, i < length lvs -> j < length lvs -> (nth i (jp scores) 0 * p scores j == nth j (jp scores) 0 * p scores i)%Q) /\
    marginalize lvs (jp scores) n = Some (f scores) /\ length (f scores) = n /\
    forall label, label < n -> (nth label (f scores) 0 == expectation lvs (jp scores) (fun lv => if relevant lv label then 1 else 0))%Q).
  { intros scores Hs. destruct (normalisation (fun i lv => joint i lv scores) (p scores) lvs jm HM) as (x & E & Lx & _ & H1 & H2).
    - intros i lv Hi. apply HJ; auto.
    - intros i Hi. apply HP; auto.
    - assert (EJ : jp scores = x) by (unfold jp; rewrite E; reflexivity). rewrite EJ. split; [exact E|]. split; [exact Lx|].
      split; [intros H; apply H1; exact H|]. split; [exact H2|]. split.
      + intros i j Hi Hj. destruct (Qlt_le_dec 0 (p scores i)) as [Hpi|Hpi]; [apply H1; eauto|].
        destruct (Qlt_le_dec 0 (p scores j)) as [Hpj|Hpj]; [apply H1; eauto|].
        assert (Zi : (p scores i == 0)%Q) by (apply Qle_antisym; auto). assert (Zj : (p scores j == 0)%Q) by (apply Qle_antisym; auto).
        rewrite Zi, Zj, !Qmult_0_r. reflexivity.
      + destruct (marginal_probabilities lvs x n HL Lx) as (y & Ey & Ly & Hy & _).
        assert (EF : f scores = y) by (unfold f; rewrite EJ, Ey; reflexivity). rewrite EF. auto. }
  exists f. split.
  - intros memory source target scores HS BT HD. unfold applyMarginalizedProbability. rewrite (loadRow_cells _ _ _ _ HS).
    destruct HS as (_ & LS & _). destruct (HC scores LS) as (E1 & _ & _ & _ & _ & E2 & LF & _). rewrite E1.
    destruct (cells_split _ _ _ BT) as (pre & old & post & -> & <- & <-). rewrite clear_part. unfold marginalize in E2.
    match type of E2 with forN ?c ?s ?body ?a0 = _ =>
      match goal with |- context[forN c s ?body2 ?b0] =>
        destruct (forN_sim body body2 (fun q mem => mem = pre ++ q ++ post /\ length q = length old)) with (count := c) (start := s) (a := a0) (b := b0) (a' := f scores)
          as (mem & -> & -> & LQ) end end.
    + intros i q q' mem (-> & LQ) E. destruct (aget lvs i) as [lv|]; [|discriminate]. destruct (aget (jp scores) i) as [x|]; [|discriminate].
      refine (forN_sim _ _ (fun q mem => mem = pre ++ q ++ post /\ length q = length old) _ _ _ _ _ _ _ E); [|auto].
      clear. intros j q q' mem (-> & LQ) E. destruct (aget lv j) as [li|]; [|discriminate].
      destruct (aget q li) as [y|] eqn:Ey; [|discriminate]. rewrite (aget_part _ _ _ _ _ Ey).
      destruct (aset_part pre q post _ _ _ E) as (-> & Lq). eexists. split; [reflexivity|]. split; [reflexivity|]. congruence.
    + split; [reflexivity|apply repeat_length].
    + exact E2.
    + eexists. split; [reflexivity|]. split; [rewrite !app_length; lia|]. split.
      * rewrite <- LQ. apply cells_part.
      * intros k [Hk|Hk]; [rewrite !nth_error_app1 by auto; reflexivity|]. rewrite !app_assoc. rewrite !nth_error_app2 by (rewrite app_length; lia).
        rewrite !app_length, LQ. reflexivity.
  - intros scores Hs. destruct (HC scores Hs) as (_ & LJ & H1 & H0 & H2 & _ & LF & HF). split; [exact LF|]. exists (jp scores). auto.
Qed.

(** ** Predictors *)

Section Model.
Context (add : Q -> Q -> Q).
Variables (junk : fval) (m : featureMatrix) (l : ruleList (rule Q)) (numLabels maxRules : nat) (row : nat -> list fval).
Hypothesis Hused : rlNumUsed l <= rlGetNumRules l.
Hypothesis H32 : (N.of_nat (rlGetNumRules l) < 2 ^ 32)%N.
Notation n := (limitRules maxRules (rlGetNumUsed l)).
Notation order := (expected_order (rlDefault l) (rlRules l) (rlPrecedence l) n).
Notation cov row := (fun r : rule Q => coversDense row (fst r)).
Hypothesis Hrows : forall i, i < fmRows m -> example_row m i (row i) /\
  exists s, score_of add (cov (row i)) order (repeat 0%Q numLabels) = Some s.
Notation prefix := (prefix_scores add 0%Q l numLabels maxRules row).
Variables (f : list Q -> list Q) (apply : nat -> nat -> list Q -> option (list Q)).
Hypothesis HW : writes_probabilities numLabels f apply.

Lemma cells_unchanged (memory memory' : list Q) start count r : length memory' = length memory ->
  (forall k, start <= k < start + count -> nth_error memory' k = nth_error memory k) -> cells memory start count r -> cells memory' start count r.
Proof. intros L E (B & LR & H). split; [lia|]. split; [auto|]. intros i Hi. rewrite E by lia. auto. Qed.

Lemma probability_step s0 p0 k j i memory : i < fmRows m -> k <= j <= n ->
  cells memory (s0 + i * numLabels) numLabels (prefix k i) -> p0 + i * numLabels + numLabels <= length memory ->
  s0 = p0 \/ s0 + i * numLabels + numLabels <= p0 + i * numLabels ->
  exists memory', predictProbabilitiesForExample add junk apply numLabels s0 p0 m (rlMakeIter l k n) (rlMakeIter l j n) i memory = Some memory' /\
    length memory' = length memory /\ cells memory' (p0 + i * numLabels) numLabels (f (prefix j i)) /\
    (s0 <> p0 -> cells memory' (s0 + i * numLabels) numLabels (prefix j i)) /\
    forall c, (c < s0 + i * numLabels \/ s0 + i * numLabels + numLabels <= c) -> (c < p0 + i * numLabels \/ p0 + i * numLabels + numLabels <= c) ->
      nth_error memory' c = nth_error memory c.
Proof.
  intros Hi Hkj HC HB HD. unfold predictProbabilitiesForExample. rewrite (loadRow_cells _ _ _ _ HC).
  rewrite (aggregate_range add 0%Q junk m l numLabels maxRules row) by auto.
  pose proof (prefix_length add 0%Q m l numLabels maxRules row Hrows j i Hi) as LP.
  destruct (storeRow_cells memory (s0 + i * numLabels) (prefix j i)) as (mem & -> & LM & CM & UM).
  { rewrite LP. destruct HC as (HC & _). lia. }
  rewrite LP in CM, UM.
  destruct (HW mem (s0 + i * numLabels) (p0 + i * numLabels) (prefix j i) CM) as (mem' & -> & LM' & CM' & UM').
  { lia. }
  { destruct HD as [-> |HD]; auto. }
  exists mem'. split; [reflexivity|]. split; [lia|]. split; [exact CM'|]. split.
  - intros Hne. destruct HD as [HD|HD]; [contradiction|]. apply (cells_unchanged mem); auto. intros c Hc. apply UM'. lia.
  - intros c H1 H2. rewrite UM' by auto. apply UM. auto.
Qed.

Lemma rows_apart a b e i : e <> i -> a * numLabels + e * numLabels = b -> forall c, b <= c < b + numLabels ->
  c < a * numLabels + i * numLabels \/ a * numLabels + i * numLabels + numLabels <= c.
Proof. intros. subst b. nia. Qed.

Lemma row_bound e : e < fmRows m -> e * numLabels + numLabels <= fmRows m * numLabels.
Proof. intros. nia. Qed.

Lemma apart e i c : e <> i -> e * numLabels <= c < e * numLabels + numLabels -> c < i * numLabels \/ i * numLabels + numLabels <= c.
Proof. intros. nia. Qed.

Lemma batch_loop examples : forall memory, NoDup examples -> Forall (fun i => i < fmRows m) examples -> length memory = fmRows m * numLabels ->
  (forall e, e < fmRows m -> cells memory (e * numLabels) numLabels (if in_dec Nat.eq_dec e examples then prefix 0 e else f (prefix n e))) ->
  exists memory', forL examples (predictProbabilitiesForExample add junk apply numLabels 0 0 m (rlMakeIter l 0 n) (rlMakeIter l n n)) memory = Some memory' /\
    length memory' = fmRows m * numLabels /\ forall e, e < fmRows m -> cells memory' (e * numLabels) numLabels (f (prefix n e)).
Proof.
  induction examples as [|i examples IH]; intros memory ND HF LM HC.
  - exists memory. split; [reflexivity|]. split; [auto|]. intros e He. specialize (HC e He). exact HC.
  - inversion ND; subst. inversion HF; subst. cbn [forL]. pose proof (HC i ltac:(auto)) as Ci.
    destruct (in_dec Nat.eq_dec i (i :: examples)) as [_|Hx]; [|exfalso; apply Hx; left; auto].
    destruct (probability_step 0 0 0 n i memory) as (mem & -> & L & C & _ & U); auto; [lia| |].
    + pose proof (row_bound i ltac:(auto)). lia.
    + apply IH; auto; [lia|]. intros e He. destruct (Nat.eq_dec e i) as [-> |Hne].
      * destruct (in_dec Nat.eq_dec i examples); [contradiction|]. exact C.
      * apply (cells_unchanged memory); [auto| |].
        { intros c Hc. pose proof (apart e i c Hne Hc). apply U; cbn [plus]; auto. }
        { specialize (HC e He). destruct (in_dec Nat.eq_dec e (i :: examples)) as [[He'|He']|He'], (in_dec Nat.eq_dec e examples) as [Hy|Hy];
            try congruence; try contradiction; try exact HC. exfalso. apply He'. right. auto. }
Qed.

Lemma incremental_loop k j examples : k <= j <= n -> forall memory, NoDup examples -> Forall (fun i => i < fmRows m) examples ->
  length memory = fmRows m * numLabels + fmRows m * numLabels ->
  (forall e, e < fmRows m -> cells memory (e * numLabels) numLabels (if in_dec Nat.eq_dec e examples then prefix k e else prefix j e)) ->
  (forall e, e < fmRows m -> ~ In e examples -> cells memory (fmRows m * numLabels + e * numLabels) numLabels (f (prefix j e))) ->
  exists memory', forL examples (predictProbabilitiesForExample add junk apply numLabels 0 (fmRows m * numLabels) m (rlMakeIter l k n) (rlMakeIter l j n)) memory = Some memory' /\
    length memory' = fmRows m * numLabels + fmRows m * numLabels /\
    (forall e, e < fmRows m -> cells memory' (e * numLabels) numLabels (prefix j e)) /\
    forall e, e < fmRows m -> cells memory' (fmRows m * numLabels + e * numLabels) numLabels (f (prefix j e)).
Proof.
  intros Hkj. induction examples as [|i examples IH]; intros memory ND HF LM HC HP.
  - exists memory. split; [reflexivity|]. split; [auto|]. split; [intros e He; exact (HC e He)|]. intros e He. apply HP; auto.
  - inversion ND; subst. inversion HF; subst. cbn [forL]. pose proof (HC i ltac:(auto)) as Ci.
    destruct (in_dec Nat.eq_dec i (i :: examples)) as [_|Hx]; [|exfalso; apply Hx; left; auto].
    pose proof (row_bound i ltac:(auto)) as RB.
    destruct (probability_step 0 (fmRows m * numLabels) k j i memory) as (mem & -> & L & C & CS & U); auto; [lia|lia|].
    apply IH; auto; [lia| |].
    + intros e He. pose proof (row_bound e He) as RE. destruct (Nat.eq_dec e i) as [-> |Hne].
      * destruct (in_dec Nat.eq_dec i examples); [contradiction|]. destruct (Nat.eq_dec 0 (fmRows m * numLabels)) as [H0|H0]; [|auto].
        assert (HN : numLabels = 0) by nia. split; [nia|]. split; [|intros; lia].
        apply (prefix_length add 0%Q m l numLabels maxRules row Hrows). auto.
      * apply (cells_unchanged memory); [auto| |].
        { intros c Hc. pose proof (apart e i c Hne Hc). apply U; [cbn [plus]; auto|lia]. }
        { specialize (HC e He). destruct (in_dec Nat.eq_dec e (i :: examples)) as [[He'|He']|He'], (in_dec Nat.eq_dec e examples) as [Hy|Hy];
            try congruence; try contradiction; try exact HC. exfalso. apply He'. right. auto. }
    + intros e He Hn. pose proof (row_bound e He) as RE. destruct (Nat.eq_dec e i) as [-> |Hne]; [exact C|].
      apply (cells_unchanged memory); [auto| |].
      * intros c Hc. pose proof (apart e i (c - fmRows m * numLabels) Hne ltac:(lia)). apply U; lia.
      * apply HP; auto. intros [He'|He']; [congruence|contradiction].
Qed.

Lemma zero_cells e (rest : list Q) : e < fmRows m -> cells (repeat 0%Q (fmRows m * numLabels) ++ rest) (e * numLabels) numLabels (prefix 0 e).
Proof.
  intros He. rewrite (prefix_0 add 0%Q m l numLabels maxRules row Hrows e He). pose proof (row_bound e He).
  split; [rewrite app_length, repeat_length; lia|]. split; [apply repeat_length|]. intros i Hi.
  rewrite nth_error_app1 by (rewrite repeat_length; lia). rewrite !nth_error_repeat by lia. reflexivity.
Qed.

Lemma cells_concat (g : nat -> list Q) k : forall memory, length memory = k * numLabels ->
  (forall e, e < k -> cells memory (e * numLabels) numLabels (g e)) -> memory = concat (map g (seq 0 k)).
Proof.
  induction k as [|k IH]; intros memory L HC.
  - destruct memory; [reflexivity|discriminate].
  - rewrite seq_S, map_app, concat_app. cbn [map concat plus]. rewrite app_nil_r.
    rewrite <- (firstn_skipn (k * numLabels) memory) at 1. f_equal.
    + apply IH; [rewrite firstn_length; nia|]. intros e He. destruct (HC e ltac:(lia)) as (B & LG & E). split; [rewrite firstn_length; nia|].
      split; [auto|]. intros i Hi. rewrite nth_error_firstn_lt by nia. auto.
    + destruct (HC k ltac:(lia)) as (B & LG & E). apply nth_error_ext. intros i. rewrite nth_error_skipn'.
      destruct (Nat.lt_ge_cases i numLabels) as [Hi|Hi]; [auto|].
      transitivity (@None Q); [|symmetry]; apply nth_error_None; nia.
Qed.

Lemma cells_skipn (memory : list Q) b s r : cells memory (b + s) numLabels r -> cells (skipn b memory) s numLabels r.
Proof.
  intros (B & L & E). split; [rewrite skipn_length; lia|]. split; [auto|]. intros i Hi. rewrite nth_error_skipn', Nat.add_assoc. auto.
Qed.

Lemma examples_facts o : Permutation o (seq 0 (fmRows m)) -> NoDup o /\ Forall (fun i => i < fmRows m) o /\ forall i, i < fmRows m -> In i o.
Proof.
  intros HP. split; [eapply Permutation_NoDup; [symmetry; exact HP|apply seq_NoDup]|]. split.
  - apply Forall_forall. intros i Hi. apply (Permutation_in _ HP) in Hi. apply in_seq in Hi. lia.
  - intros i Hi. eapply Permutation_in; [symmetry; exact HP|]. apply in_seq. lia.
Qed.

Lemma predict_probabilities o : Permutation o (seq 0 (fmRows m)) ->
  predictProbabilities add junk (Some apply) m l numLabels maxRules o = Some (concat (map (fun i => f (prefix n i)) (seq 0 (fmRows m)))).
Proof.
  intros HP. destruct (examples_facts o HP) as (ND & HF & HI). unfold predictProbabilities.
  destruct (batch_loop o (repeat 0%Q (fmRows m * numLabels)) ND HF (repeat_length _ _)) as (mem & E & L & HC).
  - intros e He. destruct (in_dec Nat.eq_dec e o) as [_|Hn]; [|exfalso; auto]. pose proof (zero_cells e [] He) as Z.
    rewrite app_nil_r in Z. exact Z.
  - change (rlUsedBegin l maxRules) with (rlMakeIter l 0 n). change (rlUsedEnd l maxRules) with (rlMakeIter l n n).
    rewrite E. f_equal. apply cells_concat; auto.
Qed.

Definition probability_inv (k : nat) (p : probabilityPredictor) : Prop :=
  ppCurrent p = rlMakeIter l k n /\ ppEnd p = rlMakeIter l n n /\ k <= n /\
  length (ppMemory p) = fmRows m * numLabels + fmRows m * numLabels /\
  forall e, e < fmRows m -> cells (ppMemory p) (e * numLabels) numLabels (prefix k e).

Lemma next_probabilities k s o p : Permutation o (seq 0 (fmRows m)) -> probability_inv k p ->
  exists p', applyNextProbabilities add junk (Some apply) m numLabels s o p = Some p' /\ probability_inv (Nat.min n (k + s)) p' /\
    getProbabilities m numLabels p' = concat (map (fun i => f (prefix (Nat.min n (k + s)) i)) (seq 0 (fmRows m))).
Proof.
  intros HP (E1 & E2 & Hk & LM & HC). destruct (examples_facts o HP) as (ND & HF & HI).
  unfold applyNextProbabilities, itDiff. rewrite E1, E2. cbn [itIndex rlMakeIter]. rewrite advance by auto. set (j := Nat.min n (k + s)).
  destruct (incremental_loop k j o ltac:(unfold j; lia) (ppMemory p) ND HF LM) as (mem & -> & L & C1 & C2).
  - intros e He. destruct (in_dec Nat.eq_dec e o) as [_|Hn]; [auto|exfalso; auto].
  - intros e He Hn. exfalso. auto.
  - eexists. split; [reflexivity|]. split.
    + split; [reflexivity|]. split; [reflexivity|]. split; [unfold j; lia|]. split; [exact L|exact C1].
    + unfold getProbabilities. cbn [ppMemory]. apply cells_concat; [rewrite skipn_length; lia|]. intros e He. apply cells_skipn. auto.
Qed.

Lemma run_probabilities steps : forall k p, Forall (fun step => Permutation (snd step) (seq 0 (fmRows m))) steps -> probability_inv k p ->
  exists results, applyAllProbabilities add junk (Some apply) m numLabels steps p = Some results /\ length results = length steps /\
    forall q, q < length steps -> nth_error results q =
      Some (concat (map (fun i => f (prefix (Nat.min n (k + list_sum (map fst (firstn (S q) steps)))) i)) (seq 0 (fmRows m)))).
Proof.
  induction steps as [|(s, o) steps IH]; intros k p HO HI.
  - exists []. split; [reflexivity|]. split; [reflexivity|]. simpl. intros; lia.
  - inversion HO; subst. cbn [applyAllProbabilities]. destruct (next_probabilities k s o p ltac:(auto) HI) as (p' & -> & HI' & EP).
    destruct (IH _ p' ltac:(auto) HI') as (results & -> & LR & HR). eexists. split; [reflexivity|]. split; [simpl; auto|].
    intros [|q] Hq.
    + cbn [nth_error firstn map list_sum fold_right fst]. rewrite EP. do 2 f_equal. apply map_ext. intros i. do 2 f_equal. lia.
    + simpl length in Hq. cbn [nth_error]. rewrite HR by lia. do 2 f_equal. apply map_ext. intros i. do 2 f_equal.
      cbn [firstn map list_sum fold_right fst]. change (fold_right Nat.add 0) with list_sum. lia.
Qed.

End Model.

Lemma probability_batch :
  forall (add : Q -> Q -> Q) (junk : fval) (m : featureMatrix) (l : ruleList (rule Q))
    (numLabels maxRules : nat) (row : nat -> list fval) (scores : nat -> list Q) (f : list Q -> list Q)
    (apply : nat -> nat -> list Q -> option (list Q)) (order : list nat),
    rlNumUsed l <= rlGetNumRules l -> (N.of_nat (rlGetNumRules l) < 2 ^ 32)%N ->
    (forall i, i < fmRows m -> example_row m i (row i) /\
       score_of add (fun r => coversDense (row i) (fst r))
         (expected_order (rlDefault l) (rlRules l) (rlPrecedence l) (limitRules maxRules (rlGetNumUsed l)))
         (repeat 0%Q numLabels) = Some (scores i)) ->
    writes_probabilities numLabels f apply -> Permutation order (seq 0 (fmRows m)) ->
    predictProbabilities add junk (Some apply) m l numLabels maxRules order = Some (concat (map (fun i => f (scores i)) (seq 0 (fmRows m)))).
Proof.
  intros add junk m l numLabels maxRules row scores f apply order HU H32 HS HW HP.
  assert (HE : forall i, i < fmRows m -> example_row m i (row i) /\
     exists s, score_of add (fun r => coversDense (row i) (fst r))
       (expected_order (rlDefault l) (rlRules l) (rlPrecedence l) (limitRules maxRules (rlGetNumUsed l))) (repeat 0%Q numLabels) = Some s).
  { intros i Hi. destruct (HS i Hi). eauto. }
  rewrite (predict_probabilities add junk m l numLabels maxRules row HU H32 HE f apply HW) by auto. do 2 f_equal. apply map_ext_in.
  intros i Hi. apply in_seq in Hi. destruct (HS i ltac:(lia)) as (_ & E).
  pose proof (prefix_ok add 0%Q m l numLabels maxRules row HE (limitRules maxRules (rlGetNumUsed l)) i ltac:(lia)) as E'.
  rewrite firstn_all2 in E' by (rewrite (model_order l maxRules HU); lia). f_equal. congruence.
Qed.

Lemma probability_incremental :
  forall (add : Q -> Q -> Q) (junk : fval) (m : featureMatrix) (l : ruleList (rule Q))
    (numLabels maxRules : nat) (row : nat -> list fval) (scores : nat -> nat -> list Q) (f : list Q -> list Q)
    (apply : nat -> nat -> list Q -> option (list Q)) (steps : list (nat * list nat)) (uninitialized : list Q),
    rlNumUsed l <= rlGetNumRules l -> (N.of_nat (rlGetNumRules l) < 2 ^ 32)%N ->
    (forall i, i < fmRows m -> example_row m i (row i) /\ forall k,
       score_of add (fun r => coversDense (row i) (fst r))
         (firstn k (expected_order (rlDefault l) (rlRules l) (rlPrecedence l) (limitRules maxRules (rlGetNumUsed l))))
         (repeat 0%Q numLabels) = Some (scores k i)) ->
    writes_probabilities numLabels f apply -> Forall (fun step => Permutation (snd step) (seq 0 (fmRows m))) steps ->
    length uninitialized = fmRows m * numLabels ->
    exists results, applyAllProbabilities add junk (Some apply) m numLabels steps
        (createProbabilityPredictor (Some apply) m l numLabels maxRules uninitialized) = Some results /\
      length results = length steps /\
      forall q, q < length steps -> nth_error results q =
        Some (concat (map (fun i => f (scores (list_sum (map fst (firstn (S q) steps))) i)) (seq 0 (fmRows m)))).
Proof.
  intros add junk m l numLabels maxRules row scores f apply steps uninitialized HU H32 HS HW HO HM.
  set (n := limitRules maxRules (rlGetNumUsed l)) in *.
  set (order := expected_order (rlDefault l) (rlRules l) (rlPrecedence l) n) in *.
  assert (HE : forall i, i < fmRows m -> example_row m i (row i) /\
     exists s, score_of add (fun r => coversDense (row i) (fst r)) order (repeat 0%Q numLabels) = Some s).
  { intros i Hi. destruct (HS i Hi) as (HX & HY). split; [auto|]. exists (scores n i). specialize (HY n).
    rewrite firstn_all2 in HY by (pose proof (model_order l maxRules HU) as E; fold n in E; fold order in E; lia). exact HY. }
  assert (ES : forall k i, i < fmRows m -> scores k i = prefix_scores add 0%Q l numLabels maxRules row k i).
  { intros k i Hi. destruct (HS i Hi) as (_ & E). specialize (E k). pose proof (prefix_ok add 0%Q m l numLabels maxRules row HE k i Hi) as E'.
    fold n in E'. fold order in E'. congruence. }
  destruct (run_probabilities add junk m l numLabels maxRules row HU H32 HE f apply HW steps 0
      (createProbabilityPredictor (Some apply) m l numLabels maxRules uninitialized) HO) as (results & E & L & HR).
  - split; [reflexivity|]. split; [reflexivity|]. split; [lia|]. cbn [createProbabilityPredictor ppMemory].
    split; [rewrite app_length, repeat_length; lia|]. intros e He. apply (zero_cells add m l numLabels maxRules row HU H32 HE). auto.
  - exists results. split; [exact E|]. split; [exact L|]. intros q Hq. rewrite HR by auto. do 2 f_equal. apply map_ext_in.
    intros i Hi. apply in_seq in Hi. rewrite ES by lia. rewrite min_prefix by assumption. reflexivity.
Qed.

Lemma probability_none :
  forall (add : Q -> Q -> Q) (junk : fval) (m : featureMatrix) (l : ruleList (rule Q)) (numLabels maxRules : nat) (order : list nat)
    (steps : list (nat * list nat)) (uninitialized : list Q), length uninitialized = fmRows m * numLabels ->
    predictProbabilities add junk None m l numLabels maxRules order = Some (repeat 0%Q (fmRows m * numLabels)) /\
    applyAllProbabilities add junk None m numLabels steps (createProbabilityPredictor (T := unit) None m l numLabels maxRules uninitialized) =
      Some (repeat (repeat 0%Q (fmRows m * numLabels)) (length steps)).
Proof.
  intros add junk m l numLabels maxRules order steps uninitialized HL. split; [reflexivity|].
  unfold createProbabilityPredictor. generalize (rlUsedBegin l maxRules) as it. generalize (rlUsedEnd l maxRules) as stop.
  intros stop. induction steps as [|(s, o) steps IH]; intros it; [reflexivity|]. cbn [applyAllProbabilities applyNextProbabilities].
  rewrite IH. unfold getProbabilities. cbn [ppMemory]. rewrite <- HL at 1. rewrite skipn_app, skipn_all, Nat.sub_diag. reflexivity.
Qed.
