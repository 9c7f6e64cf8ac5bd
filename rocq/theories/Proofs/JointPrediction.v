(** Proofs about predictions that are based on known label vectors. *)
From Coq Require Import QArith List Bool Arith Permutation Sorted Lia Lqa.
From Verif Require Import Lib.Arr Model.Containers Model.Labels Model.JointPrediction Spec.Stopping Spec.Containers Spec.BoostNonDecomposable Spec.JointPrediction.
From Verif Require Proofs.Containers Proofs.Labels.
From Verif Require Import Proofs.Pruning Proofs.BoostBinning Proofs.BoostNonDecomposable.
From Verif Require Proofs.BoostEvaluation.
Import ListNotations.
Open Scope Q_scope.

Notation aget_nth := BoostEvaluation.aget_nth.

(** ** Iterators *)
Definition bi_at (lv : list nat) (j : nat) : bsparse_it := Nat.iter j bi_incr (bi_create lv 0).

Lemma bi_at_S lv j : bi_incr (bi_at lv j) = bi_at lv (S j). Proof. reflexivity. Qed.

Lemma bi_read_nth n : forall it j, (j < n)%nat -> nth j (bi_read n it) false = bi_deref (Nat.iter j bi_incr it).
Proof.
  induction n; intros it j Hj; [lia|]. simpl. destruct j as [|j]; [reflexivity|].
  rewrite IHn by lia. f_equal. clear. induction j; simpl; auto. f_equal. exact IHj.
Qed.

Lemma bi_at_relevant lv j : StronglySorted lt lv -> bi_deref (bi_at lv j) = relevant lv j.
Proof.
  intros HS. unfold bi_at. rewrite <- (bi_read_nth (S j)) by lia.
  unfold bi_create. rewrite (Labels.bi_read_gen (S j) lv 0).
  - rewrite nth_indep with (d' := existsb (Nat.eqb 0) lv) by (rewrite map_length, seq_length; lia).
    rewrite (map_nth (fun p => existsb (Nat.eqb p) lv) (seq 0 (S j)) 0%nat j). rewrite seq_nth by lia. reflexivity.
  - auto.
  - rewrite Forall_forall. intros; lia.
  - destruct lv; auto.
Qed.

Lemma relevant_spec lv l : relevant lv l = true <-> In l lv.
Proof.
  unfold relevant. rewrite existsb_exists. split.
  - intros (x & Hx & E). apply Nat.eqb_eq in E. subst. auto.
  - intros H. exists l. split; [auto|apply Nat.eqb_refl].
Qed.

Lemma relevant_app a b l : relevant (a ++ b) l = relevant a l || relevant b l.
Proof. unfold relevant. apply existsb_app. Qed.

(** ** Chain rule *)
Lemma productQ_ext n f g : (forall i, (i < n)%nat -> f i == g i) -> productQ n f == productQ n g.
Proof. induction n; intros H; simpl; [reflexivity|]. rewrite IHn by (intros; apply H; lia). rewrite H by lia. reflexivity. Qed.

Lemma productQ_bounds n f : (forall i, (i < n)%nat -> 0 <= f i <= 1) -> 0 <= productQ n f <= 1.
Proof.
  induction n; intros H; simpl; [lra|]. assert (A : 0 <= productQ n f <= 1) by (apply IHn; intros; apply H; lia).
  specialize (H n ltac:(lia)). split; [apply Qmult_le_0_compat; lra|]. nra.
Qed.

Definition factor {S} (marginal : nat -> S -> Q) (zero : S) (scores : list S) (lv : list nat) (i : nat) : Q :=
  if relevant lv i then marginal i (nth i scores zero) else 1 - marginal i (nth i scores zero).

Lemma chainRule_form {S} (zero : S) marginal calibrate index lv scores : StronglySorted lt lv ->
  chainRule marginal calibrate index lv scores = Some (calibrate index (productQ (length scores) (factor marginal zero scores lv))).
Proof.
  intros HS. unfold chainRule.
  match goal with |- context[forN ?m ?s ?f ?z] => destruct (forN_inv (fun j (st : Q * bsparse_it) =>
    fst st = productQ j (factor marginal zero scores lv) /\ snd st = bi_at lv j) f m s z) as ((p, it) & E & P & I) end.
  - split; reflexivity.
  - intros j (p, it) Hj (EP & EI). cbn [fst snd] in EP, EI. subst p it. rewrite (aget_nth scores j zero) by lia. rewrite bi_at_relevant by auto.
    eexists. split; [reflexivity|]. cbn [fst snd]. split; [|reflexivity]. simpl. f_equal. unfold factor. destruct (relevant lv j); reflexivity.
  - cbn [fst snd] in *. rewrite E. simpl in P. rewrite P. reflexivity.
Qed.

Lemma chainRuleSparse_form {S} (zero : S) marginal calibrate index lv (row : sset S) m n : StronglySorted lt lv -> Containers.ss_inv n m row ->
  chainRuleSparse zero marginal calibrate index lv row n =
    chainRule marginal calibrate index lv (map (fun i => match m i with Some v => v | None => zero end) (seq 0 n)).
Proof.
  intros HS (I1 & I2 & I3 & I4 & I5). unfold chainRuleSparse, chainRule. rewrite map_length, seq_length.
  erewrite forN_ext; [reflexivity|]. intros i [p it] Hi. cbv beta iota.
  assert (Ei : aget (map (fun i => match m i with Some v => v | None => zero end) (seq 0 n)) i = Some (match m i with Some v => v | None => zero end)).
  { unfold aget. rewrite nth_error_map, (nth_error_nth' _ 0%nat) by (rewrite seq_length; lia). rewrite seq_nth by lia. reflexivity. }
  rewrite Ei. unfold ss_get. destruct (m i) as [v|] eqn:M.
  - destruct (I4 i v ltac:(lia) M) as (j & E1 & E2). unfold aget. rewrite E1, E2. reflexivity.
  - unfold aget. rewrite (I3 i ltac:(lia) M). reflexivity.
Qed.

(** All label vectors. *)
Lemma SS_snoc_bound lv n : StronglySorted lt lv -> Forall (fun l => (l < n)%nat) lv -> StronglySorted lt (lv ++ [n]).
Proof. intros HS HF. apply BoostEvaluation.SS_snoc; auto. Qed.

Lemma all_sorted n : forall lv, In lv (allLabelVectors n) -> StronglySorted lt lv /\ Forall (fun l => (l < n)%nat) lv.
Proof.
  induction n; simpl; intros lv H.
  - destruct H as [<-|[]]. split; constructor.
  - apply in_app_iff in H as [H|H].
    + destruct (IHn lv H) as (A & B). split; [auto|]. eapply Forall_impl; [|exact B]. intros; simpl in *; lia.
    + apply in_map_iff in H as (y & <- & H). destruct (IHn y H) as (A & B). split; [apply SS_snoc_bound; auto|].
      apply Forall_app. split; [|repeat constructor]. eapply Forall_impl; [|exact B]. intros; simpl in *; lia.
Qed.

Lemma all_complete n : forall lv, StronglySorted lt lv -> Forall (fun l => (l < n)%nat) lv -> In lv (allLabelVectors n).
Proof.
  induction n; simpl; intros lv HS HF.
  - destruct lv; [auto|]. inversion HF; lia.
  - apply in_app_iff. destruct lv as [|a lv] using rev_ind; [left; apply IHn; auto|]. clear IHlv.
    apply Forall_app in HF as (F1 & F2). apply Forall_inv in F2. cbv beta in F2.
    assert (HS' : StronglySorted lt lv /\ Forall (fun l => (l < a)%nat) lv).
    { clear -HS. induction lv; simpl in *; [split; constructor|]. inversion HS; subst. destruct (IHlv H1) as (A & B).
      apply Forall_app in H2 as (C & D). apply Forall_inv in D. split; [constructor; auto|constructor; auto]. }
    destruct HS' as (S1 & S2). destruct (Nat.eq_dec a n) as [->|Ne].
    + right. apply in_map_iff. exists lv. split; [reflexivity|]. apply IHn; auto.
    + left. apply IHn; [auto|]. apply Forall_app. split; [|repeat constructor; lia]. eapply Forall_impl; [|exact S2]. intros; simpl in *; lia.
Qed.

Lemma all_NoDup n : NoDup (allLabelVectors n).
Proof.
  induction n; simpl; [repeat constructor; auto|]. 
  assert (G : forall l1 l2 : list (list nat), NoDup l1 -> NoDup l2 -> (forall x, In x l1 -> ~ In x l2) -> NoDup (l1 ++ l2)).
  { induction l1; simpl; intros l2 H1 H2 H; auto. inversion H1; subst. constructor.
    - rewrite in_app_iff. intros [|C]; [auto|]. apply (H a); auto.
    - apply IHl1; auto. }
  apply G; auto.
  - apply FinFun.Injective_map_NoDup; [|auto]. intros a b E. apply app_inj_tail in E. tauto.
  - intros x Hx Hm. apply in_map_iff in Hm as (y & <- & _). apply all_sorted in Hx as (_ & HF). apply Forall_app in HF as (_ & F). apply Forall_inv in F. lia.
Qed.

Lemma relevant_bound n lv : Forall (fun l => (l < n)%nat) lv -> relevant lv n = false.
Proof.
  intros H. destruct (relevant lv n) eqn:E; auto. apply relevant_spec in E. rewrite Forall_forall in H. specialize (H n E). lia.
Qed.

Lemma Qsum_map_scale {A} (f : A -> Q) c l : Qsum (map (fun a => f a * c) l) == Qsum (map f l) * c.
Proof. induction l; cbn [map]; [unfold Qsum; simpl; ring|]. rewrite !Qsum_cons, IHl. ring. Qed.

Lemma chain_sum (p : nat -> Q) n : Qsum (map (fun lv => productQ n (fun i => if relevant lv i then p i else 1 - p i)) (allLabelVectors n)) == 1.
Proof.
  induction n; [reflexivity|]. simpl allLabelVectors. rewrite map_app, Qsum_app, map_map. simpl productQ.
  rewrite (Qsum_map_eq _ (fun lv => productQ n (fun i => if relevant lv i then p i else 1 - p i) * (1 - p n)) (allLabelVectors n)).
  2: { intros lv H. rewrite relevant_bound by (apply all_sorted; auto). reflexivity. }
  rewrite (Qsum_map_eq (fun x => productQ n (fun i => if relevant (x ++ [n]) i then p i else 1 - p i) * (if relevant (x ++ [n]) n then p n else 1 - p n))
    (fun lv => productQ n (fun i => if relevant lv i then p i else 1 - p i) * p n) (allLabelVectors n)).
  2: { intros lv H. rewrite relevant_app. unfold relevant at 3. simpl. rewrite Nat.eqb_refl, orb_true_r.
       apply Qmult_comp; [|reflexivity]. apply productQ_ext. intros i Hi. rewrite relevant_app. unfold relevant at 2. simpl.
       destruct (Nat.eqb_spec i n); [lia|]. rewrite orb_false_r. reflexivity. }
  rewrite !Qsum_map_scale, IHn. ring.
Qed.

Lemma chain_rule :
  forall (S : Type) (zero : S) (marginal : nat -> S -> Q) (calibrate : nat -> Q -> Q) (scores : list S),
    let n := length scores in
    let joint lv := productQ n (fun i => if relevant lv i then marginal i (nth i scores zero) else 1 - marginal i (nth i scores zero)) in
    (forall index lv, StronglySorted lt lv -> chainRule marginal calibrate index lv scores = Some (calibrate index (joint lv))) /\
    Qsum (map joint (allLabelVectors n)) == 1 /\
    ((forall i s, 0 <= marginal i s <= 1) -> forall lv, 0 <= joint lv <= 1) /\
    NoDup (allLabelVectors n) /\
    (forall lv, In lv (allLabelVectors n) <-> StronglySorted lt lv /\ Forall (fun l => (l < n)%nat) lv).
Proof.
  intros S zero marginal calibrate scores n joint. split; [|split; [|split; [|split]]].
  - intros index lv HS. apply (chainRule_form zero); auto.
  - apply (chain_sum (fun i => marginal i (nth i scores zero))).
  - intros HM lv. apply productQ_bounds. intros i _. specialize (HM i (nth i scores zero)). destruct (relevant lv i); lra.
  - apply all_NoDup.
  - intros lv. split; [apply all_sorted|]. intros (A & B). apply all_complete; auto.
Qed.

Lemma chain_rule_sparse :
  forall (S : Type) (zero : S) (marginal : nat -> S -> Q) (calibrate : nat -> Q -> Q) index lv n ops row,
    StronglySorted lt lv -> Forall (ss_op_in_range n) ops -> ss_run (ss_empty S n) ops = Some row ->
    exists scores, length scores = n /\
      chainRuleSparse zero marginal calibrate index lv row n = chainRule marginal calibrate index lv scores /\
      (forall i, (i < n)%nat -> ss_get row i = Some (Some (i, nth i scores zero)) \/ ss_get row i = Some None /\ nth i scores zero = zero).
Proof.
  intros S zero marginal calibrate index lv n ops row HS HO HR.
  destruct (Containers.ss_run_inv n ops _ _ (Containers.ss_empty_inv S n) HO) as (row' & E & I). rewrite HR in E. injection E as <-.
  match type of I with Containers.ss_inv _ ?m _ => set (mm := m) in * end.
  exists (map (fun i => match mm i with Some v => v | None => zero end) (seq 0 n)). split; [rewrite map_length, seq_length; auto|]. split.
  - apply chainRuleSparse_form; auto.
  - intros i Hi. destruct I as (I1 & I2 & I3 & I4 & I5).
    assert (En : nth i (map (fun i => match mm i with Some v => v | None => zero end) (seq 0 n)) zero = match mm i with Some v => v | None => zero end).
    { rewrite nth_indep with (d' := match mm 0%nat with Some v => v | None => zero end) by (rewrite map_length, seq_length; auto).
      rewrite (map_nth (fun i => match mm i with Some v => v | None => zero end)). rewrite seq_nth by auto. reflexivity. }
    rewrite En. unfold ss_get. destruct (mm i) as [v|] eqn:M.
    + left. destruct (I4 i v Hi M) as (j & E1 & E2). unfold aget. rewrite E1, E2. reflexivity.
    + right. unfold aget. rewrite (I3 i Hi M). auto.
Qed.

(** ** Normalisation *)
Lemma nth_upd_Q (l : list Q) i j v : (i < length l)%nat -> nth j (upd l i v) 0 = if (i =? j)%nat then v else nth j l 0.
Proof.
  revert i j. induction l as [|a l IH]; intros i j H; simpl in *; [lia|]. destruct i as [|i]; simpl.
  - destruct j; reflexivity.
  - destruct j as [|j]; simpl; auto. apply IH. lia.
Qed.

Lemma divideOrZero_form a b : divideOrZero a b == if Qeq_bool b 0 then 0 else a / b.
Proof. unfold divideOrZero. reflexivity. Qed.

Lemma normalisation :
  forall (joint : nat -> list nat -> option Q) (p : nat -> Q) labelVectors memory,
    length memory = length labelVectors ->
    (forall i lv, nth_error labelVectors i = Some lv -> joint i lv = Some (p i)) -> (forall i, (i < length labelVectors)%nat -> 0 <= p i) ->
    exists probabilities, transformScoresIntoJointProbabilities joint labelVectors memory = Some probabilities /\
      length probabilities = length labelVectors /\
      (forall i, (i < length labelVectors)%nat -> 0 <= nth i probabilities 0) /\
      ((exists i, (i < length labelVectors)%nat /\ 0 < p i) ->
         Qsum probabilities == 1 /\
         forall i j, (i < length labelVectors)%nat -> (j < length labelVectors)%nat ->
           nth i probabilities 0 * p j == nth j probabilities 0 * p i) /\
      ((forall i, (i < length labelVectors)%nat -> p i == 0) -> forall i, (i < length labelVectors)%nat -> nth i probabilities 0 == 0).
Proof.
  intros joint p lvs memory LM HJ HP. unfold transformScoresIntoJointProbabilities. set (n := length lvs) in *.
  match goal with |- context[forN n 0 ?f (memory, 0)] => destruct (forN_inv (fun j (st : list Q * Q) =>
    length (fst st) = n /\ snd st == sumQ j p /\ (forall i, (i < j)%nat -> nth i (fst st) 0 = p i)) f n 0 (memory, 0)) as ((ps, s) & E & L & ES & V) end.
  { cbn [fst snd]. split; [auto|]. split; [reflexivity|]. intros; lia. }
  { intros j (ps, s) Hj (L & ES & V). cbn [fst snd] in *.
    destruct (nth_error lvs j) as [lv|] eqn:El; [|apply nth_error_None in El; fold n in El; lia].
    unfold aget at 1. rewrite El. rewrite (HJ j lv El). rewrite aset_Some by lia. eexists. split; [reflexivity|]. cbn [fst snd]. rewrite upd_length.
    split; [auto|]. split; [rewrite sumQ_S, ES; reflexivity|]. intros i Hi. rewrite nth_upd_Q by lia. destruct (Nat.eqb_spec j i) as [->|]; auto. apply V. lia. }
  cbn [fst snd] in *. rewrite E. clear E. simpl in ES, V.
  match goal with |- context[forN n 0 ?f ps] => destruct (forN_inv (fun j (q : list Q) =>
    length q = n /\ (forall i, (i < j)%nat -> nth i q 0 = divideOrZero (p i) s) /\ (forall i, (j <= i < n)%nat -> nth i q 0 = p i)) f n 0 ps) as (q & E2 & L2 & V2 & _) end.
  { split; [auto|]. split; [intros; lia|]. intros i Hi. apply V. lia. }
  { intros j q Hj (L2 & V2 & W2). rewrite (aget_nth q j 0) by lia. rewrite aset_Some by lia. eexists. split; [reflexivity|]. rewrite upd_length. split; [auto|]. split.
    - intros i Hi. rewrite nth_upd_Q by lia. destruct (Nat.eqb_spec j i) as [->|]; [rewrite W2 by lia; auto|]. apply V2. lia.
    - intros i Hi. rewrite nth_upd_Q by lia. destruct (Nat.eqb_spec j i); [lia|]. apply W2. lia. }
  simpl in V2. rewrite E2. exists q. split; [reflexivity|]. split; [auto|].
  assert (SP : 0 <= s).
  { rewrite ES. rewrite <- (sumQ_zero n (fun _ => 0)) by (intros; reflexivity). apply sumQ_le. intros; apply HP; auto. }
  assert (EQ : Qsum q == sumQ n (fun i => divideOrZero (p i) s)).
  { unfold sumQ. replace q with (map (fun i => nth i q 0) (seq 0 n)) at 1.
    - apply Qsum_map_eq. intros i Hi. apply in_seq in Hi. rewrite V2 by lia. reflexivity.
    - rewrite <- L2. clear. induction q as [|a q IH] using rev_ind; [reflexivity|]. rewrite app_length. simpl. rewrite Nat.add_1_r, seq_S, map_app. simpl. f_equal.
      + etransitivity; [|exact IH]. apply map_ext_in. intros i Hi. apply in_seq in Hi. apply app_nth1. lia.
      + rewrite app_nth2, Nat.sub_diag by lia. reflexivity. }
  split; [|split].
  - intros i Hi. rewrite V2 by auto. unfold divideOrZero. destruct (Qeq_bool s 0) eqn:Z; [lra|]. apply Qeq_bool_neq in Z.
    specialize (HP i Hi). apply Qle_shift_div_l; [lra|]. rewrite Qmult_0_l. auto.
  - intros (i0 & Hi0 & Pi0).
    assert (SP' : 0 < s).
    { rewrite ES. assert (G : sumQ n (fun i => if (i =? i0)%nat then p i else 0) <= sumQ n p).
      { apply sumQ_le. intros i Hi. destruct (i =? i0)%nat; [lra|auto]. }
      rewrite sumQ_pick in G by auto. lra. }
    assert (Z : Qeq_bool s 0 = false). { destruct (Qeq_bool s 0) eqn:Z; auto. apply Qeq_bool_iff in Z. lra. }
    split.
    + rewrite EQ. rewrite (sumQ_ext n _ (fun i => (/ s) * p i)).
      * rewrite sumQ_scale, <- ES. field. lra.
      * intros i Hi. unfold divideOrZero. rewrite Z. field. lra.
    + intros i j Hi Hj. rewrite !V2 by auto. unfold divideOrZero. rewrite Z. field. lra.
  - intros HZ i Hi. rewrite V2 by auto. unfold divideOrZero. destruct (Qeq_bool s 0) eqn:Z; [reflexivity|]. rewrite HZ by auto. apply Qeq_bool_neq in Z. field. auto.
Qed.

(** ** Marginalisation *)
Lemma nth_firstn_S {A} (l : list A) j x : nth_error l j = Some x -> firstn (S j) l = firstn j l ++ [x].
Proof. revert j. induction l as [|q l IH]; intros [|j] E; simpl in *; try discriminate; [congruence|]. f_equal. apply IH; auto. Qed.

Lemma combine_firstn_S {A B} (a : list A) (b : list B) j x y : nth_error a j = Some x -> nth_error b j = Some y ->
  combine (firstn (S j) a) (firstn (S j) b) = combine (firstn j a) (firstn j b) ++ [(x, y)].
Proof.
  revert b j. induction a as [|u a IH]; intros [|v b] [|j] Ea Eb; cbn [nth_error] in *; try discriminate;
    [injection Ea as <-; injection Eb as <-; reflexivity|].
  rewrite !firstn_cons. cbn [combine app]. f_equal. rewrite <- IH; auto.
Qed.

Definition mass (lvs : list (list nat)) (ps : list Q) (l : nat) : Q :=
  Qsum (map (fun '(lv, p) => if relevant lv l then p else 0) (combine lvs ps)).

Lemma Qsum_snoc l x : Qsum (l ++ [x]) == Qsum l + x.
Proof. rewrite Qsum_app, Qsum_cons. unfold Qsum at 2. simpl. ring. Qed.

Lemma relevant_snoc_notin l a lab : ~ In a l -> relevant (l ++ [a]) lab = relevant l lab || (lab =? a)%nat.
Proof. intros _. rewrite relevant_app. unfold relevant at 2. simpl. rewrite orb_false_r. reflexivity. Qed.

Lemma NoDup_firstn_notin {A} (l : list A) j x : NoDup l -> nth_error l j = Some x -> ~ In x (firstn j l).
Proof.
  revert j. induction l as [|a l IH]; intros [|j] ND E; simpl in *; try discriminate; auto.
  inversion ND; subst. intros [->|C]; [apply H1; eapply nth_error_In; eauto|]. revert C. apply IH; auto.
Qed.

Lemma marginalize_inner (lv : list nat) p n probabilities : NoDup lv -> Forall (fun l => (l < n)%nat) lv -> length probabilities = n ->
  exists probabilities', forN (length lv) 0 (fun j probabilities =>
      let* labelIndex := aget lv j in
      let* probability := aget probabilities labelIndex in
      aset probabilities labelIndex (probability + p)) probabilities = Some probabilities' /\ length probabilities' = n /\
    (forall l, (l < n)%nat -> nth l probabilities' 0 == nth l probabilities 0 + (if relevant lv l then p else 0)).
Proof.
  intros ND HF L.
  match goal with |- context[forN ?m ?s ?f ?z] => destruct (forN_inv (fun j (q : list Q) => length q = n /\
    (forall l, (l < n)%nat -> nth l q 0 == nth l probabilities 0 + (if relevant (firstn j lv) l then p else 0))) f m s z) as (q & E & Lq & V) end.
  - split; [auto|]. intros l Hl. simpl. ring.
  - intros j q Hj (Lq & V). destruct (nth_error lv j) as [a|] eqn:Ea; [|apply nth_error_None in Ea; lia].
    assert (Ha : (a < n)%nat) by (rewrite Forall_forall in HF; apply HF; eapply nth_error_In; eauto).
    unfold aget at 1. rewrite Ea. rewrite (aget_nth q a 0) by lia. rewrite aset_Some by lia. eexists. split; [reflexivity|]. rewrite upd_length. split; [auto|].
    intros l Hl. rewrite nth_upd_Q by lia. rewrite (nth_firstn_S lv j a Ea).
    pose proof (NoDup_firstn_notin lv j a ND Ea) as NI. rewrite relevant_snoc_notin by auto.
    destruct (Nat.eqb_spec a l) as [->|Ne].
    + rewrite V by auto. destruct (relevant (firstn j lv) l) eqn:R; [apply relevant_spec in R; contradiction|]. rewrite Nat.eqb_refl. simpl. ring.
    + rewrite V by auto. destruct (Nat.eqb_spec l a); [congruence|]. rewrite orb_false_r. reflexivity.
  - simpl in V. rewrite firstn_all in V. exists q. auto.
Qed.

Lemma SS_NoDup' lv : StronglySorted lt lv -> NoDup lv. Proof. apply SS_NoDup. Qed.

Lemma marginal_probabilities :
  forall labelVectors jointProbabilities numLabels,
    Forall (fun lv => NoDup lv /\ Forall (fun l => (l < numLabels)%nat) lv) labelVectors -> length jointProbabilities = length labelVectors ->
    exists probabilities, marginalize labelVectors jointProbabilities numLabels = Some probabilities /\ length probabilities = numLabels /\
      (forall l, (l < numLabels)%nat ->
         nth l probabilities 0 == expectation labelVectors jointProbabilities (fun lv => if relevant lv l then 1 else 0)) /\
      (Forall (fun p => 0 <= p) jointProbabilities -> Qsum jointProbabilities <= 1 -> Forall (fun p => 0 <= p <= 1) probabilities).
Proof.
  intros lvs ps n HF LP.
  assert (G : exists q, marginalize lvs ps n = Some q /\ length q = n /\ forall l, (l < n)%nat -> nth l q 0 == mass lvs ps l).
  { unfold marginalize.
    match goal with |- context[forN ?m ?s ?f ?z] => destruct (forN_inv (fun j (q : list Q) => length q = n /\
      (forall l, (l < n)%nat -> nth l q 0 == mass (firstn j lvs) (firstn j ps) l)) f m s z) as (q & E & Lq & V) end.
    - split; [apply repeat_length|]. intros l Hl. rewrite nth_repeat. reflexivity.
    - intros j q Hj (Lq & V). destruct (nth_error lvs j) as [lv|] eqn:El; [|apply nth_error_None in El; lia].
      destruct (nth_error ps j) as [p|] eqn:Ep; [|apply nth_error_None in Ep; lia].
      assert (A : NoDup lv /\ Forall (fun l => (l < n)%nat) lv) by (rewrite Forall_forall in HF; apply HF; eapply nth_error_In; eauto).
      destruct A as (ND & B). unfold aget at 1. rewrite El. unfold aget at 1. rewrite Ep.
      destruct (marginalize_inner lv p n q ND B Lq) as (q' & E' & L' & V'). exists q'. split; [exact E'|]. split; [auto|].
      intros l Hl. rewrite V' by auto. rewrite V by auto. unfold mass. rewrite (combine_firstn_S lvs ps j lv p El Ep), map_app, Qsum_app.
      cbn [map]. rewrite Qsum_cons. unfold Qsum at 3. simpl. ring.
    - simpl in V. rewrite firstn_all in V. rewrite <- LP, firstn_all in V. exists q. auto. }
  destruct G as (q & E & L & V). exists q. split; [auto|]. split; [auto|]. split.
  - intros l Hl. rewrite V by auto. unfold mass, expectation. apply Qsum_map_eq. intros (lv, p) _. destruct (relevant lv l); ring.
  - intros NN S1. rewrite Forall_forall. intros x Hx. destruct (In_nth q x 0 Hx) as (l & Hl & <-). rewrite L in Hl. rewrite V by auto.
    assert (B : forall lvs ps, length ps = length lvs -> Forall (fun p => 0 <= p) ps -> 0 <= mass lvs ps l <= Qsum ps).
    { clear. induction lvs as [|lv lvs IH]; intros [|p ps] LL NN; try discriminate.
      - unfold mass, Qsum. simpl. lra.
      - simpl in LL. injection LL as LL. inversion NN; subst. destruct (IH ps LL H2) as (A & B). unfold mass in *. simpl combine. cbn [map].
        rewrite !Qsum_cons. destruct (relevant lv l); lra. }
    specialize (B lvs ps LP NN). lra.
Qed.

(** ** Closest label vector *)
Lemma closest_form (distance : nat -> list nat -> option Q) (d : nat -> Q) lvs freqs :
  lvs <> [] -> length freqs = length lvs -> (forall i lv, nth_error lvs i = Some lv -> distance i lv = Some (d i)) ->
  exists i lv, getClosestLabelVector distance lvs freqs = Some lv /\ nth_error lvs i = Some lv /\
    (forall j, (j < length lvs)%nat -> d i <= d j) /\
    (forall j, (j < length lvs)%nat -> d j == d i -> (nth j freqs 0 <= nth i freqs 0)%nat) /\
    (forall j, (j < i)%nat -> d j == d i -> (nth j freqs 0 < nth i freqs 0)%nat).
Proof.
  intros NE LF HD. destruct lvs as [|y0 lvs0] eqn:EL; [congruence|]. rewrite <- EL in *.
  assert (E0 : nth_error lvs 0 = Some y0) by (rewrite EL; reflexivity).
  assert (L0 : (0 < length lvs)%nat) by (rewrite EL; simpl; lia). clear NE.
  unfold getClosestLabelVector. unfold aget at 1. rewrite E0.
  rewrite (aget_nth freqs 0 0%nat) by lia. rewrite (HD 0%nat y0 E0).
  match goal with |- context[forN ?m ?s ?f ?z] => destruct (forN_inv (fun b (st : list nat * nat * Q) =>
    exists i, (i < b)%nat /\ nth_error lvs i = Some (fst (fst st)) /\ snd (fst st) = nth i freqs 0%nat /\ snd st = d i /\
      (forall j, (j < b)%nat -> d i <= d j) /\ (forall j, (j < b)%nat -> d j == d i -> (nth j freqs 0 <= nth i freqs 0)%nat) /\
      (forall j, (j < i)%nat -> d j == d i -> (nth j freqs 0 < nth i freqs 0)%nat)) f m s z) as (((y, fr), md) & E & i & Hi & A1 & A2 & A3 & A4 & A5 & A6) end.
  - exists 0%nat. cbn [fst snd]. split; [lia|]. split; [auto|]. split; [auto|]. split; [auto|]. split; [|split].
    + intros j Hj. assert (j = 0)%nat as -> by lia. lra.
    + intros j Hj _. assert (j = 0)%nat as -> by lia. lia.
    + intros j Hj. lia.
  - intros j ((y, fr), md) Hj (i & Hi & A1 & A2 & A3 & A4 & A5 & A6). cbn [fst snd] in *. subst fr md.
    destruct (nth_error lvs j) as [lv|] eqn:Ej; [|apply nth_error_None in Ej; lia]. unfold aget at 1. rewrite Ej.
    rewrite (aget_nth freqs j 0%nat) by lia. rewrite (HD j lv Ej). eexists. split; [reflexivity|].
    destruct (Qle_bool (d i) (d j)) eqn:C1; cbn [negb orb].
    + apply Qle_bool_iff in C1. destruct (Qeq_bool (d j) (d i)) eqn:C2; cbn [andb].
      * apply Qeq_bool_iff in C2. destruct (Nat.ltb_spec (nth i freqs 0%nat) (nth j freqs 0%nat)) as [C3|C3].
        -- exists j. cbn [fst snd]. split; [lia|]. split; [auto|]. split; [auto|]. split; [auto|]. split; [|split].
           ++ intros j' Hj'. destruct (Nat.eq_dec j' j) as [->|]; [lra|]. rewrite C2. apply A4. lia.
           ++ intros j' Hj' E. destruct (Nat.eq_dec j' j) as [->|]; [lia|]. rewrite C2 in E. specialize (A5 j' ltac:(lia) E). lia.
           ++ intros j' Hj' E. rewrite C2 in E. specialize (A5 j' ltac:(lia) E). lia.
        -- exists i. cbn [fst snd]. split; [lia|]. split; [auto|]. split; [auto|]. split; [auto|]. split; [|split].
           ++ intros j' Hj'. destruct (Nat.eq_dec j' j) as [->|]; [lra|]. apply A4. lia.
           ++ intros j' Hj' E. destruct (Nat.eq_dec j' j) as [->|]; [lia|]. apply A5; [lia|auto].
           ++ auto.
      * apply Qeq_bool_neq in C2. exists i. cbn [fst snd]. split; [lia|]. split; [auto|]. split; [auto|]. split; [auto|]. split; [|split].
        -- intros j' Hj'. destruct (Nat.eq_dec j' j) as [->|]; [lra|]. apply A4. lia.
        -- intros j' Hj' E. destruct (Nat.eq_dec j' j) as [->|]; [contradiction|]. apply A5; [lia|auto].
        -- auto.
    + assert (C1' : d j < d i). { apply Qnot_le_lt. intros C. apply Qle_bool_iff in C. congruence. }
      exists j. cbn [fst snd]. split; [lia|]. split; [auto|]. split; [auto|]. split; [auto|]. split; [|split].
      * intros j' Hj'. destruct (Nat.eq_dec j' j) as [->|]; [lra|]. specialize (A4 j' ltac:(lia)). lra.
      * intros j' Hj' E. destruct (Nat.eq_dec j' j) as [->|]; [lia|]. specialize (A4 j' ltac:(lia)). lra.
      * intros j' Hj' E. specialize (A4 j' ltac:(lia)). lra.
  - cbn [fst snd] in *. rewrite E. exists i, y. split; [reflexivity|]. split; [auto|].
    replace (1 + (length lvs - 1))%nat with (length lvs) in * by lia. auto.
Qed.

Lemma dense_fill lv (prediction : list bool) : StronglySorted lt lv ->
  exists it, forN (length prediction) 0 (fun i '(prediction, labelIterator) =>
    let* prediction := aset prediction i (bi_deref labelIterator) in
    Some (prediction, bi_incr labelIterator)) (prediction, bi_create lv 0) = Some (map (relevant lv) (seq 0 (length prediction)), it).
Proof.
  intros HS.
  match goal with |- context[forN ?m ?s ?f ?z] => destruct (forN_inv (fun j (st : list bool * bsparse_it) =>
    length (fst st) = length prediction /\ snd st = bi_at lv j /\ forall i, (i < j)%nat -> nth_error (fst st) i = Some (relevant lv i)) f m s z) as ((q, it) & E & L & I & V) end.
  - cbn [fst snd]. split; [auto|]. split; [auto|]. intros; lia.
  - intros j (q, it) Hj (L & I & V). cbn [fst snd] in *. subst it. rewrite bi_at_relevant by auto. rewrite aset_Some by lia.
    eexists. split; [reflexivity|]. cbn [fst snd]. rewrite upd_length. split; [auto|]. split; [auto|]. intros i Hi.
    destruct (Nat.eq_dec i j) as [->|N]; [apply nth_error_upd_eq; lia|]. rewrite nth_error_upd_neq by auto. apply V. lia.
  - exists it. rewrite E. f_equal. f_equal. cbn [fst snd] in *. simpl in V.
    apply nth_error_ext. intros i. destruct (lt_dec i (length prediction)) as [Hi|Hi].
    + rewrite V by auto. rewrite nth_error_map, (nth_error_nth' _ 0%nat) by (rewrite seq_length; auto). rewrite seq_nth by auto. reflexivity.
    + rewrite !(proj2 (nth_error_None _ _)); auto; [rewrite map_length, seq_length; lia|lia].
Qed.

Lemma copy_list {A} (l : list A) : forN (length l) 0 (fun i row => let* x := aget l i in Some (row ++ [x])) [] = Some l.
Proof.
  match goal with |- forN ?m ?s ?f ?z = _ => destruct (forN_inv (fun j (row : list A) => row = firstn j l) f m s z) as (q & E & V) end.
  - reflexivity.
  - intros j row Hj ->. destruct (nth_error l j) as [x|] eqn:Ej; [|apply nth_error_None in Ej; lia]. unfold aget. rewrite Ej.
    eexists. split; [reflexivity|]. symmetry. apply nth_firstn_S. auto.
  - simpl in V. rewrite firstn_all in V. subst. exact E.
Qed.

Lemma closest_label_vector :
  forall (distance : nat -> list nat -> option Q) (d : nat -> Q) labelVectors frequencies,
    labelVectors <> [] -> length frequencies = length labelVectors -> Forall (StronglySorted lt) labelVectors ->
    (forall i lv, nth_error labelVectors i = Some lv -> distance i lv = Some (d i)) ->
    exists i lv, nth_error labelVectors i = Some lv /\
      (forall j, (j < length labelVectors)%nat -> d i <= d j) /\
      (forall j, (j < length labelVectors)%nat -> d j == d i -> (nth j frequencies 0 <= nth i frequencies 0)%nat) /\
      (forall j, (j < i)%nat -> d j == d i -> (nth j frequencies 0 < nth i frequencies 0)%nat) /\
      (forall prediction, predictExampleWise distance labelVectors frequencies prediction =
         Some (map (relevant lv) (seq 0 (length prediction)))) /\
      predictExampleWiseSparse distance labelVectors frequencies = Some lv.
Proof.
  intros distance d lvs freqs NE LF HS HD. destruct (closest_form distance d lvs freqs NE LF HD) as (i & lv & E & A1 & A2 & A3 & A4).
  exists i, lv. split; [auto|]. split; [auto|]. split; [auto|]. split; [auto|]. split.
  - intros prediction. unfold predictExampleWise. rewrite E. destruct (dense_fill lv prediction) as (it & ->); [|reflexivity].
    rewrite Forall_forall in HS. apply HS. eapply nth_error_In; eauto.
  - unfold predictExampleWiseSparse. rewrite E. apply copy_list.
Qed.

Lemma most_probable_label_vector :
  forall (joint : nat -> list nat -> option Q) (p : nat -> Q) labelVectors frequencies,
    labelVectors <> [] -> length frequencies = length labelVectors ->
    (forall i lv, nth_error labelVectors i = Some lv -> joint i lv = Some (p i)) ->
    exists i lv, getClosestLabelVector (measureDistance joint) labelVectors frequencies = Some lv /\
      nth_error labelVectors i = Some lv /\ (forall j, (j < length labelVectors)%nat -> p j <= p i).
Proof.
  intros joint p lvs freqs NE LF HJ.
  destruct (closest_form (measureDistance joint) (fun i => 1 - p i) lvs freqs NE LF) as (i & lv & E & A1 & A2 & _).
  - intros i lv H. unfold measureDistance. rewrite (HJ i lv H). reflexivity.
  - exists i, lv. split; [auto|]. split; [auto|]. intros j Hj. specialize (A2 j Hj). cbv beta in A2. lra.
Qed.

(** ** General F-measure maximiser *)
Definition weigh (c : nat -> Q) (row : sset Q) : Q := Qsum (map (fun e => c (fst e) * snd e) (ss_values row)).

Lemma Qsum_map_upd {A} (g : A -> Q) l : forall j x y, nth_error l j = Some x -> Qsum (map g (upd l j y)) == Qsum (map g l) - g x + g y.
Proof.
  induction l as [|a l IH]; intros [|j] x y E; simpl in E; try discriminate.
  - injection E as ->. simpl upd. cbn [map]. rewrite !Qsum_cons. ring.
  - simpl upd. cbn [map]. rewrite !Qsum_cons, (IH j x y E). ring.
Qed.

Lemma add_to_row n m row idx p : Containers.ss_inv n m row -> (idx < n)%nat ->
  exists row1 row2 m', ss_emplace row idx 0 = Some row1 /\ ss_update row1 idx (fun value => value + p) = Some row2 /\
    Containers.ss_inv n m' row2 /\ forall c, weigh c row2 == weigh c row + c idx * p.
Proof.
  intros HI Hi.
  destruct (Containers.ss_step_inv n m row (SsEmplace idx 0) HI Hi) as (row1 & E1 & I1). simpl ss_step in E1.
  destruct (Containers.ss_step_inv n _ row1 (SsUpdate idx (fun value => value + p)) I1 Hi) as (row2 & E2 & I2). simpl ss_step in E2.
  exists row1, row2, (fm_step (fm_step m (SsEmplace idx 0)) (SsUpdate idx (fun value => value + p))). split; [auto|]. split; [auto|]. split; [exact I2|].
  intros c. assert (W1 : weigh c row1 == weigh c row).
  { unfold ss_emplace in E1. destruct (aget (ss_indices row) idx) as [[i|]|] eqn:A; try discriminate.
    - destruct (aget (ss_values row) i); [|discriminate]. injection E1 as <-. reflexivity.
    - destruct (aset (ss_indices row) idx (Some (length (ss_values row)))); [|discriminate]. injection E1 as <-. unfold weigh. simpl ss_values.
      rewrite map_app, Qsum_app. cbn [map fst snd]. rewrite Qsum_cons. unfold Qsum at 2. simpl. ring. }
  rewrite <- W1. destruct I1 as (J1 & J2 & J3 & J4 & J5).
  assert (M1 : exists v, fm_step m (SsEmplace idx 0) idx = Some v). { simpl. rewrite Nat.eqb_refl. destruct (m idx); eauto. }
  destruct M1 as (v & M1). destruct (J4 idx v Hi M1) as (j & K1 & K2).
  unfold ss_update, aget in E2. rewrite K1, K2 in E2. assert (Hj : (j < length (ss_values row1))%nat) by (apply nth_error_Some; congruence).
  rewrite aset_Some in E2 by auto. injection E2 as <-. unfold weigh. simpl ss_values.
  rewrite (Qsum_map_upd _ _ j (idx, v)) by auto. cbn [fst snd]. ring.
Qed.

Definition share (lvs : list (list nat)) (ps : list Q) (c : nat -> Q) (l : nat) : Q :=
  Qsum (map (fun '(lv, p) => if relevant lv l then c (length lv - 1)%nat * p else 0) (combine lvs ps)).
Definition nullMass (lvs : list (list nat)) (ps : list Q) : Q :=
  Qsum (map (fun '(lv, p) => if (length lv =? 0)%nat then p else 0) (combine lvs ps)).

Definition rowOk (n : nat) (row : sset Q) (f : (nat -> Q) -> Q) : Prop :=
  (exists m, Containers.ss_inv n m row) /\ forall c, weigh c row == f c.

Lemma add_label_vector numLabels card rows lv p (f : nat -> (nat -> Q) -> Q) :
  NoDup lv -> Forall (fun l => (l < numLabels)%nat) lv -> (0 < length lv <= card)%nat -> length rows = numLabels ->
  (forall l row, nth_error rows l = Some row -> rowOk card row (f l)) ->
  exists rows', forN (length lv) 0 (fun j probabilities =>
        let* labelIndex := aget lv j in
        let* row := aget probabilities labelIndex in
        let* row := ss_emplace row (length lv - 1) 0 in
        let* row := ss_update row (length lv - 1) (fun value => value + p) in
        aset probabilities labelIndex row) rows = Some rows' /\ length rows' = numLabels /\
    (forall l row, nth_error rows' l = Some row -> rowOk card row (fun c => f l c + (if relevant lv l then c (length lv - 1)%nat * p else 0))).
Proof.
  intros ND HF HL LR HR.
  match goal with |- context[forN ?m ?s ?g ?z] => destruct (forN_inv (fun j (q : list (sset Q)) => length q = numLabels /\
    (forall l row, nth_error q l = Some row -> rowOk card row (fun c => f l c + (if relevant (firstn j lv) l then c (length lv - 1)%nat * p else 0)))) g m s z) as (q & E & Lq & V) end.
  - split; [auto|]. intros l row Hl. destruct (HR l row Hl) as (A & B). split; [auto|]. intros c. rewrite (B c). simpl. ring.
  - intros j q Hj (Lq & V). destruct (nth_error lv j) as [a|] eqn:Ea; [|apply nth_error_None in Ea; lia].
    assert (Ha : (a < numLabels)%nat) by (rewrite Forall_forall in HF; apply HF; eapply nth_error_In; eauto).
    unfold aget at 1. rewrite Ea. destruct (nth_error q a) as [row|] eqn:Er; [|apply nth_error_None in Er; lia]. unfold aget at 1. rewrite Er.
    destruct (V a row Er) as ((m & I) & W).
    destruct (add_to_row card m row (length lv - 1) p I ltac:(lia)) as (row1 & row2 & m' & E1 & E2 & I2 & W2).
    rewrite E1, E2. rewrite aset_Some by lia. eexists. split; [reflexivity|]. rewrite upd_length. split; [auto|].
    pose proof (NoDup_firstn_notin lv j a ND Ea) as NI.
    intros l row' Hl. rewrite (nth_firstn_S lv j a Ea). rewrite relevant_snoc_notin by auto.
    destruct (Nat.eq_dec l a) as [->|N].
    + rewrite nth_error_upd_eq in Hl by lia. injection Hl as <-. split; [eauto|]. intros c. rewrite W2, (W c).
      destruct (relevant (firstn j lv) a) eqn:R; [apply relevant_spec in R; contradiction|]. rewrite Nat.eqb_refl. simpl. ring.
    + rewrite nth_error_upd_neq in Hl by auto. destruct (Nat.eqb_spec l a); [congruence|]. rewrite orb_false_r. apply V. auto.
  - simpl in V. rewrite firstn_all in V. exists q. auto.
Qed.

Lemma marginalised rows lvs ps numLabels card :
  NoDup lvs -> Forall (fun lv => NoDup lv /\ Forall (fun l => (l < numLabels)%nat) lv) lvs -> Forall (fun lv => (length lv <= card)%nat) lvs ->
  length ps = length lvs -> rows = repeat (ss_empty Q card) numLabels ->
  exists rows' null, calculateMarginalizedProbabilities rows ps lvs = Some (rows', null) /\ length rows' = numLabels /\
    null == nullMass lvs ps /\ forall l row, nth_error rows' l = Some row -> rowOk card row (fun c => share lvs ps c l).
Proof.
  intros ND HF HC LP ER. unfold calculateMarginalizedProbabilities.
  match goal with |- context[forN ?m ?s ?f ?z] => destruct (forN_inv (fun j (st : list (sset Q) * Q) => length (fst st) = numLabels /\
    snd st == nullMass (firstn j lvs) (firstn j ps) /\
    (forall l row, nth_error (fst st) l = Some row -> rowOk card row (fun c => share (firstn j lvs) (firstn j ps) c l))) f m s z) as ((q, null) & E & Lq & N & V) end.
  - cbn [fst snd]. subst rows. split; [apply repeat_length|]. split; [reflexivity|]. intros l row Hl. apply nth_error_In, repeat_spec in Hl. subst row.
    split; [exists (fun _ => None); apply Containers.ss_empty_inv|]. intros c. reflexivity.
  - intros j (q, null) Hj (Lq & N & V). cbn [fst snd] in *.
    destruct (nth_error lvs j) as [lv|] eqn:El; [|apply nth_error_None in El; lia].
    destruct (nth_error ps j) as [p|] eqn:Ep; [|apply nth_error_None in Ep; lia].
    assert (A : NoDup lv /\ Forall (fun l => (l < numLabels)%nat) lv) by (rewrite Forall_forall in HF; apply HF; eapply nth_error_In; eauto).
    assert (B : (length lv <= card)%nat) by (rewrite Forall_forall in HC; apply HC; eapply nth_error_In; eauto).
    destruct A as (A1 & A2). unfold aget at 1. rewrite El. unfold aget at 1. rewrite Ep.
    assert (SN : forall c l, share (firstn (S j) lvs) (firstn (S j) ps) c l ==
        share (firstn j lvs) (firstn j ps) c l + (if relevant lv l then c (length lv - 1)%nat * p else 0)).
    { intros c l. unfold share. rewrite (combine_firstn_S lvs ps j lv p El Ep), map_app. cbn [map]. rewrite Qsum_snoc. reflexivity. }
    assert (NN : nullMass (firstn (S j) lvs) (firstn (S j) ps) == nullMass (firstn j lvs) (firstn j ps) + (if (length lv =? 0)%nat then p else 0)).
    { unfold nullMass. rewrite (combine_firstn_S lvs ps j lv p El Ep), map_app. cbn [map]. rewrite Qsum_snoc. reflexivity. }
    destruct (Nat.ltb_spec 0 (length lv)) as [HL|HL].
    + destruct (add_label_vector numLabels card q lv p _ A1 A2 ltac:(lia) Lq V) as (q' & E' & L' & V'). rewrite E'.
      eexists. split; [reflexivity|]. cbn [fst snd]. split; [auto|]. split.
      * rewrite NN, N. destruct (Nat.eqb_spec (length lv) 0); [lia|]. ring.
      * intros l row Hl. destruct (V' l row Hl) as (C & D). split; [auto|]. intros c. rewrite SN. apply D.
    + assert (lv = []) as -> by (destruct lv; [auto|simpl in HL; lia]). eexists. split; [reflexivity|]. cbn [fst snd]. split; [auto|]. split.
      * rewrite NN. simpl. pose proof (NoDup_firstn_notin lvs j [] ND El) as NI.
        assert (Z : nullMass (firstn j lvs) (firstn j ps) == 0).
        { unfold nullMass. rewrite (Qsum_map_eq _ (fun _ => 0)).
          - clear. induction (combine (firstn j lvs) (firstn j ps)); [reflexivity|]. cbn [map]. rewrite Qsum_cons, IHl. ring.
          - intros (y, x) Hin. apply in_combine_l in Hin. destruct y; [contradiction|reflexivity]. }
        rewrite Z. ring.
      * intros l row Hl. destruct (V l row Hl) as (C & D). split; [auto|]. intros c. rewrite (D c), SN. simpl. ring.
  - cbn [fst snd] in *. simpl in V, N. rewrite firstn_all in V, N. rewrite <- LP, firstn_all in V, N. exists q, null. auto.
Qed.

Lemma max_cardinality lvs : exists card, getMaxLabelCardinality lvs = Some card /\ Forall (fun lv => (length lv <= card)%nat) lvs.
Proof.
  unfold getMaxLabelCardinality.
  match goal with |- context[forN ?m ?s ?f ?z] => destruct (forN_inv (fun j c => Forall (fun lv : list nat => (length lv <= c)%nat) (firstn j lvs)) f m s z) as (c & E & V) end.
  - constructor.
  - intros j c Hj V. destruct (nth_error lvs j) as [lv|] eqn:El; [|apply nth_error_None in El; lia]. unfold aget. rewrite El. eexists. split; [reflexivity|].
    rewrite (nth_firstn_S lvs j lv El). apply Forall_app. destruct (Nat.ltb_spec c (length lv)); split; try (repeat constructor; lia); auto.
    eapply Forall_impl; [|exact V]. intros; simpl in *; lia.
  - simpl in V. rewrite firstn_all in V. eauto.
Qed.

(** The gain of predicting a label as one out of [k] labels. *)
Definition gain (lvs : list (list nat)) (ps : list Q) (k l : nat) : Q :=
  share lvs ps (fun i => 2 / inject_Z (Z.of_nat (i + k + 1))) l.

Lemma inject_nat_pos n : (0 < n)%nat -> 0 < inject_Z (Z.of_nat n).
Proof. intros H. unfold Qlt. simpl. lia. Qed.

Lemma fill_entries rows lvs ps numLabels card k entries : length rows = numLabels -> length entries = numLabels ->
  (forall l row, nth_error rows l = Some row -> rowOk card row (fun c => share lvs ps c l)) ->
  exists g entries', forN numLabels 0 (fun i entries =>
    let* row := aget rows i in
    let* weightedProbability := forL (ss_values row) (fun indexedValue weightedProbability =>
      Some (weightedProbability + 2 * snd indexedValue / inject_Z (Z.of_nat (fst indexedValue + k + 1)))) 0 in
    aset entries i (i, weightedProbability)) entries = Some entries' /\ entries' = map (fun i => (i, g i)) (seq 0 numLabels) /\
    forall l, (l < numLabels)%nat -> g l == gain lvs ps k l.
Proof.
  intros LR LE HR.
  match goal with |- context[forN ?m ?s ?f ?z] => destruct (forN_inv (fun j (q : list (nat * Q)) => length q = numLabels /\
    (forall l, (l < j)%nat -> exists v, nth_error q l = Some (l, v) /\ v == gain lvs ps k l)) f m s z) as (q & E & Lq & V) end.
  - split; [auto|]. intros; lia.
  - intros j q Hj (Lq & V). destruct (nth_error rows j) as [row|] eqn:Er; [|apply nth_error_None in Er; lia]. unfold aget. rewrite Er.
    destruct (HR j row Er) as (_ & W).
    assert (F : forall l a, exists v, forL l (fun (indexedValue : nat * Q) weightedProbability =>
      Some (weightedProbability + 2 * snd indexedValue / inject_Z (Z.of_nat (fst indexedValue + k + 1)))) a = Some v /\
      v == a + Qsum (map (fun e => 2 / inject_Z (Z.of_nat (fst e + k + 1)) * snd e) l)).
    { clear. induction l as [|e l IH]; intros a.
      - exists a. split; [reflexivity|]. unfold Qsum. simpl. ring.
      - destruct (IH (a + 2 * snd e / inject_Z (Z.of_nat (fst e + k + 1)))) as (v & E & V). exists v. split; [exact E|].
        rewrite V. cbn [map]. rewrite Qsum_cons. pose proof (inject_nat_pos (fst e + k + 1) ltac:(lia)). field. lra. }
    destruct (F (ss_values row) 0) as (v & Ev & Vv). rewrite Ev. rewrite aset_Some by lia. eexists. split; [reflexivity|]. rewrite upd_length. split; [auto|].
    intros l Hl. destruct (Nat.eq_dec l j) as [->|N].
    + exists v. split; [apply nth_error_upd_eq; lia|]. rewrite Vv, Qplus_0_l. exact (W (fun i => 2 / inject_Z (Z.of_nat (i + k + 1)))).
    + rewrite nth_error_upd_neq by auto. apply V. lia.
  - simpl in V. exists (fun i => snd (nth i q (0%nat, 0))), q. split; [exact E|]. split.
    + apply nth_error_ext. intros i. destruct (lt_dec i numLabels) as [Hi|Hi].
      * destruct (V i Hi) as (v & A & _). rewrite nth_error_map, (nth_error_nth' (seq 0 numLabels) 0%nat) by (rewrite seq_length; auto).
        rewrite seq_nth by auto. simpl. rewrite (nth_error_nth q i (0%nat, 0) A). exact A.
      * rewrite !(proj2 (nth_error_None _ _)); auto; [rewrite map_length, seq_length; lia|lia].
    + intros l Hl. destruct (V l Hl) as (v & A & B). rewrite (nth_error_nth q l (0%nat, 0) A). exact B.
Qed.

(** Expected F1-measure. *)
Definition countTrue (h : list bool) : nat := length (filter (fun b => b) h).

Lemma countTrue_sum h : inject_Z (Z.of_nat (countTrue h)) == sumQ (length h) (fun l => if nth l h false then 1 else 0).
Proof.
  induction h as [|b h IH] using rev_ind; [reflexivity|]. unfold countTrue in *. rewrite filter_app, !app_length. simpl length at 3. rewrite Nat.add_1_r, sumQ_S.
  rewrite app_nth2, Nat.sub_diag by lia. simpl nth.
  rewrite (sumQ_ext (length h) _ (fun l => if nth l h false then 1 else 0)).
  - rewrite <- IH. rewrite Nat2Z.inj_add, inject_Z_plus. destruct b; simpl filter; simpl length; [change (inject_Z (Z.of_nat 1)) with 1|change (inject_Z (Z.of_nat 0)) with 0]; ring.
  - intros i Hi. rewrite app_nth1 by auto. reflexivity.
Qed.

Lemma true_positives h lv n : NoDup lv -> Forall (fun l => (l < n)%nat) lv ->
  inject_Z (Z.of_nat (length (filter (fun l => nth l h false) lv))) == sumQ n (fun l => if nth l h false then (if relevant lv l then 1 else 0) else 0).
Proof.
  intros ND HF. induction lv as [|a lv IH].
  - simpl. symmetry. apply sumQ_zero. intros i _. destruct (nth i h false); reflexivity.
  - inversion ND; subst. apply Forall_cons_iff in HF as (Ha & HF).
    assert (EX : sumQ n (fun l => if nth l h false then (if relevant (a :: lv) l then 1 else 0) else 0) ==
      sumQ n (fun l => if (l =? a)%nat then (if nth l h false then 1 else 0) else 0) + sumQ n (fun l => if nth l h false then (if relevant lv l then 1 else 0) else 0)).
    { rewrite <- sumQ_plus. apply sumQ_ext. intros l Hl. unfold relevant. simpl. fold (relevant lv l). destruct (Nat.eqb_spec l a) as [->|].
      - destruct (relevant lv a) eqn:R; [apply relevant_spec in R; contradiction|]. simpl. destruct (nth a h false); ring.
      - simpl. ring. }
    rewrite EX, (sumQ_pick n a (fun l => if nth l h false then 1 else 0)) by auto. rewrite <- IH by auto. simpl filter. destruct (nth a h false).
    + simpl length. rewrite Nat2Z.inj_succ. unfold Z.succ. rewrite inject_Z_plus. ring.
    + ring.
Qed.

Lemma expected_f1 lvs ps n h : Forall (fun lv => NoDup lv /\ Forall (fun l => (l < n)%nat) lv) lvs -> length h = n -> (0 < countTrue h)%nat ->
  expectation lvs ps (f1 h) == sumQ n (fun l => if nth l h false then gain lvs ps (countTrue h) l else 0).
Proof.
  intros HF LH HK. unfold expectation, gain, share.
  assert (G : Forall (fun '(lv, _) => NoDup lv /\ Forall (fun l => (l < n)%nat) lv) (combine lvs ps)).
  { rewrite Forall_forall in *. intros (lv, p) H. apply in_combine_l in H. apply HF. auto. }
  induction (combine lvs ps) as [|(lv, p) l IH].
  - simpl. symmetry. apply sumQ_zero. intros i _. destruct (nth i h false); reflexivity.
  - apply Forall_cons_iff in G as (G0 & G'). destruct G0 as (ND & HB). cbn [map]. rewrite Qsum_cons, (IH G'). symmetry. subst n.
    eapply Qeq_trans; [apply (sumQ_ext (length h) _
      (fun l0 => (p * 2 / inject_Z (Z.of_nat (countTrue h + length lv))) * (if nth l0 h false then (if relevant lv l0 then 1 else 0) else 0) +
        (if nth l0 h false then Qsum (map (fun '(lv, p) => if relevant lv l0 then 2 / inject_Z (Z.of_nat (length lv - 1 + countTrue h + 1)) * p else 0) l) else 0)))|].
    + intros i Hi. destruct (nth i h false); [|ring]. rewrite Qsum_cons. destruct (relevant lv i) eqn:R; [|ring].
      apply relevant_spec in R. assert (0 < length lv)%nat by (destruct lv; [contradiction|simpl; lia]).
      replace (length lv - 1 + countTrue h + 1)%nat with (countTrue h + length lv)%nat by lia.
      pose proof (inject_nat_pos (countTrue h + length lv) ltac:(lia)). field. lra.
    + rewrite sumQ_plus, sumQ_scale, <- (true_positives h lv (length h)) by auto. apply Qplus_comp; [|reflexivity].
      unfold f1. fold (countTrue h). destruct (Nat.eqb_spec (countTrue h + length lv) 0); [lia|].
      pose proof (inject_nat_pos (countTrue h + length lv) ltac:(lia)). field. lra.
Qed.

Lemma countTrue_zero h : countTrue h = 0%nat -> forall l, nth l h false = false.
Proof.
  intros H l. destruct (nth l h false) eqn:E; auto. exfalso.
  assert (Hl : (l < length h)%nat). { destruct (lt_dec l (length h)); auto. rewrite nth_overflow in E by lia. discriminate. }
  assert (I : In true (filter (fun b => b) h)). { apply filter_In. split; [rewrite <- E; apply nth_In; auto|auto]. }
  unfold countTrue in H. destruct (filter (fun b => b) h); [contradiction|discriminate].
Qed.

Lemma expected_f1_null lvs ps h : countTrue h = 0%nat -> expectation lvs ps (f1 h) == nullMass lvs ps.
Proof.
  intros HK. unfold expectation, nullMass. apply Qsum_map_eq. intros (lv, p) _. unfold f1. fold (countTrue h). rewrite HK.
  pose proof (countTrue_zero h HK) as Z.
  assert (E : filter (fun l => nth l h false) lv = []). { induction lv as [|a lv IH]; simpl; [auto|]. rewrite Z. auto. }
  rewrite E. destruct lv as [|a lv]; [simpl; ring|]. simpl Nat.eqb. simpl length. change (inject_Z (Z.of_nat 0)) with 0. unfold Qdiv. ring.
Qed.

(** The best [k] labels. *)
Lemma best_k (h : nat -> bool) (l1 l2 : list (nat * Q)) : (0 < length l1)%nat ->
  Forall (fun a => Forall (precedes a) l2) l1 ->
  length (filter (fun e => h (fst e)) (l1 ++ l2)) = length l1 ->
  Qsum (map (fun e => if h (fst e) then snd e else 0) (l1 ++ l2)) <= Qsum (map snd l1).
Proof.
  intros HL HP HC.
  assert (M : forall l : list (nat * Q), (0 < length l)%nat -> exists m, In m l /\ Forall (fun a => snd m <= snd a) l).
  { clear. induction l as [|a l IH]; [simpl; lia|]. intros _. destruct l as [|b l].
    - exists a. split; [left; auto|]. repeat constructor. lra.
    - destruct IH as (m & I & F); [simpl; lia|]. destruct (Qlt_le_dec (snd m) (snd a)) as [C|C].
      + exists m. split; [right; auto|]. constructor; [lra|auto].
      + exists a. split; [left; auto|]. constructor; [lra|]. eapply Forall_impl; [|exact F]. intros x Hx. simpl in *. lra. }
  destruct (M l1 HL) as (m & Im & Fm). set (t := snd m).
  assert (C : forall l, inject_Z (Z.of_nat (length (filter (fun e : nat * Q => h (fst e)) l))) == Qsum (map (fun e => if h (fst e) then 1 else 0) l)).
  { clear. induction l as [|e l IH]; [reflexivity|]. simpl filter. cbn [map]. rewrite Qsum_cons, <- IH. destruct (h (fst e)).
    - simpl length. rewrite Nat2Z.inj_succ. unfold Z.succ. rewrite inject_Z_plus. ring.
    - ring. }
  assert (K : Qsum (map (fun e : nat * Q => if h (fst e) then 1 else 0) (l1 ++ l2)) == Qsum (map (fun _ : nat * Q => 1) l1)).
  { rewrite <- C, HC. clear. induction l1 as [|e l IH]; [reflexivity|]. cbn [map]. rewrite Qsum_cons, <- IH. simpl length. rewrite Nat2Z.inj_succ. unfold Z.succ. rewrite inject_Z_plus. ring. }
  assert (D1 : forall l, Qsum (map (fun e => if h (fst e) then snd e else 0) l) ==
    Qsum (map (fun e => if h (fst e) then snd e - t else 0) l) + Qsum (map (fun e => if h (fst e) then 1 else 0) l) * t).
  { clear. induction l as [|e l IH]; [unfold Qsum; simpl; ring|]. cbn [map]. rewrite !Qsum_cons, IH. destruct (h (fst e)); ring. }
  assert (D2 : forall l, Qsum (map snd l) == Qsum (map (fun e : nat * Q => snd e - t) l) + Qsum (map (fun _ => 1) l) * t).
  { clear. induction l as [|e l IH]; [unfold Qsum; simpl; ring|]. cbn [map]. rewrite !Qsum_cons, IH. ring. }
  rewrite (D1 (l1 ++ l2)), (D2 l1), K.
  assert (A1 : Qsum (map (fun e => if h (fst e) then snd e - t else 0) l1) <= Qsum (map (fun e : nat * Q => snd e - t) l1)).
  { apply BoostEvaluation.Qsum_le_map. intros e He. rewrite Forall_forall in Fm. specialize (Fm e He). cbv beta in Fm. fold t in Fm. destruct (h (fst e)); lra. }
  assert (A2 : Qsum (map (fun e => if h (fst e) then snd e - t else 0) l2) <= Qsum (map (fun _ : nat * Q => 0) l2)).
  { apply BoostEvaluation.Qsum_le_map. intros e He. rewrite Forall_forall in HP. specialize (HP m Im). rewrite Forall_forall in HP. specialize (HP e He). unfold precedes in HP. fold t in HP. destruct (h (fst e)); lra. }
  assert (A3 : Qsum (map (fun _ : nat * Q => 0) l2) == 0). { clear. induction l2; [reflexivity|]. cbn [map]. rewrite Qsum_cons, IHl2. ring. }
  rewrite map_app, Qsum_app. lra.
Qed.

Lemma NoDup_firstn {A} k : forall l : list A, NoDup l -> NoDup (firstn k l).
Proof.
  induction k; intros [|a l] H; cbn [firstn]; try constructor; inversion H; subst; auto.
  intros C. apply H2. rewrite <- (firstn_skipn k l). apply in_app_iff. auto.
Qed.

Lemma Forall_firstn {A} (P : A -> Prop) k : forall l, Forall P l -> Forall P (firstn k l).
Proof. induction k; intros [|a l] H; cbn [firstn]; try constructor; inversion H; subst; auto. Qed.

Lemma nth_error_firstn_lt {A} (l : list A) : forall k i, (i < k)%nat -> nth_error (firstn k l) i = nth_error l i.
Proof. induction l as [|a l IH]; intros [|k] [|i] H; simpl; auto; try lia. apply IH. lia. Qed.

(** The predicted labels. *)
Definition chosen (numLabels : nat) (vector : list (nat * Q)) (k : nat) : list bool :=
  map (fun l => relevant (map fst (firstn k vector)) l) (seq 0 numLabels).

Lemma chosen_nth n v k l : nth l (chosen n v k) false = ((l <? n)%nat && relevant (map fst (firstn k v)) l)%bool.
Proof.
  unfold chosen. destruct (Nat.ltb_spec l n) as [Hl|Hl].
  - set (f := fun l => relevant (map fst (firstn k v)) l). rewrite nth_indep with (d' := f 0%nat) by (rewrite map_length, seq_length; auto).
    rewrite (map_nth f). rewrite seq_nth by auto. reflexivity.
  - rewrite nth_overflow; [reflexivity|]. rewrite map_length, seq_length. lia.
Qed.

Lemma filter_relevant_length n ls : NoDup ls -> Forall (fun l => (l < n)%nat) ls -> length (filter (relevant ls) (seq 0 n)) = length ls.
Proof.
  intros ND HF. apply Nat.le_antisymm.
  - apply NoDup_incl_length; [apply NoDup_filter, seq_NoDup|]. intros x Hx. apply filter_In in Hx as (_ & Hx). apply relevant_spec. auto.
  - apply NoDup_incl_length; [auto|]. intros x Hx. apply filter_In. rewrite Forall_forall in HF. split; [apply in_seq; specialize (HF x Hx); lia|]. apply relevant_spec. auto.
Qed.

Lemma countTrue_map {A} (f : A -> bool) l : countTrue (map f l) = length (filter f l).
Proof. unfold countTrue. induction l as [|a l IH]; simpl; [auto|]. destruct (f a); simpl; auto. Qed.

Lemma filter_map_length {A B} (f : A -> B) p l : length (filter p (map f l)) = length (filter (fun x => p (f x)) l).
Proof. induction l as [|a l IH]; simpl; [auto|]. destruct (p (f a)); simpl; auto. Qed.

Lemma Permutation_filter_length {A} (p : A -> bool) l l' : Permutation l l' -> length (filter p l) = length (filter p l').
Proof. induction 1; simpl; repeat match goal with |- context[p ?z] => destruct (p z) end; simpl; congruence. Qed.

Lemma list_as_map (h : list bool) n : length h = n -> h = map (fun l => nth l h false) (seq 0 n).
Proof.
  intros <-. apply nth_error_ext. intros i. destruct (lt_dec i (length h)) as [Hi|Hi].
  - rewrite nth_error_map, (nth_error_nth' (seq 0 (length h)) 0%nat) by (rewrite seq_length; auto). rewrite seq_nth by auto. simpl. apply nth_error_nth'. auto.
  - rewrite !(proj2 (nth_error_None _ _)); auto; [rewrite map_length, seq_length; lia|lia].
Qed.

Lemma sorted_entries sort (g : nat -> Q) n k :
  (forall k (l : list (nat * Q)), (k <= length l)%nat -> partialSort k l (sort k l)) -> (0 < k <= n)%nat ->
  let after := sort k (map (fun i => (i, g i)) (seq 0 n)) in
  length after = n /\ NoDup (map fst after) /\ Forall (fun l => (l < n)%nat) (map fst after) /\ length (firstn k after) = k /\
  countTrue (chosen n after k) = k /\
  Qsum (map snd (firstn k after)) == sumQ n (fun l => if nth l (chosen n after k) false then g l else 0) /\
  (forall h, length h = n -> countTrue h = k -> sumQ n (fun l => if nth l h false then g l else 0) <= Qsum (map snd (firstn k after))).
Proof.
  intros HS HK after. set (before := map (fun i => (i, g i)) (seq 0 n)) in *.
  assert (LB : length before = n) by (unfold before; rewrite map_length, seq_length; auto).
  destruct (HS k before ltac:(lia)) as (P & _ & F). fold after in P, F.
  assert (FB : map fst before = seq 0 n). { unfold before. rewrite map_map. simpl. apply map_id. }
  assert (LA : length after = n) by (rewrite <- (Permutation_length P); auto).
  assert (PF : Permutation (seq 0 n) (map fst after)) by (rewrite <- FB; apply Permutation_map; auto).
  assert (ND : NoDup (map fst after)) by (eapply Permutation_NoDup; [exact PF|apply seq_NoDup]).
  assert (BD : Forall (fun l => (l < n)%nat) (map fst after)).
  { rewrite Forall_forall. intros x Hx. eapply Permutation_in in Hx; [|apply Permutation_sym; exact PF]. apply in_seq in Hx. lia. }
  assert (LK : length (firstn k after) = k) by (rewrite firstn_length; lia).
  assert (SPL : firstn k after ++ skipn k after = after) by apply firstn_skipn.
  assert (SUM : forall h : nat -> bool, sumQ n (fun l => if h l then g l else 0) == Qsum (map (fun e => if h (fst e) then snd e else 0) (firstn k after ++ skipn k after))).
  { intros h. rewrite SPL. rewrite <- (Qsum_perm _ _ (Permutation_map (fun e => if h (fst e) then snd e else 0) P)). unfold before. rewrite map_map. reflexivity. }
  assert (ND' : NoDup (map fst (firstn k after)) /\ forall x, In x (map fst (firstn k after)) -> ~ In x (map fst (skipn k after))).
  { rewrite <- SPL, map_app in ND. clear -ND. induction (map fst (firstn k after)) as [|a l IH]; simpl in *; [split; [constructor|tauto]|].
    inversion ND; subst. destruct (IH H2) as (A & B). split; [constructor; [|auto]|].
    - intros C. apply H1. apply in_app_iff. auto.
    - intros x [->|Hx]; [|auto]. intros C. apply H1. apply in_app_iff. auto. }
  destruct ND' as (ND1 & ND2).
  assert (BD1 : Forall (fun l => (l < n)%nat) (map fst (firstn k after))).
  { rewrite <- SPL, map_app in BD. apply Forall_app in BD. tauto. }
  split; [auto|]. split; [auto|]. split; [auto|]. split; [auto|]. split; [|split].
  - unfold chosen. rewrite countTrue_map. change (fun l => relevant (map fst (firstn k after)) l) with (relevant (map fst (firstn k after))).
    rewrite filter_relevant_length by auto. rewrite map_length. auto.
  - rewrite (sumQ_ext n _ (fun l => if relevant (map fst (firstn k after)) l then g l else 0)).
    + rewrite SUM, map_app, Qsum_app.
      rewrite (Qsum_map_eq (fun e => if relevant (map fst (firstn k after)) (fst e) then snd e else 0) snd (firstn k after)).
      * rewrite (Qsum_map_eq (fun e => if relevant (map fst (firstn k after)) (fst e) then snd e else 0) (fun _ => 0) (skipn k after)).
        -- assert (A3 : forall l : list (nat * Q), Qsum (map (fun _ => 0) l) == 0). { induction l; [reflexivity|]. cbn [map]. rewrite Qsum_cons, IHl. ring. }
           rewrite A3. ring.
        -- intros e He. destruct (relevant (map fst (firstn k after)) (fst e)) eqn:R; [|reflexivity]. apply relevant_spec in R. exfalso. apply (ND2 _ R). apply in_map. auto.
      * intros e He. assert (R : relevant (map fst (firstn k after)) (fst e) = true) by (apply relevant_spec, in_map; auto). rewrite R. reflexivity.
    + intros l Hl. rewrite chosen_nth. destruct (Nat.ltb_spec l n); [|lia]. reflexivity.
  - intros h LH CH. rewrite (SUM (fun l => nth l h false)). apply (best_k (fun l => nth l h false)); [lia|auto|].
    rewrite SPL, LK, <- CH. rewrite <- (Permutation_filter_length _ _ _ P). unfold before. rewrite filter_map_length. simpl.
    transitivity (countTrue (map (fun l => nth l h false) (seq 0 n))); [rewrite countTrue_map; reflexivity|rewrite <- (list_as_map h n LH); reflexivity].
Qed.

Lemma quality_sum (entries : list (nat * Q)) k : (k <= length entries)%nat ->
  exists q, forN k 0 (fun i quality => let* entry := aget entries i in Some (quality + snd entry)) 0 = Some q /\ q == Qsum (map snd (firstn k entries)).
Proof.
  intros HK.
  match goal with |- context[forN ?m ?s ?f ?z] => destruct (forN_inv (fun j q => q == Qsum (map snd (firstn j entries))) f m s z) as (q & E & V) end.
  - reflexivity.
  - intros j q Hj V. destruct (nth_error entries j) as [e|] eqn:Ee; [|apply nth_error_None in Ee; lia]. unfold aget. rewrite Ee. eexists. split; [reflexivity|].
    rewrite (nth_firstn_S entries j e Ee), map_app, V. cbn [map]. rewrite Qsum_snoc. reflexivity.
  - eauto.
Qed.

Lemma sumQ_gain_ext n (g g' : nat -> Q) (h : list bool) : (forall l, (l < n)%nat -> g l == g' l) ->
  sumQ n (fun l => if nth l h false then g l else 0) == sumQ n (fun l => if nth l h false then g' l else 0).
Proof. intros H. apply sumQ_ext. intros l Hl. destruct (nth l h false); [auto|reflexivity]. Qed.

Lemma predictGfm_optimal sort lvs ps n m1 m2 :
  (forall k (l : list (nat * Q)), (k <= length l)%nat -> partialSort k l (sort k l)) ->
  NoDup lvs -> Forall (fun lv => NoDup lv /\ Forall (fun l => (l < n)%nat) lv) lvs -> length ps = length lvs -> length m1 = n -> length m2 = n ->
  exists best k, predictGfm sort lvs ps n m1 m2 = Some (best, k) /\ (k <= length best)%nat /\
    NoDup (map fst (firstn k best)) /\ Forall (fun l => (l < n)%nat) (map fst (firstn k best)) /\
    forall h, length h = n -> expectation lvs ps (f1 h) <= expectation lvs ps (f1 (chosen n best k)).
Proof.
  intros HS ND HF LP L1 L2. unfold predictGfm. destruct (max_cardinality lvs) as (card & EC & HC). rewrite EC.
  destruct (marginalised _ lvs ps n card ND HF HC LP eq_refl) as (rows & null & EM & LR & EN & HR). rewrite EM.
  match goal with |- context[forN ?m ?s ?f ?z] => destruct (forN_inv (fun j (st : list (nat * Q) * nat * list (nat * Q) * Q) =>
    let '(best, k, tmp, quality) := st in length best = n /\ length tmp = n /\ (k <= n)%nat /\
    NoDup (map fst (firstn k best)) /\ Forall (fun l => (l < n)%nat) (map fst (firstn k best)) /\
    quality == expectation lvs ps (f1 (chosen n best k)) /\
    forall h, length h = n -> (countTrue h <= j)%nat -> expectation lvs ps (f1 h) <= quality) f m s z) as ((((best, k), tmp), quality) & E & A1 & A2 & A3 & A4 & A5 & A6 & A7) end.
  - split; [auto|]. split; [auto|]. split; [lia|]. split; [constructor|]. split; [constructor|]. split.
    + rewrite EN. symmetry. apply expected_f1_null. unfold chosen. rewrite countTrue_map. simpl. unfold relevant. simpl. clear. induction (seq 0 n); auto.
    + intros h LH CH. rewrite EN, expected_f1_null by lia. lra.
  - intros j (((best, k), tmp), quality) Hj (A1 & A2 & A3 & A4 & A5 & A6 & A7).
    unfold createAndEvaluateLabelVector.
    destruct (fill_entries rows lvs ps n card (j + 1) tmp LR A2 HR) as (g & entries & EF & EE & HG). rewrite EF. subst entries.
    destruct (sorted_entries sort g n (j + 1) HS ltac:(lia)) as (B1 & B2 & B3 & B4 & B5 & B6 & B7).
    set (after := sort (j + 1)%nat (map (fun i => (i, g i)) (seq 0 n))) in *.
    destruct (quality_sum after (j + 1) ltac:(lia)) as (q & EQ & VQ). rewrite EQ.
    assert (VE : q == expectation lvs ps (f1 (chosen n after (j + 1)))).
    { rewrite VQ, B6. rewrite (sumQ_gain_ext n g (gain lvs ps (j + 1))) by auto.
      rewrite (expected_f1 lvs ps n); [rewrite B5; reflexivity|auto|unfold chosen; rewrite map_length, seq_length; auto|lia]. }
    assert (VB : forall h, length h = n -> countTrue h = (j + 1)%nat -> expectation lvs ps (f1 h) <= q).
    { intros h LH CH. rewrite VQ. eapply Qle_trans; [|apply (B7 h LH CH)]. rewrite (sumQ_gain_ext n g (gain lvs ps (j + 1))) by auto.
      rewrite (expected_f1 lvs ps n); [rewrite CH; lra|auto|auto|lia]. }
    eexists. split; [reflexivity|]. destruct (Qle_bool q quality) eqn:C; cbn [negb].
    + apply Qle_bool_iff in C. split; [auto|]. split; [auto|]. split; [auto|]. split; [auto|]. split; [auto|]. split; [auto|].
      intros h LH CH. destruct (Nat.eq_dec (countTrue h) (j + 1)) as [Eh|Nh]; [|apply A7; [auto|lia]]. specialize (VB h LH Eh). lra.
    + assert (C' : quality < q). { apply Qnot_le_lt. intros X. apply Qle_bool_iff in X. congruence. }
      split; [auto|]. split; [auto|]. split; [lia|]. split; [|split; [|split; [auto|]]].
      * rewrite <- firstn_map. apply NoDup_firstn. auto.
      * rewrite <- firstn_map. apply Forall_firstn. auto.
      * intros h LH CH. destruct (Nat.eq_dec (countTrue h) (j + 1)) as [Eh|Nh]; [auto|]. specialize (A7 h LH ltac:(lia)). lra.
  - rewrite E. exists best, k. split; [reflexivity|]. split; [lia|]. split; [auto|]. split; [auto|]. intros h LH. rewrite <- A6. apply A7; [auto|].
    simpl. unfold countTrue. rewrite <- LH. clear. induction h as [|[] h IH]; simpl; lia.
Qed.

Lemma store_dense best k n : (k <= length best)%nat -> Forall (fun l => (l < n)%nat) (map fst (firstn k best)) ->
  storePrediction best k n = Some (chosen n best k).
Proof.
  intros HK HF. unfold storePrediction.
  match goal with |- context[forN ?m ?s ?f ?z] => destruct (forN_inv (fun j (q : list bool) => length q = n /\
    forall l, (l < n)%nat -> nth_error q l = Some (relevant (map fst (firstn j best)) l)) f m s z) as (q & E & L & V) end.
  - split; [apply repeat_length|]. intros l Hl. rewrite (nth_error_nth' _ false) by (rewrite repeat_length; auto). rewrite nth_repeat. reflexivity.
  - intros j q Hj (L & V). destruct (nth_error best j) as [e|] eqn:Ee; [|apply nth_error_None in Ee; lia]. unfold aget. rewrite Ee.
    assert (He : (fst e < n)%nat).
    { rewrite Forall_forall in HF. apply HF. apply in_map. apply nth_error_In with (n := j). rewrite <- Ee. apply nth_error_firstn_lt. lia. }
    rewrite aset_Some by lia. eexists. split; [reflexivity|]. rewrite upd_length. split; [auto|]. intros l Hl.
    rewrite (nth_firstn_S best j e Ee), map_app, relevant_app. cbn [map]. unfold relevant at 2. simpl. rewrite orb_false_r.
    destruct (Nat.eqb_spec l (fst e)) as [->|N].
    + rewrite nth_error_upd_eq by lia. rewrite orb_true_r. reflexivity.
    + rewrite nth_error_upd_neq by auto. rewrite orb_false_r. apply V. auto.
  - rewrite E. f_equal. unfold chosen. apply nth_error_ext. intros i. simpl in V. destruct (lt_dec i n) as [Hi|Hi].
    + rewrite V by auto. rewrite nth_error_map, (nth_error_nth' (seq 0 n) 0%nat) by (rewrite seq_length; auto). rewrite seq_nth by auto. reflexivity.
    + rewrite !(proj2 (nth_error_None _ _)); auto; [rewrite map_length, seq_length; lia|lia].
Qed.

Lemma store_sparse sortByIndex best k n : (forall l, sortedByIndex l (sortByIndex l)) -> (k <= length best)%nat ->
  NoDup (map fst (firstn k best)) -> Forall (fun l => (l < n)%nat) (map fst (firstn k best)) ->
  exists row, storePredictionSparse sortByIndex best k = Some row /\ StronglySorted lt row /\
    forall l, In l row <-> nth l (chosen n best k) false = true.
Proof.
  intros HS HK ND HF. unfold storePredictionSparse. destruct (Nat.ltb_spec 0 k) as [C|C].
  - set (sorted := sortByIndex (firstn k best)). destruct (HS (firstn k best)) as (P & SS). fold sorted in P, SS.
    assert (LS : length sorted = k) by (rewrite <- (Permutation_length P), firstn_length; lia).
    exists (map fst sorted). split; [|split].
    + match goal with |- forN ?m ?s ?f ?z = _ => destruct (forN_inv (fun j (row : list nat) => row = firstn j (map fst sorted)) f m s z) as (q & E & V) end.
      * reflexivity.
      * intros j row Hj ->. destruct (nth_error sorted j) as [e|] eqn:Ee; [|apply nth_error_None in Ee; lia]. unfold aget. rewrite Ee. eexists. split; [reflexivity|].
        symmetry. apply nth_firstn_S. rewrite nth_error_map, Ee. reflexivity.
      * simpl in V. rewrite firstn_all2 in V by (rewrite map_length; lia). rewrite <- V. exact E.
    + assert (ND' : NoDup (map fst sorted)) by (eapply Permutation_NoDup; [apply Permutation_map; exact P|auto]).
      clearbody sorted. clear -SS ND'. induction sorted as [|e l IH]; simpl in *; [constructor|]. inversion SS; subst. inversion ND'; subst. constructor; [auto|].
      rewrite Forall_forall in *. intros x Hx. assert (x <> fst e) by congruence. apply in_map_iff in Hx as (e' & <- & Hx). specialize (H2 e' Hx). lia.
    + intros l. rewrite chosen_nth, andb_true_iff, relevant_spec, Nat.ltb_lt. rewrite Forall_forall in HF. split.
      * intros H. assert (H' : In l (map fst (firstn k best))) by (eapply Permutation_in; [apply Permutation_map, Permutation_sym; exact P|auto]). auto.
      * intros (_ & H). eapply Permutation_in; [apply Permutation_map; exact P|auto].
  - assert (k = 0)%nat as -> by lia. exists []. split; [reflexivity|]. split; [constructor|]. intros l. rewrite chosen_nth. simpl. unfold relevant. simpl. rewrite andb_false_r. split; [tauto|discriminate].
Qed.

Lemma gfm_optimal :
  forall sort sortByIndex labelVectors probabilities numLabels memory1 memory2,
    (forall k (l : list (nat * Q)), (k <= length l)%nat -> partialSort k l (sort k l)) -> (forall l, sortedByIndex l (sortByIndex l)) ->
    NoDup labelVectors -> Forall (fun lv => NoDup lv /\ Forall (fun l => (l < numLabels)%nat) lv) labelVectors ->
    length probabilities = length labelVectors -> length memory1 = numLabels -> length memory2 = numLabels ->
    exists prediction row,
      applyGfm sort labelVectors probabilities numLabels memory1 memory2 = Some prediction /\
      applyGfmSparse sort sortByIndex labelVectors probabilities numLabels memory1 memory2 = Some row /\
      length prediction = numLabels /\ StronglySorted lt row /\ (forall l, In l row <-> nth l prediction false = true) /\
      forall other, length other = numLabels ->
        expectation labelVectors probabilities (f1 other) <= expectation labelVectors probabilities (f1 prediction).
Proof.
  intros sort sortByIndex lvs ps n m1 m2 HS HI ND HF LP L1 L2.
  destruct (predictGfm_optimal sort lvs ps n m1 m2 HS ND HF LP L1 L2) as (best & k & E & HK & A & B & C).
  destruct (store_sparse sortByIndex best k n HI HK A B) as (row & R1 & R2 & R3).
  exists (chosen n best k), row. unfold applyGfm, applyGfmSparse. rewrite E. rewrite store_dense by auto. split; [reflexivity|]. split; [auto|].
  split; [unfold chosen; rewrite map_length, seq_length; auto|]. auto.
Qed.
