(** Proofs about the search for conditions: the parts shared by all types of features, nominal and binary features. *)
From Coq Require Import ZArith Arith List Bool Sorted Permutation Lia.
From Verif Require Import Lib.Arr Model.Search Spec.Search.
Import ListNotations.
Open Scope nat_scope.

Lemma existsb_In i l : existsb (Nat.eqb i) l = true <-> In i l.
Proof.
  rewrite existsb_exists. split.
  - intros (x & H & E). apply Nat.eqb_eq in E. subst. auto.
  - intros H. exists i. rewrite Nat.eqb_refl. auto.
Qed.

Lemma NoDup_app_iff {A} (l1 l2 : list A) :
  NoDup (l1 ++ l2) <-> NoDup l1 /\ NoDup l2 /\ forall x, In x l1 -> ~ In x l2.
Proof.
  induction l1 as [|a l1 IH]; simpl.
  - split; [intros H; split; [constructor|]; auto|intros (_ & H & _); auto].
  - rewrite !NoDup_cons_iff, IH, in_app_iff. split.
    + intros (H1 & H2 & H3 & H4). repeat split; auto. intros x [<-|H]; auto.
    + intros ((H1 & H2) & H3 & H4). repeat split; auto.
      intros [H|H]; auto. apply (H4 a); auto.
Qed.

Lemma add_all weight ids s :
  addAllToSubset weight ids s =
  (mkSubset (ssCurrent s ++ filter weight ids) (ssAccumulated s), length (filter weight ids)).
Proof.
  unfold addAllToSubset.
  assert (H: forall ids s u,
    fold_left (fun '(s, numUncovered) i =>
      if weight i then (addToSubset i s, numUncovered) else (s, numUncovered + 1)) ids (s, u) =
    (mkSubset (ssCurrent s ++ filter weight ids) (ssAccumulated s), u + (length ids - length (filter weight ids)))).
  { clear. induction ids as [|i ids IH]; intros s u; simpl.
    - rewrite app_nil_r, Nat.add_0_r. destruct s; auto.
    - change (match length (if weight i then i :: filter weight ids else filter weight ids) with
              | 0 => S (length ids) | S l => length ids - l end)
        with (S (length ids) - length (if weight i then i :: filter weight ids else filter weight ids)).
      assert (L: length (filter weight ids) <= length ids).
      { clear. induction ids; simpl; auto. destruct (weight a); simpl; lia. }
      destruct (weight i); rewrite IH; unfold addToSubset; cbn [ssCurrent ssAccumulated length].
      + rewrite <- app_assoc. reflexivity.
      + f_equal. lia. }
  rewrite H. f_equal.
  assert (L: length (filter weight ids) <= length ids).
  { clear. induction ids; simpl; auto. destruct (weight a); simpl; lia. }
  lia.
Qed.

Section Positions.
Variables (weight : nat -> bool) (bins : list (list nat)).
Hypothesis HND : NoDup (concat bins).

Lemma between_split a b c i : a <= b <= c ->
  (stored_between bins a c i <-> stored_between bins a b i \/ stored_between bins b c i).
Proof.
  intros H. split.
  - intros (p & ids & Hp & E & Hi). destruct (lt_dec p b); [left|right]; exists p, ids; repeat split; auto; lia.
  - intros [(p & ids & Hp & E & Hi)|(p & ids & Hp & E & Hi)]; exists p, ids; repeat split; auto; lia.
Qed.

Lemma between_one a i ids : nth_error bins a = Some ids -> (stored_between bins a (S a) i <-> In i ids).
Proof.
  intros E. split.
  - intros (p & ids' & Hp & E' & Hi). assert (p = a) by lia. subst. congruence.
  - intros H. exists a, ids. repeat split; auto.
Qed.

Lemma between_In a b i : stored_between bins a b i -> In i (concat bins).
Proof. intros (p & ids & Hp & E & Hi). apply in_concat. exists ids. split; auto. eapply nth_error_In; eauto. Qed.

Lemma In_between i : In i (concat bins) -> exists p ids, p < length bins /\ nth_error bins p = Some ids /\ In i ids.
Proof.
  intros H. apply in_concat in H. destruct H as (ids & H & Hi). apply In_nth_error in H. destruct H as (p & E).
  exists p, ids. repeat split; auto. apply nth_error_Some. congruence.
Qed.

Lemma concat_position (l : list (list nat)) : NoDup (concat l) -> forall p q ids ids' i,
  nth_error l p = Some ids -> nth_error l q = Some ids' -> In i ids -> In i ids' -> p = q.
Proof.
  induction l as [|a l IH]; intros ND p q ids ids' i Hp Hq Hi Hi'.
  - destruct p; discriminate.
  - simpl in ND. apply NoDup_app_iff in ND. destruct ND as (N1 & N2 & N3).
    destruct p as [|p], q as [|q]; simpl in Hp, Hq; auto.
    + injection Hp as ->. exfalso. apply (N3 i); auto. apply in_concat. exists ids'. split; auto. eapply nth_error_In; eauto.
    + injection Hq as ->. exfalso. apply (N3 i); auto. apply in_concat. exists ids. split; auto. eapply nth_error_In; eauto.
    + f_equal. eapply IH; eauto.
Qed.

Lemma position p q ids ids' i :
  nth_error bins p = Some ids -> nth_error bins q = Some ids' -> In i ids -> In i ids' -> p = q.
Proof. apply concat_position; auto. Qed.

Lemma between_disjoint a b c d i : b <= c -> stored_between bins a b i -> stored_between bins c d i -> False.
Proof.
  intros H (p & ids & Hp & E & Hi) (q & ids' & Hq & E' & Hi').
  assert (p = q) by (eapply position; eauto). lia.
Qed.

Lemma NoDup_bin (l : list (list nat)) p ids : NoDup (concat l) -> nth_error l p = Some ids -> NoDup ids.
Proof.
  revert p. induction l as [|a l IH]; intros p ND E; [destruct p; discriminate|].
  simpl in ND. apply NoDup_app_iff in ND. destruct ND as (N1 & N2 & N3). destruct p; simpl in E; eauto. congruence.
Qed.

(** The statistics with non-zero weights that are stored at the positions [a], ..., [b - 1]. *)
Definition range (cur : list nat) (a b n : nat) : Prop :=
  NoDup cur /\ n = length cur /\ forall i, In i cur <-> weight i = true /\ stored_between bins a b i.

Lemma range_nil a b : b <= a -> range [] a b 0.
Proof.
  intros H. split; [constructor|split; [reflexivity|]]. intros i. simpl. split; [tauto|].
  intros (_ & p & ids & Hp & _). lia.
Qed.

Lemma range_app c1 c2 a b c n1 n2 : a <= b <= c -> range c1 a b n1 -> range c2 b c n2 -> range (c1 ++ c2) a c (n1 + n2).
Proof.
  intros H (N1 & L1 & I1) (N2 & L2 & I2). split; [|split].
  - apply NoDup_app_iff. repeat split; auto. intros x H1 H2. apply I1 in H1. apply I2 in H2.
    destruct H1 as [_ H1], H2 as [_ H2]. eapply (between_disjoint a b b c); eauto.
  - rewrite app_length. lia.
  - intros i. rewrite in_app_iff, I1, I2, (between_split a b c) by auto. tauto.
Qed.

Lemma range_app' c1 c2 a b c n1 n2 : a <= b <= c -> range c1 b c n1 -> range c2 a b n2 -> range (c1 ++ c2) a c (n1 + n2).
Proof.
  intros H (N1 & L1 & I1) (N2 & L2 & I2). split; [|split].
  - apply NoDup_app_iff. repeat split; auto. intros x H1 H2. apply I1 in H1. apply I2 in H2.
    destruct H1 as [_ H1], H2 as [_ H2]. eapply (between_disjoint a b b c); eauto.
  - rewrite app_length. lia.
  - intros i. rewrite in_app_iff, I1, I2, (between_split a b c) by auto. tauto.
Qed.

Lemma range_one a ids : nth_error bins a = Some ids -> range (filter weight ids) a (S a) (length (filter weight ids)).
Proof.
  intros E. split; [|split; [reflexivity|]].
  - apply NoDup_filter. eapply NoDup_bin; eauto.
  - intros i. rewrite filter_In, (between_one a i ids) by auto. tauto.
Qed.

End Positions.

Section Ranges.
Variables (examples : list nat) (weight : nat -> bool) (value : nat -> Z) (bins : list (list nat)) (minCoverage : nat).
Hypothesis HB : bins_of examples bins.
Local Notation total := (filter weight examples).
Local Notation N := (length (filter weight examples)).

Let HND : NoDup (concat bins) := proj1 (proj2 HB).

Lemma between_examples a b i : stored_between bins a b i -> In i examples.
Proof. intros H. apply between_In in H; auto. pose proof HB as (_ & _ & HI). auto. Qed.

Lemma range_exactly cur a b n t : range weight bins cur a b n ->
  (forall i, In i examples -> (holds t (value i) = true <-> stored_between bins a b i)) ->
  forall s e inv, exactly_scored examples weight value (mkEval cur s e inv n t).
Proof.
  intros (ND & -> & HI) Ht s e inv. split; [|split]; cbn [eScored eTest eCovered]; auto.
  intros i. rewrite HI. split.
  - intros [W B]. assert (In i examples) by (eapply between_examples; eauto). rewrite Ht by auto. tauto.
  - intros (H & W & B). rewrite Ht in B by auto. tauto.
Qed.

Lemma uncovered_exactly cur a b n t : range weight bins cur a b n ->
  (forall i, In i examples -> (holds t (value i) = true <-> ~ stored_between bins a b i)) ->
  forall s e inv, exactly_scored examples weight value (mkEval (uncovered total cur) s e inv (N - n) t).
Proof.
  intros (ND & -> & HI) Ht s e inv. pose proof HB as (NE & _ & _).
  assert (Htot: forall i, In i total <-> In i examples /\ weight i = true) by (intros i; apply filter_In).
  assert (HU: forall i, In i (uncovered total cur) <-> In i total /\ ~ In i cur).
  { intros i. unfold uncovered. rewrite filter_In, negb_true_iff, <- (existsb_In i cur).
    destruct (existsb (Nat.eqb i) cur); split; intros [H1 H2]; split; auto; try discriminate. congruence. }
  split; [|split]; cbn [eScored eTest eCovered]; auto.
  - apply NoDup_filter, NoDup_filter; auto.
  - intros i. rewrite HU, Htot, HI. split.
    + intros ((H & W) & Hn). rewrite Ht by auto. repeat split; auto.
    + intros (H & W & B). rewrite Ht in B by auto. repeat split; auto. tauto.
  - assert (P: Permutation total (cur ++ uncovered total cur)).
    { apply NoDup_Permutation.
      - apply NoDup_filter; auto.
      - apply NoDup_app_iff. repeat split; auto; [apply NoDup_filter, NoDup_filter; auto|].
        intros x H1 H2. apply HU in H2. tauto.
      - intros x. rewrite in_app_iff, HU. split; [|intros [H|[H _]]; auto].
        + intros H. destruct (in_dec Nat.eq_dec x cur); auto.
        + apply Htot. apply HI in H. destruct H as [W B]. split; auto. eapply between_examples; eauto. }
    apply Permutation_length in P. rewrite app_length in P. lia.
Qed.

Lemma scored_support e : NoDup examples -> exactly_scored examples weight value e ->
  eCovered e = support examples weight value (eTest e).
Proof.
  intros NE (ND & HI & ->). unfold support. apply Permutation_length, NoDup_Permutation; auto.
  - apply NoDup_filter; auto.
  - intros i. rewrite HI, filter_In, andb_true_iff. tauto.
Qed.

(** A condition that covers enough examples is evaluated. *)
Definition has (t : test) (l : list evaluated) : Prop :=
  minCoverage <= support examples weight value t -> exists e, In e l /\ eTest e = t.

Definition good (e : evaluated) : Prop := exact examples weight value bins e /\ minCoverage <= eCovered e.

Lemma has_incl t l l' : incl l l' -> has t l -> has t l'.
Proof. intros H Ht Hs. destruct (Ht Hs) as (e & He & E). eauto. Qed.

Lemma consider_spec e l : exact examples weight value bins e -> Forall good l ->
  Forall good (consider minCoverage e l) /\ incl l (consider minCoverage e l) /\ has (eTest e) (consider minCoverage e l).
Proof.
  intros He Hl. unfold consider. destruct (Nat.leb_spec minCoverage (eCovered e)) as [L|L].
  - split; [|split].
    + apply Forall_app. split; auto. constructor; [split; auto|constructor].
    + apply incl_appl, incl_refl.
    + intros _. exists e. split; auto. apply in_app_iff. simpl; auto.
  - split; [auto|split; [apply incl_refl|]]. intros H.
    destruct He as [He _]. rewrite <- scored_support in H; auto; [lia|]. apply HB.
Qed.

Lemma evaluate_spec s a b n t1 t2 l : range weight bins (ssCurrent s) a b n ->
  (forall i, In i examples -> (holds t1 (value i) = true <-> stored_between bins a b i)) ->
  (forall i, In i examples -> holds t2 (value i) = negb (holds t1 (value i))) ->
  Forall good l ->
  let l' := evaluate total N minCoverage s a b n t1 t2 l in
  Forall good l' /\ incl l l' /\ has t1 l' /\ has t2 l'.
Proof.
  intros HR H1 H2 Hl. unfold evaluate. cbv zeta.
  assert (H2': forall i, In i examples -> (holds t2 (value i) = true <-> ~ stored_between bins a b i)).
  { intros i Hi. rewrite H2, negb_true_iff, <- H1 by auto. destruct (holds t1 (value i)); split; congruence. }
  destruct (consider_spec (mkEval (ssCurrent s) a b false n t1) l) as (G1 & I1 & C1); auto.
  { split; [apply range_exactly with (a := a) (b := b); auto|]. intros i Hi. cbn. apply H1; auto. }
  destruct (consider_spec (mkEval (uncovered total (ssCurrent s)) a b true (N - n) t2) _
              ltac:(split; [apply uncovered_exactly with (a := a) (b := b); auto|intros i Hi; cbn; apply H2'; auto]) G1)
    as (G2 & I2 & C2).
  split; [auto|split; [eapply incl_tran; eauto|split; auto]]. eapply has_incl; eauto.
Qed.

Lemma evaluate_accumulated_spec s acc a b n t1 t2 l : ssAccumulated s = Some acc -> range weight bins acc a b n ->
  (forall i, In i examples -> (holds t1 (value i) = true <-> stored_between bins a b i)) ->
  (forall i, In i examples -> holds t2 (value i) = negb (holds t1 (value i))) ->
  Forall good l ->
  exists l', evaluateAccumulated total N minCoverage s a b n t1 t2 l = Some l' /\
    Forall good l' /\ incl l l' /\ has t1 l' /\ has t2 l'.
Proof.
  intros E HR H1 H2 Hl.
  destruct (evaluate_spec (mkSubset acc None) a b n t1 t2 l HR H1 H2 Hl) as (G & I & C1 & C2).
  eexists. split; [|split; [exact G|split; [exact I|split; [exact C1|exact C2]]]].
  unfold evaluateAccumulated, evaluate, consider. cbn [ssCurrent eCovered]. rewrite E.
  destruct (minCoverage <=? n); destruct (minCoverage <=? N - n); reflexivity.
Qed.

End Ranges.

(** ** Nominal features *)

Lemma holds_neq v f : holds (Neq v) f = negb (holds (Eq v) f).
Proof. reflexivity. Qed.

Lemma nominal_eq examples value values bins majority : nominal_vector examples value values bins majority ->
  forall p v, nth_error values p = Some v -> forall i, In i examples ->
  (holds (Eq v) (value i) = true <-> stored_between bins p (S p) i).
Proof.
  intros (HB & HL & ND & HV & HM) p v E i Hi. apply NoDup_cons_iff in ND. destruct ND as (NM & ND). simpl. rewrite Z.eqb_eq. split.
  - intros Ev. destruct (in_dec Nat.eq_dec i (concat bins)) as [Hin|Hin].
    + destruct (In_between bins i Hin) as (q & ids & Hq & Eq & Hids).
      destruct (nth_error values q) as [w|] eqn:Ew; [|apply nth_error_None in Ew; lia].
      assert (value i = w) by eauto. assert (p = q) by (eapply NoDup_nth_error; eauto; [apply nth_error_Some; congruence|congruence]).
      subst q. exists p, ids. repeat split; auto.
    + exfalso. apply NM. rewrite <- (HM i), Ev by auto. eapply nth_error_In; eauto.
  - intros (q & ids & Hq & Eq & Hids). assert (q = p) by lia. subst. eauto.
Qed.

Lemma nominal_majority examples value values bins majority : nominal_vector examples value values bins majority ->
  forall i, In i examples -> (holds (Neq majority) (value i) = true <-> stored_between bins 0 (length values) i).
Proof.
  intros (HB & HL & ND & HV & HM) i Hi. apply NoDup_cons_iff in ND. destruct ND as (NM & ND). simpl. rewrite negb_true_iff, Z.eqb_neq. split.
  - intros Ev. destruct (in_dec Nat.eq_dec i (concat bins)) as [Hin|Hin]; [|exfalso; auto].
    destruct (In_between bins i Hin) as (q & ids & Hq & Eq & Hids). exists q, ids. repeat split; auto; lia.
  - intros (q & ids & Hq & Eq & Hids) Ev. apply NM. rewrite <- Ev.
    destruct (nth_error values q) as [w|] eqn:Ew; [|apply nth_error_None in Ew; lia].
    rewrite (HV _ _ _ _ Eq Ew Hids). eapply nth_error_In; eauto.
Qed.

Lemma nominal_search examples weight value minCoverage values bins majority :
  nominal_vector examples value values bins majority -> values <> [] ->
  exists l, searchNominal weight (filter weight examples) (length (filter weight examples)) minCoverage
              values bins majority = Some l /\
    Forall (good examples weight value bins minCoverage) l /\
    (forall v, In v (majority :: values) ->
       has examples weight value minCoverage (Eq v) l /\ has examples weight value minCoverage (Neq v) l).
Proof.
  intros HV Hne. pose proof HV as (HB & HL & ND & _). unfold searchNominal.
  pose (Inv := fun (j : nat) (st : subset * nat * list evaluated) =>
    let '(s, m, l) := st in
    ssCurrent s = [] /\ (0 < j -> exists acc, ssAccumulated s = Some acc /\ range weight bins acc 0 j m) /\
    (j = 0 -> ssAccumulated s = None /\ m = 0) /\
    Forall (good examples weight value bins minCoverage) l /\
    forall p v, p < j -> nth_error values p = Some v ->
      has examples weight value minCoverage (Eq v) l /\ has examples weight value minCoverage (Neq v) l).
  edestruct (forN_inv Inv) with (cnt := length values) (i := 0) (st := (emptySubset, 0, @nil evaluated))
    as (st' & E & HI); [| |rewrite E].
  - simpl. repeat split; auto; try lia.
  - intros j [[s m] l] Hj (HC & HA & HZ & HG & HH).
    destruct (aget_Some bins j) as (ids & Eb); [lia|]. destruct (aget_Some values j) as (v & Ev); [lia|].
    rewrite Eb, add_all, Ev. rewrite HC. cbn [app].
    destruct (evaluate_spec examples weight value bins minCoverage HB
                (mkSubset (filter weight ids) (ssAccumulated s)) j (j + 1) (length (filter weight ids)) (Eq v) (Neq v) l)
      as (G & I & C1 & C2); auto.
    { cbn [ssCurrent]. rewrite Nat.add_1_r. apply range_one; [apply HB|auto]. }
    { intros i Hi. rewrite Nat.add_1_r. eapply nominal_eq; eauto. }
    eexists. split; [reflexivity|]. simpl. split; [reflexivity|]. split; [|split; [lia|split; [exact G|]]].
    + intros _. exists ((match ssAccumulated s with Some a => a | None => [] end) ++ filter weight ids). split; [reflexivity|].
      apply range_app with (b := j); [apply HB|lia| |].
      * destruct (zerop j) as [->|Hp].
        -- destruct HZ as [E1 E2]; [reflexivity|]. rewrite E1, E2. apply range_nil. lia.
        -- destruct (HA Hp) as (acc & -> & HR). exact HR.
      * apply range_one; [apply HB|auto].
    + intros p w Hp Ew. destruct (Nat.eq_dec p j) as [->|Hpj].
      * assert (w = v) by (unfold aget in Ev; congruence). subst. auto.
      * destruct (HH p w) as [H1 H2]; auto; [lia|]. split; eapply has_incl; eauto.
  - destruct st' as [[s m] l]. destruct HI as (HC & HA & _ & HG & HH). rewrite Nat.add_0_l in *.
    destruct HA as (acc & Ea & HR).
    { destruct values; [contradiction|simpl; lia]. }
    destruct (evaluate_accumulated_spec examples weight value bins minCoverage HB s acc 0 (length values) m
                (Neq majority) (Eq majority) l) as (l' & -> & G & I & C1 & C2); auto.
    { intros i Hi. eapply nominal_majority; eauto. }
    { intros i Hi. simpl. rewrite negb_involutive. reflexivity. }
    exists l'. split; [reflexivity|]. split; [exact G|]. intros v [<-|Hv]; auto.
    apply In_nth_error in Hv. destruct Hv as (p & Ep).
    destruct (HH p v) as [H1 H2]; auto; [apply nth_error_Some; congruence|]. split; eapply has_incl; eauto.
Qed.

Lemma has_iff examples weight value bins minCoverage t l : NoDup examples ->
  Forall (good examples weight value bins minCoverage) l -> has examples weight value minCoverage t l ->
  (In t (map eTest l) <-> minCoverage <= support examples weight value t).
Proof.
  intros NE HG HH. split.
  - intros H. apply in_map_iff in H. destruct H as (e & <- & He). rewrite Forall_forall in HG.
    destruct (HG e He) as [[HE _] HM]. rewrite <- (scored_support _ _ _ e); auto.
  - intros H. destruct (HH H) as (e & He & <-). apply in_map. auto.
Qed.

Lemma nominal_exact examples weight value minCoverage values bins majority :
  nominal_vector examples value values bins majority -> values <> [] ->
  exists l, searchNominal weight (filter weight examples) (length (filter weight examples)) minCoverage
              values bins majority = Some l /\
    (forall e, In e l -> exact examples weight value bins e) /\
    (forall v, In v (majority :: values) ->
       (In (Eq v) (map eTest l) <-> minCoverage <= support examples weight value (Eq v)) /\
       (In (Neq v) (map eTest l) <-> minCoverage <= support examples weight value (Neq v))).
Proof.
  intros HV Hne. destruct (nominal_search examples weight value minCoverage values bins majority HV Hne) as (l & E & HG & HH).
  exists l. split; [exact E|]. split.
  - rewrite Forall_forall in HG. intros e He. apply HG; auto.
  - intros v Hv. destruct (HH v Hv). split; eapply has_iff; eauto; apply HV.
Qed.

Lemma binary_exact examples weight value minCoverage minority majority ids :
  nominal_vector examples value [minority] [ids] majority ->
  let l := searchBinary weight (filter weight examples) (length (filter weight examples)) minCoverage minority majority ids in
  (forall e, In e l -> exact examples weight value [ids] e) /\
  (forall v, v = minority \/ v = majority ->
     (In (Eq v) (map eTest l) <-> minCoverage <= support examples weight value (Eq v))).
Proof.
  intros HV l. pose proof HV as (HB & _ & ND & _).
  assert (HE: forall i, In i examples -> (holds (Eq minority) (value i) = true <-> stored_between [ids] 0 1 i)).
  { intros i Hi. eapply nominal_eq; eauto. }
  assert (HM: forall i, In i examples -> holds (Eq majority) (value i) = negb (holds (Eq minority) (value i))).
  { intros i Hi. pose proof (nominal_majority _ _ _ _ _ HV i Hi) as H. specialize (HE i Hi). change (length [minority]) with 1 in H.
    rewrite <- HE in H. rewrite holds_neq in H. destruct H as [H1 H2].
    destruct (holds (Eq majority) (value i)), (holds (Eq minority) (value i));  auto; exfalso;
      (discriminate (H1 eq_refl) || discriminate (H2 eq_refl)). }
  destruct (evaluate_spec examples weight value [ids] minCoverage HB (mkSubset (filter weight ids) None) 0 1
              (length (filter weight ids)) (Eq minority) (Eq majority) []) as (G & _ & C1 & C2); auto.
  { apply range_one; [apply HB|auto]. }
  assert (El: l = evaluate (filter weight examples) (length (filter weight examples)) minCoverage
                 (mkSubset (filter weight ids) None) 0 1 (length (filter weight ids)) (Eq minority) (Eq majority) []).
  { unfold l, searchBinary. rewrite add_all. reflexivity. }
  rewrite El. split.
  - intros e He. rewrite Forall_forall in G. apply G; auto.
  - intros v [-> | ->]; eapply has_iff; eauto; apply HV.
Qed.
