(** Proofs about the rules that can be learned from dense and sparse feature matrices. *)
From Coq Require Import ZArith Arith List Bool Sorted Permutation Lia.
From Verif Require Import Lib.Arr Model.Search Model.Filter Spec.Search Spec.Filter Proofs.Search Proofs.SearchOrdinal
  Proofs.Filter Proofs.FilterRun Proofs.FilterFound Proofs.MinCoverage.
From Verif Require Import Model.FeatureTypes Spec.FeatureTypes Proofs.FeatureVectors Spec.FeatureFormats.
Import ListNotations.
Open Scope nat_scope.

(** ** The conditions that are found *)

Section Forms.
Variable weight : nat -> bool.
Variable total : list nat.
Variable N minCoverage : nat.
Variable P : test -> Prop.
Local Notation form := (Forall (fun e => P (eTest e))).

Lemma consider_form e l : P (eTest e) -> form l -> form (consider minCoverage e l).
Proof. intros H F. unfold consider. destruct (_ <=? _); auto. apply Forall_app. auto. Qed.

Lemma evaluate_form s a b m t1 t2 l : P t1 -> P t2 -> form l -> form (evaluate total N minCoverage s a b m t1 t2 l).
Proof. intros H1 H2 F. unfold evaluate. repeat (apply consider_form; auto). Qed.

Lemma accumulated_form s a b m t1 t2 l l' : P t1 -> P t2 -> form l ->
  evaluateAccumulated total N minCoverage s a b m t1 t2 l = Some l' -> form l'.
Proof.
  intros H1 H2 F E. unfold evaluateAccumulated in E.
  repeat (match type of E with context [if ?b then _ else _] => destruct b | context [ssAccumulated ?s] => destruct (ssAccumulated s) end;
          try discriminate); injection E as <-; auto; repeat (apply Forall_app; split; auto).
Qed.

Lemma nominal_form values bins majority l : (forall v, P (Eq v)) -> (forall v, P (Neq v)) ->
  searchNominal weight total N minCoverage values bins majority = Some l -> form l.
Proof.
  intros H1 H2 E. unfold searchNominal in E.
  assert (LP: forall cnt i st, form (snd st) ->
    forall r, forN cnt i (fun i '(s, numMinority, l) =>
      let* ids := aget bins i in
      let '(s, numCovered) := addAllToSubset weight ids s in
      let* v := aget values i in
      let l := evaluate total N minCoverage s i (i + 1) numCovered (Eq v) (Neq v) l in
      Some (resetSubset s, numMinority + numCovered, l)) st = Some r -> form (snd r)).
  { induction cnt as [|cnt IH]; intros i st H r Er; cbn [forN] in Er; [injection Er as <-; auto|].
    destruct st as ((s, m), l0). destruct (aget bins i) as [ids|]; [|discriminate].
    destruct (addAllToSubset weight ids s) as (s', c). destruct (aget values i) as [v|]; [|discriminate].
    eapply IH in Er; [exact Er|]. cbn [snd] in *. apply evaluate_form; auto. }
  destruct (forN _ _ _ _) as [((s, m), l0)|] eqn:EL; [|discriminate]. apply LP in EL; [|cbn; auto]. cbn [snd] in EL.
  eapply accumulated_form in E; eauto.
Qed.

Lemma up_form values bins majority : (forall v, P (Leq v)) -> (forall v, P (Gr v)) ->
  forall cnt i previous m s l r, form l ->
  ordinalUp weight total N minCoverage values bins majority cnt i previous m s l = Some r ->
  let '(_, _, _, _, l') := r in form l'.
Proof.
  intros H1 H2. induction cnt as [|cnt IH]; intros i previous m s l r H E; cbn [ordinalUp] in E.
  - injection E as <-. auto.
  - destruct (aget values i); [|discriminate]. destruct (_ <=? _)%Z; [injection E as <-; auto|].
    destruct (aget bins i) as [ids|]; [|discriminate]. destruct (addAllToSubset weight ids s).
    eapply IH in E; [exact E|]. apply evaluate_form; auto.
Qed.

Lemma down_form values bins first : (forall v, P (Leq v)) -> (forall v, P (Gr v)) ->
  forall cnt m s l r, form l ->
  ordinalDown weight total N minCoverage values bins first cnt m s l = Some r -> let '(_, _, l') := r in form l'.
Proof.
  intros H1 H2. induction cnt as [|cnt IH]; intros m s l r H E; cbn [ordinalDown] in E.
  - injection E as <-. auto.
  - cbv zeta in E. destruct (aget values _); [|discriminate]. destruct (aget bins _) as [ids|]; [|discriminate].
    destruct (addAllToSubset weight ids s). eapply IH in E; [exact E|]. apply evaluate_form; auto.
Qed.

Lemma ordinal_form values bins majority l : (forall v, P (Leq v)) -> (forall v, P (Gr v)) ->
  searchOrdinal weight total N minCoverage values bins majority = Some l -> form l.
Proof.
  intros H1 H2 E. unfold searchOrdinal in E.
  destruct (aget values 0) as [previous|]; [|discriminate].
  destruct (if (previous <? majority)%Z then _ else _) as [(s, m)|]; [|discriminate].
  destruct (if 0 <? m then _ else _) as [((((first, lastLess), numLess), s'), l')|] eqn:EU; [|discriminate].
  assert (F: form l').
  { destruct (0 <? m); [|injection EU as <- <- <- <- <-; auto].
    destruct (ordinalUp _ _ _ _ _ _ _ _ _ _ _ _ _) as [((((i, p), c), s''), l'')|] eqn:EU'; [|discriminate].
    injection EU as <- <- <- <- <-. apply up_form in EU'; auto. }
  destruct (aget values (length values - 1)) as [last|]; [|discriminate].
  destruct (if (majority <? last)%Z then _ else _) as [(s2, m2)|]; [|discriminate].
  destruct (if 0 <? m2 then _ else _) as [((m3, s3), l3)|] eqn:ED; [|discriminate].
  assert (F3: form l3).
  { destruct (0 <? m2); [|injection ED as <- <- <-; auto]. apply down_form in ED; auto. }
  destruct (_ && _).
  - apply accumulated_form in E; auto. apply evaluate_form; auto.
  - injection E as <-. apply evaluate_form; auto.
Qed.

Lemma binary_form minority majority ids : P (Eq minority) -> P (Eq majority) ->
  form (searchBinary weight total N minCoverage minority majority ids).
Proof. intros H1 H2. unfold searchBinary. destruct (addAllToSubset _ _ _). apply evaluate_form; auto. Qed.

End Forms.

Lemma binary_eq weight total N minCoverage minority majority ids e :
  In e (searchBinary weight total N minCoverage minority majority ids) -> exists v, eTest e = Eq v.
Proof.
  revert e. apply Forall_forall. apply (binary_form weight total N minCoverage (fun t => exists v, t = Eq v)); eauto.
Qed.

(** ** Counterparts of conditions *)

Lemma value_listed examples value values bins majority i : nominal_vector examples value values bins majority ->
  In i examples -> In (value i) (majority :: values).
Proof.
  intros (HB & HL & ND & HV & HM) Hi. destruct (in_dec Nat.eq_dec i (concat bins)) as [Hin|Hin].
  - destruct (In_between bins i Hin) as (q & ids & Hq & Eq & Hids).
    destruct (nth_error values q) as [w|] eqn:Ew; [|apply nth_error_None in Ew; lia].
    rewrite (HV q ids w i) by auto. right. eapply nth_error_In; eauto.
  - left. symmetry. auto.
Qed.

Lemma support_some examples weight value t : 1 <= support examples weight value t ->
  exists i, In i examples /\ weight i = true /\ holds t (value i) = true.
Proof.
  unfold support. intros H. destruct (filter (fun i => weight i && holds t (value i)) examples) as [|i l] eqn:E; [cbn in H; lia|].
  assert (Hi: In i (filter (fun i => weight i && holds t (value i)) examples)) by (rewrite E; left; auto).
  apply filter_In in Hi. destruct Hi as (Hi & B). apply andb_prop in B. exists i. tauto.
Qed.

Lemma support_not_all examples weight value t : support examples weight value t < length (filter weight examples) ->
  exists i, In i examples /\ weight i = true /\ holds t (value i) = false.
Proof.
  unfold support. induction examples as [|i l IH]; cbn [filter length]; [lia|]. destruct (weight i) eqn:W; cbn [andb].
  - destruct (holds t (value i)) eqn:H; cbn [length].
    + intros L. destruct IH as (j & Hj & X); [lia|]. exists j. split; [right|]; auto.
    + intros _. exists i. split; [left|]; auto.
  - intros L. destruct IH as (j & Hj & X); [lia|]. exists j. split; [right|]; auto.
Qed.

Definition vector (k : nominalKind) (examples : list nat) (value : nat -> Z) (values : list Z) (bins : list (list nat))
  (majority : Z) : Prop :=
  nominal_vector examples value values bins majority /\ Forall (fun ids => ids <> []) bins /\
  (k = Ordinal -> StronglySorted Z.lt values) /\ (k = Binary -> length values = 1).

Definition foundIn (k : nominalKind) (examples : list nat) (weight : nat -> bool) (minCoverage : nat) (values : list Z)
  (bins : list (list nat)) (majority : Z) (e : evaluated) : Prop :=
  let total := filter weight examples in
  match k with
  | Nominal => exists l, searchNominal weight total (length total) minCoverage values bins majority = Some l /\ In e l
  | Ordinal => exists l, searchOrdinal weight total (length total) minCoverage values bins majority = Some l /\ In e l
  | Binary => exists v ids, values = [v] /\ bins = [ids] /\
      In e (searchBinary weight total (length total) minCoverage v majority ids)
  end.

Lemma counterpart k examples weight value minCoverage values1 bins1 majority1 values2 bins2 majority2 e :
  1 <= minCoverage -> vector k examples value values1 bins1 majority1 -> vector k examples value values2 bins2 majority2 ->
  (k = Ordinal -> forall i, In i examples -> weight i = true) ->
  foundIn k examples weight minCoverage values1 bins1 majority1 e ->
  minCoverage <= support examples weight value (eTest e) < length (filter weight examples) ->
  exists e2, foundIn k examples weight minCoverage values2 bins2 majority2 e2 /\ (k <> Ordinal -> eTest e2 = eTest e) /\
    forall i, In i examples -> holds (eTest e2) (value i) = holds (eTest e) (value i).
Proof.
  intros HM (N1 & E1 & O1 & B1) (N2 & E2 & O2 & B2) HW HF (S1 & S2).
  destruct (support_some _ _ _ _ (Nat.le_trans _ _ _ HM S1)) as (i & Hi & Wi & Ti).
  destruct (support_not_all _ _ _ _ S2) as (j & Hj & Wj & Tj).
  assert (NV: values2 <> []).
  { intros ->. destruct N2 as (_ & L & _ & _ & N2). destruct bins2; [|discriminate].
    rewrite (N2 i), (N2 j) in * by (auto; intros []). congruence. }
  destruct k.
  - destruct HF as (l & EL & IN).
    assert (F := EL). apply (nominal_form weight _ _ _ (fun t => exists v, t = Eq v \/ t = Neq v)) in F; [|eauto|eauto].
    rewrite Forall_forall in F. destruct (F e IN) as (v & Ht). clear F.
    assert (Hv: In v (majority2 :: values2)).
    { destruct Ht as [Ht|Ht]; rewrite Ht in Ti, Tj; cbn [holds] in Ti, Tj.
      - apply Z.eqb_eq in Ti. rewrite <- Ti. eapply value_listed; eauto.
      - apply negb_false_iff, Z.eqb_eq in Tj. rewrite <- Tj. eapply value_listed; eauto. }
    destruct (nominal_exact examples weight value minCoverage values2 bins2 majority2 N2 NV) as (l2 & EL2 & _ & X).
    destruct (X v Hv) as (XE & XN).
    assert (I2: In (eTest e) (map eTest l2)).
    { destruct Ht as [Ht|Ht]; rewrite Ht in *; [apply XE|apply XN]; lia. }
    apply in_map_iff in I2. destruct I2 as (e2 & T2 & I2). exists e2. split; [exists l2; auto|]. split; [auto|].
    intros. rewrite T2. reflexivity.
  - destruct HF as (l & EL & IN). specialize (O2 eq_refl). specialize (HW eq_refl).
    assert (F := EL). apply (ordinal_form weight _ _ _ (fun t => exists v, t = Leq v \/ t = Gr v)) in F; [|eauto|eauto].
    rewrite Forall_forall in F. destruct (F e IN) as (z & Ht). clear F.
    assert (HS: separating examples weight value z).
    { destruct Ht as [Ht|Ht]; rewrite Ht in Ti, Tj; cbn [holds] in Ti, Tj.
      - apply Z.leb_le in Ti. apply Z.leb_gt in Tj. split; eauto.
      - apply Z.ltb_lt in Ti. apply Z.ltb_ge in Tj. split; eauto. }
    assert (OM: outermost weight values2 bins2 majority2).
    { assert (AW: forall p ids, nth_error bins2 p = Some ids -> exists i, In i ids /\ weight i = true).
      { intros p ids E. rewrite Forall_forall in E2. assert (X := E2 ids (nth_error_In _ _ E)).
        destruct ids as [|x ids]; [congruence|]. exists x. split; [left; auto|]. apply HW.
        destruct N2 as ((_ & _ & IC) & _). apply IC, in_concat. exists (x :: ids).
        split; [eapply nth_error_In; eauto|left; auto]. }
      split; intros v ids _ _ E; eapply AW; eauto. }
    destruct (ordinal_exact examples weight value minCoverage values2 bins2 majority2 (conj N2 O2) NV OM) as (l2 & EL2 & _ & X).
    destruct (X z (eTest e) Ht HS S1) as (e2 & I2 & X2). exists e2. split; [exists l2; auto|]. split; [congruence|exact X2].
  - destruct HF as (v1 & ids1 & -> & -> & IN). specialize (B2 eq_refl).
    destruct values2 as [|v2 [|? ?]]; try discriminate. destruct bins2 as [|ids2 [|? ?]]; try (destruct N2 as (_ & L & _); discriminate).
    destruct (binary_eq _ _ _ _ _ _ _ _ IN) as (v & Ht).
    assert (Hv: v = v2 \/ v = majority2).
    { rewrite Ht in Ti. cbn [holds] in Ti. apply Z.eqb_eq in Ti.
      destruct (value_listed _ _ _ _ _ i N2 Hi) as [X|[X|[]]]; rewrite Ti in X; auto. }
    destruct (binary_exact examples weight value minCoverage v2 majority2 ids2 N2) as (_ & X).
    assert (I2: In (eTest e) (map eTest (searchBinary weight (filter weight examples) (length (filter weight examples)) minCoverage v2 majority2 ids2))).
    { rewrite Ht in *. apply X; auto. }
    apply in_map_iff in I2. destruct I2 as (e2 & T2 & I2). exists e2. split; [exists v2, ids2; auto|]. split; [auto|].
    intros. rewrite T2. reflexivity.
Qed.

(** ** Runs *)

Definition isNominal (vec : fvec) : Prop := match vec with NominalVec Nominal _ _ _ _ => True | _ => False end.

Lemma constant_incl col l l' : incl l' l -> constant col l -> constant col l'.
Proof. intros HI H i j x y Hi Hj. apply H; apply HI; auto. Qed.

Lemma constant_value col examples z : (forall i, In i (valued col examples) -> valueOf col i = z) -> constant col examples.
Proof.
  intros H i j x y Hi Hj Ex Ey.
  assert (A: forall i x, In i examples -> col i = Some x -> x = z).
  { intros u w Hu Ew. rewrite <- (H u); [unfold valueOf; rewrite Ew; reflexivity|].
    unfold valued. apply filter_In. split; auto. unfold hasValue. rewrite Ew. reflexivity. }
  rewrite (A i x), (A j y); auto.
Qed.

Lemma represents_vector k col examples values bins majority missing :
  represents col examples (NominalVec k values bins majority missing) -> vector k (valued col examples) (valueOf col) values bins majority.
Proof.
  intros (_ & _ & R). unfold vector. destruct k; cbn in R; unfold ordinal_vector in R; intuition discriminate.
Qed.

Lemma mask_constant isEqual col examples p k values bins majority missing :
  represents col examples (NominalVec k values bins majority missing) ->
  filterByMask isEqual p (NominalVec k values bins majority missing) = EqualVec ->
  constant col (filter p examples).
Proof.
  intros R E. apply represents_vector in R. destruct R as (N & _). cbn [filterByMask] in E.
  assert (K := keepBins_pairs p values bins ltac:(apply N)). destruct (keepBins p values bins) as (vs', bs').
  destruct K as (_ & _ & K & _). destruct bs' as [|b bs']; [|discriminate]. cbn [concat] in K.
  apply (constant_value _ _ majority). intros i Hi. unfold valued in Hi. apply filter_In in Hi. destruct Hi as (Hi & Hv).
  apply filter_In in Hi. destruct Hi as (Hi & Hp). destruct N as (_ & _ & _ & _ & N). apply N.
  - apply filter_In. auto.
  - intros Hc. assert (F: In i (filter p (concat bins))) by (apply filter_In; auto). rewrite <- K in F. destruct F.
Qed.

Section Runs.
Variable isEqual : Z -> Z -> bool.
Variable original : nat -> fvec.
Variable cols : nat -> column.
Variable numExamples numFeatures minCoverage : nat.
Variable weight : nat -> bool.
Variable allWeighted : bool.

Hypothesis HO : forall f, f < numFeatures ->
  represents (cols f) (seq 0 numExamples) (original f) /\ categorical allWeighted (original f).
Hypothesis HW : allWeighted = true -> forall i, i < numExamples -> weight i = true.

Local Notation cov := (coveredBy cols numExamples).
Local Notation Inv := (Inv original cols numExamples numFeatures weight).

Definition spent (cs : list (nat * test)) (f : nat) : Prop :=
  original f = EqualVec \/ (isNominal (original f) /\ In f (map fst cs)) \/ constant (cols f) (cov cs).

Definition spentOk (st : subspace) (cs : list (nat * test)) : Prop :=
  forall f ent, nth_error (sCache st) f = Some ent -> fst ent = Some EqualVec -> spent cs f.

Lemma supports : forall f, f < numFeatures ->
  represents (cols f) (seq 0 numExamples) (original f) /\ supported_by (cols f) (seq 0 numExamples) (original f).
Proof. exact (HS original cols numExamples numFeatures allWeighted HO). Qed.

Lemma refresh_spent f st cs vec st' : Inv st cs -> spentOk st cs -> refresh isEqual original f st = Some (vec, st') ->
  spentOk st' cs /\ (vec = EqualVec -> spent cs f).
Proof.
  intros HI HS E. pose proof HI as (H1 & H2 & H3 & H4 & H5 & H6 & H7 & H8 & H9). unfold refresh, aget in E.
  destruct (nth_error (sCache st) f) as [(ptr, m)|] eqn:EC; [|discriminate].
  assert (Hf: f < numFeatures) by (rewrite <- H3; apply nth_error_Some; congruence).
  assert (S0: match ptr with Some v => v | None => original f end = EqualVec -> spent cs f).
  { destruct ptr as [v|]; [|left; auto]. intros ->. eapply HS; eauto. }
  destruct (m <? sModifications st) eqn:EM; [|injection E as <- <-; auto].
  destruct (aset (sCache st) f _) as [cache|] eqn:EA; [|discriminate]. injection E as <- <-.
  assert (S1: filterByMask isEqual (isCovered st) (match ptr with Some v => v | None => original f end) = EqualVec -> spent cs f).
  { assert (CE := H9 f _ EC). destruct CE as (_ & CE). cbn [fst snd] in CE. destruct (HO f Hf) as (RO & CO).
    destruct (supports f Hf) as (_ & SO).
    assert (IC: forall p, (forall i, i < numExamples -> satisfies cols cs i = true -> p i = true) ->
      incl (cov cs) (filter (isCovered st) (filter p (seq 0 numExamples)))).
    { intros p Hp i Hi. apply filter_In in Hi. destruct Hi as (Hi & Hs). pose proof Hi as Hi'. apply in_seq in Hi'.
      apply filter_In. rewrite (inv_covered _ _ _ _ _ _ _ _ HI) by lia. split; [apply filter_In; split; [auto|apply Hp; auto; lia]|auto]. }
    assert (KEY: forall v p, v <> EqualVec -> same_but_sparse v (canon p (original f)) -> represents (cols f) (filter p (seq 0 numExamples)) v ->
      (forall i, i < numExamples -> satisfies cols cs i = true -> p i = true) ->
      filterByMask isEqual (isCovered st) v = EqualVec -> spent cs f).
    { intros v p NE HL R Hp EF. right; right.
      destruct (original f) as [|? ? ? ?|k vs bs mj ms|? ? ? ?]; [apply like_equal in HL; congruence|destruct CO| |destruct CO].
      cbn [canon] in HL. destruct (keepBins p vs bs) as (vs', bs'). apply like_unbinned in HL; [|exact I]. subst v.
      eapply constant_incl; [apply (IC p); auto|]. eapply mask_constant; eauto. }
    destruct ptr as [v|].
    - intros EF. destruct CE as [->|(p & HL & NE & G2 & _)]; [auto|].
      destruct v as [| | |] eqn:Ev; [auto| | |]; rewrite <- Ev in *;
        (apply (KEY v p); [congruence|exact HL|apply (represents_like _ _ _ _ v SO RO HL NE)|exact G2|exact EF]).
    - intros EF. destruct (original f) as [|? ? ? ?|k vs bs mj ms|? ? ? ?] eqn:Eo; [auto|destruct CO| |destruct CO].
      right; right. eapply constant_incl; [apply (IC (fun _ => true)); auto|].
      rewrite (filter_app_ext (fun _ => true) (seq 0 numExamples)) by reflexivity. eapply mask_constant; eauto. }
  split; [|exact S1]. apply aset_inv in EA. destruct EA as (LF & ->). intros g ent Hg Eg. cbn [sCache] in Hg.
  rewrite nth_error_upd in Hg. destruct (Nat.eqb_spec f g) as [<-|]; [|eapply HS; eauto].
  destruct (Nat.ltb_spec f (length (sCache st))); [|lia]. injection Hg as <-. cbn [fst] in Eg. injection Eg as Eg. auto.
Qed.

Lemma spent_snoc cs f t g : spent cs g -> spent (cs ++ [(f, t)]) g.
Proof.
  intros [H|[(H & H')|H]]; [left; auto|right; left; split; auto; rewrite map_app; apply in_or_app; auto|right; right].
  eapply constant_incl; [|exact H]. intros i Hi. apply filter_In in Hi. destruct Hi as (Hi & Hs). apply filter_In. split; auto.
  rewrite (sat_snoc) in Hs. apply andb_prop in Hs. tauto.
Qed.

Lemma filter_spent f e st cs vec st' st'' : Inv st cs -> spentOk st cs ->
  refresh isEqual original f st = Some (vec, st') ->
  found_condition isEqual numExamples weight minCoverage st' cs f vec e ->
  filterSubspace isEqual original f e st = Some st'' -> spentOk st'' (cs ++ [(f, eTest e)]).
Proof.
  intros HI HS ER HF EF. destruct (refresh_spent f st cs vec st' HI HS ER) as (HS' & _).
  assert (R := refresh_represents _ _ _ _ _ _ supports _ _ _ _ _ HI ER).
  destruct (refresh_spec _ _ _ _ _ _ supports _ _ _ _ _ HI ER) as (Hf & HI' & _ & _ & _ & _ & _ & RV).
  assert (EX := found_exact isEqual original cols numExamples numFeatures minCoverage weight allWeighted HO HW
    f e st' cs vec st HI' ER Hf ltac:(tauto) R HF). destruct EX as ((VB & VP) & EX & EC).
  unfold filterSubspace in EF. rewrite ER in EF. unfold aget in EF.
  destruct (nth_error (sCache st') f) as [(ptr, m)|] eqn:EE; [|discriminate].
  destruct (updateCoverageMaskAndStatistics _ _ _ _ _ _ _ _) as [((mask, ind), stats)|] eqn:EU; [|discriminate].
  destruct (filterByInterval _ _ _ _ _ _) as [w|] eqn:EI; [|discriminate].
  destruct (aset (sCache st') f _) as [cache|] eqn:EA; [|discriminate]. apply aset_inv in EA. destruct EA as (LF & ->).
  injection EF as <-. intros g ent Hg Eg. cbn [sCache] in Hg. rewrite nth_error_upd in Hg.
  destruct (Nat.eqb_spec f g) as [<-|]; [|apply spent_snoc; eapply HS'; eauto].
  destruct (Nat.ltb_spec f (length (sCache st'))); [|lia]. injection Hg as <-. cbn [fst] in Eg. injection Eg as ->.
  assert (VN: vec <> EqualVec) by (intros ->; discriminate EU).
  destruct RV as [->|(HL & NE)]; [congruence|]. destruct (HO f Hf) as (RO & CO).
  destruct (original f) as [|? ? ? ?|k vs bs mj ms|? ? ? ?] eqn:Eo; [apply like_equal in HL; congruence|destruct CO| |destruct CO].
  cbn [canon] in HL. destruct (keepBins (satisfies cols cs) vs bs) as (vs', bs'). apply like_unbinned in HL; [|exact I]. subst vec.
  destruct (represents_vector _ _ _ _ _ _ _ R) as (N & _ & _ & NB).
  assert (SUB: forall i, In i (valued (cols f) (cov (cs ++ [(f, eTest e)]))) ->
    In i (valued (cols f) (cov cs)) /\ holds (eTest e) (valueOf (cols f) i) = true).
  { intros i Hi. apply in_valued in Hi. destruct Hi as (z & Hi & Ez). apply filter_In in Hi. destruct Hi as (Hi & Hs).
    rewrite sat_snoc in Hs. apply andb_prop in Hs. destruct Hs as (Hs & Hh). rewrite Ez in Hh. split.
    - apply in_valued. exists z. split; auto. apply filter_In. auto.
    - unfold valueOf. rewrite Ez. auto. }
  destruct k.
  - right; left. rewrite Eo. split; [exact I|]. rewrite map_app. apply in_or_app. right. left. auto.
  - right; right. apply (constant_value _ _ mj). intros i Hi. destruct (SUB i Hi) as (Hv & Hh). apply (EX i Hv) in Hh.
    cbn [filterByInterval binsOf] in *.
    destruct (open_interval (eStart e) (eEnd e) (eInverse e) (length bs') VB VP) as (a & b & EO & B & IN). rewrite EO in EI.
    destruct (Nat.ltb_spec 0 (b - a)); [discriminate|]. unfold inside in IN.
    destruct N as (_ & _ & _ & _ & N). apply N; auto. intros Hc. destruct (In_between bs' i Hc) as (q & ids & Hq & Eq & Hids).
    destruct (eInverse e) eqn:Einv.
    + destruct (le_lt_dec (eStart e) q) as [L|L]; [|specialize (IN q Hq); lia].
      destruct (le_lt_dec (eEnd e) q) as [L'|L']; [specialize (IN q Hq); lia|]. apply Hh. exists q, ids. auto.
    + destruct Hh as (q' & ids' & Hq' & Eq' & _). assert (Q': q' < length bs') by (apply nth_error_Some; congruence).
      specialize (IN q' Q'). lia.
  - right; right. destruct HF as (v & ids & -> & -> & IN).
    destruct (binary_eq _ _ _ _ _ _ _ _ IN) as (z & Ht). apply (constant_value _ _ z). intros i Hi.
    destruct (SUB i Hi) as (_ & Hh). rewrite Ht in Hh. apply Z.eqb_eq in Hh. auto.
Qed.

Variable copies : bool.
Local Notation run := (learns copies isEqual original numExamples numFeatures weight minCoverage).

Lemma run_found st cs : run st cs ->
  reaches isEqual original numExamples numFeatures weight (found_condition isEqual numExamples weight minCoverage) st cs.
Proof.
  induction 1 as [|f st cs vec st' H IH E|st cs H IH C|f e st cs vec st' st'' H IH E HE EF].
  - apply reaches_new.
  - eapply reaches_search; eauto.
  - apply reaches_copy; auto.
  - eapply reaches_filter; eauto. apply HE.
Qed.

Lemma run_inv st cs : run st cs -> Inv st cs.
Proof. intros H. eapply runs_found; eauto. apply run_found. exact H. Qed.

Lemma run_spent st cs : run st cs -> spentOk st cs.
Proof.
  induction 1 as [|f st cs vec st' H IH E|st cs H IH _|f e st cs vec st' st'' H IH E HE EF].
  - intros f ent Hf Ef. apply nth_repeat_some in Hf. subst. discriminate.
  - eapply refresh_spent; eauto. apply run_inv. exact H.
  - intros f ent Hf Ef. apply nth_repeat_some in Hf. subst. discriminate.
  - eapply filter_spent; eauto; [apply run_inv; exact H|apply HE].
Qed.

Lemma run_features st cs : run st cs -> Forall (fun c => fst c < numFeatures) cs.
Proof.
  induction 1 as [|f st cs vec st' H IH E|st cs H IH _|f e st cs vec st' st'' H IH E HE EF]; auto.
  apply Forall_app. split; auto. constructor; auto. cbn [fst].
  destruct (refresh_spec _ _ _ _ _ _ supports _ _ _ _ _ (run_inv _ _ H) E) as (Hf & _). exact Hf.
Qed.

End Runs.

(** ** Two representations of the same features *)

Section Two.
Variable isEqual : Z -> Z -> bool.
Variable original1 original2 : nat -> fvec.
Variable cols : nat -> column.
Variable numExamples numFeatures minCoverage : nat.
Variable weight : nat -> bool.
Variable allWeighted : bool.
Variable ordinal : nat -> bool.
Variable numValues : nat -> nat.

Hypothesis HO1 : forall f, f < numFeatures ->
  represents (cols f) (seq 0 numExamples) (original1 f) /\ categorical allWeighted (original1 f).
Hypothesis HO2 : forall f, f < numFeatures ->
  represents (cols f) (seq 0 numExamples) (original2 f) /\ categorical allWeighted (original2 f).
Hypothesis HK1 : forall f, f < numFeatures -> kindOf (ordinal f) (numValues f) (original1 f).
Hypothesis HK2 : forall f, f < numFeatures -> kindOf (ordinal f) (numValues f) (original2 f).
Hypothesis HW : allWeighted = true -> forall i, i < numExamples -> weight i = true.
Hypothesis HM : 1 <= minCoverage.

Local Notation cov := (coveredBy cols numExamples).
Variable copies : bool.
Local Notation run original := (learns copies isEqual original numExamples numFeatures weight minCoverage).

Lemma kind_equal f : f < numFeatures -> original2 f = EqualVec -> original1 f = EqualVec.
Proof.
  intros Hf E. assert (K1 := HK1 f Hf). assert (K2 := HK2 f Hf). rewrite E in K2. cbn in K2.
  destruct (original1 f) as [|? ? ? ?|[] ? ? ? ?|? ? ? ?]; cbn in K1; auto; try lia; destruct K1.
Qed.

Lemma kind_same f k vs bs mj ms : f < numFeatures -> original1 f = NominalVec k vs bs mj ms ->
  exists vs2 bs2 mj2 ms2, original2 f = NominalVec k vs2 bs2 mj2 ms2.
Proof.
  intros Hf E. assert (K1 := HK1 f Hf). assert (K2 := HK2 f Hf). rewrite E in K1.
  destruct (original2 f) as [|? ? ? ?|k2 vs2 bs2 mj2 ms2|? ? ? ?]; [|destruct K2| |destruct K2].
  - destruct k; cbn in K1, K2; lia.
  - cbn in K1. assert (k2 = k) as -> by (destruct k, k2, (ordinal f); cbn in K1, K2; try reflexivity; exfalso; destruct K1, K2; try lia; congruence).
    eauto.
Qed.

(** The statistics the search uses. *)
Lemma total_covered st cs : FilterRun.Inv original1 cols numExamples numFeatures weight st cs \/
    FilterRun.Inv original2 cols numExamples numFeatures weight st cs ->
  filter (fun i => weight i && match aget (sStatistics st) i with Some x => (x =? 1)%Z | None => false end)
    (seq 0 numExamples) = filter weight (cov cs) /\ sCovered st = length (filter weight (cov cs)).
Proof.
  assert (A: (forall i, i < numExamples -> nth_error (sStatistics st) i = Some (if satisfies cols cs i then 1 else 0)%Z) ->
    filter (fun i => weight i && match aget (sStatistics st) i with Some x => (x =? 1)%Z | None => false end)
    (seq 0 numExamples) = filter weight (cov cs)).
  { intros H7. unfold coveredBy. clear - H7.
    assert (forall i, In i (seq 0 numExamples) -> i < numExamples) by (intros i Hi; apply in_seq in Hi; lia).
    induction (seq 0 numExamples) as [|i l IH]; [reflexivity|]. cbn [filter]. unfold aget at 1.
    rewrite H7 by (apply H; left; auto). rewrite IH by (intros; apply H; right; auto).
    destruct (satisfies cols cs i); cbn [filter]; [|rewrite andb_false_r; reflexivity].
    rewrite andb_true_r. reflexivity. }
  intros [(H1 & H2 & H3 & H4 & H5 & H6 & H7 & H8 & H9)|(H1 & H2 & H3 & H4 & H5 & H6 & H7 & H8 & H9)]; auto.
Qed.

Lemma foundIn_iff st cs f k values bins majority e :
  FilterRun.Inv original1 cols numExamples numFeatures weight st cs \/
    FilterRun.Inv original2 cols numExamples numFeatures weight st cs ->
  found_condition isEqual numExamples weight minCoverage st cs f (NominalVec k values bins majority []) e <->
  foundIn k (cov cs) weight minCoverage values bins majority e.
Proof.
  intros HI. destruct (total_covered st cs HI) as (T & C). unfold found_condition, foundIn. cbv zeta.
  rewrite T, C. cbn [missingOf]. rewrite (filter_app_ext _ (filter weight (cov cs))) by reflexivity. reflexivity.
Qed.

Lemma all_valued original f cs : (forall f, f < numFeatures ->
    represents (cols f) (seq 0 numExamples) (original f) /\ categorical allWeighted (original f)) -> f < numFeatures ->
  original f <> EqualVec -> valued (cols f) (cov cs) = cov cs.
Proof.
  intros HO Hf NE. destruct (HO f Hf) as (R & C). apply filter_app_ext. intros i Hi.
  apply filter_In in Hi. destruct Hi as (Hi & _). unfold hasValue. destruct (cols f i) eqn:Ei; auto. exfalso.
  destruct (original f) as [|? ? ? ?|k ? ? ? ms|? ? ? ?]; [congruence|destruct C| |destruct C].
  destruct R as (_ & RM & _). cbn [missingOf] in RM. assert (M: ms = []) by (destruct k; cbn in C; tauto). subst ms.
  apply (RM i). auto.
Qed.

Lemma same_cov cs1 cs2 : (forall i, i < numExamples -> satisfies cols cs2 i = satisfies cols cs1 i) -> cov cs2 = cov cs1.
Proof. intros H. apply filter_ext_in. intros i Hi. apply in_seq in Hi. apply H. lia. Qed.

Lemma NoDup_filter_snoc (p : nat -> bool) l f : NoDup (filter p (l ++ [f])) -> NoDup (filter p l) /\ (p f = true -> ~ In f l).
Proof.
  rewrite filter_app. cbn [filter]. intros N. split.
  - destruct (p f); [|rewrite app_nil_r in N; auto]. apply NoDup_remove_1 in N. rewrite app_nil_r in N. auto.
  - intros E Hin. rewrite E in N. apply NoDup_remove_2 in N. apply N. rewrite app_nil_r. apply filter_In. auto.
Qed.

Theorem lockstep st1 cs1 : run original1 st1 cs1 -> NoDup (filter (fun f => negb (ordinal f)) (map fst cs1)) ->
  exists st2 cs2, run original2 st2 cs2 /\ Forall2 (similar ordinal) cs1 cs2 /\
    forall i, i < numExamples -> satisfies cols cs2 i = satisfies cols cs1 i.
Proof.
  induction 1 as [|f st cs vec st' H IH E|st cs H IH _|f e st cs vec st' st'' H IH E HE EF]; intros ND.
  - eexists. exists []. split; [apply learns_new|]. split; auto.
  - auto.
  - auto.
  - rewrite map_app in ND. cbn [map fst] in ND. apply NoDup_filter_snoc in ND. destruct ND as (ND & NF).
    destruct (IH ND) as (st2 & cs2 & R2 & SIM & SAT). clear IH. assert (SC := same_cov _ _ SAT).
    assert (HI1 := run_inv _ _ _ _ _ _ _ _ HO1 HW _ _ _ H). assert (HI2 := run_inv _ _ _ _ _ _ _ _ HO2 HW _ _ _ R2).
    assert (SP2: spentOk original2 cols numExamples st2 cs2) by (eapply run_spent; eauto).
    assert (S1 := supports original1 cols numExamples numFeatures allWeighted HO1).
    assert (S2 := supports original2 cols numExamples numFeatures allWeighted HO2).
    destruct HE as (HF & HN).
    assert (RR1 := refresh_represents _ _ _ _ _ _ S1 _ _ _ _ _ HI1 E).
    destruct (refresh_spec _ _ _ _ _ _ S1 _ _ _ _ _ HI1 E) as (Hf & HI1' & _ & _ & _ & _ & _ & RV1).
    assert (EX := found_exact isEqual original1 cols numExamples numFeatures minCoverage weight allWeighted HO1 HW
      f e st' cs vec st HI1' E Hf ltac:(tauto) RR1 HF). destruct EX as (_ & _ & EC).
    assert (MIN := found_minimum _ _ _ _ _ _ _ _ _ HF).
    assert (NE1: original1 f <> EqualVec).
    { intros X. destruct RV1 as [->|(HL & _)]; [destruct HF|]. rewrite X in HL. apply like_equal in HL. subst. destruct HF. }
    assert (AV := fun cs => all_valued original1 f cs HO1 Hf NE1).
    destruct RV1 as [->|(HL1 & _)]; [destruct HF|].
    destruct (original1 f) as [|? ? ? ?|k vs bs mj ms|? ? ? ?] eqn:Eo1;
      [congruence|destruct (HO1 f Hf) as (_ & C); rewrite Eo1 in C; destruct C| |destruct (HO1 f Hf) as (_ & C); rewrite Eo1 in C; destruct C].
    assert (ms = [] /\ (k = Ordinal -> allWeighted = true)) as (-> & KW)
      by (destruct (HO1 f Hf) as (_ & C); rewrite Eo1 in C; destruct k; cbn in C; intuition discriminate).
    destruct (kind_same f k vs bs mj [] Hf Eo1) as (vs2 & bs2 & mj2 & ms2 & Eo2).
    assert (ms2 = []) as -> by (destruct (HO2 f Hf) as (_ & C); rewrite Eo2 in C; destruct k; cbn in C; intuition discriminate).
    cbn [canon] in HL1. destruct (keepBins (satisfies cols cs) vs bs) as (vs1', bs1'). apply like_unbinned in HL1; [|exact I]. subst vec.
    assert (V1 := represents_vector _ _ _ _ _ _ _ RR1). rewrite AV in V1, EC.
    assert (T1 := total_covered st' cs (or_introl HI1')). destruct T1 as (_ & C1). rewrite C1, EC in HN. rewrite EC in MIN.
    apply (foundIn_iff st' cs f) in HF; [|auto].
    (* the other representation *)
    destruct (progress_from isEqual original2 cols numExamples numFeatures weight st2 cs2 f S2 HI2 Hf) as (vec2 & st2' & E2 & PR).
    assert (RR2 := refresh_represents _ _ _ _ _ _ S2 _ _ _ _ _ HI2 E2).
    destruct (refresh_spec _ _ _ _ _ _ S2 _ _ _ _ _ HI2 E2) as (_ & HI2' & _ & _ & _ & _ & _ & RV2).
    assert (SP: vec2 = EqualVec -> spent original2 cols numExamples cs2 f) by (refine (proj2 (refresh_spent _ _ _ _ _ _ _ HO2 _ _ _ _ _ HI2 SP2 E2))).
    assert (NC: ~ constant (cols f) (cov cs)).
    { intros CC. destruct (support_some _ _ _ _ (Nat.le_trans _ _ _ HM MIN)) as (i & Hi & _ & Ti).
      destruct (support_not_all _ _ _ _ HN) as (j & Hj & _ & Tj).
      assert (V: forall x, In x (cov cs) -> cols f x = Some (valueOf (cols f) x)).
      { intros x Hx. rewrite <- AV in Hx. apply in_valued in Hx. destruct Hx as (z & _ & Ez). unfold valueOf. rewrite Ez. auto. }
      rewrite (CC i j _ _ Hi Hj (V i Hi) (V j Hj)) in Ti. congruence. }
    assert (VN2: vec2 <> EqualVec).
    { intros X. destruct (SP X) as [X1|[(X1 & X2)|X1]].
      - congruence.
      - assert (OF: ordinal f = false).
        { assert (K := HK2 f Hf). rewrite Eo2 in X1, K. destruct k; try destruct X1. cbn in K. destruct K as (_ & K). destruct (ordinal f); congruence. }
        apply NF; [rewrite OF; reflexivity|]. clear - SIM X2. induction SIM as [|x y l l' S SIM IH]; [destruct X2|].
        destruct S as (S & _). cbn [map] in *. destruct X2 as [<-|X2]; [left; auto|right; auto].
      - rewrite SC in X1. auto. }
    pose proof RV2 as RV2'. destruct RV2 as [->|(HL2 & _)]; [congruence|]. rewrite Eo2 in HL2. cbn [canon] in HL2.
    destruct (keepBins (satisfies cols cs2) vs2 bs2) as (vs2', bs2'). apply like_unbinned in HL2; [|exact I]. subst vec2. cbn [filter] in *.
    assert (V2 := represents_vector _ _ _ _ _ _ _ RR2). rewrite AV, SC in V2.
    destruct (counterpart k (cov cs) weight (valueOf (cols f)) minCoverage vs1' bs1' mj vs2' bs2' mj2 e HM V1 V2) as (e2 & F2 & TE & TH); auto.
    { intros K i Hi. apply HW; auto. apply filter_In in Hi. destruct Hi as (Hi & _). apply in_seq in Hi. lia. }
    rewrite <- SC in F2. apply (foundIn_iff st2' cs2 f) in F2; [|auto].
    assert (EX2 := found_exact isEqual original2 cols numExamples numFeatures minCoverage weight allWeighted HO2 HW
      f e2 st2' cs2 _ st2 HI2' E2 Hf ltac:(tauto) RR2 F2). destruct EX2 as (VI & _ & EC2).
    destruct (filterSubspace isEqual original2 f e2 st2) as [st2''|] eqn:EF2; [|exfalso; apply (PR VN2 e2 VI); auto].
    exists st2'', (cs2 ++ [(f, eTest e2)]). split; [|split].
    + eapply learns_filter; eauto. split; [exact F2|]. destruct (total_covered st2' cs2 (or_intror HI2')) as (_ & ->).
      rewrite EC2, AV, SC.
      assert (SU: support (cov cs) weight (valueOf (cols f)) (eTest e2) = support (cov cs) weight (valueOf (cols f)) (eTest e)).
      { unfold support. f_equal. apply filter_ext_in. intros i Hi. rewrite TH; auto. }
      rewrite SU. exact HN.
    + apply Forall2_app; auto. constructor; [|constructor]. split; [reflexivity|]. cbn [fst snd]. intros OF. symmetry. apply TE.
      assert (K := HK1 f Hf). rewrite Eo1 in K. intros ->. cbn in K. rewrite OF in K. destruct K. discriminate.
    + intros i Hi. rewrite !sat_snoc. rewrite SAT by auto. destruct (satisfies cols cs i) eqn:Es; [|reflexivity]. cbn [andb].
      assert (Hc: In i (cov cs)) by (apply filter_In; split; [apply in_seq; lia|auto]).
      pose proof Hc as Hc'. rewrite <- AV in Hc'. apply in_valued in Hc'. destruct Hc' as (z & _ & Ez). rewrite Ez.
      specialize (TH i Hc). unfold valueOf in TH. rewrite Ez in TH. exact TH.
Qed.

End Two.

(** ** Dense and sparse matrices *)

Lemma valued_ext col1 col2 examples : (forall i, In i examples -> col1 i = col2 i) -> valued col1 examples = valued col2 examples.
Proof. intros H. apply filter_ext_in. intros i Hi. unfold hasValue. rewrite H; auto. Qed.

Lemma nominal_vector_ext examples value1 value2 values bins majority : (forall i, In i examples -> value1 i = value2 i) ->
  nominal_vector examples value1 values bins majority -> nominal_vector examples value2 values bins majority.
Proof.
  intros H (H1 & H2 & H3 & H4 & H5). split; [exact H1|]. split; [exact H2|]. split; [exact H3|]. split.
  - intros p ids v i E1 E2 Hi. rewrite <- H; [eapply H4; eauto|]. destruct H1 as (_ & _ & IC). apply IC, in_concat.
    exists ids. split; auto. eapply nth_error_In; eauto.
  - intros i Hi Hn. rewrite <- H; auto.
Qed.

Lemma represents_ext col1 col2 examples vec ordinal n : (forall i, In i examples -> col1 i = col2 i) -> kindOf ordinal n vec ->
  represents col1 examples vec -> represents col2 examples vec.
Proof.
  intros H K R. destruct vec as [|? ? ? ?|k values bins majority missing|? ? ? ?]; [exact I|destruct K| |destruct K].
  destruct R as (R1 & R2 & R3). cbn [missingOf] in R1, R2. rewrite (valued_ext col1 col2 examples H) in R3.
  assert (V: forall i, In i (valued col2 examples) -> valueOf col1 i = valueOf col2 i).
  { intros i Hi. unfold valued in Hi. apply filter_In in Hi. unfold valueOf. rewrite H; tauto. }
  split; [exact R1|]. split.
  - intros i. cbn [missingOf]. rewrite R2. split; intros (A & B); split; auto; [rewrite <- H|rewrite H]; auto.
  - destruct k; cbn [missingOf] in *; [|split; [split|]|]; try (destruct R3 as (A & B); split; [eapply nominal_vector_ext; eauto|exact B]).
    + destruct R3 as ((A & _) & _). eapply nominal_vector_ext; eauto.
    + apply R3.
    + apply R3.
Qed.

Lemma numDistinct_ext col1 col2 examples : (forall i, In i examples -> col1 i = col2 i) ->
  numDistinct col1 examples = numDistinct col2 examples.
Proof.
  intros H. unfold numDistinct. rewrite (valued_ext col1 col2 examples H). f_equal. f_equal. apply map_ext_in.
  intros i Hi. apply filter_In in Hi. unfold valueOf. rewrite H; tauto.
Qed.

Lemma created_spec numExamples ordinal values sparseValue elements vec (allWeighted : bool) :
  fitsInt32 sparseValue -> feature numExamples values sparseValue elements ->
  created ordinal values sparseValue elements vec -> (ordinal = true -> allWeighted = true) ->
  let col := truncated (denseColumn values) in
  represents col (seq 0 numExamples) vec /\ categorical allWeighted vec /\
  kindOf ordinal (numDistinct col (seq 0 numExamples)) vec.
Proof.
  intros HS (L & F1 & NN & W & F2 & SV & NX) (iterated & sortValues & Hi & Hs & E) HA col. subst numExamples.
  assert (RK: represents col (seq 0 (length values)) vec /\ kindOf ordinal (numDistinct col (seq 0 (length values))) vec).
  { destruct E as [E|E].
    - destruct (categorical_dense iterated sortValues Hi Hs ordinal values F1) as (vec' & E' & R & _ & K & _).
      rewrite E in E'. injection E' as <-. auto.
    - destruct (categorical_sparse iterated sortValues Hi Hs ordinal (length values) sparseValue elements W F2 HS NX) as (vec' & E' & R & _ & K).
      rewrite E in E'. injection E' as <-.
      assert (X: forall i, In i (seq 0 (length values)) -> truncated (sparseColumn sparseValue elements) i = col i).
      { intros i Hx. apply in_seq in Hx. unfold col, truncated. rewrite (SV i) by lia. reflexivity. }
      split; [eapply represents_ext; eauto|]. rewrite <- (numDistinct_ext _ _ _ X). exact K. }
  destruct RK as (R & K). split; [exact R|]. split; [|exact K].
  destruct vec as [|? ? ? ?|k vs bins majority missing|? ? ? ?]; [exact I|destruct K| |destruct K].
  assert (M: missing = []).
  { destruct missing as [|i missing]; auto. exfalso. destruct R as (_ & R & _). cbn [missingOf] in R.
    destruct (R i) as (R' & _). destruct R' as (Hx & Ex); [left; auto|]. apply in_seq in Hx. unfold col, truncated, denseColumn in Ex.
    destruct (nth i values None) eqn:En; [discriminate|]. apply NN. rewrite <- En. apply nth_In. lia. }
  subst missing. destruct k; cbn; auto. split; auto. apply HA. cbn in K. destruct ordinal; auto. destruct K. discriminate.
Qed.

Lemma formats_equivalent :
  forall copies isEqual ordinal values sparseValue elements original1 original2 numExamples numFeatures minCoverage weight
    st1 conditions1,
  fitsInt32 sparseValue -> 1 <= minCoverage ->
  (forall f, f < numFeatures -> feature numExamples (values f) sparseValue (elements f) /\
     created (ordinal f) (values f) sparseValue (elements f) (original1 f) /\
     created (ordinal f) (values f) sparseValue (elements f) (original2 f)) ->
  (forall f i, f < numFeatures -> ordinal f = true -> i < numExamples -> weight i = true) ->
  learns copies isEqual original1 numExamples numFeatures weight minCoverage st1 conditions1 ->
  NoDup (filter (fun f => negb (ordinal f)) (map fst conditions1)) ->
  exists st2 conditions2,
    learns copies isEqual original2 numExamples numFeatures weight minCoverage st2 conditions2 /\
    Forall2 (similar ordinal) conditions1 conditions2 /\
    forall i, i < numExamples ->
      satisfies (fun f => truncated (denseColumn (values f))) conditions2 i =
      satisfies (fun f => truncated (denseColumn (values f))) conditions1 i.
Proof.
  intros copies isEqual ordinal values sparseValue elements original1 original2 numExamples numFeatures minCoverage weight
    st1 conditions1 HS HM HF HW HL ND.
  set (allWeighted := existsb ordinal (seq 0 numFeatures)).
  assert (HA: forall f, f < numFeatures -> ordinal f = true -> allWeighted = true).
  { intros f Hf E. apply existsb_exists. exists f. split; auto. apply in_seq. lia. }
  assert (C1 := fun f Hf => created_spec numExamples (ordinal f) (values f) sparseValue (elements f) (original1 f) allWeighted HS
    (proj1 (HF f Hf)) (proj1 (proj2 (HF f Hf))) (HA f Hf)).
  assert (C2 := fun f Hf => created_spec numExamples (ordinal f) (values f) sparseValue (elements f) (original2 f) allWeighted HS
    (proj1 (HF f Hf)) (proj2 (proj2 (HF f Hf))) (HA f Hf)).
  refine (lockstep isEqual original1 original2 (fun f => truncated (denseColumn (values f))) numExamples numFeatures minCoverage weight
    allWeighted ordinal (fun f => numDistinct (truncated (denseColumn (values f))) (seq 0 numExamples)) _ _ _ _ _ HM copies st1 conditions1 HL ND).
  - intros f Hf. destruct (C1 f Hf) as (A & B & _). auto.
  - intros f Hf. destruct (C2 f Hf) as (A & B & _). auto.
  - intros f Hf. destruct (C1 f Hf) as (_ & _ & K). exact K.
  - intros f Hf. destruct (C2 f Hf) as (_ & _ & K). exact K.
  - intros E i Hi. apply existsb_exists in E. destruct E as (f & Hf & E). apply in_seq in Hf. apply (HW f i); auto. lia.
Qed.
