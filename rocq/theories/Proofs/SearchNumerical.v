(** Proofs about the search for conditions on numerical features. *)
From Coq Require Import ZArith Arith List Bool Sorted Permutation Lia.
From Verif Require Import Lib.Arr Model.Search Spec.Search Proofs.Search Proofs.SearchOrdinal.
Import ListNotations.
Open Scope nat_scope.

(** The conditions evaluated by a search, irrespective of their scores. *)
Lemma evaluate_inv total N minCoverage s a b c t1 t2 l e :
  In e (evaluate total N minCoverage s a b c t1 t2 l) -> In e l \/ (eStart e = a /\ eEnd e = b).
Proof.
  unfold evaluate, consider. destruct (minCoverage <=? _), (minCoverage <=? _); rewrite ?in_app_iff; simpl; intuition; subst; auto.
Qed.

Lemma evaluate_incl total N minCoverage s a b c t1 t2 l : incl l (evaluate total N minCoverage s a b c t1 t2 l).
Proof.
  intros x Hx. unfold evaluate, consider. destruct (minCoverage <=? _), (minCoverage <=? _); rewrite ?in_app_iff; auto.
Qed.

Section Numerical.
Variables (examples : list nat) (weight : nat -> bool) (value : nat -> Z) (minCoverage : nat) (isEqual : Z -> Z -> bool).
Variables (v : list (nat * Z)) (sparseValue : Z) (sparse : bool).
Hypothesis HV : numerical_vector examples value v sparseValue sparse.
Hypothesis HE : forall a, isEqual a a = true.
Local Notation total := (filter weight examples).
Local Notation N := (length (filter weight examples)).
Local Notation n := (length v).
Local Notation bins := (positions v).
Local Notation good := (good examples weight value bins minCoverage).
Local Notation has := (has examples weight value minCoverage).

Lemma n_concat : concat bins = map fst v.
Proof. clear. induction v as [|[a b] l IH]; simpl; auto. f_equal. exact IH. Qed.

Lemma n_bins : bins_of examples bins.
Proof. destruct HV as (H1 & H2 & H3 & _). unfold bins_of. rewrite n_concat. auto. Qed.

Lemma n_nodup : NoDup (concat bins).
Proof. apply n_bins. Qed.

Lemma n_pos p i z : nth_error v p = Some (i, z) -> nth_error bins p = Some [i].
Proof. intros E. unfold positions. rewrite nth_error_map, E. reflexivity. Qed.

Lemma n_one p i z : nth_error v p = Some (i, z) ->
  range weight bins (if weight i then [i] else []) p (S p) (if weight i then 1 else 0).
Proof.
  intros E. pose proof (range_one weight bins n_nodup p [i] (n_pos _ _ _ E)) as H. simpl in H. destruct (weight i); exact H.
Qed.

Lemma n_le p q i j a b : nth_error v p = Some (i, a) -> nth_error v q = Some (j, b) -> p <= q -> (a <= b)%Z.
Proof.
  intros Ea Eb H. destruct HV as (_ & _ & _ & HS & _). destruct (Nat.eq_dec p q) as [->|Hne].
  - rewrite Ea in Eb. injection Eb as _ ->. lia.
  - apply (ss_nth Z.le _ HS p q); [lia| |]; rewrite nth_error_map; [rewrite Ea|rewrite Eb]; reflexivity.
Qed.

Lemma n_cases i : In i examples ->
  (exists p, p < n /\ nth_error v p = Some (i, value i) /\ (forall a b, stored_between bins a b i <-> a <= p < b)) \/
  (sparse = true /\ value i = sparseValue /\ forall a b, ~ stored_between bins a b i).
Proof.
  intros Hi. destruct HV as (_ & _ & _ & _ & H5 & H6). destruct (in_dec Nat.eq_dec i (map fst v)) as [Hin|Hin].
  - left. apply in_map_iff in Hin. destruct Hin as ([j z] & Ej & Hj). simpl in Ej. subst j.
    rewrite (H5 _ _ Hj). apply In_nth_error in Hj. destruct Hj as (p & Ep). exists p.
    split; [eapply nth_len; eauto|]. split; [exact Ep|]. intros a b. split.
    + intros (q & ids & Hq & Eq & Hi'). assert (p = q); [|lia].
      eapply (concat_position bins n_nodup); [apply (n_pos _ _ _ Ep)|exact Eq|left; reflexivity|exact Hi'].
    + intros H. exists p, [i]. split; [exact H|]. split; [eapply n_pos; eauto|left; reflexivity].
  - right. destruct (H6 i Hi Hin). split; [auto|]. split; [auto|]. intros a b HX. apply Hin. rewrite <- n_concat. eapply between_In; eauto.
Qed.

Lemma n_leq i0 j0 a b p : nth_error v p = Some (i0, a) -> nth_error v (S p) = Some (j0, b) -> (a < b)%Z ->
  (sparse = true -> b < sparseValue)%Z -> forall i, In i examples ->
  (holds (LeqMean a b) (value i) = true <-> stored_between bins 0 (S p) i).
Proof.
  intros Ea Eb Hab Hs i Hi. cbn [holds]. rewrite Z.leb_le. destruct (n_cases i Hi) as [(q & Hq & Eq & HB)|(S1 & S2 & HB)].
  - rewrite HB. destruct (le_lt_dec q p) as [H|H].
    + pose proof (n_le _ _ _ _ _ _ Eq Ea H). lia.
    + pose proof (n_le _ _ _ _ _ _ Eb Eq H). lia.
  - specialize (Hs S1). split; [lia|]. intros H. exfalso. eapply HB; eauto.
Qed.

Lemma n_gr i0 j0 a b p : nth_error v p = Some (i0, a) -> nth_error v (S p) = Some (j0, b) -> (a < b)%Z ->
  (sparse = true -> sparseValue <= a)%Z -> forall i, In i examples ->
  (holds (GrMean a b) (value i) = true <-> stored_between bins (S p) n i).
Proof.
  intros Ea Eb Hab Hs i Hi. cbn [holds]. rewrite Z.ltb_lt. destruct (n_cases i Hi) as [(q & Hq & Eq & HB)|(S1 & S2 & HB)].
  - rewrite HB. destruct (le_lt_dec q p) as [H|H].
    + pose proof (n_le _ _ _ _ _ _ Eq Ea H). lia.
    + pose proof (n_le _ _ _ _ _ _ Eb Eq H). lia.
  - specialize (Hs S1). split; [lia|]. intros H. exfalso. eapply HB; eauto.
Qed.

Lemma mean_compl a b f : holds (GrMean a b) f = negb (holds (LeqMean a b) f).
Proof. cbn [holds]. rewrite Z.ltb_antisym. reflexivity. Qed.
Lemma mean_compl' a b f : holds (LeqMean a b) f = negb (holds (GrMean a b) f).
Proof. rewrite mean_compl, negb_involutive. reflexivity. Qed.

Definition bound (k : nat) : Prop :=
  k <= n /\ forall p i z, nth_error v p = Some (i, z) -> ((z < sparseValue)%Z <-> p < k).

Lemma filter_prefix (l : list (nat * Z)) k :
  k <= length l -> (forall p i z, nth_error l p = Some (i, z) -> ((z < sparseValue)%Z <-> p < k)) ->
  length (filter (fun x => (snd x <? sparseValue)%Z) l) = k.
Proof.
  clear. revert k. induction l as [|[i z] l IH]; intros k Hk H; [simpl in *; lia|].
  cbn [filter snd]. pose proof (H 0 i z eq_refl) as H0. destruct k as [|k].
  - destruct (Z.ltb_spec z sparseValue); [lia|]. apply IH; [lia|]. intros p j w E. pose proof (H (S p) j w E). lia.
  - destruct (Z.ltb_spec z sparseValue); [|lia]. simpl. f_equal. apply IH; [simpl in Hk; lia|].
    intros p j w E. pose proof (H (S p) j w E). lia.
Qed.

Lemma bound_eq k : bound k -> k = less_than_sparse v sparseValue.
Proof. intros [H1 H2]. unfold less_than_sparse. rewrite (filter_prefix v k); auto. Qed.

Lemma bound_intro k : k <= n ->
  (forall p i z, k = S p -> nth_error v p = Some (i, z) -> (z < sparseValue)%Z) ->
  (forall i z, nth_error v k = Some (i, z) -> (sparseValue <= z)%Z) -> bound k.
Proof.
  intros Hk H1 H2. split; auto. intros p i z E. split.
  - intros Hz. destruct (le_lt_dec k p) as [H|H]; auto. exfalso.
    destruct (nth_Some v k) as ([j w] & Ew). { pose proof (nth_len _ _ _ E). lia. }
    pose proof (H2 _ _ Ew). pose proof (n_le _ _ _ _ _ _ Ew E H). lia.
  - intros Hp. destruct k as [|k]; [lia|]. destruct (nth_Some v k) as ([j w] & Ew); [lia|].
    pose proof (H1 k j w eq_refl Ew). assert (Hpk: p <= k) by lia. pose proof (n_le _ _ _ _ _ _ E Ew Hpk). lia.
Qed.

Lemma first_spec cnt : forall i, i + cnt = n ->
  (forall p j z, p < i -> nth_error v p = Some (j, z) -> weight j = false /\ (z < sparseValue)%Z) ->
  exists k found, numericalFirst weight v sparseValue cnt i = Some (k, found) /\ k <= n /\
    (forall p j z, p < k -> nth_error v p = Some (j, z) -> weight j = false /\ (z < sparseValue)%Z) /\
    match found with
    | Some (j, z) => nth_error v k = Some (j, z) /\ (z < sparseValue)%Z /\ weight j = true
    | None => bound k
    end.
Proof.
  induction cnt as [|cnt IH]; intros i Hi HW; cbn [numericalFirst].
  - exists i, None. split; [reflexivity|]. split; [lia|]. split; [exact HW|]. apply bound_intro; [lia| |].
    + intros p j z -> E. eapply HW; eauto.
    + intros j z E. apply nth_len in E. lia.
  - destruct (nth_Some v i) as ([j z] & E); [lia|]. unfold aget. rewrite E. destruct (Z.ltb_spec z sparseValue) as [Hz|Hz]; cbn [negb].
    + destruct (weight j) eqn:W.
      * exists i, (Some (j, z)). split; [reflexivity|]. split; [lia|]. split; [exact HW|]. auto.
      * apply IH; [lia|]. intros p j' z' Hp E'. destruct (Nat.eq_dec p i) as [->|Hne].
        -- rewrite E in E'. injection E' as <- <-. auto.
        -- eapply HW; eauto. lia.
    + exists i, None. split; [reflexivity|]. split; [lia|]. split; [exact HW|]. apply bound_intro; [lia| |].
      * intros p j' z' -> E'. eapply HW; eauto.
      * intros j' z' E'. rewrite E in E'. injection E' as <- <-. auto.
Qed.

Lemma nup_spec cnt : forall i previous j0 c s l,
  i + cnt = n -> 0 < i -> range weight bins (ssCurrent s) 0 i c -> nth_error v (i - 1) = Some (j0, previous) ->
  (previous < sparseValue)%Z -> 0 < c -> Forall good l ->
  exists k previous' j' c' s' l', numericalUp weight total N minCoverage isEqual v sparseValue cnt i previous c s l =
      Some (k, previous', c', s', l') /\
    bound k /\ i <= k /\ 0 < c' /\ range weight bins (ssCurrent s') 0 k c' /\ ssAccumulated s' = ssAccumulated s /\
    nth_error v (k - 1) = Some (j', previous') /\ Forall good l' /\ incl l l' /\ (forall e, In e l' -> In e l \/ eEnd e < k) /\
    (forall p j1 a j2 b, i <= S p < k -> nth_error v p = Some (j1, a) -> nth_error v (S p) = Some (j2, b) ->
       isEqual a b = false -> weight j2 = true -> has (LeqMean a b) l' /\ has (GrMean a b) l').
Proof.
  induction cnt as [|cnt IH]; intros i previous j0 c s l Hn Hi HR Ep Hp Hc HG; cbn [numericalUp].
  - exists i, previous, j0, c, s, l. split; [reflexivity|]. split; [|fin].
    + apply bound_intro; [lia| |].
      * intros p j z -> E. replace (S p - 1) with p in Ep by lia. rewrite Ep in E. injection E as <- <-. auto.
      * intros j z E. apply nth_len in E. lia.
    + intros; lia.
  - destruct (nth_Some v i) as ([j z] & E); [lia|]. unfold aget. rewrite E.
    destruct (Z.ltb_spec z sparseValue) as [Hz|Hz]; cbn [negb].
    + pose (l1 := if weight j then
                    if isEqual previous z then l
                    else evaluate total N minCoverage s 0 i c (LeqMean previous z) (GrMean previous z) l
                  else l).
      assert (HL: Forall good l1 /\ incl l l1 /\ (forall e, In e l1 -> In e l \/ eEnd e = i) /\
                  (isEqual previous z = false -> weight j = true -> has (LeqMean previous z) l1 /\ has (GrMean previous z) l1)).
      { unfold l1. destruct (weight j) eqn:W; [|fin; congruence]. destruct (isEqual previous z) eqn:Q; [fin; congruence|].
        destruct (evaluate_spec examples weight value bins minCoverage n_bins s 0 i c (LeqMean previous z) (GrMean previous z) l)
          as (G & I & C1 & C2); auto.
        - intros x Hx. assert (Ei: i = S (i - 1)) by lia. replace i with (S (i - 1)) by lia. rewrite Ei in E. eapply n_leq; eauto.
          pose proof (n_le _ _ _ _ _ _ Ep E ltac:(lia)). assert (previous <> z) by (intros ->; rewrite HE in Q; discriminate). lia.
        - intros x Hx. apply mean_compl.
        - split; [exact G|]. split; [exact I|]. split; [|auto]. intros e He. apply evaluate_inv in He. tauto. }
      destruct HL as (G1 & I1 & V1 & C1).
      edestruct (IH (i + 1) z j (c + (if weight j then 1 else 0))
                   (mkSubset (ssCurrent s ++ (if weight j then [j] else [])) (ssAccumulated s)) l1) as
        (k & previous' & j' & c' & s' & l' & EE & HK & K0 & Hcc & R' & A' & P' & G' & I' & V' & H'); auto; try lia.
      { cbn [ssCurrent]. apply range_app with (b := i); [apply n_nodup|lia|exact HR|].
        rewrite Nat.add_1_r. eapply n_one; eauto. }
      { replace (i + 1 - 1) with i by lia. exact E. }
      exists k, previous', j', c', s', l'. split.
      * rewrite <- EE. unfold l1. destruct (weight j); cbn; [reflexivity|].
        rewrite app_nil_r, Nat.add_0_r. destruct s; reflexivity.
      * split; [exact HK|]. split; [lia|]. split; [exact Hcc|]. split; [exact R'|]. split; [exact A'|]. split; [exact P'|].
        split; [exact G'|]. split; [eapply incl_tran; eauto|]. split.
        -- intros e He. destruct (V' e He) as [He'|He']; auto. destruct (V1 e He'); auto. right. lia.
        -- intros p j1 a j2 b Hpk Ea Eb Q W. destruct (Nat.eq_dec (S p) i) as [Hpi|Hpi].
           ++ subst i. replace (S p - 1) with p in Ep by lia. rewrite Ep in Ea. injection Ea as <- <-.
              rewrite E in Eb. injection Eb as <- <-. destruct C1; auto. split; eapply has_incl; eauto.
           ++ eapply H'; eauto. lia.
    + exists i, previous, j0, c, s, l. split; [reflexivity|]. split; [|fin].
      * apply bound_intro; [lia| |].
        -- intros p j' z' -> E'. replace (S p - 1) with p in Ep by lia. rewrite Ep in E'. injection E' as <- <-. auto.
        -- intros j' z' E'. rewrite E in E'. injection E' as <- <-. auto.
      * intros; lia.
Qed.

Lemma last_spec k cnt : k + cnt <= n ->
  exists found, numericalLast weight v k cnt = Some found /\
    match found with
    | Some (i, j, z) => k <= i < k + cnt /\ nth_error v i = Some (j, z) /\ weight j = true /\
        (forall p j' z', i < p < k + cnt -> nth_error v p = Some (j', z') -> weight j' = false)
    | None => forall p j' z', k <= p < k + cnt -> nth_error v p = Some (j', z') -> weight j' = false
    end.
Proof.
  induction cnt as [|cnt IH]; intros H; cbn [numericalLast].
  - exists None. split; [reflexivity|]. intros; lia.
  - destruct (nth_Some v (k + cnt)) as ([j z] & E); [lia|]. unfold aget. rewrite E. destruct (weight j) eqn:W.
    + exists (Some (k + cnt, j, z)). split; [reflexivity|]. split; [lia|]. split; [exact E|]. split; [exact W|]. intros; lia.
    + destruct IH as (found & Ef & HF); [lia|]. exists found. split; [exact Ef|].
      assert (HX: forall p j' z', p = k + cnt -> nth_error v p = Some (j', z') -> weight j' = false) by (intros; subst; congruence).
      destruct found as [[[i j'] z']|].
      * destruct HF as (H1 & H2 & H3 & H4). split; [lia|]. split; [exact H2|]. split; [exact H3|].
        intros p x y Hp Ex. destruct (Nat.eq_dec p (k + cnt)); eauto. eapply H4; eauto. lia.
      * intros p x y Hp Ex. destruct (Nat.eq_dec p (k + cnt)); eauto. eapply HF; eauto. lia.
Qed.

Lemma ndown_spec k cnt : bound k -> forall previous j0 c s l,
  k + cnt + 1 < n -> range weight bins (ssCurrent s) (k + cnt + 1) n c ->
  nth_error v (k + cnt + 1) = Some (j0, previous) -> Forall good l ->
  exists previous' c' s' l', numericalDown weight total N minCoverage isEqual v k cnt previous c s l =
      Some (previous', c', s', l') /\
    ssAccumulated s' = ssAccumulated s /\ Forall good l' /\ incl l l' /\
    (forall p j1 a j2 b, k < p < k + cnt + 1 -> nth_error v p = Some (j1, a) -> nth_error v (S p) = Some (j2, b) ->
       isEqual b a = false -> weight j1 = true -> has (LeqMean a b) l' /\ has (GrMean a b) l').
Proof.
  intros HK. induction cnt as [|cnt IH]; intros previous j0 c s l Hn HR Ep HG; cbn [numericalDown].
  - exists previous, c, s, l. split; [reflexivity|]. split; [reflexivity|]. split; [exact HG|]. split; [apply incl_refl|]. intros; lia.
  - destruct (nth_Some v (k + S cnt)) as ([j z] & E); [lia|]. unfold aget. rewrite E.
    pose (l1 := if weight j then
                  if isEqual previous z then l
                  else evaluate total N minCoverage s (k + S cnt + 1) n c (GrMean z previous) (LeqMean z previous) l
                else l).
    assert (HL: Forall good l1 /\ incl l l1 /\
                (isEqual previous z = false -> weight j = true -> has (LeqMean z previous) l1 /\ has (GrMean z previous) l1)).
    { unfold l1. destruct (weight j) eqn:W; [|fin; congruence]. destruct (isEqual previous z) eqn:Q; [fin; congruence|].
      destruct (evaluate_spec examples weight value bins minCoverage n_bins s (k + S cnt + 1) n c (GrMean z previous) (LeqMean z previous) l)
        as (G & I & C1 & C2); auto.
      - rewrite Nat.add_1_r in *. eapply n_gr; eauto.
        + pose proof (n_le _ _ _ _ _ _ E Ep ltac:(lia)). assert (previous <> z) by (intros ->; rewrite HE in Q; discriminate). lia.
        + intros _. destruct HK as [_ HK]. pose proof (HK _ _ _ E). lia.
      - intros x Hx. apply mean_compl'. }
    destruct HL as (G1 & I1 & C1).
    edestruct (IH z j (c + (if weight j then 1 else 0))
                 (mkSubset (ssCurrent s ++ (if weight j then [j] else [])) (ssAccumulated s)) l1) as
      (previous' & c' & s' & l' & EE & A' & G' & I' & H'); auto; try lia.
    { cbn [ssCurrent]. apply range_app' with (b := k + S cnt + 1); [apply n_nodup|lia|exact HR|].
      replace (k + cnt + 1) with (k + S cnt) by lia. rewrite Nat.add_1_r. eapply n_one; eauto. }
    { replace (k + cnt + 1) with (k + S cnt) by lia. exact E. }
    exists previous', c', s', l'. split.
    + rewrite <- EE. unfold l1. destruct (weight j); cbn; [reflexivity|].
      rewrite app_nil_r, Nat.add_0_r. destruct s; reflexivity.
    + split; [exact A'|]. split; [exact G'|]. split; [eapply incl_tran; eauto|].
      intros p j1 a j2 b Hpk Ea Eb Q W. destruct (Nat.eq_dec p (k + S cnt)) as [Hpi|Hpi].
      * subst p. rewrite E in Ea. injection Ea as <- <-. rewrite <- Nat.add_1_r, Ep in Eb. injection Eb as <- <-.
        destruct C1; auto. split; eapply has_incl; eauto.
      * eapply H'; eauto. lia.
Qed.

Lemma range_ext cur a b a' b' c : range weight bins cur a b c ->
  (forall i, weight i = true -> (stored_between bins a b i <-> stored_between bins a' b' i)) ->
  range weight bins cur a' b' c.
Proof.
  intros (H1 & H2 & H3) H. split; [exact H1|]. split; [exact H2|]. intros i. rewrite H3. specialize (H i). split; intros [W B]; (split; [exact W|]); apply H; auto.
Qed.

Lemma zero_extend cur a a' b c : a' <= a <= b -> range weight bins cur a b c ->
  (forall p j z, a' <= p < a -> nth_error v p = Some (j, z) -> weight j = false) -> range weight bins cur a' b c.
Proof.
  intros H HR HW. eapply range_ext; [exact HR|]. intros i W. rewrite (between_split bins a' a b) by auto. split; auto.
  intros [(p & ids & Hp & Eb & Hi)|HB]; auto. exfalso. unfold positions in Eb. rewrite nth_error_map in Eb.
  destruct (nth_error v p) as [[j z]|] eqn:E; [|discriminate]. simpl in Eb. injection Eb as <-. destruct Hi as [<-|[]].
  rewrite (HW _ _ _ Hp E) in W. discriminate.
Qed.

Lemma zero_extend' cur a b b' c : a <= b <= b' -> range weight bins cur a b c ->
  (forall p j z, b <= p < b' -> nth_error v p = Some (j, z) -> weight j = false) -> range weight bins cur a b' c.
Proof.
  intros H HR HW. eapply range_ext; [exact HR|]. intros i W. rewrite (between_split bins a b b') by auto. split; auto.
  intros [HB|(p & ids & Hp & Eb & Hi)]; auto. exfalso. unfold positions in Eb. rewrite nth_error_map in Eb.
  destruct (nth_error v p) as [[j z]|] eqn:E; [|discriminate]. simpl in Eb. injection Eb as <-. destruct Hi as [<-|[]].
  rewrite (HW _ _ _ Hp E) in W. discriminate.
Qed.

Lemma numerical_search :
  exists l l0, searchNumerical weight total N minCoverage isEqual v sparseValue sparse = Some l /\
    Forall good l0 /\ incl l0 l /\
    (forall e, In e l -> In e l0 \/ (eStart e = less_than_sparse v sparseValue /\ eEnd e = n) \/
                         (sparse = true /\ good e) \/ (sparse = false /\ eStart e = 0 /\ eEnd e = less_than_sparse v sparseValue)) /\
    ((forall i, In i examples -> weight i = true) ->
     forall p j1 a j2 b, S p < less_than_sparse v sparseValue \/ less_than_sparse v sparseValue < p ->
       nth_error v p = Some (j1, a) -> nth_error v (S p) = Some (j2, b) -> isEqual a b = false -> isEqual b a = false ->
       has (LeqMean a b) l0 /\ has (GrMean a b) l0).
Proof.
  unfold searchNumerical. destruct (first_spec n 0) as (k0 & found & E0 & Hk0 & HW0 & HF); [lia|intros; lia|].
  rewrite E0.
  assert (H1: exists k lastLess numLess s l,
    match found with
    | Some (index, previous) =>
        let* (i, previous, numCovered, s, l) :=
          numericalUp weight total N minCoverage isEqual v sparseValue (n - (k0 + 1)) (k0 + 1) previous 1
            (addToSubset index emptySubset) [] in
        Some (i, previous, numCovered, resetSubset s, l)
    | None => Some (k0, sparseValue, 0, emptySubset, [])
    end = Some (k, lastLess, numLess, s, l) /\
    bound k /\ ssCurrent s = [] /\ Forall good l /\
    (0 < numLess -> 0 < k /\ exists acc j, ssAccumulated s = Some acc /\ range weight bins acc 0 k numLess /\
       nth_error v (k - 1) = Some (j, lastLess)) /\
    ((forall i, In i examples -> weight i = true) ->
     forall p j1 a j2 b, S p < k -> nth_error v p = Some (j1, a) -> nth_error v (S p) = Some (j2, b) ->
       isEqual a b = false -> has (LeqMean a b) l /\ has (GrMean a b) l)).
  { destruct found as [[j z]|].
    - destruct HF as (Ej & Hz & W).
      edestruct (nup_spec (n - (k0 + 1)) (k0 + 1) z j 1 (addToSubset j emptySubset) []) as
        (k & previous' & j' & c' & s' & l' & E & HK & K0 & Hcc & R' & A' & P' & G' & I' & V' & H'); auto; try lia.
      + pose proof (nth_len _ _ _ Ej). lia.
      + cbn. pose proof (n_one _ _ _ Ej) as H. rewrite W in H. rewrite Nat.add_1_r.
        apply zero_extend with (a := k0); [lia|exact H|]. intros p j' z' Hp E. eapply HW0; eauto. lia.
      + replace (k0 + 1 - 1) with k0 by lia. exact Ej.
      + rewrite E. exists k, previous', c', (resetSubset s'), l'. split; [reflexivity|]. split; [exact HK|].
        split; [reflexivity|]. split; [exact G'|]. split.
        * intros _. split; [lia|]. exists (ssCurrent s'), j'. cbn. rewrite A'. cbn. auto.
        * intros HWall p j1 a j2 b Hp Ea Eb Q.
          assert (HI: forall p i z, nth_error v p = Some (i, z) -> weight i = true).
          { intros p' i' z' E'. apply HWall. destruct HV as (_ & _ & HIn & _). apply HIn.
            change i' with (fst (i', z')). apply in_map. eapply nth_error_In; eauto. }
          assert (k0 = 0). { destruct k0 as [|k0]; auto. exfalso. destruct (nth_Some v 0) as ([x y] & Ex); [lia|].
            destruct (HW0 0 x y) as [F _]; [lia|exact Ex|]. rewrite (HI _ _ _ Ex) in F. discriminate. }
          eapply (H' p); eauto; lia.
    - exists k0, sparseValue, 0, emptySubset, []. split; [reflexivity|]. split; [exact HF|]. split; [reflexivity|].
      split; [constructor|]. split; [lia|]. intros HWall p j1 a j2 b Hp Ea Eb Q. exfalso.
      destruct (HW0 p j1 a) as [F _]; [lia|exact Ea|]. rewrite HWall in F; [discriminate|].
      destruct HV as (_ & _ & HIn & _). apply HIn. change j1 with (fst (j1, a)). apply in_map. eapply nth_error_In; eauto. }
  destruct H1 as (k & lastLess & numLess & s & l & E1 & HK & SC & G1 & KP & HH1). rewrite E1.
  pose proof (bound_eq k HK) as Hk. rewrite <- Hk. pose proof HK as [Hkn HKv].
  destruct (last_spec k (n - k)) as (found2 & E2 & HF2); [lia|]. rewrite E2.
  assert (H2: exists previous c s' l',
    match found2 with
    | Some (i, index, previous) =>
        let s := addToSubset index s in
        if 0 <? i then numericalDown weight total N minCoverage isEqual v k (i - 1 - k) previous 1 s l
        else Some (previous, 1, s, l)
    | None => Some (lastLess, 0, s, l)
    end = Some (previous, c, s', l') /\
    ssAccumulated s' = ssAccumulated s /\ Forall good l' /\ incl l l' /\
    ((forall i, In i examples -> weight i = true) ->
     forall p j1 a j2 b, k < p -> nth_error v p = Some (j1, a) -> nth_error v (S p) = Some (j2, b) ->
       isEqual b a = false -> has (LeqMean a b) l' /\ has (GrMean a b) l')).
  { destruct found2 as [[[i j] z]|].
    - destruct HF2 as (Hi & Ej & W & HZ). cbv zeta.
      assert (HR: range weight bins (ssCurrent (addToSubset j s)) i n 1).
      { cbn. rewrite SC. cbn. pose proof (n_one _ _ _ Ej) as H. rewrite W in H.
        apply zero_extend' with (b := S i); [lia|exact H|]. intros p x y Hp. apply HZ. lia. }
      assert (HI: (forall i, In i examples -> weight i = true) -> i = n - 1).
      { intros HWall. destruct (Nat.eq_dec i (n - 1)) as [Hin|Hin]; auto. exfalso.
        destruct (nth_Some v (n - 1)) as ([x y] & Ex); [lia|]. pose proof (HZ (n - 1) x y ltac:(lia) Ex) as F.
        rewrite HWall in F; [discriminate|]. destruct HV as (_ & _ & HIn & _). apply HIn.
        change x with (fst (x, y)). apply in_map. eapply nth_error_In; eauto. }
      destruct (Nat.ltb_spec 0 i) as [Hi0|Hi0].
      + destruct (Nat.eq_dec i k) as [Hik|Hik].
        * replace (i - 1 - k) with 0 by lia. cbn [numericalDown]. exists z, 1, (addToSubset j s), l.
          split; [reflexivity|]. split; [reflexivity|]. split; [exact G1|]. split; [apply incl_refl|].
          intros HWall p j1 a j2 b Hp Ea Eb. specialize (HI HWall). apply nth_len in Eb. lia.
        * edestruct (ndown_spec k (i - 1 - k) HK z j 1 (addToSubset j s) l) as
            (previous' & c' & s' & l' & EE & A' & G' & I' & H'); auto.
          -- replace (k + (i - 1 - k) + 1) with i by lia. lia.
          -- replace (k + (i - 1 - k) + 1) with i by lia. exact HR.
          -- replace (k + (i - 1 - k) + 1) with i by lia. exact Ej.
          -- exists previous', c', s', l'. split; [exact EE|]. split; [exact A'|]. split; [exact G'|]. split; [exact I'|].
             intros HWall p j1 a j2 b Hp Ea Eb Q. specialize (HI HWall). eapply H'; eauto.
             ++ apply nth_len in Eb. lia.
             ++ apply HWall. destruct HV as (_ & _ & HIn & _). apply HIn.
                change j1 with (fst (j1, a)). apply in_map. eapply nth_error_In; eauto.
      + exists z, 1, (addToSubset j s), l.
        split; [reflexivity|]. split; [reflexivity|]. split; [exact G1|]. split; [apply incl_refl|].
        intros HWall p j1 a j2 b Hp Ea Eb. specialize (HI HWall). apply nth_len in Eb. lia.
    - exists lastLess, 0, s, l. split; [reflexivity|]. split; [reflexivity|]. split; [exact G1|]. split; [apply incl_refl|].
      intros HWall p j1 a j2 b Hp Ea Eb Q. exfalso. pose proof (nth_len _ _ _ Ea).
      assert (F: weight j1 = false) by (eapply (HF2 p); eauto; lia).
      rewrite HWall in F; [discriminate|]. destruct HV as (_ & _ & HIn & _). apply HIn.
      change j1 with (fst (j1, a)). apply in_map. eapply nth_error_In; eauto. }
  destruct H2 as (previous & c & s' & l' & E3 & A3 & G3 & I3 & HH3). cbv zeta in E3 |- *. rewrite E3.
  set (l4 := if sparse then evaluate total N minCoverage s' k n c (GrMean sparseValue previous) (LeqMean sparseValue previous) l' else l').
  assert (I4: incl l' l4). { unfold l4. destruct (bool_dec sparse true) as [Hsp|Hsp]; [|apply not_true_is_false in Hsp]; rewrite Hsp; [apply evaluate_incl|apply incl_refl]. }
  assert (V4: forall e, In e l4 -> In e l' \/ (eStart e = k /\ eEnd e = n)).
  { intros e He. unfold l4 in He. destruct (bool_dec sparse true) as [Hsp|Hsp]; [|apply not_true_is_false in Hsp]; rewrite Hsp in He; auto. apply evaluate_inv in He. exact He. }
  assert (HHH: (forall i, In i examples -> weight i = true) ->
     forall p j1 a j2 b, S p < k \/ k < p ->
       nth_error v p = Some (j1, a) -> nth_error v (S p) = Some (j2, b) -> isEqual a b = false -> isEqual b a = false ->
       has (LeqMean a b) l' /\ has (GrMean a b) l').
  { intros HWall p j1 a j2 b [Hp|Hp] Ea Eb Q Q'.
    - destruct (HH1 HWall p j1 a j2 b) as [D1 D2]; auto. split; eapply has_incl; eauto.
    - eapply HH3; eauto. }
  destruct (Nat.ltb_spec 0 numLess) as [Hl|Hl]; cbn [andb].
  2: { exists l4, l'. split; [reflexivity|]. split; [exact G3|]. split; [exact I4|]. split; [|exact HHH].
       intros e He. destruct (V4 e He); auto. }
  destruct (Nat.ltb_spec numLess N) as [HN|HN].
  2: { exists l4, l'. split; [reflexivity|]. split; [exact G3|]. split; [exact I4|]. split; [|exact HHH].
       intros e He. destruct (V4 e He); auto. }
  destruct (KP Hl) as (Hk0' & acc & j & Ea & Ra & Ev).
  destruct (bool_dec sparse true) as [Hsp|Hsp]; [|apply not_true_is_false in Hsp]; rewrite Hsp.
  - assert (HLess: forall i, In i examples -> (holds (LeqMean lastLess sparseValue) (value i) = true <-> stored_between bins 0 k i)).
    { intros i Hi. cbn [holds]. rewrite Z.leb_le. assert (Hls: (lastLess < sparseValue)%Z) by (apply (HKv _ _ _ Ev); lia).
      destruct (n_cases i Hi) as [(q & Hq & Eq & HB)|(S1 & S2 & HB)].
      - rewrite HB. split.
        + intros H. split; [lia|]. apply (HKv _ _ _ Eq). lia.
        + intros [_ H]. assert (Hqk: q <= k - 1) by lia. pose proof (n_le _ _ _ _ _ _ Eq Ev Hqk). lia.
      - split; [lia|]. intros H. exfalso. eapply HB; eauto. }
    destruct (evaluate_accumulated_spec examples weight value bins minCoverage n_bins s' acc 0 k numLess
                (LeqMean lastLess sparseValue) (GrMean lastLess sparseValue) []) as (l5 & E5 & G5 & I5 & D1 & D2); auto.
    { congruence. }
    { intros x Hx. apply mean_compl. }
    assert (E6: evaluateAccumulated total N minCoverage s' 0 k numLess (LeqMean lastLess sparseValue) (GrMean lastLess sparseValue) l4
              = Some (l4 ++ l5)).
    { revert E5. unfold evaluateAccumulated. rewrite A3, Ea. destruct (minCoverage <=? numLess), (minCoverage <=? N - numLess); intros [= <-];
        rewrite ?app_nil_r, ?app_assoc; simpl; rewrite <- ?app_assoc; reflexivity. }
    exists (l4 ++ l5), l'. split; [exact E6|]. split; [exact G3|]. split; [apply incl_appl; exact I4|]. split; [|exact HHH].
    intros e He. apply in_app_iff in He. destruct He as [He|He].
    + destruct (V4 e He); auto.
    + right. right. left. split; auto. rewrite Forall_forall in G5. auto.
  - assert (E6: exists l5, evaluateAccumulated total N minCoverage s' 0 k numLess (LeqMean lastLess previous) (GrMean lastLess previous) l4
              = Some (l4 ++ l5) /\ forall e, In e l5 -> eStart e = 0 /\ eEnd e = k).
    { unfold evaluateAccumulated. rewrite A3, Ea. destruct (minCoverage <=? numLess), (minCoverage <=? N - numLess).
      all: eexists; split; [rewrite <- ?app_assoc; simpl; try reflexivity; rewrite <- (app_nil_r l4) at 1; reflexivity|].
      all: simpl; intuition; subst; auto. }
    destruct E6 as (l5 & E6 & V5). exists (l4 ++ l5), l'. split; [exact E6|]. split; [exact G3|].
    split; [apply incl_appl; exact I4|]. split; [|exact HHH].
    intros e He. apply in_app_iff in He. destruct He as [He|He].
    + destruct (V4 e He); auto.
    + right. right. right. split; auto.
Qed.

Lemma crossing z i0 j0 x y a b : nth_error v a = Some (i0, x) -> nth_error v b = Some (j0, y) -> (x <= z < y)%Z ->
  exists p i j x' y', a <= p < b /\ nth_error v p = Some (i, x') /\ nth_error v (S p) = Some (j, y') /\ (x' <= z < y')%Z.
Proof.
  intros Ea. revert j0 y. induction b as [|b IH]; intros j0 y Eb H.
  - exfalso. pose proof (n_le _ _ _ _ _ _ Eb Ea ltac:(lia)). lia.
  - assert (Hab: a < S b). { destruct (le_lt_dec (S b) a) as [L|L]; auto. exfalso. pose proof (n_le _ _ _ _ _ _ Eb Ea L). lia. }
    destruct (nth_Some v b) as ([i w] & Ew). { apply nth_len in Eb. lia. }
    destruct (Z_le_gt_dec w z) as [L|L].
    + exists b, i, j0, w, y. repeat split; auto; lia.
    + destruct (IH i w) as (p & i' & j' & x' & y' & Hp & R); auto; [lia|]. exists p, i', j', x', y'. split; [lia|exact R].
Qed.

Lemma numerical_exact :
  exists l, searchNumerical weight total N minCoverage isEqual v sparseValue sparse = Some l /\
    (forall e, In e l ->
       eEnd e < less_than_sparse v sparseValue \/ less_than_sparse v sparseValue < eStart e \/
       (sparse = true /\ eStart e = 0 /\ 0 < eEnd e /\ eEnd e = less_than_sparse v sparseValue) ->
       exact examples weight value bins e) /\
    ((forall a b, isEqual a b = true -> a = b) -> (forall i, In i examples -> weight i = true) ->
     forall z t, t = Leq z \/ t = Gr z -> separating examples weight value z ->
       (exists p i x, p < less_than_sparse v sparseValue /\ nth_error v p = Some (i, x) /\ (z < x)%Z) \/
       (exists p i x, less_than_sparse v sparseValue < p /\ nth_error v p = Some (i, x) /\ (x <= z)%Z) ->
       minCoverage <= support examples weight value t -> considered examples value t l).
Proof.
  destruct numerical_search as (l & l0 & E & G & I & V & H). exists l. split; [exact E|].
  assert (HK: bound (less_than_sparse v sparseValue)).
  { destruct (first_spec n 0) as (k0 & found & E0 & Hk0 & HW0 & HF); [lia|intros; lia|]. clear -HV.
    assert (HX: exists k, bound k).
    { assert (HX: forall m, m <= n -> (exists k, bound k) \/ forall p i z, p < m -> nth_error v p = Some (i, z) -> (z < sparseValue)%Z).
      { induction m as [|m IH]; intros Hm; [right; intros; lia|]. destruct IH as [IH|IH]; [lia|auto|].
        destruct (nth_Some v m) as ([i z] & Ez); [lia|]. destruct (Z_lt_le_dec z sparseValue) as [Hz|Hz].
        - right. intros p j w Hp Ew. destruct (Nat.eq_dec p m) as [->|Hne]; [|eapply IH; eauto; lia].
          rewrite Ez in Ew. injection Ew as <- <-. exact Hz.
        - left. exists m. apply bound_intro; [lia| |].
          + intros p j w -> Ew. eapply IH; eauto.
          + intros j w Ew. rewrite Ez in Ew. injection Ew as <- <-. exact Hz. }
      destruct (HX n) as [HX'|HX']; auto. exists n. apply bound_intro; [lia| |].
      - intros p i z Hp Ez. eapply (HX' p); eauto. lia.
      - intros i z Ez. apply nth_len in Ez. lia. }
    destruct HX as (k & Hk). rewrite <- (bound_eq k Hk). exact Hk. }
  set (k := less_than_sparse v sparseValue) in *. pose proof HK as [Hkn HKv]. split.
  - intros e He HS. rewrite Forall_forall in G. destruct (V e He) as [H1|[[H1 H2]|[[H1 H2]|[H1 [H2 H3]]]]].
    + apply G; auto.
    + exfalso. destruct HS as [HS|[HS|(_ & H3 & H4 & H5)]]; lia.
    + apply H2.
    + exfalso. destruct HS as [HS|[HS|(H4 & _)]]; try lia. congruence.
  - intros HQ HWall z t Ht ((i & Hi & Wi & Vi) & (j & Hj & Wj & Vj)) HZ Hs.
    assert (HC: exists p i j x y, (S p < k \/ k < p) /\ nth_error v p = Some (i, x) /\ nth_error v (S p) = Some (j, y) /\ (x <= z < y)%Z).
    { destruct HZ as [(p & i1 & x & Hp & Ep & Hx)|(p & i1 & x & Hp & Ep & Hx)].
      - pose proof (proj2 (HKv _ _ _ Ep) Hp).
        destruct (n_cases i Hi) as [(q & Hq & Eq & _)|(_ & S2 & _)]; [|lia].
        destruct (crossing z _ _ _ _ _ _ Eq Ep) as (p' & i' & j' & x' & y' & Hp' & R); [lia|].
        exists p', i', j', x', y'. split; [lia|exact R].
      - assert (sparseValue <= x)%Z. { destruct (Z_lt_le_dec x sparseValue) as [L|L]; auto. apply (HKv _ _ _ Ep) in L. lia. }
        destruct (n_cases j Hj) as [(q & Hq & Eq & _)|(_ & S2 & _)]; [|lia].
        destruct (crossing z _ _ _ _ _ _ Ep Eq) as (p' & i' & j' & x' & y' & Hp' & R); [lia|].
        exists p', i', j', x', y'. split; [lia|exact R]. }
    destruct HC as (p & i' & j' & x & y & Hp & Ex & Ey & Hxy).
    assert (Hne: forall a b, a <> b -> isEqual a b = false).
    { intros a b Hab. destruct (isEqual a b) eqn:Q; auto. apply HQ in Q. contradiction. }
    destruct (H HWall p i' x j' y Hp Ex Ey) as [C1 C2]; [apply Hne; lia|apply Hne; lia|].
    assert (HX: forall m, In m examples -> (2 * value m <= x + y)%Z <-> (value m <= z)%Z).
    { intros m Hm. destruct (n_cases m Hm) as [(q & Hq & Eq & _)|(_ & S2 & _)].
      - destruct (le_lt_dec q p) as [L|L]; [pose proof (n_le _ _ _ _ _ _ Eq Ex L)|pose proof (n_le _ _ _ _ _ _ Ey Eq L)]; lia.
      - rewrite S2. destruct Hp as [Hp|Hp].
        + assert (y < sparseValue)%Z by (apply (HKv _ _ _ Ey); auto). lia.
        + assert (sparseValue <= x)%Z. { destruct (Z_lt_le_dec x sparseValue) as [L|L]; auto. apply (HKv _ _ _ Ex) in L. lia. } lia. }
    destruct Ht as [-> | ->].
    + assert (HY: forall m, In m examples -> holds (LeqMean x y) (value m) = holds (Leq z) (value m)).
      { intros m Hm. cbn [holds]. specialize (HX m Hm). destruct (Z.leb_spec (2 * value m) (x + y)), (Z.leb_spec (value m) z); auto; lia. }
      destruct C1 as (e & He & Et); [rewrite (support_ext _ _ _ _ _ HY); exact Hs|]. exists e. split; auto. rewrite Et. exact HY.
    + assert (HY: forall m, In m examples -> holds (GrMean x y) (value m) = holds (Gr z) (value m)).
      { intros m Hm. cbn [holds]. specialize (HX m Hm). destruct (Z.ltb_spec (x + y) (2 * value m)), (Z.ltb_spec z (value m)); auto; lia. }
      destruct C2 as (e & He & Et); [rewrite (support_ext _ _ _ _ _ HY); exact Hs|]. exists e. split; auto. rewrite Et. exact HY.
Qed.

End Numerical.
