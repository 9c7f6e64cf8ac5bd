(** Proofs about statistics and evaluations that are computed from sparse data. *)
From Coq Require Import Reals Lra List Bool Arith Lia Sorted Permutation.
From Verif Require Import Lib.Arr Model.Containers Model.Losses Model.BoostStatistics Model.SparseLosses Spec.Containers Spec.Losses
  Spec.BoostStatistics Spec.SparseLosses Proofs.Containers Proofs.Losses Proofs.BoostStatistics.
Import ListNotations.
Open Scope R_scope.

(** ** Merging labels and scores *)

Fixpoint merge {V} (fuel : nat) (f : bool -> R -> V) (labels : list nat) (scores : list (nat * R)) : list (nat * V) :=
  match fuel with
  | O => []
  | S fuel =>
      match fetchNext f labels scores with
      | (Some x, (labels, scores)) => x :: merge fuel f labels scores
      | (None, _) => []
      end
  end.

Definition size (labels : list nat) (scores : list (nat * R)) : nat := (length labels + length scores)%nat.

Lemma fetchNext_size {V} (f : bool -> R -> V) labels scores : forall x l s, fetchNext f labels scores = (Some x, (l, s)) ->
  (size l s < size labels scores)%nat.
Proof.
  intros x l s. unfold fetchNext, size. destruct labels as [|o labels], scores as [|[si sc] scores]; intros E; try congruence.
  - injection E as <- <- <-. simpl. lia.
  - injection E as <- <- <-. simpl. lia.
  - destruct (si <? o); [|destruct (o <? si)]; injection E as <- <- <-; simpl; lia.
Qed.

Lemma fetchNext_none {V} (f : bool -> R -> V) labels scores : forall r, fetchNext f labels scores = (None, r) ->
  labels = [] /\ scores = [].
Proof.
  intros r. unfold fetchNext. destruct labels as [|o labels], scores as [|[si sc] scores]; auto; try discriminate.
  destruct (si <? o); [discriminate|destruct (o <? si); discriminate].
Qed.

Lemma merge_fuel {V} (f : bool -> R -> V) k : forall labels scores, (size labels scores <= k)%nat ->
  merge k f labels scores = merge (size labels scores) f labels scores.
Proof.
  induction k as [k IH] using lt_wf_ind. intros labels scores H.
  destruct k as [|k].
  - replace (size labels scores) with 0%nat by lia. auto.
  - simpl. destruct (fetchNext f labels scores) as [[x|] [l s]] eqn:E.
    + pose proof (fetchNext_size f _ _ _ _ _ E) as Z. destruct (size labels scores) as [|z]; [lia|]. simpl. rewrite E. f_equal.
      rewrite (IH k) by lia. symmetry. destruct (Nat.eq_dec z k); [subst; apply IH; lia|]. apply IH; lia.
    + destruct (fetchNext_none f _ _ _ E) as [-> ->]. simpl. auto.
Qed.

Definition mergeAll {V} (f : bool -> R -> V) labels scores := merge (size labels scores) f labels scores.

Lemma mergeAll_step {V} (f : bool -> R -> V) labels scores :
  mergeAll f labels scores = match fetchNext f labels scores with
                             | (Some x, (l, s)) => x :: mergeAll f l s
                             | (None, _) => []
                             end.
Proof.
  unfold mergeAll. rewrite <- (merge_fuel f (S (size labels scores))) by lia. simpl.
  destruct (fetchNext f labels scores) as [[x|] [l s]] eqn:E; auto.
  rewrite (merge_fuel f (size labels scores)); auto. pose proof (fetchNext_size f _ _ _ _ _ E). lia.
Qed.

Lemma fetchNextNonZero_spec {V} (f : bool -> R -> V) isZero k : forall labels scores, (size labels scores < k)%nat ->
  exists l s, 
    fetchNextNonZero k f isZero labels scores =
      Some (hd_error (filter (fun e => negb (isZero (snd e))) (mergeAll f labels scores)), (l, s)) /\
    filter (fun e => negb (isZero (snd e))) (mergeAll f l s) =
      tl (filter (fun e => negb (isZero (snd e))) (mergeAll f labels scores)) /\
    (size l s <= size labels scores)%nat /\
    (filter (fun e => negb (isZero (snd e))) (mergeAll f labels scores) <> [] -> (size l s < size labels scores)%nat).
Proof.
  induction k as [|k IH]; intros labels scores H; [lia|]. simpl. rewrite mergeAll_step.
  destruct (fetchNext f labels scores) as [[[i v]|] [l s]] eqn:E.
  - pose proof (fetchNext_size f _ _ _ _ _ E) as Z. simpl. destruct (isZero v) eqn:D; simpl.
    + destruct (IH l s ltac:(lia)) as (l' & s' & E' & T & S1 & S2). exists l', s'. split; [auto|split; [auto|split; [lia|]]].
      intros Q. specialize (S2 Q). lia.
    + exists l, s. split; [auto|split; [auto|split; [lia|]]]. auto.
  - exists l, s. destruct (fetchNext_none f _ _ _ E) as [-> ->]. simpl in E. injection E as <- <-. simpl.
    split; [auto|split; [auto|split; [lia|]]]. intros Q. congruence.
Qed.

Definition nonZeros {V} (isZero : V -> bool) (l : list (nat * V)) := filter (fun e => negb (isZero (snd e))) l.

Definition store (row : sset (R * R)) (e : nat * (R * R)) : option (sset (R * R)) :=
  let* row := ss_emplace row (fst e) (snd e) in ss_update row (fst e) (fun _ => snd e).

Lemma updateLoop_spec update k : forall labels scores row, (size labels scores < k)%nat ->
  updateLoop k update labels scores row =
    forL (nonZeros (fun x => isEqualToZero (fst x)) (mergeAll update labels scores)) (fun e row => store row e) row.
Proof.
  induction k as [|k IH]; intros labels scores row H; [lia|]. cbn [updateLoop].
  destruct (fetchNextNonZero_spec update (fun x => isEqualToZero (fst x)) (enough labels scores) labels scores)
    as (l & s & E & T & S1 & S2); [unfold enough, size; lia|].
  rewrite E. unfold nonZeros in *. destruct (filter _ (mergeAll update labels scores)) as [|[i x] rest] eqn:F; simpl in *; auto.
  specialize (S2 ltac:(discriminate)). unfold store at 1. simpl.
  destruct (ss_emplace row i x) as [r|]; simpl; auto. destruct (ss_update r i (fun _ => x)) as [r'|]; simpl; auto.
  rewrite IH by lia. rewrite <- T. auto.
Qed.

Lemma evaluateLoop_spec evaluate k : forall labels scores i mean, (size labels scores < k)%nat ->
  exists mean', evaluateLoop k evaluate labels scores i mean =
      Some ((i + length (nonZeros isEqualToZero (mergeAll evaluate labels scores)))%nat, mean') /\
    mean' * INR (i + length (nonZeros isEqualToZero (mergeAll evaluate labels scores))) =
      mean * INR i + fold_right Rplus 0 (map snd (nonZeros isEqualToZero (mergeAll evaluate labels scores))).
Proof.
  induction k as [|k IH]; intros labels scores i mean H; [lia|]. cbn [evaluateLoop].
  destruct (fetchNextNonZero_spec evaluate isEqualToZero (enough labels scores) labels scores)
    as (l & s & E & T & S1 & S2); [unfold enough, size; lia|].
  rewrite E. unfold nonZeros in *. destruct (filter _ (mergeAll evaluate labels scores)) as [|[j x] rest] eqn:F; simpl in *.
  - exists mean. rewrite Nat.add_0_r. split; auto. lra.
  - specialize (S2 ltac:(discriminate)).
    destruct (IH l s (i + 1)%nat (mean + (x - mean) / INR (i + 1)) ltac:(lia)) as (mean' & E' & M).
    rewrite T in E', M. exists mean'. replace (i + S (length rest))%nat with (i + 1 + length rest)%nat by lia.
    split; [exact E'|]. rewrite M. rewrite plus_INR at 2. simpl (INR 1).
    assert (INR i + 1 <> 0). { pose proof (pos_INR i). lra. }
    rewrite plus_INR. simpl (INR 1). field. auto.
Qed.

(** *** Sorted elements *)

Definition lookup (scores : list (nat * R)) (i : nat) : R :=
  match find (fun e => fst e =? i) scores with Some e => snd e | None => 0 end.

Lemma isMember_In l i : isMember l i = true <-> In i l.
Proof.
  unfold isMember. rewrite existsb_exists. split.
  - intros (x & H & E). apply Nat.eqb_eq in E. subst; auto.
  - intros H. exists i. split; auto. apply Nat.eqb_refl.
Qed.

Lemma isMember_not l i : ~ In i l -> isMember l i = false.
Proof. intros H. destruct (isMember l i) eqn:E; auto. apply isMember_In in E. contradiction. Qed.

Lemma lookup_not scores i : ~ In i (map fst scores) -> lookup scores i = 0.
Proof.
  intros H. unfold lookup. destruct (find _ scores) as [[j x]|] eqn:E; auto. apply find_some in E. destruct E as [E1 E2].
  apply Nat.eqb_eq in E2. simpl in E2. subst j. elim H. apply in_map_iff. exists (i, x). auto.
Qed.

Lemma mergeAll_sorted {V} (f : bool -> R -> V) k : forall labels scores, (size labels scores <= k)%nat ->
  StronglySorted lt labels -> StronglySorted lt (map fst scores) ->
  StronglySorted lt (map fst (mergeAll f labels scores)) /\
  (forall i v, In (i, v) (mergeAll f labels scores) <->
    (In i labels \/ In i (map fst scores)) /\ v = f (isMember labels i) (lookup scores i)).
Proof.
  induction k as [|k IH]; intros labels scores K SL SS.
  - destruct labels, scores; unfold size in K; simpl in K; try lia. unfold mergeAll. simpl. split; [constructor|]. intuition.
  - rewrite mergeAll_step. destruct labels as [|o labels], scores as [|[si sc] scores].
    + simpl. split; [constructor|]. intuition.
    + cbn [fetchNext]. cbn [map fst] in SS. apply StronglySorted_inv in SS. destruct SS as [SS F]. rewrite Forall_forall in F.
      destruct (IH [] scores) as [A B]; auto; [unfold size in *; simpl in *; lia|].
      assert (N : ~ In si (map fst scores)) by (intros Q; specialize (F _ Q); lia).
      split.
      * cbn [map fst]. constructor; auto. rewrite Forall_forall. intros j Hj. apply in_map_iff in Hj. destruct Hj as ([j' v] & <- & Hj).
        apply B in Hj. destruct Hj as [[[]|Hj] _]. apply F. auto.
      * intros i v. cbn [In map fst]. rewrite B. unfold lookup. cbn [find fst]. fold (lookup scores i).
        destruct (Nat.eqb_spec si i).
        { subst si. cbn [snd]. change (isMember [] i) with false. split.
          - intros [Q|[[[]|Q] _]]; [|contradiction]. split; [auto|]. congruence.
          - intros [_ ->]. left; auto. }
        { split; intros Q.
          - destruct Q as [Q|[[[]|Q] E]]; [congruence|]. split; auto.
          - destruct Q as [[[]|[Q|Q]] E]; [congruence|]. right. auto. }
    + cbn [fetchNext]. apply StronglySorted_inv in SL. destruct SL as [SL F]. rewrite Forall_forall in F.
      destruct (IH labels []) as [A B]; auto; [unfold size in *; simpl in *; lia|].
      assert (N : ~ In o labels) by (intros Q; specialize (F _ Q); lia).
      split.
      * cbn [map fst]. constructor; auto. rewrite Forall_forall. intros j Hj. apply in_map_iff in Hj. destruct Hj as ([j' v] & <- & Hj).
        apply B in Hj. destruct Hj as [[Hj|[]] _]. apply F. auto.
      * intros i v. cbn [In map fst]. rewrite B. change (lookup [] i) with 0. 
        unfold isMember. cbn [existsb]. fold (isMember labels i). cbn [In map fst].
        destruct (Nat.eqb_spec i o).
        { subst o. cbn [orb]. split.
          - intros [Q|[[Q|[]] _]]; [|contradiction]. split; [auto|]. congruence.
          - intros [_ ->]. left; auto. }
        { cbn [orb]. split; intros Q.
          - destruct Q as [Q|[[Q|[]] E]]; [congruence|]. split; auto.
          - destruct Q as [[[Q|Q]|[]] E]; [congruence|]. right. auto. }
    + cbn [fetchNext]. pose proof SL as SL0. pose proof SS as SS0. cbn [map fst] in SS.
      apply StronglySorted_inv in SL. destruct SL as [SL FL]. rewrite Forall_forall in FL.
      apply StronglySorted_inv in SS. destruct SS as [SS FS]. rewrite Forall_forall in FS.
      assert (NL : ~ In o labels) by (intros Q; specialize (FL _ Q); lia).
      assert (NS : ~ In si (map fst scores)) by (intros Q; specialize (FS _ Q); lia).
      destruct (Nat.ltb_spec si o); [|destruct (Nat.ltb_spec o si)].
      * destruct (IH (o :: labels) scores) as [A B]; auto; [unfold size in *; simpl in *; lia|].
        assert (NO : ~ In si (o :: labels)) by (intros [Q|Q]; [lia|specialize (FL _ Q); lia]).
        split.
        { cbn [map fst]. constructor; auto. rewrite Forall_forall. intros j Hj. apply in_map_iff in Hj. destruct Hj as ([j' v] & <- & Hj).
          apply B in Hj. destruct Hj as [[[Hj|Hj]|Hj] _]; cbn [fst]; [lia|specialize (FL _ Hj); lia|apply FS; auto]. }
        { intros i v. cbn [In]. rewrite B. unfold lookup at 2. cbn [find fst]. fold (lookup scores i). cbn [map fst].
          change (In i (si :: map fst scores)) with (si = i \/ In i (map fst scores)).
          destruct (Nat.eqb_spec si i).
          - subst si. cbn [snd]. rewrite (isMember_not _ _ NO). split.
            + intros [Q|[[Q|Q] _]]; [|contradiction|contradiction]. split; [auto|]. congruence.
            + intros [_ ->]. left; auto.
          - split; intros Q.
            + destruct Q as [Q|[[Q|Q] E]]; [congruence| |]; split; auto.
            + destruct Q as [[Q|[Q|Q]] E]; [|congruence|]; right; auto. }
      * destruct (IH labels ((si, sc) :: scores)) as [A B]; auto; [unfold size in *; simpl in *; lia|].
        assert (NO : ~ In o (map fst ((si, sc) :: scores))) by (intros [Q|Q]; [simpl in Q; lia|specialize (FS _ Q); lia]).
        split.
        { cbn [map fst]. constructor; auto. rewrite Forall_forall. intros j Hj. apply in_map_iff in Hj. destruct Hj as ([j' v] & <- & Hj).
          apply B in Hj. destruct Hj as [[Hj|[Hj|Hj]] _]; cbn [fst] in *; [apply FL; auto|lia|specialize (FS _ Hj); lia]. }
        { intros i v. cbn [In]. rewrite B. unfold isMember at 2. cbn [existsb]. fold (isMember labels i).
          destruct (Nat.eqb_spec i o).
          - subst o. cbn [orb]. rewrite (lookup_not _ _ NO). split.
            + intros [Q|[[Q|Q] _]]; [|contradiction|contradiction]. split; [auto|]. congruence.
            + intros [_ ->]. left; auto.
          - cbn [orb]. split; intros Q.
            + destruct Q as [Q|[[Q|Q] E]]; [congruence| |]; split; auto.
            + destruct Q as [[[Q|Q]|Q] E]; [congruence| |]; right; auto. }
      * assert (o = si) by lia. subst si. destruct (IH labels scores) as [A B]; auto; [unfold size in *; simpl in *; lia|].
        split.
        { cbn [map fst]. constructor; auto. rewrite Forall_forall. intros j Hj. apply in_map_iff in Hj. destruct Hj as ([j' v] & <- & Hj).
          apply B in Hj. destruct Hj as [[Hj|Hj] _]; cbn [fst] in *; auto. }
        { intros i v. cbn [In]. rewrite B. unfold isMember at 2. cbn [existsb]. fold (isMember labels i).
          unfold lookup at 2. cbn [find fst]. fold (lookup scores i). cbn [map fst].
          change (In i (o :: map fst scores)) with (o = i \/ In i (map fst scores)).
          rewrite (Nat.eqb_sym o i). destruct (Nat.eqb_spec i o).
          - subst o. cbn [orb snd]. split.
            + intros [Q|[[Q|Q] _]]; [|contradiction|contradiction]. split; [auto|]. congruence.
            + intros [_ ->]. left; auto.
          - cbn [orb]. split; intros Q.
            + destruct Q as [Q|[[Q|Q] E]]; [congruence| |]; split; auto.
            + destruct Q as [[[Q|Q]|[Q|Q]] E]; [congruence| |congruence|]; right; auto. }
Qed.

(** ** Evaluation *)

Lemma sumR_add n f g : sumR n (fun i => f i + g i) = sumR n f + sumR n g.
Proof. induction n; simpl; [lra|]. rewrite IHn. lra. Qed.

Lemma sumR_indicator n k x : (k < n)%nat -> sumR n (fun i => if i =? k then x else 0) = x.
Proof.
  induction n; simpl; intros H; [lia|]. destruct (Nat.eqb_spec n k).
  - subst. rewrite (sumR_ext k _ (fun _ => 0 * 0)).
    + rewrite sumR_scale. lra.
    + intros i Hi. destruct (Nat.eqb_spec i k); [lia|lra].
  - rewrite IHn by lia. lra.
Qed.

Lemma sum_over n (v : nat -> R) keys : NoDup keys -> Forall (fun i => (i < n)%nat) keys ->
  fold_right Rplus 0 (map v keys) = sumR n (fun i => if isMember keys i then v i else 0).
Proof.
  induction keys as [|k keys IH]; intros N F.
  - simpl. rewrite (sumR_ext n _ (fun _ => 0 * 0)); [rewrite sumR_scale; lra|]. intros; simpl; lra.
  - inversion_clear N. inversion_clear F. simpl. rewrite IH by auto.
    rewrite <- (sumR_indicator n k (v k)) at 1 by auto. rewrite <- sumR_add. apply sumR_ext. intros i Hi.
    unfold isMember at 2. simpl. fold (isMember keys i). destruct (Nat.eqb_spec i k); simpl.
    + subst. rewrite (isMember_not keys k) by auto. lra.
    + lra.
Qed.

Lemma sorted_nodup l : StronglySorted lt l -> NoDup l.
Proof.
  induction 1; constructor; auto. rewrite Forall_forall in H0. intros Q. specialize (H0 _ Q). lia.
Qed.

Lemma lookup_stored row l : lookup (ss_values row) l = scoreAt row l.
Proof. unfold lookup, scoreAt, stored. destruct (find _ (ss_values row)); auto. Qed.

Lemma nonZeros_keys {V} isZero (l : list (nat * V)) : forall i, In i (map fst (nonZeros isZero l)) -> In i (map fst l).
Proof.
  intros i H. apply in_map_iff in H. destruct H as (e & <- & H). apply filter_In in H. apply in_map. tauto.
Qed.

Lemma nonZeros_nodup {V} isZero (l : list (nat * V)) : NoDup (map fst l) -> NoDup (map fst (nonZeros isZero l)).
Proof.
  induction l as [|e l IH]; simpl; intros N; [constructor|]. inversion_clear N. destruct (isZero (snd e)); simpl; auto.
  constructor; auto. intros Q. apply nonZeros_keys in Q. contradiction.
Qed.

Lemma merged_range {V} (f : bool -> R -> V) n labels row : valid_labels n labels -> valid_row n row -> sortedRow row ->
  Forall (fun i => (i < n)%nat) (map fst (mergeAll f labels (ss_values row))).
Proof.
  intros [SL FL] V1 SR. destruct (mergeAll_sorted f _ labels (ss_values row) (Nat.le_refl _) SL SR) as [_ B].
  destruct (valid_inv _ _ V1) as [m I]. pose proof (inv_range _ _ _ I) as RG. rewrite Forall_forall in *.
  intros i Hi. apply in_map_iff in Hi. destruct Hi as ([j v] & <- & Hi). apply B in Hi. destruct Hi as [[Hi|Hi] _]; auto.
  apply in_map_iff in Hi. destruct Hi as (e & <- & Hi). apply RG. auto.
Qed.

Lemma evaluateSparse_merge evaluate n labels row :
  evaluateSparse evaluate labels row n =
    Some (fold_right Rplus 0 (map snd (nonZeros isEqualToZero (mergeAll evaluate labels (ss_values row)))) / INR n).
Proof.
  unfold evaluateSparse.
  destruct (evaluateLoop_spec evaluate (enough labels (ss_values row)) labels (ss_values row) 0 0) as (mean & E & M);
    [unfold enough, size; lia|].
  rewrite E. cbv beta iota. simpl (0 + _)%nat in *.
  set (nz := nonZeros isEqualToZero (mergeAll evaluate labels (ss_values row))) in *. f_equal.
  replace (mean * (INR (length nz) / INR n)) with ((mean * INR (length nz)) / INR n) by (unfold Rdiv; ring).
  f_equal. rewrite M. simpl (INR 0). rewrite Rmult_0_r, Rplus_0_l. auto.
Qed.

Lemma evaluateSparse_spec evaluate n labels row : valid_labels n labels -> valid_row n row -> sortedRow row ->
  isEqualToZero (evaluate false 0) = true ->
  evaluateSparse evaluate labels row n =
    Some (sumR n (fun l => let x := evaluate (isMember labels l) (scoreAt row l) in if isEqualToZero x then 0 else x) / INR n).
Proof.
  intros VL V1 SR Z. rewrite evaluateSparse_merge.
  set (nz := nonZeros isEqualToZero (mergeAll evaluate labels (ss_values row))) in *. do 2 f_equal.
  pose proof VL as [SL FL].
  destruct (mergeAll_sorted evaluate _ labels (ss_values row) (Nat.le_refl _) SL SR) as [A B].
  replace (map snd nz) with (map (fun i => evaluate (isMember labels i) (scoreAt row i)) (map fst nz)).
  - rewrite (sum_over n).
    + apply sumR_ext. intros i Hi. cbv zeta. destruct (isMember (map fst nz) i) eqn:Q.
      * apply isMember_In in Q. apply in_map_iff in Q. destruct Q as ([j v] & <- & Q). apply filter_In in Q. destruct Q as [Q1 Q2].
        apply B in Q1. destruct Q1 as [_ ->]. cbn [fst snd] in *. rewrite lookup_stored in Q2.
        apply negb_true_iff in Q2. rewrite Q2. auto.
      * destruct (isEqualToZero (evaluate (isMember labels i) (scoreAt row i))) eqn:D; auto. exfalso.
        assert (T : isMember (map fst nz) i = true); [|congruence]. apply isMember_In. apply in_map_iff.
        exists (i, evaluate (isMember labels i) (scoreAt row i)). split; auto. apply filter_In. split; [|simpl; rewrite D; auto].
        apply B. rewrite lookup_stored. split; auto.
        destruct (in_dec Nat.eq_dec i labels); auto. destruct (in_dec Nat.eq_dec i (map fst (ss_values row))); auto. exfalso.
        rewrite (isMember_not labels i) in D by auto. rewrite <- lookup_stored, lookup_not in D by auto. congruence.
    + apply nonZeros_nodup. apply sorted_nodup. auto.
    + pose proof (merged_range evaluate n labels row VL V1 SR) as RG. rewrite Forall_forall in *. intros i Hi. apply RG.
      apply nonZeros_keys in Hi. auto.
  - rewrite map_map. apply map_ext_in. intros [i v] Hi. apply filter_In in Hi. destruct Hi as [Hi _]. apply B in Hi.
    destruct Hi as [_ ->]. cbn [fst snd]. rewrite lookup_stored. auto.
Qed.

Lemma zero_small a : isEqualToZero a = true -> Rabs a <= / 2 ^ 52.
Proof.
  unfold isEqualToZero. destruct (Rle_dec _ _) as [H|]; [|discriminate]. intros _. rewrite Rminus_0_r, Rabs_R0 in H.
  rewrite (Rmax_left (Rabs a) 0) in H by apply Rabs_pos. revert H. apply Rmax_case_strong; intros Q H; [lra|].
  assert (/ 2 ^ 52 < 1). { rewrite <- Rinv_1. apply Rinv_lt_contravar; lra. }
  pose proof (Rabs_pos a). nra.
Qed.

Lemma small_zero a : Rabs a <= / 2 ^ 52 -> isEqualToZero a = true.
Proof.
  intros H. unfold isEqualToZero. destruct (Rle_dec _ _) as [|N]; auto. elim N. rewrite Rminus_0_r.
  pose proof (Rmax_l 1 (Rmax (Rabs a) (Rabs 0))). assert (0 < / 2 ^ 52) by (apply Rinv_0_lt_compat; lra). nra.
Qed.

Lemma zero_iff a : isEqualToZero a = true <-> Rabs a <= / 2 ^ 52.
Proof. split; [apply zero_small|apply small_zero]. Qed.

Lemma large_nonzero a : / 2 ^ 52 < Rabs a -> isEqualToZero a = false.
Proof. intros H. destruct (isEqualToZero a) eqn:E; auto. apply zero_small in E. lra. Qed.

Lemma zero_zero : isEqualToZero 0 = true.
Proof. apply small_zero. rewrite Rabs_R0. left. apply Rinv_0_lt_compat. lra. Qed.

Lemma sumR_close n f g d : (forall i, (i < n)%nat -> Rabs (f i - g i) <= d) -> Rabs (sumR n f - sumR n g) <= INR n * d.
Proof.
  induction n as [|n IH]; intros H.
  - simpl. rewrite Rminus_0_r, Rabs_R0. lra.
  - rewrite S_INR. simpl. replace (sumR n f + f n - (sumR n g + g n)) with ((sumR n f - sumR n g) + (f n - g n)) by ring.
    eapply Rle_trans; [apply Rabs_triang|]. specialize (IH ltac:(intros; apply H; lia)). specialize (H n ltac:(lia)). lra.
Qed.

Lemma denseScores_length n row : length (denseScores n row) = n.
Proof. unfold denseScores. rewrite map_length, seq_length. auto. Qed.
Lemma denseLabels_length n l : length (denseLabels n l) = n.
Proof. unfold denseLabels. rewrite map_length, seq_length. auto. Qed.
Lemma denseScores_nth n row i : (i < n)%nat -> nth i (denseScores n row) 0 = scoreAt row i.
Proof.
  intros. unfold denseScores. rewrite nth_indep with (d' := scoreAt row 0%nat) by (rewrite map_length, seq_length; auto).
  rewrite map_nth, seq_nth; auto.
Qed.
Lemma denseLabels_nth n l i : (i < n)%nat -> nth i (denseLabels n l) false = isMember l i.
Proof.
  intros. unfold denseLabels. rewrite nth_indep with (d' := isMember l 0%nat) by (rewrite map_length, seq_length; auto).
  rewrite map_nth, seq_nth; auto.
Qed.

Lemma sparse_evaluation :
  forall n labels row evaluate, valid_labels n labels -> valid_row n row -> sortedRow row -> evaluate false 0 = 0 ->
    exists sparse dense, evaluateSparse evaluate labels row n = Some sparse /\
      evaluateMean evaluate (denseScores n row) (denseLabels n labels) n = Some dense /\
      Rabs (sparse - dense) <= / 2 ^ 52 /\
      ((forall l, (l < n)%nat -> let x := evaluate (isMember labels l) (scoreAt row l) in x <> 0 -> / 2 ^ 52 < Rabs x) ->
        sparse = dense).
Proof.
  intros n labels row evaluate VL V1 SR Z. rewrite (evaluateSparse_spec evaluate n labels row VL V1 SR) by (rewrite Z; apply zero_zero).
  pose proof (evaluateMean_spec false evaluate (denseScores n row) (denseLabels n labels)) as E.
  rewrite denseScores_length, denseLabels_length in E. rewrite E by auto. clear E.
  eexists _, _. split; [reflexivity|split; [reflexivity|]].
  rewrite (sumR_ext n (fun i => evaluate (nth i (denseLabels n labels) false) (nth i (denseScores n row) 0))
             (fun i => evaluate (isMember labels i) (scoreAt row i))) by (intros; rewrite denseLabels_nth, denseScores_nth; auto).
  assert (P : 0 < / 2 ^ 52) by (apply Rinv_0_lt_compat; lra).
  split.
  - match goal with |- Rabs (?a / _ - ?b / _) <= _ =>
      assert (C : Rabs (a - b) <= INR n * / 2 ^ 52) end.
    { apply sumR_close. intros i Hi. cbv zeta. destruct (isEqualToZero _) eqn:D.
      - apply zero_small in D. rewrite Rminus_0_l, Rabs_Ropp. auto.
      - rewrite Rminus_diag_eq, Rabs_R0 by auto. lra. }
    destruct n as [|n].
    + simpl. unfold Rdiv. rewrite !Rmult_0_l, Rminus_0_r, Rabs_R0. lra.
    + match goal with |- Rabs (?a / _ - ?b / _) <= _ => set (x := a) in *; set (y := b) in * end.
      replace (x / INR (S n) - y / INR (S n)) with ((x - y) / INR (S n)) by (unfold Rdiv; ring).
      assert (Q : 0 < INR (S n)) by (apply lt_0_INR; lia).
      unfold Rdiv. rewrite Rabs_mult. rewrite (Rabs_right (/ INR (S n))) by (left; apply Rinv_0_lt_compat; auto).
      apply (Rmult_le_reg_r (INR (S n))); auto. rewrite Rmult_assoc, Rinv_l by lra. lra.
  - intros H. f_equal. apply sumR_ext. intros i Hi. cbv zeta. destruct (isEqualToZero _) eqn:D; auto.
    apply zero_small in D. specialize (H i Hi). cbv zeta in H.
    destruct (Req_dec (evaluate (isMember labels i) (scoreAt row i)) 0) as [Q|Q]; [auto|]. specialize (H Q). lra.
Qed.

(** ** Updates *)

Lemma valid_step {V} n (row : sset V) op : valid_row n row -> ss_op_in_range n op ->
  exists row', ss_step row op = Some row' /\ valid_row n row'.
Proof.
  intros V1 Hop. destruct (valid_inv _ _ V1) as [m I]. destruct (ss_step_inv n m row op I Hop) as (row' & E & _).
  exists row'. split; auto. destruct V1 as (ops & F & R). exists (ops ++ [op]). split.
  - apply Forall_app. split; auto.
  - clear I F Hop. revert R. generalize (ss_empty V n). induction ops as [|o ops IH]; simpl; intros s R.
    + injection R as <-. rewrite E. auto.
    + destruct (ss_step s o); simpl in *; [|discriminate]. auto.
Qed.

Lemma stored_out {V} n (row : sset V) l : valid_row n row -> (n <= l)%nat -> stored row l = None.
Proof.
  intros V1 H. destruct (valid_inv _ _ V1) as [m I]. pose proof (inv_range _ _ _ I) as RG. rewrite Forall_forall in RG.
  unfold stored. destruct (find _ (ss_values row)) as [e|] eqn:F; auto. apply find_some in F. destruct F as [F1 F2].
  apply Nat.eqb_eq in F2. specialize (RG _ F1). simpl in RG. lia.
Qed.

Lemma step_stored {V} n (row : sset V) op : valid_row n row -> ss_op_in_range n op ->
  exists row', ss_step row op = Some row' /\ valid_row n row' /\ forall l, stored row' l = fm_step (stored row) op l.
Proof.
  intros V1 Hop. destruct (valid_step n row op V1 Hop) as (row' & E & V2). exists row'. split; [auto|split; [auto|]].
  destruct (valid_inv _ _ V1) as [m I]. destruct (ss_step_inv n m row op I Hop) as (row'' & E' & I').
  rewrite E in E'. injection E' as <-. intros l. destruct (Nat.lt_ge_cases l n) as [H|H].
  - rewrite (inv_stored _ _ _ I' l H). destruct op; simpl in *; auto; destruct (Nat.eqb_spec l index); auto;
      subst; rewrite ?(inv_stored _ _ _ I) by auto; auto.
  - rewrite (stored_out n) by auto. destruct op; simpl in *; auto; destruct (Nat.eqb_spec l index); try lia;
      symmetry; apply (stored_out n); auto.
Qed.

Lemma store_spec n row e : valid_row n row -> (fst e < n)%nat ->
  exists row', store row e = Some row' /\ valid_row n row' /\
    forall l, stored row' l = if l =? fst e then Some (snd e) else stored row l.
Proof.
  intros V1 H. unfold store.
  destruct (step_stored n row (SsEmplace (fst e) (snd e)) V1 H) as (r1 & E1 & V2 & S1).
  destruct (step_stored n r1 (SsUpdate (fst e) (fun _ => snd e)) V2 H) as (r2 & E2 & V3 & S2).
  cbn [ss_step] in *. rewrite E1. cbv beta iota. exists r2. split; [auto|split; [auto|]]. intros l. rewrite S2. cbn [fm_step].
  rewrite S1, S1. cbn [fm_step]. rewrite Nat.eqb_refl. destruct (l =? fst e); auto. destruct (stored row (fst e)); auto.
Qed.

Lemma stores_spec n es : forall row, valid_row n row -> Forall (fun i => (i < n)%nat) (map fst es) -> NoDup (map fst es) ->
  exists row', forL es (fun e row => store row e) row = Some row' /\ valid_row n row' /\
    forall l, stored row' l = match find (fun e => fst e =? l) es with Some e => Some (snd e) | None => stored row l end.
Proof.
  induction es as [|e es IH]; intros row V1 F N.
  - exists row. simpl. auto.
  - cbn [map] in F, N. inversion_clear F as [|? ? F1 F2]. inversion_clear N as [|? ? N1 N2].
    destruct (store_spec n row e V1 F1) as (r1 & E1 & V2 & S1).
    destruct (IH r1 V2 F2 N2) as (r2 & E2 & V3 & S2). exists r2. cbn [forL]. rewrite E1. cbv beta iota.
    split; [auto|split; [auto|]]. intros l. rewrite S2. cbn [find]. rewrite S1, (Nat.eqb_sym l).
    destruct (Nat.eqb_spec (fst e) l).
    + subst l. destruct (find _ es) as [e'|] eqn:F; auto. apply find_some in F. destruct F as [F F'].
      apply Nat.eqb_eq in F'. elim N1. rewrite <- F'. apply in_map. auto.
    + auto.
Qed.

Lemma clear_spec {V} n (row : sset V) : valid_row n row -> exists row', ss_clear row = Some row' /\ valid_row n row' /\
  forall l, stored row' l = None.
Proof.
  intros V1. destruct (step_stored n row SsClear V1 I) as (r & E & V2 & Q). exists r. auto.
Qed.

Lemma sparse_complete_update :
  forall n labels scores row update, valid_labels n labels -> valid_row n scores -> sortedRow scores -> valid_row n row ->
    isEqualToZero (fst (update false 0)) = true ->
    exists row', updateSparseComplete update labels scores row = Some row' /\ valid_row n row' /\
      forall l, (l < n)%nat -> stored row' l = kept (update (isMember labels l) (scoreAt scores l)).
Proof.
  intros n labels scores row update VL V1 SR V2 Z. unfold updateSparseComplete.
  destruct (clear_spec n row V2) as (r0 & E0 & V3 & S0). rewrite E0. cbv beta iota.
  rewrite updateLoop_spec by (unfold enough, size; lia).
  set (nz := nonZeros _ _). pose proof VL as [SL FL].
  destruct (mergeAll_sorted update _ labels (ss_values scores) (Nat.le_refl _) SL SR) as [A B].
  assert (ND : NoDup (map fst nz)) by (apply nonZeros_nodup, sorted_nodup; auto).
  destruct (stores_spec n nz r0 V3) as (r1 & E1 & V4 & S1); auto.
  { pose proof (merged_range update n labels scores VL V1 SR) as RG. rewrite Forall_forall in *. intros i Hi. apply RG.
    apply nonZeros_keys in Hi. auto. }
  exists r1. split; [auto|split; [auto|]]. intros l Hl. rewrite S1, S0. unfold kept.
  set (x := update (isMember labels l) (scoreAt scores l)). destruct (isEqualToZero (fst x)) eqn:D.
  - destruct (find _ nz) as [[i v]|] eqn:F; auto. exfalso. apply find_some in F. destruct F as [F F'].
    apply Nat.eqb_eq in F'. cbn [fst] in F'. subst i. apply filter_In in F. destruct F as [F G]. apply B in F. destruct F as [_ ->].
    cbn [snd] in G. rewrite lookup_stored in G. fold x in G. rewrite D in G. discriminate.
  - rewrite (find_unique nz l x ND); auto. apply filter_In. cbn [snd]. rewrite D. split; auto. apply B. rewrite lookup_stored. split; auto.
    destruct (in_dec Nat.eq_dec l labels); auto. destruct (in_dec Nat.eq_dec l (map fst (ss_values scores))); auto. exfalso.
    unfold x in D. rewrite (isMember_not labels l) in D by auto. rewrite <- lookup_stored, lookup_not in D by auto. congruence.
Qed.

Lemma storeStatistic_spec n row index x : valid_row n row -> (index < n)%nat ->
  exists row', storeStatistic row index x = Some row' /\ valid_row n row' /\
    forall l, stored row' l = if l =? index then kept x else stored row l.
Proof.
  intros V1 H. unfold storeStatistic, kept. destruct (isEqualToZero (fst x)); cbn [negb].
  - destruct (step_stored n row (SsErase index) V1 H) as (r & E & V2 & Q). exists r. split; [auto|split; [auto|]]. auto.
  - apply (store_spec n row (index, x) V1 H).
Qed.

Lemma firstn_In_S {A} (l : list A) i d x : (i < length l)%nat -> In x (firstn (S i) l) <-> In x (firstn i l) \/ x = nth i l d.
Proof. intros H. rewrite (firstn_snoc l i d H). rewrite in_app_iff. simpl. intuition. Qed.

Lemma isMember_firstn l i x : (i < length l)%nat ->
  isMember (firstn (S i) l) x = isMember (firstn i l) x || (x =? nth i l 0%nat).
Proof.
  intros H. rewrite (firstn_snoc l i 0%nat H). unfold isMember. rewrite existsb_app. simpl. rewrite orb_false_r. auto.
Qed.

Lemma sparseScore_at n row l : valid_row n row -> (l < n)%nat -> sparseScore row l = Some (scoreAt row l).
Proof.
  intros V1 H. destruct (valid_inv _ _ V1) as [m I]. rewrite (sparseScore_get n m) by auto. f_equal.
  unfold scoreOf, scoreAt. rewrite (inv_stored _ _ _ I) by auto. auto.
Qed.

Lemma sparse_partial_update :
  forall n labels scores indices row update, length labels = n -> valid_row n scores -> valid_row n row ->
    Forall (fun i => (i < n)%nat) indices ->
    exists row', updateSparsePartial update labels scores indices row = Some row' /\ valid_row n row' /\
      forall l, (l < n)%nat -> stored row' l = if isMember indices l then kept (update (nth l labels false) (scoreAt scores l))
                                       else stored row l.
Proof.
  intros n labels scores indices row update L V1 V2 F. unfold updateSparsePartial.
  destruct (forN_inv (fun k row' => valid_row n row' /\ forall l, (l < n)%nat -> stored row' l =
      if isMember (firstn k indices) l then kept (update (nth l labels false) (scoreAt scores l)) else stored row l)
    (fun i row => let* index := aget indices i in let* score := sparseScore scores index in
       let* trueLabel := aget labels index in storeStatistic row index (update trueLabel score)) (length indices) 0 row)
    as (row' & E & V3 & S3).
  - split; auto.
  - intros i r Hi (V3 & S3). rewrite (aget_nth indices i 0%nat) by lia. cbv beta iota.
    set (index := nth i indices 0%nat). assert (B : (index < n)%nat).
    { rewrite Forall_forall in F. apply F. apply nth_In. lia. }
    rewrite (sparseScore_at n) by auto. cbv beta iota. rewrite (aget_nth labels index false) by lia. cbv beta iota.
    destruct (storeStatistic_spec n r index (update (nth index labels false) (scoreAt scores index)) V3 B) as (r' & E & V4 & S4).
    exists r'. split; [auto|split; [auto|]]. intros l Hl. rewrite S4, isMember_firstn by lia. fold index.
    destruct (Nat.eqb_spec l index).
    + subst l. rewrite orb_true_r. auto.
    + rewrite orb_false_r. apply S3. auto.
  - simpl in *. exists row'. rewrite firstn_all in S3. auto.
Qed.

(** *** Labels that are stored in a sparse format *)

Lemma lowerBound_spec l x : StronglySorted lt l -> exists p, l = p ++ lowerBound l x /\ Forall (fun y => (y < x)%nat) p /\
  Forall (fun y => (x <= y)%nat) (lowerBound l x).
Proof.
  induction l as [|y l IH]; intros SL; simpl.
  - exists []. auto.
  - apply StronglySorted_inv in SL. destruct SL as [SL F]. destruct (Nat.ltb_spec y x).
    + destruct (IH SL) as (p & E & F1 & F2). exists (y :: p). simpl. rewrite <- E. auto.
    + exists []. split; [auto|split; [auto|]]. constructor; auto. rewrite Forall_forall in *. intros z Hz. specialize (F z Hz). lia.
Qed.

Lemma nextLabel_spec labels all x p : all = p ++ labels -> StronglySorted lt all -> Forall (fun y => (y < x)%nat) p ->
  fst (nextLabel labels x) = isMember all x /\
  exists p', all = p' ++ snd (nextLabel labels x) /\ Forall (fun y => (y < x)%nat) p'.
Proof.
  intros E SA F. assert (SL : StronglySorted lt labels).
  { subst all. clear F. induction p; simpl in SA; auto. apply IHp. apply StronglySorted_inv in SA. tauto. }
  destruct (lowerBound_spec labels x SL) as (q & E2 & F1 & F2). unfold nextLabel. cbn [fst snd]. split.
  - subst all. unfold isMember. rewrite existsb_app.
    replace (existsb (Nat.eqb x) p) with false.
    + cbn [orb]. rewrite E2 at 2. rewrite existsb_app. replace (existsb (Nat.eqb x) q) with false.
      * cbn [orb]. assert (SB : StronglySorted lt (lowerBound labels x)).
        { rewrite E2 in SL. clear -SL. induction q; simpl in SL; auto. apply IHq. apply StronglySorted_inv in SL. tauto. }
        destruct (lowerBound labels x) as [|h t]; simpl; auto. rewrite (Nat.eqb_sym x h). destruct (Nat.eqb_spec h x); auto.
        apply StronglySorted_inv in SB. destruct SB as [_ SB]. rewrite Forall_forall in SB. inversion_clear F2.
        destruct (existsb (Nat.eqb x) t) eqn:Q; auto. apply existsb_exists in Q. destruct Q as (y & Q1 & Q2).
        apply Nat.eqb_eq in Q2. subst y. specialize (SB _ Q1). lia.
      * symmetry. destruct (existsb (Nat.eqb x) q) eqn:Q; auto. apply existsb_exists in Q. destruct Q as (y & Q1 & Q2).
        apply Nat.eqb_eq in Q2. subst y. rewrite Forall_forall in F1. specialize (F1 _ Q1). lia.
    + symmetry. destruct (existsb (Nat.eqb x) p) eqn:Q; auto. apply existsb_exists in Q. destruct Q as (y & Q1 & Q2).
      apply Nat.eqb_eq in Q2. subst y. rewrite Forall_forall in F. specialize (F _ Q1). lia.
  - exists (p ++ q). split.
    + rewrite <- app_assoc, <- E2. auto.
    + apply Forall_app. auto.
Qed.

Definition seen (labels rest : list nat) (indices : list nat) (i : nat) : Prop :=
  exists p, labels = p ++ rest /\ forall j, (i <= j)%nat -> (j < length indices)%nat ->
    Forall (fun y => (y < nth j indices 0)%nat) p.

Lemma nextLabel_loop labels rest indices i : StronglySorted lt labels -> StronglySorted le indices -> (i < length indices)%nat ->
  seen labels rest indices i ->
  fst (nextLabel rest (nth i indices 0%nat)) = isMember labels (nth i indices 0%nat) /\
  seen labels (snd (nextLabel rest (nth i indices 0%nat))) indices (S i).
Proof.
  intros SL SI Hi (p & E & F). destruct (nextLabel_spec rest labels (nth i indices 0%nat) p E SL (F i (Nat.le_refl i) Hi))
    as (A & p' & E' & F'). split; auto. exists p'. split; auto. intros j H1 H2. rewrite Forall_forall in *.
  intros y Hy. specialize (F' y Hy). pose proof (sorted_nth indices SI j i ltac:(lia) H2). lia.
Qed.

Lemma sparse_partial_update_csr :
  forall n labels scores indices row update, valid_labels n labels -> valid_row n scores -> valid_row n row ->
    Forall (fun i => (i < n)%nat) indices -> StronglySorted le indices ->
    exists row', updateSparsePartialCsr update labels scores indices row = Some row' /\ valid_row n row' /\
      forall l, (l < n)%nat -> stored row' l = if isMember indices l then kept (update (isMember labels l) (scoreAt scores l))
                                       else stored row l.
Proof.
  intros n labels scores indices row update [SL FL] V1 V2 F SI. unfold updateSparsePartialCsr.
  destruct (forN_inv (fun k (st : list nat * sset (R * R)) => seen labels (fst st) indices k /\ valid_row n (snd st) /\
      forall l, (l < n)%nat -> stored (snd st) l =
      if isMember (firstn k indices) l then kept (update (isMember labels l) (scoreAt scores l)) else stored row l)
    (fun i '(labels, row) =>
      let* index := aget indices i in
      let (trueLabel, labels) := nextLabel labels index in
      let* score := sparseScore scores index in
      let* row := storeStatistic row index (update trueLabel score) in
      Some (labels, row)) (length indices) 0 (labels, row))
    as ([ls row'] & E & _ & V3 & S3).
  - cbn [fst snd]. split; [|split; auto]. exists []. split; auto.
  - intros i [ls r] Hi (SN & V3 & S3). cbn [fst snd] in *. rewrite (aget_nth indices i 0%nat) by lia. cbv beta iota.
    set (index := nth i indices 0%nat). assert (B : (index < n)%nat).
    { rewrite Forall_forall in F. apply F. apply nth_In. lia. }
    destruct (nextLabel_loop labels ls indices i SL SI (proj2 Hi) SN) as [A SN']. fold index in A, SN'.
    destruct (nextLabel ls index) as [tl ls']. cbn [fst snd] in A, SN'. subst tl.
    rewrite (sparseScore_at n) by auto. cbv beta iota.
    destruct (storeStatistic_spec n r index (update (isMember labels index) (scoreAt scores index)) V3 B) as (r' & E & V4 & S4).
    rewrite E. cbv beta iota. exists (ls', r'). cbn [fst snd]. split; [auto|split; [auto|split; [auto|]]].
    intros l Hl. rewrite S4, isMember_firstn by lia. fold index.
    destruct (Nat.eqb_spec l index).
    + subst l. rewrite orb_true_r. auto.
    + rewrite orb_false_r. apply S3. auto.
  - simpl in *. rewrite E. cbv beta iota. exists row'. rewrite firstn_all in S3. auto.
Qed.

Lemma dense_partial_update_csr :
  forall n labels scores indices row update, valid_labels n labels -> length scores = n -> length row = n ->
    Forall (fun i => (i < n)%nat) indices -> StronglySorted le indices ->
    exists row', updateDensePartialCsr update labels scores indices row = Some row' /\ length row' = n /\
      forall l, (l < n)%nat -> nth l row' (0, 0) = if isMember indices l then update (isMember labels l) (nth l scores 0)
                                           else nth l row (0, 0).
Proof.
  intros n labels scores indices row update [SL FL] L1 L2 F SI. unfold updateDensePartialCsr.
  destruct (forN_inv (fun k (st : list nat * list (R * R)) => seen labels (fst st) indices k /\ length (snd st) = n /\
      forall l, (l < n)%nat -> nth l (snd st) (0, 0) =
      if isMember (firstn k indices) l then update (isMember labels l) (nth l scores 0) else nth l row (0, 0))
    (fun i '(labels, row) =>
      let* index := aget indices i in
      let (trueLabel, labels) := nextLabel labels index in
      let* score := aget scores index in
      let* row := aset row index (update trueLabel score) in
      Some (labels, row)) (length indices) 0 (labels, row))
    as ([ls row'] & E & _ & V3 & S3).
  - cbn [fst snd]. split; [|split; auto]. exists []. split; auto.
  - intros i [ls r] Hi (SN & V3 & S3). cbn [fst snd] in *. rewrite (aget_nth indices i 0%nat) by lia. cbv beta iota.
    set (index := nth i indices 0%nat). assert (B : (index < n)%nat).
    { rewrite Forall_forall in F. apply F. apply nth_In. lia. }
    destruct (nextLabel_loop labels ls indices i SL SI (proj2 Hi) SN) as [A SN']. fold index in A, SN'.
    destruct (nextLabel ls index) as [tl ls']. cbn [fst snd] in A, SN'. subst tl.
    rewrite (aget_nth scores index 0) by lia. cbv beta iota. rewrite aset_Some by lia. cbv beta iota.
    eexists (ls', _). cbn [fst snd]. split; [reflexivity|split; [auto|split; [rewrite upd_length; auto|]]].
    intros l Hl. rewrite nth_upd_eq, isMember_firstn by lia. fold index. rewrite (Nat.eqb_sym l index).
    destruct (Nat.eqb_spec index l).
    + subst l. rewrite orb_true_r. destruct (Nat.ltb_spec index (length r)); [auto|lia].
    + rewrite orb_false_r. cbn [andb]. apply S3. auto.
  - simpl in *. rewrite E. cbv beta iota. exists row'. rewrite firstn_all in S3. auto.
Qed.
