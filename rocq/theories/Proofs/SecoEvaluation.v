(** Proofs about the evaluation of rules by separate-and-conquer algorithms. *)
From Coq Require Import Reals QArith ZArith Arith List Bool Sorted Permutation Lia Lra Psatz.
From Verif Require Import Lib.Arr Model.SecoStatistics Model.SecoEvaluation Spec.Seco Spec.SecoEvaluation Proofs.Seco.
Import ListNotations.
Open Scope R_scope.
Local Arguments Nat.leb : simpl never.
Local Arguments Nat.ltb : simpl never.

(** ** Sums *)
Lemma Rsum_app a b : Rsum (a ++ b) = Rsum a + Rsum b.
Proof. induction a; simpl; [lra|]. rewrite IHa. lra. Qed.
Lemma Rsum_perm a b : Permutation a b -> Rsum a = Rsum b.
Proof. induction 1; simpl; lra. Qed.

Lemma skipn_tl {A} n (l : list A) : skipn (S n) l = tl (skipn n l).
Proof. revert l. induction n as [|n IH]; intros [|x l]; auto. exact (IH l). Qed.

Definition topSum (l : list entry) (n : nat) : R := Rsum (map eQuality (firstn n l)).
Local Notation desc := (StronglySorted (fun a b => eQuality b <= eQuality a)).

Lemma topSum_S l n e : nth_error l n = Some e -> topSum l (S n) = topSum l n + eQuality e.
Proof.
  intros H. unfold topSum. replace (firstn (S n) l) with (firstn n l ++ [e]).
  - rewrite map_app, Rsum_app. simpl. lra.
  - revert n H. induction l as [|x l IH]; intros [|n] H; try discriminate; simpl in *.
    + injection H as ->. reflexivity.
    + rewrite IH; auto.
Qed.

Lemma topSum_ge l n e : desc l -> nth_error l n = Some e -> INR n * eQuality e <= topSum l n.
Proof.
  revert n. induction l as [|x l IH]; intros [|n] HS H; try discriminate.
  - unfold topSum. simpl. lra.
  - inversion HS as [|? ? HS' HF]; subst. simpl in H. specialize (IH n HS' H). unfold topSum in *. simpl firstn. simpl map. simpl Rsum.
    rewrite S_INR. apply nth_error_In in H. rewrite Forall_forall in HF. specialize (HF e H). lra.
Qed.

Lemma INR_pos n : (1 <= n)%nat -> 0 < INR n.
Proof. intros. apply lt_0_INR. lia. Qed.

Lemma mean_S l n : desc l -> (1 <= n < length l)%nat -> topSum l (S n) / INR (S n) <= topSum l n / INR n.
Proof.
  intros HS Hn. destruct (nth_error l n) as [e|] eqn:E; [|apply nth_error_None in E; lia].
  rewrite (topSum_S l n e E). assert (H := topSum_ge l n e HS E).
  assert (P1 := INR_pos n ltac:(lia)). assert (P2 := INR_pos (S n) ltac:(lia)). rewrite S_INR in *.
  apply (Rmult_le_reg_r (INR n * (INR n + 1))); [nra|].
  replace ((topSum l n + eQuality e) / (INR n + 1) * (INR n * (INR n + 1))) with ((topSum l n + eQuality e) * INR n) by (field; lra).
  replace (topSum l n / INR n * (INR n * (INR n + 1))) with (topSum l n * (INR n + 1)) by (field; lra).
  lra.
Qed.

Lemma mean_le l n k : desc l -> (1 <= n <= k)%nat -> (k <= length l)%nat -> topSum l k / INR k <= topSum l n / INR n.
Proof.
  intros HS Hn Hk. induction k as [|k IH]; [lia|]. destruct (Nat.eq_dec n (S k)) as [->|]; [lra|].
  eapply Rle_trans; [apply mean_S; auto; lia|]. apply IH; lia.
Qed.

(** The labels with the greatest qualities have the greatest sum. *)
Lemma topSum_shift x l n : desc (x :: l) -> (n <= length l)%nat -> topSum l n <= topSum (x :: l) n.
Proof.
  revert x l. induction n as [|n IH]; intros x l HS Hn; [unfold topSum; simpl; lra|].
  destruct l as [|y l]; [simpl in Hn; lia|]. inversion HS as [|? ? HS' HF]; subst. specialize (IH y l HS' ltac:(simpl in Hn; lia)).
  apply Forall_inv in HF. unfold topSum in *. simpl firstn. simpl firstn in IH. simpl map in *. simpl Rsum in *.
  destruct n; simpl in *; lra.
Qed.

Lemma topSum_best l : desc l -> forall h r, Permutation l (h ++ r) -> Rsum (map eQuality h) <= topSum l (length h).
Proof.
  induction l as [|x l IH]; intros HS h r HP.
  - apply Permutation_nil in HP. apply app_eq_nil in HP. destruct HP as (-> & ->). unfold topSum. simpl. lra.
  - inversion HS as [|? ? HS' HF]; subst. assert (HI : In x (h ++ r)) by (eapply Permutation_in; [exact HP|left; auto]).
    apply in_app_or in HI. destruct HI as [HI|HI].
    + apply in_split in HI. destruct HI as (h1 & h2 & ->).
      assert (HP' : Permutation l ((h1 ++ h2) ++ r)).
      { apply (Permutation_cons_inv (a := x)). eapply Permutation_trans; [exact HP|]. rewrite <- !app_assoc. simpl.
        apply Permutation_sym, Permutation_middle. }
      specialize (IH HS' _ _ HP'). rewrite app_length in *. rewrite map_app, Rsum_app in *. simpl length. simpl map. simpl Rsum.
      replace (length h1 + S (length h2))%nat with (S (length h1 + length h2)) by lia.
      unfold topSum in *. simpl. lra.
    + apply in_split in HI. destruct HI as (r1 & r2 & ->).
      assert (HP' : Permutation l (h ++ (r1 ++ r2))).
      { apply (Permutation_cons_inv (a := x)). eapply Permutation_trans; [exact HP|]. rewrite !app_assoc.
        apply Permutation_sym, Permutation_middle. }
      specialize (IH HS' _ _ HP'). eapply Rle_trans; [exact IH|]. apply topSum_shift; auto.
      apply Permutation_length in HP'. rewrite app_length in HP'. lia.
Qed.

(** ** The search for the best prefix *)
Section Search.
Variables lift maxLift : nat -> R.
Variable l : list entry.
Hypothesis HS : desc l.

Definition prefixQuality (n : nat) : R := liftedQuality lift (topSum l n) n.

(** Whenever the search is stopped, the remaining heads are not better. *)
Hypothesis HP : forall b n k, (1 <= b <= n)%nat -> (n < k <= length l)%nat -> prefixQuality 1 <= prefixQuality b ->
  prefixQuality n * maxLift b < prefixQuality b -> prefixQuality k <= prefixQuality b.

Lemma search_spec rest : forall n b best ml, (1 <= b <= n)%nat -> rest = skipn n l -> (n <= length l)%nat ->
  best = prefixQuality b -> (b < length l -> ml = maxLift b)%nat -> (forall j, (1 <= j <= n)%nat -> prefixQuality j <= best) ->
  exists num, searchPrefix lift maxLift (length l) rest n (topSum l n) best b ml = (num, prefixQuality num) /\
    (1 <= num <= length l)%nat /\ forall j, (1 <= j <= length l)%nat -> prefixQuality j <= prefixQuality num.
Proof.
  induction rest as [|e rest IH]; intros n b best ml Hb HR Hn HB HM HA.
  - simpl. exists b. subst best. split; auto. assert (length l = n).
    { assert (X := skipn_length n l). rewrite <- HR in X. simpl in X. lia. }
    split; [lia|]. intros j Hj. apply HA. lia.
  - assert (HL : (n < length l)%nat).
    { assert (X := skipn_length n l). rewrite <- HR in X. simpl in X. lia. }
    assert (HE : nth_error l n = Some e).
    { rewrite <- (firstn_skipn n l) at 1. rewrite nth_error_app2; rewrite firstn_length_le by lia; [|lia].
      rewrite Nat.sub_diag, <- HR. reflexivity. }
    assert (HR' : rest = skipn (S n) l).
    { rewrite skipn_tl, <- HR. reflexivity. }
    cbn [searchPrefix]. rewrite <- (topSum_S l n e HE). fold (prefixQuality (S n)).
    assert (HK : forall b' ml', (1 <= b' <= S n)%nat -> (b' < length l -> ml' = maxLift b')%nat ->
      (forall j, (1 <= j <= S n)%nat -> prefixQuality j <= prefixQuality b') ->
      exists num, (if Rlt_dec (prefixQuality (S n) * ml') (prefixQuality b') then (b', prefixQuality b')
          else searchPrefix lift maxLift (length l) rest (S n) (topSum l (S n)) (prefixQuality b') b' ml') = (num, prefixQuality num) /\
        (1 <= num <= length l)%nat /\ forall j, (1 <= j <= length l)%nat -> prefixQuality j <= prefixQuality num).
    { intros b' ml' Hb' HM' HA'. destruct (Rlt_dec _ _) as [HLt|_].
      - exists b'. split; auto. split; [lia|]. intros j Hj. destruct (le_lt_dec j (S n)) as [Hj'|Hj']; [apply HA'; lia|].
        apply (HP b' (S n) j); try lia; [apply HA'; lia|]. rewrite <- (HM' ltac:(lia)). auto.
      - apply IH; auto. }
    destruct (Rlt_dec best (prefixQuality (S n))) as [HLt|HLt].
    + apply HK; [lia| |].
      * intros HL'. rewrite (proj2 (Nat.ltb_lt (S n) (length l))); auto.
      * intros j Hj. destruct (Nat.eq_dec j (S n)) as [->|]; [lra|]. specialize (HA j ltac:(lia)). lra.
    + subst best. apply HK; [lia|auto|]. intros j Hj. destruct (Nat.eq_dec j (S n)) as [->|]; [lra|]. apply HA; lia.
Qed.

(** All heads. *)
Hypothesis HQ : forall h, is_head l h ->
  head_quality lift h <= prefixQuality (length h) \/ head_quality lift h <= prefixQuality 1.

Lemma select_best entries : Permutation entries l -> l <> [] -> selects_best lift maxLift entries l.
Proof.
  intros HPe HN. unfold selects_best. assert (exists e rest, l = e :: rest) as (e & rest & El).
  { destruct l as [|e rest]; [contradiction|eauto]. }
  assert (HSel : selectHead lift maxLift l =
    let '(num, quality) := searchPrefix lift maxLift (length l) rest 1 (topSum l 1) (prefixQuality 1) 1 (maxLift 1%nat) in
    Some (map eIndex (firstn num l), map ePrediction (firstn num l), quality)).
  { unfold prefixQuality. replace (topSum l 1) with (eQuality e) by (rewrite El; unfold topSum; simpl; lra). rewrite El. reflexivity. }
  destruct (search_spec rest 1 1 (prefixQuality 1) (maxLift 1%nat)) as (num & E & Hnum & HBest); auto.
  { rewrite El. reflexivity. } { rewrite El. simpl. lia. } { intros j Hj. replace j with 1%nat by lia. lra. }
  exists (firstn num l), (prefixQuality num). rewrite HSel, E. split; [reflexivity|].
  assert (HLn : length (firstn num l) = num) by (apply firstn_length_le; lia).
  split; [|split].
  - split; [intros X; rewrite X in HLn; simpl in HLn; lia|]. exists (skipn num l). rewrite firstn_skipn. auto.
  - unfold head_quality. rewrite HLn. unfold prefixQuality, liftedQuality, topSum. reflexivity.
  - intros h (Hh & r & Hr). assert (HI : is_head l h).
    { split; auto. exists r. eapply Permutation_trans; [apply Permutation_sym, HPe|auto]. }
    assert (HLh : (1 <= length h <= length l)%nat).
    { split; [destruct h; [contradiction|simpl; lia]|]. apply Permutation_length in HPe, Hr. rewrite app_length in Hr. lia. }
    destruct (HQ h HI) as [H|H]; (eapply Rle_trans; [exact H|]); apply HBest; lia.
Qed.
End Search.

(** ** Admissible lift functions *)
Lemma div_le a b c : 0 < c -> a <= b -> a / c <= b / c.
Proof. intros. apply Rmult_le_compat_r; auto. left. apply Rinv_0_lt_compat. auto. Qed.

Lemma head_mean l h : desc l -> is_head l h ->
  (1 <= length h <= length l)%nat /\ Rsum (map eQuality h) / INR (length h) <= topSum l (length h) / INR (length h).
Proof.
  intros HS (HN & r & HP). assert (1 <= length h)%nat by (destruct h; [contradiction|simpl; lia]).
  split; [split; auto|].
  - apply Permutation_length in HP. rewrite app_length in HP. lia.
  - apply div_le; [apply INR_pos; auto|]. eapply topSum_best; eauto.
Qed.

Lemma best_head :
  forall lift maxLift entries sorted, entries <> [] -> sorted_by_quality entries sorted ->
    admissible lift maxLift (length entries) -> selects_best lift maxLift entries sorted.
Proof.
  intros lift maxLift entries l HN (HP & HS) (H1 & HG & HB). assert (HLen := Permutation_length HP). rewrite HLen in *.
  apply select_best; auto.
  - intros b n k Hb Hk H1b HLt. unfold prefixQuality, liftedQuality in *.
    assert (M1 := mean_le l n k HS ltac:(lia) ltac:(lia)). assert (M2 := mean_le l 1 n HS ltac:(lia) ltac:(lia)).
    assert (Ln := HG n ltac:(lia)). assert (Lk := HG k ltac:(lia)). assert (LB := HB b k ltac:(lia) ltac:(lia)).
    rewrite H1 in H1b. set (qb := topSum l b / INR b * lift b) in *. clearbody qb.
    set (mk := topSum l k / INR k) in *. set (mn := topSum l n / INR n) in *. set (m1 := topSum l 1 / INR 1) in *.
    clearbody mk mn m1.
    destruct (Rle_lt_dec 0 mk).
    + assert (mk * lift k <= mn * maxLift b) by nra. assert (mn * maxLift b <= mn * lift n * maxLift b).
      { assert (0 <= mn * maxLift b) by nra. nra. }
      lra.
    + assert (mk * lift k <= mk) by nra. lra.
  - intros h Hh. left. destruct (head_mean l h HS Hh) as (HLh & HM). unfold head_quality, prefixQuality, liftedQuality.
    apply Rmult_le_compat_r; auto. assert (X := HG (length h) HLh). lra.
  - intros E. apply HN. apply length_zero_iff_nil. rewrite HLen, E. reflexivity.
Qed.

Lemma topSum_nonneg l : Forall (fun e => 0 <= eQuality e) l -> forall n, 0 <= topSum l n.
Proof.
  unfold topSum. induction 1 as [|e l He HF IH]; intros [|n]; simpl; try lra. specialize (IH n). lra.
Qed.

Lemma mean_nonneg l n : Forall (fun e => 0 <= eQuality e) l -> (1 <= n)%nat -> 0 <= topSum l n / INR n.
Proof.
  intros HF Hn. assert (X := topSum_nonneg l HF n). assert (Y := INR_pos n Hn). apply Rmult_le_pos; auto.
  left. apply Rinv_0_lt_compat. auto.
Qed.

Lemma best_head_nonneg :
  forall lift maxLift entries sorted, entries <> [] -> sorted_by_quality entries sorted ->
    Forall (fun e => 0 <= eQuality e) entries ->
    admissible_nonneg lift maxLift (length entries) -> selects_best lift maxLift entries sorted.
Proof.
  intros lift maxLift entries l HN (HP & HS) HF (H1 & HB). assert (HLen := Permutation_length HP). rewrite HLen in *.
  assert (HF' : Forall (fun e => 0 <= eQuality e) l) by (rewrite Forall_forall in *; intros e He; apply HF; eapply Permutation_in; [apply Permutation_sym, HP|auto]).
  apply select_best; auto.
  - intros b n k Hb Hk H1b HLt. unfold prefixQuality, liftedQuality in *.
    assert (M1 := mean_le l n k HS ltac:(lia) ltac:(lia)). assert (M2 := mean_le l 1 n HS ltac:(lia) ltac:(lia)).
    assert (Pk := mean_nonneg l k HF' ltac:(lia)). assert (LB := HB b n k ltac:(lia) ltac:(lia)).
    set (qb := topSum l b / INR b * lift b) in *. clearbody qb.
    set (mk := topSum l k / INR k) in *. set (mn := topSum l n / INR n) in *. set (m1 := topSum l 1 / INR 1) in *.
    clearbody mk mn m1.
    destruct LB as [LB|LB].
    + assert (mk * lift k <= mk * lift 1%nat) by nra. assert (mk * lift 1%nat <= m1 * lift 1%nat) by nra. lra.
    + assert (mk * lift k <= mk * (lift n * maxLift b)) by nra. assert (mk * (lift n * maxLift b) <= mn * (lift n * maxLift b)) by nra. lra.
  - intros h Hh. destruct (head_mean l h HS Hh) as (HLh & HM). unfold head_quality, prefixQuality, liftedQuality.
    destruct (Rle_lt_dec 0 (lift (length h))) as [L|L]; [left; apply Rmult_le_compat_r; auto|right].
    assert (0 <= topSum l 1 / INR 1 * lift 1%nat) by (apply Rmult_le_pos; auto; apply mean_nonneg; auto).
    destruct Hh as (_ & r & Hr). assert (HFh : Forall (fun e => 0 <= eQuality e) h).
    { rewrite Forall_forall in *. intros e He. apply HF'. eapply Permutation_in; [apply Permutation_sym, Hr|apply in_or_app; auto]. }
    assert (Y := mean_nonneg h (length h) HFh ltac:(lia)). unfold topSum in Y at 1. rewrite firstn_all in Y. nra.
  - intros E. apply HN. apply length_zero_iff_nil. rewrite HLen, E. reflexivity.
Qed.

(** ** Lift functions *)
Lemma no_lift_admissible :
  forall numLabels, admissible noLift noMaxLift numLabels.
Proof. intros n. unfold admissible, bounds_lift, noLift, noMaxLift. repeat split; intros; lra. Qed.

Lemma ln_mono a b : (1 <= a <= b)%nat -> ln (INR a) <= ln (INR b).
Proof.
  intros H. destruct (Nat.eq_dec a b) as [->|]; [lra|]. left. apply ln_increasing; [apply INR_pos; lia|apply lt_INR; lia].
Qed.

Lemma kln_admissible :
  forall k numLabels, 0 <= k -> admissible (klnLift k) (klnMaxLift k numLabels) numLabels.
Proof.
  intros k n Hk. unfold admissible, bounds_lift, klnMaxLift, klnLift. split; [simpl; rewrite ln_1; lra|].
  split; intros.
  - assert (X := ln_mono 1 k0 ltac:(lia)). simpl INR in X at 1. rewrite ln_1 in X. nra.
  - assert (X := ln_mono k0 n ltac:(lia)). nra.
Qed.

Lemma fpow_1 x : fpow x (1 / 1)%Q = Some x.
Proof.
  unfold fpow. destruct (Req_EM_T x 0) as [->|]; auto. destruct (Rlt_dec 0 x) as [H|H].
  - replace (Q2R (1 / 1)) with 1 by (unfold Q2R; simpl; lra). rewrite Rpower_1; auto.
  - simpl. f_equal. lra.
Qed.
Lemma fpow_1' x : fpow x 1%Q = Some x.
Proof. exact (fpow_1 x). Qed.

(** The default curvature. *)
Lemma peak_value total peak M n : peakLift total peak M 1 n = Some
  (if Nat.eqb n peak then M else 1 + (if Nat.ltb n peak then (INR n - 1) / (INR peak - 1) else (INR n - INR total) / (INR total - INR peak)) * (M - 1)).
Proof. unfold peakLift, peakLiftInternally. destruct (Nat.eqb n peak); auto. rewrite fpow_1. reflexivity. Qed.

Lemma peak_admissible :
  forall total peak maxLiftValue lift maxLift, (1 <= peak <= total)%nat -> 1 <= maxLiftValue ->
    (forall n, (1 <= n <= total)%nat -> peakLift total peak maxLiftValue 1 n = Some (lift n)) ->
    (forall n, (1 <= n < total)%nat -> peakMaxLift total peak maxLiftValue 1 n = Some (Some (maxLift n))) ->
    admissible_nonneg lift maxLift total.
Proof.
  intros total peak M lift maxLift Hp HM HL HX.
  assert (HR : forall n, (1 <= n <= total)%nat -> ((n <= peak)%nat -> 1 <= lift n <= M) /\ ((peak < n)%nat -> lift n <= 1)).
  { intros n Hn. specialize (HL n Hn). rewrite peak_value in HL. injection HL as <-.
    destruct (Nat.eqb_spec n peak); [split; intros; [lra|lia]|]. destruct (Nat.ltb_spec n peak) as [L|L]; split; intros H; try lia.
    - assert (A1 : 1 <= INR n) by (replace 1 with (INR 1) by reflexivity; apply le_INR; lia). assert (A2 : INR n < INR peak) by (apply lt_INR; auto).
      assert (X : 0 <= (INR n - 1) / (INR peak - 1) <= 1).
      { split; [apply Rmult_le_pos; [lra|left; apply Rinv_0_lt_compat; lra]|].
        apply (Rmult_le_reg_r (INR peak - 1)); [lra|]. replace ((INR n - 1) / (INR peak - 1) * (INR peak - 1)) with (INR n - 1) by (field; lra). lra. }
      split; nra.
    - assert (A1 : INR peak < INR n) by (apply lt_INR; lia). assert (A2 : INR n <= INR total) by (apply le_INR; lia).
      assert (X : (INR n - INR total) / (INR total - INR peak) <= 0).
      { apply (Rmult_le_reg_r (INR total - INR peak)); [lra|].
        replace ((INR n - INR total) / (INR total - INR peak) * (INR total - INR peak)) with (INR n - INR total) by (field; lra). lra. }
      nra. }
  assert (H1 : 1 <= lift 1%nat) by (apply HR; lia). split; [lra|].
  intros b m k Hb Hk. destruct (le_lt_dec k peak) as [L|L].
  - right. assert (X := proj1 (HR k ltac:(lia)) L). assert (Y := proj1 (HR m ltac:(lia)) ltac:(lia)).
    assert (Z := HX b ltac:(lia)). unfold peakMaxLift in Z. destruct (Nat.ltb_spec b peak); [|lia]. injection Z as <-. nra.
  - left. assert (X := proj2 (HR k ltac:(lia)) L). lra.
Qed.

Lemma peak_best_head :
  forall total peak maxLiftValue lift maxLift entries sorted, (1 <= peak <= total)%nat -> 1 <= maxLiftValue ->
    (forall n, (1 <= n <= total)%nat -> peakLift total peak maxLiftValue 1 n = Some (lift n)) ->
    (forall n, (1 <= n < total)%nat -> peakMaxLift total peak maxLiftValue 1 n = Some (Some (maxLift n))) ->
    length entries = total -> sorted_by_quality entries sorted -> Forall (fun e => 0 <= eQuality e) entries ->
    selects_best lift maxLift entries sorted.
Proof.
  intros total peak M lift maxLift entries sorted Hp HM HL HX HE HS HF. apply best_head_nonneg; auto.
  - intros ->. simpl in HE. lia.
  - rewrite HE. eapply peak_admissible; eauto.
Qed.

(** ** Counterexamples for the peak lift function *)
Definition M108 : R := 27 / 25.

Lemma peak_not_bounded : exists total peak m k a b, (1 <= m <= k)%nat /\ (k <= total)%nat /\ peak = configuredPeak 2 total 1 /\
  peakMaxLift total peak M108 1 m = Some (Some a) /\ peakLift total peak M108 1 k = Some b /\ a < b.
Proof.
  exists 4%nat, 2%nat, 3%nat, 4%nat. do 2 eexists. split; [lia|]. split; [lia|]. split; [reflexivity|].
  split; [unfold peakMaxLift, maxLiftsAfterPeak, aget; simpl; unfold peakLiftInternally; simpl; rewrite fpow_1'; reflexivity|].
  split; [apply peak_value|]. simpl. unfold M108. lra.
Qed.

Lemma peak_increases : exists total peak n a b, (peak < n < total)%nat /\ peak = configuredPeak 2 total 1 /\
  peakLift total peak M108 1 n = Some a /\ peakLift total peak M108 1 (S n) = Some b /\ a < 1 /\ a < b.
Proof.
  exists 4%nat, 2%nat, 3%nat. do 2 eexists. split; [lia|]. split; [reflexivity|].
  split; [apply peak_value|]. split; [apply peak_value|]. simpl. unfold M108. split; lra.
Qed.

Lemma peak_nan : forall total peak M n, (1 <= peak < n)%nat -> (n < total)%nat -> peakLift total peak M 2 n = None.
Proof.
  intros total peak M n H1 H2. unfold peakLift, peakLiftInternally. destruct (Nat.eqb_spec n peak); [lia|].
  destruct (Nat.ltb_spec n peak); [lia|]. assert (A1 : INR peak < INR n) by (apply lt_INR; lia). assert (A2 : INR n < INR total) by (apply lt_INR; lia).
  assert (X : (INR n - INR total) / (INR total - INR peak) < 0).
  { apply (Rmult_lt_reg_r (INR total - INR peak)); [lra|].
    replace ((INR n - INR total) / (INR total - INR peak) * (INR total - INR peak)) with (INR n - INR total) by (field; lra). lra. }
  unfold fpow. destruct (Req_EM_T _ _); [lra|]. destruct (Rlt_dec _ _); [lra|]. reflexivity.
Qed.

Lemma peak_out_of_bounds :
  forall total peakLabel labelCardinality M curvature, total = 1%nat -> (labelCardinality <= total)%nat ->
    peakMaxLift total (configuredPeak peakLabel total labelCardinality) M curvature 1 = None.
Proof.
  intros total p c M curvature -> Hc. assert (E : configuredPeak p 1 c = 1%nat).
  { unfold configuredPeak. destruct (Nat.ltb_spec 0 p); lia. }
  rewrite E. reflexivity.
Qed.

Lemma peak_prunes_best : exists total peak lift maxLift entries head, peak = configuredPeak 2 total 1 /\
  (forall n, (1 <= n <= total)%nat -> peakLift total peak M108 1 n = Some (lift n)) /\
  (forall n, (1 <= n < total)%nat -> peakMaxLift total peak M108 1 n = Some (Some (maxLift n))) /\
  length entries = total /\ sorted_by_quality entries entries /\ is_head entries head /\
  exists indices predictions quality, selectHead lift maxLift entries = Some (indices, predictions, quality) /\
    quality < head_quality lift head.
Proof.
  set (lift := fun n => if Nat.eqb n 2 then M108 else 1 + (if Nat.ltb n 2 then (INR n - 1) / (INR 2 - 1) else (INR n - INR 4) / (INR 4 - INR 2)) * (M108 - 1)).
  set (es := [mkEntry 0 (-1) true; mkEntry 1 (-1) true; mkEntry 2 (-1) true; mkEntry 3 (-1) true]).
  exists 4%nat, 2%nat, lift, (fun n => if Nat.ltb n 2 then M108 else lift n), es, (firstn 3 es).
  split; [reflexivity|]. split; [intros; apply peak_value|].
  split.
  { intros n Hn. unfold peakMaxLift. destruct (Nat.ltb_spec n 2); auto. destruct n as [|[|[|[|n]]]]; try lia; unfold maxLiftsAfterPeak, aget; simpl;
      unfold peakLiftInternally; simpl; auto. rewrite fpow_1'. reflexivity. }
  split; [reflexivity|]. split.
  { split; auto. repeat constructor; simpl; lra. }
  split; [split; [discriminate|]; exists [mkEntry 3 (-1) true]; apply Permutation_refl|].
  unfold selectHead. cbn [es searchPrefix]. cbv zeta.
  destruct (Rlt_dec (liftedQuality lift (eQuality (mkEntry 0 (-1) true)) 1) _) as [X|X].
  { exfalso. unfold liftedQuality, lift, M108 in X. simpl in X. lra. }
  destruct (Rlt_dec _ _) as [Y|Y].
  2: { exfalso. apply Y. unfold liftedQuality, lift, M108. simpl. replace (Nat.ltb 1 2) with true by reflexivity. lra. }
  do 3 eexists. split; [reflexivity|]. unfold head_quality, liftedQuality, lift, M108. simpl. replace (Nat.ltb 3 2) with false by reflexivity.
  replace (Nat.ltb 1 2) with true by reflexivity. lra.
Qed.

(** ** Predictions and qualities *)
Lemma ascending_nth l : StronglySorted le l -> forall i a b, nth_error l i = Some a -> nth_error l (S i) = Some b -> (a <= b)%nat.
Proof.
  induction 1 as [|x l HS IH HF]; intros [|i] a b Ha Hb; try discriminate.
  - injection Ha as ->. simpl in Hb. destruct l; [discriminate|]. injection Hb as ->. exact (Forall_inv HF).
  - apply (IH i a b Ha Hb).
Qed.

Section Entries.
Variables (h : heuristicFunction) (majority indices : list nat) (total covered : list confusion).
Hypothesis HM : StronglySorted lt majority.
Hypothesis HF : matrices_for indices total covered.

Definition entryAt (i : nat) (d : confusion) : entry :=
  let l := nth i indices 0%nat in
  mkEntry l (outputQuality h (nth l total d) (nth i covered d)) (negb (mem majority l)).

Lemma read_entry i : (i < length indices)%nat -> exists l t c, aget indices i = Some l /\ aget total l = Some t /\ aget covered i = Some c /\
  l = nth i indices 0%nat /\ t = nth l total cmZero /\ c = nth i covered cmZero.
Proof.
  intros Hi. destruct HF as (HF1 & HF2).
  exists (nth i indices 0%nat), (nth (nth i indices 0%nat) total cmZero), (nth i covered cmZero).
  assert (Hl : (nth i indices 0 < length total)%nat) by (rewrite Forall_forall in HF1; apply HF1, nth_In; auto).
  repeat split; apply nth_error_nth'; auto. rewrite HF2. auto.
Qed.

Definition allEntries (n : nat) : list entry := map (fun i => entryAt i cmZero) (seq 0 n).

Lemma allEntries_S n : allEntries (S n) = allEntries n ++ [entryAt n cmZero].
Proof. unfold allEntries. rewrite seq_S, map_app. reflexivity. Qed.

Lemma labelEntries_spec : StronglySorted le indices ->
  labelEntries h majority indices total covered = Some (allEntries (length indices)).
Proof.
  intros HS. unfold labelEntries. set (body := fun (i : nat) (st : fwd * nat * list entry) => _).
  destruct (forN_inv (fun i st => let '(it, p, es) := st in it = fwdAt majority p /\ es = allEntries i /\
      (forall l, nth_error indices i = Some l -> p <= l)%nat) body (length indices) 0 (fwdNew majority, 0%nat, []))
    as (((it & p) & es) & E & (_ & H & _)).
  - split; auto. split; auto. intros; lia.
  - intros i ((it & p) & es) Hi (-> & -> & HI). unfold body.
    destruct (read_entry i ltac:(lia)) as (l & t & c & E1 & E2 & E3 & N1 & N2 & N3). rewrite E1.
    rewrite fwdAt_advance by (apply HI; exact E1). rewrite E2, E3. eexists. split; [reflexivity|]. split; auto. split.
    + rewrite allEntries_S. unfold entryAt. rewrite <- N1, <- N2, <- N3. rewrite fwdAt_deref by auto. reflexivity.
    + intros l' Hl'. eapply ascending_nth; eauto.
  - rewrite E. subst. reflexivity.
Qed.

Lemma allEntries_exact : exact_entries h majority indices total covered (allEntries (length indices)).
Proof.
  split; [unfold allEntries; rewrite map_length, seq_length; auto|]. intros i l t c Hl Ht Hc.
  assert (Hi : (i < length indices)%nat) by (apply nth_error_Some; congruence).
  unfold allEntries. rewrite nth_error_map, (nth_error_nth' _ 0%nat) by (rewrite seq_length; auto). rewrite seq_nth by auto. simpl.
  unfold entryAt. rewrite (nth_error_nth _ _ 0%nat Hl), (nth_error_nth _ _ cmZero Ht), (nth_error_nth _ _ cmZero Hc). reflexivity.
Qed.

Lemma complete_spec lift : StronglySorted le indices ->
  evaluateComplete lift h majority indices total covered =
    Some (map ePrediction (allEntries (length indices)), head_quality lift (allEntries (length indices))).
Proof.
  intros HS. unfold evaluateComplete. set (body := fun (i : nat) (st : fwd * nat * list bool * R) => _).
  destruct (forN_inv (fun i st => let '(it, p, scores, sum) := st in it = fwdAt majority p /\ scores = map ePrediction (allEntries i) /\
      sum = Rsum (map eQuality (allEntries i)) /\
      (forall l, nth_error indices i = Some l -> p <= l)%nat) body (length indices) 0 (fwdNew majority, 0%nat, [], 0))
    as ((((it & p) & scores) & sum) & E & (_ & H1 & H2 & _)).
  - repeat split; auto. intros; lia.
  - intros i (((it & p) & scores) & sum) Hi (-> & -> & -> & HI). unfold body.
    destruct (read_entry i ltac:(lia)) as (l & t & c & E1 & E2 & E3 & N1 & N2 & N3). rewrite E1.
    rewrite fwdAt_advance by (apply HI; exact E1). rewrite E2, E3. eexists. split; [reflexivity|]. split; auto.
    rewrite allEntries_S, !map_app, Rsum_app. split; [|split].
    + simpl. rewrite <- N1. rewrite fwdAt_deref by auto. reflexivity.
    + unfold entryAt. rewrite <- N1, <- N2, <- N3. simpl. lra.
    + intros l' Hl'. eapply ascending_nth; eauto.
  - rewrite E. subst. unfold head_quality, liftedQuality. replace (length (allEntries (length indices))) with (length indices); auto.
    unfold allEntries. rewrite map_length, seq_length. auto.
Qed.

Lemma single_spec : indices <> [] -> exists i, (i < length indices)%nat /\
  evaluateSingle h majority indices total covered =
    Some (eIndex (entryAt i cmZero), ePrediction (entryAt i cmZero), eQuality (entryAt i cmZero)) /\
  forall j, (j < length indices)%nat -> eQuality (entryAt j cmZero) <= eQuality (entryAt i cmZero) /\
    ((j < i)%nat -> eQuality (entryAt j cmZero) < eQuality (entryAt i cmZero)).
Proof.
  intros HN. assert (H0 : (0 < length indices)%nat) by (destruct indices; [contradiction|simpl; lia]).
  unfold evaluateSingle. destruct (read_entry 0 H0) as (l0 & t0 & c0 & E1 & E2 & E3 & N1 & N2 & N3). rewrite E1, E2, E3.
  set (body := fun (i : nat) (st : nat * R) => _).
  destruct (forN_inv (fun n st => exists i, (i < n)%nat /\ st = (eIndex (entryAt i cmZero), eQuality (entryAt i cmZero)) /\
    forall j, (j < n)%nat -> eQuality (entryAt j cmZero) <= eQuality (entryAt i cmZero) /\
    ((j < i)%nat -> eQuality (entryAt j cmZero) < eQuality (entryAt i cmZero))) body (length indices - 1) 1 (l0, outputQuality h t0 c0))
    as (st & E & (i & Hi & -> & HB)).
  - exists 0%nat. split; [lia|]. unfold entryAt. rewrite <- N1, <- N2, <- N3. split; auto. intros j Hj.
    assert (j = 0%nat) as -> by lia. split; [|lia]. rewrite <- N1, <- N2, <- N3. simpl. lra.
  - intros n st Hn (i & Hi & -> & HB). unfold body.
    destruct (read_entry n ltac:(lia)) as (l & t & c & E4 & E5 & E6 & N4 & N5 & N6). rewrite E4, E5, E6.
    assert (EQ : outputQuality h t c = eQuality (entryAt n cmZero)) by (unfold entryAt; rewrite <- N4, <- N5, <- N6; reflexivity).
    assert (EI : l = eIndex (entryAt n cmZero)) by exact N4.
    eexists. split; [reflexivity|]. cbv zeta. rewrite EQ. cbn [snd]. destruct (Rlt_dec _ _) as [L|L].
    + exists n. split; [lia|]. split; [rewrite <- EI; auto|]. intros j Hj. destruct (Nat.eq_dec j n) as [->|]; [split; [lra|lia]|].
      destruct (HB j ltac:(lia)). split; [lra|]. intros; lra.
    + exists i. split; [lia|]. split; auto. intros j Hj. destruct (Nat.eq_dec j n) as [->|]; [split; [lra|lia]|]. apply HB. lia.
  - replace (1 + (length indices - 1))%nat with (length indices) in * by lia. rewrite E. exists i. split; auto. split; auto.
    replace (fwdNew majority) with (fwdAt majority 0) by reflexivity. rewrite fwdAt_advance by lia. rewrite fwdAt_deref by auto. reflexivity.
Qed.
End Entries.

(** The best head among all heads that predict for the given labels. *)
Lemma partial_evaluation :
  forall h lift maxLift majority indices total covered, StronglySorted lt majority -> StronglySorted le indices -> indices <> [] ->
    matrices_for indices total covered ->
    exists entries, labelEntries h majority indices total covered = Some entries /\
      exact_entries h majority indices total covered entries /\
      forall sorted, sorted_by_quality entries sorted ->
        (admissible lift maxLift (length indices) \/
         Forall (fun e => 0 <= eQuality e) entries /\ admissible_nonneg lift maxLift (length indices)) ->
        selects_best lift maxLift entries sorted.
Proof.
  intros h lift maxLift majority indices total covered HM HS HN HF. exists (allEntries h majority indices total covered (length indices)).
  split; [apply labelEntries_spec; auto|]. assert (HE := allEntries_exact h majority indices total covered). split; auto.
  intros sorted Hs HA. destruct HE as (HL & _).
  assert (HN' : allEntries h majority indices total covered (length indices) <> []).
  { intros X. rewrite X in HL. simpl in HL. destruct indices; [contradiction|discriminate]. }
  destruct HA as [HA|(HP & HA)]; [apply best_head|apply best_head_nonneg]; auto; rewrite HL; auto.
Qed.

Lemma kln_evaluation :
  forall h k majority indices total covered, 0 <= k -> StronglySorted lt majority -> StronglySorted le indices -> indices <> [] ->
    matrices_for indices total covered ->
    exists entries, labelEntries h majority indices total covered = Some entries /\
      forall sorted, sorted_by_quality entries sorted -> selects_best (klnLift k) (klnMaxLift k (length indices)) entries sorted.
Proof.
  intros h k majority indices total covered Hk HM HS HN HF.
  destruct (partial_evaluation h (klnLift k) (klnMaxLift k (length indices)) majority indices total covered HM HS HN HF) as (es & E & _ & H).
  exists es. split; auto. intros sorted Hs. apply H; auto. left. apply kln_admissible. auto.
Qed.

Lemma complete_evaluation :
  forall h lift majority indices total covered, StronglySorted lt majority -> StronglySorted le indices ->
    matrices_for indices total covered ->
    exists entries, exact_entries h majority indices total covered entries /\
      evaluateComplete lift h majority indices total covered = Some (map ePrediction entries, head_quality lift entries).
Proof.
  intros h lift majority indices total covered HM HS HF. exists (allEntries h majority indices total covered (length indices)).
  split; [apply allEntries_exact|apply complete_spec; auto].
Qed.

Lemma single_evaluation :
  forall h majority indices total covered, StronglySorted lt majority -> indices <> [] -> matrices_for indices total covered ->
    exists entries i e, exact_entries h majority indices total covered entries /\ nth_error entries i = Some e /\
      evaluateSingle h majority indices total covered = Some (eIndex e, ePrediction e, eQuality e) /\
      forall j e', nth_error entries j = Some e' -> eQuality e' <= eQuality e /\ ((j < i)%nat -> eQuality e' < eQuality e).
Proof.
  intros h majority indices total covered HM HN HF.
  destruct (single_spec h majority indices total covered HM HF HN) as (i & Hi & E & HB).
  exists (allEntries h majority indices total covered (length indices)), i, (entryAt h majority indices total covered i cmZero).
  assert (HNth : forall j, (j < length indices)%nat ->
    nth_error (allEntries h majority indices total covered (length indices)) j = Some (entryAt h majority indices total covered j cmZero)).
  { intros j Hj. unfold allEntries. rewrite nth_error_map, (nth_error_nth' _ 0%nat) by (rewrite seq_length; auto). rewrite seq_nth by auto. reflexivity. }
  split; [apply allEntries_exact|]. split; [apply HNth; auto|]. split; auto.
  intros j e' He. assert (Hj : (j < length indices)%nat).
  { rewrite <- (proj1 (allEntries_exact h majority indices total covered)). apply nth_error_Some. congruence. }
  rewrite HNth in He by auto. injection He as <-. apply HB. auto.
Qed.
