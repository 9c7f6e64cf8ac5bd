From Coq Require Import NArith Arith List Bool Lia Permutation ZArith QArith Qround.
From Verif Require Import Lib.Arr Model.Rng Model.Sampling Proofs.Rng.
Import ListNotations.
Open Scope nat_scope.

Definition enough (fuel : nat) : Prop := (2 ^ 32 <= N.of_nat fuel)%N.

Lemma enough_period fuel : enough fuel -> period_nat < fuel.
Proof. unfold enough. intros H. pose proof period_nat_Z as P. unfold period in P. lia. Qed.

Lemma mem_In x l : mem x l = true <-> In x l.
Proof.
  unfold mem. rewrite existsb_exists. split.
  - intros (y & Hy & E). apply Nat.eqb_eq in E. subst. auto.
  - intros H. exists x. rewrite Nat.eqb_refl. auto.
Qed.

Lemma mem_false x l : mem x l = false <-> ~ In x l.
Proof. rewrite <- mem_In. destruct (mem x l); split; congruence. Qed.

(** * The redraw loop *)
Lemma draw_unseen_gen k : forall fuel total numTotal selected s t,
  valid s -> length total = numTotal -> (N.of_nat numTotal < 2 ^ 32)%N ->
  (t < numTotal) -> (forall x, nth_error total t = Some x -> ~ In x selected) ->
  N.of_nat t = ((Nat.iter (S k) xorshift s mod 2 ^ 31) mod N.of_nat numTotal)%N ->
  k < fuel ->
  exists x s', draw_unseen fuel total numTotal selected s = Some (x, s') /\
    In x total /\ ~ In x selected /\ valid s'.
Proof.
  induction k; intros fuel total numTotal selected s t Hs Hl Hn Ht Hx Ek Hf;
    (destruct fuel as [|fuel]; [lia|]); cbn [draw_unseen].
  - destruct (randomInt_ok s 0 numTotal Hs ltac:(lia) Hn) as (r & s' & E & Hr & Hs').
    rewrite E. destruct (aget_Some total r ltac:(lia)) as (y & Ey). rewrite Ey.
    assert (r = t).
    { unfold randomInt in E. rewrite randomInt32_eq in E by (auto; lia).
      assert (X : N.to_nat (N.of_nat 0 + (xorshift s mod 2 ^ 31) mod (N.of_nat numTotal - N.of_nat 0)) = r)
        by congruence.
      rewrite <- X. replace (N.of_nat numTotal - N.of_nat 0)%N with (N.of_nat numTotal) by lia.
      change (Nat.iter 1 xorshift s) with (xorshift s) in Ek. rewrite <- Ek. lia. }
    subst r. assert (~ In y selected) by (apply Hx; exact Ey).
    rewrite (proj2 (mem_false _ _) H). exists y, s'. repeat split; auto.
    + eapply nth_error_In; eauto.
    + apply Hs'.
    + apply Hs'.
  - destruct (randomInt_ok s 0 numTotal Hs ltac:(lia) Hn) as (r & s' & E & Hr & Hs').
    destruct (randomInt_state s 0 numTotal r s' Hs ltac:(lia) Hn E) as (-> & _ & _).
    rewrite E. destruct (aget_Some total r ltac:(lia)) as (y & Ey). rewrite Ey.
    destruct (mem y selected) eqn:M.
    + apply (IHk fuel total numTotal selected (xorshift s) t); auto; [|lia].
      rewrite Ek. f_equal. f_equal. replace (S (S k)) with (S k + 1) by lia. rewrite iter_add. reflexivity.
    + apply mem_false in M. exists y, (xorshift s). repeat split; auto.
      * eapply nth_error_In; eauto.
      * apply Hs'.
      * apply Hs'.
Qed.

Lemma draw_unseen_ok fuel total numTotal selected s :
  enough fuel -> valid s -> length total = numTotal -> (N.of_nat numTotal < 2 ^ 32)%N ->
  NoDup total -> length selected < numTotal -> (N.of_nat (length selected) < 2 ^ 31)%N ->
  exists x s', draw_unseen fuel total numTotal selected s = Some (x, s') /\
    In x total /\ ~ In x selected /\ valid s'.
Proof.
  intros Hf Hs Hl Hn ND Hsel Hsel2.
  (* among the first min(numTotal, 2^31) values, some value is not selected *)
  assert (exists t, t < numTotal /\ (N.of_nat t < 2 ^ 31)%N /\
            forall x, nth_error total t = Some x -> ~ In x selected) as (t & Ht & Ht2 & Hx).
  { assert (G : forall m, m <= numTotal -> length selected < m ->
               exists t, t < m /\ forall x, nth_error total t = Some x -> ~ In x selected).
    { intros m Hm Hlen.
      destruct (Exists_dec (fun x => ~ In x selected) (firstn m total)) as [Ex|NEx].
      { intros x. destruct (in_dec Nat.eq_dec x selected); auto. }
      - apply Exists_exists in Ex as (x & Hin & Hnot).
        apply In_nth_error in Hin as (t & Et).
        assert (t < length (firstn m total)) by (apply nth_error_Some; congruence).
        rewrite firstn_length in H. exists t. split; [lia|]. intros y Ey.
        rewrite <- (firstn_skipn m total) in Ey. rewrite nth_error_app1 in Ey.
        + rewrite Et in Ey. injection Ey as <-. auto.
        + rewrite firstn_length. lia.
      - exfalso.
        assert (incl (firstn m total) selected).
        { intros x Hin. destruct (in_dec Nat.eq_dec x selected); auto.
          exfalso. apply NEx. apply Exists_exists. eauto. }
        assert (NoDup (firstn m total)).
        { rewrite <- (firstn_skipn m total) in ND. clear -ND. induction (firstn m total); [constructor|].
          simpl in ND. inversion ND; subst. constructor; auto. rewrite in_app_iff in H1. tauto. }
        apply NoDup_incl_length in H; auto. rewrite firstn_length in H. lia. }
    destruct (N.le_gt_cases (N.of_nat numTotal) (2 ^ 31)).
    - destruct (G numTotal ltac:(lia) Hsel) as (t & Ht & Hx). exists t. repeat split; auto. lia.
    - destruct (G (S (length selected)) ltac:(lia) ltac:(lia)) as (t & Ht & Hx).
      exists t. repeat split; auto; lia. }
  destruct (orbit_full_S s (N.of_nat t + 2 ^ 31)%N Hs) as (k & Hk & E).
  { unfold valid. lia. }
  apply (draw_unseen_gen k fuel total numTotal selected s t); auto.
  - rewrite E. replace (N.of_nat t + 2 ^ 31)%N with (N.of_nat t + 1 * 2 ^ 31)%N by lia.
    rewrite N.mod_add by discriminate. rewrite (N.mod_small (N.of_nat t)) by lia.
    rewrite N.mod_small by lia. auto.
  - pose proof (enough_period fuel Hf). lia.
Qed.

(** * Tracking selection *)
Lemma upd_firstn {A} (l : list A) i v : i < length l -> firstn (S i) (upd l i v) = firstn i l ++ [v].
Proof. revert i; induction l; destruct i; simpl; intros; auto; try lia. f_equal. apply IHl. lia. Qed.

Lemma NoDup_snoc {A} (l : list A) x : NoDup l -> ~ In x l -> NoDup (l ++ [x]).
Proof.
  intros. rewrite <- (rev_involutive (l ++ [x])). apply NoDup_rev. rewrite rev_app_distr. simpl.
  constructor; [rewrite <- in_rev; auto | apply NoDup_rev; auto].
Qed.

Definition sample_ok (out' total : list nat) (numSamples : nat) : Prop :=
  length out' = numSamples /\ NoDup out' /\ incl out' total.

Lemma sampleTracking_ok fuel out numSamples total numTotal s :
  enough fuel -> valid s -> length out = numSamples -> length total = numTotal ->
  (N.of_nat numTotal < 2 ^ 32)%N -> NoDup total -> numSamples <= numTotal ->
  (N.of_nat numSamples <= 2 ^ 31)%N ->
  exists out' s', sampleTracking fuel out numSamples total numTotal s = Some (out', s') /\
    sample_ok out' total numSamples /\ valid s'.
Proof.
  intros Hf Hs Ho Hl Hn ND Hk Hk2. unfold sampleTracking.
  match goal with |- context [forN numSamples 0 ?b ?st] =>
    destruct (forN_inv (fun i '(o, sel, s) => length o = numSamples /\ length sel = i /\
      (forall x, In x sel <-> In x (firstn i o)) /\ NoDup (firstn i o) /\ incl (firstn i o) total /\ valid s)
      b numSamples 0 st) as (st' & E & HI)
  end.
  - simpl. repeat split; auto; try tauto; try apply Hs. constructor. intros x [].
  - intros j [[o sel] s1] Hj (I1 & I2 & I3 & I4 & I5 & I6).
    destruct (draw_unseen_ok fuel total numTotal sel s1) as (x & s2 & -> & Hx1 & Hx2 & Hs2); auto; try lia.
    rewrite aset_Some by lia. eexists; split; [reflexivity|]; cbv beta iota.
    rewrite upd_length. rewrite upd_firstn by lia.
    repeat split; auto; try apply Hs2.
    + simpl. lia.
    + simpl. intros [->|H]; apply in_or_app; simpl; auto. left. apply I3; auto.
    + intros H. apply in_app_or in H. simpl in H. simpl. rewrite I3. tauto.
    + apply NoDup_snoc; auto. rewrite <- I3. auto.
    + intros y Hy. apply in_app_or in Hy. simpl in Hy. destruct Hy as [Hy|[<-|[]]]; auto.
  - rewrite E. destruct st' as [[o sel] s1]. destruct HI as (I1 & I2 & I3 & I4 & I5 & I6).
    exists o, s1. rewrite firstn_all2 in * by lia. repeat split; auto; apply I6.
Qed.

(** * Copying a prefix *)
Lemma copyPrefix_ok out numSamples total :
  length out = numSamples -> numSamples <= length total ->
  copyPrefix out numSamples total = Some (firstn numSamples total).
Proof.
  intros Ho Hl. unfold copyPrefix.
  match goal with |- forN _ 0 ?b ?st = _ =>
    destruct (forN_inv (fun i o => length o = numSamples /\ firstn i o = firstn i total) b numSamples 0 st)
      as (st' & E & HI)
  end.
  - simpl. auto.
  - intros j o Hj (I1 & I2). destruct (aget_Some total j ltac:(lia)) as (x & Ex). rewrite Ex.
    rewrite aset_Some by lia. eexists; split; [reflexivity|]; cbv beta iota. rewrite upd_length. split; auto.
    rewrite upd_firstn by lia. rewrite I2.
    unfold aget in Ex. destruct (nth_error_split _ _ Ex) as (l1 & l2 & -> & <-).
    rewrite !firstn_app. rewrite Nat.sub_diag. rewrite firstn_all.
    replace (S (length l1) - length l1) with 1 by lia. rewrite (firstn_all2 (n := S (length l1))) by lia.
    simpl. rewrite app_nil_r. auto.
  - rewrite E. simpl in HI. destruct HI as (I1 & I2). f_equal. rewrite <- I2. symmetry. apply firstn_all2. lia.
Qed.

(** * Reservoir sampling *)
Lemma NoDup_upd (l : list nat) i v : NoDup l -> ~ In v l -> NoDup (upd l i v).
Proof.
  revert i; induction l; destruct i; simpl; intros ND Hv; auto; inversion ND; subst.
  - constructor; tauto.
  - constructor.
    + intros H. apply upd_In in H. destruct H; [subst; tauto|tauto].
    + apply IHl; tauto.
Qed.

Lemma firstn_S_nth {A} (l : list A) n x : nth_error l n = Some x -> firstn (S n) l = firstn n l ++ [x].
Proof.
  revert n; induction l; destruct n; simpl; intros H; try discriminate.
  - injection H as ->. auto.
  - f_equal. apply IHl; auto.
Qed.

Lemma NoDup_firstn {A} (l : list A) n : NoDup l -> NoDup (firstn n l).
Proof.
  intros ND. rewrite <- (firstn_skipn n l) in ND. induction (firstn n l); [constructor|].
  simpl in ND. inversion ND; subst. constructor; auto. rewrite in_app_iff in H1. tauto.
Qed.

Lemma NoDup_nth_not_firstn {A} (l : list A) n x : NoDup l -> nth_error l n = Some x -> ~ In x (firstn n l).
Proof.
  intros ND E H. pose proof (firstn_S_nth l n x E) as F.
  pose proof (NoDup_firstn l (S n) ND) as ND2. rewrite F in ND2.
  apply NoDup_remove_2 in ND2. rewrite app_nil_r in ND2. auto.
Qed.

Lemma sampleReservoir_ok out numSamples total numTotal s :
  valid s -> length out = numSamples -> length total = numTotal ->
  (N.of_nat numTotal < 2 ^ 32)%N -> NoDup total -> numSamples <= numTotal ->
  exists out' s', sampleReservoir out numSamples total numTotal s = Some (out', s') /\
    sample_ok out' total numSamples /\ valid s'.
Proof.
  intros Hs Ho Hl Hn ND Hk. unfold sampleReservoir. rewrite copyPrefix_ok by lia.
  match goal with |- context [forN ?n ?i0 ?b ?st] =>
    destruct (forN_inv (fun i '(o, s) => length o = numSamples /\
      NoDup o /\ incl o (firstn i total) /\ valid s)
      b n i0 st) as (st' & E & HI)
  end.
  - rewrite firstn_length. repeat split; auto; try lia; try apply Hs.
    + apply NoDup_firstn; auto.
    + intros x; auto.
  - intros j [o s1] Hj (I1 & I2 & I3 & I4).
    destruct (randomInt_ok s1 0 (j + 1) I4 ltac:(lia) ltac:(lia)) as (r & s2 & E & Hr & Hs2). rewrite E.
    destruct (aget_Some total j ltac:(lia)) as (x & Ex). rewrite Ex. unfold aget in Ex.
    pose proof (firstn_S_nth total j x Ex) as F.
    destruct (Nat.ltb_spec r numSamples).
    + rewrite aset_Some by lia. eexists; split; [reflexivity|]; cbv beta iota. rewrite upd_length.
      repeat split; auto; try apply Hs2.
      * apply NoDup_upd; auto. intros Hin. apply I3 in Hin. revert Hin. apply NoDup_nth_not_firstn; auto.
      * rewrite F. intros y Hy. apply upd_In in Hy. apply in_or_app. simpl. destruct Hy; auto.
    + eexists; split; [reflexivity|]; cbv beta iota. repeat split; auto; try apply Hs2.
      rewrite F. intros y Hy. apply in_or_app. auto.
  - rewrite E. destruct st' as [o s1]. destruct HI as (I1 & I2 & I3 & I4).
    exists o, s1. split; auto. split; auto. unfold sample_ok. split; auto. split; auto.
    intros y Hy. apply I3 in Hy. rewrite firstn_all2 in Hy by lia. auto.
Qed.

(** * Random permutation *)
Lemma nth_error_app {A} (l1 l2 : list A) i :
  nth_error (l1 ++ l2) i = if i <? length l1 then nth_error l1 i else nth_error l2 (i - length l1).
Proof.
  destruct (Nat.ltb_spec i (length l1)).
  - apply nth_error_app1; auto.
  - apply nth_error_app2; auto.
Qed.

Lemma upd_app {A} (l1 l2 : list A) i v :
  upd (l1 ++ l2) i v = if i <? length l1 then upd l1 i v ++ l2 else l1 ++ upd l2 (i - length l1) v.
Proof.
  destruct (Nat.ltb_spec i (length l1)).
  - apply upd_app1; auto.
  - apply upd_app2; auto.
Qed.

Lemma app_length_inj {A} (l1 l2 l3 l4 : list A) : length l1 = length l3 -> l1 ++ l2 = l3 ++ l4 -> l1 = l3 /\ l2 = l4.
Proof.
  revert l3; induction l1; destruct l3; simpl; intros HL H; try discriminate; auto.
  injection H as -> H. apply IHl1 in H; [|lia]. destruct H as [-> ->]. auto.
Qed.

Lemma randomPermutation_ok first second numFirst numTotal numPerm s :
  valid s -> length first = numFirst -> length first + length second = numTotal ->
  (N.of_nat numTotal < 2 ^ 32)%N -> numPerm <= numTotal ->
  exists f' g' s', randomPermutation first second numFirst numTotal numPerm s = Some (f', g', s') /\
    length f' = length first /\ length g' = length second /\
    Permutation (first ++ second) (f' ++ g') /\ valid s'.
Proof.
  intros Hs Hf Ht Hn Hp. unfold randomPermutation.
  match goal with |- context [forN ?n ?i0 ?b ?st] =>
    destruct (forN_inv (fun i '(f, g, s) => length f = length first /\ length g = length second /\
      Permutation (first ++ second) (f ++ g) /\ valid s)
      b n i0 st) as (st' & E & HI)
  end.
  - repeat split; auto; apply Hs.
  - intros i [[f g] s1] Hi (I1 & I2 & I3 & I4).
    destruct (randomInt_ok s1 i numTotal I4 ltac:(lia) Hn) as (r & s2 & E & Hr & Hs2). rewrite E.
    (* describe the step on the concatenation *)
    destruct (aget_Some (f ++ g) i) as (x & Ex). { rewrite app_length. lia. }
    destruct (aget_Some (f ++ g) r) as (y & Ey). { rewrite app_length. lia. }
    unfold aget in *. rewrite nth_error_app in Ex, Ey. rewrite I1, Hf in Ex, Ey. rewrite Ex.
    assert (Sw : Permutation (f ++ g) (upd (upd (f ++ g) r x) i y)).
    { destruct (Nat.eq_dec i r).
      - subst r. rewrite upd_upd. rewrite Ex in Ey. injection Ey as <-.
        rewrite upd_nth_same; auto. rewrite nth_error_app, I1, Hf. auto.
      - rewrite upd_comm by lia. apply swap_perm; rewrite nth_error_app, I1, Hf; auto. }
    destruct (Nat.ltb_spec r numFirst) as [Hr1|Hr1].
    + rewrite Ey. rewrite aset_Some by lia.
      destruct (Nat.ltb_spec i numFirst) as [Hi1|Hi1]; rewrite aset_Some by (rewrite ?upd_length; lia);
        eexists; (split; [reflexivity|]; cbv beta iota); rewrite ?upd_length; repeat split; auto; try apply Hs2.
      * rewrite I3, Sw. rewrite upd_app1 by lia. rewrite upd_app1 by (rewrite upd_length; lia). auto.
      * rewrite I3, Sw. rewrite upd_app1 by lia. rewrite upd_app2 by (rewrite upd_length; lia).
        rewrite upd_length, I1, Hf. auto.
    + rewrite Ey. rewrite aset_Some by lia.
      destruct (Nat.ltb_spec i numFirst) as [Hi1|Hi1]; rewrite aset_Some by (rewrite ?upd_length; lia);
        eexists; (split; [reflexivity|]; cbv beta iota); rewrite ?upd_length; repeat split; auto; try apply Hs2.
      * rewrite I3, Sw. rewrite upd_app2 by lia. rewrite upd_app1 by lia. rewrite I1, Hf. auto.
      * rewrite I3, Sw. rewrite upd_app2 by lia. rewrite upd_app2 by lia. rewrite I1, Hf. auto.
  - rewrite E. destruct st' as [[f g] s1]. destruct HI as (I1 & I2 & I3 & I4).
    exists f, g, s1. repeat split; auto; apply I4.
Qed.

Lemma fill_suffix numSamples numTotal (total : list nat) : length total = numTotal -> numSamples <= numTotal ->
  forN (numTotal - numSamples) numSamples (fun i unused =>
      let* x := aget total i in aset unused (i - numSamples) x) (repeat 0 (numTotal - numSamples))
  = Some (skipn numSamples total).
Proof.
  intros Hl Hk.
  match goal with |- forN ?n ?i0 ?b ?st = _ =>
    destruct (forN_inv (fun i o => length o = numTotal - numSamples /\
       firstn (i - numSamples) o = firstn (i - numSamples) (skipn numSamples total)) b n i0 st)
      as (st' & E & HI)
  end.
  - rewrite repeat_length, Nat.sub_diag. simpl. auto.
  - intros j o Hj (I1 & I2). destruct (aget_Some total j ltac:(lia)) as (x & Ex). rewrite Ex.
    rewrite aset_Some by lia. eexists; split; [reflexivity|]; cbv beta iota. rewrite upd_length. split; auto.
    replace (S j - numSamples) with (S (j - numSamples)) by lia.
    rewrite upd_firstn by lia. rewrite I2. symmetry. apply firstn_S_nth.
    unfold aget in Ex. rewrite <- (firstn_skipn numSamples total) in Ex.
    rewrite nth_error_app2 in Ex; rewrite firstn_length in *; [|lia].
    replace (Nat.min numSamples (length total)) with numSamples in Ex by lia. auto.
  - rewrite E. destruct HI as (I1 & I2). f_equal.
    rewrite !firstn_all2 in I2; rewrite ?skipn_length; try lia; auto.
Qed.

Lemma samplePermutation_ok out numSamples total numTotal s :
  valid s -> length out = numSamples -> length total = numTotal ->
  (N.of_nat numTotal < 2 ^ 32)%N -> NoDup total -> numSamples <= numTotal ->
  exists out' s', samplePermutation out numSamples total numTotal s = Some (out', s') /\
    sample_ok out' total numSamples /\ valid s'.
Proof.
  intros Hs Ho Hl Hn ND Hk. unfold samplePermutation. rewrite copyPrefix_ok by lia.
  rewrite fill_suffix by auto.
  destruct (randomPermutation_ok (firstn numSamples total) (skipn numSamples total) numSamples numTotal numSamples s)
    as (f & g & s' & -> & L1 & L2 & P & Hs'); auto.
  - rewrite firstn_length; lia.
  - rewrite firstn_length, skipn_length; lia.
  - rewrite firstn_skipn in P. rewrite firstn_length in L1. exists f, s'. split; auto. split; auto.
    unfold sample_ok. split; [lia|]. split.
    + apply (Permutation_NoDup P) in ND. clear -ND. induction f; [constructor|].
      simpl in ND. inversion ND; subst. constructor; auto. rewrite in_app_iff in H1. tauto.
    + intros x Hx. apply (Permutation_in (l := f ++ g)); [symmetry; auto|]. apply in_or_app; auto.
Qed.

Lemma sampleIndices_ok fuel out numSamples total numTotal s :
  enough fuel -> valid s -> length out = numSamples -> length total = numTotal ->
  (N.of_nat numTotal < 2 ^ 32)%N -> NoDup total -> numSamples <= numTotal ->
  exists out' s', sampleIndices fuel out numSamples total numTotal s = Some (out', s') /\
    sample_ok out' total numSamples /\ valid s'.
Proof.
  intros. unfold sampleIndices. destruct (ratioLow numSamples numTotal) eqn:R.
  - apply sampleTracking_ok; auto. unfold ratioLow in R.
    destruct (Nat.ltb_spec 0 numTotal); [|discriminate]. apply Nat.ltb_lt in R. lia.
  - destruct (ratioHigh numSamples numTotal).
    + apply sampleReservoir_ok; auto.
    + apply samplePermutation_ok; auto.
Qed.

(** * Weights without replacement *)
Definition trueIdx (w : list bool) (i : nat) : Prop := nth_error w i = Some true.

Definition weights_ok (w' : list bool) (total : list nat) (len numSamples : nat) : Prop :=
  length w' = len /\ count_occ bool_dec w' true = numSamples /\
  (forall i, nth_error w' i = Some true -> In i total).

Lemma count_upd_true (w : list bool) i :
  nth_error w i = Some false -> count_occ bool_dec (upd w i true) true = S (count_occ bool_dec w true).
Proof.
  revert i; induction w; destruct i; simpl; intros H; try discriminate.
  - injection H as ->. simpl. auto.
  - rewrite IHw by auto. destruct (bool_dec a true); auto.
Qed.

Lemma count_map_false {A} (w : list A) : count_occ bool_dec (map (fun _ => false) w) true = 0.
Proof. induction w; simpl; auto. Qed.

Lemma nth_map_false {A} (w : list A) i : nth_error (map (fun _ => false) w) i <> Some true.
Proof. revert i; induction w; destruct i; simpl; try discriminate. auto. Qed.

Lemma not_true_false (w : list bool) i : i < length w -> nth_error w i <> Some true -> nth_error w i = Some false.
Proof.
  intros H1 H2. destruct (nth_error w i) as [[]|] eqn:E; auto; [congruence|].
  apply nth_error_None in E. lia.
Qed.

Lemma weightsTracking_ok fuel w total numTotal numSamples s :
  enough fuel -> valid s -> length total = numTotal -> (N.of_nat numTotal < 2 ^ 32)%N -> NoDup total ->
  (forall i, In i total -> i < length w) -> numSamples <= numTotal -> (N.of_nat numSamples <= 2 ^ 31)%N ->
  exists w' n s', weightsTracking fuel w total numTotal numSamples s = Some (w', n, s') /\
    n = numSamples /\ weights_ok w' total (length w) numSamples /\ valid s'.
Proof.
  intros Hf Hs Hl Hn ND Hw Hk Hk2. unfold weightsTracking.
  match goal with |- context [forN ?n ?i0 ?b ?st] =>
    destruct (forN_inv (fun i '(w', sel, s) => length w' = length w /\ length sel = i /\
      (forall x, In x sel <-> nth_error w' x = Some true) /\ count_occ bool_dec w' true = i /\
      incl sel total /\ valid s) b n i0 st) as (st' & E & HI)
  end.
  - rewrite map_length. repeat split; auto; try apply Hs; try contradiction.
    + intros H. exfalso. revert H. apply nth_map_false.
    + apply count_map_false.
    + intros x [].
  - intros j [[w1 sel] s1] Hj (I1 & I2 & I3 & I4 & I5 & I6).
    destruct (draw_unseen_ok fuel total numTotal sel s1) as (x & s2 & -> & Hx1 & Hx2 & Hs2); auto; try lia.
    pose proof (Hw _ Hx1). rewrite aset_Some by lia. eexists; split; [reflexivity|]; cbv beta iota. rewrite upd_length.
    assert (nth_error w1 x = Some false). { apply not_true_false; [lia|]. rewrite <- I3. auto. }
    repeat split; auto; try apply Hs2.
    + simpl; lia.
    + intros [->|Hin]; rewrite nth_error_upd.
      * rewrite Nat.eqb_refl. simpl. destruct (Nat.ltb_spec x0 (length w1)); auto; lia.
      * destruct ((x =? x0) && (x <? length w1)); auto. apply I3; auto.
    + rewrite nth_error_upd. destruct (Nat.eqb_spec x x0); simpl; [auto|]. rewrite <- I3. auto.
    + rewrite count_upd_true by auto. lia.
    + intros y [<-|Hy]; auto.
  - rewrite E. destruct st' as [[w1 sel] s1]. destruct HI as (I1 & I2 & I3 & I4 & I5 & I6).
    exists w1, numSamples, s1. split; auto. split; auto. split; auto.
    split; auto. split; auto. intros i Hi. apply I5. apply I3. auto.
Qed.

Lemma NoDup_firstn_pool (pool : list nat) r m last x :
  m < length pool -> nth_error pool m = Some last -> nth_error pool r = Some x -> r <= m ->
  NoDup (firstn (S m) pool) ->
  NoDup (firstn m (upd pool r last)) /\ ~ In x (firstn m (upd pool r last)) /\
  incl (firstn m (upd pool r last)) (firstn (S m) pool).
Proof.
  intros Hm El Ex Hr ND.
  pose proof (firstn_S_nth pool m last El) as F.
  pose proof (swap_perm pool r m x last Ex El) as P.
  (* firstn (S m) of the swapped pool is a permutation *)
  set (q := firstn (S m) pool) in *.
  assert (Exq : nth_error q r = Some x).
  { unfold q. rewrite <- (firstn_skipn (S m) pool) in Ex. rewrite nth_error_app1 in Ex; auto.
    rewrite firstn_length. lia. }
  assert (Elq : nth_error q m = Some last).
  { rewrite F. rewrite nth_error_app2; rewrite firstn_length; [|lia].
    replace (m - Nat.min m (length pool)) with 0 by lia. auto. }
  pose proof (swap_perm q r m x last Exq Elq) as Pq.
  assert (Eq : upd (upd q r last) m x = firstn m (upd pool r last) ++ [x]).
  { assert (U : upd q r last = firstn (S m) (upd pool r last)).
    { unfold q. clear -Hr Hm. revert r m Hr Hm. induction pool; intros r m Hr Hm; simpl; auto.
      destruct r; simpl; auto. destruct m; [lia|]. simpl in *. f_equal. apply (IHpool r m); lia. }
    rewrite U. assert (L : m < length (upd pool r last)) by (rewrite upd_length; auto).
    destruct (aget_Some (upd pool r last) m L) as (z & Ez). unfold aget in Ez.
    rewrite (firstn_S_nth _ _ _ Ez). rewrite upd_app2; rewrite firstn_length; [|lia].
    replace (m - Nat.min m (length (upd pool r last))) with 0 by lia. reflexivity. }
  rewrite Eq in Pq.
  pose proof (Permutation_NoDup Pq ND) as ND2.
  repeat split.
  - apply NoDup_remove_1 in ND2. rewrite app_nil_r in ND2. auto.
  - apply NoDup_remove_2 in ND2. rewrite app_nil_r in ND2. auto.
  - intros y Hy. apply (Permutation_in (l := firstn m (upd pool r last) ++ [x])); [symmetry; auto|].
    apply in_or_app; auto.
Qed.

Lemma copyAll (total : list nat) numTotal : length total = numTotal ->
  forN numTotal 0 (fun i pool => let* x := aget total i in aset pool i x) (repeat 0 numTotal) = Some total.
Proof.
  intros. pose proof (copyPrefix_ok (repeat 0 numTotal) numTotal total) as C.
  rewrite repeat_length in C. specialize (C eq_refl ltac:(lia)).
  rewrite firstn_all2 in C by lia. exact C.
Qed.

Lemma weightsPool_ok w total numTotal numSamples s :
  valid s -> length total = numTotal -> (N.of_nat numTotal < 2 ^ 32)%N -> NoDup total ->
  (forall i, In i total -> i < length w) -> numSamples <= numTotal ->
  exists w' n s', weightsPool w total numTotal numSamples s = Some (w', n, s') /\
    n = numSamples /\ weights_ok w' total (length w) numSamples /\ valid s'.
Proof.
  intros Hs Hl Hn ND Hw Hk. unfold weightsPool. rewrite copyAll by auto.
  match goal with |- context [forN ?n ?i0 ?b ?st] =>
    destruct (forN_inv (fun i '(w', pool, s) => length w' = length w /\ length pool = numTotal /\
      NoDup (firstn (numTotal - i) pool) /\ incl (firstn (numTotal - i) pool) total /\
      (forall x, In x (firstn (numTotal - i) pool) -> nth_error w' x = Some false) /\
      count_occ bool_dec w' true = i /\
      (forall x, nth_error w' x = Some true -> In x total) /\ valid s) b n i0 st) as (st' & E & HI)
  end.
  - rewrite map_length. rewrite Nat.sub_0_r. rewrite firstn_all2 by lia.
    split; auto. split; auto. split; auto. split; [intros x; auto|]. split; [|split; [|split; auto]].
    + intros x Hx. apply not_true_false; [rewrite map_length; auto|apply nth_map_false].
    + apply count_map_false.
    + intros x H. exfalso. revert H. apply nth_map_false.
  - intros i [[w1 pool] s1] Hi (I1 & I2 & I3 & I4 & I5 & I6 & I7 & I8).
    destruct (randomInt_ok s1 0 (numTotal - i) I8 ltac:(lia) ltac:(lia)) as (r & s2 & E & Hr & Hs2). rewrite E.
    destruct (aget_Some pool r ltac:(lia)) as (x & Ex). rewrite Ex.
    destruct (aget_Some pool (numTotal - i - 1) ltac:(lia)) as (last & El). rewrite El.
    unfold aget in *.
    assert (Hin : In x (firstn (numTotal - i) pool)).
    { apply nth_error_In with r. rewrite <- (firstn_skipn (numTotal - i) pool) in Ex.
      rewrite nth_error_app1 in Ex; auto. rewrite firstn_length; lia. }
    pose proof (Hw _ (I4 _ Hin)).
    rewrite aset_Some by lia. rewrite aset_Some by lia.
    eexists; split; [reflexivity|]; cbv beta iota. rewrite !upd_length.
    replace (numTotal - S i) with (numTotal - i - 1) by lia.
    destruct (NoDup_firstn_pool pool r (numTotal - i - 1) last x) as (N1 & N2 & N3); auto; try lia.
    { replace (S (numTotal - i - 1)) with (numTotal - i) by lia. auto. }
    replace (S (numTotal - i - 1)) with (numTotal - i) in N3 by lia.
    split; auto. split; auto. split; auto. split; [intros y Hy; auto|].
    split; [|split; [|split; auto]].
    + intros y Hy. rewrite nth_error_upd_neq; auto. intros ->. auto.
    + rewrite count_upd_true; auto.
    + intros y Hy. rewrite nth_error_upd in Hy. destruct (Nat.eqb_spec x y); simpl in Hy.
      * subst. auto.
      * auto.
  - rewrite E. destruct st' as [[w1 pool] s1]. destruct HI as (I1 & I2 & I3 & I4 & I5 & I6 & I7 & I8).
    exists w1, numSamples, s1. split; auto. split; auto. split; auto. repeat split; auto.
Qed.

Lemma sampleWeights_ok fuel w total numTotal numSamples s :
  enough fuel -> valid s -> length total = numTotal -> (N.of_nat numTotal < 2 ^ 32)%N -> NoDup total ->
  (forall i, In i total -> i < length w) -> numSamples <= numTotal ->
  exists w' n s', sampleWeights fuel w total numTotal numSamples s = Some (w', n, s') /\
    n = numSamples /\ weights_ok w' total (length w) numSamples /\ valid s'.
Proof.
  intros. unfold sampleWeights. destruct (ratioLow numSamples numTotal) eqn:R.
  - apply weightsTracking_ok; auto. unfold ratioLow in R.
    destruct (Nat.ltb_spec 0 numTotal); [|discriminate]. apply Nat.ltb_lt in R. lia.
  - apply weightsPool_ok; auto.
Qed.

(** * Weights with replacement *)
Fixpoint sum (l : list nat) : nat := match l with [] => 0 | x :: t => x + sum t end.
Definition nonzeros (l : list nat) : nat := length (filter (fun x => negb (x =? 0)) l).

Lemma sum_upd l i x : nth_error l i = Some x -> sum (upd l i (x + 1)) = sum l + 1.
Proof. revert i; induction l; destruct i; simpl; intros H; try discriminate.
  - injection H as ->. lia.
  - rewrite IHl by auto. lia.
Qed.

Lemma nonzeros_upd l i x : nth_error l i = Some x ->
  nonzeros (upd l i (x + 1)) = if x =? 0 then nonzeros l + 1 else nonzeros l.
Proof.
  unfold nonzeros. revert i; induction l; destruct i; simpl; intros H; try discriminate.
  - injection H as ->. rewrite Nat.add_1_r. simpl. destruct (x =? 0); simpl; lia.
  - specialize (IHl _ H). destruct (negb (a =? 0)); simpl; rewrite IHl; destruct (x =? 0); auto.
Qed.

Lemma sum_repeat0 n : sum (repeat 0 n) = 0.
Proof. induction n; simpl; auto. Qed.

Lemma nonzeros_repeat0 n : nonzeros (repeat 0 n) = 0.
Proof. unfold nonzeros. induction n; simpl; auto. Qed.

Lemma nth_error_repeat {A} (x : A) n i : i < n -> nth_error (repeat x n) i = Some x.
Proof. revert i; induction n; destruct i; simpl; intros; auto; try lia. apply IHn. lia. Qed.

Lemma nth_error_repeat_inv {A} (x y : A) n i : nth_error (repeat x n) i = Some y -> y = x.
Proof. intros H. apply nth_error_In in H. apply repeat_spec in H. auto. Qed.

Lemma sampleWithReplacement_ok indices numTraining numExamples numSamples s :
  valid s -> length indices = numTraining -> (N.of_nat numTraining < 2 ^ 32)%N -> 0 < numTraining ->
  (forall i, In i indices -> i < numExamples) ->
  exists w n s', sampleWithReplacement indices numTraining numExamples numSamples s = Some (w, n, s') /\
    length w = numExamples /\ sum w = numSamples /\ n = nonzeros w /\
    (forall i x, nth_error w i = Some x -> ~ In i indices -> x = 0) /\ valid s'.
Proof.
  intros Hs Hl Hn H0 Hi. unfold sampleWithReplacement.
  match goal with |- context [forN ?n ?i0 ?b ?st] =>
    destruct (forN_inv (fun i '(w, nz, s) => length w = numExamples /\ sum w = i /\ nz = nonzeros w /\
      (forall i x, nth_error w i = Some x -> ~ In i indices -> x = 0) /\ valid s) b n i0 st) as (st' & E & HI)
  end.
  - rewrite repeat_length, sum_repeat0, nonzeros_repeat0. repeat split; auto; try apply Hs.
    intros i x Hx _. apply nth_error_repeat_inv in Hx. auto.
  - intros j [[w nz] s1] Hj (I1 & I2 & I3 & I4 & I5).
    destruct (randomInt_ok s1 0 numTraining I5 H0 Hn) as (r & s2 & E & Hr & Hs2). rewrite E.
    destruct (aget_Some indices r ltac:(lia)) as (x & Ex). rewrite Ex.
    assert (In x indices) by (eapply nth_error_In; eauto). pose proof (Hi _ H).
    destruct (aget_Some w x ltac:(lia)) as (p & Ep). rewrite Ep. rewrite aset_Some by lia.
    eexists; split; [reflexivity|]; cbv beta iota. unfold aget in *. rewrite upd_length.
    repeat split; auto; try apply Hs2.
    + rewrite (sum_upd w x p) by auto. lia.
    + rewrite (nonzeros_upd w x p) by auto. subst nz. auto.
    + intros i y Hy Hni. rewrite nth_error_upd_neq in Hy; eauto. intros ->. auto.
  - rewrite E. destruct st' as [[w nz] s1]. destruct HI as (I1 & I2 & I3 & I4 & I5).
    exists w, nz, s1. repeat split; auto; apply I5.
Qed.

(** * Random bi-partition *)
Lemma fill_holdout numTraining numHoldout :
  forN numHoldout 0 (fun i h => aset h i (numTraining + i)) (repeat 0 numHoldout)
  = Some (seq numTraining numHoldout).
Proof.
  match goal with |- forN ?n ?i0 ?b ?st = _ =>
    destruct (forN_inv (fun i o => length o = numHoldout /\ firstn i o = seq numTraining i) b n i0 st)
      as (st' & E & HI)
  end.
  - rewrite repeat_length. auto.
  - intros j o Hj (I1 & I2). rewrite aset_Some by lia. eexists; split; [reflexivity|]; cbv beta iota.
    rewrite upd_length. split; auto. rewrite upd_firstn by lia. rewrite I2. rewrite seq_S. auto.
  - rewrite E. destruct HI as (I1 & I2). f_equal. rewrite firstn_all2 in I2 by lia. auto.
Qed.

Lemma randomBiPartition_ok numTraining numHoldout s :
  valid s -> (N.of_nat (numTraining + numHoldout) < 2 ^ 32)%N ->
  exists f g s', randomBiPartition numTraining numHoldout s = Some (f, g, s') /\
    length f = numTraining /\ length g = numHoldout /\
    Permutation (f ++ g) (seq 0 (numTraining + numHoldout)) /\ valid s'.
Proof.
  intros Hs Hn. unfold randomBiPartition. rewrite fill_holdout.
  destruct (randomPermutation_ok (seq 0 numTraining) (seq numTraining numHoldout) numTraining
    (numTraining + numHoldout) numTraining s) as (f & g & s' & -> & L1 & L2 & P & Hs'); auto;
    rewrite ?seq_length; try lia.
  rewrite seq_length in *. exists f, g, s'. repeat split; auto; try apply Hs'.
  rewrite seq_app. symmetry. exact P.
Qed.

(** * Round robin *)
Lemma roundRobin_mod n k : 0 < n -> fst (roundRobin n (k mod n)) = k mod n /\ snd (roundRobin n (k mod n)) = (S k) mod n.
Proof.
  intros Hn. unfold roundRobin. simpl. split; auto.
  pose proof (Nat.mod_upper_bound k n ltac:(lia)).
  pose proof (Nat.div_mod k n ltac:(lia)).
  destruct (Nat.leb_spec n (k mod n + 1)).
  - apply Nat.mod_unique with (q := k / n + 1); nia.
  - apply Nat.mod_unique with (q := k / n); nia.
Qed.

Lemma roundRobinRun_mod n k : 0 < n -> forall j, roundRobinRun n (j mod n) k = map (fun i => i mod n) (seq j k).
Proof.
  intros Hn. induction k; intros j; cbn [roundRobinRun seq map]; auto.
  destruct (roundRobin_mod n j Hn) as [E1 E2].
  destruct (roundRobin n (j mod n)) as [x y]. cbn [fst snd] in E1, E2. subst. rewrite IHk. auto.
Qed.

Lemma window_perm n j : 0 < n -> Permutation (map (fun i => i mod n) (seq j n)) (seq 0 n).
Proof.
  intros Hn. apply NoDup_Permutation_bis.
  - assert (G : forall m, m <= n -> NoDup (map (fun i => i mod n) (seq j m))).
    { induction m; intros Hm; [constructor|]. rewrite seq_S, map_app. simpl.
      apply NoDup_snoc; [apply IHm; lia|].
      rewrite in_map_iff. intros (i & E & Hi). apply in_seq in Hi.
      pose proof (Nat.div_mod i n ltac:(lia)). pose proof (Nat.div_mod (j + m) n ltac:(lia)).
      rewrite E in H. assert ((j + m) / n = i / n \/ (j + m) / n >= i / n + 1 \/ (j + m) / n + 1 <= i / n) by lia.
      destruct H1 as [H1|[H1|H1]]; nia. }
    apply G. lia.
  - rewrite map_length, !seq_length. lia.
  - intros x Hx. apply in_map_iff in Hx as (i & <- & Hi). apply in_seq.
    pose proof (Nat.mod_upper_bound i n ltac:(lia)). lia.
Qed.

(** * Feature sampling *)
Lemma featureSamplingInit_ok numFeatures numSamples numRetained :
  featureSamplingInit numFeatures numSamples numRetained =
  Some (seq (numFeatures - numRetained) numRetained ++ repeat 0 numSamples).
Proof.
  unfold featureSamplingInit.
  match goal with |- forN ?n ?i0 ?b ?st = _ =>
    destruct (forN_inv (fun i o => length o = numSamples + numRetained /\
       o = seq (numFeatures - numRetained) i ++ repeat 0 (numSamples + numRetained - i)) b n i0 st)
      as (st' & E & HI)
  end.
  - rewrite repeat_length, Nat.sub_0_r. auto.
  - intros j o Hj (I1 & I2). rewrite aset_Some by lia. eexists; split; [reflexivity|]; cbv beta iota.
    rewrite upd_length. split; auto. subst o. rewrite upd_app2; rewrite seq_length; [|lia].
    rewrite Nat.sub_diag. rewrite seq_S, <- app_assoc. f_equal.
    replace (numSamples + numRetained - j) with (S (numSamples + numRetained - S j)) by lia. simpl. auto.
  - rewrite E. destruct HI as (I1 & ->). f_equal. f_equal. f_equal. lia.
Qed.

Definition features_ok (v : list nat) (numFeatures numSamples numRetained : nat) : Prop :=
  length v = numSamples + numRetained /\ NoDup v /\ (forall i, In i v -> i < numFeatures) /\
  (forall i, numFeatures - numRetained <= i < numFeatures -> In i v).

(** States of the sampler: the retained prefix is intact. *)
Definition feature_state (v : list nat) (numFeatures numSamples numRetained : nat) : Prop :=
  length v = numSamples + numRetained /\ firstn numRetained v = seq (numFeatures - numRetained) numRetained.

Lemma NoDup_app_disj {A} (l1 l2 : list A) : NoDup l1 -> NoDup l2 -> (forall x, In x l1 -> ~ In x l2) -> NoDup (l1 ++ l2).
Proof.
  induction l1; simpl; intros N1 N2 D; auto. inversion N1; subst. constructor.
  - rewrite in_app_iff. intros [?|?]; auto. eapply D; eauto.
  - apply IHl1; auto.
Qed.

Lemma featureSample_ok fuel numFeatures numSamples numRetained v s :
  enough fuel -> valid s -> (N.of_nat numFeatures < 2 ^ 32)%N -> numSamples + numRetained <= numFeatures ->
  feature_state v numFeatures numSamples numRetained ->
  exists v' s', featureSample fuel numFeatures numSamples numRetained v s = Some (v', s') /\
    features_ok v' numFeatures numSamples numRetained /\
    feature_state v' numFeatures numSamples numRetained /\ valid s'.
Proof.
  intros Hf Hs Hn Hk (V1 & V2). unfold featureSample.
  destruct (sampleIndices_ok fuel (skipn numRetained v) numSamples (seq 0 (numFeatures - numRetained))
    (numFeatures - numRetained) s) as (o & s' & -> & (O1 & O2 & O3) & Hs'); auto.
  - rewrite skipn_length. lia.
  - apply seq_length.
  - lia.
  - apply seq_NoDup.
  - lia.
  - exists (firstn numRetained v ++ o), s'. split; auto. rewrite V2.
    assert (B : forall x, In x o -> x < numFeatures - numRetained).
    { intros x Hx. apply O3, in_seq in Hx. lia. }
    split; [|split; auto].
    + split; [rewrite app_length, seq_length; lia|]. split.
      { apply NoDup_app_disj; auto. apply seq_NoDup. intros x Hx Ho. apply in_seq in Hx. apply B in Ho. lia. }
      split.
      * intros i Hi. apply in_app_or in Hi as [Hi|Hi]; [apply in_seq in Hi; lia|]. apply B in Hi. lia.
      * intros i Hi. apply in_or_app. left. apply in_seq. lia.
    + split; [rewrite app_length, seq_length; lia|].
      rewrite firstn_app, seq_length, Nat.sub_diag. simpl. rewrite app_nil_r.
      apply firstn_all2. rewrite seq_length. lia.
Qed.

Lemma feature_init_state numFeatures numSamples numRetained v :
  featureSamplingInit numFeatures numSamples numRetained = Some v ->
  feature_state v numFeatures numSamples numRetained.
Proof.
  rewrite featureSamplingInit_ok. intros [= <-]. split.
  - rewrite app_length, seq_length, repeat_length. lia.
  - rewrite firstn_app, seq_length, Nat.sub_diag. simpl. rewrite app_nil_r.
    apply firstn_all2. rewrite seq_length. lia.
Qed.

(** Repeated calls of [sample()]. *)
Fixpoint featureRun (fuel numFeatures numSamples numRetained k : nat) (v : list nat) (s : N)
  : option (list (list nat)) :=
  match k with
  | O => Some []
  | S k' =>
      let* (v', s') := featureSample fuel numFeatures numSamples numRetained v s in
      let* r := featureRun fuel numFeatures numSamples numRetained k' v' s' in
      Some (v' :: r)
  end.

Lemma featureRun_ok fuel numFeatures numSamples numRetained k : forall v s,
  enough fuel -> valid s -> (N.of_nat numFeatures < 2 ^ 32)%N -> numSamples + numRetained <= numFeatures ->
  feature_state v numFeatures numSamples numRetained ->
  exists r, featureRun fuel numFeatures numSamples numRetained k v s = Some r /\ length r = k /\
    Forall (fun v' => features_ok v' numFeatures numSamples numRetained) r.
Proof.
  induction k; intros v s Hf Hs Hn Hk Hv; simpl.
  - exists []. auto.
  - destruct (featureSample_ok fuel numFeatures numSamples numRetained v s) as (v' & s' & -> & F & V & S'); auto.
    destruct (IHk v' s') as (r & -> & L & FA); auto.
    exists (v' :: r). simpl. auto.
Qed.

(** * Bounded fraction *)
Lemma bounded_fraction_ok numTotal fraction minimum maximum :
  (0 <= fraction)%Q -> (fraction <= 1)%Q ->
  let r := calculateBoundedFraction numTotal fraction minimum maximum in
  Nat.min minimum numTotal <= r /\ (minimum <= maximum -> r <= maximum) /\ r <= numTotal.
Proof.
  intros Hf0 Hf1. unfold calculateBoundedFraction.
  set (res := Z.to_nat (Qceiling (fraction * inject_Z (Z.of_nat numTotal)))).
  assert (Hres : res <= numTotal).
  { unfold res. assert (Qceiling (fraction * inject_Z (Z.of_nat numTotal)) <= Z.of_nat numTotal)%Z; [|lia].
    rewrite <- (Qceiling_Z (Z.of_nat numTotal)) at 2. apply Qceiling_resp_le.
    setoid_replace (inject_Z (Z.of_nat numTotal)) with (1 * inject_Z (Z.of_nat numTotal))%Q at 2 by ring.
    apply Qmult_le_compat_r; auto. change 0%Q with (inject_Z 0). rewrite <- Zle_Qle. lia. }
  clearbody res. simpl.
  destruct (Nat.ltb_spec res (Nat.min minimum numTotal)).
  - repeat split; lia.
  - destruct (Nat.leb_spec minimum maximum), (Nat.ltb_spec maximum res); simpl; repeat split; lia.
Qed.

(** Exact characterisation: the ceiling, clamped. *)
Lemma bounded_fraction_exact numTotal fraction minimum maximum :
  let c := Z.to_nat (Qceiling (fraction * inject_Z (Z.of_nat numTotal))) in
  calculateBoundedFraction numTotal fraction minimum maximum =
  Nat.max (Nat.min minimum numTotal) (if minimum <=? maximum then Nat.min c maximum else c).
Proof.
  intros. unfold calculateBoundedFraction. fold c.
  destruct (Nat.ltb_spec c (Nat.min minimum numTotal)), (Nat.leb_spec minimum maximum),
    (Nat.ltb_spec maximum c); simpl; lia.
Qed.

(** * Statements in the form used by Properties/Sampling.v *)
Lemma C01_lemma (seed : N) (reqs : list (N * N)) :
    setRandomState seed = Some seed -> (seed < 2 ^ 32)%N ->
    Forall (fun q => (fst q < snd q < 2 ^ 32)%N) reqs ->
    exists results state,
      requests seed reqs = Some (results, state) /\
      Forall2 (fun q r => (fst q <= r < snd q)%N) reqs results /\
      (1 <= state < 2 ^ 32)%N.
Proof.
  unfold setRandomState. destruct (N.leb_spec 1 seed); [|discriminate]. intros _ H1 H2.
  apply requests_ok; auto. split; auto.
Qed.

Lemma lt_period k : k < period_nat <-> (N.of_nat k < 2 ^ 32 - 1)%N.
Proof. pose proof period_nat_Z as P. unfold period in P. lia. Qed.

Lemma C02_lemma1 (s v : N) : (1 <= s < 2 ^ 32)%N -> (1 <= v < 2 ^ 32)%N ->
    exists k, (N.of_nat k < 2 ^ 32 - 1)%N /\
      exists rs, requests s (repeat (0, 1)%N (S k)) = Some (rs, v).
Proof.
  intros Hs Hv. destruct (reach_state s v Hs Hv) as (k & rs & Hk & E).
  exists k. split; [apply lt_period; auto|]. eauto.
Qed.

Lemma C02_lemma2 (s lo hi t : N) :
    (1 <= s < 2 ^ 32)%N -> (lo <= t < hi)%N -> (hi < 2 ^ 32)%N -> (t - lo < 2 ^ 31)%N ->
    exists k rs s', (N.of_nat k < 2 ^ 32 - 1)%N /\
      requests s (repeat (lo, hi) (S k)) = Some (rs, s') /\ nth_error rs k = Some t.
Proof.
  intros. destruct (reach_value s lo hi t) as (k & rs & s' & Hk & E); auto.
  exists k, rs, s'. split; [apply lt_period; auto|]. auto.
Qed.

Lemma C02_lemma3 (s : N) (j : nat) : (1 <= s < 2 ^ 32)%N -> (0 < N.of_nat j < 2 ^ 32 - 1)%N ->
    forall rs s', requests s (repeat (0, 1)%N j) = Some (rs, s') -> s' <> s.
Proof.
  intros Hs Hj rs s' E. destruct j as [|k]; [lia|].
  destruct (requests_nth k s 0 1 Hs) as (rs' & E' & _); [lia|].
  rewrite E in E'. assert (s' = Nat.iter (S k) xorshift s) by congruence. subst.
  apply no_short_cycle; try lia. split; [lia|]. apply lt_period. lia.
Qed.

Lemma C03_lemma (fuel : nat) (out : list nat) (k : nat) (total : list nat) (s : N) :
    (2 ^ 32 <= N.of_nat fuel)%N -> (1 <= s < 2 ^ 32)%N -> length out = k -> k <= length total ->
    (N.of_nat (length total) < 2 ^ 32)%N -> NoDup total ->
    exists out' s', sampleIndices fuel out k total (length total) s = Some (out', s') /\
      (length out' = k /\ NoDup out' /\ incl out' total) /\ (1 <= s' < 2 ^ 32)%N.
Proof. intros. apply sampleIndices_ok; auto. Qed.

Lemma C03_lemma2 (fuel n m : nat) (out : list nat) (s : N) :
    (2 ^ 32 <= N.of_nat fuel)%N -> (1 <= s < 2 ^ 32)%N -> (N.of_nat n < 2 ^ 32)%N -> length out = Nat.min n m ->
    exists out' s', outputSample fuel n m out s = Some (out', s') /\
      length out' = Nat.min n m /\ NoDup out' /\ (forall i, In i out' -> i < n).
Proof.
  intros. unfold outputSample.
  assert (E : (if n <? m then n else m) = Nat.min n m) by (destruct (Nat.ltb_spec n m); lia). rewrite E.
  destruct (sampleIndices_ok fuel out (Nat.min n m) (seq 0 n) n s) as (o & s' & Eo & (O1 & O2 & O3) & _); auto.
  - apply seq_length.
  - apply seq_NoDup.
  - lia.
  - exists o, s'. repeat split; auto. intros i Hi. apply O3, in_seq in Hi. lia.
Qed.

Lemma C04_lemma (first second : list nat) (numPermutations : nat) (s : N) :
    (1 <= s < 2 ^ 32)%N -> (N.of_nat (length first + length second) < 2 ^ 32)%N ->
    numPermutations <= length first + length second ->
    exists first' second' s',
      randomPermutation first second (length first) (length first + length second) numPermutations s
        = Some (first', second', s') /\
      length first' = length first /\ length second' = length second /\
      Permutation (first ++ second) (first' ++ second') /\ (1 <= s' < 2 ^ 32)%N.
Proof. intros. apply randomPermutation_ok; auto. Qed.

Lemma C05_lemma (fuel : nat) (w : list bool) (total : list nat) (k : nat) (s : N) :
    (2 ^ 32 <= N.of_nat fuel)%N -> (1 <= s < 2 ^ 32)%N -> (N.of_nat (length total) < 2 ^ 32)%N -> NoDup total ->
    (forall i, In i total -> i < length w) -> k <= length total ->
    exists w' n s', sampleWeights fuel w total (length total) k s = Some (w', n, s') /\
      n = k /\
      (length w' = length w /\ count_occ bool_dec w' true = k /\
       forall i, nth_error w' i = Some true -> In i total) /\
      (1 <= s' < 2 ^ 32)%N.
Proof. intros. apply sampleWeights_ok; auto. Qed.

Lemma sum_list_sum l : sum l = list_sum l.
Proof. induction l; simpl; auto. Qed.

Lemma C06_lemma (training : list nat) (numExamples numSamples : nat) (s : N) :
    (1 <= s < 2 ^ 32)%N -> (N.of_nat (length training) < 2 ^ 32)%N -> 0 < length training ->
    (forall i, In i training -> i < numExamples) ->
    exists w n s',
      sampleWithReplacement training (length training) numExamples numSamples s = Some (w, n, s') /\
      length w = numExamples /\ list_sum w = numSamples /\
      n = length (filter (fun x => negb (x =? 0)) w) /\
      (forall i x, nth_error w i = Some x -> ~ In i training -> x = 0) /\ (1 <= s' < 2 ^ 32)%N.
Proof.
  intros. destruct (sampleWithReplacement_ok training (length training) numExamples numSamples s)
    as (w & n & s' & E & W1 & W2 & W3 & W4 & W5); auto.
  exists w, n, s'. rewrite <- sum_list_sum. repeat split; auto; apply W5.
Qed.

Lemma C07_lemma (numTraining numHoldout : nat) (s : N) :
    (1 <= s < 2 ^ 32)%N -> (N.of_nat (numTraining + numHoldout) < 2 ^ 32)%N ->
    exists training holdout s',
      randomBiPartition numTraining numHoldout s = Some (training, holdout, s') /\
      length training = numTraining /\ length holdout = numHoldout /\
      Permutation (training ++ holdout) (seq 0 (numTraining + numHoldout)) /\ (1 <= s' < 2 ^ 32)%N.
Proof. intros. apply randomBiPartition_ok; auto. Qed.

Lemma C10_lemma (fuel numFeatures k r calls : nat) (s : N) :
    (2 ^ 32 <= N.of_nat fuel)%N -> (1 <= s < 2 ^ 32)%N -> (N.of_nat numFeatures < 2 ^ 32)%N ->
    k + r <= numFeatures ->
    exists v samples,
      featureSamplingInit numFeatures k r = Some v /\
      featureRun fuel numFeatures k r calls v s = Some samples /\ length samples = calls /\
      Forall (fun sample =>
        length sample = k + r /\ NoDup sample /\ (forall i, In i sample -> i < numFeatures) /\
        (forall i, numFeatures - r <= i < numFeatures -> In i sample)) samples.
Proof.
  intros. pose proof (featureSamplingInit_ok numFeatures k r) as E.
  eexists. destruct (featureRun_ok fuel numFeatures k r calls (seq (numFeatures - r) r ++ repeat 0 k) s) as (samples & E2 & L & F); auto.
  { apply (feature_init_state _ _ _ _ E). }
  exists samples. eauto.
Qed.

Lemma C11_lemma (n start : nat) : 0 < n ->
    let calls := roundRobinRun n 0 (start + n) in
    Permutation (skipn start calls) (seq 0 n) /\
    (forall i x, nth_error calls i = Some x -> x = i mod n).
Proof.
  intros Hn. cbv zeta.
  assert (E0 : roundRobinRun n 0 (start + n) = map (fun i => i mod n) (seq 0 (start + n))).
  { rewrite <- roundRobinRun_mod by auto. f_equal. symmetry. apply Nat.mod_0_l. lia. }
  rewrite E0. split.
  - rewrite seq_app, map_app. rewrite skipn_app. rewrite map_length, seq_length, Nat.sub_diag.
    rewrite skipn_all2 by (rewrite map_length, seq_length; lia). simpl. apply window_perm; auto.
  - intros i x H. rewrite nth_error_map in H.
    destruct (nth_error (seq 0 (start + n)) i) eqn:E; [|discriminate].
    injection H as <-. f_equal.
    assert (L : i < length (seq 0 (start + n))) by (apply nth_error_Some; congruence).
    rewrite seq_length in L.
    rewrite (nth_error_nth' _ 0) in E by (rewrite seq_length; auto). injection E as <-.
    rewrite seq_nth; auto.
Qed.

Lemma C12_lemma (n : nat) (fraction : Q) (minimum maximum : nat) :
    (0 <= fraction)%Q -> (fraction <= 1)%Q ->
    let r := calculateBoundedFraction n fraction minimum maximum in
    let c := Z.to_nat (Qceiling (fraction * inject_Z (Z.of_nat n))) in
    (Nat.min minimum n <= r /\ (minimum <= maximum -> r <= maximum) /\ r <= n) /\
    r = Nat.max (Nat.min minimum n) (if minimum <=? maximum then Nat.min c maximum else c).
Proof.
  intros. split.
  - apply bounded_fraction_ok; auto.
  - apply bounded_fraction_exact.
Qed.
