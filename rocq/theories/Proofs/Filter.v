(** Proofs about the filtering of feature vectors and examples. *)
From Coq Require Import ZArith Arith List Bool Sorted Permutation Lia.
From Verif Require Import Lib.Arr Model.Search Model.Filter Spec.Search Spec.Filter Proofs.Search Proofs.SearchOrdinal.
Import ListNotations.
Open Scope nat_scope.

(** ** Lists *)

Lemma slice_S {A} a b (x : A) l : slice (S a) (S b) (x :: l) = slice a b l.
Proof. reflexivity. Qed.

Lemma slice_0 {A} b (l : list A) : slice 0 b l = firstn b l.
Proof. unfold slice. rewrite Nat.sub_0_r. reflexivity. Qed.

Lemma slice_length {A} a b (l : list A) : a <= b <= length l -> length (slice a b l) = b - a.
Proof. intros H. unfold slice. rewrite firstn_length, skipn_length. lia. Qed.

Lemma nth_skipn {A} (l : list A) a k : nth_error (skipn a l) k = nth_error l (a + k).
Proof. revert l; induction a; intros l; simpl; auto. destruct l; auto. destruct k; auto. Qed.

Lemma skipn_plus {A} (l : list A) a b : skipn b (skipn a l) = skipn (a + b) l.
Proof. revert l; induction a; intros l; simpl; auto. destruct l; auto. apply skipn_nil. Qed.

Lemma nth_firstn {A} (l : list A) a k : k < a -> nth_error (firstn a l) k = nth_error l k.
Proof. revert l k; induction a; intros l k H; [lia|]. destruct l; auto. destruct k; simpl; auto. apply IHa. lia. Qed.

Lemma slice_nth {A} a b (l : list A) k : k < b - a -> nth_error (slice a b l) k = nth_error l (a + k).
Proof. intros H. unfold slice. rewrite nth_firstn, nth_skipn; auto. Qed.

Lemma slice_filter {A} (p : A -> bool) : forall (l : list A) a b,
  (forall k x, nth_error l k = Some x -> (p x = true <-> a <= k < b)) -> filter p l = slice a b l.
Proof.
  induction l as [|x l IH]; intros a b H.
  - unfold slice. rewrite skipn_nil, firstn_nil. reflexivity.
  - assert (Hx := H 0 x eq_refl). cbn [filter].
    assert (HT: forall a' b', (forall k, a <= S k < b <-> a' <= k < b') -> filter p l = slice a' b' l).
    { intros a' b' E. apply IH. intros k y Hk. rewrite (H (S k) y Hk). apply E. }
    destruct a as [|a].
    + destruct b as [|b].
      * destruct (p x) eqn:E; [exfalso; assert (0 <= 0 < 0) by (apply Hx; auto); lia|].
        rewrite (HT 0 0) by (intros; lia). unfold slice. reflexivity.
      * assert (E: p x = true) by (apply Hx; lia). rewrite E. rewrite (HT 0 b) by (intros; lia).
        unfold slice. rewrite Nat.sub_0_r. cbn [Nat.sub skipn firstn]. reflexivity.
    + assert (E: p x = false) by (destruct (p x); auto; assert (S a <= 0 < b) by (apply Hx; auto); lia). rewrite E.
      destruct b as [|b].
      * rewrite (HT 0 0) by (intros; lia). unfold slice. rewrite !Nat.sub_0_l. reflexivity.
      * rewrite (HT a b) by (intros; lia). reflexivity.
Qed.

Lemma keepBins_filter {A} (p : nat -> bool) (values : list A) : forall bins, length values = length bins ->
  Forall (fun ids => ids <> []) bins ->
  (forall ids i j, In ids bins -> In i ids -> In j ids -> p i = p j) ->
  let q := fun x : A * list nat => match snd x with i :: _ => p i | [] => false end in
  keepBins p values bins = (map fst (filter q (combine values bins)), map snd (filter q (combine values bins))).
Proof.
  induction values as [|v values IH]; intros [|ids bins] L HN H q; try discriminate; auto.
  inversion HN as [|? ? H1 H2]; subst. cbn [keepBins combine filter].
  rewrite IH; auto; [|intros ids' i j K1; apply (H ids'); right; exact K1].
  assert (HF: filter p ids = if q (v, ids) then ids else []).
  { unfold q. cbn [snd]. destruct ids as [|i ids]; [congruence|].
    assert (E: forall j, In j (i :: ids) -> p j = p i) by (intros j Hj; apply (H (i :: ids)); simpl; auto).
    destruct (p i) eqn:Ei; revert E; generalize (i :: ids); clear; intros l E.
    - induction l as [|j l IH]; simpl; auto. rewrite E by (left; auto). f_equal. apply IH. intros; apply E; right; auto.
    - induction l as [|j l IH]; simpl; auto. rewrite E by (left; auto). apply IH. intros; apply E; right; auto. }
  rewrite HF. destruct (q (v, ids)) eqn:Eq; [|reflexivity]. destruct ids; [congruence|]. reflexivity.
Qed.

Lemma map_slice {A B} (f : A -> B) a b l : map f (slice a b l) = slice a b (map f l).
Proof. unfold slice. rewrite <- firstn_map, <- skipn_map. reflexivity. Qed.

Lemma fst_combine {A B} (l1 : list A) (l2 : list B) : length l1 = length l2 -> map fst (combine l1 l2) = l1.
Proof. revert l2; induction l1; intros [|b l2] H; simpl in *; auto; try discriminate. f_equal. auto. Qed.

Lemma snd_combine {A B} (l1 : list A) (l2 : list B) : length l1 = length l2 -> map snd (combine l1 l2) = l2.
Proof. revert l2; induction l1; intros [|b l2] H; simpl in *; auto; try discriminate. f_equal. auto. Qed.

Lemma nth_combine {A B} (l1 : list A) (l2 : list B) k a b : nth_error (combine l1 l2) k = Some (a, b) ->
  nth_error l1 k = Some a /\ nth_error l2 k = Some b.
Proof.
  revert l2 k; induction l1 as [|x l1 IH]; intros [|y l2] [|k] H; simpl in *; try discriminate; auto.
  injection H as -> ->. auto.
Qed.

(** Bins are kept as a whole if their positions are in a range. *)
Lemma keepBins_slice {A} (p : nat -> bool) (values : list A) bins a b : length values = length bins ->
  Forall (fun ids => ids <> []) bins ->
  (forall k ids i, nth_error bins k = Some ids -> In i ids -> (p i = true <-> a <= k < b)) ->
  keepBins p values bins = (slice a b values, slice a b bins).
Proof.
  intros L HN H. rewrite keepBins_filter; auto.
  - rewrite (slice_filter _ _ a b).
    + rewrite !map_slice, fst_combine, snd_combine; auto.
    + intros k [v ids] E. apply nth_combine in E. destruct E as (_ & E). cbn [snd].
      destruct ids as [|i ids].
      * exfalso. rewrite Forall_forall in HN. apply (HN []); auto. eapply nth_error_In; eauto.
      * apply (H k (i :: ids)); simpl; auto.
  - intros ids i j K1 K2 K3. apply In_nth_error in K1. destruct K1 as (k & E).
    apply eq_true_iff_eq. rewrite (H k ids i), (H k ids j); auto. tauto.
Qed.

Lemma filter_app_ext {A} (p : A -> bool) l : (forall x, In x l -> p x = true) -> filter p l = l.
Proof. induction l as [|x l IH]; intros H; simpl; auto. rewrite H by (left; auto). f_equal. apply IH. intros; apply H; right; auto. Qed.

Lemma filter_nil_ext {A} (p : A -> bool) l : (forall x, In x l -> p x = false) -> filter p l = [].
Proof. induction l as [|x l IH]; intros H; simpl; auto. rewrite H by (left; auto). apply IH. intros; apply H; right; auto. Qed.

(** ... or outside of a range. *)
Lemma filter_outside {A} (p : A -> bool) (l : list A) a b : a <= b <= length l ->
  (forall k x, nth_error l k = Some x -> (p x = true <-> ~ (a <= k < b))) -> filter p l = firstn a l ++ skipn b l.
Proof.
  intros HB H. assert (E: l = firstn a l ++ slice a b l ++ skipn b l).
  { unfold slice. transitivity (firstn a l ++ skipn a l); [symmetry; apply firstn_skipn|]. f_equal.
    transitivity (firstn (b - a) (skipn a l) ++ skipn (b - a) (skipn a l)); [symmetry; apply firstn_skipn|]. f_equal.
    rewrite skipn_plus. f_equal. lia. }
  rewrite E at 1. rewrite !filter_app.
  rewrite filter_app_ext; [|intros x Hx; apply In_nth_error in Hx; destruct Hx as (k & Hk)].
  - rewrite filter_nil_ext; [|intros x Hx; apply In_nth_error in Hx; destruct Hx as (k & Hk)].
    + rewrite filter_app_ext; [reflexivity|intros x Hx; apply In_nth_error in Hx; destruct Hx as (k & Hk)].
      rewrite nth_skipn in Hk. apply (H (b + k)); auto. lia.
    + assert (k < b - a) by (rewrite <- (slice_length a b l) by auto; apply nth_error_Some; congruence).
      rewrite slice_nth in Hk by auto. destruct (p x) eqn:Ep; auto. apply H in Hk. exfalso. apply Hk; auto. lia.
  - assert (K: k < a) by (assert (k < length (firstn a l)) by (apply nth_error_Some; congruence); rewrite firstn_length in *; lia).
    rewrite nth_firstn in Hk by auto. apply (H k); auto. lia.
Qed.

Lemma keepBins_outside {A} (p : nat -> bool) (values : list A) bins a b : length values = length bins ->
  a <= b <= length bins -> Forall (fun ids => ids <> []) bins ->
  (forall k ids i, nth_error bins k = Some ids -> In i ids -> (p i = true <-> ~ (a <= k < b))) ->
  keepBins p values bins = (firstn a values ++ skipn b values, firstn a bins ++ skipn b bins).
Proof.
  intros L HB HN H. rewrite keepBins_filter; auto.
  - rewrite (filter_outside _ _ a b).
    + rewrite !map_app, <- !firstn_map, <- !skipn_map, fst_combine, snd_combine; auto.
    + rewrite combine_length, L. lia.
    + intros k [v ids] E. apply nth_combine in E. destruct E as (_ & E). cbn [snd].
      destruct ids as [|i ids].
      * exfalso. rewrite Forall_forall in HN. apply (HN []); auto. eapply nth_error_In; eauto.
      * apply (H k (i :: ids)); simpl; auto.
  - intros ids i j K1 K2 K3. apply In_nth_error in K1. destruct K1 as (k & E).
    apply eq_true_iff_eq. rewrite (H k ids i), (H k ids j); auto. tauto.
Qed.

(** ** The interval that remains covered *)

Definition inside (start end_ : nat) (inverse : bool) (k : nat) : Prop :=
  if inverse then ~ (start <= k < end_) else start <= k < end_.

Lemma open_interval start end_ inverse n : start <= end_ <= n -> (start = 0 \/ end_ = n) ->
  exists first last, getStartAndEndOfOpenInterval start end_ inverse n = (first, last) /\ first <= last <= n /\
    forall k, k < n -> (inside start end_ inverse k <-> first <= k < last).
Proof.
  intros H1 H2. unfold getStartAndEndOfOpenInterval, inside.
  destruct inverse, (Nat.ltb_spec 0 start); eexists; eexists; (split; [reflexivity|]); split; try lia; intros k Hk; lia.
Qed.

(** ** Marking examples *)

Lemma markAll_spec ids indicator d : forall mask stats mask' stats',
  NoDup ids -> length mask = length stats -> markAll ids indicator d (mask, stats) = Some (mask', stats') ->
  length mask' = length mask /\ length stats' = length stats /\
  forall i, nth_error mask' i = (if existsb (Nat.eqb i) ids then Some indicator else nth_error mask i) /\
            nth_error stats' i = (if existsb (Nat.eqb i) ids then option_map (fun x => (x + d)%Z) (nth_error stats i)
                                  else nth_error stats i).
Proof.
  unfold markAll. induction ids as [|j ids IH]; intros mask stats mask' stats' ND L E; cbn [forL] in E.
  - injection E as <- <-. repeat split; auto.
  - inversion ND; subst. destruct (aset mask j indicator) as [mask1|] eqn:E1; [|discriminate].
    apply aset_inv in E1. destruct E1 as (J & ->). unfold aget in E.
    destruct (nth_error stats j) as [x|] eqn:E2; [|discriminate].
    destruct (aset stats j (x + d)%Z) as [stats1|] eqn:E3; [|discriminate]. apply aset_inv in E3. destruct E3 as (J' & ->).
    apply IH in E; auto; [|rewrite !upd_length; auto]. destruct E as (L1 & L2 & E). rewrite !upd_length in *.
    split; [auto|split; [auto|]]. intros i. destruct (E i) as (Ea & Eb). rewrite Ea, Eb. cbn [existsb].
    rewrite !nth_error_upd. destruct (Nat.eqb_spec i j) as [->|N].
    + rewrite Nat.eqb_refl. assert (F: existsb (Nat.eqb j) ids = false).
      { apply not_true_is_false. rewrite existsb_In. auto. }
      rewrite F. apply Nat.ltb_lt in J, J'. rewrite J, J', E2. auto.
    + destruct (Nat.eqb_spec j i); [congruence|]. auto.
Qed.

Lemma in_slice {A} a b (l : list A) x : In x (slice a b l) -> exists k, a <= k < b /\ nth_error l k = Some x.
Proof.
  intros H. apply In_nth_error in H. destruct H as (k & E).
  assert (K: k < length (slice a b l)) by (apply nth_error_Some; congruence).
  unfold slice in K. rewrite firstn_length in K. assert (k < b - a) by lia.
  rewrite slice_nth in E by auto. exists (a + k). split; [lia|auto].
Qed.

Lemma slice_in {A} a b (l : list A) k x : a <= k < b -> nth_error l k = Some x -> In x (slice a b l).
Proof.
  intros H E. apply nth_error_In with (n := k - a). rewrite slice_nth by lia. rewrite <- E. f_equal. lia.
Qed.

Lemma between_slice bins a b i : In i (concat (slice a b bins)) <-> stored_between bins a b i.
Proof.
  rewrite in_concat. split.
  - intros (ids & H & Hi). apply in_slice in H. destruct H as (k & Hk & E). exists k, ids. auto.
  - intros (k & ids & Hk & E & Hi). exists ids. split; auto. eapply slice_in; eauto.
Qed.

Lemma NoDup_slice a b (bins : list (list nat)) : NoDup (concat bins) -> NoDup (concat (slice a b bins)).
Proof.
  intros H. unfold slice. rewrite <- (firstn_skipn a bins), concat_app in H. apply NoDup_app_iff in H.
  destruct H as (_ & H & _). rewrite <- (firstn_skipn (b - a) (skipn a bins)), concat_app in H.
  apply NoDup_app_iff in H. tauto.
Qed.
