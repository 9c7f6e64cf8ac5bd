(** Proofs about sequences of filtering operations. *)
From Coq Require Import ZArith Arith List Bool Sorted Permutation Lia.
From Verif Require Import Lib.Arr Model.Search Model.Filter Spec.Search Spec.Filter Proofs.Search Proofs.SearchOrdinal
  Proofs.Filter.
Import ListNotations.
Open Scope nat_scope.

(** ** Filtered vectors *)

(** What remains of a vector if only some examples are covered. *)
Definition canon (p : nat -> bool) (vec : fvec) : fvec :=
  match vec with
  | EqualVec => EqualVec
  | NumericalVec v sparseValue sparse missing =>
      NumericalVec (filter (fun x => p (fst x)) v) sparseValue sparse (filter p missing)
  | NominalVec k values bins majority missing =>
      let (values', bins') := keepBins p values bins in NominalVec k values' bins' majority (filter p missing)
  | BinnedVec thresholds bins sparseBin missing =>
      let (thresholds', bins') := keepBins p (thresholds ++ [0%Z]) bins in
      BinnedVec (removelast thresholds') bins' sparseBin (filter p missing)
  end.

(** The number of thresholds is correct. *)
Definition wellFormed (vec : fvec) : Prop :=
  match vec with BinnedVec thresholds bins _ _ => length bins = S (length thresholds) | _ => True end.

Local Notation like := same_but_sparse.

Lemma like_refl v : like v v.
Proof. destruct v; cbn; auto. Qed.

Lemma like_trans u v w : like u v -> like v w -> like u w.
Proof. destruct u, v, w; cbn; try congruence; try tauto. intros (-> & -> & ->) (-> & -> & ->). auto. Qed.

Lemma like_canon p v w : like v w -> like (canon p v) (canon p w).
Proof.
  destruct v as [|v sv sp m|k vs bs mj m|t b s m], w as [|v' sv' sp' m'|k' vs' bs' mj' m'|t' b' s' m']; cbn [same_but_sparse]; try discriminate; try tauto.
  - intros E. injection E as -> -> -> ->. apply like_refl.
  - intros E. injection E as -> -> -> -> ->. apply like_refl.
  - intros (-> & -> & ->). cbn [canon]. destruct (keepBins p (t' ++ [0%Z]) b'). cbn. auto.
Qed.

Lemma like_unbinned v w : unbinned w -> like v w -> v = w.
Proof. destruct v, w; cbn; try tauto; congruence. Qed.

Lemma like_equal v : like v EqualVec -> v = EqualVec.
Proof. apply like_unbinned. exact I. Qed.

Definition idsOf (vec : fvec) : list nat := concat (binsOf vec) ++ missingOf vec.

Lemma keepBins_ext {A} p q (values : list A) : forall bins, (forall i, In i (concat bins) -> p i = q i) ->
  keepBins p values bins = keepBins q values bins.
Proof.
  induction values as [|v values IH]; intros [|ids bins] H; auto. cbn [keepBins].
  cbn [concat] in H. rewrite IH by (intros; apply H, in_or_app; auto).
  replace (filter p ids) with (filter q ids); auto.
  apply filter_ext_in. intros i Hi. symmetry. apply H, in_or_app. auto.
Qed.

Lemma filter_twice {A} (p q : A -> bool) l : (forall x, In x l -> q x = true -> p x = true) ->
  filter q (filter p l) = filter q l.
Proof.
  induction l as [|x l IH]; intros H; simpl; auto.
  destruct (p x) eqn:Ep; simpl; rewrite IH by (intros; apply H; simpl; auto); auto.
  destruct (q x) eqn:Eq; auto. rewrite H in Ep; simpl; auto. discriminate.
Qed.

Lemma keepBins_twice {A} p q (values : list A) : forall bins,
  (forall i, In i (concat bins) -> q i = true -> p i = true) ->
  keepBins q (fst (keepBins p values bins)) (snd (keepBins p values bins)) = keepBins q values bins.
Proof.
  induction values as [|v values IH]; intros [|ids bins] H; auto. cbn [keepBins].
  cbn [concat] in H. specialize (IH bins ltac:(intros; apply H; auto; apply in_or_app; auto)).
  assert (F: filter q (filter p ids) = filter q ids)
    by (apply filter_twice; intros; apply H; auto; apply in_or_app; auto).
  destruct (keepBins p values bins) as (vs, bs) eqn:E1. cbn [fst snd] in IH.
  destruct (filter p ids) as [|i ids'] eqn:E2; cbn [fst snd].
  - rewrite IH. cbn [filter] in F. rewrite <- F. destruct (keepBins q values bins). reflexivity.
  - cbn [keepBins]. rewrite IH, F. reflexivity.
Qed.

Lemma keepBins_lengths {A} p (values : list A) : forall bins, length values = length bins ->
  length (fst (keepBins p values bins)) = length (snd (keepBins p values bins)).
Proof.
  induction values as [|v values IH]; intros [|ids bins] L; try discriminate; auto. cbn [keepBins].
  specialize (IH bins ltac:(injection L; auto)). destruct (keepBins p values bins) as (vs, bs). cbn [fst snd] in IH.
  destruct (filter p ids); cbn; auto.
Qed.

(** The last threshold does not matter. *)
Lemma keepBins_last p (l : list Z) a a' : forall bins, length bins = S (length l) ->
  snd (keepBins p (l ++ [a]) bins) = snd (keepBins p (l ++ [a']) bins) /\
  removelast (fst (keepBins p (l ++ [a]) bins)) = removelast (fst (keepBins p (l ++ [a']) bins)).
Proof.
  induction l as [|v l IH]; intros [|ids bins] L; try discriminate; cbn [app keepBins].
  - destruct bins; [|discriminate]. destruct (filter p ids); auto.
  - specialize (IH bins ltac:(injection L; auto)).
    assert (E1 := keepBins_lengths p (l ++ [a]) bins ltac:(rewrite app_length; cbn in *; lia)).
    assert (E2 := keepBins_lengths p (l ++ [a']) bins ltac:(rewrite app_length; cbn in *; lia)).
    destruct (keepBins p (l ++ [a]) bins) as (vs, bs), (keepBins p (l ++ [a']) bins) as (vs', bs'). cbn [fst snd] in *.
    destruct IH as (-> & IH). destruct (filter p ids); cbn [fst snd]; [auto|]. split; auto.
    destruct vs as [|x vs], vs' as [|x' vs']; cbn [length] in *; try lia; auto.
    change (v :: removelast (x :: vs) = v :: removelast (x' :: vs')). congruence.
Qed.

Lemma keepBinned_twice p q t : forall bins, length bins = S (length t) ->
  (forall i, In i (concat bins) -> q i = true -> p i = true) ->
  let r := keepBins q (removelast (fst (keepBins p (t ++ [0%Z]) bins)) ++ [0%Z]) (snd (keepBins p (t ++ [0%Z]) bins)) in
  snd r = snd (keepBins q (t ++ [0%Z]) bins) /\ removelast (fst r) = removelast (fst (keepBins q (t ++ [0%Z]) bins)).
Proof.
  intros bins L H. assert (T := keepBins_twice p q (t ++ [0%Z]) bins H).
  assert (E := keepBins_lengths p (t ++ [0%Z]) bins ltac:(rewrite app_length; cbn in *; lia)).
  destruct (keepBins p (t ++ [0%Z]) bins) as (vs, bs). cbn [fst snd] in *. cbv zeta. rewrite <- T.
  destruct (list_eq_dec Z.eq_dec vs []) as [->|N].
  - destruct bs; [|discriminate]. cbn. auto.
  - rewrite (app_removelast_last 0%Z N) at 2 4.
    assert (LR: length bs = S (length (removelast vs))).
    { rewrite <- E. rewrite (app_removelast_last 0%Z N) at 1. rewrite app_length. cbn. lia. }
    apply (keepBins_last q (removelast vs) 0%Z (last vs 0%Z) bs LR).
Qed.

Lemma in_missing vec i : In i (missingOf vec) -> In i (idsOf vec).
Proof. intros. apply in_or_app. auto. Qed.

Lemma in_bins vec i : In i (concat (binsOf vec)) -> In i (idsOf vec).
Proof. intros. apply in_or_app. auto. Qed.

Lemma in_positions v i : In i (concat (map (fun x : nat * Z => [fst x]) v)) <-> In i (map fst v).
Proof. induction v; simpl; tauto. Qed.

Lemma concat_positions (v : list (nat * Z)) : concat (map (fun x : nat * Z => [fst x]) v) = map fst v.
Proof. induction v; simpl; congruence. Qed.

Lemma canon_twice p q vec : wellFormed vec -> (forall i, In i (idsOf vec) -> q i = true -> p i = true) ->
  canon q (canon p vec) = canon q vec.
Proof.
  intros W H. destruct vec as [|v sv sp m|k vs bs mj m|t b s m]; auto.
  - cbn [canon]. f_equal; apply filter_twice; auto.
    + intros (i, z) Hx. cbn [fst]. apply H, in_bins. cbn [binsOf]. apply in_positions. apply in_map_iff. exists (i, z). auto.
    + intros i Hi. apply H, in_missing. auto.
  - cbn [canon]. assert (T := keepBins_twice p q vs bs ltac:(intros i Hi; apply H, in_bins; auto)).
    destruct (keepBins p vs bs) as (vs', bs'). cbn [fst snd] in T. cbn [canon]. rewrite T.
    destruct (keepBins q vs bs). f_equal. apply filter_twice. intros i Hi. apply H, in_missing. auto.
  - cbn [canon]. assert (T := keepBinned_twice p q t b W ltac:(intros i Hi; apply H, in_bins; auto)).
    destruct (keepBins p (t ++ [0%Z]) b) as (vs', bs'). cbn [fst snd] in T. cbn [canon]. cbv zeta in T.
    destruct (keepBins q (removelast vs' ++ [0%Z]) bs') as (vs2, bs2), (keepBins q (t ++ [0%Z]) b) as (vs3, bs3). cbn [fst snd] in T.
    destruct T as (-> & ->). f_equal. apply filter_twice. intros i Hi. apply H, in_missing. auto.
Qed.

Lemma canon_ext p q vec : (forall i, In i (idsOf vec) -> p i = q i) -> canon p vec = canon q vec.
Proof.
  intros H. destruct vec as [|v sv sp m|k vs bs mj m|t b s m]; auto.
  - cbn [canon]. f_equal; apply filter_ext_in.
    + intros (i, z) Hx. cbn [fst]. apply H, in_bins. cbn [binsOf]. apply in_positions. apply in_map_iff. exists (i, z). auto.
    + intros i Hi. apply H, in_missing. auto.
  - cbn [canon]. rewrite (keepBins_ext p q) by (intros i Hi; apply H, in_bins; auto).
    destruct (keepBins q vs bs). f_equal. apply filter_ext_in. intros i Hi. apply H, in_missing. auto.
  - cbn [canon]. rewrite (keepBins_ext p q) by (intros i Hi; apply H, in_bins; auto).
    destruct (keepBins q (t ++ [0%Z]) b). f_equal. apply filter_ext_in. intros i Hi. apply H, in_missing. auto.
Qed.

Lemma keepBins_all {A} p (values : list A) : forall bins, length values = length bins ->
  Forall (fun ids => ids <> []) bins -> (forall i, In i (concat bins) -> p i = true) ->
  keepBins p values bins = (values, bins).
Proof.
  induction values as [|v values IH]; intros [|ids bins] L HN H; try discriminate; auto. cbn [keepBins].
  inversion HN as [|? ? H1 H2]; subst. cbn [concat] in H.
  rewrite IH; auto; [|intros; apply H, in_or_app; auto].
  rewrite filter_app_ext by (intros; apply H, in_or_app; auto). destruct ids; [congruence|reflexivity].
Qed.

(** [keepBins] as a filter of pairs. *)
Lemma keepBins_pairs {A} p (values : list A) : forall bins, length values = length bins ->
  let '(vs, bs) := keepBins p values bins in
  length vs = length bs /\ Forall (fun ids => ids <> []) bs /\ concat bs = filter p (concat bins) /\
  (forall k v ids, nth_error vs k = Some v -> nth_error bs k = Some ids ->
     exists k' ids', nth_error values k' = Some v /\ nth_error bins k' = Some ids' /\ incl ids ids').
Proof.
  induction values as [|v values IH]; intros [|ids bins] L; try discriminate.
  - cbn. repeat split; auto. intros [|k] ? ? H; discriminate.
  - cbn [keepBins]. specialize (IH bins ltac:(injection L; auto)). destruct (keepBins p values bins) as (vs, bs).
    destruct IH as (I1 & I2 & I3 & I4). cbn [concat]. rewrite filter_app. destruct (filter p ids) as [|i ids'] eqn:E.
    + repeat split; auto. intros k w l K1 K2. destruct (I4 k w l K1 K2) as (k' & l' & J1 & J2 & J3). exists (S k'), l'. auto.
    + cbn [length concat]. repeat split; auto.
      * constructor; [discriminate|auto].
      * rewrite I3. reflexivity.
      * intros [|k] w l K1 K2; cbn in K1, K2.
        -- injection K1 as <-. injection K2 as <-. exists 0, ids. repeat split; auto. rewrite <- E.
           intros x Hx. apply filter_In in Hx. tauto.
        -- destruct (I4 k w l K1 K2) as (k' & l' & J1 & J2 & J3). exists (S k'), l'. auto.
Qed.

Lemma keepBins_incl {A} p (values : list A) : forall bins v, In v (fst (keepBins p values bins)) -> In v values.
Proof.
  induction values as [|w values IH]; intros [|ids bins] v H; cbn in *; try tauto.
  specialize (IH bins v). destruct (keepBins p values bins) as (vs, bs). destruct (filter p ids); cbn in *; intuition.
Qed.

Lemma keepBins_NoDup {A} p (values : list A) : forall bins, NoDup values -> NoDup (fst (keepBins p values bins)).
Proof.
  induction values as [|w values IH]; intros [|ids bins] H; cbn; try constructor.
  inversion H; subst. specialize (IH bins H3). assert (I := keepBins_incl p values bins w).
  destruct (keepBins p values bins) as (vs, bs). destruct (filter p ids); cbn in *; auto. constructor; auto.
Qed.

Lemma keepBins_sorted p (values : list Z) : forall bins, StronglySorted Z.lt values ->
  StronglySorted Z.lt (fst (keepBins p values bins)).
Proof.
  induction values as [|w values IH]; intros [|ids bins] H; cbn; try constructor.
  inversion H as [|? ? H1 H2]; subst. specialize (IH bins H1). assert (I := keepBins_incl p values bins).
  destruct (keepBins p values bins) as (vs, bs). destruct (filter p ids); cbn in *; auto. constructor; auto.
  rewrite Forall_forall in *. intros x Hx. apply H2. auto.
Qed.

Lemma valued_filter col p l : valued col (filter p l) = filter p (valued col l).
Proof.
  unfold valued. induction l as [|x l IH]; simpl; auto.
  destruct (p x) eqn:E1, (hasValue col x) eqn:E2; simpl; rewrite ?E1, ?E2, ?IH; auto.
Qed.

Lemma nominal_canon examples value values bins majority p :
  nominal_vector examples value values bins majority ->
  nominal_vector (filter p examples) value (fst (keepBins p values bins)) (snd (keepBins p values bins)) majority.
Proof.
  intros ((NE & NB & IB) & L & ND & HV & HM).
  assert (K := keepBins_pairs p values bins L). assert (I := keepBins_incl p values bins).
  assert (N := keepBins_NoDup p values bins). destruct (keepBins p values bins) as (vs, bs). cbn [fst snd] in *.
  destruct K as (K1 & K2 & K3 & K4). inversion ND; subst. repeat split.
  - apply NoDup_filter; auto.
  - rewrite K3. apply NoDup_filter; auto.
  - rewrite K3. intros i Hi. apply filter_In in Hi. apply filter_In. split; [apply IB|]; tauto.
  - auto.
  - constructor; auto.
  - intros k ids v i E1 E2 Hi. destruct (K4 k v ids E2 E1) as (k' & ids' & J1 & J2 & J3). eapply HV; eauto.
  - intros i Hi Hn. apply filter_In in Hi. destruct Hi as (Hi & Hp). apply HM; auto. intros Hc. apply Hn. rewrite K3.
    apply filter_In. auto.
Qed.

Lemma ss_filter_snd (p : nat * Z -> bool) (v : list (nat * Z)) : StronglySorted Z.le (map snd v) ->
  StronglySorted Z.le (map snd (filter p v)).
Proof.
  induction v as [|x v IH]; intros H; simpl; auto. simpl in H. inversion H as [|? ? H1 H2]; subst. destruct (p x); auto.
  simpl. constructor; auto. rewrite Forall_forall in *. intros z Hz. apply in_map_iff in Hz. destruct Hz as (y & <- & Hy).
  apply filter_In in Hy. apply H2. apply in_map. tauto.
Qed.

Lemma map_fst_filter (p : nat -> bool) (v : list (nat * Z)) : map fst (filter (fun x => p (fst x)) v) = filter p (map fst v).
Proof. induction v as [|x v IH]; simpl; auto. destruct (p (fst x)); simpl; congruence. Qed.

(** Vectors for binary and binned features are not empty. *)
Definition nonempty (vec : fvec) : Prop :=
  match vec with NominalVec Binary _ bins _ _ => bins <> [] | BinnedVec _ bins sparseBin _ => sparseBin < length bins | _ => True end.

Lemma keepBins_length {A} p (values : list A) : forall bins, length (fst (keepBins p values bins)) <= length values.
Proof.
  induction values as [|w values IH]; intros [|ids bins]; cbn; try lia.
  specialize (IH bins). destruct (keepBins p values bins). destruct (filter p ids); cbn in *; lia.
Qed.

(** The positions of a vector that represents examples. *)
Lemma represents_bins col examples vec : represents col examples vec -> vec <> EqualVec ->
  NoDup (concat (binsOf vec)) /\ incl (concat (binsOf vec)) (valued col examples) /\ NoDup (missingOf vec) /\
  (forall i, In i (missingOf vec) <-> In i examples /\ col i = None).
Proof.
  intros H N. destruct vec as [|v sv sp m|k vs bs mj m|t b s m]; [congruence| | |]; destruct H as (H1 & H2 & H3); cbn [binsOf].
  - destruct H3 as (H3 & H4 & H5 & _). rewrite concat_positions. auto.
  - assert (bins_of (valued col examples) bs)
      by (unfold ordinal_vector, nominal_vector in H3; destruct k; tauto).
    destruct H as (_ & H3' & H4). auto.
  - destruct H3 as ((_ & H3 & H4) & _). auto.
Qed.

Lemma unbinned_canon col examples p vec : unbinned vec -> nonempty (canon p vec) -> represents col examples vec ->
  represents col (filter p examples) (canon p vec).
Proof.
  intros U NE H. destruct vec as [|v sv sp m|k vs bs mj m|t b s m]; [exact I| | |destruct U].
  - cbn [represents canon missingOf] in *. rewrite valued_filter. destruct H as (H1 & H2 & H3 & H4 & H5 & H6 & H7 & H8).
    split; [apply NoDup_filter; auto|split].
    + intros i. rewrite !filter_In, H2. tauto.
    + repeat split.
      * apply NoDup_filter; auto.
      * rewrite map_fst_filter. apply NoDup_filter; auto.
      * rewrite map_fst_filter. intros i Hi. apply filter_In in Hi. apply filter_In. split; [apply H5|]; tauto.
      * apply ss_filter_snd; auto.
      * intros i z Hi. apply filter_In in Hi. apply H7; tauto.
      * apply filter_In in H. apply (H8 i); [tauto|]. intros C. apply H0. rewrite map_fst_filter. apply filter_In. tauto.
      * apply filter_In in H. apply (H8 i); [tauto|]. intros C. apply H0. rewrite map_fst_filter. apply filter_In. tauto.
  - assert (M: forall k, NoDup m -> (forall i, In i m <-> In i examples /\ col i = None) ->
      let c := let (values', bins') := keepBins p vs bs in NominalVec k values' bins' mj (filter p m) in
      NoDup (missingOf c) /\ (forall i, In i (missingOf c) <-> In i (filter p examples) /\ col i = None)).
    { intros k' M1 M2. cbv zeta. destruct (keepBins p vs bs). cbn [missingOf]. split; [apply NoDup_filter; auto|].
      intros i. rewrite !filter_In, M2. tauto. }
    cbn [represents missingOf] in H. destruct H as (M1 & M2 & H). specialize (M k M1 M2). cbn [canon].
    assert (N: nominal_vector (valued col examples) (valueOf col) vs bs mj) by (destruct k; unfold ordinal_vector in H; tauto).
    assert (L: length vs = length bs) by (destruct N as (_ & L & _); auto).
    apply (nominal_canon _ _ _ _ _ p) in N. rewrite <- valued_filter in N.
    assert (K := keepBins_pairs p vs bs L). assert (SO := keepBins_sorted p vs bs).
    assert (KL := keepBins_length p vs bs). cbn [canon] in NE.
    destruct (keepBins p vs bs) as (vs', bs') eqn:EK. cbn [fst snd] in *.
    destruct K as (K1 & K2 & K3 & K4). cbn [represents missingOf] in M |- *. destruct M as (M3 & M4).
    split; [auto|split; [auto|]]. destruct k.
    + split; auto.
    + destruct H as ((_ & H) & _). split; auto. split; auto.
    + destruct H as (_ & H & H'). split; [auto|split; auto]. cbn [nonempty] in NE.
      destruct bs' as [|b bs']; [congruence|]. cbn [length] in K1. lia.
Qed.

(** *** Binned vectors *)

Definition above (lb : option Z) (z : Z) : Prop := match lb with Some t => (t < z)%Z | None => True end.

(** The values of the examples in each bin are greater than the previous threshold and, except for the last bin, not greater than the
    next one. *)
Fixpoint between (value : nat -> Z) (lb : option Z) (us : list Z) (bins : list (list nat)) : Prop :=
  match us, bins with
  | u :: us', ids :: bins' =>
      (forall i, In i ids -> above lb (value i) /\ (bins' <> [] -> (value i <= u)%Z)) /\ (bins' <> [] -> above lb u) /\
      between value (Some u) us' bins'
  | [], [] => True
  | _, _ => False
  end.

Lemma between_weaken value lb u us bins : above lb u -> between value (Some u) us bins -> between value lb us bins.
Proof.
  destruct us as [|v us], bins as [|ids bins]; cbn [between]; auto. intros H (H1 & H2 & H3). cbn [above] in *.
  assert (X: forall z, (u < z)%Z -> above lb z) by (intros z; destruct lb; cbn [above] in *; lia).
  split; [intros i Hi; destruct (H1 i Hi); auto|]. auto.
Qed.

Lemma between_keep value p us : forall lb bins, between value lb us bins ->
  between value lb (fst (keepBins p us bins)) (snd (keepBins p us bins)).
Proof.
  induction us as [|u us IH]; intros lb [|ids bins]; cbn [between]; try tauto. intros (H1 & H2 & H3). cbn [keepBins].
  specialize (IH (Some u) bins H3). assert (LS: length us = length bins).
  { clear - H3. revert H3. generalize (Some u). revert bins. induction us as [|v us IH]; intros [|ids bins] o; cbn [between]; try tauto.
    intros (_ & _ & H). cbn. erewrite IH; eauto. }
  assert (NB: snd (keepBins p us bins) <> [] -> bins <> []) by (intros N ->; destruct us; apply N; reflexivity).
  destruct (keepBins p us bins) as (vs, bs). cbn [fst snd] in *. destruct (filter p ids) as [|i0 ids'] eqn:E; cbn [fst snd].
  - destruct bs as [|b bs].
    + destruct vs; [exact I|destruct IH].
    + eapply between_weaken; [apply H2, NB; discriminate|auto].
  - cbn [between]. split; [|split; auto]. intros i Hi. rewrite <- E in Hi. apply filter_In in Hi. destruct (H1 i) as (A1 & A2); [tauto|]. auto.
Qed.

Lemma between_intro value us : forall lb bins, length us = length bins ->
  (forall k t, S k < length bins -> nth_error us k = Some t -> (k = 0 -> above lb t) /\
     forall q s, k = S q -> nth_error us q = Some s -> (s < t)%Z) ->
  (forall k ids i, nth_error bins k = Some ids -> In i ids ->
     (S k < length bins -> forall t, nth_error us k = Some t -> (value i <= t)%Z) /\ (k = 0 -> above lb (value i)) /\
     (forall q t, k = S q -> nth_error us q = Some t -> (t < value i)%Z)) ->
  between value lb us bins.
Proof.
  induction us as [|u us IH]; intros lb [|ids bins] L HS HV; try discriminate; cbn [between]; auto.
  assert (NB: bins <> [] -> S 0 < length (ids :: bins)) by (destruct bins; cbn; [congruence|lia]).
  split; [|split].
  - intros i Hi. destruct (HV 0 ids i eq_refl Hi) as (V1 & V2 & _). split; [auto|]. intros N. apply V1; auto.
  - intros N. apply (HS 0 u); auto.
  - apply IH; [injection L; auto| |].
    + intros k t Hk E. destruct (HS (S k) t ltac:(cbn in *; lia) E) as (_ & S2). split.
      * intros ->. cbn [above]. apply (S2 0 u); auto.
      * intros q s -> Eq. apply (S2 (S q) s); auto.
    + intros k ids' i E Hi. destruct (HV (S k) ids' i E Hi) as (V1 & _ & V3). split; [|split].
      * intros Hk t Et. apply V1; [cbn in *; lia|auto].
      * intros ->. cbn [above]. apply (V3 0 u); auto.
      * intros q t -> Et. apply (V3 (S q) t); auto.
Qed.

Lemma between_elim value us : forall lb bins, between value lb us bins -> length us = length bins /\
  (forall k ids i, nth_error bins k = Some ids -> In i ids ->
     (S k < length bins -> forall t, nth_error us k = Some t -> (value i <= t)%Z) /\ (k = 0 -> above lb (value i)) /\
     (forall q t, k = S q -> nth_error us q = Some t -> (t < value i)%Z)).
Proof.
  induction us as [|u us IH]; intros lb [|ids bins]; cbn [between]; try tauto.
  - intros _. split; auto. intros [|k] ? ? E; discriminate.
  - intros (H1 & H2 & H3). destruct (IH (Some u) bins H3) as (L & HV). split; [cbn; congruence|].
    intros [|k] ids' i E Hi.
    + injection E as <-. destruct (H1 i Hi) as (A1 & A2). split; [|split; [auto|intros; discriminate]].
      intros Hk t Et. injection Et as <-. apply A2. intros ->. cbn in Hk. lia.
    + destruct (HV k ids' i E Hi) as (V1 & V2 & V3). split; [|split; [intros; discriminate|]].
      * intros Hk t Et. apply V1; [cbn in *; lia|auto].
      * intros q t Eq Et. injection Eq as ->. destruct q as [|q]; [injection Et as <-; apply V2; auto|]. apply (V3 q t); auto.
Qed.

Lemma sorted_removelast (l : list Z) : StronglySorted Z.lt l -> StronglySorted Z.lt (removelast l).
Proof.
  induction l as [|x l IH]; intros H; auto. inversion H as [|? ? H1 H2]; subst. destruct l as [|y l]; [constructor|].
  change (StronglySorted Z.lt (x :: removelast (y :: l))). constructor; auto.
  rewrite Forall_forall in *. intros z Hz. apply H2.
  assert (N: y :: l <> []) by discriminate. rewrite (app_removelast_last 0%Z N). apply in_or_app. auto.
Qed.

Lemma bound_above (l : list Z) : exists M, Forall (fun z => (z < M)%Z) l.
Proof.
  induction l as [|x l (M & IH)]; [exists 0%Z; auto|]. exists (Z.max (x + 1) M). constructor; [lia|].
  eapply Forall_impl; [|exact IH]. cbv beta. intros. lia.
Qed.

Lemma sorted_snoc (l : list Z) M : StronglySorted Z.lt l -> Forall (fun z => (z < M)%Z) l -> StronglySorted Z.lt (l ++ [M]).
Proof.
  induction l as [|x l IH]; intros H HF; cbn; [constructor; auto; constructor|]. inversion H; inversion HF; subst. constructor; auto.
  apply Forall_app. split; auto.
Qed.

Lemma nth_error_removelast {A} (l : list A) k x : nth_error (removelast l) k = Some x -> nth_error l k = Some x /\ S k < length l.
Proof.
  destruct l as [|a l] using rev_ind; [destruct k; discriminate|]. rewrite removelast_last. intros E.
  assert (k < length l) by (apply nth_error_Some; congruence). rewrite nth_error_app1 by auto. rewrite app_length. cbn. split; [auto|lia].
Qed.

Lemma sorted_nth (l : list Z) : StronglySorted Z.lt l -> forall q s t, nth_error l q = Some s -> nth_error l (S q) = Some t -> (s < t)%Z.
Proof.
  induction 1 as [|x l H IH HF]; intros [|q] s t E1 E2; try discriminate.
  - injection E1 as <-. rewrite Forall_forall in HF. apply HF. apply (nth_error_In l 0). exact E2.
  - apply (IH q); auto.
Qed.

(** In a vector that stores all examples, the values of the examples in a bin are between the thresholds. *)
Lemma binned_between examples value t b s : binned_vector examples value t b s ->
  between value None (t ++ [0%Z]) b.
Proof.
  intros ((ND & NB & IB) & SO & L & HS & HV). apply between_intro.
  - rewrite app_length. cbn. lia.
  - intros k u Hk E. rewrite nth_error_app1 in E by lia. split; [intros _; exact I|]. intros q u' -> E'.
    rewrite nth_error_app1 in E' by lia. eapply sorted_nth; eauto.
  - intros k ids i E Hi. assert (IC: In i examples) by (apply IB, in_concat; exists ids; split; auto; eapply nth_error_In; eauto).
    destruct (HV i IC) as (p & P1 & P2 & P3 & P4 & P5).
    assert (p = k).
    { destruct (Nat.eq_dec p s) as [Es|Ns]; [symmetry; eapply P5; eauto|]. destruct (P4 Ns) as (k' & ids' & Hk' & E' & Hi').
      assert (k' = p) by lia. subst k'. eapply concat_position; eauto. }
    subst p. split; [|split; [intros _; exact I|]].
    + intros Hk u Eu. rewrite nth_error_app1 in Eu by lia. auto.
    + intros q u -> Eu. assert (S q < length b) by (apply nth_error_Some; congruence). rewrite nth_error_app1 in Eu by lia. eapply P3; eauto.
Qed.

Lemma between_binned examples value us b s : NoDup examples -> NoDup (concat b) -> incl (concat b) examples -> incl examples (concat b) ->
  StronglySorted Z.lt (removelast us) -> between value None us b -> s < length b -> binned_vector examples value (removelast us) b s.
Proof.
  intros ND NB I1 I2 SO HB Hs. destruct (between_elim _ _ _ _ HB) as (L & HV).
  assert (LR: length b = S (length (removelast us))).
  { destruct us as [|u us] using rev_ind; [cbn in L; lia|]. rewrite removelast_last. rewrite app_length in L. cbn in L. lia. }
  split; [split; [auto|split; auto]|]. split; [auto|]. split; [auto|]. split; [auto|].
  intros i Hi. apply I2, in_concat in Hi. destruct Hi as (ids & H1 & H2). apply In_nth_error in H1. destruct H1 as (k & E).
  assert (Hk: k < length b) by (apply nth_error_Some; congruence). destruct (HV k ids i E H2) as (V1 & _ & V3). exists k.
  split; [auto|]. split; [|split; [|split]].
  - intros t Et. apply nth_error_removelast in Et. apply V1; [lia|tauto].
  - intros t q -> Et. apply nth_error_removelast in Et. apply (V3 q); tauto.
  - intros _. exists k, ids. split; [lia|auto].
  - intros _ q ids' E' Hi'. eapply concat_position; eauto.
Qed.

Lemma represents_wellFormed col examples vec : represents col examples vec -> wellFormed vec.
Proof. destruct vec; cbn; auto. intros (_ & _ & _ & _ & H & _). auto. Qed.

Lemma represents_like col examples p vec w : supported_by col examples vec -> represents col examples vec ->
  like w (canon p vec) -> nonempty w -> represents col (filter p examples) w /\ supported_by col (filter p examples) w.
Proof.
  intros S R HL NE. destruct vec as [|v sv sp m|k vs bs mj m|t b s m].
  4: {
    destruct S as (HN & HI). destruct R as (M1 & M2 & R). cbn [missingOf] in M1, M2.
    pose proof R as ((ND & NB & IB) & SO & L & HS & _).
    assert (LU: length (t ++ [0%Z]) = length b) by (rewrite app_length; cbn; lia).
    assert (K := keepBins_pairs p (t ++ [0%Z]) b LU). assert (BT := between_keep (valueOf col) p _ _ _ (binned_between _ _ _ _ _ R)).
    destruct (bound_above t) as (M & HM). assert (SU := keepBins_sorted p _ b (sorted_snoc t M SO HM)).
    assert (KL := keepBins_last p t 0%Z M b L). cbn [canon] in HL.
    destruct (keepBins p (t ++ [0%Z]) b) as (us, bs). destruct (keepBins p (t ++ [M]) b) as (us', bs'). cbn [fst snd] in *.
    destruct K as (K1 & K2 & K3 & _). destruct KL as (_ & KL).
    destruct w as [| | |t' b' s' m']; cbn [same_but_sparse] in HL; try discriminate. destruct HL as (-> & -> & ->).
    split.
    - cbn [represents missingOf]. split; [apply NoDup_filter; auto|]. split; [intros i; rewrite !filter_In, M2; tauto|].
      apply between_binned; auto.
      + rewrite valued_filter. apply NoDup_filter; auto.
      + rewrite K3. apply NoDup_filter; auto.
      + rewrite K3, valued_filter. intros i Hi. apply filter_In in Hi. apply filter_In. split; [apply IB|]; tauto.
      + rewrite K3, valued_filter. intros i Hi. apply filter_In in Hi. apply filter_In. split; [apply HI|]; tauto.
      + rewrite KL. apply sorted_removelast. auto.
    - split; [auto|]. rewrite K3, valued_filter. intros i Hi. apply filter_In in Hi. apply filter_In. split; [apply HI|]; tauto. }
  - apply like_equal in HL. subst. split; exact I.
  - cbn [canon] in HL. apply like_unbinned in HL; [|exact I]. subst w. split; [|exact I].
    apply (unbinned_canon col examples p (NumericalVec v sv sp m)); auto.
  - assert (U: unbinned (canon p (NominalVec k vs bs mj m))) by (cbn [canon]; destruct (keepBins p vs bs); exact I).
    apply like_unbinned in HL; auto. subst w. split; [apply (unbinned_canon col examples p (NominalVec k vs bs mj m) I NE R)|].
    cbn [canon supported_by]. destruct (keepBins p vs bs). cbn [supported_by supported] in *. destruct k; auto; subst m; reflexivity.
Qed.

(** [filterByMask] for binned vectors. *)
Lemma keepBinned_spec p t n : length t + 1 = n -> forall bins i ts bs s, i + length bins = n ->
  let '(us, bs1) := keepBins p (skipn i (t ++ [0%Z])) bins in
  exists Y s', keepBinned p t n bins i ts bs s = (ts ++ Y, bs ++ bs1, s') /\ (Y = us \/ (bs1 <> [] /\ Y = removelast us)).
Proof.
  intros LT. induction bins as [|ids bins IH]; intros i ts bs s L; cbn [keepBins keepBinned].
  - replace (keepBins p (skipn i (t ++ [0%Z])) []) with (@nil Z, @nil (list nat)) by (destruct (skipn i (t ++ [0%Z])); reflexivity).
    exists [], s. rewrite !app_nil_r. auto.
  - cbn [length] in L. assert (Hi: i < length (t ++ [0%Z])) by (rewrite app_length; cbn; lia).
    destruct (nth_error (t ++ [0%Z]) i) as [u|] eqn:Eu; [|apply nth_error_None in Eu; lia].
    assert (ES: skipn i (t ++ [0%Z]) = u :: skipn (i + 1) (t ++ [0%Z])).
    { clear - Eu. revert i Eu. induction (t ++ [0%Z]) as [|x l IHl]; intros [|i] E; try discriminate; cbn in *; [congruence|]. auto. }
    rewrite ES. cbn [keepBins].
    assert (IH' := fun ts bs s => IH (i + 1) ts bs s ltac:(lia)).
    assert (LB := keepBins_lengths p (skipn (i + 1) (t ++ [0%Z])) bins ltac:(rewrite skipn_length, app_length; cbn; lia)).
    destruct (keepBins p (skipn (i + 1) (t ++ [0%Z])) bins) as (us, bs1) eqn:EK. cbn [fst snd] in LB.
    destruct (filter p ids) as [|i0 ids'] eqn:EF; [apply IH'|].
    destruct (Nat.ltb_spec i (n - 1)) as [LTi|GE].
    + destruct (IH' (ts ++ [nth i t 0%Z]) (bs ++ [i0 :: ids']) (if s <=? length bs then length bs else s)) as (Y & s' & -> & HY).
      assert (EN: nth i t 0%Z = u) by (rewrite nth_error_app1 in Eu by lia; apply nth_error_nth; auto).
      exists (u :: Y), s'. rewrite <- !app_assoc, EN. cbn [app]. split; [reflexivity|]. destruct HY as [->|(N & ->)]; [auto|right].
      split; [discriminate|]. destruct us as [|x us]; [destruct bs1; [congruence|discriminate]|]. reflexivity.
    + assert (bins = []) by (destruct bins; auto; cbn in L; lia). subst bins.
      destruct (IH' ts (bs ++ [i0 :: ids']) (if s <=? length bs then length bs else s)) as (Y & s' & -> & HY).
      assert (E0: keepBins p (skipn (i + 1) (t ++ [0%Z])) [] = (@nil Z, @nil (list nat))) by (destruct (skipn (i + 1) (t ++ [0%Z])); reflexivity).
      rewrite E0 in EK. injection EK as <- <-. exists [], s'. rewrite <- !app_assoc. cbn [app].
      destruct HY as [->|(N & _)]; [|congruence]. split; [reflexivity|]. right. split; [discriminate|reflexivity].
Qed.

Section Masks.
Variable isEqual : Z -> Z -> bool.

Lemma mask_canon p vec : wellFormed vec -> filterByMask isEqual p vec = EqualVec \/
  (like (filterByMask isEqual p vec) (canon p vec) /\ nonempty (filterByMask isEqual p vec)).
Proof.
  intros W. destruct vec as [|v sv sp m|k vs bs mj m|t b s m]; [auto| | |]; cbn [filterByMask canon].
  - repeat (match goal with |- context [match ?x with _ => _ end] => destruct x eqn:?; auto end); right; split; try exact I; apply like_refl.
  - destruct (keepBins p vs bs) as (vs', bs'). destruct bs' as [|b bs']; [auto|]. right. split; [apply like_refl|].
    cbn [nonempty]. destruct k; auto. discriminate.
  - cbn [wellFormed] in W. assert (K := keepBinned_spec p t (length b) ltac:(lia) b 0 [] [] s ltac:(lia)). cbn [skipn] in K.
    assert (LB := keepBins_lengths p (t ++ [0%Z]) b ltac:(rewrite app_length; cbn; lia)).
    destruct (keepBins p (t ++ [0%Z]) b) as (us, bs1). cbn [fst snd] in LB. destruct K as (Y & s' & -> & HY). cbn [app].
    destruct bs1 as [|b1 bs1]; [auto|]. right. split.
    + cbn [same_but_sparse]. split; [|auto]. destruct us as [|u us _] using rev_ind; [discriminate|].
      rewrite removelast_last in *. rewrite app_length in LB. cbn [length] in LB |- *.
      replace (S (length bs1) - 1) with (length us) by lia.
      destruct HY as [->|(_ & ->)]; [rewrite firstn_app, Nat.sub_diag, firstn_O, app_nil_r|]; apply firstn_all.
    + cbn [nonempty length]. destruct (Nat.leb_spec (S (length bs1)) s'); lia.
Qed.

(** Filtering by an interval results in what is covered by the condition. *)
Lemma interval_canon col examples vec reuse s e (inv : bool) (p : nat -> bool) w : NoDup examples -> supported_by col examples vec ->
  represents col examples vec ->
  s <= e <= length (binsOf vec) ->
  match vec with NominalVec Nominal _ _ _ _ => True | _ => s = 0 \/ e = length (binsOf vec) end ->
  (forall i, In i (valued col examples) ->
     (p i = true <-> if inv then ~ stored_between (binsOf vec) s e i else stored_between (binsOf vec) s e i)) ->
  (forall i, In i examples -> col i = None -> p i = false) ->
  filterByInterval isEqual reuse s e inv vec = Some w -> w = EqualVec \/ (like w (canon p vec) /\ nonempty w).
Proof.
  intros NE S R HB HP Hp HM HF. assert (VN: vec <> EqualVec) by (intros ->; discriminate).
  assert (RB := represents_bins col examples vec R VN). destruct RB as (ND & IC & NM & IM).
  assert (MI: filter p (missingOf vec) = []) by (apply filter_nil_ext; intros i Hi; apply IM in Hi; apply HM; tauto).
  assert (PO: forall k ids i, nth_error (binsOf vec) k = Some ids -> In i ids -> (p i = true <-> inside s e inv k)).
  { intros k ids i E Hi. rewrite Hp by (apply IC, in_concat; exists ids; split; auto; eapply nth_error_In; eauto).
    unfold inside. assert (ST: stored_between (binsOf vec) s e i <-> s <= k < e).
    { split; [|intros Hk; exists k, ids; auto]. intros (k' & ids' & Hk' & E' & Hi').
      assert (k = k') by (eapply concat_position; eauto). subst. auto. }
    destruct inv; rewrite ST; tauto. }
  destruct vec as [|v sv sp m|k vs bs mj m|t b s' m]; [congruence| | |]; cbn [filterByInterval binsOf missingOf] in *.
  - rewrite map_length in HB, HP. destruct (open_interval s e inv (length v) HB HP) as (f & l & EI & HI & KI).
    rewrite EI in HF. assert (SL: filter (fun x => p (fst x)) v = slice f l v).
    { apply slice_filter. intros k x E. assert (K: k < length v) by (apply nth_error_Some; congruence).
      rewrite <- KI by auto. apply (PO k [fst x]); [|simpl; auto]. rewrite nth_error_map, E. reflexivity. }
    cbn [canon nonempty]. rewrite SL, MI.
    repeat (match type of HF with context [match ?x with _ => _ end] => destruct x eqn:?; auto end); try discriminate;
    injection HF as <-; cbn; auto.
  - assert (HN: Forall (fun ids => ids <> []) bs /\ length vs = length bs).
    { destruct R as (_ & _ & R). unfold ordinal_vector, nominal_vector in R. destruct k; tauto. }
    destruct HN as (HN & L). destruct k.
    + destruct inv; [|injection HF as <-; auto]. cbn [canon]. rewrite (keepBins_outside p vs bs s e); auto.
      * cbn [supported_by supported] in S. subst m. cbn [filter]. destruct (concat (firstn s bs ++ skipn e bs)); injection HF as <-; auto.
        right. destruct reuse; cbn; auto.
    + destruct (open_interval s e inv (length bs) HB HP) as (f & l & EI & HI & KI). rewrite EI in HF.
      cbn [canon]. rewrite (keepBins_slice p vs bs f l); auto.
      * rewrite MI. destruct (0 <? l - f); injection HF as <-; cbn; auto.
      * intros k ids i E Hi. rewrite <- KI by (apply nth_error_Some; congruence). eapply PO; eauto.
    + injection HF as <-. auto.
  - destruct S as (HN & HI). destruct R as (_ & _ & _ & _ & L & _).
    destruct (open_interval s e inv (length b) HB HP) as (f & l & EI & HIv & KI). rewrite EI in HF.
    cbn [canon]. rewrite (keepBins_slice p (t ++ [0%Z]) b f l); auto; [|rewrite app_length; cbn; lia|].
    + rewrite MI. destruct (Nat.ltb_spec 0 (l - f)) as [LF|]; injection HF as <-; [right|auto]. cbn [same_but_sparse nonempty].
      assert (LS: length (slice f l b) = l - f) by (unfold slice; rewrite firstn_length, skipn_length; lia). split; [split; [|auto]|].
      * unfold slice. clear - LF HIv L. replace (l - 1 - f) with (length (firstn (l - f) (skipn f (t ++ [0%Z]))) - 1).
        -- assert (G: forall (x : list Z), length x <> 0 -> firstn (length x - 1) (skipn 0 x) = removelast x).
           { intros x Hx. destruct x as [|a x _] using rev_ind; [cbn in Hx; lia|]. rewrite removelast_last, app_length. cbn [length skipn].
             replace (length x + 1 - 1) with (length x) by lia. rewrite firstn_app, Nat.sub_diag, firstn_O, app_nil_r. apply firstn_all. }
           set (n := l - f) in *. assert (LX: length (firstn n (skipn f (t ++ [0%Z]))) = n) by (rewrite firstn_length, skipn_length, app_length; cbn; lia).
           rewrite <- G by lia. cbn [skipn]. rewrite LX. rewrite firstn_firstn. replace (Nat.min (n - 1) n) with (n - 1) by lia.
           rewrite skipn_app, firstn_app. rewrite skipn_length. replace (n - 1 - (length t - f)) with 0 by lia. rewrite firstn_O, app_nil_r. reflexivity.
        -- rewrite firstn_length, skipn_length, app_length. cbn. lia.
      * rewrite LS. destruct (Nat.leb_spec f s'), (Nat.leb_spec (l - f) (s' - f)), (Nat.leb_spec (l - f) 0); lia.
    + intros k ids i E Hi. rewrite <- KI by (apply nth_error_Some; congruence). eapply PO; eauto.
Qed.

End Masks.

Section Runs.
Variable isEqual : Z -> Z -> bool.
Variable original : nat -> fvec.
Variable cols : nat -> column.
Variable numExamples numFeatures : nat.
Variable weight : nat -> bool.

Hypothesis HO : forall f, f < numFeatures ->
  represents (cols f) (seq 0 numExamples) (original f) /\ supported_by (cols f) (seq 0 numExamples) (original f).

Local Notation sat := (satisfies cols).
Local Notation cov := (coveredBy cols numExamples).

Definition cached (f : nat) (cs : list (nat * test)) (mods : nat) (ent : option fvec * nat) : Prop :=
  snd ent <= mods /\
  match fst ent with
  | None => snd ent = 0
  | Some v => v = EqualVec \/ (exists p, like v (canon p (original f)) /\ nonempty v /\
      (forall i, i < numExamples -> sat cs i = true -> p i = true) /\
      (snd ent = mods -> forall i, i < numExamples -> p i = sat cs i))
  end.

Definition Inv (st : subspace) (cs : list (nat * test)) : Prop :=
  length (sMask st) = numExamples /\ length (sStatistics st) = numExamples /\ length (sCache st) = numFeatures /\
  sModifications st = length cs /\ sIndicator st <= sModifications st /\
  (forall i x, nth_error (sMask st) i = Some x -> x <= sModifications st /\ (x = sIndicator st <-> sat cs i = true)) /\
  (forall i, i < numExamples -> nth_error (sStatistics st) i = Some (if sat cs i then 1 else 0)%Z) /\
  sCovered st = length (filter weight (cov cs)) /\
  (forall f ent, nth_error (sCache st) f = Some ent -> cached f cs (sModifications st) ent).

Lemma inv_covered st cs i : Inv st cs -> i < numExamples -> isCovered st i = sat cs i.
Proof.
  intros (H1 & H2 & H3 & H4 & H5 & H6 & H7 & H8 & H9) Hi. unfold isCovered, aget.
  destruct (nth_error (sMask st) i) as [x|] eqn:E; [|apply nth_error_None in E; lia].
  apply H6 in E. destruct E as (_ & E). apply eq_true_iff_eq. rewrite Nat.eqb_eq. auto.
Qed.

Lemma nth_repeat_some {A} (a : A) n i x : nth_error (repeat a n) i = Some x -> x = a.
Proof. intros H. apply nth_error_In in H. eapply repeat_spec; eauto. Qed.

Lemma inv_new : Inv (newSubspace numExamples numFeatures (length (filter weight (seq 0 numExamples)))) [].
Proof.
  unfold newSubspace, Inv. cbn [sMask sStatistics sCache sModifications sIndicator sCovered]. rewrite !repeat_length.
  repeat split; auto.
  - apply nth_repeat_some in H. lia.
  - apply nth_repeat_some in H. auto.
  - intros i Hi. apply nth_error_repeat. auto.
  - f_equal. f_equal. symmetry. apply filter_app_ext. auto.
  - apply nth_repeat_some in H. subst. cbn. lia.
  - apply nth_repeat_some in H. subst. cbn. lia.
Qed.

Lemma inv_copy st cs : Inv st cs -> Inv (copySubspace st) cs.
Proof.
  intros (H1 & H2 & H3 & H4 & H5 & H6 & H7 & H8 & H9). unfold copySubspace, Inv.
  cbn [sMask sStatistics sCache sModifications sIndicator sCovered]. rewrite repeat_length.
  repeat (split; [assumption|]). intros f ent H. apply nth_repeat_some in H. subst. split; cbn; lia.
Qed.

Lemma ids_bound f i : f < numFeatures -> In i (idsOf (original f)) -> i < numExamples.
Proof.
  intros Hf H. destruct (HO f Hf) as (R & _).
  destruct (original f) eqn:E; [destruct H| | |];
  assert (RB := represents_bins _ _ _ R ltac:(discriminate)); destruct RB as (_ & IC & _ & IM); apply in_app_or in H;
  destruct H as [H|H]; try (apply IC in H; apply filter_In in H; destruct H as (H & _); apply in_seq in H; lia);
  apply IM in H; destruct H as (H & _); apply in_seq in H; lia.
Qed.

Lemma orig_wellFormed f : f < numFeatures -> wellFormed (original f).
Proof. intros Hf. destruct (HO f Hf) as (R & _). eapply represents_wellFormed; eauto. Qed.

Lemma like_wellFormed v w : like v w -> wellFormed w -> wellFormed v.
Proof. destruct v, w; cbn; try tauto; try discriminate. intros (-> & -> & _). auto. Qed.

Lemma nonempty_wellFormed p v vec : wellFormed vec -> like v (canon p vec) -> nonempty v -> wellFormed v.
Proof.
  destruct vec as [| |k vs bs mj m|t b s m]; cbn [canon].
  - intros _ H _. apply like_equal in H. subst. exact I.
  - intros _ H _. eapply like_wellFormed; eauto. exact I.
  - intros _ H _. eapply like_wellFormed; eauto. destruct (keepBins p vs bs). exact I.
  - cbn [wellFormed]. intros L H N. assert (LB := keepBins_lengths p (t ++ [0%Z]) b ltac:(rewrite app_length; cbn; lia)).
    destruct (keepBins p (t ++ [0%Z]) b) as (us, bs). cbn [fst snd] in LB. destruct v; cbn [same_but_sparse] in H; try discriminate; try tauto.
    destruct H as (-> & -> & ->). cbn [nonempty wellFormed] in *. destruct us as [|u us _] using rev_ind; [cbn in LB; lia|].
    rewrite removelast_last. rewrite app_length in LB. cbn in LB. lia.
Qed.

Lemma canon_true f p : f < numFeatures -> (forall i, i < numExamples -> p i = true) ->
  canon p (original f) = original f /\ nonempty (original f).
Proof.
  intros Hf Hp. assert (B := fun i => ids_bound f i Hf). destruct (HO f Hf) as (R & S).
  destruct (original f) as [|v sv sp m|k vs bs mj m|t b s' m]; cbn [canon nonempty]; auto.
  - split; auto. f_equal; apply filter_app_ext.
    + intros (i, z) Hx. apply Hp, B, in_bins. cbn [binsOf]. apply in_positions, in_map_iff. exists (i, z). auto.
    + intros i Hi. apply Hp, B, in_missing. auto.
  - assert (HN: Forall (fun ids => ids <> []) bs /\ length vs = length bs /\ (k = Binary -> length vs = 1)).
    { destruct R as (_ & _ & R). unfold ordinal_vector, nominal_vector in R.
      destruct k; (split; [tauto|split; [tauto|]]); try discriminate; tauto. }
    destruct HN as (HN & L & L1). rewrite keepBins_all; auto.
    + split; [f_equal; apply filter_app_ext; intros i Hi; apply Hp, B, in_missing; auto|].
      destruct k; auto. rewrite L1 in L by auto. destruct bs; discriminate.
    + intros i Hi. apply Hp, B, in_bins. auto.
  - destruct S as (HN & _). destruct R as (_ & _ & R). destruct R as (_ & _ & L & HS & _).
    rewrite keepBins_all; auto; [|rewrite app_length; cbn; lia|intros i Hi; apply Hp, B, in_bins; auto].
    rewrite removelast_last. split; [|exact HS]. f_equal. apply filter_app_ext. intros i Hi. apply Hp, B, in_missing. auto.
Qed.

Lemma refresh_spec f st cs vec st' : Inv st cs -> refresh isEqual original f st = Some (vec, st') ->
  f < numFeatures /\ Inv st' cs /\ sMask st' = sMask st /\ sIndicator st' = sIndicator st /\
  sModifications st' = sModifications st /\ sCovered st' = sCovered st /\ sStatistics st' = sStatistics st /\
  (vec = EqualVec \/ (like vec (canon (sat cs) (original f)) /\ nonempty vec)).
Proof.
  intros HI E. pose proof HI as (H1 & H2 & H3 & H4 & H5 & H6 & H7 & H8 & H9). unfold refresh, aget in E.
  destruct (nth_error (sCache st) f) as [ent|] eqn:EC; [|discriminate].
  assert (Hf: f < numFeatures) by (rewrite <- H3; apply nth_error_Some; congruence). split; auto.
  assert (CE := H9 f ent EC). destruct ent as (ptr, m). destruct CE as (CM & CE). cbn [fst snd] in CM, CE.
  assert (BI := fun i => ids_bound f i Hf).
  assert (CV: (match ptr with Some v => v | None => original f end) = EqualVec \/
     exists p, like (match ptr with Some v => v | None => original f end) (canon p (original f)) /\
       nonempty (match ptr with Some v => v | None => original f end) /\
       (forall i, i < numExamples -> sat cs i = true -> p i = true)).
  { destruct ptr as [v|].
    - destruct CE as [->|(p & HL & NE & P1 & _)]; eauto 6.
    - right. exists (fun _ => true). destruct (canon_true f (fun _ => true) Hf ltac:(auto)) as (-> & NE). split; [apply like_refl|auto]. }
  destruct (Nat.ltb_spec m (sModifications st)) as [LT|GE].
  - destruct (aset (sCache st) f _) as [cache|] eqn:EA; [|discriminate]. apply aset_inv in EA. destruct EA as (LF & ->).
    injection E as <- <-. cbn [sMask sStatistics sCache sModifications sIndicator sCovered].
    assert (RES: filterByMask isEqual (isCovered st) (match ptr with Some v => v | None => original f end) = EqualVec \/
      (like (filterByMask isEqual (isCovered st) (match ptr with Some v => v | None => original f end)) (canon (sat cs) (original f)) /\
         nonempty (filterByMask isEqual (isCovered st) (match ptr with Some v => v | None => original f end)))).
    { destruct CV as [->|(p & HL & NV & P)]; [left; reflexivity|].
      destruct (mask_canon isEqual (isCovered st) _ (nonempty_wellFormed p _ _ (orig_wellFormed f Hf) HL NV)) as [->|(HM & NE)]; [auto|right].
      split; [|exact NE]. eapply like_trans; [exact HM|]. eapply like_trans; [apply like_canon; exact HL|].
      rewrite canon_twice; [|apply orig_wellFormed; auto|intros i Hi; rewrite (inv_covered st cs i HI (BI i Hi)); auto].
      rewrite (canon_ext _ (sat cs)); [apply like_refl|]. intros i Hi. eapply inv_covered; eauto. }
    set (w := filterByMask isEqual (isCovered st) _) in *. split; [|repeat (split; [reflexivity|])].
    + unfold Inv. cbn [sMask sStatistics sCache sModifications sIndicator sCovered]. rewrite upd_length.
      repeat (split; [assumption|]). intros g ent Hg. rewrite nth_error_upd in Hg.
      destruct (Nat.eqb_spec f g) as [<-|]; [|auto]. destruct (Nat.ltb_spec f (length (sCache st))); [|lia].
      injection Hg as <-. split; cbn [fst snd]; auto.
      destruct RES as [->|(HL & NE)]; [auto|right]. exists (sat cs). auto.
    + destruct RES as [->|(HL & NE)]; auto.
  - injection E as <- <-. repeat (split; [assumption || reflexivity|]). assert (m = sModifications st) by lia. subst m.
    destruct ptr as [v|].
    + destruct CE as [->|(p & HL & NE & P1 & P2)]; [auto|right]. split; auto. eapply like_trans; [exact HL|].
      rewrite (canon_ext p (sat cs)); [apply like_refl|]. intros i Hi. apply P2; auto.
    + right. assert (cs = []) by (destruct cs; auto; cbn in H4; lia). subst cs.
      destruct (canon_true f (sat []) Hf ltac:(auto)) as (-> & ?). split; [apply like_refl|auto].
Qed.

Lemma refresh_represents f st cs vec st' : Inv st cs -> refresh isEqual original f st = Some (vec, st') ->
  represents (cols f) (cov cs) vec.
Proof.
  intros HI E. destruct (refresh_spec f st cs vec st' HI E) as (Hf & _ & _ & _ & _ & _ & _ & [->|(HL & NE)]); [exact I|].
  destruct (HO f Hf) as (R & S). apply (represents_like _ _ _ _ vec S R HL NE).
Qed.

Lemma refresh_supported f st cs vec st' : Inv st cs -> refresh isEqual original f st = Some (vec, st') ->
  supported_by (cols f) (cov cs) vec.
Proof.
  intros HI E. destruct (refresh_spec f st cs vec st' HI E) as (Hf & _ & _ & _ & _ & _ & _ & [->|(HL & NE)]); [exact I|].
  destruct (HO f Hf) as (R & S). apply (represents_like _ _ _ _ vec S R HL NE).
Qed.

Lemma sat_snoc cs f t i : sat (cs ++ [(f, t)]) i = sat cs i && match cols f i with Some z => holds t z | None => false end.
Proof. unfold satisfies. rewrite forallb_app. cbn [forallb fst snd]. rewrite andb_true_r. reflexivity. Qed.

Lemma in_cov cs i : In i (cov cs) <-> i < numExamples /\ sat cs i = true.
Proof. unfold coveredBy. rewrite filter_In, in_seq. intuition lia. Qed.

Lemma in_valued col l i : In i (valued col l) <-> In i l /\ exists z, col i = Some z.
Proof.
  unfold valued, hasValue. rewrite filter_In. destruct (col i) as [z|]; split.
  - intros (H & _). eauto.
  - tauto.
  - intros (_ & H). discriminate.
  - intros (_ & z & H). discriminate.
Qed.

Lemma eqb_iff_In i l : existsb (Nat.eqb i) l = false <-> ~ In i l.
Proof. rewrite <- existsb_In. destruct (existsb (Nat.eqb i) l); intuition; discriminate. Qed.

Lemma filter_step f e st cs vec st' st'' : Inv st cs -> refresh isEqual original f st = Some (vec, st') ->
  exact_condition cols numExamples weight st' cs f vec e -> filterSubspace isEqual original f e st = Some st'' ->
  Inv st'' (cs ++ [(f, eTest e)]).
Proof.
  intros HI E ((VB & VP) & EX & EC) EF. assert (R := refresh_represents f st cs vec st' HI E).
  assert (SV := refresh_supported f st cs vec st' HI E).
  destruct (refresh_spec f st cs vec st' HI E) as (Hf & HI' & _ & _ & _ & _ & _ & RV).
  unfold filterSubspace in EF. rewrite E in EF. clear E HI st. unfold aget in EF.
  destruct (nth_error (sCache st') f) as [(ptr, m)|] eqn:EE; [|discriminate].
  destruct (updateCoverageMaskAndStatistics _ _ _ _ _ _ _ _) as [((mask, ind), stats)|] eqn:EU; [|discriminate].
  destruct (filterByInterval _ _ _ _ _ _) as [w|] eqn:EI; [|discriminate].
  destruct (aset (sCache st') f _) as [cache|] eqn:EA; [|discriminate]. apply aset_inv in EA. destruct EA as (LF & ->).
  injection EF as <-.
  assert (VN: vec <> EqualVec) by (intros ->; discriminate EU).
  destruct RV as [->|(EV & NEV)]; [congruence|].
  destruct (represents_bins _ _ _ R VN) as (ND & IC & NM & IM).
  pose proof HI' as (H1 & H2 & H3 & H4 & H5 & H6 & H7 & H8 & H9).
  set (t := eTest e) in *. set (cs' := cs ++ [(f, t)]).
  assert (S': forall i, sat cs' i = sat cs i && match cols f i with Some z => holds t z | None => false end)
    by (intros i; apply sat_snoc).
  (* what is covered by the condition *)
  assert (P1: forall i, In i (valued (cols f) (cov cs)) ->
    (sat cs' i = true <-> if eInverse e then ~ stored_between (binsOf vec) (eStart e) (eEnd e) i
                         else stored_between (binsOf vec) (eStart e) (eEnd e) i)).
  { intros i Hi. rewrite <- (EX i Hi). apply in_valued in Hi. destruct Hi as (Hi & z & Ez). apply in_cov in Hi.
    rewrite S'. unfold valueOf. rewrite Ez. destruct Hi as (_ & ->). tauto. }
  assert (P2: forall i, cols f i = None -> sat cs' i = false) by (intros i En; rewrite S', En; apply andb_false_r).
  assert (P3: forall i, sat cs' i = true -> sat cs i = true) by (intros i; rewrite S'; intros X; apply andb_prop in X; tauto).
  set (ids := concat (slice (eStart e) (eEnd e) (binsOf vec))) in *.
  assert (I1: forall i, In i ids <-> stored_between (binsOf vec) (eStart e) (eEnd e) i) by (intros; apply between_slice).
  assert (I2: NoDup ids) by (apply NoDup_slice; auto).
  assert (I3: forall i, In i ids -> In i (valued (cols f) (cov cs))).
  { intros i Hi. apply IC. apply I1 in Hi. eapply between_In; eauto. }
  (* the mask and the statistics *)
  assert (MS: length mask = numExamples /\ length stats = numExamples /\ ind <= sModifications st' + 1 /\
    (forall i x, nth_error mask i = Some x -> x <= sModifications st' + 1 /\ (x = ind <-> sat cs' i = true)) /\
    (forall i, i < numExamples -> nth_error stats i = Some (if sat cs' i then 1 else 0)%Z)).
  { unfold updateCoverageMaskAndStatistics in EU.
    assert (EU': (if length (binsOf vec) <? eEnd e then None
        else
          let ids := concat (slice (eStart e) (eEnd e) (binsOf vec)) in
          if eInverse e then
            let* (mask, stats) := markAll ids (sModifications st' + 1) (-1) (sMask st', sStatistics st') in
            let* (mask, stats) := markAll (missingOf vec) (sModifications st' + 1) (-1) (mask, stats) in
            Some (mask, sIndicator st', stats)
          else
            let* (mask, stats) := markAll ids (sModifications st' + 1) 1
              (sMask st', repeat 0%Z (length (sStatistics st'))) in
            Some (mask, sModifications st' + 1, stats)) = Some (mask, ind, stats))
      by (destruct vec; [congruence|exact EU|exact EU|exact EU]).
    clear EU. rename EU' into EU. cbv zeta in EU. fold ids in EU.
    destruct (Nat.ltb_spec (length (binsOf vec)) (eEnd e)) as [?|_]; [discriminate|].
    destruct (eInverse e) eqn:Einv.
    - destruct (markAll ids _ _ _) as [(mask1, stats1)|] eqn:M1; [|discriminate].
      destruct (markAll (missingOf vec) _ _ _) as [(mask2, stats2)|] eqn:M2; [|discriminate].
      injection EU as <- <- <-. apply markAll_spec in M1; auto; [|congruence].
      destruct M1 as (L1 & L1' & M1). apply markAll_spec in M2; auto; [|congruence].
      destruct M2 as (L2 & L2' & M2).
      assert (DJ: forall i, In i ids -> ~ In i (missingOf vec)).
      { intros i Hi Hm. apply I3 in Hi. apply in_valued in Hi. apply IM in Hm. destruct Hi as (_ & z & Hz), Hm. congruence. }
      split; [congruence|split; [congruence|split; [lia|]]].
      assert (CV: forall i, i < numExamples -> sat cs' i = sat cs i && negb (existsb (Nat.eqb i) ids) &&
                                negb (existsb (Nat.eqb i) (missingOf vec))).
      { intros i Hi. destruct (sat cs i) eqn:Es; cbn [andb].
        - destruct (cols f i) as [z|] eqn:Ez.
          + assert (HV: In i (valued (cols f) (cov cs))) by (apply in_valued; split; [apply in_cov; auto|eauto]).
            assert (NM': existsb (Nat.eqb i) (missingOf vec) = false)
              by (apply eqb_iff_In; intros Hm; apply IM in Hm; destruct Hm; congruence).
            rewrite NM', andb_true_r. apply eq_true_iff_eq. rewrite P1 by auto. rewrite <- I1.
            rewrite negb_true_iff, eqb_iff_In. tauto.
          + rewrite P2 by auto. assert (YM: existsb (Nat.eqb i) (missingOf vec) = true)
              by (apply existsb_In, IM; split; auto; apply in_cov; auto).
            rewrite YM. symmetry. apply andb_false_r.
        - destruct (sat cs' i) eqn:Es'; auto. apply P3 in Es'. congruence. }
      assert (BD: forall i x, nth_error mask2 i = Some x -> i < numExamples)
        by (intros i x Hx; rewrite <- H1, <- L1, <- L2; apply nth_error_Some; congruence).
      split.
      + intros i x Hx. assert (Hi := BD i x Hx). destruct (M2 i) as (M2a & _). destruct (M1 i) as (M1a & _).
        rewrite M2a, M1a in Hx. rewrite CV by auto.
        destruct (existsb (Nat.eqb i) (missingOf vec)) eqn:E1.
        { injection Hx as <-. split; [lia|]. split; [lia|]. rewrite andb_false_r. discriminate. }
        destruct (existsb (Nat.eqb i) ids) eqn:E2.
        { injection Hx as <-. split; [lia|]. split; [lia|]. rewrite andb_false_r. discriminate. }
        rewrite !andb_true_r. apply H6 in Hx. split; [lia|tauto].
      + intros i Hi. destruct (M2 i) as (_ & ->). destruct (M1 i) as (_ & ->). rewrite H7 by auto. rewrite CV by auto.
        destruct (existsb (Nat.eqb i) (missingOf vec)) eqn:E1, (existsb (Nat.eqb i) ids) eqn:E2.
        * exfalso. apply existsb_In in E1, E2. eapply DJ; eauto.
        * assert (SC: sat cs i = true) by (apply existsb_In, IM in E1; destruct E1 as (E1 & _); apply in_cov in E1; tauto).
          rewrite SC. reflexivity.
        * assert (SC: sat cs i = true)
            by (apply existsb_In, I3, in_valued in E2; destruct E2 as (E2 & _); apply in_cov in E2; tauto).
          rewrite SC. reflexivity.
        * rewrite !andb_true_r. reflexivity.
    - destruct (markAll ids _ _ _) as [(mask1, stats1)|] eqn:M1; [|discriminate].
      injection EU as <- <- <-. apply markAll_spec in M1; auto; [|rewrite repeat_length; congruence].
      destruct M1 as (L1 & L1' & M1). rewrite repeat_length in L1'.
      split; [congruence|split; [congruence|split; [lia|]]].
      assert (CV: forall i, i < numExamples -> sat cs' i = existsb (Nat.eqb i) ids).
      { intros i Hi. apply eq_true_iff_eq. rewrite existsb_In. split.
        - intros Hs. rewrite I1. apply P1; auto. apply in_valued. split; [apply in_cov; auto|].
          destruct (cols f i) eqn:Ez; eauto. rewrite P2 in Hs by auto. discriminate.
        - intros Hs. apply P1; auto. apply I1; auto. }
      split.
      + intros i x Hx. assert (Hi: i < numExamples) by (rewrite <- H1, <- L1; apply nth_error_Some; congruence).
        destruct (M1 i) as (M1a & _). rewrite M1a in Hx. rewrite CV by auto.
        destruct (existsb (Nat.eqb i) ids); [injection Hx as <-; split; [lia|tauto]|].
        apply H6 in Hx. destruct Hx as (Hx & _). split; [lia|]. split; [lia|discriminate].
      + intros i Hi. destruct (M1 i) as (_ & ->). rewrite nth_error_repeat by lia. rewrite CV by auto.
        destruct (existsb (Nat.eqb i) ids); reflexivity. }
  destruct MS as (M1 & M2 & M3 & M4 & M5).
  unfold Inv. cbn [sMask sStatistics sCache sModifications sIndicator sCovered]. rewrite upd_length.
  split; [auto|split; [auto|split; [auto|split; [unfold cs'; rewrite app_length; cbn [length]; lia|]]]].
  split; [auto|split; [auto|split; [auto|split]]].
  - rewrite EC. unfold support, coveredBy, valued. clear - S'.
    induction (seq 0 numExamples) as [|i l IH]; [reflexivity|]. cbn [filter]. rewrite S'.
    destruct (sat cs i); cbn [andb]; [|exact IH]. cbn [filter]. unfold hasValue at 1. unfold valueOf in *.
    destruct (cols f i) as [z|] eqn:Ez; [|exact IH].
    cbn [filter]. rewrite Ez. destruct (holds t z); cbn [filter]; rewrite ?andb_true_r, ?andb_false_r; [|exact IH].
    destruct (weight i); cbn [length]; [rewrite IH|]; auto.
  - intros g ent Hg. rewrite nth_error_upd in Hg. destruct (Nat.eqb_spec f g) as [<-|].
    + destruct (Nat.ltb_spec f (length (sCache st'))); [|lia]. injection Hg as <-. split; cbn [fst snd]; [lia|].
      assert (IV := interval_canon isEqual (cols f) (cov cs) vec _ _ _ _ (sat cs') w
        (NoDup_filter _ (seq_NoDup _ _)) SV R VB VP P1 ltac:(auto) EI).
      destruct IV as [->|(HL & NE)]; [auto|right]. exists (sat cs'). split; [|split; [auto|split; auto]].
      eapply like_trans; [exact HL|]. eapply like_trans; [apply like_canon; exact EV|].
      rewrite canon_twice; [apply like_refl|apply orig_wellFormed; auto|intros i Hi; apply P3].
    + apply H9 in Hg. destruct ent as (ptr', m'). destruct Hg as (G1 & G2). split; cbn [fst snd] in *; [lia|].
      destruct ptr' as [v|]; auto. destruct G2 as [->|(p & HL & NE & G2 & G3)]; [auto|right]. exists p.
      split; [auto|split; [auto|split]]; [|intros; lia]. intros i Hi Hs. apply G2; auto.
Qed.

Theorem runs st cs : reaches isEqual original numExamples numFeatures weight
  (exact_condition cols numExamples weight) st cs -> Inv st cs.
Proof.
  induction 1 as [|f st cs vec st' H IH E|st cs H IH|f e st cs vec st' st'' H IH E HE EF].
  - apply inv_new.
  - eapply refresh_spec; eauto.
  - apply inv_copy; auto.
  - eapply filter_step; eauto.
Qed.

(** It suffices that the conditions are exact in all states that are consistent with the conditions. *)
Theorem runs_by correct st cs : reaches isEqual original numExamples numFeatures weight correct st cs ->
  (forall f e st cs vec st0, Inv st cs -> refresh isEqual original f st0 = Some (vec, st) -> f < numFeatures ->
     (vec = EqualVec \/ like vec (canon (sat cs) (original f))) -> represents (cols f) (cov cs) vec -> correct st cs f vec e ->
     exact_condition cols numExamples weight st cs f vec e) -> Inv st cs.
Proof.
  intros H HC. induction H as [|f st cs vec st' H IH E|st cs H IH|f e st cs vec st' st'' H IH E HE EF].
  - apply inv_new.
  - eapply refresh_spec; eauto.
  - apply inv_copy; auto.
  - destruct (refresh_spec f st cs vec st' IH E) as (Hf & HI' & _ & _ & _ & _ & _ & RV).
    apply (filter_step f e st cs vec st' st''); auto. apply (HC f e st' cs vec st); auto; [tauto|].
    apply (refresh_represents f st cs vec st'); auto.
Qed.

End Runs.
