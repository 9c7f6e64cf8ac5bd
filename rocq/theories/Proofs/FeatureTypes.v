(** Proofs about the creation of feature vectors. *)
From Coq Require Import ZArith Arith List Bool Lia Permutation Sorted.
From Verif Require Import Lib.Arr Model.Filter Model.FeatureTypes Spec.Search Spec.Filter Spec.FeatureTypes.
Import ListNotations.
Open Scope nat_scope.

Definition tr (x : Z) : Z := Z.quot x unit32.

Definition fits (e : element) : Prop := forall x, snd e = Some x -> toInt32 x = Some (tr x).

(** The elements that have a value, and the indices of the other ones. *)
Definition present1 (e : element) : list (nat * Z) := match snd e with Some x => [(fst e, tr x)] | None => [] end.
Definition absent1 (e : element) : list nat := match snd e with Some _ => [] | None => [fst e] end.
Definition present (l : list element) : list (nat * Z) := flat_map present1 l.
Definition absent (l : list element) : list nat := flat_map absent1 l.

Lemma present_snoc l e : present (l ++ [e]) = present l ++ present1 e.
Proof. unfold present. rewrite flat_map_app. simpl. rewrite app_nil_r. reflexivity. Qed.
Lemma absent_snoc l e : absent (l ++ [e]) = absent l ++ absent1 e.
Proof. unfold absent. rewrite flat_map_app. simpl. rewrite app_nil_r. reflexivity. Qed.

(** The examples with a specific value. *)
Definition withValue (v : Z) (p : nat * Z) : bool := (snd p =? v)%Z.
Definition ids (l : list (nat * Z)) (v : Z) : list nat := map fst (filter (withValue v) l).

Lemma ids_app a b v : ids (a ++ b) v = ids a v ++ ids b v.
Proof. unfold ids. rewrite filter_app, map_app. reflexivity. Qed.

Lemma ids_one i w v : ids [(i, w)] v = if (w =? v)%Z then [i] else [].
Proof. unfold ids, withValue. simpl. destruct (w =? v)%Z; reflexivity. Qed.

Lemma ids_none l v : (forall p, In p l -> snd p <> v) -> ids l v = [].
Proof.
  unfold ids. intros H. induction l as [|p l IH]; simpl; auto. unfold withValue at 1.
  destruct (Z.eqb_spec (snd p) v) as [E|]; [destruct (H p); simpl; auto|]. apply IH. intros. apply H. simpl; auto.
Qed.

Lemma in_ids l v i : In i (ids l v) <-> In (i, v) l.
Proof.
  unfold ids. rewrite in_map_iff. split.
  - intros ((j, w) & <- & H). apply filter_In in H. unfold withValue in H. cbn [fst snd] in *.
    destruct H as [H E]. apply Z.eqb_eq in E. subst. exact H.
  - intros H. exists (i, v). split; auto. apply filter_In. split; auto. unfold withValue. simpl. apply Z.eqb_refl.
Qed.

(** Grouping by values. *)
Lemma group_perm keys : forall l : list (nat * Z), NoDup keys -> (forall p, In p l -> In (snd p) keys) ->
  Permutation (concat (map (fun v => filter (withValue v) l) keys)) l.
Proof.
  induction keys as [|k keys IH]; intros l N H; simpl.
  - destruct l as [|p l]; [constructor|]. destruct (H p); simpl; auto.
  - inversion N as [|? ? N1 N2]; subst.
    set (r := filter (fun p => negb (withValue k p)) l).
    assert (E: map (fun v => filter (withValue v) l) keys = map (fun v => filter (withValue v) r) keys).
    { apply map_ext_in. intros v Hv. unfold r. clear -N1 Hv.
      induction l as [|p l IHl]; auto. simpl. destruct (withValue k p) eqn:Ek; simpl.
      - rewrite <- IHl. unfold withValue in *. apply Z.eqb_eq in Ek.
        destruct (Z.eqb_spec (snd p) v); auto. subst. congruence.
      - destruct (withValue v p); rewrite IHl; reflexivity. }
    rewrite E, (IH r N2).
    + unfold r. clear. induction l as [|p l IHl]; simpl; [constructor|].
      destruct (withValue k p); simpl; [apply perm_skip; exact IHl|].
      rewrite <- Permutation_middle. apply perm_skip. exact IHl.
    + unfold r. intros p Hp. apply filter_In in Hp. destruct Hp as [Hp E2]. destruct (H p Hp) as [E3|]; auto.
      unfold withValue in E2. rewrite <- E3, Z.eqb_refl in E2. discriminate.
Qed.

Lemma concat_ids_map keys l : concat (map (ids l) keys) = map fst (concat (map (fun v => filter (withValue v) l) keys)).
Proof. induction keys as [|k keys IH]; simpl; auto. rewrite map_app, IH. reflexivity. Qed.

Lemma concat_ids_perm keys l : NoDup keys -> (forall p, In p l -> In (snd p) keys) ->
  Permutation (concat (map (ids l) keys)) (map fst l).
Proof. intros. rewrite concat_ids_map. apply Permutation_map. apply group_perm; auto. Qed.

(** ** Missing values *)

Definition isSet (missing l : list nat) : Prop := NoDup missing /\ forall i, In i missing <-> In i l.

Lemma setMissing_isSet missing l i : isSet missing l -> isSet (setMissing missing i) (l ++ [i]).
Proof.
  intros (H1 & H2). unfold setMissing. destruct (existsb (Nat.eqb i) missing) eqn:E.
  - apply existsb_exists in E. destruct E as (j & Hj & E). apply Nat.eqb_eq in E. subst j. split; auto.
    intros k. rewrite in_app_iff, <- H2. simpl. intuition. subst. auto.
  - split.
    + constructor; auto. intros Hi. enough (existsb (Nat.eqb i) missing = true) by congruence.
      apply existsb_exists. exists i. split; auto. apply Nat.eqb_refl.
    + intros k. rewrite in_app_iff. simpl. rewrite H2. intuition.
Qed.

(** ** Maps *)

Definition keys (m : mapping) : list Z := map fst m.

Lemma lookup_In m k t : lookup m k = Some t -> In (k, t) m.
Proof.
  induction m as [|[k' t'] m IH]; simpl; [discriminate|]. destruct (Z.eqb_spec k' k) as [->|]; [|auto].
  intros [= ->]. auto.
Qed.

Lemma In_lookup m k t : NoDup (keys m) -> In (k, t) m -> lookup m k = Some t.
Proof.
  induction m as [|[k' t'] m IH]; simpl; [intros _ []|]. intros N [[= <- <-]|H].
  - rewrite Z.eqb_refl. reflexivity.
  - inversion N as [|? ? N1 N2]; subst. destruct (Z.eqb_spec k' k) as [->|]; [|auto].
    destruct N1. change k with (fst (k, t)). apply in_map. exact H.
Qed.

Lemma lookup_None m k : lookup m k = None <-> ~ In k (keys m).
Proof.
  induction m as [|[k' t'] m IH]; simpl; [tauto|]. destruct (Z.eqb_spec k' k) as [->|]; [|tauto].
  split; [discriminate|tauto].
Qed.

Lemma lookup_key m k : In k (keys m) -> exists t, lookup m k = Some t.
Proof. intros H. destruct (lookup m k) eqn:E; eauto. apply lookup_None in E. contradiction. Qed.

Lemma lookup_keys m k t : lookup m k = Some t -> In k (keys m).
Proof. intros H. apply lookup_In in H. change k with (fst (k, t)). apply in_map. exact H. Qed.

Lemma lookup_app m m' k : lookup (m ++ m') k = match lookup m k with Some t => Some t | None => lookup m' k end.
Proof. induction m as [|[k' t'] m IH]; simpl; auto. destruct (k' =? k)%Z; auto. Qed.

Lemma keys_modify m k t : keys (modify m k t) = keys m.
Proof.
  unfold keys, modify. rewrite map_map. apply map_ext. intros [k' t']. simpl. destruct (Z.eqb_spec k' k); simpl; auto.
Qed.

Lemma lookup_modify m k t k' :
  lookup (modify m k t) k' = if (k =? k')%Z then (match lookup m k with Some _ => Some t | None => None end)
                             else lookup m k'.
Proof.
  induction m as [|[k1 t1] m IH]; simpl; [destruct (k =? k')%Z; auto|].
  destruct (Z.eqb_spec k k') as [->|N].
  - destruct (Z.eqb_spec k1 k') as [->|N1]; simpl.
    + rewrite Z.eqb_refl. reflexivity.
    + destruct (Z.eqb_spec k1 k'); [contradiction|]. exact IH.
  - destruct (Z.eqb_spec k1 k) as [->|N1]; simpl.
    + destruct (Z.eqb_spec k k'); [contradiction|]. exact IH.
    + destruct (Z.eqb_spec k1 k'); [reflexivity|exact IH].
Qed.

Lemma lookup_perm m m' k : NoDup (keys m) -> Permutation m' m -> lookup m' k = lookup m k.
Proof.
  intros N P. assert (N': NoDup (keys m')) by (apply (Permutation_NoDup (l := keys m)); auto; apply Permutation_map; symmetry; auto).
  destruct (lookup m k) as [t|] eqn:E.
  - apply In_lookup; auto. apply lookup_In in E. eapply Permutation_in; [symmetry; exact P|exact E].
  - apply lookup_None. apply lookup_None in E. intros H. apply E. eapply Permutation_in; [|exact H].
    apply Permutation_map. exact P.
Qed.

(** ** The frequencies of the values *)

(** The entries are the values that occur, and their frequencies. *)
Definition frequencies (l : list (nat * Z)) (m : mapping) : Prop :=
  NoDup (keys m) /\
  forall v, match lookup m v with
            | Some (_, c) => c = length (ids l v) /\ 0 < c
            | None => ids l v = []
            end.

Lemma frequencies_keys l m p : frequencies l m -> In p l -> In (snd p) (keys m).
Proof.
  intros (_ & H) Hp. specialize (H (snd p)). destruct (lookup m (snd p)) as [t|] eqn:E; [eapply lookup_keys; eauto|].
  assert (In (fst p) (ids l (snd p))) by (apply in_ids; destruct p; auto). rewrite H in H0. destruct H0.
Qed.

Lemma frequencies_In l m v : frequencies l m -> In v (keys m) -> exists i, In (i, v) l.
Proof.
  intros (_ & H) Hv. specialize (H v). destruct (lookup_key m v Hv) as ((a, c) & E). rewrite E in H.
  destruct (ids l v) as [|i r] eqn:Ei; simpl in H; [lia|]. exists i. apply in_ids. rewrite Ei. simpl; auto.
Qed.

Lemma frequencies_perm l m m' : frequencies l m -> Permutation m' m -> frequencies l m'.
Proof.
  intros (N & H) P. split.
  - apply (Permutation_NoDup (l := keys m)); auto. apply Permutation_map. symmetry; auto.
  - intros v. rewrite (lookup_perm m m') by auto. apply H.
Qed.

Lemma createMapping_spec elements : Forall fits elements ->
  exists m, createMapping elements = Some (m, length (present elements)) /\ frequencies (present elements) m.
Proof.
  intros F. unfold createMapping.
  match goal with |- context [forL elements ?b ?s] =>
    destruct (forL_inv (fun pre '(m, k, n) => frequencies (present pre) m /\ k = length (present pre) /\ n = length m)
                b elements [] s) as (((m, k), n) & E & (H1 & H2 & H3)) end.
  - split; [|auto]. split; [constructor|]. intros v. reflexivity.
  - intros p e r ((m & k) & n) Er ((N & Hf) & Hk & Hn).
    assert (Fe: fits e) by (rewrite Forall_forall in F; apply F; simpl in Er; rewrite Er; apply in_or_app; simpl; auto).
    rewrite present_snoc. unfold fits, present1 in *. destruct (snd e) as [x|].
    + rewrite (Fe x eq_refl). set (t := tr x). clearbody t. clear Fe.
      assert (Hid: forall v, ids (present p ++ [(fst e, t)]) v = ids (present p) v ++ (if (t =? v)%Z then [fst e] else []))
        by (intros v; rewrite ids_app, ids_one; reflexivity).
      pose proof (Hf t) as Ht. destruct (lookup m t) as [(a, c)|] eqn:El.
      * eexists. split; [reflexivity|]. split; [|split; [rewrite app_length; simpl; lia|]].
        -- split; [rewrite keys_modify; exact N|]. intros v. rewrite lookup_modify, Hid, El.
           destruct (Z.eqb_spec t v) as [<-|Nv]; [rewrite app_length; simpl; lia|].
           rewrite app_nil_r. apply Hf.
        -- unfold modify. rewrite map_length. exact Hn.
      * eexists. split; [reflexivity|]. split; [|split; [rewrite app_length; simpl; lia|rewrite app_length; simpl; lia]].
        split.
        -- unfold keys. rewrite map_app. simpl. apply (Permutation_NoDup (l := t :: keys m)).
           ++ apply Permutation_cons_append.
           ++ constructor; auto. apply lookup_None. exact El.
        -- intros v. rewrite lookup_app, Hid. simpl. specialize (Hf v). destruct (Z.eqb_spec t v) as [<-|Nv].
           ++ rewrite El, Ht. simpl. lia.
           ++ rewrite app_nil_r. destruct (lookup m v); exact Hf.
    + rewrite app_nil_r. eexists. split; [reflexivity|]. split; [split; [exact N|exact Hf]|auto].
  - rewrite E. subst k. exists m. simpl app in H1. auto.
Qed.

(** ** The layout of bins *)

Section Layout.
Variable l : list (nat * Z).

Definition offset (vs : list Z) : nat := length (concat (map (ids l) vs)).

Lemma offset_snoc vs v : offset (vs ++ [v]) = offset vs + length (ids l v).
Proof. unfold offset. rewrite map_app, concat_app, app_length. simpl. rewrite app_nil_r. reflexivity. Qed.

Lemma readAt_upd_eq {A} (a : list (option A)) i x : i < length a -> readAt (upd a i x) i = x.
Proof. intros. unfold readAt, aget. rewrite nth_error_upd_eq; auto. Qed.
Lemma readAt_upd_neq {A} (a : list (option A)) i j x : i <> j -> readAt (upd a i x) j = readAt a j.
Proof. intros. unfold readAt, aget. rewrite nth_error_upd_neq; auto. Qed.

(** The bins for the values [vs] have been laid out. *)
Definition laid (num numIndices : nat) (vs : list Z) (values : list (option Z)) (indptr : list (option nat)) (m : mapping)
  : Prop :=
  values = map Some vs ++ repeat None (num - length vs) /\ length vs <= num /\ NoDup vs /\
  length indptr = num + 1 /\
  (forall p, p < length vs -> readAt indptr p = Some (offset (firstn p vs))) /\
  readAt indptr num = Some numIndices /\
  (forall p v, nth_error vs p = Some v -> lookup m v = Some (p, length (ids l v))).

Lemma laid_nil num numIndices majority m :
  laid num numIndices [] (aValues (allocate num numIndices majority)) (aIndptr (allocate num numIndices majority)) m.
Proof.
  unfold laid, allocate. cbn [aValues aIndptr map length app]. rewrite Nat.sub_0_r. split; [reflexivity|].
  split; [lia|]. split; [constructor|]. split; [rewrite !upd_length, repeat_length; reflexivity|].
  split; [lia|]. split.
  - rewrite readAt_upd_eq; auto. rewrite upd_length, repeat_length. lia.
  - intros [|p] v; discriminate.
Qed.

Lemma laid_step num numIndices vs values indptr m v a :
  laid num numIndices vs values indptr m -> length vs < num -> ~ In v vs -> lookup m v = Some (a, length (ids l v)) ->
  aset values (length vs) (Some v) = Some (upd values (length vs) (Some v)) /\
  aset indptr (length vs) (Some (offset vs)) = Some (upd indptr (length vs) (Some (offset vs))) /\
  laid num numIndices (vs ++ [v]) (upd values (length vs) (Some v)) (upd indptr (length vs) (Some (offset vs)))
    (modify m v (length vs, length (ids l v))).
Proof.
  intros (H1 & H2 & H3 & H4 & H5 & H6 & H7) Hn Hv Hl.
  split; [apply aset_Some; subst values; rewrite app_length, map_length, repeat_length; lia|].
  split; [apply aset_Some; lia|].
  unfold laid. rewrite !app_length, upd_length. cbn [length]. split.
  { subst values. rewrite upd_app2 by (rewrite map_length; lia). rewrite map_length, Nat.sub_diag, map_app, <- app_assoc.
    f_equal. replace (num - length vs) with (S (num - (length vs + 1))) by lia. reflexivity. }
  split; [lia|]. split.
  { apply (Permutation_NoDup (l := v :: vs)); [apply Permutation_cons_append|]. constructor; auto. }
  split; [lia|]. split.
  { intros p Hp. destruct (Nat.eq_dec p (length vs)) as [->|N].
    - rewrite readAt_upd_eq by lia. rewrite firstn_app, Nat.sub_diag, firstn_all, firstn_O, app_nil_r. reflexivity.
    - rewrite readAt_upd_neq by lia. rewrite firstn_app. replace (p - length vs) with 0 by lia.
      rewrite firstn_O, app_nil_r. apply H5. lia. }
  split; [rewrite readAt_upd_neq by lia; exact H6|].
  intros p w Hw. rewrite lookup_modify. destruct (Z.eqb_spec v w) as [<-|N].
  - rewrite Hl. f_equal. f_equal. destruct (Nat.lt_ge_cases p (length vs)) as [Hp|Hp].
    + rewrite nth_error_app1 in Hw by exact Hp. apply nth_error_In in Hw. contradiction.
    + rewrite nth_error_app2 in Hw by exact Hp. destruct (p - length vs) as [|q] eqn:E; [lia|]. destruct q; discriminate.
  - apply H7. destruct (Nat.lt_ge_cases p (length vs)) as [Hp|Hp].
    + rewrite nth_error_app1 in Hw by exact Hp. exact Hw.
    + rewrite nth_error_app2 in Hw by exact Hp. destruct (p - length vs) as [|[|q]]; simpl in Hw; congruence.
Qed.

End Layout.

(** The bins that result from storing some of the elements. *)
Definition partialBin (l pre : list (nat * Z)) (v : Z) : list (option nat) :=
  repeat None (length (ids l v) - length (ids pre v)) ++ map Some (rev (ids pre v)).

Lemma concat_upd {A} (f : Z -> list A) vs1 v vs2 i x : i < length (f v) ->
  upd (concat (map f (vs1 ++ v :: vs2))) (length (concat (map f vs1)) + i) x =
  concat (map f vs1) ++ upd (f v) i x ++ concat (map f vs2).
Proof.
  intros Hi. rewrite map_app, concat_app. simpl. rewrite upd_app2 by lia. f_equal.
  rewrite upd_app1 by lia. f_equal. f_equal. lia.
Qed.

Lemma concat_length_ext {A B} (f : Z -> list A) (g : Z -> list B) vs : (forall v, In v vs -> length (f v) = length (g v)) ->
  length (concat (map f vs)) = length (concat (map g vs)).
Proof.
  induction vs as [|v vs IH]; intros H; simpl; auto. rewrite !app_length, H, IH; simpl; auto.
  intros. apply H. simpl; auto.
Qed.

Lemma ids_app_length a b v : length (ids a v) <= length (ids (a ++ b) v).
Proof. rewrite ids_app, app_length. lia. Qed.

Lemma storeIndices_spec elements m num values indptr majority vs :
  Forall fits elements ->
  let l := present elements in
  laid l num (offset l vs) vs values indptr m -> length vs = num -> (forall p, In p l -> snd p <> majority -> In (snd p) vs) ->
  ~ In majority vs ->
  exists missing,
    storeIndices elements m (mkArrays values (repeat None (offset l vs)) indptr majority) =
      Some (mkArrays values (map Some (concat (map (fun v => rev (ids l v)) vs))) indptr majority, missing) /\
    isSet missing (absent elements).
Proof.
  intros F l HL Hnum Hcov Hmaj. unfold storeIndices. cbn [aMajority aIndices aIndptr aValues].
  destruct HL as (_ & _ & HN & H4 & H5 & H6 & H7).
  match goal with |- context [forL elements ?b ?s] =>
    destruct (forL_inv (fun pre '(m', indices, missing) =>
      isSet missing (absent pre) /\ indices = concat (map (partialBin l (present pre)) vs) /\
      (forall p v, nth_error vs p = Some v ->
         lookup m' v = Some (p, length (ids l v) - length (ids (present pre) v))))
                b elements [] s) as (((m' & indices) & missing) & E & (G1 & G2 & G3)) end.
  - split; [split; [constructor|reflexivity]|]. split.
    + unfold offset. assert (forall ws, repeat None (length (concat (map (ids l) ws))) =
        concat (map (partialBin l (present [])) ws)) as ->; [|reflexivity].
      induction ws as [|w ws IH]; simpl; auto. rewrite app_length, repeat_app, IH. f_equal.
      unfold partialBin. simpl. rewrite Nat.sub_0_r, app_nil_r. reflexivity.
    + intros p v Hp. rewrite (H7 _ _ Hp). simpl. rewrite Nat.sub_0_r. reflexivity.
  - intros p e r ((m' & indices) & missing) Er (G1 & G2 & G3).
    assert (Fe: fits e) by (rewrite Forall_forall in F; apply F; simpl in Er; rewrite Er; apply in_or_app; simpl; auto).
    assert (El: l = present p ++ present1 e ++ present r)
      by (unfold l; simpl in Er; rewrite Er; unfold present; rewrite flat_map_app; reflexivity).
    rewrite present_snoc, absent_snoc. unfold fits in Fe. unfold present1 in *. unfold absent1.
    destruct (snd e) as [x|].
    + rewrite (Fe x eq_refl). set (t := tr x) in *. clearbody t. clear Fe.
      assert (Hid: forall v, ids (present p ++ [(fst e, t)]) v = ids (present p) v ++ (if (t =? v)%Z then [fst e] else []))
        by (intros v; rewrite ids_app, ids_one; reflexivity).
      rewrite app_nil_r. destruct (Z.eqb_spec t majority) as [->|Nm].
      * eexists. split; [reflexivity|]. split; [exact G1|].
        assert (Hsame: forall v, In v vs -> ids (present p ++ [(fst e, majority)]) v = ids (present p) v).
        { intros v Hv. rewrite Hid. destruct (Z.eqb_spec majority v); [subst; contradiction|apply app_nil_r]. }
        split.
        -- rewrite G2. f_equal. apply map_ext_in. intros v Hv. unfold partialBin. rewrite Hsame by auto. reflexivity.
        -- intros q v Hq. rewrite (G3 _ _ Hq), Hsame; auto. eapply nth_error_In; eauto.
      * assert (Ht: In t vs).
        { apply (Hcov (fst e, t)); auto. rewrite El. apply in_or_app. right. simpl; auto. }
        destruct (In_nth_error _ _ Ht) as (q & Hq). rewrite (G3 _ _ Hq).
        assert (Hlen: length (ids l t) = length (ids (present p) t) + 1 + length (ids (present r) t)).
        { rewrite El, !ids_app, !app_length, ids_one, Z.eqb_refl. simpl. lia. }
        destruct (length (ids l t) - length (ids (present p) t)) as [|rem] eqn:Erem; [lia|].
        rewrite H5 by (apply nth_error_Some; congruence).
        destruct (nth_error_split _ _ Hq) as (vs1 & vs2 & Evs & Eq).
        assert (Ef: firstn q vs = vs1).
        { rewrite Evs, <- Eq, firstn_app, Nat.sub_diag, firstn_all. simpl. apply app_nil_r. }
        rewrite Ef.
        assert (Hpl: forall v, length (partialBin l (present p) v) = length (ids l v)).
        { intros v. unfold partialBin. rewrite app_length, repeat_length, map_length, rev_length.
          assert (length (ids (present p) v) <= length (ids l v)) by (rewrite El; apply ids_app_length). lia. }
        assert (Eoff: offset l vs1 = length (concat (map (partialBin l (present p)) vs1))).
        { unfold offset. apply concat_length_ext. auto. }
        rewrite aset_Some.
        2: { rewrite G2, Evs, map_app, concat_app, app_length, Eoff. simpl. rewrite app_length, Hpl. lia. }
        eexists. split; [reflexivity|]. split; [exact G1|].
        assert (Hnot: forall v, In v (vs1 ++ vs2) -> v <> t).
        { rewrite Evs in HN. apply NoDup_remove_2 in HN. intros v Hv ->. contradiction. }
        assert (Hpart: forall v, In v (vs1 ++ vs2) ->
                  partialBin l (present p ++ [(fst e, t)]) v = partialBin l (present p) v).
        { intros v Hv. unfold partialBin. rewrite Hid. destruct (Z.eqb_spec t v); [edestruct Hnot; eauto|].
          rewrite app_nil_r. reflexivity. }
        split.
        -- rewrite G2, Evs, Eoff, concat_upd by (rewrite Hpl; lia).
           rewrite map_app, concat_app. simpl. f_equal; [|f_equal].
           ++ f_equal. apply map_ext_in. intros v Hv. symmetry. apply Hpart. apply in_or_app; auto.
           ++ unfold partialBin. rewrite Hid, Z.eqb_refl, Erem, rev_app_distr, app_length. simpl length.
              rewrite upd_app1 by (rewrite repeat_length; lia).
              replace (length (ids l t) - (length (ids (present p) t) + 1)) with rem by lia.
              replace (S rem) with (rem + 1) by lia. rewrite repeat_app.
              rewrite upd_app2 by (rewrite repeat_length; lia). rewrite repeat_length, Nat.sub_diag. simpl.
              rewrite <- app_assoc. reflexivity.
           ++ f_equal. apply map_ext_in. intros v Hv. symmetry. apply Hpart. apply in_or_app; auto.
        -- intros q' v Hq'. rewrite lookup_modify, Hid. destruct (Z.eqb_spec t v) as [<-|Nv].
           ++ rewrite (G3 _ _ Hq). rewrite app_length. simpl length.
              replace (length (ids l t) - (length (ids (present p) t) + 1)) with rem by lia. f_equal. f_equal.
              apply (NoDup_nth_error vs); [exact HN| |congruence]. apply nth_error_Some. congruence.
           ++ rewrite app_nil_r. apply G3. exact Hq'.
    + rewrite app_nil_r. eexists. split; [reflexivity|]. split; [apply setMissing_isSet; exact G1|]. auto.
  - rewrite E. exists missing. simpl app in G1, G2. split; [|exact G1]. rewrite G2. f_equal. f_equal. f_equal.
    fold l. clear. induction vs as [|v vs IH]; simpl; auto. rewrite map_app, IH. f_equal.
    unfold partialBin. rewrite Nat.sub_diag. reflexivity.
Qed.

(** ** Reading vectors *)

Lemma readAll_map {A} (l : list A) : readAll (map Some l) = Some l.
Proof. induction l as [|a l IH]; simpl; auto. rewrite IH. reflexivity. Qed.

Lemma read_range (a : list nat) pre post : forall acc,
  forN (length a) (length pre) (fun j ids => let* index := readAt (map Some (pre ++ a ++ post)) j in Some (ids ++ [index])) acc
  = Some (acc ++ a).
Proof.
  revert pre. induction a as [|x a IH]; intros pre acc; simpl; [rewrite app_nil_r; reflexivity|].
  unfold readAt at 1, aget. rewrite nth_error_map, nth_error_app2, Nat.sub_diag by lia. simpl.
  specialize (IH (pre ++ [x]) (acc ++ [x])). rewrite app_length, Nat.add_comm in IH. simpl in IH.
  rewrite <- app_assoc in IH. simpl in IH. rewrite IH, <- app_assoc. reflexivity.
Qed.

Lemma readVector_spec k vs bins indptr majority missing :
  length bins = length vs ->
  (forall p, p <= length vs -> readAt indptr p = Some (length (concat (firstn p bins)))) ->
  readVector k (mkArrays (map Some vs) (map Some (concat bins)) indptr majority) missing =
    Some (NominalVec k vs bins majority missing).
Proof.
  intros HL Hp. unfold readVector. cbn [aValues aMajority]. rewrite readAll_map.
  match goal with |- context [forN (length vs) 0 ?b ?s] =>
    destruct (forN_inv (fun i r => r = firstn i bins) b (length vs) 0 s) as (r & E & Er) end.
  - reflexivity.
  - intros i r Hi ->. unfold readBin. cbn [aIndptr aIndices]. rewrite !Hp by lia.
    destruct (nth_error bins i) as [bin|] eqn:Eb; [|apply nth_error_None in Eb; lia].
    destruct (nth_error_split _ _ Eb) as (b1 & b2 & E1 & E2).
    assert (Ef: firstn i bins = b1) by (rewrite E1, <- E2, firstn_app, Nat.sub_diag, firstn_all; apply app_nil_r).
    assert (Ef2: firstn (i + 1) bins = b1 ++ [bin]).
    { rewrite E1, <- E2, firstn_app. replace (length b1 + 1 - length b1) with 1 by lia.
      rewrite firstn_all2 by lia. reflexivity. }
    rewrite Ef, Ef2, concat_app, app_length. simpl concat. rewrite app_nil_r.
    destruct (Nat.ltb_spec (length (concat b1) + length bin) (length (concat b1))); [lia|].
    replace (length (concat b1) + length bin - length (concat b1)) with (length bin) by lia.
    rewrite E1, concat_app. simpl concat. rewrite (read_range bin (concat b1) (concat b2) []). simpl app.
    eexists. split; [reflexivity|]. rewrite <- E1. replace (S i) with (i + 1) by lia. symmetry. exact Ef2.
  - rewrite E, Er, Nat.add_0_l, <- HL, firstn_all. reflexivity.
Qed.

(** ** Creating vectors *)

(** Values other than the majority value. *)
Definition others (majority : Z) (vs : list Z) : list Z := filter (fun v => negb (v =? majority)%Z) vs.

Lemma in_others majority vs v : In v (others majority vs) <-> In v vs /\ v <> majority.
Proof.
  unfold others. rewrite filter_In, negb_true_iff, Z.eqb_neq. reflexivity.
Qed.

Lemma NoDup_filter' {A} (f : A -> bool) l : NoDup l -> NoDup (filter f l).
Proof. apply NoDup_filter. Qed.

Lemma others_snoc majority vs v :
  others majority (vs ++ [v]) = others majority vs ++ (if (v =? majority)%Z then [] else [v]).
Proof. unfold others. rewrite filter_app. simpl. destruct (v =? majority)%Z; reflexivity. Qed.

Lemma others_length majority vs1 vs2 : length (others majority vs1) <= length (others majority (vs1 ++ vs2)).
Proof. unfold others. rewrite filter_app, app_length. lia. Qed.

(** The total length of the bins. *)
Lemma offset_others l m majority : frequencies l m ->
  offset l (others majority (keys m)) = length l - length (ids l majority).
Proof.
  intros H. unfold offset.
  rewrite concat_ids_map, map_length.
  assert (E: forall v, In v (others majority (keys m)) ->
            filter (withValue v) l = filter (withValue v) (filter (fun p => negb (withValue majority p)) l)).
  { intros v Hv. apply in_others in Hv. destruct Hv as [_ Hv]. clear -Hv. induction l as [|p l IH]; simpl; auto.
    destruct (withValue majority p) eqn:Ek; simpl.
    - rewrite <- IH. unfold withValue in *. apply Z.eqb_eq in Ek. destruct (Z.eqb_spec (snd p) v); auto. congruence.
    - destruct (withValue v p); rewrite IH; reflexivity. }
  rewrite (map_ext_in _ _ _ E).
  match goal with |- length (concat ?c) = _ =>
    assert (P: Permutation (concat c) (filter (fun p => negb (withValue majority p)) l)) end.
  2: { rewrite (Permutation_length P). unfold ids. rewrite map_length. clear.
    assert (H: length (filter (withValue majority) l) + length (filter (fun p => negb (withValue majority p)) l) = length l);
      [|lia].
    induction l as [|p l IH]; simpl; auto. destruct (withValue majority p); simpl; lia. }
  apply group_perm.
  - apply NoDup_filter. apply H.
  - intros p Hp. apply filter_In in Hp. destruct Hp as [Hp Ep]. apply in_others. split.
    + eapply frequencies_keys; eauto.
    + intros E2. unfold withValue in Ep. rewrite E2, Z.eqb_refl in Ep. discriminate.
Qed.

Lemma rev_bins_length l vs p :
  length (concat (firstn p (map (fun v => rev (ids l v)) vs))) = offset l (firstn p vs).
Proof.
  rewrite firstn_map. unfold offset. apply concat_length_ext. intros. apply rev_length.
Qed.

(** The resulting vector. *)
Definition built (k : nominalKind) (l : list (nat * Z)) (vs : list Z) (majority : Z) (missing : list nat) : fvec :=
  NominalVec k vs (map (fun v => rev (ids l v)) vs) majority missing.

Lemma finish k elements num values indptr m majority vs :
  Forall fits elements -> let l := present elements in
  laid l num (offset l vs) vs values indptr m -> length vs = num ->
  (forall p, In p l -> snd p <> majority -> In (snd p) vs) -> ~ In majority vs ->
  exists missing,
    (let* (a, missing) := storeIndices elements m (mkArrays values (repeat None (offset l vs)) indptr majority) in
     readVector k a missing) = Some (built k l vs majority missing) /\ isSet missing (absent elements).
Proof.
  intros F l HL Hn Hc Hm. destruct (storeIndices_spec elements m num values indptr majority vs F HL Hn Hc Hm)
    as (missing & E & Hs). exists missing. split; auto. fold l in E. rewrite E.
  destruct HL as (E1 & _ & _ & H4 & H5 & H6 & _). rewrite E1, <- Hn, Nat.sub_diag. cbn [repeat]. rewrite app_nil_r.
  apply readVector_spec; [apply map_length|]. intros p Hp. rewrite rev_bins_length. fold l.
  destruct (Nat.eq_dec p (length vs)) as [->|N].
  - rewrite Hn, H6, <- Hn, firstn_all. reflexivity.
  - apply H5. lia.
Qed.

Lemma createNominal_spec elements m majority :
  Forall fits elements -> let l := present elements in frequencies l m -> let vs := others majority (keys m) in
  exists missing,
    (let* (a, missing) := createNominal elements m (length vs) (length l - length (ids l majority)) majority in
     readVector Nominal a missing) = Some (built Nominal l vs majority missing) /\ isSet missing (absent elements).
Proof.
  intros F l Hf vs. rewrite <- (offset_others l m) by exact Hf. fold vs. unfold createNominal.
  set (a0 := allocate (length vs) (offset l vs) majority).
  match goal with |- context [forL m ?b ?s] =>
    destruct (forL_inv (fun pre '(values, indptr, m', off, n) =>
      let ws := others majority (keys pre) in
      laid l (length vs) (offset l vs) ws values indptr m' /\ off = offset l ws /\ n = length ws /\
      (forall v, In v (keys m) -> exists a, lookup m' v = Some (a, length (ids l v)))) b m [] s)
      as (((((values & indptr) & m') & off) & n) & E & (G1 & G2 & G3 & G4)) end.
  - cbn zeta. split; [apply laid_nil|]. split; [reflexivity|]. split; [reflexivity|].
    intros v Hv. destruct (lookup_key m v Hv) as ((a, c) & Ea). destruct Hf as (_ & Hf). specialize (Hf v).
    rewrite Ea in Hf. destruct Hf as [-> _]. eauto.
  - intros p (v, (u, c)) r ((((values & indptr) & m') & off) & n) Er (G1 & G2 & G3 & G4). simpl in Er.
    assert (Hkeys: keys (p ++ [(v, (u, c))]) = keys p ++ [v]) by (unfold keys; rewrite map_app; reflexivity).
    cbv zeta in *. rewrite Hkeys, others_snoc.
    assert (Hc: c = length (ids l v)).
    { destruct Hf as (N & Hf). specialize (Hf v). rewrite (In_lookup m v (u, c)) in Hf; [apply Hf|exact N|].
      rewrite Er. apply in_or_app. simpl; auto. }
    destruct (Z.eqb_spec v majority) as [->|Nv].
    + rewrite app_nil_r. eexists. split; [reflexivity|]. split; [exact G1|]. auto.
    + assert (Hnum: length (others majority (keys p)) < length vs).
      { unfold vs. rewrite Er. unfold keys. rewrite map_app. simpl. unfold others. rewrite filter_app. simpl.
        destruct (Z.eqb_spec v majority); [contradiction|]. simpl. rewrite app_length. simpl. lia. }
      assert (Hnew: ~ In v (others majority (keys p))).
      { intros H. apply in_others in H. destruct H as [H _]. destruct Hf as (N & _). unfold keys in N.
        rewrite Er, map_app in N. simpl in N. apply NoDup_remove_2 in N. apply N. apply in_or_app. left. exact H. }
      destruct (G4 v) as (a & Ha).
      { unfold keys. rewrite Er, map_app. apply in_or_app. simpl; auto. }
      destruct (laid_step _ _ _ _ _ _ _ v a G1 Hnum Hnew Ha) as (A1 & A2 & A3).
      subst n off c. rewrite A1, A2. eexists. split; [reflexivity|]. split; [exact A3|].
      split; [rewrite offset_snoc; reflexivity|]. split; [rewrite app_length; reflexivity|].
      intros w Hw. destruct (G4 w Hw) as (b & Hb). rewrite lookup_modify.
      destruct (Z.eqb_spec v w) as [<-|]; [rewrite Ha; eauto|eauto].
  - rewrite E. simpl app in *. cbv zeta in G1. fold vs in G1.
    change (aIndices a0) with (@repeat (option nat) None (offset l vs)).
    apply (finish Nominal elements (length vs) values indptr m' majority vs F G1 eq_refl).
    + intros p Hp Np. apply in_others. split; auto. eapply frequencies_keys; eauto.
    + intros H. apply in_others in H. tauto.
Qed.

Lemma createOrdinal_spec sortValues elements m majority :
  (forall vs, Permutation (sortValues vs) vs) ->
  Forall fits elements -> let l := present elements in frequencies l m ->
  let vs := sortValues (others majority (keys m)) in
  exists missing,
    (let* (a, missing) := createOrdinal sortValues elements m (length vs) (length l - length (ids l majority)) majority in
     readVector Ordinal a missing) = Some (built Ordinal l vs majority missing) /\ isSet missing (absent elements).
Proof.
  intros Hsort F l Hf vs. pose proof (Hsort (others majority (keys m))) as HP. fold vs in HP.
  pose proof (Permutation_length HP) as HPl.
  assert (Eoff: offset l vs = length l - length (ids l majority)).
  { rewrite <- (offset_others l m) by exact Hf. unfold offset.
    rewrite !concat_ids_map, !map_length. apply Permutation_length. clear -HP. induction HP; simpl; auto.
    - apply Permutation_app_head. auto.
    - rewrite !app_assoc. apply Permutation_app_tail. apply Permutation_app_comm.
    - etransitivity; eauto. }
  rewrite <- Eoff. unfold createOrdinal.
  match goal with |- context [forL m ?b ?s] =>
    destruct (forL_inv (fun pre '(sorted, n) => n = length (others majority (keys pre)) /\
      sorted = map Some (others majority (keys pre)) ++ repeat None (length vs - n)) b m [] s)
      as ((sorted & n) & E & (G1 & G2)) end.
  - split; [reflexivity|]. simpl. rewrite Nat.sub_0_r. reflexivity.
  - intros p (v, t) r (sorted & n) Er (G1 & G2). simpl in Er.
    assert (Hkeys: keys (p ++ [(v, t)]) = keys p ++ [v]) by (unfold keys; rewrite map_app; reflexivity).
    rewrite Hkeys, others_snoc. destruct (Z.eqb_spec v majority) as [->|Nv].
    + rewrite app_nil_r. eexists. split; [reflexivity|]. split; [exact G1|exact G2].
    + assert (Hnum: length (others majority (keys p)) < length vs).
      { rewrite HPl, Er. unfold keys. rewrite map_app. simpl. unfold others. rewrite filter_app. simpl.
        destruct (Z.eqb_spec v majority); [contradiction|]. simpl. rewrite app_length. simpl. lia. }
      rewrite aset_Some by (subst; rewrite app_length, map_length, repeat_length; lia).
      eexists. split; [reflexivity|]. split; [rewrite app_length; simpl; lia|]. subst sorted n.
      rewrite upd_app2 by (rewrite map_length; lia). rewrite map_length, Nat.sub_diag, map_app, <- app_assoc.
      f_equal. replace (length vs - length (others majority (keys p)))
        with (S (length vs - (length (others majority (keys p)) + 1))) by lia. reflexivity.
  - rewrite E. simpl app in *. subst n. rewrite HPl, Nat.sub_diag in G2. simpl repeat in G2. rewrite app_nil_r in G2.
    rewrite G2, readAll_map. fold vs. clear E G2 sorted.
    set (a0 := allocate (length vs) (offset l vs) majority).
    assert (HN: NoDup vs) by (apply (Permutation_NoDup (Permutation_sym HP)); apply NoDup_filter; apply Hf).
    match goal with |- context [forN (length vs) 0 ?b ?s] =>
      destruct (forN_inv (fun i '(values, indptr, m', off) =>
        laid l (length vs) (offset l vs) (firstn i vs) values indptr m' /\ off = offset l (firstn i vs) /\
        (forall v, In v (keys m) -> exists a, lookup m' v = Some (a, length (ids l v)))) b (length vs) 0 s)
        as ((((values & indptr) & m') & off) & E & (G1 & G2 & G4)) end.
    + split; [apply laid_nil|]. split; [reflexivity|].
      intros v Hv. destruct (lookup_key m v Hv) as ((a, c) & Ea). destruct Hf as (_ & Hf). specialize (Hf v).
      rewrite Ea in Hf. destruct Hf as [-> _]. eauto.
    + intros i (((values & indptr) & m') & off) Hi (G1 & G2 & G4).
      destruct (nth_error vs i) as [v|] eqn:Ev; [|apply nth_error_None in Ev; lia].
      destruct (nth_error_split _ _ Ev) as (v1 & v2 & E1 & E2).
      assert (Ef: firstn i vs = v1) by (rewrite E1, <- E2, firstn_app, Nat.sub_diag, firstn_all; apply app_nil_r).
      assert (Ef2: firstn (S i) vs = v1 ++ [v]).
      { rewrite E1, <- E2, firstn_app. replace (S (length v1) - length v1) with 1 by lia.
        rewrite firstn_all2 by lia. reflexivity. }
      rewrite Ef, Ef2 in *. unfold aget at 1. rewrite Ev.
      assert (Hk: In v (keys m)).
      { assert (Hv: In v (others majority (keys m))) by (eapply Permutation_in; [exact HP|eapply nth_error_In; eauto]).
        apply in_others in Hv. tauto. }
      destruct (G4 v Hk) as (a & Ha).
      assert (Hnew: ~ In v v1) by (rewrite E1 in HN; apply NoDup_remove_2 in HN; intros H; apply HN; apply in_or_app; auto).
      destruct (laid_step _ _ _ _ _ _ _ v a G1) as (A1 & A2 & A3); auto; [lia|].
      subst off. rewrite <- E2, A1, A2, Ha. eexists. split; [reflexivity|]. split; [exact A3|].
      split; [rewrite offset_snoc; reflexivity|].
      intros w Hw. destruct (G4 w Hw) as (b & Hb). rewrite lookup_modify.
      destruct (Z.eqb_spec v w) as [<-|]; [rewrite Ha; eauto|eauto].
    + rewrite E. simpl in G1. rewrite firstn_all in G1.
      change (aIndices a0) with (@repeat (option nat) None (offset l vs)).
      apply (finish Ordinal elements (length vs) values indptr m' majority vs F G1 eq_refl).
      * intros p Hp Np. eapply Permutation_in; [symmetry; exact HP|]. apply in_others. split; auto.
        eapply frequencies_keys; eauto.
      * intros H. assert (H': In majority (others majority (keys m))) by (eapply Permutation_in; eauto).
        apply in_others in H'. tauto.
Qed.

Lemma createBinaryInternally_spec elements m minority majority :
  Forall fits elements -> let l := present elements in frequencies l m -> In minority (keys m) ->
  exists missing,
    (let* (a, missing) := createBinaryInternally elements m minority majority in
     readVector Binary a missing) = Some (NominalVec Binary [minority] [ids l minority] majority missing) /\
    isSet missing (absent elements).
Proof.
  intros F l Hf Hk. unfold createBinaryInternally.
  destruct (lookup_key m minority Hk) as ((u, c) & Ec). rewrite Ec.
  assert (Hc: c = length (ids l minority)).
  { destruct Hf as (_ & Hf). specialize (Hf minority). rewrite Ec in Hf. apply Hf. }
  subst c. set (n0 := length (ids l minority)). cbn [allocate aValues aIndices aIndptr]. simpl (aset _ 0 _). cbv beta iota.
  match goal with |- context [forL elements ?b ?s] =>
    destruct (forL_inv (fun pre '(indices, missing, n) =>
      isSet missing (absent pre) /\ n = length (ids (present pre) minority) /\
      indices = map Some (ids (present pre) minority) ++ repeat None (n0 - n)) b elements [] s)
      as (((indices & missing) & n) & E & (G1 & G2 & G3)) end.
  - split; [split; [constructor|reflexivity]|]. split; [reflexivity|]. simpl. rewrite Nat.sub_0_r. reflexivity.
  - intros p e r ((indices & missing) & n) Er (G1 & G2 & G3).
    assert (Fe: fits e) by (rewrite Forall_forall in F; apply F; simpl in Er; rewrite Er; apply in_or_app; simpl; auto).
    assert (El: l = present p ++ present1 e ++ present r)
      by (unfold l; simpl in Er; rewrite Er; unfold present; rewrite flat_map_app; reflexivity).
    rewrite present_snoc, absent_snoc. unfold fits in Fe. unfold present1 in *. unfold absent1.
    destruct (snd e) as [x|].
    + rewrite (Fe x eq_refl). set (t := tr x) in *. clearbody t. clear Fe. rewrite ids_app, ids_one, app_nil_r.
      destruct (Z.eqb_spec t minority) as [->|Nt].
      * assert (Hn: n < n0).
        { subst n. unfold n0. rewrite El, !ids_app, !app_length, ids_one, Z.eqb_refl. simpl. lia. }
        rewrite aset_Some by (subst; rewrite app_length, map_length, repeat_length; lia).
        eexists. split; [reflexivity|]. split; [exact G1|]. split; [rewrite app_length; simpl; lia|].
        subst indices n. rewrite upd_app2 by (rewrite map_length; lia).
        rewrite map_length, Nat.sub_diag, map_app, <- app_assoc. f_equal.
        replace (n0 - length (ids (present p) minority)) with (S (n0 - (length (ids (present p) minority) + 1))) by lia.
        reflexivity.
      * rewrite app_nil_r. eexists. split; [reflexivity|]. split; [exact G1|]. split; [exact G2|exact G3].
    + rewrite app_nil_r. eexists. split; [reflexivity|]. split; [apply setMissing_isSet; exact G1|]. auto.
  - rewrite E. simpl app in *. exists missing. split; [|exact G1]. subst n. fold l in G3. fold n0 in G3.
    rewrite Nat.sub_diag in G3. simpl repeat in G3. rewrite app_nil_r in G3. rewrite G3.
    pose proof (readVector_spec Binary [minority] [ids l minority] [Some 0; Some n0] majority missing) as R.
    cbn [concat map] in R. rewrite app_nil_r in R. apply R; [reflexivity|].
    intros [|[|q]] Hp; simpl; [reflexivity| |simpl in Hp; lia]. rewrite app_nil_r. reflexivity.
Qed.
