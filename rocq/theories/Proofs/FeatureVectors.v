(** Proofs that feature vectors represent the columns they are created from. *)
From Coq Require Import ZArith Arith List Bool Lia Permutation Sorted.
From Verif Require Import Lib.Arr Model.Filter Model.FeatureTypes Spec.Search Spec.Filter Spec.FeatureTypes
  Proofs.FeatureTypes.
Import ListNotations.
Open Scope nat_scope.

Lemma fits_iff x : fitsInt32 x -> toInt32 x = Some (tr x).
Proof.
  unfold fitsInt32, toInt32, tr. fold unit32. fold limit32. intros [H1 H2].
  destruct (Z.leb_spec (- limit32) (Z.quot x unit32)) as [_|H]; [|exfalso; apply (Z.lt_irrefl (- limit32)); eapply Z.le_lt_trans; eauto].
  destruct (Z.ltb_spec (Z.quot x unit32) limit32) as [_|H]; [reflexivity|].
  exfalso. apply (Z.lt_irrefl limit32). eapply Z.le_lt_trans; eauto.
Qed.

(** The stored elements are the values of a column, apart from those that are equal to [other]. *)
Definition describes (col : column) (examples : list nat) (elements : list element) (other : Z -> Prop) : Prop :=
  NoDup examples /\ NoDup (map fst (present elements)) /\
  (forall i v, In (i, v) (present elements) -> In i examples /\ col i = Some v) /\
  (forall i v, In i examples -> col i = Some v -> In (i, v) (present elements) \/ other v) /\
  (forall i, In i (absent elements) <-> In i examples /\ col i = None).

Lemma in_valued col examples i : In i (valued col examples) <-> exists v, In i examples /\ col i = Some v.
Proof.
  unfold valued, hasValue. rewrite filter_In. destruct (col i); split.
  - intros [H _]. eauto.
  - intros (v & H & _). auto.
  - intros [_ H]. discriminate.
  - intros (v & _ & H). discriminate.
Qed.

Lemma NoDup_fst (l : list (nat * Z)) i v w : NoDup (map fst l) -> In (i, v) l -> In (i, w) l -> v = w.
Proof.
  induction l as [|(j, u) l IH]; simpl; [intros _ []|]. intros N H1 H2. inversion N as [|? ? N1 N2]; subst.
  destruct H1 as [H1|H1], H2 as [H2|H2]; auto.
  - congruence.
  - injection H1 as -> ->. destruct N1. change i with (fst (i, w)). apply in_map. exact H2.
  - injection H2 as -> ->. destruct N1. change i with (fst (i, v)). apply in_map. exact H1.
Qed.

Lemma NoDup_map_filter (f : nat * Z -> bool) l : NoDup (map fst l) -> NoDup (map fst (filter f l)).
Proof.
  induction l as [|p l IH]; simpl; auto. intros N. inversion N as [|? ? N1 N2]; subst.
  destruct (f p); simpl; auto. constructor; auto. intros H. apply N1. apply in_map_iff in H.
  destruct H as (q & <- & H). apply in_map. apply filter_In in H. tauto.
Qed.

Lemma NoDup_app_intro {A} (a b : list A) : NoDup a -> NoDup b -> (forall x, In x a -> ~ In x b) -> NoDup (a ++ b).
Proof.
  induction a as [|x a IH]; simpl; auto. intros N1 N2 H. inversion N1; subst. constructor.
  - rewrite in_app_iff. intros [|H']; [contradiction|]. apply (H x); auto.
  - apply IH; auto.
Qed.

Lemma bins_NoDup (f : Z -> list nat) l vs : NoDup (map fst l) -> NoDup vs -> (forall v, Permutation (f v) (ids l v)) ->
  NoDup (concat (map f vs)).
Proof.
  intros Nl N P. induction vs as [|v vs IH]; simpl; [constructor|]. inversion N as [|? ? N1 N2]; subst.
  apply NoDup_app_intro; auto.
  - apply (Permutation_NoDup (Permutation_sym (P v))). apply NoDup_map_filter. exact Nl.
  - intros i Hi H. apply in_concat in H. destruct H as (b & Hb & H). apply in_map_iff in Hb.
    destruct Hb as (w & <- & Hw). apply N1. rewrite (NoDup_fst l i v w); auto.
    + apply in_ids. eapply Permutation_in; [apply P|exact Hi].
    + apply in_ids. eapply Permutation_in; [apply P|exact H].
Qed.

Lemma categorical_vector (f : Z -> list nat) col examples elements vs majority :
  describes col examples elements (eq majority) -> let l := present elements in
  (forall v, Permutation (f v) (ids l v)) -> NoDup vs -> ~ In majority vs ->
  (forall v, In v vs -> exists i, In (i, v) l) ->
  (forall p, In p l -> snd p <> majority -> In (snd p) vs) ->
  nominal_vector (valued col examples) (valueOf col) vs (map f vs) majority /\
  Forall (fun ids => ids <> []) (map f vs).
Proof.
  intros (D0 & D1 & D2 & D3 & D4) l P N Nm Hin Hcov. split.
  - split; [|split; [|split; [|split]]].
    + split; [apply NoDup_filter; exact D0|]. split; [eapply bins_NoDup; eauto|].
      intros i Hi. apply in_concat in Hi. destruct Hi as (b & Hb & Hi). apply in_map_iff in Hb.
      destruct Hb as (w & <- & Hw). apply in_valued. exists w. apply D2. apply in_ids.
      eapply Permutation_in; [apply P|exact Hi].
    + rewrite map_length. reflexivity.
    + constructor; auto.
    + intros p b v i Hp Hv Hi. rewrite nth_error_map, Hv in Hp. injection Hp as <-.
      assert (H: In (i, v) l) by (apply in_ids; eapply Permutation_in; [apply P|exact Hi]).
      apply D2 in H. unfold valueOf. rewrite (proj2 H). reflexivity.
    + intros i Hi Hnot. apply in_valued in Hi. destruct Hi as (v & Hi & Hv). unfold valueOf. rewrite Hv.
      destruct (D3 i v Hi Hv) as [H|]; [|auto]. destruct (Z.eq_dec v majority) as [|Nv]; auto. destruct Hnot.
      apply in_concat. exists (f v). split; [|eapply Permutation_in; [symmetry; apply P|apply in_ids; exact H]].
      apply in_map. apply (Hcov (i, v)); auto.
  - apply Forall_forall. intros b Hb. apply in_map_iff in Hb. destruct Hb as (v & <- & Hv).
    destruct (Hin v Hv) as (i & Hi). intros E. apply in_ids in Hi.
    apply (Permutation_in (l' := f v)) in Hi; [|symmetry; apply P]. rewrite E in Hi. destruct Hi.
Qed.

Lemma StronglySorted_lt l : StronglySorted Z.le l -> NoDup l -> StronglySorted Z.lt l.
Proof.
  induction 1 as [|x l S IH F]; intros N; [constructor|]. inversion N as [|? ? N1 N2]; subst. constructor; auto.
  apply Forall_forall. intros y Hy. rewrite Forall_forall in F. specialize (F y Hy).
  assert (x <> y) by (intros ->; contradiction). lia.
Qed.

(** ** The majority value *)

Lemma getMajorityValue_spec m : m <> [] -> exists v u c, getMajorityValue m = Some v /\ In (v, (u, c)) m /\
  forall w u' c', In (w, (u', c')) m -> c' <= c.
Proof.
  unfold getMajorityValue. destruct m as [|(v0, (u0, c0)) m0]; [congruence|]. intros _. cbn [aget nth_error].
  set (m := (v0, (u0, c0)) :: m0).
  assert (H: forall l v c, (exists u, In (v, (u, c)) m) -> (forall e, In e l -> In e m) ->
     exists v' c', fold_left (fun '(majorityValue, majorityValueFrequency) (entry : Z * (nat * nat)) =>
       if majorityValueFrequency <? snd (snd entry) then (fst entry, snd (snd entry))
       else (majorityValue, majorityValueFrequency)) l (v, c)
       = (v', c') /\ (exists u, In (v', (u, c')) m) /\ c <= c' /\ forall w u' c'', In (w, (u', c'')) l -> c'' <= c').
  { induction l as [|(w, (u, d)) l IH]; intros v c Hv Hl; cbn [fold_left fst snd].
    - exists v, c. split; [reflexivity|]. split; [exact Hv|]. split; [lia|intros ? ? ? []].
    - destruct (Nat.ltb_spec c d) as [Hd|Hd].
      + destruct (IH w d) as (v' & c' & E & H1 & H2 & H3).
        * exists u. apply Hl. left; reflexivity.
        * intros e He. apply Hl. right; exact He.
        * exists v', c'. split; [exact E|]. split; [exact H1|]. split; [lia|].
          intros w' u' c'' [[= <- <- <-]|Hin]; eauto.
      + destruct (IH v c) as (v' & c' & E & H1 & H2 & H3); [exact Hv|intros e He; apply Hl; right; exact He|].
        exists v', c'. split; [exact E|]. split; [exact H1|]. split; [lia|].
        intros w' u' c'' [[= <- <- <-]|Hin]; [lia|eauto]. }
  destruct (H m v0 c0) as (v' & c' & E & (u & H1) & H2 & H3); [exists u0; left; reflexivity|auto|].
  rewrite E. exists v', u, c'. split; [reflexivity|]. split; [exact H1|]. exact H3.
Qed.

Lemma others_absent majority vs : ~ In majority vs -> others majority vs = vs.
Proof.
  unfold others. induction vs as [|v vs IH]; simpl; auto. intros H. destruct (Z.eqb_spec v majority); [tauto|].
  simpl. rewrite IH; auto.
Qed.

Lemma others_present majority vs : NoDup vs -> In majority vs -> length vs = S (length (others majority vs)).
Proof.
  intros N H. apply in_split in H. destruct H as (a & b & ->). apply NoDup_remove_2 in N.
  unfold others. rewrite filter_app. simpl. rewrite Z.eqb_refl. simpl. fold (others majority a) (others majority b).
  rewrite !others_absent; [rewrite !app_length; simpl; lia| |]; intros H; apply N; apply in_or_app; auto.
Qed.

(** The majority value occurs most frequently, or the matrix is sparse. *)
Definition mostFrequent (l : list (nat * Z)) (vec : fvec) : Prop :=
  match vec with
  | NominalVec _ values bins majority _ => forall v, length (ids l v) <= length (ids l majority)
  | _ => True
  end.

Section Create.
Variable iterated : mapping -> mapping.
Variable sortValues : list Z -> list Z.
Hypothesis Hit : forall m, Permutation (iterated m) m.
Hypothesis Hsort : sortsValues sortValues.

Lemma represents_nominal k f col examples elements vs majority missing :
  describes col examples elements (eq majority) -> let l := present elements in
  (forall v, Permutation (f v) (ids l v)) -> NoDup vs -> ~ In majority vs ->
  (forall v, In v vs -> exists i, In (i, v) l) ->
  (forall p, In p l -> snd p <> majority -> In (snd p) vs) ->
  isSet missing (absent elements) ->
  match k with Nominal => True | Ordinal => StronglySorted Z.lt vs | Binary => length vs = 1 end ->
  represents col examples (NominalVec k vs (map f vs) majority missing).
Proof.
  intros D l P N Nm Hin Hcov (M1 & M2) Hk.
  destruct (categorical_vector f col examples elements vs majority D P N Nm Hin Hcov) as (H1 & H2).
  unfold represents. cbn [missingOf]. split; [exact M1|]. split.
  - intros i. rewrite M2. apply D.
  - destruct k; [|split; [split|]|]; auto.
Qed.

Lemma createCategorical_spec ordinal col examples elements m (sparse : bool) sparseValue :
  Forall fits elements -> let l := present elements in frequencies l m ->
  describes col examples elements (fun v => sparse = true /\ v = sparseValue) ->
  (sparse = true -> ~ In sparseValue (keys m)) ->
  let numValues := if sparse then length m + 1 else length m in
  exists vec, createCategorical sortValues ordinal elements (iterated m) numValues (length l) sparse sparseValue = Some vec /\
    represents col examples vec /\ (vec = EqualVec <-> numValues <= 1) /\ kindOf ordinal numValues vec /\
    (sparse = false -> mostFrequent l vec).
Proof.
  intros F l Hf D Hs numValues.
  pose proof (frequencies_perm _ _ _ Hf (Hit m)) as Hf'.
  assert (Hlen: length (iterated m) = length m) by (apply Permutation_length; apply Hit).
  assert (HsI: sparse = true -> ~ In sparseValue (keys (iterated m))).
  { intros E H. apply (Hs E). eapply Permutation_in; [|exact H]. apply Permutation_map. apply Hit. }
  set (m' := iterated m) in *. clearbody m'. unfold createCategorical.
  assert (Nk: NoDup (keys m')) by apply Hf'.
  destruct (Nat.ltb_spec 2 numValues) as [H2|H2].
  - assert (HM: exists majority c, (if sparse then Some (sparseValue, 0)
        else let* majorityValue := getMajorityValue m' in
             let* (_, frequency) := lookup m' majorityValue in Some (majorityValue, frequency)) = Some (majority, c) /\
        length l - c = length l - length (ids l majority) /\ numValues - 1 = length (others majority (keys m')) /\
        describes col examples elements (eq majority) /\
        (sparse = false -> forall v, length (ids l v) <= length (ids l majority))).
    { destruct sparse.
      - exists sparseValue, 0. split; [reflexivity|]. destruct Hf' as (_ & Hf'). specialize (Hf' sparseValue).
        specialize (HsI eq_refl). rewrite (proj2 (lookup_None m' sparseValue) HsI) in Hf'. rewrite Hf'.
        split; [reflexivity|]. split.
        + rewrite others_absent by exact HsI. unfold numValues, keys. rewrite map_length. lia.
        + split; [|discriminate]. destruct D as (D0 & D1 & D2 & D3 & D4).
          split; [exact D0|]. split; [exact D1|]. split; [exact D2|]. split; [|exact D4].
          intros i v Hi Hv. destruct (D3 i v Hi Hv) as [|[_ ->]]; auto.
      - destruct (getMajorityValue_spec m') as (v & u & c & E & Hin & Hmax).
        { intros ->. simpl in Hlen. unfold numValues in H2. lia. }
        rewrite E, (In_lookup m' v (u, c)) by auto. exists v, c. split; [reflexivity|].
        assert (Hc: forall w u' c', In (w, (u', c')) m' -> c' = length (ids l w)).
        { intros w u' c' Hw. destruct Hf' as (_ & Hf'). specialize (Hf' w). rewrite (In_lookup m' w (u', c')) in Hf'; auto.
          apply Hf'. }
        rewrite (Hc _ _ _ Hin). split; [reflexivity|]. split.
        + assert (Hv: In v (keys m')) by (change v with (fst (v, (u, c))); apply in_map; exact Hin).
          pose proof (others_present v (keys m') Nk Hv) as E2. unfold keys in E2 at 1. rewrite map_length in E2.
          unfold numValues. lia.
        + split.
          * destruct D as (D0 & D1 & D2 & D3 & D4).
            split; [exact D0|]. split; [exact D1|]. split; [exact D2|]. split; [|exact D4].
            intros i w Hi Hw. destruct (D3 i w Hi Hw) as [|[Hfalse _]]; [auto|discriminate].
          * intros _ w. pose proof Hf' as (_ & Hf2). specialize (Hf2 w). destruct (lookup m' w) as [(u', c')|] eqn:Ew.
            -- apply lookup_In in Ew. rewrite <- (Hc _ _ _ Hin), <- (Hc _ _ _ Ew). eapply Hmax; eauto.
            -- rewrite Hf2. simpl. lia. }
    destruct HM as (majority & c & E & Hc & Hn & D' & Hmost). rewrite E, Hc, Hn.
    assert (Hv1: forall v, In v (others majority (keys m')) -> exists i, In (i, v) l).
    { intros v Hv. apply in_others in Hv. eapply frequencies_In; [exact Hf'|tauto]. }
    assert (Hv2: forall p, In p l -> snd p <> majority -> In (snd p) (others majority (keys m'))).
    { intros p Hp Np. apply in_others. split; auto. eapply frequencies_keys; eauto. }
    assert (Hv3: ~ In majority (others majority (keys m'))) by (rewrite in_others; tauto).
    assert (Hv4: NoDup (others majority (keys m'))) by (apply NoDup_filter; exact Nk).
    destruct ordinal.
    + destruct (Hsort (others majority (keys m'))) as (HP & HS).
      assert (Hl: length (others majority (keys m')) = length (sortValues (others majority (keys m'))))
        by (symmetry; apply Permutation_length; exact HP). rewrite Hl.
      destruct (createOrdinal_spec sortValues elements m' majority (fun vs => proj1 (Hsort vs)) F Hf') as (missing & Ec & M).
      fold l in Ec. rewrite Ec. unfold built. eexists. split; [reflexivity|]. split; [|split; [|split]].
      * apply represents_nominal with (elements := elements); auto.
        -- intros v. symmetry. apply Permutation_rev.
        -- eapply Permutation_NoDup; [symmetry; exact HP|exact Hv4].
        -- intros H. apply Hv3. eapply Permutation_in; [exact HP|exact H].
        -- intros v Hv. apply Hv1. eapply Permutation_in; [exact HP|exact Hv].
        -- intros p Hp Np. eapply Permutation_in; [symmetry; exact HP|]. auto.
        -- apply StronglySorted_lt; auto. eapply Permutation_NoDup; [symmetry; exact HP|exact Hv4].
      * split; [discriminate|lia].
      * cbn [kindOf]. first [lia|split; [exact H2|reflexivity]].
      * simpl. exact Hmost.
    + destruct (createNominal_spec elements m' majority F Hf') as (missing & Ec & M).
      fold l in Ec. rewrite Ec. unfold built. eexists. split; [reflexivity|]. split; [|split; [|split]].
      * apply represents_nominal with (elements := elements); auto. intros v. symmetry. apply Permutation_rev.
      * split; [discriminate|lia].
      * cbn [kindOf]. first [lia|split; [exact H2|reflexivity]].
      * simpl. exact Hmost.
  - destruct (Nat.ltb_spec 1 numValues) as [H1|H1].
    + assert (HM: exists minority majority, (if sparse then let* (value, _) := aget m' 0 in Some (value, sparseValue)
           else getMinorityAndMajorityValue m') = Some (minority, majority) /\ In minority (keys m') /\
           minority <> majority /\ describes col examples elements (eq majority) /\
           (forall p, In p l -> snd p <> majority -> snd p = minority) /\
           (sparse = false -> forall v, length (ids l v) <= length (ids l majority))).
      { destruct sparse.
        - unfold numValues in *. destruct m' as [|(v, t) [|? ?]]; simpl in Hlen; try lia.
          exists v, sparseValue. split; [reflexivity|]. split; [simpl; auto|].
          split; [intros ->; apply (HsI eq_refl); simpl; auto|]. split; [|split].
          + destruct D as (D0 & D1 & D2 & D3 & D4). split; [exact D0|]. split; [exact D1|]. split; [exact D2|].
            split; [|exact D4]. intros i w Hi Hw. destruct (D3 i w Hi Hw) as [|[_ ->]]; auto.
          + intros p Hp _. destruct (frequencies_keys _ _ p Hf' Hp) as [E|[]]. symmetry. exact E.
          + discriminate.
        - unfold numValues in *. destruct m' as [|(v1, (u1, c1)) [|(v2, (u2, c2)) [|? ?]]]; simpl in Hlen; try lia.
          unfold getMinorityAndMajorityValue. cbn [aget nth_error].
          assert (Nv: v1 <> v2) by (intros ->; inversion Nk as [|? ? N1 _]; apply N1; simpl; auto).
          assert (D': forall w, describes col examples elements (eq w)).
          { intros w0. destruct D as (D0 & D1 & D2 & D3 & D4). split; [exact D0|]. split; [exact D1|]. split; [exact D2|].
            split; [|exact D4]. intros i w Hi Hw. destruct (D3 i w Hi Hw) as [|[Hfalse _]]; [auto|discriminate]. }
          assert (Hk: forall p, In p l -> snd p = v1 \/ snd p = v2).
          { intros p Hp. destruct (frequencies_keys _ _ p Hf' Hp) as [E|[E|[]]]; simpl in E; auto. }
          assert (Hc1: c1 = length (ids l v1)).
          { destruct Hf' as (_ & Hf'). specialize (Hf' v1). simpl in Hf'. rewrite Z.eqb_refl in Hf'. apply Hf'. }
          assert (Hc2: c2 = length (ids l v2)).
          { destruct Hf' as (_ & Hf'). specialize (Hf' v2). simpl in Hf'.
            destruct (Z.eqb_spec v1 v2); [contradiction|]. rewrite Z.eqb_refl in Hf'. apply Hf'. }
          assert (Hother: forall v, v <> v1 -> v <> v2 -> ids l v = []).
          { intros v A B. apply ids_none. intros p Hp E. destruct (Hk p Hp); congruence. }
          destruct (Nat.ltb_spec c2 c1) as [Hc|Hc].
          + exists v2, v1. split; [reflexivity|]. split; [simpl; auto|]. split; [congruence|]. split; [auto|]. split.
            * intros p Hp Np. destruct (Hk p Hp); congruence.
            * intros _ v. destruct (Z.eq_dec v v1) as [->|A]; [lia|]. destruct (Z.eq_dec v v2) as [->|B]; [lia|].
              rewrite (Hother v A B). simpl. lia.
          + exists v1, v2. split; [reflexivity|]. split; [simpl; auto|]. split; [congruence|]. split; [auto|]. split.
            * intros p Hp Np. destruct (Hk p Hp); congruence.
            * intros _ v. destruct (Z.eq_dec v v1) as [->|A]; [lia|]. destruct (Z.eq_dec v v2) as [->|B]; [lia|].
              rewrite (Hother v A B). simpl. lia. }
      destruct HM as (minority & majority & E & Hin & Nm & D' & Hcov & Hmost). unfold createBinary. rewrite E.
      destruct (createBinaryInternally_spec elements m' minority majority F Hf' Hin) as (missing & Ec & M).
      fold l in Ec. rewrite Ec. eexists. split; [reflexivity|]. split; [|split; [|split]].
      * change [ids l minority] with (map (ids l) [minority]).
        apply represents_nominal with (elements := elements); auto.
        -- constructor; [intros []|constructor].
        -- simpl. intros [|[]]; congruence.
        -- intros v [<-|[]]. eapply frequencies_In; eauto.
        -- intros p Hp Np. simpl. left. symmetry. apply Hcov; auto.
      * split; [discriminate|lia].
      * cbn [kindOf]. first [lia|split; [exact H2|reflexivity]].
      * simpl. exact Hmost.
    + exists EqualVec. split; [reflexivity|]. split; [exact I|]. split; [split; auto|]. split; [cbn; lia|]. intros _; exact I.
Qed.
End Create.

(** ** Columns *)

Lemma in_present elements i v : In (i, v) (present elements) <-> exists x, In (i, Some x) elements /\ v = tr x.
Proof.
  unfold present. rewrite in_flat_map. unfold present1. split.
  - intros ((j, [x|]) & He & H); cbn [fst snd] in H; [destruct H as [[= -> <-]|[]]; eauto|destruct H].
  - intros (x & Hx & ->). exists (i, Some x). simpl. auto.
Qed.

Lemma in_absent elements i : In i (absent elements) <-> In (i, None) elements.
Proof.
  unfold absent. rewrite in_flat_map. unfold absent1. split.
  - intros ((j, [x|]) & He & H); cbn [fst snd] in H; [destruct H|destruct H as [<-|[]]; exact He].
  - intros H. exists (i, None). simpl. auto.
Qed.

Lemma present_NoDup elements : NoDup (map fst elements) -> NoDup (map fst (present elements)).
Proof.
  induction elements as [|(i, [x|]) l IH]; simpl; auto; intros N; inversion N as [|? ? N1 N2]; subst; auto.
  unfold present1. simpl. constructor; auto. intros H. apply N1. apply in_map_iff in H.
  destruct H as ((j, v) & E & H). simpl in E. subst j. apply in_present in H. destruct H as (y & H & _).
  change i with (fst (i, Some y)). apply in_map. exact H.
Qed.

Lemma combine_seq_In {A} (values : list A) : forall start i x,
  In (i, x) (combine (seq start (length values)) values) <-> start <= i /\ nth_error values (i - start) = Some x.
Proof.
  induction values as [|y values IH]; intros start i x; simpl.
  - split; [intros []|]. intros [_ H]. destruct (i - start); discriminate.
  - rewrite IH. split.
    + intros [[= -> ->]|[H1 H2]].
      * split; [lia|]. rewrite Nat.sub_diag. reflexivity.
      * split; [lia|]. replace (i - start) with (S (i - S start)) by lia. exact H2.
    + intros [H1 H2]. destruct (i - start) as [|q] eqn:E.
      * left. simpl in H2. replace start with i by lia. congruence.
      * right. split; [lia|]. replace (i - S start) with q by lia. exact H2.
Qed.

Lemma in_denseElements values i x : In (i, x) (denseElements values) <-> nth_error values i = Some x.
Proof. unfold denseElements. rewrite combine_seq_In, Nat.sub_0_r. intuition lia. Qed.

Lemma map_fst_combine {A B} (a : list A) (b : list B) : length a = length b -> map fst (combine a b) = a.
Proof.
  revert b. induction a as [|x a IH]; destruct b as [|y b]; simpl; auto; try discriminate. intros [= E]. f_equal. auto.
Qed.

Lemma denseElements_NoDup values : NoDup (map fst (denseElements values)).
Proof. unfold denseElements. rewrite map_fst_combine by apply seq_length. apply seq_NoDup. Qed.

Lemma denseColumn_Some values i x : i < length values -> denseColumn values i = x -> nth_error values i = Some x.
Proof. intros Hi <-. unfold denseColumn. apply nth_error_nth'. exact Hi. Qed.

Lemma quot_tr x : Z.quot x (2 ^ 149) = tr x.
Proof. reflexivity. Qed.

Lemma truncated_Some col i x : col i = Some x -> truncated col i = Some (tr x).
Proof. intros H. unfold truncated. rewrite H. reflexivity. Qed.

Lemma truncated_inv col i v : truncated col i = Some v -> exists x, col i = Some x /\ v = tr x.
Proof. unfold truncated. destruct (col i) as [x|]; [|discriminate]. rewrite quot_tr. intros [= <-]. eauto. Qed.

Lemma dense_describes values P : describes (truncated (denseColumn values)) (seq 0 (length values)) (denseElements values) P.
Proof.
  split; [apply seq_NoDup|]. split; [apply present_NoDup; apply denseElements_NoDup|]. split; [|split].
  - intros i v H. apply in_present in H. destruct H as (x & H & ->). apply in_denseElements in H. split.
    + apply in_seq. split; [lia|]. simpl. apply nth_error_Some. congruence.
    + apply truncated_Some. unfold denseColumn. apply nth_error_nth. exact H.
  - intros i v Hi Hv. left. apply in_seq in Hi. apply truncated_inv in Hv.
    destruct Hv as (x & E & ->).
    apply in_present. exists x. split; auto. apply in_denseElements. apply denseColumn_Some; auto. lia.
  - intros i. rewrite in_absent, in_denseElements, in_seq. split.
    + intros H. split; [split; [lia|]; simpl; apply nth_error_Some; congruence|].
      unfold truncated, denseColumn. erewrite nth_error_nth by exact H. reflexivity.
    + intros [Hi H]. apply denseColumn_Some; [lia|]. unfold truncated in H.
      destruct (denseColumn values i); [discriminate|reflexivity].
Qed.

Lemma sparseColumn_cons sv j y l i : sparseColumn sv ((j, y) :: l) i = if j =? i then y else sparseColumn sv l i.
Proof. unfold sparseColumn. simpl. destruct (j =? i); reflexivity. Qed.

Lemma column_stored sv elements i x : NoDup (map fst elements) -> In (i, x) elements -> sparseColumn sv elements i = x.
Proof.
  induction elements as [|(j, y) l IH]; [intros _ []|]. rewrite sparseColumn_cons. simpl. intros N [[= -> ->]|H].
  - rewrite Nat.eqb_refl. reflexivity.
  - inversion N as [|? ? N1 N2]; subst. destruct (Nat.eqb_spec j i) as [->|]; [|auto].
    destruct N1. change i with (fst (i, x)). apply in_map. exact H.
Qed.

Lemma column_not sv elements i : ~ In i (map fst elements) -> sparseColumn sv elements i = Some sv.
Proof.
  induction elements as [|(j, y) l IH]; [reflexivity|]. rewrite sparseColumn_cons. simpl. intros H.
  destruct (Nat.eqb_spec j i); [tauto|]. apply IH. tauto.
Qed.

Lemma stored_cases elements i : NoDup (map fst elements) ->
  (exists x, In (i, x) elements /\ forall sv, sparseColumn sv elements i = x) \/
  (~ In i (map fst elements) /\ forall sv, sparseColumn sv elements i = Some sv).
Proof.
  intros N. destruct (in_dec Nat.eq_dec i (map fst elements)) as [H|H].
  - left. apply in_map_iff in H. destruct H as ((j, x) & E & H). simpl in E. subst j. exists x. split; auto.
    intros sv. apply column_stored; auto.
  - right. split; auto. intros sv. apply column_not; auto.
Qed.

Lemma all_stored numRows elements i : wellFormed numRows elements -> numRows <= length elements -> i < numRows ->
  In i (map fst elements).
Proof.
  intros (N & B) HL Hi. apply (NoDup_length_incl N (l' := seq 0 numRows)).
  - rewrite map_length, seq_length. exact HL.
  - intros j Hj. apply in_map_iff in Hj. destruct Hj as (e & <- & He). apply in_seq. specialize (B e He). lia.
  - apply in_seq. lia.
Qed.

Lemma not_all_stored numRows elements : wellFormed numRows elements -> length elements < numRows ->
  exists i, i < numRows /\ ~ In i (map fst elements).
Proof.
  intros (N & B) HL.
  destruct (Forall_Exists_dec (fun i => In i (map fst elements)) (fun i => in_dec Nat.eq_dec i (map fst elements)) (seq 0 numRows))
    as [H|H].
  - exfalso. assert (Hincl: incl (seq 0 numRows) (map fst elements)) by (intros i Hi; rewrite Forall_forall in H; auto).
    pose proof (NoDup_incl_length (seq_NoDup numRows 0) Hincl) as L. rewrite seq_length, map_length in L.
    exact (Nat.lt_irrefl _ (Nat.lt_le_trans _ _ _ HL L)).
  - apply Exists_exists in H. destruct H as (i & Hi & H). exists i. split; auto. apply in_seq in Hi. lia.
Qed.

Lemma sparse_describes numRows sv elements : wellFormed numRows elements ->
  describes (truncated (sparseColumn sv elements)) (seq 0 numRows) elements
    (fun v => (length elements <? numRows) = true /\ v = tr sv).
Proof.
  intros W. pose proof W as (N & B). split; [apply seq_NoDup|]. split; [apply present_NoDup; exact N|]. split; [|split].
  - intros i v H. apply in_present in H. destruct H as (x & H & ->). split.
    + apply in_seq. specialize (B _ H). simpl in B. lia.
    + apply truncated_Some. apply column_stored; auto.
  - intros i v Hi Hv. apply in_seq in Hi. apply truncated_inv in Hv. destruct Hv as (y & Hv & ->).
    destruct (stored_cases elements i N) as [(x & Hx & Ex)|[Hx Ex]]; rewrite Ex in Hv.
    + left. subst x. apply in_present. eauto.
    + right. injection Hv as <-. split; auto. apply Nat.ltb_lt.
      destruct (Nat.lt_ge_cases (length elements) numRows) as [|HL]; auto. destruct Hx. apply (all_stored numRows elements i W HL). simpl in Hi. lia.
  - intros i. rewrite in_absent, in_seq. split.
    + intros H. split; [specialize (B _ H); simpl in B; lia|]. unfold truncated.
      rewrite (column_stored sv elements i None) by auto. reflexivity.
    + intros [Hi H]. unfold truncated in H. destruct (stored_cases elements i N) as [(x & Hx & Ex)|[Hx Ex]]; rewrite Ex in H.
      * destruct x; [discriminate|exact Hx].
      * discriminate.
Qed.

Lemma keys_length m : length (keys m) = length m.
Proof. apply map_length. Qed.

Lemma constant_dense col examples elements m : frequencies (present elements) m ->
  describes col examples elements (fun _ => False) -> (constant col examples <-> length m <= 1).
Proof.
  intros Hf (D0 & D1 & D2 & D3 & D4). split.
  - intros C. destruct m as [|(v1, t1) [|(v2, t2) r]]; simpl; try lia. exfalso.
    destruct (frequencies_In _ _ v1 Hf) as (i & Hi); [simpl; auto|].
    destruct (frequencies_In _ _ v2 Hf) as (j & Hj); [simpl; auto|].
    apply D2 in Hi. apply D2 in Hj. destruct Hf as (N & _). inversion N as [|? ? N1 _]; subst. apply N1. simpl. left.
    symmetry. apply (C i j); tauto.
  - intros HL i j x y Hi Hj Hx Hy. destruct (D3 _ _ Hi Hx) as [A|[]]. destruct (D3 _ _ Hj Hy) as [B|[]].
    apply (frequencies_keys _ _ _ Hf) in A. apply (frequencies_keys _ _ _ Hf) in B. cbn [snd] in *.
    destruct m as [|(v1, t1) [|? ?]]; simpl in *; lia.
Qed.

(** The number of keys is the number of different values. *)
Lemma numDistinct_keys col examples ks : NoDup ks ->
  (forall v, In v ks <-> exists i, In i examples /\ col i = Some v) -> numDistinct col examples = length ks.
Proof.
  intros N H. unfold numDistinct. apply Permutation_length. apply NoDup_Permutation; [apply NoDup_nodup|exact N|].
  intros v. rewrite nodup_In, in_map_iff, H. split.
  - intros (i & <- & Hi). apply in_valued in Hi. destruct Hi as (x & Hi & E). exists i. split; [exact Hi|].
    unfold valueOf. rewrite E. reflexivity.
  - intros (i & Hi & E). exists i. split; [unfold valueOf; rewrite E; reflexivity|]. apply in_valued. eauto.
Qed.

Lemma numDistinct_dense col examples elements m : frequencies (present elements) m ->
  describes col examples elements (fun _ => False) -> numDistinct col examples = length m.
Proof.
  intros Hf (D0 & D1 & D2 & D3 & D4). replace (length m) with (length (keys m)) by (unfold keys; apply map_length).
  apply numDistinct_keys; [apply Hf|]. intros v. split.
  - intros H. destruct (frequencies_In _ _ v Hf H) as (i & Hi). apply D2 in Hi. eauto.
  - intros (i & Hi & E). destruct (D3 _ _ Hi E) as [A|[]]. apply (frequencies_keys _ _ _ Hf A).
Qed.

Section Theorems.
Variable iterated : mapping -> mapping.
Variable sortValues : list Z -> list Z.
Hypothesis Hit : forall m, Permutation (iterated m) m.
Hypothesis Hsort : sortsValues sortValues.

Lemma fits_all elements : allFit (map snd elements) -> Forall fits elements.
Proof.
  intros H. apply Forall_forall. intros e He x Hx. apply fits_iff. apply H. rewrite <- Hx. apply in_map. exact He.
Qed.

Lemma frequency_dense col examples elements v : describes col examples elements (fun _ => False) ->
  frequency col examples v = length (ids (present elements) v).
Proof.
  intros (D0 & D1 & D2 & D3 & D4). unfold frequency. apply Permutation_length. apply NoDup_Permutation.
  - apply NoDup_filter. exact D0.
  - apply NoDup_map_filter. exact D1.
  - intros i. rewrite filter_In, in_ids. split.
    + intros [Hi H]. destruct (col i) as [x|] eqn:E; [|discriminate]. apply Z.eqb_eq in H. subst x.
      destruct (D3 _ _ Hi E) as [|[]]. auto.
    + intros H. apply D2 in H. destruct H as [H ->]. split; auto. apply Z.eqb_refl.
Qed.

Lemma categorical_dense ordinal values : allFit values ->
  let col := truncated (denseColumn values) in
  let examples := seq 0 (length values) in
  exists vec, createCategoricalDense iterated sortValues ordinal values = Some vec /\
    represents col examples vec /\ (vec = EqualVec <-> constant col examples) /\ kindOf ordinal (numDistinct col examples) vec /\
    (forall k vs bins majority missing v, vec = NominalVec k vs bins majority missing ->
       frequency col examples v <= frequency col examples majority).
Proof.
  intros HF col examples. unfold createCategoricalDense.
  assert (F: Forall fits (denseElements values)).
  { apply fits_all. intros x Hx. apply HF. apply in_map_iff in Hx. destruct Hx as ((i, y) & E & H). simpl in E. subst y.
    unfold denseElements in H. apply in_combine_r in H. exact H. }
  destruct (createMapping_spec _ F) as (m & E & Hf). rewrite E.
  destruct (createCategorical_spec iterated sortValues Hit Hsort ordinal col examples (denseElements values) m false 0 F Hf)
    as (vec & Ev & R & Q & K & M).
  - apply dense_describes.
  - discriminate.
  - exists vec. split; [exact Ev|]. split; [exact R|]. split.
    + rewrite Q. symmetry. apply (constant_dense col examples (denseElements values)); auto. apply dense_describes.
    + split; [rewrite (numDistinct_dense col examples (denseElements values) m); [exact K|exact Hf|apply dense_describes]|].
      intros k vs bins majority missing v ->. specialize (M eq_refl). simpl in M.
      rewrite !(frequency_dense col examples (denseElements values)) by apply dense_describes. apply M.
Qed.

Lemma categorical_sparse ordinal numRows sparseValue elements :
  wellFormed numRows elements -> allFit (map snd elements) -> fitsInt32 sparseValue ->
  noExplicitSparseValues sparseValue elements \/ length elements = numRows ->
  let col := truncated (sparseColumn sparseValue elements) in
  let examples := seq 0 numRows in
  exists vec, createCategoricalSparse iterated sortValues ordinal numRows sparseValue elements = Some vec /\
    represents col examples vec /\ (vec = EqualVec <-> constant col examples) /\ kindOf ordinal (numDistinct col examples) vec.
Proof.
  intros W HF Hsv Hno col examples. unfold createCategoricalSparse.
  pose proof (fits_all _ HF) as F.
  destruct (createMapping_spec _ F) as (m & E & Hf). rewrite E, (fits_iff _ Hsv).
  pose proof (sparse_describes numRows sparseValue elements W) as D. fold col examples in D.
  assert (Hk: (length elements <? numRows) = true -> ~ In (tr sparseValue) (keys m)).
  { intros HL H. apply Nat.ltb_lt in HL. destruct Hno as [Hno|]; [|lia].
    destruct (frequencies_In _ _ _ Hf H) as (i & Hi). apply in_present in Hi. destruct Hi as (x & Hx & Ex).
    apply (Hno i x Hx). symmetry. exact Ex. }
  destruct (createCategorical_spec iterated sortValues Hit Hsort ordinal col examples elements m
              (length elements <? numRows) (tr sparseValue) F Hf D Hk) as (vec & Ev & R & Q & K & _).
  exists vec. split; [exact Ev|]. split; [exact R|]. split.
  2: {
    replace (numDistinct col examples) with (if length elements <? numRows then length m + 1 else length m); [exact K|].
    destruct (Nat.ltb_spec (length elements) numRows) as [HL|HL].
    - specialize (Hk eq_refl). replace (length m + 1) with (length (tr sparseValue :: keys m)) by (cbn; unfold keys; rewrite map_length; lia).
      symmetry. apply numDistinct_keys; [constructor; [exact Hk|apply Hf]|]. destruct D as (D0 & D1 & D2 & D3 & D4). intros v. split.
      + intros [<-|H].
        * destruct (not_all_stored numRows elements W HL) as (j & Hj & Nj). exists j. split; [apply in_seq; lia|].
          apply truncated_Some. apply column_not. exact Nj.
        * destruct (frequencies_In _ _ v Hf H) as (i & Hi). apply D2 in Hi. eauto.
      + intros (i & Hi & Ev'). destruct (D3 _ _ Hi Ev') as [A|[_ ->]]; [right|left; reflexivity].
        apply (frequencies_keys _ _ _ Hf A).
    - symmetry. apply (numDistinct_dense col examples elements m Hf).
      destruct D as (D0 & D1 & D2 & D3 & D4). split; [exact D0|]. split; [exact D1|]. split; [exact D2|].
      split; [|exact D4]. intros i v Hi Hv. destruct (D3 i v Hi Hv) as [|[Hfalse _]]; [auto|discriminate]. }
  rewrite Q.
  destruct (Nat.ltb_spec (length elements) numRows) as [HL|HL].
  - specialize (Hk eq_refl). split.
    + intros H. destruct m as [|]; [|simpl in H; lia]. clear Q.
      assert (Hall: forall i x, In i examples -> col i = Some x -> x = tr sparseValue).
      { intros i x Hi Hx. destruct D as (_ & _ & _ & D3 & _). destruct (D3 _ _ Hi Hx) as [A|[_ A]]; auto.
        destruct (frequencies_keys _ _ _ Hf A). }
      intros i j x y Hi Hj Hx Hy. rewrite (Hall i x), (Hall j y); auto.
    + intros C. destruct m as [|(v, t) r]; simpl; [lia|]. exfalso. apply Hk. simpl. left.
      destruct (frequencies_In _ _ v Hf) as (i & Hi); [simpl; auto|].
      destruct (not_all_stored numRows elements W HL) as (j & Hj & Nj).
      destruct D as (_ & _ & D2 & _ & _). apply D2 in Hi. apply (C i j); try tauto.
      * apply in_seq. lia.
      * apply truncated_Some. apply column_not. exact Nj.
  - symmetry. apply (constant_dense col examples elements); auto.
    destruct D as (D0 & D1 & D2 & D3 & D4). split; [exact D0|]. split; [exact D1|]. split; [exact D2|].
    split; [|exact D4]. intros i v Hi Hv. destruct (D3 i v Hi Hv) as [|[Hfalse _]]; [auto|discriminate].
Qed.
End Theorems.

(** ** Numerical features *)

Definition raw1 (e : element) : list (nat * Z) := match snd e with Some x => [(fst e, x)] | None => [] end.
Definition raw (l : list element) : list (nat * Z) := flat_map raw1 l.

Lemma in_raw elements i x : In (i, x) (raw elements) <-> In (i, Some x) elements.
Proof.
  unfold raw. rewrite in_flat_map. unfold raw1. split.
  - intros ((j, [y|]) & He & H); cbn [fst snd] in H; [destruct H as [[= -> <-]|[]]; auto|destruct H].
  - intros H. exists (i, Some x). simpl. auto.
Qed.

Lemma raw_NoDup elements : NoDup (map fst elements) -> NoDup (map fst (raw elements)).
Proof.
  induction elements as [|(i, [x|]) l IH]; simpl; auto; intros N; inversion N as [|? ? N1 N2]; subst; auto.
  constructor; auto. intros H. apply N1. apply in_map_iff in H.
  destruct H as ((j, v) & E & H). simpl in E. subst j. apply in_raw in H.
  change i with (fst (i, Some v)). apply in_map. exact H.
Qed.

Lemma createNumerical_spec sort elements : exists missing,
  createNumerical sort elements = (sort (raw elements), missing) /\ isSet missing (absent elements).
Proof.
  unfold createNumerical.
  assert (H: forall l v missing pre, isSet missing (absent pre) -> exists missing',
    fold_left (fun '(v, missing) (e : element) =>
      match snd e with
      | None => (v, setMissing missing (fst e))
      | Some x => (v ++ [(fst e, x)], missing)
      end) l (v, missing) = (v ++ raw l, missing') /\ isSet missing' (absent (pre ++ l))).
  { induction l as [|(i, [x|]) l IH]; intros v missing pre M; cbn [fold_left fst snd].
    - exists missing. rewrite !app_nil_r. auto.
    - destruct (IH (v ++ [(i, x)]) missing (pre ++ [(i, Some x)])) as (missing' & E & M').
      + rewrite absent_snoc. simpl. rewrite app_nil_r. exact M.
      + exists missing'. rewrite E, <- app_assoc. split; [reflexivity|]. rewrite <- app_assoc in M'. exact M'.
    - destruct (IH v (setMissing missing i) (pre ++ [(i, None)])) as (missing' & E & M').
      + rewrite absent_snoc. apply setMissing_isSet. exact M.
      + exists missing'. split; [exact E|]. rewrite <- app_assoc in M'. exact M'. }
  destruct (H elements [] [] []) as (missing & E & M); [split; [constructor|reflexivity]|].
  rewrite E. exists missing. auto.
Qed.

Definition describesRaw (col : column) (examples : list nat) (elements : list element) (other : Z -> Prop) : Prop :=
  NoDup examples /\ NoDup (map fst elements) /\
  (forall i x, In (i, x) elements -> In i examples /\ col i = x) /\
  (forall i x, In i examples -> col i = x -> In (i, x) elements \/ exists y, x = Some y /\ other y).

Lemma dense_describesRaw values P : describesRaw (denseColumn values) (seq 0 (length values)) (denseElements values) P.
Proof.
  split; [apply seq_NoDup|]. split; [apply denseElements_NoDup|]. split.
  - intros i x H. apply in_denseElements in H. split.
    + apply in_seq. split; [lia|]. simpl. apply nth_error_Some. congruence.
    + unfold denseColumn. apply nth_error_nth. exact H.
  - intros i x Hi Hx. left. apply in_seq in Hi. apply in_denseElements. apply denseColumn_Some; auto. lia.
Qed.

Lemma sparse_describesRaw numRows sv elements : wellFormed numRows elements ->
  describesRaw (sparseColumn sv elements) (seq 0 numRows) elements
    (fun v => (length elements <? numRows) = true /\ v = sv).
Proof.
  intros W. pose proof W as (N & B). split; [apply seq_NoDup|]. split; [exact N|]. split.
  - intros i x H. split.
    + apply in_seq. specialize (B _ H). simpl in B. lia.
    + apply column_stored; auto.
  - intros i x Hi Hx. apply in_seq in Hi. destruct (stored_cases elements i N) as [(y & Hy & Ey)|[Hy Ey]]; rewrite Ey in Hx.
    + left. subst. exact Hy.
    + right. exists sv. split; auto. split; auto. apply Nat.ltb_lt.
      destruct (Nat.lt_ge_cases (length elements) numRows) as [|HL]; auto. destruct Hy. apply (all_stored numRows elements i W HL). simpl in Hi. lia.
Qed.

Section NumericalTheorems.
Variable isEqual : Z -> Z -> bool.
Variable sort : list (nat * Z) -> list (nat * Z).
Hypothesis Hsort : sortsPairs sort.

Lemma represents_numerical col examples elements other sparseValue sparse missing :
  describesRaw col examples elements other -> (forall v, other v -> sparse = true /\ v = sparseValue) ->
  isSet missing (absent elements) ->
  represents col examples (NumericalVec (sort (raw elements)) sparseValue sparse missing).
Proof.
  intros (D0 & D1 & D2 & D3) Ho (M1 & M2). destruct (Hsort (raw elements)) as (P & S').
  unfold represents. cbn [missingOf]. split; [exact M1|]. split.
  { intros i. rewrite M2, in_absent. split.
    - intros H. apply D2 in H. exact H.
    - intros [Hi H]. destruct (D3 _ _ Hi H) as [|(y & Hy & _)]; [auto|discriminate]. }
  split; [apply NoDup_filter; exact D0|]. split; [|split; [|split; [|split]]].
  - apply (Permutation_NoDup (Permutation_map fst (Permutation_sym P))). apply raw_NoDup. exact D1.
  - intros i Hi. apply in_map_iff in Hi. destruct Hi as ((j, x) & E & H). simpl in E. subst j.
    apply (Permutation_in _ P) in H. apply in_raw in H. apply D2 in H. apply in_valued. eauto.
  - exact S'.
  - intros i z H. apply (Permutation_in _ P) in H. apply in_raw in H. apply D2 in H. unfold valueOf. rewrite (proj2 H).
    reflexivity.
  - intros i Hi Hnot. apply in_valued in Hi. destruct Hi as (x & Hi & Hx). unfold valueOf. rewrite Hx.
    destruct (D3 _ _ Hi Hx) as [H|(y & [= <-] & H)]; [|auto]. destruct Hnot.
    change i with (fst (i, x)). apply in_map. apply (Permutation_in _ (Permutation_sym P)). apply in_raw. exact H.
Qed.

Lemma sorted_ends (l : list (nat * Z)) : StronglySorted Z.le (map snd l) -> 0 < length l ->
  exists i a j b, nth_error l 0 = Some (i, a) /\ nth_error l (length l - 1) = Some (j, b) /\
    forall k z, In (k, z) l -> (a <= z <= b)%Z.
Proof.
  intros S' HL. destruct l as [|(i, a) l]; [simpl in HL; lia|].
  destruct (nth_error ((i, a) :: l) (length ((i, a) :: l) - 1)) as [(j, b)|] eqn:E;
    [|apply nth_error_None in E; simpl in *; lia].
  exists i, a, j, b. split; [reflexivity|]. split; [reflexivity|].
  assert (El: exists l', (i, a) :: l = l' ++ [(j, b)]).
  { destruct (nth_error_split _ _ E) as (l1 & l2 & E1 & E2). exists l1. rewrite E1 in *. f_equal.
    rewrite app_length in E2. simpl in E2. destruct l2; [reflexivity|simpl in E2; lia]. }
  destruct El as (l' & El). intros k z H. split.
  - simpl in H. destruct H as [[= <- <-]|H]; [lia|]. simpl in S'. inversion S' as [|? ? _ F]; subst.
    rewrite Forall_forall in F. apply F. change z with (snd (k, z)). apply in_map. exact H.
  - rewrite El in H, S'. clear -H S'. induction l' as [|(u, w) l' IH]; simpl in *.
    + destruct H as [[= -> ->]|[]]. lia.
    + inversion S' as [|? ? S1 F]; subst. destruct H as [[= -> ->]|H]; [|auto]. rewrite Forall_forall in F. apply F.
      rewrite map_app. apply in_or_app. simpl; auto.
Qed.

Lemma firstAndLastEqual_spec col examples elements : describesRaw col examples elements (fun _ => False) ->
  0 < length (sort (raw elements)) -> exists b, firstAndLastEqual isEqual (sort (raw elements)) = Some b /\
    (b = true <-> indistinct isEqual col examples).
Proof.
  intros (D0 & D1 & D2 & D3) HL. destruct (Hsort (raw elements)) as (P & S').
  destruct (sorted_ends _ S' HL) as (i & a & j & b & E1 & E2 & H). unfold firstAndLastEqual, aget. rewrite E1, E2.
  assert (Hstored: forall k z, In (k, z) (sort (raw elements)) <-> In k examples /\ col k = Some z).
  { intros k z. rewrite (Permutation_in' eq_refl P), in_raw. split; [apply D2|].
    intros [Hk Hz]. destruct (D3 _ _ Hk Hz) as [|(y & _ & [])]; auto. }
  apply nth_error_In in E1. apply nth_error_In in E2. eexists. split; [reflexivity|]. split.
  - intros E i' j' x y Hi' Hj' Hx Hy Hxy.
    assert (x = a).
    { apply Hstored in E1. specialize (Hxy i a (proj1 E1) (proj2 E1)). specialize (H i' x). rewrite Hstored in H.
      specialize (H (conj Hi' Hx)). lia. }
    assert (y = b).
    { apply Hstored in E2. specialize (Hxy j b (proj1 E2) (proj2 E2)). specialize (H j' y). rewrite Hstored in H.
      specialize (H (conj Hj' Hy)). lia. }
    subst. exact E.
  - intros I. apply Hstored in E1. apply Hstored in E2. apply (I i j); try tauto.
    intros k z Hk Hz. apply (H k). apply Hstored. auto.
Qed.

Lemma empty_indistinct col examples elements : describesRaw col examples elements (fun _ => False) ->
  length (sort (raw elements)) = 0 -> indistinct isEqual col examples.
Proof.
  intros (D0 & D1 & D2 & D3) HL i j x y Hi _ Hx. exfalso. destruct (Hsort (raw elements)) as (P & _).
  apply Permutation_length in P. rewrite HL in P. destruct (D3 _ _ Hi Hx) as [H|(? & _ & [])]. apply in_raw in H.
  destruct (raw elements); [destruct H|discriminate].
Qed.

Lemma numerical_dense values :
  let col := denseColumn values in
  let examples := seq 0 (length values) in
  exists vec, createNumericalDense isEqual sort values = Some vec /\ represents col examples vec /\
    (vec = EqualVec <-> indistinct isEqual col examples) /\
    (forall v sparseValue sparse missing, vec = NumericalVec v sparseValue sparse missing -> sparse = false).
Proof.
  intros col examples. unfold createNumericalDense.
  destruct (createNumerical_spec sort (denseElements values)) as (missing & E & M). rewrite E.
  pose proof (dense_describesRaw values (fun _ => False)) as D. fold col examples in D.
  destruct (Nat.ltb_spec 0 (length (sort (raw (denseElements values))))) as [HL|HL].
  - destruct (firstAndLastEqual_spec col examples _ D HL) as (b & Eb & Hb). rewrite Eb. destruct b; cbn [negb].
    + exists EqualVec. split; [reflexivity|]. split; [exact I|]. split; [|discriminate]. rewrite <- Hb. tauto.
    + eexists. split; [reflexivity|]. split; [eapply represents_numerical; eauto; intros ? []|].
      split; [rewrite <- Hb; split; discriminate|]. intros ? ? ? ? [= _ _ <- _]. reflexivity.
  - exists EqualVec. split; [reflexivity|]. split; [exact I|]. split; [|discriminate].
    split; auto. intros _. eapply empty_indistinct; eauto. lia.
Qed.

Lemma numerical_sparse numRows sparseValue elements : isEqual sparseValue sparseValue = true ->
  wellFormed numRows elements ->
  let col := sparseColumn sparseValue elements in
  let examples := seq 0 numRows in
  exists vec, createNumericalSparse isEqual sort numRows sparseValue elements = Some vec /\
    represents col examples vec /\ (vec = EqualVec -> indistinct isEqual col examples).
Proof.
  intros Hr W col examples. unfold createNumericalSparse.
  destruct (createNumerical_spec sort elements) as (missing & E & M). rewrite E.
  pose proof (sparse_describesRaw numRows sparseValue elements W) as D. fold col examples in D.
  pose proof (Hsort (raw elements)) as (P & _). pose proof (Permutation_length P) as HP.
  destruct (Nat.ltb_spec 0 (length (sort (raw elements)))) as [HL|HL].
  - destruct (Nat.ltb_spec (length (sort (raw elements))) numRows) as [Hn|Hn].
    + eexists. split; [reflexivity|]. split; [|discriminate].
      eapply represents_numerical; eauto. intros v [_ ->]. auto.
    + assert (Hraw: length (raw elements) <= length elements).
      { clear. unfold raw. induction elements as [|(i, [x|]) l IH]; simpl; lia. }
      assert (D': describesRaw col examples elements (fun _ => False)).
      { destruct D as (D0 & D1 & D2 & D3). split; [exact D0|]. split; [exact D1|]. split; [exact D2|].
        intros i x Hi Hx. destruct (D3 i x Hi Hx) as [|(y & _ & H & _)]; [auto|]. apply Nat.ltb_lt in H. lia. }
      destruct (firstAndLastEqual_spec col examples _ D' HL) as (b & Eb & Hb). rewrite Eb. destruct b; cbn [negb].
      * exists EqualVec. split; [reflexivity|]. split; [exact I|]. tauto.
      * eexists. split; [reflexivity|]. split; [|discriminate]. eapply represents_numerical; eauto. intros ? [].
  - exists EqualVec. split; [reflexivity|]. split; [exact I|]. intros _ i j x y Hi Hj Hx Hy _.
    assert (Hall: forall i x, In i examples -> col i = Some x -> x = sparseValue).
    { intros k z Hk Hz. destruct D as (_ & _ & _ & D3). destruct (D3 _ _ Hk Hz) as [A|(w & [= <-] & _ & A)]; auto.
      apply in_raw in A. destruct (raw elements); [destruct A|simpl in HP; lia]. }
    rewrite (Hall i x), (Hall j y); auto.
Qed.
End NumericalTheorems.

(** ** Statements of the properties *)

Lemma categorical_dense_vectors :
  forall iterated sortValues ordinal values,
  (forall m, Permutation (iterated m) m) -> sortsValues sortValues -> allFit values ->
  let col := truncated (denseColumn values) in
  let examples := seq 0 (length values) in
  exists vec, createCategoricalDense iterated sortValues ordinal values = Some vec /\
    represents col examples vec /\ (vec = EqualVec <-> constant col examples) /\ kindOf ordinal (numDistinct col examples) vec.
Proof.
  intros iterated sortValues ordinal values Hit Hs HF col examples.
  destruct (categorical_dense iterated sortValues Hit Hs ordinal values HF) as (vec & H1 & H2 & H3 & H4 & _).
  exists vec. auto.
Qed.

Lemma categorical_dense_majority :
  forall iterated sortValues ordinal values k vs bins majority missing v,
  (forall m, Permutation (iterated m) m) -> sortsValues sortValues -> allFit values ->
  createCategoricalDense iterated sortValues ordinal values = Some (NominalVec k vs bins majority missing) ->
  let col := truncated (denseColumn values) in
  let examples := seq 0 (length values) in
  frequency col examples v <= frequency col examples majority.
Proof.
  intros iterated sortValues ordinal values k vs bins majority missing v Hit Hs HF E col examples.
  destruct (categorical_dense iterated sortValues Hit Hs ordinal values HF) as (vec & H1 & _ & _ & _ & H5).
  rewrite E in H1. injection H1 as <-. eapply H5. reflexivity.
Qed.

Lemma categorical_sparse_vectors :
  forall iterated sortValues ordinal numRows sparseValue elements,
  (forall m, Permutation (iterated m) m) -> sortsValues sortValues ->
  wellFormed numRows elements -> allFit (map snd elements) -> fitsInt32 sparseValue ->
  noExplicitSparseValues sparseValue elements \/ length elements = numRows ->
  let col := truncated (sparseColumn sparseValue elements) in
  let examples := seq 0 numRows in
  exists vec, createCategoricalSparse iterated sortValues ordinal numRows sparseValue elements = Some vec /\
    represents col examples vec /\ (vec = EqualVec <-> constant col examples) /\ kindOf ordinal (numDistinct col examples) vec.
Proof.
  intros iterated sortValues ordinal numRows sparseValue elements Hit Hs.
  exact (categorical_sparse iterated sortValues Hit Hs ordinal numRows sparseValue elements).
Qed.

Lemma numerical_dense_vectors :
  forall isEqual sort values, sortsPairs sort ->
  let col := denseColumn values in
  let examples := seq 0 (length values) in
  exists vec, createNumericalDense isEqual sort values = Some vec /\ represents col examples vec /\
    (vec = EqualVec <-> indistinct isEqual col examples) /\
    (forall v sparseValue sparse missing, vec = NumericalVec v sparseValue sparse missing -> sparse = false).
Proof. intros isEqual sort values Hs. exact (numerical_dense isEqual sort Hs values). Qed.

Lemma numerical_sparse_vectors :
  forall isEqual sort numRows sparseValue elements, sortsPairs sort ->
  isEqual sparseValue sparseValue = true -> wellFormed numRows elements ->
  let col := sparseColumn sparseValue elements in
  let examples := seq 0 numRows in
  exists vec, createNumericalSparse isEqual sort numRows sparseValue elements = Some vec /\
    represents col examples vec /\ (vec = EqualVec -> indistinct isEqual col examples).
Proof. intros isEqual sort numRows sparseValue elements Hs. exact (numerical_sparse isEqual sort Hs numRows sparseValue elements). Qed.

Lemma toInt32_0 : toInt32 0 = Some 0%Z. Proof. vm_compute. reflexivity. Qed.
Lemma toInt32_1 : toInt32 unit32 = Some 1%Z. Proof. vm_compute. reflexivity. Qed.

Lemma fits_0 : fitsInt32 0. Proof. vm_compute. split; [discriminate|reflexivity]. Qed.
Lemma fits_1 : fitsInt32 unit32. Proof. vm_compute. split; [discriminate|reflexivity]. Qed.

Lemma explicit_sparse_values_uninitialised :
  exists numRows sparseValue elements,
    wellFormed numRows elements /\ allFit (map snd elements) /\ fitsInt32 sparseValue /\
    forall iterated sortValues ordinal, (forall m, Permutation (iterated m) m) ->
      createCategoricalSparse iterated sortValues ordinal numRows sparseValue elements = None.
Proof.
  exists 3, 0%Z, [(0, Some 0%Z); (1, Some unit32)]. split; [|split; [|split]].
  - split; [repeat constructor; simpl; intuition discriminate|]. intros e [<-|[<-|[]]]; simpl; lia.
  - intros x [[= <-]|[[= <-]|[]]]; [apply fits_0|apply fits_1].
  - apply fits_0.
  - intros iterated sortValues ordinal Hit. unfold createCategoricalSparse.
    replace (createMapping [(0, Some 0%Z); (1, Some unit32)]) with (Some ([(0%Z, (0, 1)); (1%Z, (1, 1))], 2))
      by (vm_compute; reflexivity).
    rewrite toInt32_0. destruct (Permutation_length_2_inv (Permutation_sym (Hit [(0%Z, (0, 1)); (1%Z, (1, 1))]))) as [E|E];
      rewrite E; destruct ordinal; vm_compute; reflexivity.
Qed.

Lemma explicit_sparse_values_wrong :
  exists numRows sparseValue elements,
    wellFormed numRows elements /\ allFit (map snd elements) /\ fitsInt32 sparseValue /\
    constant (truncated (sparseColumn sparseValue elements)) (seq 0 numRows) /\
    forall iterated sortValues ordinal, (forall m, Permutation (iterated m) m) ->
      exists value index, createCategoricalSparse iterated sortValues ordinal numRows sparseValue elements =
        Some (NominalVec Binary [value] [[index]] value []).
Proof.
  exists 2, 0%Z, [(0, Some 0%Z)]. split; [|split; [|split; [|split]]].
  - split; [repeat constructor; simpl; intuition discriminate|]. intros e [<-|[]]; simpl; lia.
  - intros x [[= <-]|[]]. apply fits_0.
  - apply fits_0.
  - intros i j x y [<-|[<-|[]]] [<-|[<-|[]]]; vm_compute; congruence.
  - intros iterated sortValues ordinal Hit. exists 0%Z, 0. unfold createCategoricalSparse.
    replace (createMapping [(0, Some 0%Z)]) with (Some ([(0%Z, (0, 1))], 1)) by (vm_compute; reflexivity).
    rewrite toInt32_0, (Permutation_length_1_inv (Permutation_sym (Hit [(0%Z, (0, 1))]))).
    destruct ordinal; vm_compute; reflexivity.
Qed.

(** Sorting, used by examples. *)
Fixpoint insertZ (x : Z) (l : list Z) : list Z :=
  match l with [] => [x] | y :: l' => if (x <=? y)%Z then x :: l else y :: insertZ x l' end.
Definition sortZ (l : list Z) : list Z := fold_right insertZ [] l.
Fixpoint insertP (x : nat * Z) (l : list (nat * Z)) : list (nat * Z) :=
  match l with [] => [x] | y :: l' => if (snd x <=? snd y)%Z then x :: l else y :: insertP x l' end.
Definition sortP (l : list (nat * Z)) : list (nat * Z) := fold_right insertP [] l.

Lemma insertP_perm x l : Permutation (insertP x l) (x :: l).
Proof.
  induction l as [|y l IH]; simpl; [auto|]. destruct (snd x <=? snd y)%Z; [auto|]. rewrite IH. apply perm_swap.
Qed.

Lemma insertP_sorted x l : StronglySorted Z.le (map snd l) -> StronglySorted Z.le (map snd (insertP x l)).
Proof.
  induction l as [|y l IH]; intros S'; simpl; [repeat constructor|]. simpl in S'. inversion S' as [|? ? S1 F]; subst.
  destruct (Z.leb_spec (snd x) (snd y)) as [H|H]; simpl.
  - constructor; auto. constructor; auto. rewrite Forall_forall in *. intros z Hz. specialize (F z Hz). lia.
  - constructor; auto. apply Forall_forall. intros z Hz.
    apply (Permutation_in (l' := map snd (x :: l))) in Hz; [|apply Permutation_map, insertP_perm]. simpl in Hz.
    destruct Hz as [<-|Hz]; [lia|]. rewrite Forall_forall in F. auto.
Qed.

Lemma sortP_sorts : sortsPairs sortP.
Proof.
  intros l. induction l as [|x l (P & S')]; [split; [constructor|constructor]|]. simpl. split.
  - rewrite insertP_perm. constructor. exact P.
  - apply insertP_sorted. exact S'.
Qed.

Lemma insertZ_P x l : insertZ (snd x) (map snd l) = map snd (insertP x l).
Proof. induction l as [|y l IH]; simpl; auto. destruct (snd x <=? snd y)%Z; simpl; [reflexivity|]. f_equal. exact IH. Qed.

Lemma sortZ_P l : sortZ l = map snd (sortP (map (pair 0) l)).
Proof. induction l as [|x l IH]; simpl; auto. rewrite IH. apply (insertZ_P (0, x)). Qed.

Lemma sortZ_sorts : sortsValues sortZ.
Proof.
  intros l. rewrite sortZ_P. destruct (sortP_sorts (map (pair 0) l)) as (P & S'). split; [|exact S'].
  rewrite P, map_map. cbn [snd]. rewrite map_id. reflexivity.
Qed.
