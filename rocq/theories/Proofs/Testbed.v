(** * Data sets, cross validation and reports of the testbed: proofs *)

From Coq Require Import List Bool Arith ZArith QArith Qround String Lia Lqa Permutation Sorted.
From Verif Require Import Lib.Arr Model.Testbed Spec.Testbed.
Import ListNotations.
Open Scope nat_scope.

(** ** Meta data *)

Definition mdBody (outs : list string) := fun (a : string * atype) (st : list (string * featureType) * bool) =>
    if negb (isIn (fst a) outs) then
      let* t := featureTypeOf (snd a) in Some (fst st ++ [(fst a, t)], snd st)
    else if List.length (fst st) =? 0 then Some (fst st, true)
    else Some st.

Lemma isIn_spec name l : isIn name l = true <-> In name l.
Proof.
  unfold isIn. rewrite existsb_exists. split.
  - intros (y & H & E). apply String.eqb_eq in E. subst. auto.
  - intros H. exists name. split; auto. apply String.eqb_refl.
Qed.

Lemma isIn_false name l : ~ In name l -> isIn name l = false.
Proof. intros H. destruct (isIn name l) eqn:E; auto. apply isIn_spec in E. tauto. Qed.

Lemma md_outs outs l : forall fs b, (forall a, In a l -> In (fst a) outs) ->
  forL l (mdBody outs) (fs, b) = Some (fs, b || (negb (List.length l =? 0) && (List.length fs =? 0))).
Proof.
  induction l as [|a l IH]; intros fs b H; simpl.
  - rewrite orb_false_r. auto.
  - unfold mdBody at 1. rewrite (proj2 (isIn_spec _ _) (H a (or_introl eq_refl))). simpl.
    destruct (List.length fs =? 0) eqn:E; rewrite IH by (intros; apply H; right; auto); rewrite E; destruct b; simpl; auto; destruct (negb (List.length l =? 0)); auto.
Qed.

Lemma md_feats outs l : forall fs b, (forall a, In a l -> ~ In (fst a) outs /\ snd a <> StringAttribute) ->
  exists ts, forL l (mdBody outs) (fs, b) = Some (fs ++ ts, b) /\
    Forall2 (fun a t => fst t = fst a /\ corresponds (snd a) (snd t)) l ts.
Proof.
  induction l as [|a l IH]; intros fs b H; simpl.
  - exists []. rewrite app_nil_r. auto.
  - destruct (H a (or_introl eq_refl)) as [H1 H2]. unfold mdBody at 1. rewrite (isIn_false _ _ H1). simpl.
    destruct a as [n t]. simpl in *.
    assert (exists t', featureTypeOf t = Some t' /\ corresponds t t') as (t' & E & C)
      by (destruct t; simpl; try congruence; eexists; split; eauto; constructor).
    rewrite E. simpl. destruct (IH (fs ++ [(n, t')]) b) as (ts & -> & F); [intros; apply H; right; auto|].
    exists ((n, t') :: ts). rewrite <- app_assoc. split; auto.
Qed.

Lemma map_app_inv {A B} (f : A -> B) l a b : map f l = a ++ b -> exists l1 l2, l = l1 ++ l2 /\ map f l1 = a /\ map f l2 = b.
Proof.
  revert l. induction a as [|x a IH]; intros l E.
  - exists [], l. auto.
  - destruct l as [|y l]; [discriminate|]. simpl in E. injection E as E1 E2. destruct (IH _ E2) as (l1 & l2 & -> & <- & <-).
    exists (y :: l1), l2. subst. auto.
Qed.

Lemma NoDup_app_disj {A} (a b : list A) : NoDup (a ++ b) -> forall x, In x a -> In x b -> False.
Proof.
  induction a as [|y a IH]; simpl; intros H x; [tauto|]. apply NoDup_cons_iff in H as [N H]. intros [->|K1] K2; eauto.
  apply N. apply in_or_app. auto.
Qed.

Lemma Forall2_names l ts : Forall2 (fun (a : string * atype) (t : string * featureType) => fst t = fst a /\ corresponds (snd a) (snd t)) l ts ->
  map fst ts = map fst l.
Proof. induction 1 as [|a t l ts (E & _) _ IH]; simpl; congruence. Qed.

Lemma Forall2_types l ts : Forall2 (fun (a : string * atype) (t : string * featureType) => fst t = fst a /\ corresponds (snd a) (snd t)) l ts ->
  forall n t, In (n, t) ts -> exists t', In (n, t') l /\ corresponds t' t.
Proof.
  induction 1 as [|a b l ts (E & C) _ IH]; simpl; intros n t; [tauto|]. intros [->|H].
  - exists (snd a). simpl in *. subst. split; auto. left. destruct a; auto.
  - destruct (IH _ _ H) as (t' & ? & ?). eauto.
Qed.

(** The flag is only relevant if there are outputs. *)
Lemma meta_correct f feats outs : located f feats outs -> NoDup (names f) -> supportedTypes f outs -> outs <> [] ->
  exists meta, createMetaData (attributes f) outs = Some meta /\ outputs meta = outs /\ map fst (features meta) = feats /\
    (forall n t, In (n, t) (features meta) -> exists t', In (n, t') (attributes f) /\ corresponds t' t) /\
    names f = (if outputsAtStart meta then outs ++ feats else feats ++ outs).
Proof.
  intros L ND S NE. unfold createMetaData. change (fun a st => _) with (mdBody outs).
  assert (K : forall l, (forall a, In a l -> In a (attributes f) /\ ~ In (fst a) outs) ->
    forall a, In a l -> ~ In (fst a) outs /\ snd a <> StringAttribute).
  { intros l H a I. destruct (H a I) as [H1 H2]. split; auto. apply (S (fst a)); auto. destruct a; auto. }
  unfold located, names in *. destruct L as [L|L]; rewrite L in ND; pose proof (NoDup_app_disj _ _ ND) as D;
    destruct (map_app_inv _ _ _ _ L) as (l1 & l2 & E & E1 & E2); rewrite E, forL_app.
  - rewrite (md_outs outs l1) by (intros a H; rewrite <- E1; apply in_map; auto). simpl.
    destruct (md_feats outs l2 [] (negb (List.length l1 =? 0) && true)) as (ts & F & F2).
    { apply K. intros a H. split; [rewrite E; apply in_or_app; auto|]. intros H'. apply (D (fst a)); auto. rewrite <- E2. apply in_map. auto. }
    rewrite F. simpl. eexists. split; [reflexivity|]. simpl. split; auto. split; [rewrite (Forall2_names _ _ F2); auto|].
    split. { intros n t H. destruct (Forall2_types _ _ F2 _ _ H) as (t' & ? & ?). exists t'. split; auto. apply in_or_app. auto. }
    destruct l1; [simpl in E1; congruence|]. simpl. rewrite <- E1, <- E2. rewrite <- map_app. reflexivity.
  - destruct (md_feats outs l1 [] false) as (ts & F & F2).
    { apply K. intros a H. split; [rewrite E; apply in_or_app; auto|]. intros H'. apply (D (fst a)); auto. rewrite <- E1. apply in_map. auto. }
    rewrite F. simpl. rewrite (md_outs outs l2) by (intros a H; rewrite <- E2; apply in_map; auto). simpl.
    eexists. split; [reflexivity|]. simpl. split; auto. split; [rewrite (Forall2_names _ _ F2); auto|].
    split. { intros n t H. destruct (Forall2_types _ _ F2 _ _ H) as (t' & ? & ?). exists t'. split; auto. apply in_or_app. auto. }
    assert (M : map fst (l1 ++ l2) = feats ++ outs) by (rewrite map_app; congruence). rewrite M.
    destruct (negb _ && _) eqn:B; auto. apply andb_true_iff in B as [_ B]. apply Nat.eqb_eq in B.
    destruct ts; [|discriminate]. inversion F2; subst. simpl. rewrite app_nil_r. auto.
Qed.

(** ** Matrices *)

Lemma list_max_in l x : In x l -> (forall y, In y l -> y <= x) -> list_max l = x.
Proof.
  intros I H. apply Nat.le_antisymm; [apply list_max_le, Forall_forall; auto|].
  assert (Forall (fun k => k <= list_max l) l) as F by (apply list_max_le; lia). rewrite Forall_forall in F. auto.
Qed.

Lemma sparseIndices_in l : forall r p, In p (sparseIndices r l) <->
  exists i row, nth_error l i = Some row /\ fst p = r + i /\ In (snd p) (map fst row).
Proof.
  induction l as [|row l IH]; intros r p; simpl.
  - split; [tauto|]. intros (i & row & H & _). destruct i; discriminate.
  - rewrite in_app_iff, IH, in_map_iff. split.
    + intros [(e & <- & H)|(i & row' & H & E & I)].
      * exists 0, row. simpl. repeat split; auto. apply in_map. auto.
      * exists (S i), row'. simpl. repeat split; auto. lia.
    + intros (i & row' & H & E & I). destruct i as [|i].
      * injection H as <-. left. apply in_map_iff in I as (e & E2 & I). exists e. split; auto. destruct p; simpl in *. f_equal; [lia|auto].
      * right. exists i, row'. simpl in H. repeat split; auto. lia.
Qed.

Lemma lookup_in row : NoDup (map fst row) -> forall a v, In (a, v) row -> lookup row a = v.
Proof.
  induction row as [|[c w] row IH]; simpl; intros ND a v; [tauto|]. inversion ND; subst. intros [E|H].
  - injection E as -> ->. rewrite Nat.eqb_refl. auto.
  - destruct (Nat.eqb_spec c a); [|eauto]. subst. destruct H1. apply (in_map fst) in H. auto.
Qed.

Lemma lookup_notin row a : ~ In a (map fst row) -> lookup row a = Some 0%Q.
Proof.
  induction row as [|[c w] row IH]; simpl; intros H; auto. destruct (Nat.eqb_spec c a); [subst; tauto|]. apply IH. tauto.
Qed.

Lemma load_correct f : validRows f -> lastGiven f -> exists m, loadArff f = Some m /\ List.length m = numRowsOf f /\
  Forall (fun r => List.length r = List.length (attributes f)) m /\
  forall e a v, isCell f e a v -> isElement m e a v.
Proof.
  unfold validRows, lastGiven, loadArff, numRowsOf, isCell, isElement. destruct (data f) as [l|l].
  - intros V _. exists l. repeat split; auto.
  - intros V ((l' & r & E & NE) & (r0 & a0 & I0 & A0 & S0)).
    assert (Hr : list_max (map fst (sparseIndices 0 l)) = List.length l').
    { apply list_max_in.
      - destruct r as [|[c w] r]; [congruence|]. apply in_map_iff. exists (List.length l', c). split; auto.
        apply sparseIndices_in. exists (List.length l'), ((c, w) :: r). subst l. rewrite nth_error_app2, Nat.sub_diag by lia.
        simpl. repeat split; auto.
      - intros y Hy. apply in_map_iff in Hy as (p & <- & Hp). apply sparseIndices_in in Hp as (i & row & H & -> & _).
        assert (i < List.length l) by (apply nth_error_Some; congruence). subst l. rewrite app_length in H0. simpl in *. lia. }
    assert (Hc : list_max (map snd (sparseIndices 0 l)) = a0).
    { apply list_max_in.
      - apply In_nth_error in I0 as (i & Hi). apply in_map_iff. exists (i, a0). split; auto. apply sparseIndices_in.
        exists i, r0. auto.
      - intros y Hy. apply in_map_iff in Hy as (p & <- & Hp). apply sparseIndices_in in Hp as (i & row & H & _ & H2).
        apply nth_error_In in H. rewrite Forall_forall in V. destruct (V _ H) as [_ B]. rewrite Forall_forall in B.
        apply in_map_iff in H2 as (q & <- & Hq). specialize (B _ Hq). lia. }
    destruct (sparseIndices 0 l) as [|i0 is] eqn:ES.
    { exfalso. apply In_nth_error in I0 as (i & Hi). assert (In (i, a0) (sparseIndices 0 l)) as K by (apply sparseIndices_in; exists i, r0; auto).
      rewrite ES in K. destruct K. }
    rewrite Hr, Hc. replace (a0 + 1) with (List.length (attributes f)) by lia.
    assert (EL : List.length l' + 1 = List.length l) by (subst l; rewrite app_length; simpl; lia).
    rewrite EL, firstn_all. eexists. split; [reflexivity|]. rewrite map_length. split; auto. split.
    { apply Forall_forall. intros x Hx. apply in_map_iff in Hx as (y & <- & _). rewrite map_length, seq_length. auto. }
    intros e a v (row & H & La & C). exists (map (lookup row) (seq 0 (List.length (attributes f)))).
    split; [rewrite nth_error_map, H; auto|].
    replace v with (lookup row a).
    { apply map_nth_error. rewrite nth_error_nth' with (d := 0) by (rewrite seq_length; auto). rewrite seq_nth; auto. }
    apply nth_error_In in H. rewrite Forall_forall in V. destruct (V _ H) as [ND _]. destruct C as [C|[-> C]].
    + apply lookup_in; auto.
    + apply lookup_notin; auto.
Qed.

Lemma toUint8_int z : (0 <= z < 256)%Z -> toUint8 (Some (inject_Z z)) = Some z.
Proof.
  intros H. unfold toUint8, inject_Z. simpl. rewrite Z.quot_1_r.
  destruct (Z.leb_spec 0 z); destruct (Z.ltb_spec z 256); simpl; auto; lia.
Qed.

Lemma NoDup_pos {A} (l : list A) i j x : NoDup l -> nth_error l i = Some x -> nth_error l j = Some x -> i = j.
Proof. intros ND H1 H2. eapply NoDup_nth_error; eauto; [apply nth_error_Some; congruence|congruence]. Qed.

Lemma slice_neg {A} (l : list A) n m : List.length l = n + m -> 0 < m ->
  sliceTo (- Z.of_nat m) l = firstn n l /\ sliceFrom (- Z.of_nat m) l = skipn n l.
Proof.
  intros E P. unfold sliceTo, sliceFrom, sliceIndex. destruct (Z.ltb_spec (- Z.of_nat m) 0); [|lia]. rewrite E.
  replace (Z.to_nat (Z.of_nat (n + m) + - Z.of_nat m)) with n by lia. auto.
Qed.

Lemma slice_pos {A} (l : list A) n m : List.length l = m + n ->
  sliceTo (Z.of_nat m) l = firstn m l /\ sliceFrom (Z.of_nat m) l = skipn m l.
Proof.
  intros E. unfold sliceTo, sliceFrom, sliceIndex. destruct (Z.ltb_spec (Z.of_nat m) 0); [lia|]. rewrite E, Nat2Z.id, Nat.min_r by lia. auto.
Qed.

Lemma nth_error_firstn' {A} (l : list A) n i : i < n -> nth_error (firstn n l) i = nth_error l i.
Proof.
  revert l i. induction n as [|n IH]; intros l i H; [lia|]. destruct l; simpl; [destruct i; auto|]. destruct i; simpl; auto. apply IH. lia.
Qed.

Lemma nth_error_skipn' {A} (l : list A) n i : nth_error (skipn n l) i = nth_error l (n + i).
Proof. revert l. induction n as [|n IH]; intros l; simpl; auto. destruct l; auto. destruct i; auto. Qed.

Lemma split_columns f feats outs meta m : NoDup (names f) -> outs <> [] -> outputs meta = outs ->
  names f = (if outputsAtStart meta then outs ++ feats else feats ++ outs) ->
  List.length m = numRowsOf f -> Forall (fun r => List.length r = List.length (attributes f)) m ->
  (forall e a v, isCell f e a v -> isElement m e a v) ->
  correctMatrices f feats outs (fst (createFeatureAndOutputMatrix m meta)) (snd (createFeatureAndOutputMatrix m meta)).
Proof.
  intros ND NE EO EN EL FA C.
  assert (PO : 0 < List.length outs) by (destruct outs; [congruence|simpl; lia]).
  assert (LN : List.length (attributes f) = List.length feats + List.length outs).
  { replace (List.length (attributes f)) with (List.length (names f)) by apply map_length. rewrite EN.
    destruct (outputsAtStart meta); rewrite app_length; lia. }
  set (o := if outputsAtStart meta then List.length outs else 0).
  set (fx := fun r : list cell => if outputsAtStart meta then skipn (List.length outs) r else firstn (List.length feats) r).
  set (fy := fun r : list cell => if outputsAtStart meta then firstn (List.length outs) r else skipn (List.length feats) r).
  assert (EX : createFeatureAndOutputMatrix m meta = (map fx m, map (fun r => map toUint8 (fy r)) m)).
  { unfold createFeatureAndOutputMatrix, fx, fy. rewrite EO. rewrite Forall_forall in FA.
    destruct (outputsAtStart meta); f_equal; rewrite ?map_map; apply map_ext_in; intros r Hr; specialize (FA _ Hr); rewrite LN in FA.
    - apply (slice_pos r (List.length feats)). lia.
    - f_equal. apply (slice_pos r (List.length feats)). lia.
    - apply (slice_neg r (List.length feats)); lia.
    - f_equal. apply (slice_neg r (List.length feats)); lia. }
  rewrite EX. simpl. unfold correctMatrices. rewrite !map_length. repeat split; auto.
  - apply Forall_forall. intros r Hr. apply in_map_iff in Hr as (r' & <- & Hr). rewrite Forall_forall in FA. specialize (FA _ Hr).
    unfold fx. destruct (outputsAtStart meta); [rewrite skipn_length|rewrite firstn_length]; lia.
  - apply Forall_forall. intros r Hr. apply in_map_iff in Hr as (r' & <- & Hr). rewrite Forall_forall in FA. specialize (FA _ Hr).
    rewrite map_length. unfold fy. destruct (outputsAtStart meta); [rewrite firstn_length|rewrite skipn_length]; lia.
  - intros e a i name v Ha Hi Hc. destruct (C _ _ _ Hc) as (r & Hr & Hv). exists (fx r). split; [apply map_nth_error; auto|].
    assert (Li : i < List.length feats) by (apply nth_error_Some; congruence).
    unfold fx. destruct (outputsAtStart meta).
    + rewrite nth_error_skipn'. replace (List.length outs + i) with a; auto.
      apply (NoDup_pos (names f) a _ name); auto. rewrite EN, nth_error_app2 by lia. rewrite <- Hi. f_equal. lia.
    + rewrite nth_error_firstn' by auto. replace i with a; auto.
      apply (NoDup_pos (names f) a _ name); auto. rewrite EN, nth_error_app1 by lia. auto.
  - intros e a l name z Ha Hl Hc Hz. destruct (C _ _ _ Hc) as (r & Hr & Hv). exists (map toUint8 (fy r)).
    split; [apply (map_nth_error (fun r => map toUint8 (fy r))); auto|]. rewrite <- (toUint8_int z Hz). apply map_nth_error.
    assert (Ll : l < List.length outs) by (apply nth_error_Some; congruence).
    unfold fy. destruct (outputsAtStart meta).
    + rewrite nth_error_firstn' by auto. replace l with a; auto.
      apply (NoDup_pos (names f) a _ name); auto. rewrite EN, nth_error_app1 by lia. auto.
    + rewrite nth_error_skipn'. replace (List.length feats + l) with a; auto.
      apply (NoDup_pos (names f) a _ name); auto. rewrite EN, nth_error_app2 by lia. rewrite <- Hl. f_equal. lia.
Qed.

Lemma outputs_relation f outs rest : relation f = Some (Z.of_nat (List.length outs)) -> names f = outs ++ rest ->
  parseOutputsFromRelation f = Some outs.
Proof.
  intros R N. unfold parseOutputsFromRelation. rewrite R, Nat2Z.id.
  destruct (forL_inv (fun p (l : list string) => l = firstn (List.length p) outs /\ p = seq 0 (List.length p))
    (fun i l => let* a := aget (attributes f) i in Some (l ++ [fst a])) (seq 0 (List.length outs)) [] []) as (st & E & I & _).
  - auto.
  - intros p i r st E [-> Hp]. simpl in E.
    assert (Hi : i = List.length p /\ i < List.length outs).
    { assert (L : List.length p < List.length outs) by (apply (f_equal (@List.length nat)) in E; rewrite seq_length, app_length in E; simpl in E; lia).
      apply (f_equal (fun l => nth (List.length p) l 0)) in E. rewrite seq_nth in E by lia. rewrite app_nth2, Nat.sub_diag in E by lia. simpl in E. lia. }
    destruct Hi as [Hi Li]. unfold aget.
    assert (exists a, nth_error (attributes f) i = Some a /\ nth_error outs i = Some (fst a)) as (a & Ha & Ho).
    { assert (E2 : nth_error (names f) i = nth_error outs i) by (rewrite N; apply nth_error_app1; lia).
      unfold names in E2. rewrite nth_error_map in E2. destruct (nth_error (attributes f) i) as [a|] eqn:Ea.
      - exists a. simpl in E2. auto.
      - simpl in E2. symmetry in E2. apply nth_error_None in E2. lia. }
    rewrite Ha. eexists. split; [reflexivity|]. rewrite app_length. simpl. split.
    + apply nth_error_ext. intros j. destruct (Nat.lt_ge_cases j (List.length p)).
      * rewrite nth_error_app1 by (rewrite firstn_length; lia). rewrite !nth_error_firstn' by lia. auto.
      * rewrite nth_error_app2 by (rewrite firstn_length; lia). rewrite firstn_length, Nat.min_l by lia.
        destruct (Nat.eq_dec j (List.length p)) as [->|].
        -- rewrite Nat.sub_diag, nth_error_firstn' by lia. simpl. congruence.
        -- transitivity (@None string); [|symmetry]; apply nth_error_None; simpl; rewrite ?firstn_length; lia.
    + rewrite seq_app. simpl. rewrite <- Hp, Hi. auto.
  - simpl in E. rewrite E, I. simpl. rewrite seq_length, firstn_all. auto.
Qed.

Lemma data_set_loaded :
  forall f xml feats outs,
  declares f xml outs -> located f feats outs -> NoDup (names f) -> outs <> [] -> supportedTypes f outs -> validRows f -> lastGiven f ->
  exists x y meta, loadDataSetAndMetaData f xml = Some (x, y, meta) /\ outputs meta = outs /\ map fst (features meta) = feats /\
    (forall n t, In (n, t) (features meta) -> exists t', In (n, t') (attributes f) /\ corresponds t' t) /\
    correctMatrices f feats outs x y /\
    forall f2, names f2 = names f -> validRows f2 -> lastGiven f2 ->
      exists x2 y2, loadDataSet f2 meta = Some (x2, y2) /\ correctMatrices f2 feats outs x2 y2.
Proof.
  intros f xml feats outs D L ND NE S V G.
  destruct (load_correct f V G) as (m & E & L1 & L2 & L3).
  destruct (meta_correct f feats outs L ND S NE) as (meta & EM & EO & EF & ET & EN).
  pose proof (split_columns f feats outs meta m ND NE EO EN L1 L2 L3) as C.
  destruct (createFeatureAndOutputMatrix m meta) as [x y] eqn:EC.
  exists x, y, meta. split; [|repeat split; auto; try apply C].
  - unfold loadDataSetAndMetaData. rewrite E.
    assert (match xml with Some outs => Some outs | None => parseOutputsFromRelation f end = Some outs) as ->.
    { destruct xml; simpl in D; [congruence|]. destruct D as [D1 [rest D2]]. eapply outputs_relation; eauto. }
    rewrite EM, EC. auto.
  - intros f2 EN2 V2 G2. destruct (load_correct f2 V2 G2) as (m2 & E2 & K1 & K2 & K3).
    exists (fst (createFeatureAndOutputMatrix m2 meta)), (snd (createFeatureAndOutputMatrix m2 meta)). split.
    + unfold loadDataSet. rewrite E2. destruct (createFeatureAndOutputMatrix m2 meta); auto.
    + apply split_columns; auto; congruence.
Qed.

(** ** Cross validation *)

Lemma forL_collect {A B} (g : A -> option B) (l : list A) : forall acc,
  forL l (fun a acc => let* b := g a in Some (acc ++ [b])) acc
  = (let* r := forL l (fun a acc => let* b := g a in Some (acc ++ [b])) [] in Some (acc ++ r)).
Proof.
  induction l as [|a l IH]; intros acc; simpl; [rewrite app_nil_r; auto|]. destruct (g a); simpl; auto.
  rewrite (IH (acc ++ [b])), (IH [b]). destruct (forL l _ []); auto. rewrite <- app_assoc. auto.
Qed.

Lemma forL_collect_map {A B} (g : A -> option B) (h : A -> B) (l : list A) acc : (forall a, In a l -> g a = Some (h a)) ->
  forL l (fun a acc => let* b := g a in Some (acc ++ [b])) acc = Some (acc ++ map h l).
Proof.
  revert acc. induction l as [|a l IH]; intros acc H; simpl; [rewrite app_nil_r; auto|]. rewrite H by (left; auto).
  rewrite IH by (intros; apply H; right; auto). rewrite <- app_assoc. auto.
Qed.

Section CV.
  Context {E : Type} (d : list (list E)).
  Let k := List.length d.
  Let trainOf (fold : nat) : list E := flat_map (fun o => if negb (o =? fold) then nth o d [] else []) (seq 0 k).
  Let theRun (last : nat -> bool) (fold : nat) : run E := Run fold (trainOf fold) (nth fold d []) (last fold).

  Lemma train_forL fold l acc : (forall o, In o l -> o < k) ->
    forL l (fun other train => if negb (other =? fold) then let* l := aget d other in Some (train ++ l) else Some train) acc
    = Some (acc ++ flat_map (fun o => if negb (o =? fold) then nth o d [] else []) l).
  Proof.
    revert acc. induction l as [|o l IH]; intros acc H; simpl; [rewrite app_nil_r; auto|]. destruct (negb (o =? fold)).
    - unfold aget at 1. rewrite (nth_error_nth' d []) by (apply H; left; auto). rewrite IH by (intros; apply H; right; auto).
      rewrite <- app_assoc. auto.
    - apply IH. intros. apply H. right. auto.
  Qed.

  Lemma runs_forL (cf : Z) l : (forall o, In o l -> o < k) ->
    forL l (fun fold runs =>
      let* train := forL (seq 0 k) (fun other train =>
        if negb (other =? fold) then let* l := aget d other in Some (train ++ l) else Some train) [] in
      let* test := aget d fold in
      Some (runs ++ [Run fold train test (isLastFold k fold cf)])) []
    = Some (map (theRun (fun fold => isLastFold k fold cf)) l).
  Proof.
    intros H. cut (forall acc, forL l (fun fold runs =>
      let* train := forL (seq 0 k) (fun other train =>
        if negb (other =? fold) then let* l := aget d other in Some (train ++ l) else Some train) [] in
      let* test := aget d fold in
      Some (runs ++ [Run fold train test (isLastFold k fold cf)])) acc
      = Some (acc ++ map (theRun (fun fold => isLastFold k fold cf)) l)); [intros C; apply C|].
    induction l as [|o l IH]; intros acc; simpl; [rewrite app_nil_r; auto|].
    rewrite train_forL by (intros x Hx; apply in_seq in Hx; lia). unfold aget at 1.
    rewrite (nth_error_nth' d []) by (apply H; left; auto). simpl. rewrite IH by (intros; apply H; right; auto).
    rewrite <- app_assoc. auto.
  Qed.

  Lemma flat_nth l : flat_map (fun o => nth o l []) (seq 0 (List.length l)) = @List.concat E l.
  Proof.
    induction l as [|a l IH]; auto. simpl. f_equal. rewrite <- seq_shift, flat_map_concat_map, map_map, <- flat_map_concat_map. auto.
  Qed.

  Lemma others_perm fold l : In fold l -> NoDup l ->
    Permutation (flat_map (fun o => if negb (o =? fold) then nth o d [] else []) l ++ nth fold d []) (flat_map (fun o => nth o d []) l).
  Proof.
    induction l as [|o l IH]; simpl; intros I ND; [tauto|]. apply NoDup_cons_iff in ND as [N ND].
    destruct (Nat.eqb_spec o fold) as [->|NE]; simpl.
    - rewrite Permutation_app_comm. apply Permutation_app_head.
      assert (forall a, In a l -> a <> fold) as H by (intros a Ha ->; auto). clear - H.
      induction l as [|a l IH]; simpl; auto. destruct (Nat.eqb_spec a fold); [destruct (H a); simpl; auto|]. simpl.
      apply Permutation_app_head. apply IH. intros. apply H. right. auto.
    - rewrite <- app_assoc. apply Permutation_app_head. apply IH; auto. destruct I; [congruence|auto].
  Qed.

  Lemma predefined_runs :
    exists runs, predefinedCrossValidation d (-1)%Z = Some runs /\ List.length runs = List.length d /\
    Permutation (List.concat (map rtest runs)) (List.concat d) /\
    forall fold r, nth_error runs fold = Some r ->
      rfold r = fold /\ nth_error d fold = Some (rtest r) /\ Permutation (rtrain r ++ rtest r) (List.concat d) /\
      (rlast r = true <-> fold + 1 = List.length d) /\
      predefinedCrossValidation d (Z.of_nat fold) = Some [Run fold (rtrain r) (rtest r) false].
  Proof.
    exists (map (theRun (fun fold => isLastFold k fold (-1)%Z)) (seq 0 k)). split.
    { unfold predefinedCrossValidation. simpl. rewrite Nat.sub_0_r. apply runs_forL. intros o H. apply in_seq in H. lia. }
    split; [rewrite map_length, seq_length; auto|]. split.
    { rewrite map_map. simpl. rewrite <- flat_map_concat_map. unfold k. rewrite flat_nth. auto. }
    intros fold r H. rewrite nth_error_map in H.
    assert (L : fold < k) by (apply Nat.nle_gt; intros L; rewrite (proj2 (nth_error_None (seq 0 k) fold)) in H by (rewrite seq_length; auto); discriminate).
    rewrite (nth_error_nth' _ 0) in H by (rewrite seq_length; auto). rewrite seq_nth in H by auto. simpl in H. injection H as <-. simpl.
    split; auto. split; [apply nth_error_nth'; auto|]. split.
    { unfold trainOf. rewrite others_perm by (try apply seq_NoDup; apply in_seq; lia). unfold k. rewrite flat_nth. auto. }
    split.
    { unfold isLastFold. simpl. rewrite Nat.eqb_eq. unfold k in *. lia. }
    unfold predefinedCrossValidation. destruct (Z.ltb_spec (Z.of_nat fold) 0); [lia|]. rewrite Nat2Z.id.
    replace (fold + 1 - fold) with 1 by lia. fold k. rewrite runs_forL by (intros o [<-|[]]; auto). simpl. unfold theRun.
    unfold isLastFold. destruct (Z.ltb_spec (Z.of_nat fold) 0); [lia|]. auto.
  Qed.
End CV.

Section KFOLD.
  Context {E : Type} (ex : list E).
  Let n := List.length ex.
  Let one (i : nat) : list E := match nth_error ex i with Some e => [e] | None => [] end.

  Lemma pick_forL l acc : (forall i, In i l -> i < n) ->
    forL l (fun i l => let* e := aget ex i in Some (l ++ [e])) acc = Some (acc ++ flat_map one l).
  Proof.
    revert acc. induction l as [|i l IH]; intros acc H; simpl; [rewrite app_nil_r; auto|]. unfold aget at 1, one at 1.
    destruct (nth_error ex i) eqn:Ei.
    - rewrite IH by (intros; apply H; right; auto). rewrite <- app_assoc. auto.
    - apply nth_error_None in Ei. specialize (H i (or_introl eq_refl)). unfold n in H. lia.
  Qed.

  Lemma flat_one : flat_map one (seq 0 n) = ex.
  Proof.
    unfold one, n. clear. induction ex as [|a l IH]; auto. simpl. f_equal.
    rewrite <- seq_shift, flat_map_concat_map, map_map, <- flat_map_concat_map. auto.
  Qed.

  Lemma flat_length l : (forall i, In i l -> i < n) -> List.length (flat_map one l) = List.length l.
  Proof.
    induction l as [|i l IH]; intros H; simpl; auto. rewrite app_length, IH by (intros; apply H; right; auto).
    unfold one. destruct (nth_error ex i) eqn:Ei; auto. apply nth_error_None in Ei. specialize (H i (or_introl eq_refl)). unfold n in H. lia.
  Qed.
End KFOLD.

Lemma skipn_skipn' {A} (l : list A) a b : skipn a (skipn b l) = skipn (b + a) l.
Proof. revert l. induction b as [|b IH]; intros l; simpl; auto. destruct l; auto. rewrite skipn_nil. auto. Qed.

Lemma testSets_length n k rem : forall fold perm, List.length (testSets n k fold rem perm) = rem.
Proof. induction rem; intros; simpl; auto. Qed.

Lemma testSets_concat n k rem : forall fold perm, List.concat (testSets n k fold rem perm) = firstn (list_sum (map (foldSize n k) (seq fold rem))) perm.
Proof.
  induction rem as [|rem IH]; intros fold perm; simpl; auto. rewrite IH.
  generalize (foldSize n k fold) (list_sum (map (foldSize n k) (seq (S fold) rem))). intros a b. clear.
  revert perm. induction a as [|a IH]; intros perm; simpl; auto. destruct perm; simpl; [rewrite firstn_nil; auto|]. f_equal. auto.
Qed.

Lemma testSets_size n k rem : forall fold perm i t, list_sum (map (foldSize n k) (seq fold rem)) <= List.length perm ->
  nth_error (testSets n k fold rem perm) i = Some t -> List.length t = foldSize n k (fold + i).
Proof.
  induction rem as [|rem IH]; intros fold perm i t L H; simpl in *; [destruct i; discriminate|]. destruct i as [|i].
  - injection H as <-. rewrite firstn_length, Nat.add_0_r. lia.
  - apply IH in H; [rewrite H; f_equal; lia|]. rewrite skipn_length. lia.
Qed.

Lemma sizes_sum n k : forall j, j <= k -> list_sum (map (foldSize n k) (seq 0 j)) = j * (n / k) + Nat.min j (n mod k).
Proof.
  induction j as [|j IH]; intros H; auto. rewrite seq_S, map_app, list_sum_app, IH by lia.
  cbn [map list_sum fold_right plus]. rewrite Nat.add_0_r. unfold foldSize. generalize (n / k) (n mod k). intros q r.
  destruct (Nat.ltb_spec j r); nia.
Qed.

Lemma sizes_total n k : 0 < k -> list_sum (map (foldSize n k) (seq 0 k)) = n.
Proof.
  intros H. rewrite sizes_sum by lia. pose proof (Nat.mod_upper_bound n k). pose proof (Nat.div_mod n k). rewrite Nat.min_r by lia.
  symmetry. apply Nat.div_mod. lia.
Qed.

Lemma filter_perm (t : list nat) n : NoDup t -> (forall i, In i t -> i < n) ->
  Permutation (filter (fun i => existsb (Nat.eqb i) t) (seq 0 n)) t.
Proof.
  intros ND H. apply NoDup_Permutation; auto; [apply NoDup_filter, seq_NoDup|]. intros i. rewrite filter_In, in_seq, existsb_exists. split.
  - intros (_ & j & Hj & E). apply Nat.eqb_eq in E. subst. auto.
  - intros Hi. split; [specialize (H _ Hi); lia|]. exists i. split; auto. apply Nat.eqb_refl.
Qed.

Lemma filter_negb_perm {A} (f : A -> bool) l : Permutation (filter (fun a => negb (f a)) l ++ filter f l) l.
Proof.
  induction l as [|a l IH]; simpl; auto. destruct (f a); simpl.
  - rewrite <- Permutation_middle. auto.
  - auto.
Qed.

Section KFOLD2.
  Context {E : Type} (ex : list E) (k : nat) (perm : list nat).
  Let n := List.length ex.
  Let sets := testSets n k 0 k perm.
  Let one (i : nat) : list E := match nth_error ex i with Some e => [e] | None => [] end.
  Let theRun (last : nat -> bool) (ft : nat * list nat) : run E :=
    let inTest i := existsb (Nat.eqb i) (snd ft) in
    Run (fst ft) (flat_map one (filter (fun i => negb (inTest i)) (seq 0 n))) (flat_map one (filter inTest (seq 0 n))) (last (fst ft)).

  Lemma kfold_forL (cf : Z) : k <= n ->
    crossValidation ex k perm cf
    = Some (map (theRun (fun fold => isLastFold k fold cf))
        (filter (fun ft => (cf <? 0)%Z || (Z.of_nat (fst ft) =? cf)%Z) (combine (seq 0 k) sets))).
  Proof.
    intros K. unfold crossValidation. fold n. destruct (Nat.ltb_spec n k); [lia|]. fold sets. cbv zeta.
    generalize (combine (seq 0 k) sets). intros l.
    match goal with |- forL l ?b _ = _ => cut (forall acc, forL l b acc = Some (acc ++ map (theRun (fun fold => isLastFold k fold cf))
        (filter (fun ft => (cf <? 0)%Z || (Z.of_nat (fst ft) =? cf)%Z) l))) end; [intros C; apply C|].
    induction l as [|[f t] l IH]; intros acc; simpl; [rewrite app_nil_r; auto|].
    destruct ((cf <? 0)%Z || (Z.of_nat f =? cf)%Z); [|apply IH].
    rewrite !(pick_forL ex) by (intros i Hi; apply filter_In in Hi as [Hi _]; apply in_seq in Hi; fold n; lia).
    simpl. rewrite IH. rewrite <- app_assoc. auto.
  Qed.

  Lemma kfold_runs : 0 < k <= List.length ex -> Permutation perm (seq 0 (List.length ex)) ->
    exists runs, crossValidation ex k perm (-1)%Z = Some runs /\ List.length runs = k /\
    Permutation (List.concat (map rtest runs)) ex /\
    forall fold r, nth_error runs fold = Some r ->
      rfold r = fold /\ Permutation (rtrain r ++ rtest r) ex /\
      List.length ex / k <= List.length (rtest r) <= List.length ex / k + 1 /\
      (rlast r = true <-> fold + 1 = k) /\
      crossValidation ex k perm (Z.of_nat fold) = Some [Run fold (rtrain r) (rtest r) false].
  Proof.
    fold n. intros [K1 K2] P.
    assert (LP : List.length perm = n) by (rewrite (Permutation_length P), seq_length; auto).
    assert (EC : List.concat sets = perm) by (unfold sets; rewrite testSets_concat, sizes_total, <- LP by auto; apply firstn_all).
    assert (LS : List.length sets = k) by apply testSets_length.
    assert (ND : NoDup (List.concat sets)) by (rewrite EC; apply (Permutation_NoDup (Permutation_sym P)), seq_NoDup).
    assert (RG : forall i, In i (List.concat sets) -> i < n) by (rewrite EC; intros i Hi; apply (Permutation_in _ P), in_seq in Hi; lia).
    assert (T : forall t, In t sets -> NoDup t /\ (forall i, In i t -> i < n)).
    { clear - ND RG. induction sets as [|t0 s IH]; simpl in *; [tauto|]. intros t [->|H].
      - split; [|intros; apply RG, in_or_app; auto]. clear - ND. induction t as [|a t IH]; [constructor|]. simpl in ND.
        apply NoDup_cons_iff in ND as [N ND]. constructor; auto. intros H. apply N, in_or_app. auto.
      - apply IH; auto; [|intros; apply RG, in_or_app; auto]. clear - ND. induction t0 as [|a t0 IH]; auto. simpl in ND.
        apply NoDup_cons_iff in ND as [_ ND]. auto. }
    assert (FL : forall (P : nat * list nat -> bool) l, (forall x, In x l -> P x = true) -> filter P l = l).
    { intros Q l. induction l as [|x l IH]; intros H; simpl; auto. rewrite H by (left; auto). f_equal. apply IH. intros. apply H. right. auto. }
    exists (map (theRun (fun fold => isLastFold k fold (-1)%Z)) (combine (seq 0 k) sets)). split.
    { rewrite kfold_forL by auto. rewrite FL by auto. auto. }
    split; [rewrite map_length, combine_length, seq_length, LS; lia|]. split.
    { rewrite map_map. simpl. rewrite <- (flat_one ex). fold n. fold one. rewrite <- P, <- EC.
      assert (L2 : List.length (seq 0 k) = List.length sets) by (rewrite seq_length; auto).
      revert T L2. generalize (seq 0 k). clear. induction sets as [|t s IH]; intros [|i l] T L2; simpl in *; try discriminate; auto.
      rewrite flat_map_app. apply Permutation_app; [|apply IH; auto]. apply Permutation_flat_map. apply filter_perm; apply T; auto. }
    intros fold r H. rewrite nth_error_map in H.
    destruct (nth_error (combine (seq 0 k) sets) fold) as [[f t]|] eqn:EF; [|discriminate]. simpl in H. injection H as <-.
    assert (L : fold < k).
    { assert (fold < List.length (combine (seq 0 k) sets)) by (apply nth_error_Some; congruence).
      rewrite combine_length, seq_length in H. lia. }
    assert (EF2 : f = fold /\ nth_error sets fold = Some t).
    { apply nth_error_nth with (d := (0, [])) in EF as EF3. rewrite combine_nth in EF3 by (rewrite seq_length; auto).
      rewrite seq_nth in EF3 by auto. injection EF3 as E1 E2. split; [lia|]. rewrite <- E2. apply nth_error_nth'. lia. }
    destruct EF2 as [-> Et]. destruct (T t (nth_error_In _ _ Et)) as [T1 T2]. simpl. split; auto. split.
    { rewrite <- flat_map_app. rewrite <- (flat_one ex). fold n. fold one. apply Permutation_flat_map, filter_negb_perm. }
    split.
    { unfold one. rewrite flat_length by (intros i Hi; apply filter_In in Hi as [Hi _]; apply in_seq in Hi; fold n; lia).
      rewrite (Permutation_length (filter_perm t n T1 T2)).
      assert (S := testSets_size n k k 0 perm fold t). rewrite sizes_total, LP in S by auto. rewrite (S (le_n _) Et). unfold foldSize.
      destruct (_ <? _); lia. }
    split. { unfold isLastFold. simpl. rewrite Nat.eqb_eq. lia. }
    rewrite kfold_forL by auto.
    assert (FE : filter (fun ft : nat * list nat => (Z.of_nat fold <? 0)%Z || (Z.of_nat (fst ft) =? Z.of_nat fold)%Z) (combine (seq 0 k) sets) = [(fold, t)]).
    { destruct (Z.ltb_spec (Z.of_nat fold) 0); [lia|]. simpl. rewrite <- (Nat.add_0_l fold) in EF at 2 |- * . clear - Et LS.
      revert fold Et LS. generalize 0 as o. generalize k. induction sets as [|t0 s IH]; intros k0 o [|fold] Et L; simpl in *; try discriminate.
      - injection Et as ->. subst k0. simpl. rewrite Nat.add_0_r, Z.eqb_refl. f_equal.
        assert (forall s b, o < b -> filter (fun ft : nat * list nat => (Z.of_nat (fst ft) =? Z.of_nat o)%Z) (combine (seq b (List.length s)) s) = []) as K.
        { clear. induction s as [|t s IH]; intros b H; simpl; auto. destruct (Z.eqb_spec (Z.of_nat b) (Z.of_nat o)); [lia|]. apply IH. lia. }
        apply K. lia.
      - subst k0. simpl. destruct (Z.eqb_spec (Z.of_nat o) (Z.of_nat (o + S fold))); [lia|]. replace (o + S fold) with (S o + fold) by lia.
        apply IH; auto. }
    rewrite FE. simpl. unfold theRun. simpl. unfold isLastFold. destruct (Z.ltb_spec (Z.of_nat fold) 0); [lia|]. auto.
  Qed.
End KFOLD2.

Lemma predefined_folds :
  forall {E : Type} (d : list (list E)),
  exists runs, predefinedCrossValidation d (-1)%Z = Some runs /\ List.length runs = List.length d /\
  Permutation (List.concat (map rtest runs)) (List.concat d) /\
  forall fold r, nth_error runs fold = Some r ->
    rfold r = fold /\ nth_error d fold = Some (rtest r) /\ Permutation (rtrain r ++ rtest r) (List.concat d) /\
    (rlast r = true <-> fold + 1 = List.length d) /\
    predefinedCrossValidation d (Z.of_nat fold) = Some [Run fold (rtrain r) (rtest r) false].
Proof. intros E d. apply predefined_runs. Qed.

Lemma random_folds :
  forall {E : Type} (examples : list E) numFolds perm,
  0 < numFolds <= List.length examples -> Permutation perm (seq 0 (List.length examples)) ->
  exists runs, crossValidation examples numFolds perm (-1)%Z = Some runs /\ List.length runs = numFolds /\
  Permutation (List.concat (map rtest runs)) examples /\
  forall fold r, nth_error runs fold = Some r ->
    rfold r = fold /\ Permutation (rtrain r ++ rtest r) examples /\
    List.length examples / numFolds <= List.length (rtest r) <= List.length examples / numFolds + 1 /\
    (rlast r = true <-> fold + 1 = numFolds) /\
    crossValidation examples numFolds perm (Z.of_nat fold) = Some [Run fold (rtrain r) (rtest r) false].
Proof. intros E examples numFolds perm. apply kfold_runs. Qed.

(** ** Results of evaluations *)

Section RESULTS.
  Context {S : Type}.
  Implicit Types l : list (nat * S).

  Definition lastOf l (o : option S) : option S := fold_left (fun _ p => Some (snd p)) l o.

  Lemma lastOf_nonempty l o : l <> [] -> exists p, In p l /\ lastOf l o = Some (snd p) /\ last (map (fun p => Some (snd p)) l) None = Some (snd p).
  Proof.
    revert o. induction l as [|p l IH]; intros o H; [congruence|]. destruct l as [|q l].
    - exists p. simpl. auto.
    - destruct (IH (Some (snd p))) as (r & I & E1 & E2); [discriminate|]. exists r. split; [right; auto|]. split; auto.
  Qed.

  (** The state after evaluating a fold: the score of the fold is the last one. *)
  Lemma evaluateFold_spec (k fold : nat) isLast l : fold < k -> forall (res : option (list (option S))) out,
    (match res with None => True | Some r => List.length r = k end) ->
    exists res' news, evaluateFold k fold isLast l (res, out) = Some (res', out ++ news) /\
      (l = [] -> res' = res) /\
      (let r0 := match res with None => repeat None k | Some r => r end in
       l <> [] -> res' = Some (upd r0 fold (lastOf l None)) /\
       foldResults news = map (fun p => (fold, fst p, snd p)) l /\
       averages news = if isLast then map (fun p => (fst p, available (upd r0 fold (Some (snd p))))) l else []).
  Proof.
    intros K. unfold evaluateFold. induction l as [|[size score] l IH]; intros res out H.
    - exists res, []. rewrite app_nil_r. simpl. repeat split; auto; congruence.
    - simpl. set (r0 := match res with None => repeat None k | Some r => r end).
      assert (L0 : List.length r0 = k) by (unfold r0; destruct res; auto; apply repeat_length).
      unfold put. fold r0. rewrite aset_Some by lia. simpl.
      set (new := FoldResult fold size score :: if isLast then [Average size (available (upd r0 fold (Some score)))] else []).
      assert (EO : (if isLast then (out ++ [FoldResult fold size score]) ++ [Average size (available (upd r0 fold (Some score)))]
        else out ++ [FoldResult fold size score]) = out ++ new) by (unfold new; destruct isLast; rewrite <- ?app_assoc; auto).
      rewrite EO.
      destruct (IH (Some (upd r0 fold (Some score))) (out ++ new)) as (res' & news & E & N1 & N2); [rewrite upd_length; auto|].
      exists res', (new ++ news). rewrite app_assoc. split; auto. split; [discriminate|]. intros _.
      assert (FN : foldResults (new ++ news) = (fold, size, score) :: foldResults news /\
        averages (new ++ news) = (if isLast then [(size, available (upd r0 fold (Some score)))] else []) ++ averages news)
        by (unfold new; destruct isLast; auto).
      destruct FN as [-> ->]. destruct l as [|q l].
      + rewrite (N1 eq_refl). simpl in E. injection E as _ E. apply (f_equal (@List.length _)) in E as E'.
        rewrite !app_length in E'. assert (news = []) as -> by (destruct news; auto; simpl in E'; lia).
        simpl. split; auto. split; auto. rewrite app_nil_r. destruct isLast; auto.
      + destruct N2 as (R1 & R2 & R3); [discriminate|]. simpl in R1, R2, R3. rewrite R1, R2, R3. rewrite upd_upd. split; auto. split; auto.
        destruct isLast; auto. simpl. f_equal. rewrite upd_upd. f_equal. apply map_ext. intros. rewrite upd_upd. auto.
  Qed.
End RESULTS.

Lemma available_app {S} (a b : list (option S)) : available (a ++ b) = available a ++ available b.
Proof. unfold available. apply flat_map_app. Qed.

Lemma available_none {S} n : available (repeat (@None S) n) = [].
Proof. induction n; simpl; auto. Qed.

Lemma upd_front {A} (a : list A) x b v : upd (a ++ x :: b) (List.length a) v = a ++ v :: b.
Proof. induction a; simpl; congruence. Qed.

(** The folds before the last one. *)
Lemma folds_spec {T} (k : nat) (scores : list (list (nat * T))) : Forall (fun l => l <> []) scores ->
  forall f done out, f + List.length scores < k -> List.length done = f ->
  exists res news,
    forL (combine (seq f (List.length scores)) scores) (fun fs st =>
      let (fold, l) := fs : nat * list (nat * T) in evaluateFold k fold (isLastFold k fold (-1)%Z) l st)
      (match f with 0 => None | _ => Some (done ++ repeat None (k - f)) end, out)
    = Some (res, out ++ news) /\
    (match res with None => repeat None k | Some r => r end)
      = done ++ map (fun l => lastOf l None) scores ++ repeat None (k - f - List.length scores) /\
    (match res with None => True | Some r => List.length r = k end) /\
    averages news = [] /\ foldResults news = flat_map (fun fl => map (fun p => (fst fl, fst p, snd p)) (snd fl)) (combine (seq f (List.length scores)) scores).
Proof.
  induction 1 as [|l scores NE F IH]; intros f done out K L.
  - exists (match f with 0 => None | _ => Some (done ++ repeat None (k - f)) end), []. simpl. rewrite app_nil_r. split; auto.
    rewrite Nat.sub_0_r. destruct f; simpl; auto.
    + destruct done; [|discriminate]. rewrite Nat.sub_0_r. auto.
    + split; auto. split; auto. rewrite app_length, repeat_length. simpl in *. lia.
  - cbn [List.length seq combine forL]. simpl in K.
    set (res0 := match f with 0 => None | _ => Some (done ++ repeat None (k - f)) end).
    assert (R0 : match res0 with None => repeat None k | Some r => r end = done ++ repeat None (k - f)).
    { unfold res0. destruct f; auto. destruct done; [|discriminate]. rewrite Nat.sub_0_r. auto. }
    destruct (evaluateFold_spec k f (isLastFold k f (-1)%Z) l ltac:(lia) res0 out) as (res1 & news1 & E1 & _ & N1).
    { unfold res0. destruct f; auto. rewrite app_length, repeat_length. lia. }
    rewrite E1. cbv zeta in N1. rewrite R0 in N1. destruct (N1 NE) as (-> & F1 & A1).
    assert (LF : isLastFold k f (-1)%Z = false) by (unfold isLastFold; simpl; apply Nat.eqb_neq; lia).
    rewrite LF in A1.
    assert (U : upd (done ++ repeat None (k - f)) f (lastOf l None) = (done ++ [lastOf l None]) ++ repeat None (k - S f)).
    { replace (k - f) with (S (k - S f)) by lia. cbn [repeat]. rewrite <- L at 2. rewrite upd_front, <- app_assoc. auto. }
    rewrite U. destruct (IH (S f) (done ++ [lastOf l None]) (out ++ news1)) as (res & news & E & E2 & E3 & E4 & E5).
    { lia. } { rewrite app_length. simpl. lia. }
    rewrite E. exists res, (news1 ++ news). rewrite app_assoc. split; auto. split.
    { rewrite E2, <- app_assoc. cbn [map app]. do 4 f_equal. lia. }
    split; auto. unfold averages, foldResults in *. rewrite !flat_map_app. rewrite A1, E4, F1, E5. auto.
Qed.

Lemma available_some {S} (scores : list (list (nat * S))) finals : Forall2 (fun l s => exists size l', l = l' ++ [(size, s)]) scores finals ->
  available (map (fun l => lastOf l None) scores) = finals.
Proof.
  induction 1 as [|l s scores finals (size & l' & ->) _ IH]; auto. cbn [map].
  unfold lastOf at 1. rewrite fold_left_app. simpl. rewrite IH. auto.
Qed.

Lemma averages_characterised :
  forall {S : Type} (earlier : list (list (nat * S))) finals lastScores,
  Forall2 (fun l s => exists size l', l = l' ++ [(size, s)]) earlier finals -> lastScores <> [] ->
  exists out, evaluateFolds (earlier ++ [lastScores]) = Some out /\
  averages out = map (fun p => (fst p, finals ++ [snd p])) lastScores /\
  foldResults out = flat_map (fun fl => map (fun p => (fst fl, fst p, snd p)) (snd fl))
    (combine (seq 0 (List.length earlier + 1)) (earlier ++ [lastScores])).
Proof.
  intros S earlier finals lastScores F NE. set (k := List.length earlier + 1).
  assert (FN : Forall (fun l => l <> []) earlier).
  { clear - F. induction F as [|l s e f (size & l' & ->) _ IH]; constructor; auto. destruct l'; discriminate. }
  unfold evaluateFolds. rewrite app_length. cbn [List.length]. fold k.
  assert (EC : combine (seq 0 k) (earlier ++ [lastScores]) = combine (seq 0 (List.length earlier)) earlier ++ [(List.length earlier, lastScores)]).
  { unfold k. rewrite seq_app. simpl.
    assert (G : forall {A B} (a : list A) (b : list B) x y, List.length a = List.length b -> combine (a ++ [x]) (b ++ [y]) = combine a b ++ [(x, y)])
      by (clear; intros A B a; induction a; intros [|z b] x y H; simpl in *; try discriminate; auto; f_equal; auto).
    apply G. apply seq_length. }
  rewrite EC, forL_app.
  destruct (folds_spec k earlier FN 0 [] []) as (res & news & E & E2 & E3 & E4 & E5); [unfold k; lia|auto|].
  cbn [app] in E. rewrite E. cbn [forL].
  destruct (evaluateFold_spec k (List.length earlier) (isLastFold k (List.length earlier) (-1)%Z) lastScores ltac:(unfold k; lia) res news E3)
    as (res' & news' & G & _ & N). rewrite G. cbn [snd]. exists (news ++ news'). split; auto.
  cbv zeta in N. destruct (N NE) as (_ & N2 & N3).
  assert (LF : isLastFold k (List.length earlier) (-1)%Z = true) by (unfold isLastFold; simpl; apply Nat.eqb_eq; unfold k; lia).
  rewrite LF in N3. unfold averages, foldResults in *. rewrite !flat_map_app, E4, N3, E5, N2. cbn [app flat_map]. rewrite app_nil_r. split; auto.
  apply map_ext. intros p. f_equal. rewrite E2. cbn [app]. replace (k - 0 - List.length earlier) with 1 by (unfold k; lia). cbn [repeat].
  rewrite <- (map_length (fun l => lastOf l None) earlier), upd_front, available_app, (available_some _ _ F). auto.
Qed.

Lemma averages_single :
  forall {S : Type} (scores : list (nat * S)), scores <> [] ->
  exists out size, evaluateFolds (map (fun p => [p]) scores) = Some out /\
  averages out = [(size, map snd scores)] /\ In size (map fst scores) /\ map snd (foldResults out) = map snd scores.
Proof.
  intros S scores NE. destruct (exists_last NE) as (init & p & ->). rewrite map_app. cbn [map].
  destruct (averages_characterised (map (fun p => [p]) init) (map snd init) [p]) as (out & E & A & R); [|discriminate|].
  - clear. induction init as [|[a b] l IH]; simpl; constructor; auto. exists a, []. auto.
  - exists out, (fst p). split; auto. rewrite A. cbn [map]. rewrite !map_app. split; auto. split; [apply in_or_app; right; left; auto|].
    rewrite R. clear. replace (List.length (map (fun p => [p]) init) + 1) with (List.length (map (fun q : nat * S => [q]) (init ++ [p])))
      by (rewrite !map_length, app_length; auto).
    change [[p]] with (map (fun q : nat * S => [q]) [p]). rewrite <- map_app, map_length. rewrite <- map_app. generalize (init ++ [p]) as l. intros l. generalize 0.
    induction l as [|q l IH]; intros o; auto. cbn [map List.length seq combine flat_map]. simpl. f_equal. apply IH.
Qed.

Lemma averages_refuted :
  exists (scores : list (list (nat * Z))) out size avg,
  evaluateFolds scores = Some out /\ In (size, avg) (averages out) /\
  avg <> flat_map (fun l => map snd (filter (fun p => fst p =? size) l)) scores.
Proof.
  exists [[(1, 10%Z); (2, 20%Z)]; [(1, 30%Z); (2, 40%Z)]]. do 3 eexists. split; [vm_compute; reflexivity|].
  split; [left; reflexivity|]. vm_compute. discriminate.
Qed.

(** ** Statistics about models *)

Definition posOf (scores : list Q) : nat := List.length (filter (fun s => negb (Qle_bool s 0)) scores).
Definition predOf (r : crule) : nat * nat := (posOf (cscores r), List.length (cscores r) - posOf (cscores r)).
Definition countsOf (r : crule) : list counts := match cbody r with Some c => [c] | None => [] end.

Lemma visit_bodies l : (forall r, In r l -> cbody r <> None) -> forall v,
  (match vdefault v with Some d => (Z.of_nat d <= vindex v)%Z | None => True end) ->
  fold_left (fun v r => visitHead (visitBody v (cbody r)) (cscores r)) l v
  = Visitor (vcounts v ++ flat_map countsOf l) (vpredictions v ++ map predOf l) (vdefault v) (vdefaultPredictions v) (vindex v + Z.of_nat (List.length l)).
Proof.
  induction l as [|r l IH]; intros H v D; cbn [fold_left].
  - simpl. rewrite !app_nil_r, Z.add_0_r. destruct v; auto.
  - destruct (cbody r) as [c|] eqn:Ec; [|destruct (H r (or_introl eq_refl)); auto]. rewrite IH.
    + unfold visitHead, visitBody. cbn [vdefault vindex vcounts vpredictions vdefaultPredictions].
      assert (B : match vdefault v with Some i => (vindex v + 1 =? Z.of_nat i)%Z | None => false end = false)
        by (destruct (vdefault v); auto; apply Z.eqb_neq; lia).
      rewrite B. cbn [vdefault vindex vcounts vpredictions vdefaultPredictions flat_map map]. unfold countsOf at 2. rewrite Ec.
      rewrite <- !app_assoc. f_equal. cbn [List.length]. lia.
    + intros. apply H. right. auto.
    + unfold visitHead, visitBody. cbn [vdefault vindex]. destruct (vdefault v) as [d|]; cbn; auto.
      destruct (Z.eqb_spec (vindex v + 1) (Z.of_nat d)); cbn; lia.
Qed.

Definition rowOf (i : nat) (r : crule) : trow :=
  TRow (i + 1) (match cbody r with None => true | Some _ => false end)
    (match cbody r with None => Counts 0 0 0 0 0 0 | Some c => c end) (fst (predOf r)) (snd (predOf r)).

Fixpoint rowsFrom (i : nat) (l : list crule) : list trow :=
  match l with [] => [] | r :: l => rowOf i r :: rowsFrom (S i) l end.

Definition tabBody (v : visitor) := fun (i : nat) (st : list trow * nat) =>
    let (l, j) := st in
    if match vdefault v with Some d => i =? d | None => false end then
      Some (l ++ [TRow (i + 1) true (Counts 0 0 0 0 0 0) (fst (vdefaultPredictions v)) (snd (vdefaultPredictions v))], j)
    else
      let* c := aget (vcounts v) j in
      let* p := aget (vpredictions v) j in
      Some (l ++ [TRow (i + 1) false c (fst p) (snd p)], j + 1).

Lemma tab_bodies v : forall l (pc : list counts) (pp : list (nat * nat)) sc sp i acc, (forall r, In r l -> cbody r <> None) ->
  vcounts v = pc ++ flat_map countsOf l ++ sc -> vpredictions v = pp ++ map predOf l ++ sp -> List.length pc = List.length pp ->
  (match vdefault v with Some d => d < i \/ i + List.length l <= d | None => True end) ->
  forN (List.length l) i (tabBody v) (acc, List.length pc) = Some (acc ++ rowsFrom i l, List.length pc + List.length l).
Proof.
  induction l as [|r l IH]; intros pc pp sc sp i acc H EC EP EL D; cbn [List.length forN rowsFrom].
  - rewrite app_nil_r, Nat.add_0_r. auto.
  - destruct (cbody r) as [c|] eqn:Ec; [|destruct (H r (or_introl eq_refl)); auto]. unfold tabBody at 1.
    assert (B : match vdefault v with Some d => i =? d | None => false end = false)
      by (destruct (vdefault v); auto; apply Nat.eqb_neq; simpl in D; lia).
    rewrite B. cbn [flat_map map] in EC, EP. unfold countsOf at 1 in EC. rewrite Ec in EC.
    unfold aget. rewrite EC, nth_error_app2, Nat.sub_diag by lia. cbn [app nth_error]. rewrite EP, nth_error_app2 by lia.
    rewrite EL, Nat.sub_diag. cbn [app nth_error].
    replace (List.length pp + 1) with (List.length (pc ++ [c])) by (rewrite app_length; simpl; lia).
    rewrite (IH (pc ++ [c]) (pp ++ [predOf r]) sc sp).
    + rewrite <- app_assoc. unfold rowOf. rewrite Ec. cbn [app]. f_equal. f_equal. rewrite app_length. simpl. lia.
    + intros. apply H. right. auto.
    + rewrite EC, <- !app_assoc. auto.
    + rewrite EP, <- !app_assoc. auto.
    + rewrite !app_length. simpl. lia.
    + destruct (vdefault v); auto. simpl in D. lia.
Qed.

Lemma rowsFrom_app a b : forall i, rowsFrom i (a ++ b) = rowsFrom i a ++ rowsFrom (i + List.length a) b.
Proof.
  induction a as [|r a IH]; intros i; simpl; [rewrite Nat.add_0_r; auto|]. rewrite IH. do 3 f_equal. lia.
Qed.

Lemma bodies_length l : (forall r, In r l -> cbody r <> None) -> List.length (flat_map countsOf l) = List.length l.
Proof.
  induction l as [|r l IH]; intros H; auto. simpl. rewrite app_length, IH by (intros; apply H; right; auto).
  unfold countsOf. destruct (cbody r) eqn:E; auto. destruct (H r (or_introl eq_refl)); auto.
Qed.

Definition oneDefault (rules : list crule) : Prop :=
  (forall r, In r rules -> cbody r <> None) \/
  exists pre d post, rules = pre ++ d :: post /\ cbody d = None /\
    (forall r, In r pre -> cbody r <> None) /\ (forall r, In r post -> cbody r <> None).

Lemma tabularize_rows rules : oneDefault rules -> tabularize (visitRules rules) = Some (rowsFrom 0 rules).
Proof.
  intros [H|(pre & d & post & -> & Ed & H1 & H2)].
  - unfold visitRules. rewrite visit_bodies by (auto; exact I). cbn [newVisitor vcounts vpredictions vdefault vdefaultPredictions vindex app].
    unfold tabularize. cbn [vpredictions vdefault]. rewrite map_length.
    match goal with |- context [forN _ 0 ?b] => change b with (tabBody (Visitor (flat_map countsOf rules) (map predOf rules) None (0, 0) (-1 + Z.of_nat (List.length rules))%Z)) end.
    change (@nil trow, 0) with (@nil trow, @List.length counts []).
    rewrite (tab_bodies _ rules [] [] [] []); cbn; auto; rewrite ?app_nil_r; auto.
  - unfold visitRules. rewrite fold_left_app. cbn [fold_left]. rewrite (visit_bodies pre) by (auto; exact I).
    cbn [newVisitor vcounts vpredictions vdefault vdefaultPredictions vindex app]. rewrite Ed.
    unfold visitBody. cbn [vcounts vpredictions vdefault vdefaultPredictions vindex].
    unfold visitHead at 2. cbn [vcounts vpredictions vdefault vdefaultPredictions vindex].
    replace (-1 + Z.of_nat (List.length pre) + 1)%Z with (Z.of_nat (List.length pre)) by lia. rewrite Nat2Z.id, Z.eqb_refl.
    rewrite visit_bodies by (auto; cbn; lia). cbn [vcounts vpredictions vdefault vdefaultPredictions vindex].
    set (v := Visitor _ _ _ _ _). unfold tabularize. cbn [vpredictions vdefault].
    match goal with |- context [forN _ 0 ?b] => change b with (tabBody v) end.
    replace (List.length (vpredictions v) + 1) with (List.length pre + (1 + List.length post)) by (cbn; rewrite app_length, !map_length; lia).
    cbn [vdefault v]. rewrite forN_split.
    change (@nil trow, 0) with (@nil trow, @List.length counts []).
    rewrite (tab_bodies v pre [] [] (flat_map countsOf post) (map predOf post)); cbn; auto.
    rewrite Nat.eqb_refl.
    replace (List.length pre) with (List.length (flat_map countsOf pre)) at 3 by (apply bodies_length; auto).
    rewrite (tab_bodies v post (flat_map countsOf pre) (map predOf pre) [] []); auto.
    + cbn. rewrite rowsFrom_app. cbn [rowsFrom]. rewrite <- app_assoc. unfold rowOf at 1. rewrite Ed. auto.
    + rewrite app_nil_r. auto.
    + rewrite app_nil_r. auto.
    + rewrite bodies_length, map_length by auto. auto.
    + cbn. lia.
Qed.

Lemma rowsFrom_nth l : forall i j r, nth_error l j = Some r -> nth_error (rowsFrom i l) j = Some (rowOf (i + j) r).
Proof.
  induction l as [|a l IH]; intros i [|j] r H; simpl in *; try discriminate.
  - rewrite Nat.add_0_r. congruence.
  - rewrite (IH (S i) j r H). do 2 f_equal. lia.
Qed.

Lemma rowsFrom_length l : forall i, List.length (rowsFrom i l) = List.length l.
Proof. induction l; intros; simpl; auto. Qed.

Lemma pos_spec scores : posOf scores = numPositive scores /\ List.length scores - posOf scores = numNonPositive scores.
Proof.
  assert (E : forall s, negb (Qle_bool s 0) = if Qlt_le_dec 0 s then true else false).
  { intros s. destruct (Qlt_le_dec 0 s) as [H|H].
    - destruct (Qle_bool s 0) eqn:B; auto. apply Qle_bool_iff in B. lra.
    - apply Qle_bool_iff in H. rewrite H. auto. }
  assert (posOf scores = numPositive scores) as K by (unfold posOf, numPositive; f_equal; apply filter_ext; auto).
  split; auto. rewrite K. clear K. unfold numPositive, numNonPositive.
  assert (G : forall (f : Q -> bool) l, List.length (filter f l) + List.length (filter (fun s => negb (f s)) l) = List.length l).
  { intros f l. induction l as [|a l IH]; auto. cbn [filter]. destruct (f a); cbn [negb List.length]; lia. }
  specialize (G (fun s => if Qlt_le_dec 0 s then true else false) scores).
  assert (X : filter (fun s => negb (if Qlt_le_dec 0 s then true else false)) scores = filter (fun s => if Qlt_le_dec 0 s then false else true) scores)
    by (apply filter_ext; intros s; destruct (Qlt_le_dec 0 s); auto).
  cbv beta in G. rewrite X in G. lia.
Qed.

Lemma at_most_one rules : (forall i j r s, nth_error rules i = Some r -> nth_error rules j = Some s -> cbody r = None -> cbody s = None -> i = j) ->
  oneDefault rules.
Proof.
  intros H.
  assert (D : forall l : list crule, (forall r, In r l -> cbody r <> None) \/ exists pre d post, l = pre ++ d :: post /\ cbody d = None /\ (forall r, In r pre -> cbody r <> None)).
  { clear. induction l as [|a l IH]; [left; intros r []|]. destruct (cbody a) eqn:E.
    - destruct IH as [IH|(pre & d & post & -> & Ed & Hp)].
      + left. intros r [<-|Hr]; [congruence|auto].
      + right. exists (a :: pre), d, post. split; auto. split; auto. intros r [<-|Hr]; [congruence|auto].
    - right. exists [], a, l. split; auto. }
  destruct (D rules) as [K|(pre & d & post & -> & Ed & Hp)]; [left; auto|]. right. exists pre, d, post. repeat split; auto.
  intros r Hr Er. apply In_nth_error in Hr as (j & Hj).
  assert (List.length pre = List.length pre + S j); [|lia].
  apply (H _ _ d r); auto.
  - rewrite nth_error_app2, Nat.sub_diag by lia. auto.
  - rewrite nth_error_app2 by lia. replace (_ - _) with (S j) by lia. auto.
Qed.

Lemma characteristics :
  forall rules,
  (forall i j r s, nth_error rules i = Some r -> nth_error rules j = Some s -> cbody r = None -> cbody s = None -> i = j) ->
  exists rows, tabularize (visitRules rules) = Some rows /\ List.length rows = List.length rules /\
  forall i r, nth_error rules i = Some r -> exists row, nth_error rows i = Some row /\ tnumber row = i + 1 /\
    (tdefault row = true <-> cbody r = None) /\
    (forall c, cbody r = Some c -> tcounts row = c) /\ (cbody r = None -> tcounts row = Counts 0 0 0 0 0 0) /\
    tpos row = numPositive (cscores r) /\ tneg row = numNonPositive (cscores r).
Proof.
  intros rules H. exists (rowsFrom 0 rules). split; [apply tabularize_rows, at_most_one; auto|]. split; [apply rowsFrom_length|].
  intros i r E. exists (rowOf i r). split; [apply rowsFrom_nth; auto|]. destruct (pos_spec (cscores r)) as [P1 P2].
  unfold rowOf. cbn. destruct (cbody r); repeat split; auto; congruence.
Qed.

(** ** Durations *)

Lemma Qfloor_unique q z : (inject_Z z <= q)%Q -> (q < inject_Z (z + 1))%Q -> Qfloor q = z.
Proof.
  intros H1 H2. pose proof (Qfloor_le q) as H3. pose proof (Qlt_floor q) as H4.
  assert (inject_Z z < inject_Z (Qfloor q + 1))%Q as A by lra. rewrite <- Zlt_Qlt in A.
  assert (inject_Z (Qfloor q) < inject_Z (z + 1))%Q as B by lra. rewrite <- Zlt_Qlt in B. lia.
Qed.

Lemma millis_floor q : Qfloor ((q - inject_Z (Qfloor q)) * inject_Z 1000) = (Qfloor (q * inject_Z 1000) - Qfloor q * 1000)%Z.
Proof.
  pose proof (Qfloor_le (q * inject_Z 1000)) as H1. pose proof (Qlt_floor (q * inject_Z 1000)) as H2.
  apply Qfloor_unique.
  - unfold Z.sub. rewrite inject_Z_plus, inject_Z_opp, inject_Z_mult. lra.
  - rewrite inject_Z_plus in *. unfold Z.sub. rewrite inject_Z_plus, inject_Z_opp, inject_Z_mult. lra.
Qed.

Lemma millis_range q : (0 <= Qfloor ((q - inject_Z (Qfloor q)) * inject_Z 1000) < 1000)%Z.
Proof.
  pose proof (Qfloor_le q) as H1. pose proof (Qlt_floor q) as H2. rewrite inject_Z_plus in H2.
  set (x := ((q - inject_Z (Qfloor q)) * inject_Z 1000)%Q).
  assert (0 <= x)%Q as A by (unfold x; apply Qmult_le_0_compat; [lra|compute; discriminate]).
  assert (x < inject_Z 1000)%Q as B.
  { unfold x. setoid_replace (inject_Z 1000) with (1 * inject_Z 1000)%Q at 2 by ring. apply Qmult_lt_compat_r; [reflexivity|].
    change (inject_Z 1) with 1%Q in H2. lra. }
  pose proof (Qfloor_le x) as H3. pose proof (Qlt_floor x) as H4. split.
  - assert (inject_Z 0 < inject_Z (Qfloor x + 1))%Q as C by (change (inject_Z 0) with 0%Q; lra). rewrite <- Zlt_Qlt in C. lia.
  - assert (inject_Z (Qfloor x) < inject_Z 1000)%Q as C by lra. rewrite <- Zlt_Qlt in C. auto.
Qed.

Lemma duration_parts :
  forall duration, (0 <= duration)%Q ->
  totalMillis (durationParts duration) = Qfloor (duration * inject_Z 1000) /\
  Forall bounded (durationParts duration) /\
  Forall (fun p => (0 <= fst p)%Z /\ (fst p = 0%Z -> durationParts duration = [(0%Z, Milliseconds)])) (durationParts duration) /\
  StronglySorted (fun p q => (millisOf (snd q) < millisOf (snd p))%Z) (durationParts duration) /\
  durationParts duration <> [].
Proof.
  intros q Q. pose proof (millis_floor q) as M. pose proof (millis_range q) as R.
  assert (P : (0 <= Qfloor q)%Z) by (change 0%Z with (Qfloor 0); apply Qfloor_resp_le; auto).
  unfold durationParts. cbv zeta. set (s := Qfloor q) in *. set (m := Qfloor ((q - inject_Z s) * inject_Z 1000)) in *.
  replace (Qfloor (q * inject_Z 1000)) with (s * 1000 + m)%Z by lia. clearbody s m. clear M Q.
  pose proof (Z.div_mod s 86400 ltac:(lia)) as D1. pose proof (Z.mod_pos_bound s 86400 ltac:(lia)) as B1.
  pose proof (Z.div_pos s 86400 P ltac:(lia)) as P1.
  set (d := (s / 86400)%Z) in *. set (s1 := (s mod 86400)%Z) in *.
  pose proof (Z.div_mod s1 3600 ltac:(lia)) as D2. pose proof (Z.mod_pos_bound s1 3600 ltac:(lia)) as B2.
  pose proof (Z.div_pos s1 3600 ltac:(lia) ltac:(lia)) as P2.
  set (h := (s1 / 3600)%Z) in *. set (s2 := (s1 mod 3600)%Z) in *.
  pose proof (Z.div_mod s2 60 ltac:(lia)) as D3. pose proof (Z.mod_pos_bound s2 60 ltac:(lia)) as B3.
  pose proof (Z.div_pos s2 60 ltac:(lia) ltac:(lia)) as P3.
  set (mi := (s2 / 60)%Z) in *. set (s3 := (s2 mod 60)%Z) in *. clearbody d s1 h s2 mi s3.
  destruct (Z.ltb_spec 0 d), (Z.ltb_spec 0 h), (Z.ltb_spec 0 mi), (Z.ltb_spec 0 s3), (Z.ltb_spec 0 m);
    cbn [app orb List.length Nat.eqb];
    (split; [unfold totalMillis; cbn [map fold_right fst snd millisOf]; lia|]);
    (split; [repeat constructor; unfold bounded; cbn [fst snd]; lia|]);
    (split; [repeat constructor; cbn [fst snd]; try lia; intros Z0; try lia; try (rewrite Z0; reflexivity)|]);
    (split; [repeat (constructor; cbn [snd millisOf]; try lia)|discriminate]).
Qed.

(** ** Data sets that are not loaded as expected *)

Definition exampleFile (d : rows) : arff :=
  Arff None [("f1"%string, NumericAttribute); ("l1"%string, NominalAttribute ["0"; "1"]%string); ("l2"%string, NominalAttribute ["0"; "1"]%string)] d.

Lemma columns_shifted_refuted :
  exists f xml feats outs x y meta,
  declares f xml outs /\ located f feats outs /\ NoDup (names f) /\ outs <> [] /\ supportedTypes f outs /\ validRows f /\
  loadDataSetAndMetaData f xml = Some (x, y, meta) /\ isCell f 0 0 (Some 5%Q) /\ isElement y 0 0 (Some 5%Z) /\ Forall (fun r => r = []) x.
Proof.
  exists (exampleFile (SparseRows [[(0, Some 5%Q); (1, Some 1%Q)]])), (Some ["l1"; "l2"]%string), ["f1"%string], ["l1"; "l2"]%string.
  do 3 eexists. split; [reflexivity|]. split; [right; reflexivity|].
  split; [repeat constructor; cbn; intuition discriminate|]. split; [discriminate|].
  split. { intros n t H N. cbn in H. intuition (try congruence). }
  split. { repeat constructor; cbn; intuition (try discriminate). }
  split; [vm_compute; reflexivity|].
  split. { cbn. eexists. split; [reflexivity|]. split; [lia|left; left; reflexivity]. }
  split. { cbn. eexists. split; reflexivity. }
  repeat constructor.
Qed.

Lemma rows_dropped_refuted :
  exists f xml feats outs x y meta,
  declares f xml outs /\ located f feats outs /\ NoDup (names f) /\ outs <> [] /\ supportedTypes f outs /\ validRows f /\
  loadDataSetAndMetaData f xml = Some (x, y, meta) /\ numRowsOf f = 2 /\ List.length x = 1.
Proof.
  exists (exampleFile (SparseRows [[(0, Some 5%Q); (2, Some 1%Q)]; []])), (Some ["l1"; "l2"]%string), ["f1"%string], ["l1"; "l2"]%string.
  do 3 eexists. split; [reflexivity|]. split; [right; reflexivity|].
  split; [repeat constructor; cbn; intuition discriminate|]. split; [discriminate|].
  split. { intros n t H N. cbn in H. intuition (try congruence). }
  split. { repeat constructor; cbn; intuition (try discriminate). }
  split; [vm_compute; reflexivity|]. split; reflexivity.
Qed.

Lemma names_swapped_refuted :
  exists f xml outs x y meta a l name v w,
  declares f xml outs /\ Permutation (names f) (outs ++ ["f1"%string]) /\ NoDup (names f) /\ supportedTypes f outs /\ validRows f /\ lastGiven f /\
  loadDataSetAndMetaData f xml = Some (x, y, meta) /\ nth_error (names f) a = Some name /\ nth_error (outputs meta) l = Some name /\
  isCell f 0 a (Some (inject_Z v)) /\ isElement y 0 l (Some w) /\ v <> w.
Proof.
  exists (exampleFile (DenseRows [[Some 5%Q; Some 1%Q; Some 0%Q]])), (Some ["l2"; "l1"]%string), ["l2"; "l1"]%string.
  do 3 eexists. exists 1, 1, "l1"%string, 1%Z, 0%Z. split; [reflexivity|].
  split. { cbn. apply NoDup_Permutation; [repeat constructor; cbn; intuition discriminate|repeat constructor; cbn; intuition discriminate|].
    intros n. cbn. tauto. }
  split; [repeat constructor; cbn; intuition discriminate|].
  split. { intros n t H N. cbn in H. intuition (try congruence). }
  split; [repeat constructor|]. split; [exact I|]. split; [vm_compute; reflexivity|]. split; [reflexivity|]. split; [reflexivity|].
  split. { eexists. split; reflexivity. } split; [|discriminate]. eexists. split; reflexivity.
Qed.

Lemma scores_truncated_refuted :
  exists f xml feats outs x y meta v,
  declares f xml outs /\ located f feats outs /\ NoDup (names f) /\ outs <> [] /\ supportedTypes f outs /\ validRows f /\ lastGiven f /\
  loadDataSetAndMetaData f xml = Some (x, y, meta) /\ isCell f 0 1 (Some v) /\ isElement y 0 0 (Some 0%Z) /\ ~ (v == 0)%Q.
Proof.
  exists (Arff None [("f1"%string, NumericAttribute); ("l1"%string, NumericAttribute)] (DenseRows [[Some 5%Q; Some (1 # 2)%Q]])), (Some ["l1"]%string), ["f1"%string], ["l1"]%string.
  do 3 eexists. exists (1 # 2)%Q. split; [reflexivity|]. split; [right; reflexivity|].
  split; [repeat constructor; cbn; intuition discriminate|]. split; [discriminate|].
  split. { intros n t H N. cbn in H. intuition (try congruence). }
  split; [repeat constructor|]. split; [exact I|]. split; [vm_compute; reflexivity|].
  split. { eexists. split; reflexivity. } split; [eexists; split; reflexivity|]. intros H. discriminate.
Qed.

Lemma negative_number_refuted :
  exists f x y meta,
  relation f = Some (-1)%Z /\ List.length (attributes f) = 2 /\ validRows f /\ lastGiven f /\
  loadDataSetAndMetaData f None = Some (x, y, meta) /\ outputs meta = [] /\ Forall (fun r => r = []) x /\
  Forall (fun r => List.length r = 2) y.
Proof.
  exists (Arff (Some (-1)%Z) [("f1"%string, NumericAttribute); ("l1"%string, NominalAttribute ["0"; "1"]%string)] (DenseRows [[Some 5%Q; Some 1%Q]])).
  do 3 eexists. split; [reflexivity|]. split; [reflexivity|]. split; [repeat constructor|]. split; [exact I|]. split; [vm_compute; reflexivity|].
  split; [reflexivity|]. split; repeat constructor.
Qed.
