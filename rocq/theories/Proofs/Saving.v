(** * Data sets that are saved to ARFF files: proofs *)

From Coq Require Import List Bool Arith ZArith QArith String Lia DecimalString DecimalNat.
From Verif Require Import Lib.Arr Model.Testbed Model.Saving Spec.Testbed Spec.Saving Proofs.Testbed.
Import ListNotations.
Open Scope nat_scope.

Lemma loaded_features outs n : forall i fs b, (forall j, ~ In ("X" ++ strNat j)%string outs) ->
  forL (map (fun f : string * featureType => (fst f, NumericAttribute)) (map (fun i => ("X" ++ strNat i, NUMERICAL)%string) (seq i n))) (mdBody outs) (fs, b)
  = Some (fs ++ map (fun i => ("X" ++ strNat i, NUMERICAL)%string) (seq i n), b).
Proof.
  induction n as [|n IH]; intros i fs b H; [cbn; now rewrite app_nil_r|]. cbn [seq map forL]. unfold mdBody at 1. cbn [fst snd].
  rewrite (isIn_false _ _ (H i)). cbn [negb featureTypeOf]. cbv beta iota. rewrite IH by exact H. now rewrite <- app_assoc.
Qed.

Lemma loaded_meta nf no : 0 < nf ->
  createMetaData (attributes (fst (saveDataSet false nf no []))) (outputs (savedMetaData nf no)) = Some (savedMetaData nf no).
Proof.
  intros P. unfold createMetaData, saveDataSet. cbn [fst attributes savedMetaData outputsAtStart features outputs].
  set (outs := map (fun i => "y" ++ strNat i)%string (seq 0 no)). fold (mdBody outs). rewrite forL_app.
  rewrite loaded_features.
  2:{ intros j I. apply in_map_iff in I. destruct I as [k [E _]]. discriminate. }
  cbn [app]. rewrite md_outs.
  2:{ intros a A. apply in_map_iff in A. destruct A as [k [<- A]]. exact A. }
  cbn [fst snd]. rewrite !map_length, seq_length. destruct (Nat.eqb_spec nf 0); [lia|]. rewrite andb_false_r. reflexivity.
Qed.

Lemma row_length x y : List.length (denseRow x y) = List.length x + List.length y.
Proof. unfold denseRow. rewrite app_length, !map_length. reflexivity. Qed.

Lemma uint8_all y : (forall z, In z y -> (0 <= z < 256)%Z) -> map toUint8 (map (fun v => Some (inject_Z v)) y) = map (fun v => Some v) y.
Proof. intros H. rewrite map_map. apply map_ext_in. intros z Z. apply toUint8_int. auto. Qed.

Lemma split_saved nf no examples : 0 < no -> validExamples nf no examples ->
  createFeatureAndOutputMatrix (map (fun e => denseRow (fst e) (snd e)) examples) (savedMetaData nf no)
  = (map (fun e => map (fun v => Some v) (fst e)) examples, map (fun e => map (fun v => Some v) (snd e)) examples).
Proof.
  intros P V. unfold createFeatureAndOutputMatrix. cbn [savedMetaData outputsAtStart outputs]. rewrite map_length, seq_length.
  f_equal; rewrite ?map_map; apply map_ext_in; intros [x y] I; cbn [fst snd]; destruct (V x y I) as [LX [LY [_ B]]];
    destruct (slice_neg (denseRow x y) nf no) as [A C]; try (rewrite row_length; lia); auto.
  - rewrite A. unfold denseRow. rewrite firstn_app, map_length, LX, Nat.sub_diag, firstn_O, app_nil_r. apply firstn_all2. rewrite map_length. lia.
  - rewrite C. unfold denseRow. rewrite skipn_app, map_length, LX, Nat.sub_diag, skipn_O, skipn_all2 by (rewrite map_length; lia).
    cbn [app]. now apply uint8_all.
Qed.

Lemma in_combine_seq {A} (l : list A) j v : forall i, In (j, v) (combine (seq i (List.length l)) l) <-> i <= j /\ nth_error l (j - i) = Some v.
Proof.
  induction l as [|x l IH]; intros i; cbn [List.length seq combine In].
  - split; [tauto|]. intros [_ H]. destruct (j - i); discriminate.
  - rewrite IH. split.
    + intros [[= -> ->]|[H1 H2]]; [rewrite Nat.sub_diag; cbn; auto|]. split; [lia|]. replace (j - i) with (S (j - S i)) by lia. exact H2.
    + intros [H1 H2]. destruct (Nat.eq_dec i j) as [->|N]; [rewrite Nat.sub_diag in H2; cbn in H2; left; congruence|].
      right. split; [lia|]. replace (j - i) with (S (j - S i)) in H2 by lia. exact H2.
Qed.

Lemma combine_keys {A} (l : list A) : forall i, map fst (combine (seq i (List.length l)) l) = seq i (List.length l).
Proof. induction l as [|x l IH]; intros i; cbn; [reflexivity|]. now rewrite IH. Qed.

Lemma NoDup_filter_keys {A} p (l : list (nat * A)) : NoDup (map fst l) -> NoDup (map fst (filter p l)).
Proof.
  induction l as [|x l IH]; cbn; intros N; [constructor|]. inversion N as [|? ? N1 N2]; subst. destruct (p x); [|auto]. cbn. constructor; [|auto].
  intros I. apply N1. apply in_map_iff in I. destruct I as [e [E I]]. apply filter_In in I. apply in_map_iff. exists e. tauto.
Qed.

Lemma sparse_in x y j v : In (j, v) (sparseRow x y) <-> nth_error (denseRow x y) j = Some v /\
  match v with Some q => ~ (q == 0)%Q | None => True end.
Proof.
  unfold sparseRow. rewrite <- row_length, filter_In, in_combine_seq, Nat.sub_0_r. cbn [snd]. destruct v as [q|].
  - destruct (Qeq_bool q 0) eqn:E; cbn.
    + apply Qeq_bool_eq in E. split; [intros [_ H]; discriminate|tauto].
    + apply Qeq_bool_neq in E. intuition lia.
  - intuition lia.
Qed.

Lemma dense_cell nf no x y j v : List.length x = nf -> List.length y = no -> (forall q, In q x -> (q == 0)%Q -> q = 0%Q) ->
  nth_error (denseRow x y) j = Some v -> In (j, v) (sparseRow x y) \/ (v = Some 0%Q /\ ~ In j (map fst (sparseRow x y))).
Proof.
  intros LX LY Z H. assert (I : In v (denseRow x y)) by (eapply nth_error_In; exact H).
  assert (exists q, v = Some q /\ ((q == 0)%Q -> q = 0%Q)) as [q [-> C]].
  { unfold denseRow in I. apply in_app_iff in I. destruct I as [I|I]; apply in_map_iff in I; destruct I as [q [<- I]].
    - exists q. auto.
    - exists (inject_Z q). split; [reflexivity|]. unfold Qeq, inject_Z. cbn. intros E. f_equal. lia. }
  destruct (Qeq_dec q 0) as [E|E].
  - right. split; [now rewrite (C E)|]. intros J. apply in_map_iff in J. destruct J as [[j' w] [K J]]. cbn in K. subst j'.
    apply sparse_in in J. destruct J as [J1 J2]. rewrite H in J1. injection J1 as <-. tauto.
  - left. apply sparse_in. auto.
Qed.

Lemma saved_attributes sparse nf no examples : List.length (attributes (fst (saveDataSet sparse nf no examples))) = nf + no.
Proof. unfold saveDataSet. cbn [fst attributes savedMetaData outputsAtStart features outputs]. rewrite app_length, !map_length, !seq_length. reflexivity. Qed.

Lemma saved_loaded nf no examples : 0 < no -> validExamples nf no examples -> lastUsed no examples ->
  loadArff (fst (saveDataSet true nf no examples)) = Some (map (fun e => denseRow (fst e) (snd e)) examples).
Proof.
  intros P V [[x0 [y0 [z0 [I0 [N0 Z0]]]]] [l [x1 [y1 [E1 L1]]]]]. set (f := fst (saveDataSet true nf no examples)).
  assert (LA : List.length (attributes f) = nf + no) by apply saved_attributes.
  assert (D : data f = SparseRows (map (fun e => sparseRow (fst e) (snd e)) examples)) by reflexivity.
  assert (VR : validRows f).
  { unfold validRows. rewrite D, LA. apply Forall_forall. intros r R. apply in_map_iff in R. destruct R as [[x y] [<- R]]. cbn [fst snd].
    destruct (V x y R) as [LX [LY _]]. split.
    - apply NoDup_filter_keys. rewrite <- row_length, combine_keys. apply seq_NoDup.
    - apply Forall_forall. intros [j v] J. apply sparse_in in J. destruct J as [J _]. cbn.
      assert (K : j < List.length (denseRow x y)) by (apply nth_error_Some; congruence). rewrite row_length in K. lia. }
  assert (G : lastGiven f).
  { unfold lastGiven. rewrite D, LA. split.
    - exists (map (fun e => sparseRow (fst e) (snd e)) l), (sparseRow x1 y1). split; [rewrite E1, map_app; reflexivity|].
      assert (exists q, In (Some q) (denseRow x1 y1) /\ ~ (q == 0)%Q) as [q [Q1 Q2]].
      { unfold denseRow. destruct L1 as [[q [Q1 Q2]]|[z [Q1 Q2]]].
        - exists q. split; [|exact Q2]. apply in_app_iff. left. apply in_map_iff. exists q. auto.
        - exists (inject_Z z). split; [apply in_app_iff; right; apply in_map_iff; exists z; auto|]. unfold Qeq, inject_Z. cbn. lia. }
      apply In_nth_error in Q1. destruct Q1 as [j Q1]. intros N. assert (X : In (j, Some q) (sparseRow x1 y1)) by now apply sparse_in.
      rewrite N in X. destruct X.
    - exists (sparseRow x0 y0), (nf + (no - 1)). destruct (V x0 y0 I0) as [LX [LY _]]. split; [apply in_map_iff; exists (x0, y0); auto|].
      split; [|lia]. apply in_map_iff. exists (nf + (no - 1), Some (inject_Z z0)). split; [reflexivity|]. apply sparse_in. split.
      + unfold denseRow. rewrite nth_error_app2 by (rewrite map_length; lia). rewrite map_length, LX.
        replace (nf + (no - 1) - nf) with (no - 1) by lia. rewrite nth_error_map, N0. reflexivity.
      + unfold Qeq, inject_Z. cbn. lia. }
  destruct (load_correct f VR G) as [m [-> [LM [FM C]]]]. f_equal. unfold numRowsOf in LM. rewrite D, map_length in LM.
  apply nth_error_ext. intros i. rewrite nth_error_map. destruct (nth_error examples i) as [[x y]|] eqn:EI; cbn [option_map fst snd].
  - assert (IE : In (x, y) examples) by (eapply nth_error_In; exact EI). destruct (V x y IE) as [LX [LY [Z _]]].
    assert (i < List.length m) by (rewrite LM; apply nth_error_Some; congruence).
    destruct (nth_error m i) as [r|] eqn:ER; [|apply nth_error_None in ER; lia]. f_equal.
    rewrite Forall_forall in FM. assert (LR : List.length r = nf + no) by (rewrite <- LA; apply FM; eapply nth_error_In; exact ER).
    apply nth_error_ext. intros j. destruct (nth_error (denseRow x y) j) as [v|] eqn:EV.
    + destruct (C i j v) as [r' [R1 R2]]; [|congruence]. unfold isCell. rewrite D. exists (sparseRow x y).
      split; [rewrite nth_error_map, EI; reflexivity|]. split.
      * rewrite LA, <- LX, <- LY, <- row_length. apply nth_error_Some. congruence.
      * eapply dense_cell; eauto.
    + apply nth_error_None. apply nth_error_None in EV. rewrite row_length in EV. lia.
  - apply nth_error_None. apply nth_error_None in EI. lia.
Qed.

Lemma round_trip :
  forall sparse numFeatures numOutputs examples, 0 < numFeatures -> 0 < numOutputs -> validExamples numFeatures numOutputs examples ->
  (sparse = true -> lastUsed numOutputs examples) ->
  exists f xml meta, saveDataSetAndMetaData sparse numFeatures numOutputs examples = (f, xml, meta) /\
  loadDataSetAndMetaData f (Some xml)
  = Some (map (fun e => map (fun v => Some v) (fst e)) examples, map (fun e => map (fun v => Some v) (snd e)) examples, meta).
Proof.
  intros sparse nf no examples PF PO V S. exists (fst (saveDataSet sparse nf no examples)), (outputs (savedMetaData nf no)), (savedMetaData nf no).
  split; [reflexivity|]. unfold loadDataSetAndMetaData.
  assert (L : loadArff (fst (saveDataSet sparse nf no examples)) = Some (map (fun e => denseRow (fst e) (snd e)) examples)).
  { destruct sparse; [apply saved_loaded; auto|reflexivity]. }
  rewrite L. change (attributes (fst (saveDataSet sparse nf no examples))) with (attributes (fst (saveDataSet false nf no []))).
  rewrite (loaded_meta nf no PF). cbv beta iota. rewrite (split_saved nf no examples PO V). reflexivity.
Qed.

Lemma sparse_round_trip_refuted :
  exists numFeatures numOutputs examples f xml meta x y, 0 < numFeatures /\ 0 < numOutputs /\ validExamples numFeatures numOutputs examples /\
  saveDataSetAndMetaData true numFeatures numOutputs examples = (f, xml, meta) /\
  loadDataSetAndMetaData f (Some xml) = Some (x, y, meta) /\
  List.length x = List.length examples /\ y <> map (fun e => map (fun v => Some v) (snd e)) examples.
Proof.
  exists 2, 1, [([1%Q; 3%Q], [0%Z]); ([0%Q; 1%Q], [0%Z])]. eexists. eexists. eexists. eexists. eexists.
  split; [lia|]. split; [lia|]. split.
  - intros x y [[= <- <-]|[[= <- <-]|[]]]; (split; [reflexivity|split; [reflexivity|split]]);
      try (intros q [<-|[<-|[]]] E; try reflexivity; vm_compute in E; discriminate); intros z [<-|[]]; lia.
  - split; [reflexivity|]. split; [vm_compute; reflexivity|]. split; [reflexivity|vm_compute; discriminate].
Qed.

Lemma without_xml_refuted :
  exists numFeatures numOutputs examples f meta x y meta', 0 < numFeatures /\ 0 < numOutputs /\ validExamples numFeatures numOutputs examples /\
  saveDataSet false numFeatures numOutputs examples = (f, meta) /\
  loadDataSetAndMetaData f None = Some (x, y, meta') /\
  outputs meta <> [] /\ outputs meta' = [] /\ x <> map (fun e => map (fun v => Some v) (fst e)) examples.
Proof.
  exists 2, 1, [([1%Q; 3%Q], [0%Z]); ([0%Q; 1%Q], [1%Z])]. eexists. eexists. eexists. eexists. eexists.
  split; [lia|]. split; [lia|]. split.
  - intros x y [[= <- <-]|[[= <- <-]|[]]]; (split; [reflexivity|split; [reflexivity|split]]);
      try (intros q [<-|[<-|[]]] E; try reflexivity; vm_compute in E; discriminate); intros z [<-|[]]; lia.
  - split; [reflexivity|]. split; [vm_compute; reflexivity|]. split; [discriminate|]. split; [reflexivity|vm_compute; discriminate].
Qed.
