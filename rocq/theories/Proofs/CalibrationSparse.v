(** Proofs about the data calibration models are fitted to, if scores are stored in sparse matrices. *)
From Coq Require Import ZArith QArith Qfield Arith List Bool Lia Lqa Sorted Permutation.
From Verif Require Import Lib.Arr Model.Stopping Model.Labels Model.Isotonic Model.Serialization Model.CalibrationData
  Spec.Labels Spec.Isotonic Spec.CalibrationData Proofs.Labels Proofs.Isotonic Proofs.Calibration Proofs.CalibrationData.
From Verif Require Import Model.Floats Spec.Floats Proofs.Floats Proofs.FloatFractions.
Import ListNotations.
Open Scope nat_scope.

Lemma filter_shorter {A} (g : A -> bool) l : length (filter g l) <= length l.
Proof. induction l as [|a l IH]; cbn [filter length]; auto. destruct (g a); cbn [length]; lia. Qed.

Section Sparse.
Context {V : Type} (f : nat -> V -> number).
Context (indices : list nat) (n numLabels : nat) (labels : list (list bool)) (scores : list (list (nat * V))).
Hypothesis HL : has_shape n numLabels labels.
Hypothesis HS : length scores = n.
Hypothesis HR : Forall (sparse_row numLabels) scores.
Hypothesis HI : Forall (fun e => e < n) indices.

Notation bins := (list (number * number)).
Notation obs := (sparse_observation (Some 0%Q) (Some 1%Q) f labels scores).

Lemma sparse_bins : exists m, addSparseBins numLabels (calCreate numLabels) = Some m /\ length m = numLabels /\
  forall j, j < numLabels -> nth j m [] = [(Some 0%Q, Some 0%Q)].
Proof.
  unfold addSparseBins.
  edestruct (forN_inv (fun i (m : list bins) => length m = numLabels /\
    (forall k, k < i -> nth k m [] = [(Some 0%Q, Some 0%Q)]) /\ (forall k, i <= k -> nth k m [] = [])))
    as (m & E & H1 & H2 & _); [| |exists m; split; [exact E|split; [exact H1|exact H2]]].
  - unfold calCreate. rewrite repeat_length. split; auto. split; [intros; lia|]. intros k _. apply nth_repeat.
  - intros j m Hj (A1 & A2 & A3). rewrite add_bin by lia. eexists. split; [reflexivity|]. rewrite upd_length.
    split; [auto|]. split; intros k Hk; rewrite nth_upd by lia; destruct (Nat.eqb_spec j k) as [<- |Hn]; try lia.
    + rewrite A3 by lia. reflexivity.
    + apply A2. lia.
    + apply A3. lia.
Qed.

Lemma find_entry (row : list (nat * V)) j : 
  match sparseEntry row j with
  | Some v => In (j, v) row /\ existsb (Nat.eqb j) (map fst row) = true
  | None => existsb (Nat.eqb j) (map fst row) = false
  end.
Proof.
  unfold sparseEntry. induction row as [|[k v] row IH]; [reflexivity|]. cbn [find map existsb fst].
  rewrite (Nat.eqb_sym j k). destruct (Nat.eqb_spec k j) as [-> |Hn]; cbn [option_map snd].
  - split; [left; reflexivity|reflexivity].
  - destruct (option_map snd (find _ row)); cbn [orb].
    + destruct IH. split; [right|]; auto.
    + exact IH.
Qed.

Lemma with_snoc j l e : with_entry scores j (l ++ [e]) =
  with_entry scores j l ++ if existsb (Nat.eqb j) (map fst (nth e scores [])) then [e] else [].
Proof. unfold with_entry. rewrite filter_app. cbn [filter]. reflexivity. Qed.
Lemma without_snoc j l e : without_entry scores j (l ++ [e]) =
  without_entry scores j l ++ if existsb (Nat.eqb j) (map fst (nth e scores [])) then [] else [e].
Proof.
  unfold without_entry. rewrite filter_app. cbn [filter]. destruct (existsb _ _); reflexivity.
Qed.
Lemma relevant_snoc j l e : relevant_count labels j (l ++ [e]) =
  relevant_count labels j l + if nth j (nth e labels []) false then 1 else 0.
Proof.
  unfold relevant_count. rewrite filter_app, app_length. cbn [filter]. destruct (nth j (nth e labels []) false); reflexivity.
Qed.

Definition cell (j : nat) (l : list nat) (row : bins) (cnt : nat) : Prop :=
  exists p rest, row = (Some 0%Q, p) :: rest /\ Forall2 (obs j) (with_entry scores j l) rest /\
    cnt = length (without_entry scores j l) /\ (without_entry scores j l = [] -> p = Some 0%Q) /\
    relevant_fraction labels j (without_entry scores j l) p.

Lemma cell_present j l e row cnt lr sr b v : cell j l row cnt -> 
  nth_error labels e = Some lr -> nth_error lr j = Some b -> nth_error scores e = Some sr ->
  In (j, v) sr -> existsb (Nat.eqb j) (map fst sr) = true ->
  cell j (l ++ [e]) (row ++ [(f j v, trueProbabilityOf (Some 0%Q) (Some 1%Q) b)]) cnt.
Proof.
  intros (p & rest & -> & H1 & H2 & H3 & H4) El Eb Es Hin Hex. 
  assert (Hne : nth e scores [] = sr) by (apply nth_error_nth; auto).
  unfold cell. rewrite with_snoc, without_snoc. rewrite Hne, Hex, app_nil_r. exists p. eexists.
  split; [reflexivity|]. split; [|split; [auto|split; [auto|auto]]].
  apply Forall2_app; auto. repeat constructor. exists lr, sr, b, v. repeat split; auto.
Qed.

Lemma cell_missing j l e row cnt lr sr b : cell j l row cnt -> 
  nth_error labels e = Some lr -> nth_error lr j = Some b -> nth_error scores e = Some sr ->
  existsb (Nat.eqb j) (map fst sr) = false ->
  exists t p rest, row = (t, p) :: rest /\ cell j (l ++ [e]) ((t, 
    if 1 <? cnt + 1 then meanOf (cnt + 1) (trueProbabilityOf (Some 0%Q) (Some 1%Q) b) p
    else trueProbabilityOf (Some 0%Q) (Some 1%Q) b) :: rest) (cnt + 1).
Proof.
  intros (p & rest & -> & H1 & H2 & H3 & H4) El Eb Es Hex. 
  assert (Hne : nth e scores [] = sr) by (apply nth_error_nth; auto).
  assert (Hle : nth j (nth e labels []) false = b).
  { rewrite (nth_error_nth labels e [] El). apply nth_error_nth. auto. }
  exists (Some 0%Q), p, rest. split; [reflexivity|].
  unfold cell. rewrite with_snoc, without_snoc. rewrite Hne, Hex, app_nil_r. eexists. exists rest.
  split; [reflexivity|]. split; [auto|]. split; [rewrite app_length; cbn [length]; lia|].
  split; [intros X; destruct (without_entry scores j l); discriminate|].
  intros _. rewrite app_length, relevant_snoc, Hle. cbn [length].
  destruct (Nat.ltb_spec 1 (cnt + 1)) as [Hc|Hc].
  - destruct H4 as (q & -> & Hq); [intros X; rewrite X in H2; cbn in H2; lia|].
    unfold trueProbabilityOf. rewrite <- H2 in *.
    rewrite !Nat2Z.inj_add, !inject_Z_plus. change (inject_Z (Z.of_nat 1)) with 1%Q.
    assert (Hp : (0 < inject_Z (Z.of_nat cnt) + 1)%Q).
    { change 1%Q with (inject_Z 1). rewrite <- inject_Z_plus. change 0%Q with (inject_Z 0). rewrite <- Zlt_Qlt. lia. }
    destruct b; cbn [meanOf]; eexists; (split; [reflexivity|]); unfold iterativeArithmeticMean;
      rewrite ?Nat2Z.inj_add, ?inject_Z_plus; change (inject_Z (Z.of_nat 1)) with 1%Q;
      change (inject_Z (Z.of_nat 0)) with 0%Q; rewrite <- Hq; field; intros X; rewrite X in Hp; lra.
  - assert (cnt = 0) by lia. subst cnt. assert (without_entry scores j l = []) as -> by (destruct (without_entry scores j l); auto; discriminate).
    unfold trueProbabilityOf. destruct b; eexists; (split; [reflexivity|]); reflexivity.
Qed.

Lemma sparse_dense : exists m,
  extractSparseDense f indices numLabels labels scores (calCreate numLabels) = Some m /\ length m = numLabels /\
  forall j row, nth_error m j = Some row -> exists p rest, row = (Some 0%Q, p) :: rest /\
    Forall2 (obs j) (with_entry scores j indices) rest /\
    (without_entry scores j indices = [] -> p = Some 0%Q) /\
    relevant_fraction labels j (without_entry scores j indices) p.
Proof.
  unfold extractSparseDense. destruct sparse_bins as (m0 & E0 & Hm0 & Hb0). rewrite E0. cbv beta iota.
  edestruct (forN_inv (fun i '(m, cs) => length m = numLabels /\ length cs = numLabels /\
    forall j, j < numLabels -> cell j (firstn i indices) (nth j m []) (nth j cs 0)))
    as ([m cs] & E & H1 & H2 & H3); [| |rewrite E; exists m; split; [reflexivity|split; [exact H1|]]].
  - cbv beta iota. rewrite repeat_length. split; [auto|]. split; [auto|]. intros j Hj. rewrite Hb0 by auto. rewrite nth_repeat.
    exists (Some 0%Q), []. split; [reflexivity|]. split; [constructor|]. split; [reflexivity|]. split; [reflexivity|].
    intros X. exfalso. apply X. reflexivity.
  - intros i [m cs] Hi (A1 & A2 & A3).
    destruct (nth_error indices i) as [e|] eqn:Ee; [|apply nth_error_None in Ee; lia].
    assert (He : e < n) by (rewrite Forall_forall in HI; apply HI; eapply nth_error_In; eauto).
    destruct (shape_row _ _ _ e HL He) as (lr & El & Hlr).
    destruct (nth_error scores e) as [sr|] eqn:Es; [|apply nth_error_None in Es; lia].
    unfold aget at 1 2 3. rewrite Ee, El, Es. cbv beta iota.
    edestruct (forN_inv (fun j '(m, cs) => length m = numLabels /\ length cs = numLabels /\
      (forall k, k < j -> k < numLabels -> cell k (firstn (S i) indices) (nth k m []) (nth k cs 0)) /\
      (forall k, j <= k -> k < numLabels -> cell k (firstn i indices) (nth k m []) (nth k cs 0))))
      as ([m' cs'] & E' & B1 & B2 & B3 & B4); [| |exists (m', cs'); split; [exact E'|]].
    + split; [auto|]. split; [auto|]. split; [intros; lia|]. intros. apply A3. auto.
    + intros j [m' cs'] Hj (C1 & C2 & C3 & C4).
      destruct (nth_error lr j) as [b|] eqn:Eb; [|apply nth_error_None in Eb; lia].
      unfold aget at 1. rewrite Eb. pose proof (find_entry sr j) as F.
      pose proof (C4 j ltac:(lia) ltac:(lia)) as Cj.
      destruct (sparseEntry sr j) as [v|].
      * destruct F as (F1 & F2). rewrite add_bin by lia. eexists. split; [reflexivity|]. cbv beta iota.
        rewrite upd_length. split; [auto|]. split; [auto|].
        split; intros k Hk Hk'; rewrite nth_upd by lia; destruct (Nat.eqb_spec j k) as [<- |Hn]; try lia.
        -- rewrite (firstn_snoc indices i e Ee). eapply cell_present; eauto.
        -- apply C3; lia.
        -- apply C4; lia.
      * destruct (cell_missing j _ e _ _ lr sr b Cj El Eb Es F) as (t & p & rest & Er & Cn).
        unfold setFirstProbability, aget. rewrite (nth_get m' j []) by lia. rewrite Er. cbn [nth_error snd fst].
        rewrite (nth_get cs' j 0) by lia. cbn [length]. unfold aset at 1. cbn [length Nat.ltb Nat.leb upd].
        rewrite aset_Some by lia. rewrite aset_Some by lia. eexists. split; [reflexivity|].
        cbv beta iota. rewrite !upd_length. split; [auto|]. split; [auto|].
        split; intros k Hk Hk'; rewrite !nth_upd by lia; destruct (Nat.eqb_spec j k) as [<- |Hn]; try lia.
        -- rewrite (firstn_snoc indices i e Ee). exact Cn.
        -- apply C3; lia.
        -- apply C4; lia.
    + split; [auto|]. split; [auto|]. intros j Hj. apply B3; lia.
  - intros j row Ej. rewrite Nat.add_0_l, firstn_all in H3.
    assert (Hj : j < numLabels) by (rewrite <- H1; apply nth_error_Some; congruence).
    destruct (H3 j Hj) as (p & rest & X1 & X2 & X3 & X4 & X5). rewrite (nth_error_nth m j [] Ej) in X1.
    exists p, rest. auto.
Qed.

Context (csrIndices indptr : list nat).
Hypothesis HC : csr_represents csrIndices indptr labels.

Definition ccell (N j : nat) (l : list nat) (row : bins) (ns nr : nat) : Prop :=
  exists rest, row = (Some 0%Q, Some 0%Q) :: rest /\ Forall2 (obs j) (with_entry scores j l) rest /\
    ns = N - length (with_entry scores j l) /\ nr = relevant_count labels j (without_entry scores j l).

Definition b2n (b : bool) : nat := if b then 1 else 0.

Lemma count_loop seg lim : NoDup seg -> Forall (fun j => j < lim) seg -> forall a, length a = lim ->
  exists a', forN (length seg) 0 (fun j a => let* labelIndex := aget seg j in
    let* k := aget a labelIndex in aset a labelIndex (k + 1)) a = Some a' /\ length a' = lim /\
    forall j, nth j a' 0 = nth j a 0 + b2n (existsb (Nat.eqb j) seg).
Proof.
  intros HN HF a Ha.
  edestruct (forN_inv (fun i a' => length a' = lim /\
    forall j, nth j a' 0 = nth j a 0 + b2n (existsb (Nat.eqb j) (firstn i seg)))) as (a' & E & H1 & H2);
    [| |exists a'; split; [exact E|split; [exact H1|]]].
  - split; [auto|]. intros. cbn. lia.
  - intros i a' Hi (H1 & H2). destruct (nth_error seg i) as [x|] eqn:Ex; [|apply nth_error_None in Ex; lia].
    unfold aget. rewrite Ex. assert (Hx : x < lim) by (rewrite Forall_forall in HF; apply HF; eapply nth_error_In; eauto).
    rewrite (nth_get a' x 0) by lia. rewrite aset_Some by lia. eexists. split; [reflexivity|]. rewrite upd_length.
    split; [auto|]. intros j. rewrite nth_upd by lia. rewrite (firstn_snoc seg i x Ex), existsb_app. cbn [existsb].
    rewrite orb_false_r. destruct (Nat.eqb_spec x j) as [<- |Hn].
    + rewrite H2. rewrite Nat.eqb_refl, orb_true_r.
      destruct (existsb (Nat.eqb x) (firstn i seg)) eqn:B; [exfalso|cbn; lia].
      apply existsb_exists in B as (y & By & Bxy). apply Nat.eqb_eq in Bxy. subst y.
      apply In_nth_error in By as (k & Ek). assert (k < i).
      { assert (X : k < length (firstn i seg)) by (apply nth_error_Some; congruence). rewrite firstn_length in X. lia. }
      assert (Ek' : nth_error seg k = Some x).
      { rewrite <- (firstn_skipn i seg), nth_error_app1; auto. apply nth_error_Some. congruence. }
      assert (k = i); [|lia]. eapply NoDup_nth_error; eauto; [lia|congruence].
    + destruct (Nat.eqb_spec j x); [lia|]. rewrite orb_false_r. apply H2.
  - rewrite Nat.add_0_l, firstn_all in H2. exact H2.
Qed.

Lemma SS_lt_NoDup l : StronglySorted lt l -> NoDup l.
Proof.
  induction 1 as [|a l H1 IH H2]; constructor; auto. intros X. rewrite Forall_forall in H2. specialize (H2 _ X). lia.
Qed.

Lemma sparse_csr : exists m,
  extractSparseCsr f indices numLabels csrIndices indptr scores (calCreate numLabels) = Some m /\ length m = numLabels /\
  forall j row, nth_error m j = Some row -> exists p rest, row = (Some 0%Q, p) :: rest /\
    Forall2 (obs j) (with_entry scores j indices) rest /\
    (without_entry scores j indices = [] -> p = None) /\
    relevant_fraction labels j (without_entry scores j indices) p.
Proof.
  unfold extractSparseCsr. destruct sparse_bins as (m0 & E0 & Hm0 & Hb0). rewrite E0. cbv beta iota.
  edestruct (forN_inv (fun i '(m, ns, nr) => length m = numLabels /\ length ns = numLabels /\ length nr = numLabels /\
    forall j, j < numLabels -> ccell (length indices) j (firstn i indices) (nth j m []) (nth j ns 0) (nth j nr 0)))
    as ([[m ns] nr] & E & H1 & H2 & H3 & H4); [| |rewrite E; cbv beta iota].
  - cbv beta iota. rewrite !repeat_length. repeat (split; [auto|]). intros j Hj. rewrite Hb0 by auto. rewrite nth_repeat.
    exists []. split; [reflexivity|]. split; [constructor|]. split; [|reflexivity].
    assert (X : nth_error (repeat (length indices) numLabels) j = Some (length indices)) by (apply nth_error_repeat; auto).
    rewrite (nth_error_nth _ _ 0 X). cbn. lia.
  - intros i [[m ns] nr] Hi (A1 & A2 & A3 & A4).
    destruct (nth_error indices i) as [e|] eqn:Ee; [|apply nth_error_None in Ee; lia].
    assert (He : e < n) by (rewrite Forall_forall in HI; apply HI; eapply nth_error_In; eauto).
    destruct (csr_row n numLabels labels HL csrIndices indptr HC e He) as (lr & seg & El & Hlr & Eseg & S1 & S2).
    destruct (nth_error scores e) as [sr|] eqn:Es; [|apply nth_error_None in Es; lia].
    unfold aget at 1 2. rewrite Ee, Eseg, Es. cbv beta iota.
    destruct (count_loop seg numLabels (SS_lt_NoDup _ S1)) with (a := nr) as (nr1 & -> & N1 & N2); auto.
    { apply Forall_forall. intros x Hx. apply S2 in Hx. rewrite <- Hlr. apply nth_error_Some. congruence. }
    assert (Hrow : sparse_row numLabels sr) by (rewrite Forall_forall in HR; apply HR; eapply nth_error_In; eauto).
    destruct Hrow as (R1 & R2). 
    assert (Hne : nth e scores [] = sr) by (apply nth_error_nth; auto).
    assert (Hle : forall j, existsb (Nat.eqb j) seg = nth j (nth e labels []) false).
    { intros j. rewrite (nth_error_nth labels e [] El). destruct (existsb (Nat.eqb j) seg) eqn:B.
      - apply existsb_exists in B as (y & By & Bj). apply Nat.eqb_eq in Bj. subst y. apply S2 in By.
        symmetry. apply nth_error_nth. auto.
      - destruct (nth j lr false) eqn:Bn; auto. assert (nth_error lr j = Some true).
        { destruct (nth_error lr j) as [x|] eqn:Ex; [rewrite (nth_error_nth lr j false Ex) in Bn; congruence|].
          apply nth_error_None in Ex. rewrite nth_overflow in Bn; [discriminate|auto]. }
        apply S2 in H. assert (existsb (Nat.eqb j) seg = true) by (apply existsb_exists; exists j; split; auto; apply Nat.eqb_refl).
        congruence. }
    edestruct (forL_inv (fun (pre : list (nat * V)) '(m', ns', nr') => length m' = numLabels /\ length ns' = numLabels /\
      length nr' = numLabels /\ forall j, j < numLabels ->
      if existsb (Nat.eqb j) (map fst pre)
      then ccell (length indices) j (firstn i indices ++ [e]) (nth j m' []) (nth j ns' 0) (nth j nr' 0)
      else nth j m' [] = nth j m [] /\ nth j ns' 0 = nth j ns 0 /\ nth j nr' 0 = nth j nr1 0))
      with (pre := @nil (nat * V)) (l := sr) as ([[m' ns'] nr'] & E' & B1 & B2 & B3 & B4);
      [| |exists (m', ns', nr'); split; [exact E'|]].
    + cbv beta iota. split; [auto|]. split; [auto|]. split; [auto|]. intros j Hj. cbn [map existsb]. auto.
    + intros pre [j v] post [[m' ns'] nr'] Hsplit (C1 & C2 & C3 & C4). cbn [app] in Hsplit.
      assert (Hj : j < numLabels).
      { rewrite Forall_forall in R2. apply (R2 (j, v)). rewrite Hsplit. apply in_elt. }
      assert (Hnin : existsb (Nat.eqb j) (map fst pre) = false).
      { destruct (existsb (Nat.eqb j) (map fst pre)) eqn:B; auto. exfalso.
        apply existsb_exists in B as (y & By & Bj). apply Nat.eqb_eq in Bj. subst y.
        rewrite Hsplit, map_app in R1. cbn [map fst] in R1. apply NoDup_remove_2 in R1. apply R1. apply in_or_app. auto. }
      assert (Hin : In (j, v) sr) by (rewrite Hsplit; apply in_elt).
      assert (Hex : existsb (Nat.eqb j) (map fst sr) = true).
      { apply existsb_exists. exists j. split; [apply (in_map fst) in Hin; exact Hin|apply Nat.eqb_refl]. }
      pose proof (C4 j Hj) as Cj. rewrite Hnin in Cj. destruct Cj as (D1 & D2 & D3).
      destruct (A4 j Hj) as (rest & F1 & F2 & F3 & F4).
      destruct (nth_error lr j) as [b|] eqn:Eb; [|apply nth_error_None in Eb; lia].
      assert (Hb : existsb (Nat.eqb j) seg = b).
      { rewrite Hle, (nth_error_nth labels e [] El). apply nth_error_nth. auto. }
      rewrite add_bin by lia. unfold aget. rewrite (nth_get ns' j 0) by lia. rewrite aset_Some by lia.
      assert (Hnr : nth j nr' 0 = nth j nr 0 + b2n b) by (rewrite D3, N2, Hb; reflexivity).
      assert (Hcell : ccell (length indices) j (firstn i indices ++ [e])
         (nth j m' [] ++ [(f j v, trueProbabilityOf (Some 0%Q) (Some 1%Q) b)]) (nth j ns' 0 - 1) (nth j nr 0)).
      { unfold ccell. rewrite with_snoc, without_snoc. rewrite Hne, Hex, app_nil_r, D1, F1. eexists.
        split; [reflexivity|]. split; [|split].
        - apply Forall2_app; auto. repeat constructor. exists lr, sr, b, v. repeat split; auto.
        - rewrite D2, F3, app_length. cbn [length]. lia.
        - exact F4. }
      rewrite Hb. destruct b; cbn [b2n] in Hnr.
      * rewrite (nth_get nr' j 0) by lia. rewrite aset_Some by lia. eexists. split; [reflexivity|].
        cbv beta iota. rewrite !upd_length. repeat (split; [auto|]). intros k Hk. rewrite map_app, existsb_app.
        cbn [map fst existsb]. rewrite orb_false_r, !nth_upd by lia. rewrite (Nat.eqb_sym k j).
        destruct (Nat.eqb_spec j k) as [<- |Hn].
        -- rewrite orb_true_r. replace (nth j nr' 0 - 1) with (nth j nr 0) by lia. exact Hcell.
        -- rewrite orb_false_r. apply C4. auto.
      * eexists. split; [reflexivity|].
        cbv beta iota. rewrite !upd_length. repeat (split; [auto|]). intros k Hk. rewrite map_app, existsb_app.
        cbn [map fst existsb]. rewrite orb_false_r, !nth_upd by lia. rewrite (Nat.eqb_sym k j).
        destruct (Nat.eqb_spec j k) as [<- |Hn].
        -- rewrite orb_true_r. replace (nth j nr' 0) with (nth j nr 0) by lia. exact Hcell.
        -- rewrite orb_false_r. apply C4. auto.
    + cbn [app] in B4. repeat (split; [auto|]). intros j Hj. rewrite (firstn_snoc indices i e Ee).
      specialize (B4 j Hj). destruct (existsb (Nat.eqb j) (map fst sr)) eqn:Hex; [exact B4|].
      destruct B4 as (-> & -> & ->). destruct (A4 j Hj) as (rest & F1 & F2 & F3 & F4).
      unfold ccell. rewrite with_snoc, without_snoc. rewrite Hne, Hex, app_nil_r. exists rest.
      repeat (split; [auto|]). rewrite relevant_snoc, N2, F4, Hle. reflexivity.
  - rewrite Nat.add_0_l, firstn_all in H4.
    edestruct (forN_inv (fun i m' => length m' = numLabels /\
      (forall k, k < i -> k < numLabels -> exists rest, nth k m' [] = (Some 0%Q, quotientOf (nth k nr 0) (nth k ns 0)) :: rest /\
         Forall2 (obs k) (with_entry scores k indices) rest) /\
      (forall k, i <= k -> nth k m' [] = nth k m []))) as (m' & E' & B1 & B2 & _);
      [| |exists m'; split; [exact E'|split; [exact B1|]]].
    + split; [auto|]. split; [intros; lia|]. auto.
    + intros j m' Hj (C1 & C2 & C3). destruct (H4 j ltac:(lia)) as (rest & F1 & F2 & F3 & F4).
      unfold aget. rewrite (nth_get nr j 0), (nth_get ns j 0) by lia.
      unfold setFirstProbability, aget. rewrite (nth_get m' j []) by lia. rewrite C3, F1 by lia.
      cbn [nth_error fst]. unfold aset at 1. cbn [length Nat.ltb Nat.leb upd]. rewrite aset_Some by lia.
      eexists. split; [reflexivity|]. rewrite upd_length. split; [auto|].
      split; intros k Hk; rewrite nth_upd by lia; destruct (Nat.eqb_spec j k) as [<- |Hn]; try lia.
      * intros _. exists rest. auto.
      * apply C2. lia.
      * apply C3. lia.
    + intros j row Ej. assert (Hj : j < numLabels) by (rewrite <- B1; apply nth_error_Some; congruence).
      destruct (B2 j ltac:(lia) Hj) as (rest & X1 & X2). rewrite (nth_error_nth m' j [] Ej) in X1.
      destruct (H4 j Hj) as (rest' & F1 & F2 & F3 & F4).
      assert (HN : nth j ns 0 = length (without_entry scores j indices)).
      { rewrite F3. unfold with_entry, without_entry. clear. induction indices as [|a l IH]; auto. cbn [filter].
        assert (X : length (filter (fun e => existsb (Nat.eqb j) (map fst (nth e scores []))) l) <= length l) by apply filter_shorter.
        destruct (existsb (Nat.eqb j) (map fst (nth a scores []))); cbn [negb length]; lia. }
      exists (quotientOf (nth j nr 0) (nth j ns 0)), rest. split; [exact X1|]. split; [exact X2|].
      rewrite HN, F4. split.
      * intros ->. reflexivity.
      * intros Hn. unfold quotientOf. destruct (length (without_entry scores j indices)) as [|k] eqn:Ek;
          [destruct (without_entry scores j indices); [congruence|discriminate]|].
        eexists. split; [reflexivity|]. rewrite Qmult_comm. apply Qmult_div_r.
        intros X. unfold Qeq in X. cbn in X. lia.
Qed.
End Sparse.

(** * Fitting *)

Lemma fit_lists sort m : sorts sort -> Forall (fun bins => bins <> []) m ->
  exists out, fitLists sort m = Some out /\ length out = length m /\
    forall i bins, nth_error m i = Some bins -> exists b, nth_error out i = Some b /\ fitSorted (sort bins) = Some b.
Proof.
  intros Hs HF. unfold fitLists.
  edestruct (forN_inv (fun i out => length out = length m /\
    (forall k bins, k < i -> nth_error m k = Some bins -> exists b, nth_error out k = Some b /\ fitSorted (sort bins) = Some b) /\
    (forall k, i <= k -> nth_error out k = nth_error m k))) as (out & E & H1 & H2 & _);
    [| |exists out; split; [exact E|split; [exact H1|]]].
  - split; [auto|]. split; [intros; lia|]. auto.
  - intros i out Hi (A1 & A2 & A3). unfold aget. rewrite A3 by lia.
    destruct (nth_error m i) as [bins|] eqn:Eb; [|apply nth_error_None in Eb; lia].
    destruct (Hs bins) as (P1 & P2).
    assert (Hne : bins <> []) by (rewrite Forall_forall in HF; apply HF; eapply nth_error_In; eauto).
    destruct (fit_lemma bins (sort bins) Hne P1 P2) as (b & Eb' & _). rewrite Eb'. rewrite aset_Some by lia.
    eexists. split; [reflexivity|]. rewrite upd_length. split; [auto|]. split.
    + intros k bins' Hk Ek. destruct (Nat.eq_dec k i) as [-> |Hn].
      * rewrite nth_error_upd_eq by lia. assert (bins' = bins) as -> by congruence. eauto.
      * rewrite nth_error_upd_neq by auto. apply A2; auto. lia.
    + intros k Hk. rewrite nth_error_upd_neq by lia. apply A3. lia.
  - intros i bins Ei. apply H2; auto. assert (i < length m) by (apply nth_error_Some; congruence). lia.
Qed.

Lemma calibrated sort bins out : sorts sort -> bins <> [] -> 
  (forall b, In b bins -> (0 <= fst b <= 1)%Q /\ (0 <= snd b <= 1)%Q) -> fitSorted (sort bins) = Some out ->
  forall p, (0 < p <= 1)%Q -> exists v, calibrateProbability out p = Some (Some v) /\ (0 <= v <= 1)%Q.
Proof.
  intros Hs Hne HR HF p Hp. destruct (Hs bins) as (P1 & P2).
  destruct (C27_calibration_lemma bins (sort bins) out Hne P1 P2 HR HF) as (X & _).
  destruct (X p Hp) as (v & X1 & X2 & _). eauto.
Qed.

Lemma observed {A} (R : A -> Q * Q -> Prop) l bins : l <> [] -> Forall2 R l bins ->
  (forall a b, R a b -> (0 <= fst b <= 1)%Q /\ (0 <= snd b <= 1)%Q) ->
  bins <> [] /\ (forall b, In b bins -> (0 <= fst b <= 1)%Q /\ (0 <= snd b <= 1)%Q).
Proof.
  intros Hne HF HR. split; [destruct HF; congruence|]. clear Hne. induction HF as [|a b l bins H1 H2 IH]; [intros b []|].
  intros b' [<- |Hb]; eauto.
Qed.

Lemma C125_marginal_lemma :
  forall (V P : Type) (zero one : P) (f : nat -> V -> P) (indices : list nat) (n numLabels : nat)
         (labels : list (list bool)) (scores : list (list V)),
    has_shape n numLabels labels -> has_shape n numLabels scores -> Forall (fun e => e < n) indices ->
    exists m, extractMarginalDense zero one f indices numLabels labels scores (calCreate numLabels) = Some m /\
      length m = numLabels /\
      forall j bins, nth_error m j = Some bins ->
        Forall2 (marginal_observation zero one f labels scores j) indices bins.
Proof. intros. eapply marginal_dense; eauto. Qed.

Lemma C125_marginal_csr_lemma :
  forall (V P : Type) (zero one : P) (f : nat -> V -> P) (indices : list nat) (n numLabels : nat)
         (labels : list (list bool)) (scores : list (list V)) (csrIndices indptr : list nat),
    has_shape n numLabels labels -> Forall (fun e => e < n) indices ->
    csr_represents csrIndices indptr labels ->
    extractMarginalCsr zero one f indices numLabels csrIndices indptr scores (calCreate numLabels) =
    extractMarginalDense zero one f indices numLabels labels scores (calCreate numLabels).
Proof. intros. eapply marginal_csr; eauto. Qed.

Lemma C125_joint_lemma :
  forall (V P : Type) (zero one : P) (g : nat -> list nat -> V -> P) (indices : list nat) (n numLabels : nat)
         (labels : list (list bool)) (scores : list V) (labelVectors : list (list nat)),
    has_shape n numLabels labels -> length scores = n -> Forall (fun e => e < n) indices ->
    exists m, extractJointDense zero one g indices labels scores labelVectors (calCreate (length labelVectors)) = Some m /\
      length m = length labelVectors /\
      forall i labelVector bins, nth_error labelVectors i = Some labelVector -> nth_error m i = Some bins ->
        Forall2 (joint_observation zero one g labels scores i labelVector) indices bins.
Proof. intros. eapply joint_dense; eauto. Qed.

Lemma C125_joint_csr_lemma :
  forall (V P : Type) (zero one : P) (g : nat -> list nat -> V -> P) (indices : list nat) (n numLabels : nat)
         (labels : list (list bool)) (scores : list V) (labelVectors : list (list nat)) (csrIndices indptr : list nat),
    has_shape n numLabels labels -> Forall (fun e => e < n) indices ->
    csr_represents csrIndices indptr labels ->
    extractJointCsr zero one g indices csrIndices indptr scores labelVectors (calCreate (length labelVectors)) =
    extractJointDense zero one g indices labels scores labelVectors (calCreate (length labelVectors)).
Proof. intros. eapply joint_csr; eauto. Qed.

Lemma C126_dense_labels_lemma :
  forall (V : Type) (f : nat -> V -> option Q) (indices : list nat) (n numLabels : nat) (labels : list (list bool))
         (scores : list (list (nat * V))),
    has_shape n numLabels labels -> length scores = n -> Forall (fun e => e < n) indices ->
    exists m, extractSparseDense f indices numLabels labels scores (calCreate numLabels) = Some m /\
      length m = numLabels /\
      forall j row, nth_error m j = Some row -> exists p rest, row = (Some 0%Q, p) :: rest /\
        Forall2 (sparse_observation (Some 0%Q) (Some 1%Q) f labels scores j) (with_entry scores j indices) rest /\
        (without_entry scores j indices = [] -> p = Some 0%Q) /\
        relevant_fraction labels j (without_entry scores j indices) p.
Proof. intros. eapply sparse_dense; eauto. Qed.

Lemma C126_csr_labels_lemma :
  forall (V : Type) (f : nat -> V -> option Q) (indices : list nat) (n numLabels : nat) (labels : list (list bool))
         (scores : list (list (nat * V))) (csrIndices indptr : list nat),
    has_shape n numLabels labels -> length scores = n -> Forall (sparse_row numLabels) scores ->
    Forall (fun e => e < n) indices -> csr_represents csrIndices indptr labels ->
    exists m, extractSparseCsr f indices numLabels csrIndices indptr scores (calCreate numLabels) = Some m /\
      length m = numLabels /\
      forall j row, nth_error m j = Some row -> exists p rest, row = (Some 0%Q, p) :: rest /\
        Forall2 (sparse_observation (Some 0%Q) (Some 1%Q) f labels scores j) (with_entry scores j indices) rest /\
        (without_entry scores j indices = [] -> p = None) /\
        relevant_fraction labels j (without_entry scores j indices) p.
Proof. intros. eapply sparse_csr; eauto. Qed.

Lemma C126_refuted_scores_lemma :
  exists (f : nat -> Q -> option Q) indices labels sparse dense m m' threshold probability,
    has_shape 1 1 labels /\ Forall2 same_values sparse dense /\ Forall (sparse_row 1) sparse /\
    extractMarginalDense (Some 0%Q) (Some 1%Q) f indices 1 labels dense (calCreate 1) = Some [m] /\
    extractSparseDense f indices 1 labels sparse (calCreate 1) = Some [m'] /\
    In (Some threshold, probability) m' /\
    forall t p, In (Some t, p) m -> ~ (t == threshold)%Q.
Proof.
  exists (fun _ s => Some ((s + 1) / 2)%Q), [0], [[true]], [[]], [[0%Q]]. do 4 eexists.
  split; [split; [reflexivity|repeat constructor]|]. split; [|split; [|split; [reflexivity|split; [reflexivity|split]]]].
  - constructor; [|constructor]. split; [constructor|]. intros j Hj. split; [intros v []|]. intros _.
    destruct j as [|j]; [reflexivity|cbn in Hj; lia].
  - repeat constructor.
  - left. reflexivity.
  - cbn. intros t p [[= <- <-]|[]]. discriminate.
Qed.

Lemma C126_refuted_labels_lemma :
  exists (f : nat -> Q -> option Q) indices labels csrIndices indptr scores m m',
    has_shape 1 1 labels /\ csr_represents csrIndices indptr labels /\ Forall (sparse_row 1) scores /\
    extractSparseDense f indices 1 labels scores (calCreate 1) = Some m /\
    extractSparseCsr f indices 1 csrIndices indptr scores (calCreate 1) = Some m' /\
    m = [[(Some 0%Q, Some 0%Q); (Some (3 # 4)%Q, Some 1%Q)]] /\
    m' = [[(Some 0%Q, None); (Some (3 # 4)%Q, Some 1%Q)]].
Proof.
  exists (fun _ s => Some s), [0], [[true]], [0], [0; 1], [[(0, (3 # 4)%Q)]]. do 2 eexists.
  split; [split; [reflexivity|repeat constructor]|]. split; [|split; [|split; [vm_compute; reflexivity|split; [vm_compute; reflexivity|split; reflexivity]]]].
  - intros r row E. destruct r as [|r]; [|destruct r; discriminate]. injection E as <-.
    exists 0, 1, [0]. split; [reflexivity|]. split; [reflexivity|]. split; [cbn; lia|]. split; [reflexivity|].
    split; [repeat constructor|]. intros j. destruct j as [|[|j]]; cbn [nth_error In]; split.
    + reflexivity.
    + left. reflexivity.
    + intros [X|[]]. discriminate.
    + discriminate.
    + intros [X|[]]. discriminate.
    + discriminate.
  - repeat constructor. intros [].
Qed.

Lemma C127_marginal_lemma :
  forall (V : Type) (sort : list (Q * Q) -> list (Q * Q)) (f : nat -> V -> Q) (indices : list nat) (n numLabels : nat)
         (labels : list (list bool)) (scores : list (list V)),
    sorts sort -> (forall j s, (0 <= f j s <= 1)%Q) ->
    has_shape n numLabels labels -> has_shape n numLabels scores -> Forall (fun e => e < n) indices ->
    indices <> [] ->
    exists out, fitMarginal sort f indices numLabels labels scores = Some out /\ length out = numLabels /\
      forall j bins p, nth_error out j = Some bins -> (0 < p <= 1)%Q ->
        exists v, calibrateProbability bins p = Some (Some v) /\ (0 <= v <= 1)%Q.
Proof.
  intros V sort f indices n numLabels labels scores Hs Hf HL HS HI Hne. unfold fitMarginal.
  destruct (marginal_dense 0%Q 1%Q f indices n numLabels labels scores HL HS HI) as (m & -> & Hm & HO).
  assert (X : forall j bins, nth_error m j = Some bins ->
    bins <> [] /\ (forall b, In b bins -> (0 <= fst b <= 1)%Q /\ (0 <= snd b <= 1)%Q)).
  { intros j bins Ej. eapply observed; [exact Hne|apply (HO j bins Ej)|].
    intros a b (lr & sr & l & v & _ & _ & _ & _ & ->). cbn [fst snd]. split; [apply Hf|destruct l; lra]. }
  destruct (fit_lists sort m Hs) as (out & E & H1 & H2).
  { apply Forall_forall. intros bins Hb. apply In_nth_error in Hb as (j & Hj). apply (X j bins Hj). }
  exists out. split; [exact E|]. split; [lia|]. intros j bins p Ej Hp.
  destruct (nth_error m j) as [b0|] eqn:Em.
  - destruct (H2 j b0 Em) as (b & Eb & EF). assert (b = bins) as -> by congruence.
    destruct (X j b0 Em) as (X1 & X2). eapply calibrated; eauto.
  - apply nth_error_None in Em. assert (j < length out) by (apply nth_error_Some; congruence). lia.
Qed.

Lemma C127_joint_lemma :
  forall (V : Type) (sort : list (Q * Q) -> list (Q * Q)) (g : nat -> list nat -> V -> Q) (indices : list nat)
         (n numLabels : nat) (labels : list (list bool)) (scores : list V) (labelVectors : list (list nat)),
    sorts sort -> (forall i labelVector s, (0 <= g i labelVector s <= 1)%Q) ->
    has_shape n numLabels labels -> length scores = n -> Forall (fun e => e < n) indices ->
    indices <> [] ->
    exists out, fitJoint sort g indices labels scores labelVectors = Some out /\ length out = length labelVectors /\
      forall i bins p, nth_error out i = Some bins -> (0 < p <= 1)%Q ->
        exists v, calibrateProbability bins p = Some (Some v) /\ (0 <= v <= 1)%Q.
Proof.
  intros V sort g indices n numLabels labels scores lvs Hs Hf HL HS HI Hne. unfold fitJoint.
  destruct (joint_dense 0%Q 1%Q g indices n numLabels labels scores lvs HL HS HI) as (m & -> & Hm & HO).
  assert (X : forall j bins, nth_error m j = Some bins ->
    bins <> [] /\ (forall b, In b bins -> (0 <= fst b <= 1)%Q /\ (0 <= snd b <= 1)%Q)).
  { intros j bins Ej. destruct (nth_error lvs j) as [lv|] eqn:Elv.
    - eapply observed; [exact Hne|apply (HO j lv bins Elv Ej)|].
      intros a b (lr & sr & l & _ & _ & _ & ->). cbn [fst snd]. split; [apply Hf|destruct l; lra].
    - apply nth_error_None in Elv. assert (j < length m) by (apply nth_error_Some; congruence). lia. }
  destruct (fit_lists sort m Hs) as (out & E & H1 & H2).
  { apply Forall_forall. intros bins Hb. apply In_nth_error in Hb as (j & Hj). apply (X j bins Hj). }
  exists out. split; [exact E|]. split; [lia|]. intros j bins p Ej Hp.
  destruct (nth_error m j) as [b0|] eqn:Em.
  - destruct (H2 j b0 Em) as (b & Eb & EF). assert (b = bins) as -> by congruence.
    destruct (X j b0 Em) as (X1 & X2). eapply calibrated; eauto.
  - apply nth_error_None in Em. assert (j < length out) by (apply nth_error_Some; congruence). lia.
Qed.

Lemma fit_empty :
  forall (V : Type) (sort : list (Q * Q) -> list (Q * Q)) (f : nat -> V -> Q) (numLabels : nat)
         (labels : list (list bool)) (scores : list (list V)) (first : list nat),
    sorts sort -> 0 < numLabels ->
    fitMarginal sort f (calibrationExamples true first []) numLabels labels scores = None.
Proof.
  intros V sort f k labels scores first Hs Hk. unfold fitMarginal, calibrationExamples, extractMarginalDense.
  cbn [length forN]. unfold fitLists, calCreate. rewrite repeat_length. destruct k as [|k]; [lia|].
  cbn [forN repeat]. unfold aget at 1. cbn [nth_error].
  destruct (Hs []) as (P1 & _). apply Permutation_nil in P1. rewrite P1. reflexivity.
Qed.

Lemma C127_refuted_lemma :
  exists n size numTraining numHoldout,
    (1 <= n < 2 ^ 32)%Z /\ isFloat32 size /\ (0 < size < one)%Z /\
    holdoutSizes (Finite size) n = Some (numTraining, numHoldout) /\
    forall (V : Type) (sort : list (Q * Q) -> list (Q * Q)) (f : nat -> V -> Q) (numLabels : nat)
           (labels : list (list bool)) (scores : list (list V)) (first second : list nat),
      sorts sort -> 0 < numLabels -> Z.of_nat (length second) = numHoldout ->
      fitMarginal sort f (calibrationExamples true first second) numLabels labels scores = None.
Proof.
  destruct holdout_empty as (n & size & numTraining & H1 & H2 & H3 & H4). exists n, size, numTraining, 0%Z.
  repeat (split; [assumption|]). intros. destruct second; [|discriminate]. apply fit_empty; auto.
Qed.

Lemma insert_perm x l : Permutation (x :: l) (insert_bin x l).
Proof.
  induction l as [|b l IH]; cbn [insert_bin]; auto. destruct (Qlt_le_dec (fst b) (fst x)); auto.
  rewrite perm_swap. apply perm_skip. exact IH.
Qed.

Lemma insert_SS x l : StronglySorted (fun a b => (fst a <= fst b)%Q) l ->
  StronglySorted (fun a b => (fst a <= fst b)%Q) (insert_bin x l).
Proof.
  induction 1 as [|b l H1 IH H2]; cbn [insert_bin]; [repeat constructor|]. destruct (Qlt_le_dec (fst b) (fst x)) as [Hl|Hl].
  - constructor; auto. apply Forall_forall. intros y Hy. apply (Permutation_in _ (Permutation_sym (insert_perm x l))) in Hy.
    destruct Hy as [<- |Hy]; [lra|]. rewrite Forall_forall in H2. auto.
  - constructor; [constructor; auto|]. constructor; auto. eapply Forall_impl; [|exact H2]. cbn beta. intros. lra.
Qed.

Lemma SS_nth {A} (R : A -> A -> Prop) l : StronglySorted R l ->
  forall i j a b, i < j -> nth_error l i = Some a -> nth_error l j = Some b -> R a b.
Proof.
  induction 1 as [|x l H1 IH H2]; intros [|i] [|j] a b Hij Ha Hb; try lia; try discriminate; cbn [nth_error] in *.
  - injection Ha as <-. rewrite Forall_forall in H2. apply H2. eapply nth_error_In; eauto.
  - apply (IH i j); auto. lia.
Qed.

Lemma insertion_sorts : sorts insertion_sort.
Proof.
  intros bins. split.
  - induction bins as [|b bins IH]; cbn; auto. etransitivity; [apply perm_skip; exact IH|]. apply insert_perm.
  - apply (SS_nth (fun a b => (fst a <= fst b)%Q)). induction bins as [|b bins IH]; cbn; [constructor|]. apply insert_SS. exact IH.
Qed.
