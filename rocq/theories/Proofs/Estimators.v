(** Proofs about the matrices and feature types that are handed from Python to C++. *)
From Coq Require Import List Bool Arith ZArith NArith Lia.
From Verif Require Import Lib.Arr Model.Containers Model.Estimators Proofs.Containers Spec.Estimators.
Import ListNotations.

(** ** Matrices *)

Definition shaped {V} (rows cols : nat) (m : list (list V)) : Prop := length m = rows /\ Forall (fun r => length r = cols) m.

Lemma full_shaped {V} rows cols (v : V) : shaped rows cols (full rows cols v).
Proof.
  unfold full. split; [apply repeat_length|]. apply Forall_forall. intros r H. apply repeat_spec in H. subst. apply repeat_length.
Qed.

Lemma shaped_row {V} rows cols (m : list (list V)) i : shaped rows cols m -> i < rows ->
  exists r, nth_error m i = Some r /\ length r = cols.
Proof.
  intros [L F] H. destruct (nth_error m i) as [r|] eqn:E.
  - exists r. split; auto. rewrite Forall_forall in F. apply F. eapply nth_error_In; eauto.
  - apply nth_error_None in E. lia.
Qed.

Lemma nth_error_some {A} (l : list A) i : i < length l -> exists v, nth_error l i = Some v.
Proof. intros H. destruct (nth_error l i) eqn:E; eauto. apply nth_error_None in E. lia. Qed.

Lemma shaped_get {V} rows cols (m : list (list V)) i j : shaped rows cols m -> i < rows -> j < cols -> exists v, mget m i j = Some v.
Proof.
  intros S Hi Hj. destruct (shaped_row _ _ _ _ S Hi) as (r & E & L). unfold mget, aget. rewrite E.
  apply nth_error_some. lia.
Qed.

Lemma upd_Forall {A} (P : A -> Prop) l i v : Forall P l -> P v -> Forall P (upd l i v).
Proof. intros F Hv. revert i. induction F; intros [|i]; simpl; auto. Qed.

Lemma shaped_set {V} rows cols (m : list (list V)) i j v : shaped rows cols m -> i < rows -> j < cols ->
  exists m', mset m i j v = Some m' /\ shaped rows cols m' /\
    forall i' j', mget m' i' j' = if (i =? i') && (j =? j') then Some v else mget m i' j'.
Proof.
  intros S Hi Hj. destruct (shaped_row _ _ _ _ S Hi) as (r & E & L).
  unfold mset, aget. rewrite E. unfold aset.
  destruct (Nat.ltb_spec j (length r)) as [_|]; [|lia].
  destruct S as [Lm F].
  destruct (Nat.ltb_spec i (length m)) as [_|]; [|lia].
  eexists. split; [reflexivity|]. split.
  - split; [now rewrite upd_length|]. apply upd_Forall; auto. now rewrite upd_length.
  - intros i' j'. unfold mget, aget. destruct (Nat.eqb_spec i i') as [<-|N]; simpl.
    + rewrite nth_error_upd_eq by lia. rewrite E. destruct (Nat.eqb_spec j j') as [<-|N].
      * apply nth_error_upd_eq. lia.
      * apply nth_error_upd_neq. auto.
    + rewrite nth_error_upd_neq by auto. reflexivity.
Qed.

Lemma full_get {V} rows cols (v : V) i j : i < rows -> j < cols -> mget (full rows cols v) i j = Some v.
Proof.
  intros Hi Hj. unfold mget, aget, full. rewrite nth_error_repeat by lia. apply nth_error_repeat. lia.
Qed.

Definition inRange {V} (rows cols : nat) (l : list ((nat * nat) * V)) : Prop :=
  Forall (fun e => fst (fst e) < rows /\ snd (fst e) < cols) l.

(** Adding stored elements that are all different. *)
Lemma addSparse_get {V} (add : V -> V -> V) rows cols stored : forall m, shaped rows cols m -> inRange rows cols stored ->
  NoDup (map fst stored) ->
  exists m', addSparse add stored m = Some m' /\ shaped rows cols m' /\
    (forall i j, ~ In (i, j) (map fst stored) -> mget m' i j = mget m i j) /\
    (forall i j v w, In ((i, j), v) stored -> mget m i j = Some w -> mget m' i j = Some (add w v)).
Proof.
  unfold addSparse. induction stored as [|[[a b] x] stored IH]; intros m S R ND; simpl.
  - exists m. split; auto. split; auto. split; [auto|]. intros i j v w [].
  - inversion R as [|e l [Ha Hb] R' Eq]; subst. simpl in Ha, Hb. inversion ND as [|e l NI ND' Eq]; subst.
    destruct (shaped_get _ _ _ _ _ S Ha Hb) as [y Ey]. rewrite Ey.
    destruct (shaped_set _ _ _ _ _ (add y x) S Ha Hb) as (m1 & E1 & S1 & G1). rewrite E1.
    destruct (IH m1 S1 R' ND') as (m2 & E2 & S2 & G2 & G3). exists m2. split; auto. split; auto. split.
    + intros i j N. rewrite G2 by (intros H; apply N; right; exact H). rewrite G1.
      destruct (Nat.eqb_spec a i) as [->|]; simpl; auto. destruct (Nat.eqb_spec b j) as [->|]; simpl; auto.
      destruct N. now left.
    + intros i j v w [Eq|H] Ew.
      * injection Eq as -> -> ->. rewrite G2 by exact NI. rewrite G1, !Nat.eqb_refl. simpl. congruence.
      * apply G3; auto. rewrite G1.
        destruct (Nat.eqb_spec a i) as [->|]; simpl; auto. destruct (Nat.eqb_spec b j) as [->|]; simpl; auto.
        destruct NI. change (i, j) with (fst ((i, j), v)). now apply in_map.
Qed.

Definition pairDec : forall x y : nat * nat, {x = y} + {x <> y}.
Proof. decide equality; apply Nat.eq_dec. Defined.

(** Setting elements to zero. *)
Lemma setZero_get rows cols (stored : list ((nat * nat) * fvalue)) : forall m, shaped rows cols m -> inRange rows cols stored ->
  exists m', forL stored (fun e (m : list (list fvalue)) => mset m (fst (fst e)) (snd (fst e)) (Some 0%Z)) m = Some m' /\ shaped rows cols m' /\
    (forall i j, ~ In (i, j) (map fst stored) -> mget m' i j = mget m i j) /\
    (forall i j, In (i, j) (map fst stored) -> mget m' i j = Some (Some 0%Z)).
Proof.
  induction stored as [|[[a b] x] stored IH]; intros m S R; simpl.
  - exists m. split; auto. split; auto. split; [auto|]. intros i j [].
  - inversion R as [|e l [Ha Hb] R' Eq]; subst. simpl in Ha, Hb.
    destruct (shaped_set _ _ _ _ _ (Some 0%Z : fvalue) S Ha Hb) as (m1 & E1 & S1 & G1).
    rewrite E1.
    destruct (IH m1 S1 R') as (m2 & E2 & S2 & G2 & G3). exists m2. split; auto. split; auto. split.
    + intros i j N. rewrite G2 by (intros H; apply N; right; exact H). rewrite G1.
      destruct (Nat.eqb_spec a i) as [->|]; simpl; auto. destruct (Nat.eqb_spec b j) as [->|]; simpl; auto.
      destruct N. now left.
    + intros i j H. destruct (in_dec pairDec (i, j) (map fst stored))
        as [I|N]; [now apply G3|].
      destruct H as [Eq|H]; [|contradiction]. injection Eq as -> ->. rewrite G2 by auto. now rewrite G1, !Nat.eqb_refl.
Qed.

Lemma filter_inRange {V} rows cols (f : (nat * nat) * V -> bool) l : inRange rows cols l -> inRange rows cols (filter f l).
Proof. intros R. apply Forall_forall. intros e H. apply filter_In in H. unfold inRange in R. rewrite Forall_forall in R. now apply R. Qed.

Lemma isZero_spec v : isZero v = true <-> v = Some 0%Z.
Proof.
  destruct v as [z|]; simpl; [|split; discriminate]. rewrite Z.eqb_eq. split; [now intros ->|now intros [= ->]].
Qed.

Lemma addValues_0_l v : addValues (Some 0%Z) v = v.
Proof. destruct v; reflexivity. Qed.

(** The values of a dense matrix that is created from a sparse one. *)
Lemma enforceDense_get s sv : NoDup (map fst (sstored s)) -> inRange (srows s) (scols s) (sstored s) ->
  (sv = Some 0%Z \/ forall ij, ~ In (ij, Some 0%Z) (sstored s)) ->
  exists m, enforceDense s sv = Some m /\ shaped (srows s) (scols s) m /\
    forall i j, i < srows s -> j < scols s ->
      (forall v, In ((i, j), v) (sstored s) -> mget m i j = Some v) /\
      (~ In (i, j) (map fst (sstored s)) -> mget m i j = Some sv).
Proof.
  intros ND R Z. unfold enforceDense. destruct (isZero sv) eqn:Ez.
  - apply isZero_spec in Ez. subst sv. simpl.
    destruct (addSparse_get addValues _ _ _ _ (full_shaped (srows s) (scols s) (Some 0%Z)) R ND) as (m & E & S & G1 & G2).
    exists m. split; auto. split; auto. intros i j Hi Hj. split.
    + intros v H. rewrite (G2 _ _ _ (Some 0%Z) H) by now apply full_get. now rewrite addValues_0_l.
    + intros N. rewrite G1 by auto. now apply full_get.
  - destruct Z as [->|Z]; [discriminate|]. cbn [negb].
    assert (Rz : inRange (srows s) (scols s) (nonzero (sstored s))) by now apply filter_inRange.
    destruct (setZero_get _ _ _ _ (full_shaped (srows s) (scols s) sv) Rz) as (m1 & E1 & S1 & G1 & G2).
    cbv zeta. rewrite E1.
    destruct (addSparse_get addValues _ _ _ _ S1 R ND) as (m & E & S & G3 & G4).
    exists m. split; auto. split; auto. intros i j Hi Hj. split.
    + intros v H. rewrite (G4 _ _ _ (Some 0%Z) H); [now rewrite addValues_0_l|]. apply G2.
      change (i, j) with (fst ((i, j), v)). apply in_map. apply filter_In. split; auto. simpl.
      destruct (isZero v) eqn:Ev; auto. apply isZero_spec in Ev. subst v. now apply Z in H.
    + intros N. rewrite G3 by auto. rewrite G1.
      * now apply full_get.
      * intros H. apply N. apply in_map_iff in H. destruct H as (e & Ee & H). apply filter_In in H. rewrite <- Ee. now apply in_map, H.
Qed.

Lemma NoDup_fst_eq {V} (l : list ((nat * nat) * V)) ij v w : NoDup (map fst l) -> In (ij, v) l -> In (ij, w) l -> v = w.
Proof.
  induction l as [|[a x] l IH]; intros ND H1 H2; [destruct H1|]. inversion ND as [|? ? NI ND']; subst.
  destruct H1 as [E1|H1]; destruct H2 as [E2|H2].
  - congruence.
  - injection E1 as -> ->. destruct NI. change ij with (fst (ij, w)). now apply in_map.
  - injection E2 as -> ->. destruct NI. change ij with (fst (ij, v)). now apply in_map.
  - now apply IH.
Qed.

Lemma mget_spec {V} (m : list (list V)) i j v : mget m i j = Some v <-> exists row, nth_error m i = Some row /\ nth_error row j = Some v.
Proof.
  unfold mget, aget. destruct (nth_error m i) as [r|]; split.
  - intros H. eauto.
  - intros (r' & E & H). congruence.
  - discriminate.
  - intros (r' & E & H). discriminate.
Qed.

Lemma dense_element s sv m : enforceDense s sv = Some m -> NoDup (map fst (sstored s)) -> inRange (srows s) (scols s) (sstored s) ->
  (sv = Some 0%Z \/ forall ij, ~ In (ij, Some 0%Z) (sstored s)) ->
  forall i j v, i < srows s -> j < scols s -> elementIs (DenseMatrix m) i j v <-> given (SparseInput s) sv i j v.
Proof.
  intros E ND R Z i j v Hi Hj. destruct (enforceDense_get s sv ND R Z) as (m' & E' & S & G).
  replace m' with m in * by congruence. destruct (G i j Hi Hj) as [G1 G2].
  cbn [elementIs given]. rewrite <- mget_spec. split.
  - intros H. destruct (in_dec pairDec (i, j) (map fst (sstored s))) as [I|N].
    + left. apply in_map_iff in I. destruct I as ([ij w] & Ee & I). simpl in Ee. subst ij. rewrite (G1 w I) in H. now injection H as ->.
    + right. split; auto. rewrite G2 in H by auto. congruence.
  - intros [H|[N ->]]; [now apply G1|now apply G2].
Qed.

Lemma feature_values :
  forall colWise p x sparseValue m, validInput x -> (sparseValue = Some 0%Z \/ ~ storesZero (Some 0%Z) x) ->
  createFeatureMatrix colWise p x sparseValue = Some (Created m) ->
  forall i j v, inShape x i j -> (elementIs m i j v <-> given x sparseValue i j v).
Proof.
  intros c p x sv m V Z E i j v SH. unfold createFeatureMatrix in E.
  destruct (shouldEnforceSparse p x c 4 true) as [b|]; [|discriminate]. destruct x as [d|s].
  - injection E as <-. reflexivity.
  - destruct V as [ND R]. destruct SH as [Hi Hj]. destruct b.
    + unfold createSparse in E. destruct (sstored s) eqn:Es; [discriminate|]. injection E as <-. simpl. rewrite Es.
      split; [intros [_ H]; exact H|auto].
    + destruct (enforceDense s sv) as [d|] eqn:Ed; [|discriminate]. injection E as <-.
      apply dense_element; auto. destruct Z as [->|Z]; auto. right. intros ij H. apply Z. now exists ij.
Qed.

Lemma regression_values :
  forall p y m, validInput y -> createRegressionMatrix p y = Some (Created m) ->
  forall i j v, inShape y i j -> (elementIs m i j v <-> given y (Some 0%Z) i j v).
Proof.
  intros p x m V E i j v SH. unfold createRegressionMatrix in E.
  destruct (shouldEnforceSparse p x false 1 false) as [b|]; [|discriminate]. destruct x as [d|s].
  - injection E as <-. reflexivity.
  - destruct V as [ND R]. destruct SH as [Hi Hj]. destruct b.
    + unfold createSparse in E. destruct (sstored s) eqn:Es; [discriminate|]. injection E as <-. simpl. rewrite Es.
      split; [intros [_ H]; exact H|auto].
    + destruct (enforceDense s (Some 0%Z)) as [d|] eqn:Ed; [|discriminate]. injection E as <-.
      apply dense_element; auto.
Qed.

Lemma usable_supported {V} (s : smatrix V) : usable (SparseInput s) -> supportedFormat (sfmt s) = true /\ sstored s <> [].
Proof. intros [H1 H2]. split; auto. simpl in H1. destruct (sfmt s); auto; exfalso; intuition discriminate. Qed.

Lemma addSparse_any {V} (add : V -> V -> V) rows cols stored : forall m, shaped rows cols m -> inRange rows cols stored ->
  exists m', addSparse add stored m = Some m' /\ shaped rows cols m'.
Proof.
  unfold addSparse. induction stored as [|[[a b] x] stored IH]; intros m S R; simpl; eauto.
  inversion R as [|e l [Ha Hb] R' Eq]; subst. simpl in Ha, Hb.
  destruct (shaped_get _ _ _ _ _ S Ha Hb) as [y Ey]. rewrite Ey.
  destruct (shaped_set _ _ _ _ _ (add y x) S Ha Hb) as (m1 & E1 & S1 & _). rewrite E1. now apply IH.
Qed.

Lemma enforceDense_any s sv : inRange (srows s) (scols s) (sstored s) -> exists m, enforceDense s sv = Some m.
Proof.
  intros R. unfold enforceDense. destruct (negb (isZero sv)).
  - destruct (setZero_get _ _ _ _ (full_shaped (srows s) (scols s) sv) (filter_inRange _ _ (fun e => negb (isZero (snd e))) _ R))
      as (m1 & E1 & S1 & _).
    cbv zeta. unfold nonzero. rewrite E1. destruct (addSparse_any addValues _ _ _ _ S1 R) as (m & E & _). eauto.
  - destruct (addSparse_any addValues _ _ _ _ (full_shaped (srows s) (scols s) (Some 0%Z)) R) as (m & E & _). eauto.
Qed.

Lemma feature_created :
  forall colWise p x sparseValue, validInput x -> usable x ->
  exists m, createFeatureMatrix colWise p x sparseValue = Some (Created m).
Proof.
  intros c p x sv V U. unfold createFeatureMatrix. destruct x as [d|s]; simpl.
  - eauto.
  - apply usable_supported in U. destruct U as [F N]. rewrite F. destruct V as [_ R].
    destruct (enforceDense_any s sv R) as [m Em]. rewrite Em. unfold createSparse.
    destruct (sstored s) eqn:Es; [now destruct N|].
    destruct p; try destruct (memoryEfficient s c 4 true); eauto.
Qed.

(** ** Labels *)

Lemma nth_error_map_map (f : Z -> Z) (m : list (list Z)) i j :
  mget (map (map f) m) i j = option_map f (mget m i j).
Proof.
  unfold mget, aget. rewrite nth_error_map. destruct (nth_error m i) as [r|]; simpl; auto. apply nth_error_map.
Qed.

Lemma relevant_dense m i j : relevantIn (DenseLabels (map (map toUint8) m)) i j <-> exists v, mget m i j = Some v /\ toUint8 v <> 0%Z.
Proof.
  simpl. split.
  - intros (r & v & E1 & E2 & N). assert (E : mget (map (map toUint8) m) i j = Some v) by (apply mget_spec; eauto).
    rewrite nth_error_map_map in E. destruct (mget m i j) as [w|]; [|discriminate]. injection E as <-. eauto.
  - intros (v & E & N). assert (E' : mget (map (map toUint8) m) i j = Some (toUint8 v)) by (rewrite nth_error_map_map, E; reflexivity).
    apply mget_spec in E'. destruct E' as (r & E1 & E2). eauto.
Qed.

Lemma label_values :
  forall p y m, validInput y -> binaryInput y -> ~ storesZero 0%Z y -> createLabelMatrix p y = Some (Created m) ->
  forall i j, inShape y i j -> (relevantIn m i j <-> given y 0%Z i j 1%Z).
Proof.
  intros p y m V B Z E i j SH. unfold createLabelMatrix in E.
  destruct (shouldEnforceSparse p y false 1 false) as [b|]; [|discriminate]. destruct y as [d|s].
  - injection E as <-. rewrite relevant_dense. simpl given. split.
    + intros (v & E & N). apply mget_spec in E. destruct E as (r & E1 & E2). exists r. split; auto. rewrite E2.
      simpl in B. rewrite Forall_forall in B. specialize (B r (nth_error_In _ _ E1)). rewrite Forall_forall in B.
      destruct (B v (nth_error_In _ _ E2)) as [-> | ->]; auto. now destruct N.
    + intros H. exists 1%Z. split; [now apply mget_spec|]. discriminate.
  - destruct V as [ND R]. destruct SH as [Hi Hj]. simpl in B. rewrite Forall_forall in B.
    assert (One : forall ij v, In (ij, v) (sstored s) -> v = 1%Z).
    { intros ij v H. destruct (B _ H) as [Ev|Ev]; simpl in Ev; auto. subst v. destruct Z. now exists ij. }
    assert (G : given (SparseInput s) 0%Z i j 1%Z <-> In (i, j) (map fst (sstored s))).
    { simpl. split.
      - intros [H|[_ H]]; [|discriminate]. change (i, j) with (fst ((i, j), 1%Z)). now apply in_map.
      - intros H. left. apply in_map_iff in H. destruct H as ([ij v] & Ee & H). simpl in Ee. subst ij. now rewrite <- (One _ _ H). }
    rewrite G. clear G. destruct b.
    + destruct (sstored s) eqn:Es; [discriminate|]. injection E as <-. reflexivity.
    + destruct (addSparse_get Z.add _ _ _ _ (full_shaped (srows s) (scols s) 0%Z) R ND) as (a & Ea & _ & G1 & G2).
      rewrite Ea in E. injection E as <-. rewrite relevant_dense. split.
      * intros (v & Ev & N). destruct (in_dec pairDec (i, j) (map fst (sstored s))) as [I|NI]; auto.
        rewrite G1 in Ev by auto. rewrite full_get in Ev by auto. injection Ev as <-. now destruct N.
      * intros H. apply in_map_iff in H. destruct H as ([ij v] & Ee & H). simpl in Ee. subst ij. exists (0 + v)%Z. split.
        -- apply G2; auto. now apply full_get.
        -- rewrite (One _ _ H). discriminate.
Qed.

Lemma label_created :
  forall p y, validInput y -> usable y -> exists m, createLabelMatrix p y = Some (Created m).
Proof.
  intros p x V U. unfold createLabelMatrix. destruct x as [d|s]; simpl.
  - eauto.
  - apply usable_supported in U. destruct U as [F N]. rewrite F. destruct V as [_ R].
    destruct (addSparse_any Z.add _ _ _ _ (full_shaped (srows s) (scols s) 0%Z) R) as (m & Em & _). rewrite Em.
    destruct (sstored s) eqn:Es; [now destruct N|].
    destruct p; try destruct (memoryEfficient s false 1 false); eauto.
Qed.

(** ** Refuted *)

(** A matrix with a single row that stores a zero. *)
(** A matrix with three rows and two columns, where a zero is stored. *)
Definition storedZeros : smatrix fvalue := SMatrix CSR 4 2 [((0, 0), Some 0%Z); ((1, 1), Some 5%Z)].

Lemma zeros_refuted :
  exists x sparseValue training query, validInput x /\ usable x /\
  createFeatureMatrix true Auto x sparseValue = Some (Created training) /\
  createFeatureMatrix false Auto x sparseValue = Some (Created query) /\
  elementIs training 0 0 (Some 0%Z) /\ elementIs query 0 0 sparseValue /\ sparseValue <> Some 0%Z.
Proof.
  exists (SparseInput storedZeros), (Some 7%Z). do 2 eexists. split.
  { split; [|repeat constructor]. repeat constructor; simpl; intuition discriminate. }
  split; [simpl; intuition discriminate|]. split; [vm_compute; reflexivity|]. split; [vm_compute; reflexivity|].
  split; [|split; [|discriminate]].
  - simpl. split; [split; repeat constructor|]. left. left. reflexivity.
  - simpl. eexists. split; reflexivity.
Qed.

Lemma empty_refuted :
  exists colWise x y, validInput x /\ (forall i j, given x (Some 0%Z) i j (Some 0%Z)) /\
  createFeatureMatrix colWise Auto x (Some 0%Z) = Some IndexError /\
  (exists m, createFeatureMatrix colWise ForceDense x (Some 0%Z) = Some (Created m)) /\
  validInput y /\ createLabelMatrix Auto y = Some IndexError /\ (exists m, createLabelMatrix ForceDense y = Some (Created m)).
Proof.
  exists false, (SparseInput (SMatrix CSR 1 2 [])), (SparseInput (SMatrix CSR 1 5 [])).
  split; [split; constructor|]. split; [intros i j; right; split; auto|]. split; [reflexivity|].
  split; [eexists; vm_compute; reflexivity|]. split; [split; constructor|]. split; [reflexivity|]. eexists. vm_compute. reflexivity.
Qed.

Lemma labels_refuted :
  exists y sparse dense i j, validInput y /\ binaryInput y /\ usable y /\ given y 0%Z i j 0%Z /\
  createLabelMatrix ForceSparse y = Some (Created sparse) /\ relevantIn sparse i j /\
  createLabelMatrix ForceDense y = Some (Created dense) /\ ~ relevantIn dense i j.
Proof.
  exists (SparseInput (SMatrix CSR 1 2 [((0, 0), 1%Z); ((0, 1), 0%Z)])). do 2 eexists. exists 0, 1.
  split.
  { split; [|repeat constructor]. repeat constructor; simpl; intuition discriminate. }
  split; [simpl; apply Forall_cons; [|apply Forall_cons]; auto|]. split; [simpl; intuition discriminate|].
  split; [simpl; auto|]. split; [vm_compute; reflexivity|]. split; [simpl; auto|]. split; [vm_compute; reflexivity|].
  simpl. intros (r & v & E1 & E2 & N). injection E1 as <-. simpl in E2. injection E2 as <-. now destruct N.
Qed.

(** ** Formats *)

Lemma feature_format :
  forall colWise s sparseValue, validInput (SparseInput s) -> usable (SparseInput s) ->
  let r := createFeatureMatrix colWise Auto (SparseInput s) sparseValue in
  (usesSparse r <-> sparseBytes s colWise 4 <= denseBytes s 4) /\
  (usesDense r <-> denseBytes s 4 < sparseBytes s colWise 4).
Proof.
  intros c s sv V U r. destruct (usable_supported s U) as [F N]. destruct V as [_ R].
  assert (Er : r = if memoryEfficient s c 4 true then Some (createSparse s sv)
                   else let* m := enforceDense s sv in Some (Created (DenseMatrix m))).
  { unfold r, createFeatureMatrix. simpl. now rewrite F. }
  rewrite Er. clear r Er. destruct (enforceDense_any s sv R) as [m Em]. rewrite Em. unfold createSparse.
  destruct (sstored s) eqn:Es; [now destruct N|]. rewrite <- Es in *.
  unfold memoryEfficient, sparseBytes, denseBytes. cbv zeta. set (n := length (sstored s)). set (q := if c then scols s else srows s).
  set (d := srows s * scols s). clearbody n q d.
  destruct (Nat.ltb_spec (n * 4 + n * 4 + q * 4) (d * 4)); cbn [usesSparse usesDense]; split; split; intros; try tauto; lia.
Qed.

Lemma label_format :
  forall s, validInput (SparseInput s) -> usable (SparseInput s) ->
  let r := createLabelMatrix Auto (SparseInput s) in
  (usesSparseLabels r <-> sparseBytes s false 0 < denseBytes s 1 + 4) /\
  (usesDenseLabels r -> denseBytes s 1 + 4 <= sparseBytes s false 0) /\
  (usesSparseLabels r <-> sparsePredictions Auto (SparseInput s) = true).
Proof.
  intros s V U r. destruct (usable_supported s U) as [F N]. destruct V as [_ R].
  assert (Er : r = if memoryEfficient s false 1 false
                   then Some (match sstored s with [] => IndexError | _ => Created (SparseLabels (srows s) (scols s) (map fst (sstored s))) end)
                   else let* m := addSparse Z.add (sstored s) (full (srows s) (scols s) 0%Z) in
                        Some (Created (DenseLabels (map (map toUint8) m)))).
  { unfold r, createLabelMatrix. simpl. now rewrite F. }
  rewrite Er. clear r Er.
  destruct (addSparse_any Z.add _ _ _ _ (full_shaped (srows s) (scols s) 0%Z) R) as (m & Em & _). rewrite Em.
  destruct (sstored s) eqn:Es; [now destruct N|]. rewrite <- Es in *. unfold sparsePredictions.
  unfold memoryEfficient, sparseBytes, denseBytes. cbv zeta. set (n := length (sstored s)). set (q := srows s).
  set (d := q * scols s). clearbody n d.
  destruct (Nat.ltb_spec (n * 0 + n * 4 + q * 4) (d * 1)); cbn [usesSparseLabels usesDenseLabels]; repeat split; intros; try tauto;
    try discriminate; lia.
Qed.

Lemma regression_format :
  forall s, validInput (SparseInput s) -> usable (SparseInput s) ->
  usesSparse (createRegressionMatrix Auto (SparseInput s)) -> sparseBytes s false 4 < denseBytes s 4.
Proof.
  intros s V U H. destruct (usable_supported s U) as [F N].
  unfold createRegressionMatrix in H. simpl in H. rewrite F in H.
  destruct (memoryEfficient s false 1 false) eqn:E.
  - unfold memoryEfficient in E. apply Nat.ltb_lt in E. unfold sparseBytes, denseBytes.
    set (n := length (sstored s)) in *. set (d := srows s * scols s) in *. 
    assert (1 <= n) by (unfold n; destruct (sstored s); [now destruct N|simpl; lia]). clearbody n d. lia.
  - destruct (enforceDense s (Some 0%Z)); destruct H.
Qed.

Lemma label_format_refuted :
  exists s, validInput (SparseInput s) /\ usable (SparseInput s) /\
  usesSparseLabels (createLabelMatrix Auto (SparseInput s)) /\ denseBytes s 1 < sparseBytes s false 0.
Proof.
  exists (SMatrix CSR 1 9 [((0, 0), 1%Z)]). split; [split; repeat constructor; simpl; tauto|].
  split; [simpl; intuition discriminate|]. split; [exact I|]. vm_compute. repeat constructor.
Qed.

Lemma regression_format_refuted :
  exists s, validInput (SparseInput s) /\ usable (SparseInput s) /\
  usesDense (createRegressionMatrix Auto (SparseInput s)) /\ 2 * sparseBytes s false 4 <= denseBytes s 4.
Proof.
  exists (SMatrix CSR 1 8 [((0, 0), Some 1%Z)]). split; [split; repeat constructor; simpl; tauto|].
  split; [simpl; intuition discriminate|]. split; [exact I|]. vm_compute. repeat constructor.
Qed.

Lemma forced_format :
  forall colWise x sparseValue y, validInput x -> usable x -> validInput y -> usable y ->
  usesDense (createFeatureMatrix colWise ForceDense x sparseValue) /\ usesDenseLabels (createLabelMatrix ForceDense y) /\
  match x with
  | SparseInput s => usesSparse (createFeatureMatrix colWise ForceSparse x sparseValue)
  | DenseInput m => usesDense (createFeatureMatrix colWise ForceSparse x sparseValue)
  end /\
  match y with
  | SparseInput s => usesSparseLabels (createLabelMatrix ForceSparse y)
  | DenseInput m => usesDenseLabels (createLabelMatrix ForceSparse y)
  end.
Proof.
  intros c x sv y Vx Ux Vy Uy.
  split; [|split; [|split]].
  - destruct (feature_created c ForceDense x sv Vx Ux) as [m E]. pose proof E as E0. unfold createFeatureMatrix in E. destruct x as [d|s].
    + exact I.
    + destruct (usable_supported s Ux) as [F _]. simpl in E. rewrite F in E. rewrite E0.
      destruct (enforceDense s sv); [|discriminate]. injection E as <-. exact I.
  - destruct (label_created ForceDense y Vy Uy) as [m E]. pose proof E as E0. unfold createLabelMatrix in E. destruct y as [d|s].
    + exact I.
    + destruct (usable_supported s Uy) as [F _]. simpl in E. rewrite F in E. rewrite E0.
      destruct (addSparse Z.add (sstored s) (full (srows s) (scols s) 0%Z)); [|discriminate]. injection E as <-. exact I.
  - destruct x as [d|s]; [exact I|]. destruct (usable_supported s Ux) as [F N]. unfold createFeatureMatrix. simpl. rewrite F.
    unfold createSparse. destruct (sstored s); [now destruct N|]. exact I.
  - destruct y as [d|s]; [exact I|]. destruct (usable_supported s Uy) as [F N]. unfold createLabelMatrix. simpl. rewrite F.
    destruct (sstored s); [now destruct N|]. exact I.
Qed.

Lemma unsupported_refuted :
  exists s, validInput (SparseInput s) /\ sstored s <> [] /\
  createFeatureMatrix true ForceDense (SparseInput s) (Some 0%Z) = Some ValueError /\ exists m, enforceDense s (Some 0%Z) = Some m.
Proof.
  exists (SMatrix DIA 2 2 [((0, 0), Some 1%Z); ((1, 1), Some 1%Z)]). split.
  { split; [|repeat constructor]. repeat constructor; simpl; intuition discriminate. }
  split; [discriminate|]. split; [reflexivity|]. eexists. vm_compute. reflexivity.
Qed.

(** ** Feature types *)

Definition bits (n : nat) (b : list N * list N) : Prop := length (fst b) = bv_size n /\ length (snd b) = bv_size n.

Lemma setOrdinal_spec n i b : bits n b -> i < n ->
  exists b', setOrdinal i b = Some b' /\ bits n b' /\
    forall k, k < n -> bv_get (fst b') k = (if i =? k then Some true else bv_get (fst b) k) /\
                       bv_get (snd b') k = (if i =? k then Some false else bv_get (snd b) k).
Proof.
  intros [L1 L2] H. pose proof (bv_size_index n i H) as Hi. unfold setOrdinal.
  destruct (bv_set_bits (fst b) i true) as (a1 & E1 & La1 & G1); [lia|].
  destruct (bv_set_bits (snd b) i false) as (a2 & E2 & La2 & G2); [lia|].
  rewrite E1, E2. eexists. split; [reflexivity|]. split; [split; simpl; lia|].
  intros k Hk. pose proof (bv_size_index n k Hk). simpl. rewrite G1, G2 by lia. auto.
Qed.

Lemma setNominal_spec n i b : bits n b -> i < n ->
  exists b', setNominal i b = Some b' /\ bits n b' /\
    forall k, k < n -> bv_get (fst b') k = (if i =? k then Some false else bv_get (fst b) k) /\
                       bv_get (snd b') k = (if i =? k then Some true else bv_get (snd b) k).
Proof.
  intros [L1 L2] H. pose proof (bv_size_index n i H) as Hi. unfold setNominal.
  destruct (bv_set_bits (fst b) i false) as (a1 & E1 & La1 & G1); [lia|].
  destruct (bv_set_bits (snd b) i true) as (a2 & E2 & La2 & G2); [lia|].
  rewrite E1, E2. eexists. split; [reflexivity|]. split; [split; simpl; lia|].
  intros k Hk. pose proof (bv_size_index n k Hk). simpl. rewrite G1, G2 by lia. auto.
Qed.

Lemma toUint32_spec n i : (Z.of_nat n <= 4294967296)%Z -> (0 <= i < Z.of_nat n)%Z ->
  exists k, toUint32 i = Some k /\ i = Z.of_nat k /\ k < n.
Proof.
  intros H1 H2. unfold toUint32.
  destruct (Z.leb_spec 0 i) as [_|]; [|lia]. destruct (Z.ltb_spec i 4294967296) as [_|]; [|lia]. simpl.
  exists (Z.to_nat i). split; auto. lia.
Qed.

Lemma setAll_spec n (o : bool) set l : (Z.of_nat n <= 4294967296)%Z ->
  (forall i b, bits n b -> i < n -> exists b', set i b = Some b' /\ bits n b' /\
    forall k, k < n -> bv_get (fst b') k = (if i =? k then Some o else bv_get (fst b) k) /\
                       bv_get (snd b') k = (if i =? k then Some (negb o) else bv_get (snd b) k)) ->
  forall b, bits n b -> (forall i, In i l -> (0 <= i < Z.of_nat n)%Z) ->
  exists b', setAll set l b = Some (Some b') /\ bits n b' /\
    forall k, k < n ->
      (In (Z.of_nat k) l -> bv_get (fst b') k = Some o /\ bv_get (snd b') k = Some (negb o)) /\
      (~ In (Z.of_nat k) l -> bv_get (fst b') k = bv_get (fst b) k /\ bv_get (snd b') k = bv_get (snd b) k).
Proof.
  intros Hn Hset. unfold setAll. induction l as [|i l IH]; intros b B R.
  - exists b. simpl. split; auto. split; auto. intros k Hk. split; [intros []|auto].
  - cbn [forL].
    destruct (toUint32_spec n i Hn (R i (or_introl eq_refl))) as (q & Eq & Ei & Hq). rewrite Eq.
    destruct (Hset q b B Hq) as (b1 & E1 & B1 & G1). rewrite E1.
    destruct (IH b1 B1 (fun x H => R x (or_intror H))) as (b2 & E2 & B2 & G2).
    exists b2. split; auto. split; auto. intros k Hk. destruct (G2 k Hk) as [P1 P2]. destruct (G1 k Hk) as [Q1 Q2]. split.
    + intros H. destruct (in_dec Z.eq_dec (Z.of_nat k) l) as [I|N]; [now apply P1|].
      destruct H as [H|H]; [|contradiction]. assert (q = k) by lia. subst q.
      destruct (P2 N) as [-> ->]. rewrite Nat.eqb_refl in Q1, Q2. auto.
    + intros N. destruct (P2 (fun H => N (or_intror H))) as [-> ->].
      destruct (Nat.eqb_spec q k) as [->|]; auto. destruct N. left. exact Ei.
Qed.

Lemma bv_zero n k : k < n -> bv_get (repeat 0%N (bv_size n)) k = Some false.
Proof.
  intros H. pose proof (bv_size_index n k H) as L.
  rewrite (bv_get_bit _ _ 0%N); [now rewrite N.bits_0|]. now apply nth_error_repeat.
Qed.

Lemma all_indices n l : NoDup l -> (forall i, In i l -> (0 <= i < Z.of_nat n)%Z) -> length l = n ->
  forall k, k < n -> In (Z.of_nat k) l.
Proof.
  intros ND R L k H. assert (I : incl (map Z.of_nat (seq 0 n)) l).
  { apply NoDup_length_incl; auto.
    - rewrite map_length, seq_length. lia.
    - intros i Hi. apply R in Hi. apply in_map_iff. exists (Z.to_nat i). split; [lia|]. apply in_seq. lia. }
  apply I. apply in_map. apply in_seq. lia.
Qed.

Lemma NoDup_app_l {A} (l1 l2 : list A) : NoDup (l1 ++ l2) -> NoDup l1.
Proof. induction l1; intros H; [constructor|]. inversion H; subst. constructor; auto. intros I. apply H2. apply in_or_app. auto. Qed.
Lemma NoDup_app_r {A} (l1 l2 : list A) : NoDup (l1 ++ l2) -> NoDup l2.
Proof. induction l1; intros H; auto. inversion H; auto. Qed.
Lemma NoDup_app_disj {A} (l1 l2 : list A) x : NoDup (l1 ++ l2) -> In x l1 -> In x l2 -> False.
Proof.
  induction l1 as [|a l1 IH]; intros H I1 I2; [destruct I1|]. inversion H as [|? ? N H']; subst. destruct I1 as [->|I1].
  - apply N. apply in_or_app. auto.
  - now apply IH.
Qed.

Lemma feature_types :
  forall numFeatures ordinal nominal, (Z.of_nat numFeatures < 4294967296)%Z -> validIndices numFeatures ordinal nominal ->
  (ordinal = None <-> nominal = None) ->
  exists info, createFeatureInfo numFeatures ordinal nominal = Some (Info info) /\
  forall i t, i < numFeatures -> (createFeatureType info i = Some t <-> typeIs ordinal nominal i t).
Proof.
  intros n ord nom Hn [ND R] Both. unfold createFeatureInfo.
  replace (match ord with Some l => length l | None => 0 end) with (length (indicesIn ord)) by now destruct ord.
  replace (match nom with Some l => length l | None => 0 end) with (length (indicesIn nom)) by now destruct nom.
  assert (Ro : forall i, In i (indicesIn ord) -> (0 <= i < Z.of_nat n)%Z) by (intros; apply R, in_or_app; auto).
  assert (Rn : forall i, In i (indicesIn nom) -> (0 <= i < Z.of_nat n)%Z) by (intros; apply R, in_or_app; auto).
  destruct ((length (indicesIn ord) =? 0) && (length (indicesIn nom) =? 0)) eqn:E0.
  - apply andb_prop in E0. destruct E0 as [E1 E2]. apply Nat.eqb_eq in E1, E2. apply length_zero_iff_nil in E1, E2.
    eexists. split; [reflexivity|]. intros i t Hi. unfold typeIs. rewrite E1, E2. simpl.
    destruct t; split; intros H; try discriminate; auto; try (destruct H); auto.
  - destruct (Nat.eqb_spec (length (indicesIn ord)) n) as [E1|_].
    + eexists. split; [reflexivity|]. intros i t Hi.
      pose proof (all_indices n _ (NoDup_app_l _ _ ND) Ro E1 i Hi) as I. simpl.
      destruct t; simpl; split; intros H; try discriminate; auto.
      * now destruct H.
      * now destruct (NoDup_app_disj _ _ _ ND I H).
    + destruct (Nat.eqb_spec (length (indicesIn nom)) n) as [E1|_].
      * eexists. split; [reflexivity|]. intros i t Hi.
        pose proof (all_indices n _ (NoDup_app_r _ _ ND) Rn E1 i Hi) as I. simpl.
        destruct t; simpl; split; intros H; try discriminate; auto.
        -- now destruct H.
        -- now destruct (NoDup_app_disj _ _ _ ND H I).
      * destruct ord as [lo|]; [|rewrite (proj1 Both eq_refl) in E0; discriminate].
        destruct nom as [ln|]; [|pose proof (proj2 Both eq_refl); discriminate].
        simpl in ND, Ro, Rn. cbn [newMixed].
        set (empty := repeat 0%N (bv_size n)).
        assert (B0 : bits n (empty, empty)) by (split; apply repeat_length).
        destruct (setAll_spec n false setNominal ln ltac:(lia) (fun i b => setNominal_spec n i b) _ B0 Rn) as (b1 & S1 & B1 & G1).
        rewrite S1.
        destruct (setAll_spec n true setOrdinal lo ltac:(lia) (fun i b => setOrdinal_spec n i b) _ B1 Ro) as (b2 & S2 & B2 & G2).
        rewrite S2. eexists. split; [reflexivity|]. intros i t Hi. cbn [createFeatureType].
        destruct (G1 i Hi) as [P1 P2]. destruct (G2 i Hi) as [Q1 Q2]. simpl in P2. unfold empty in P2. rewrite bv_zero in P2 by auto.
        destruct (in_dec Z.eq_dec (Z.of_nat i) lo) as [Io|No].
        -- destruct (Q1 Io) as [-> _]. destruct t; simpl; split; intros H; try discriminate; auto.
           ++ now destruct H.
           ++ now destruct (NoDup_app_disj _ _ _ ND Io H).
        -- destruct (Q2 No) as [-> ->]. destruct (in_dec Z.eq_dec (Z.of_nat i) ln) as [In'|Nn].
           ++ destruct (P1 In') as [-> ->]. destruct t; simpl; split; intros H; try discriminate; auto; try contradiction.
              now destruct H.
           ++ destruct (P2 Nn) as [-> ->]. destruct t; simpl; split; intros H; try discriminate; auto; try contradiction.
Qed.

Lemma single_refuted :
  exists numFeatures nominal, validIndices numFeatures None (Some nominal) /\ nominal <> [] /\
  createFeatureInfo numFeatures None (Some nominal) = Some TypeError.
Proof.
  exists 2, [0%Z]. split; [|split; [discriminate|reflexivity]]. split; simpl.
  - repeat constructor. simpl. tauto.
  - intros i [<-|[]]. simpl. lia.
Qed.

Lemma duplicates_refuted :
  exists numFeatures nominal i info, (forall k, In k nominal -> (0 <= k < Z.of_nat numFeatures)%Z) /\ i < numFeatures /\
  createFeatureInfo numFeatures (Some []) (Some nominal) = Some (Info info) /\
  createFeatureType info i = Some NominalType /\ ~ In (Z.of_nat i) nominal.
Proof.
  exists 2, [0%Z; 0%Z], 1, AllNominal. split; [intros k [<-|[<-|[]]]; simpl; lia|]. split; [lia|]. split; [reflexivity|].
  split; [reflexivity|]. simpl. lia.
Qed.

Lemma overlap_refuted :
  exists numFeatures ordinal1 ordinal2 nominal1 nominal2 info1 info2,
  In 0%Z ordinal1 /\ In 0%Z nominal1 /\ In 0%Z ordinal2 /\ In 0%Z nominal2 /\
  createFeatureInfo numFeatures (Some ordinal1) (Some nominal1) = Some (Info info1) /\
  createFeatureInfo numFeatures (Some ordinal2) (Some nominal2) = Some (Info info2) /\
  createFeatureType info1 0 = Some OrdinalType /\ createFeatureType info2 0 = Some NominalType.
Proof.
  exists 3, [0%Z], [0%Z], [0%Z], [0%Z; 1%Z; 2%Z]. do 2 eexists. simpl. do 4 (split; [auto|]).
  split; [vm_compute; reflexivity|]. split; [vm_compute; reflexivity|]. split; vm_compute; reflexivity.
Qed.

Lemma range_refuted :
  exists numFeatures nominal1 nominal2 info,
  (exists i, In i nominal1 /\ (Z.of_nat numFeatures <= i)%Z) /\ (exists i, In i nominal2 /\ (Z.of_nat numFeatures <= i)%Z) /\
  createFeatureInfo numFeatures (Some []) (Some nominal1) = Some (Info info) /\
  createFeatureInfo numFeatures (Some []) (Some nominal2) = None.
Proof.
  exists 3, [3%Z], [32%Z]. eexists. split; [exists 3%Z; simpl; split; [auto|lia]|]. split; [exists 32%Z; simpl; split; [auto|lia]|].
  split; vm_compute; reflexivity.
Qed.
