From Coq Require Import Arith List Bool Lia Sorting.Sorted Permutation.
From Verif Require Import Lib.Arr Model.Labels Spec.Labels Proofs.Containers.
Import ListNotations.
Open Scope nat_scope.

(** * Iterators *)
(** Value at a position of a sparse row. *)
Fixpoint sparse_at {V} (indices : list nat) (values : list V) (sparse : V) (pos : nat) : V :=
  match indices, values with
  | i :: is, v :: vs => if i =? pos then v else sparse_at is vs sparse pos
  | _, _ => sparse
  end.

Lemma sparse_at_notin {V} is (vs : list V) sp pos : Forall (lt pos) is -> sparse_at is vs sp pos = sp.
Proof.
  revert vs; induction is as [|i is IH]; intros vs H; simpl; auto. destruct vs; auto.
  inversion H; subst. destruct (Nat.eqb_spec i pos); [lia|]. auto.
Qed.

Lemma si_read_gen {V} n : forall is (vs : list V) idx ii sp,
  length is = length vs -> StronglySorted lt is -> Forall (le idx) is ->
  match is with i :: _ => ii = i | [] => True end ->
  si_read n (mkSparseIt is vs idx ii sp) = Some (map (sparse_at is vs sp) (seq idx n)).
Proof.
  induction n; intros is vs idx ii sp HL HS HF Hii; simpl; auto.
  unfold si_deref, si_incr; simpl.
  destruct is as [|i is]; destruct vs as [|v vs]; simpl in HL; try lia.
  - rewrite (IHn [] [] (idx + 1)); auto. simpl. rewrite Nat.add_1_r. auto.
  - subst ii. inversion HS; subst. inversion HF; subst. simpl.
    destruct (Nat.eqb_spec i idx).
    + subst. destruct (Nat.ltb_spec idx (idx + 1)); [|lia].
      rewrite (IHn is vs (idx + 1)); auto.
      * simpl. do 2 f_equal. rewrite Nat.add_1_r. apply map_ext_in. intros k Hk. apply in_seq in Hk.
        simpl. destruct (Nat.eqb_spec idx k); [lia|auto].
      * eapply Forall_impl; [|exact H2]. simpl. lia.
      * destruct is; auto.
    + destruct (Nat.ltb_spec i (idx + 1)); [lia|].
      rewrite (IHn (i :: is) (v :: vs) (idx + 1)); simpl; auto; try lia.
      * rewrite Nat.add_1_r. do 2 f_equal.
        symmetry. apply sparse_at_notin. eapply Forall_impl; [|exact H2]. simpl. lia.
      * constructor; [lia|]. eapply Forall_impl; [|exact H2]. simpl. lia.
Qed.

Lemma sparse_at_spec {V} is : forall (vs : list V) sp pos, StronglySorted lt is -> length is = length vs ->
  (forall k v, nth_error is k = Some pos -> nth_error vs k = Some v -> sparse_at is vs sp pos = v) /\
  (~ In pos is -> sparse_at is vs sp pos = sp).
Proof.
  induction is as [|i is IH]; intros vs sp pos HS HL.
  - split; intros; auto. destruct k; discriminate.
  - destruct vs as [|w vs]; [discriminate|]. inversion HS; subst. simpl in HL.
    destruct (IH vs sp pos H1 ltac:(lia)) as [A B]. simpl. split.
    + intros k v Hk Hv. destruct k; simpl in *.
      * injection Hk as ->. injection Hv as ->. rewrite Nat.eqb_refl. auto.
      * destruct (Nat.eqb_spec i pos).
        -- subst. apply nth_error_In in Hk. rewrite Forall_forall in H2. specialize (H2 _ Hk). lia.
        -- eauto.
    + intros H. destruct (Nat.eqb_spec i pos); [subst; exfalso; auto|]. apply B. auto.
Qed.

Lemma C16_numeric {V} indices (values : list V) start width sparse dense :
  length indices = length values -> StronglySorted lt indices -> Forall (le start) indices ->
  length dense = width ->
  (forall k i v, nth_error indices k = Some i -> nth_error values k = Some v -> i - start < width ->
     nth_error dense (i - start) = Some v) ->
  (forall p, p < width -> ~ In (start + p) indices -> nth_error dense p = Some sparse) ->
  si_read width (si_create indices values start sparse) = Some dense.
Proof.
  intros HL HS HF HW D1 D2. unfold si_create. rewrite si_read_gen; auto.
  2:{ destruct indices; auto. }
  f_equal. apply list_ext_len; [rewrite map_length, seq_length; auto|].
  intros p Hp. rewrite map_length, seq_length in Hp.
  rewrite nth_error_map. rewrite (nth_error_nth' (seq start width) 0) by (rewrite seq_length; auto).
  rewrite seq_nth by auto. simpl.
  destruct (sparse_at_spec indices values sparse (start + p) HS HL) as [A B].
  destruct (in_dec Nat.eq_dec (start + p) indices) as [I|I].
  - apply In_nth_error in I as (k & E).
    destruct (nth_error values k) as [v|] eqn:Ev.
    + rewrite (A k v E Ev). symmetry. replace p with (start + p - start) by lia. eapply D1; eauto. lia.
    + apply nth_error_None in Ev. assert (k < length indices) by (apply nth_error_Some; congruence). lia.
  - rewrite B by auto. symmetry. auto.
Qed.

Lemma bi_read_gen n : forall is idx ii, StronglySorted lt is -> Forall (le idx) is ->
  match is with i :: _ => ii = i | [] => True end ->
  bi_read n (mkBIt is idx ii) = map (fun p => existsb (Nat.eqb p) is) (seq idx n).
Proof.
  induction n; intros is idx ii HS HF Hii; simpl; auto.
  unfold bi_deref, bi_incr; simpl.
  destruct is as [|i is].
  - rewrite IHn; auto. rewrite Nat.add_1_r. simpl. auto.
  - subst ii. inversion HS; subst. inversion HF; subst. simpl. rewrite (Nat.eqb_sym idx i).
    destruct (Nat.eqb_spec i idx).
    + subst. destruct (Nat.ltb_spec idx (idx + 1)); [|lia]. simpl. f_equal.
      rewrite IHn; auto.
      * rewrite Nat.add_1_r. apply map_ext_in. intros k Hk. apply in_seq in Hk.
        destruct (Nat.eqb_spec k idx); [lia|auto].
      * eapply Forall_impl; [|exact H2]. simpl. lia.
      * destruct is; auto.
    + destruct (Nat.ltb_spec i (idx + 1)); [lia|]. simpl.
      rewrite IHn; simpl; auto.
      * rewrite Nat.add_1_r. f_equal. symmetry. apply not_true_iff_false. intros X.
        apply existsb_exists in X as (y & Hy & E). apply Nat.eqb_eq in E. subst y.
        rewrite Forall_forall in H2. specialize (H2 _ Hy). lia.
      * constructor; [lia|]. eapply Forall_impl; [|exact H2]. simpl. lia.
Qed.

Lemma C16_binary indices start width dense :
  StronglySorted lt indices -> Forall (le start) indices -> length dense = width ->
  (forall p, p < width -> (nth_error dense p = Some true <-> In (start + p) indices)) ->
  bi_read width (bi_create indices start) = dense.
Proof.
  intros HS HF HW D. unfold bi_create. rewrite bi_read_gen; auto.
  2:{ destruct indices; auto. }
  apply list_ext_len; [rewrite map_length, seq_length; auto|].
  intros p Hp. rewrite map_length, seq_length in Hp.
  rewrite nth_error_map. rewrite (nth_error_nth' (seq start width) 0) by (rewrite seq_length; auto).
  rewrite seq_nth by auto. simpl.
  destruct (nth_error dense p) as [b|] eqn:E; [|apply nth_error_None in E; lia].
  specialize (D p Hp). rewrite E in D. f_equal. destruct b.
  - apply existsb_exists. exists (start + p). split; [apply D; auto|apply Nat.eqb_refl].
  - apply not_true_iff_false. intros X. apply existsb_exists in X as (y & Hy & Ey).
    apply Nat.eqb_eq in Ey. subst y. apply D in Hy. discriminate.
Qed.

(** Positions of [true], ascending. *)
Fixpoint trues (l : list bool) (off : nat) : list nat :=
  match l with [] => [] | b :: r => if b then off :: trues r (off + 1) else trues r (off + 1) end.

Lemma trues_In l : forall off i, In i (trues l off) <-> off <= i /\ nth_error l (i - off) = Some true.
Proof.
  induction l as [|b l IH]; intros off i; simpl.
  - split; [tauto|]. intros [_ H]. destruct (i - off); discriminate.
  - assert (X : In i (trues l (off + 1)) <-> off < i /\ nth_error (b :: l) (i - off) = Some true).
    { rewrite IH. split; intros [A B]; (split; [lia|]).
      - replace (i - off) with (S (i - (off + 1))) by lia. auto.
      - replace (i - off) with (S (i - (off + 1))) in B by lia. auto. }
    destruct b; simpl; rewrite X.
    + split.
      * intros [->|[A B]]; [rewrite Nat.sub_diag; auto|]. split; [lia|auto].
      * intros [A B]. destruct (Nat.eq_dec off i); [auto|right; split; [lia|auto]].
    + split.
      * intros [A B]. split; [lia|auto].
      * intros [A B]. split; [|auto]. destruct (Nat.eq_dec off i); [subst; rewrite Nat.sub_diag in B; discriminate|lia].
Qed.

Lemma trues_sorted l : forall off, StronglySorted lt (trues l off).
Proof.
  induction l as [|b l IH]; intros off; simpl; [constructor|].
  destruct b; auto. constructor; auto. apply Forall_forall. intros i H. apply trues_In in H. lia.
Qed.

Lemma nz_skip_trues l : forall idx, let '(l', idx') := nz_skip l idx in
  trues l idx = trues l' idx' /\ (length l' <= length l) /\ match l' with [] => True | b :: _ => b = true end.
Proof.
  induction l as [|b l IH]; intros idx; simpl; auto. destruct b; simpl; auto.
  specialize (IH (idx + 1)). destruct (nz_skip l (idx + 1)). intuition lia.
Qed.

Lemma nz_collect_trues fuel : forall l idx, length l <= fuel ->
  match l with [] => True | b :: _ => b = true end -> nz_collect fuel (l, idx) = trues l idx.
Proof.
  induction fuel; intros l idx HL Hb.
  - destruct l; simpl in *; auto; lia.
  - destruct l as [|b l]; simpl; auto. simpl in Hb. subst b. f_equal.
    unfold nz_incr; simpl. pose proof (nz_skip_trues l (idx + 1)) as X.
    destruct (nz_skip l (idx + 1)) as [l' idx']. destruct X as (X1 & X2 & X3).
    simpl in HL. rewrite IHfuel by (auto; lia). auto.
Qed.

Lemma nz_read_trues l : nz_read l = trues l 0.
Proof.
  unfold nz_read. pose proof (nz_skip_trues l 0) as X. destruct (nz_skip l 0) as [l' idx'].
  destruct X as (X1 & X2 & X3). rewrite nz_collect_trues; auto.
Qed.

Lemma C16_non_zero l : StronglySorted lt (nz_read l) /\ forall i, In i (nz_read l) <-> nth_error l i = Some true.
Proof.
  rewrite nz_read_trues. split; [apply trues_sorted|]. intros i. rewrite trues_In, Nat.sub_0_r.
  intuition lia.
Qed.

(** * Label vectors *)
Lemma trues_app a b off : trues (a ++ b) off = trues a off ++ trues b (off + length a).
Proof.
  revert off; induction a as [|x a IH]; intros off; simpl; [rewrite Nat.add_0_r; auto|].
  rewrite IH. replace (off + 1 + length a) with (off + S (length a)) by lia. destruct x; auto.
Qed.

Lemma trues_length l off : length (trues l off) <= length l.
Proof. revert off; induction l as [|b l IH]; intros; simpl; auto. specialize (IH (off + 1)). destruct b; simpl; lia. Qed.

Lemma denseLabelVector_trues uninit row : length uninit = length row ->
  denseLabelVector uninit row = Some (trues row 0).
Proof.
  intros HL. unfold denseLabelVector.
  match goal with |- context [forN ?n 0 ?f ?s] =>
    destruct (forN_inv (fun i st => let '(arr, k) := st in length arr = length row /\ k <= i /\
        firstn k arr = trues (firstn i row) 0 /\ k = length (trues (firstn i row) 0)) f n 0 s) as (st & E & I)
  end.
  - simpl. auto.
  - intros i [arr k] Hi (I1 & I2 & I3 & I4).
    destruct (aget_Some row i ltac:(lia)) as (b & Eb). rewrite Eb. unfold aget in Eb.
    assert (F : firstn (S i) row = firstn i row ++ [b]).
    { rewrite <- (firstn_skipn i row) at 1. rewrite (skipn_nth _ _ _ Eb).
      rewrite firstn_app, firstn_firstn, firstn_length. replace (Nat.min (S i) i) with i by lia.
      replace (S i - Nat.min i (length row)) with 1 by lia. auto. }
    assert (LI : length (firstn i row) = i) by (rewrite firstn_length; lia).
    rewrite F, trues_app, LI. simpl. destruct b.
    + rewrite aset_Some by lia. eexists; split; [reflexivity|]. cbv beta iota.
      rewrite upd_length. split; auto. split; [lia|].
      rewrite Nat.add_1_r, firstn_S_upd by lia. rewrite I3, app_length. simpl. split; auto. lia.
    + eexists; split; [reflexivity|]. cbv beta iota. rewrite app_nil_r. auto.
  - rewrite E. simpl in I. destruct st as [arr k]. destruct I as (I1 & I2 & I3 & I4).
    rewrite firstn_all in *. congruence.
Qed.

Lemma equalViews_spec a : forall b, equalViews a b = true <-> a = b.
Proof.
  unfold equalViews. induction a as [|x a IH]; intros [|y b]; simpl.
  - split; auto.
  - split; discriminate.
  - split; discriminate.
  - specialize (IH b). destruct (Nat.eqb_spec (length a) (length b)).
    + rewrite andb_true_iff, Nat.eqb_eq, IH. split; [intros [-> ->]; auto|intros [= -> ->]; auto].
    + split; [discriminate|]. intros [= -> ->]. congruence.
Qed.

Lemma findEqual_spec vs v : forall off,
  match findEqual vs v off with
  | Some i => off <= i /\ nth_error vs (i - off) = Some v
  | None => ~ In v vs
  end.
Proof.
  induction vs as [|u vs IH]; intros off; simpl; auto.
  destruct (equalViews u v) eqn:E.
  - apply equalViews_spec in E. subst. rewrite Nat.sub_diag. auto.
  - specialize (IH (off + 1)). destruct (findEqual vs v (off + 1)) as [i|].
    + destruct IH as [A B]. split; [lia|]. replace (i - off) with (S (i - (off + 1))) by lia. auto.
    + intros [->|H]; auto. rewrite (proj2 (equalViews_spec v v) eq_refl) in E. discriminate.
Qed.

Definition lvs_inv (seen : list (list nat)) (vs : list (list nat)) (fs : list nat) : Prop :=
  length fs = length vs /\ NoDup vs /\ (forall v, In v vs <-> In v seen) /\
  (forall i v, nth_error vs i = Some v -> nth_error fs i = Some (count_occ lveq seen v)).

Lemma labelVectorSet_inv input : forall seen vs fs, lvs_inv seen vs fs ->
  exists vs' fs', labelVectorSet input vs fs = Some (vs', fs') /\ lvs_inv (seen ++ input) vs' fs'.
Proof.
  induction input as [|v input IH]; intros seen vs fs (I1 & I2 & I3 & I4); simpl.
  - exists vs, fs. rewrite app_nil_r. unfold lvs_inv. auto.
  - pose proof (findEqual_spec vs v 0) as F. destruct (findEqual vs v 0) as [i|].
    + destruct F as [_ F]. rewrite Nat.sub_0_r in F.
      assert (Hi : i < length vs) by (apply nth_error_Some; congruence).
      destruct (aget_Some fs i ltac:(lia)) as (f & Ef). rewrite Ef, aset_Some by lia. unfold aget in Ef.
      destruct (IH (seen ++ [v]) vs (upd fs i (f + 1))) as (vs' & fs' & E & I).
      * split; [rewrite upd_length; auto|]. split; auto. split.
        -- intros u. rewrite I3, in_app_iff. simpl. split; [tauto|]. intros [H|[<-|[]]]; auto.
           apply I3. eapply nth_error_In; eauto.
        -- intros j u Hu. rewrite count_occ_app. simpl.
           destruct (Nat.eq_dec i j) as [<-|N].
           ++ rewrite nth_error_upd_eq by lia. assert (u = v) by congruence. subst u.
              destruct (lveq v v); [|congruence]. rewrite (I4 i v F) in Ef. congruence.
           ++ rewrite nth_error_upd_neq by auto. destruct (lveq v u).
              ** subst. exfalso. apply N. eapply NoDup_nth_error; eauto. congruence.
              ** rewrite Nat.add_0_r. auto.
      * exists vs', fs'. split; auto. rewrite <- app_assoc in I. exact I.
    + destruct (IH (seen ++ [v]) (vs ++ [v]) (fs ++ [1])) as (vs' & fs' & E & I).
      * split; [rewrite !app_length; simpl; lia|]. split; [|split].
        -- apply (Permutation_NoDup (l := v :: vs)); [apply Permutation_cons_append|constructor; auto].
        -- intros u. rewrite !in_app_iff, I3. tauto.
        -- intros j u Hu. rewrite count_occ_app. rewrite nth_error_snoc in Hu. rewrite nth_error_snoc, I1.
           destruct (Nat.eqb_spec j (length vs)).
           ++ assert (v = u) by congruence; subst u. simpl. destruct (lveq v v); [|congruence].
              rewrite (proj1 (count_occ_not_In lveq seen v)); auto. intros H. apply F. apply I3. auto.
           ++ simpl. destruct (lveq v u).
              ** subst. exfalso. apply F. eapply nth_error_In; eauto.
              ** rewrite Nat.add_0_r. auto.
      * exists vs', fs'. split; auto. rewrite <- app_assoc in I. exact I.
Qed.

Lemma C18_count input : exists vs fs, labelVectorSet input [] [] = Some (vs, fs) /\
  length fs = length vs /\ NoDup vs /\ (forall v, In v vs <-> In v input) /\
  (forall i v, nth_error vs i = Some v -> nth_error fs i = Some (count_occ lveq input v)).
Proof.
  destruct (labelVectorSet_inv input [] [] []) as (vs & fs & E & I).
  - split; auto. split; [constructor|]. split; [tauto|]. intros i v H; destruct i; discriminate.
  - exists vs, fs. split; auto.
Qed.

Lemma sorted_ext a : forall b, StronglySorted lt a -> StronglySorted lt b -> (forall x, In x a <-> In x b) -> a = b.
Proof.
  induction a as [|x a IH]; intros [|y b] Ha Hb H; auto.
  - exfalso. apply (H y). left; auto.
  - exfalso. apply (H x). left; auto.
  - inversion Ha; subst. inversion Hb; subst. rewrite Forall_forall in *.
    assert (x = y).
    { destruct (proj1 (H x) (or_introl eq_refl)) as [|Hx]; auto.
      destruct (proj2 (H y) (or_introl eq_refl)) as [|Hy]; auto.
      specialize (H3 _ Hy). specialize (H5 _ Hx). lia. }
    subst y. f_equal. apply IH; auto. intros z. split; intros Hz.
    + destruct (proj1 (H z) (or_intror Hz)) as [->|]; auto. specialize (H3 _ Hz). lia.
    + destruct (proj2 (H z) (or_intror Hz)) as [->|]; auto. specialize (H5 _ Hz). lia.
Qed.

Lemma sequence_map_ext {A B C} (f : A -> option C) (g : B -> option C) : forall la lb, length la = length lb ->
  (forall i a b, nth_error la i = Some a -> nth_error lb i = Some b -> f a = g b) ->
  map f la = map g lb.
Proof.
  induction la as [|a la IH]; intros [|b lb] HL H; simpl in *; try lia; auto.
  f_equal; [apply (H 0); auto|]. apply IH; [lia|]. intros i x y Hx Hy. apply (H (S i)); auto.
Qed.

Lemma C18_agree uninit rows indices indptr :
  (forall r row, nth_error rows r = Some row -> length (uninit r) = length row) ->
  csr_represents indices indptr rows ->
  denseLabelVectorSet uninit rows = csrLabelVectorSet indices indptr (length rows).
Proof.
  intros HU HC. unfold denseLabelVectorSet, csrLabelVectorSet.
  rewrite (sequence_map_ext (fun p => denseLabelVector (uninit (fst p)) (snd p)) (csrLabelVector indices indptr)
    (combine (seq 0 (length rows)) rows) (seq 0 (length rows))); auto.
  - rewrite combine_length, seq_length. lia.
  - intros i [r row] r' H1 H2.
    assert (Hi : i < length rows). { assert (i < length (seq 0 (length rows))) by (apply nth_error_Some; congruence). rewrite seq_length in H; auto. }
    assert (r' = i). { rewrite (nth_error_nth' _ 0) in H2 by (rewrite seq_length; auto). rewrite seq_nth in H2; auto. simpl in H2. congruence. }
    subst r'.
    assert (X : r = i /\ nth_error rows i = Some row).
    { clear -H1 Hi. revert H1. 
      assert (G : forall (l : list (list bool)) i off, nth_error (combine (seq off (length l)) l) i = Some (r, row) -> r = off + i /\ nth_error l i = Some row).
      { induction l as [|x l IH]; intros [|i'] off H; simpl in H; try discriminate.
        - injection H as <- <-. split; auto; lia.
        - apply IH in H. destruct H; split; auto; lia. }
      intros H. apply G in H. auto. }
    destruct X as [-> Hrow]. simpl. rewrite denseLabelVector_trues by (apply HU; auto).
    destruct (HC _ _ Hrow) as (s & e & seg & E1 & E2 & E3 & E4 & E5 & E6).
    unfold csrLabelVector, csrRow, aget. rewrite E1, E2.
    destruct (Nat.leb_spec s e); [|lia]. destruct (Nat.leb_spec e (length indices)); [|lia]. simpl. f_equal.
    rewrite <- E4. apply sorted_ext; auto; [apply trues_sorted|].
    intros x. rewrite trues_In, Nat.sub_0_r, E6. intuition lia.
Qed.

Lemma sequence_Some {A B} (f : A -> option B) (g : A -> B) l : (forall a, In a l -> f a = Some (g a)) ->
  sequence (map f l) = Some (map g l).
Proof. induction l; simpl; intros H; auto. rewrite H by auto. rewrite IHl by auto. auto. Qed.

Lemma map_snd_combine {A B} (f : B -> A) (la : list nat) (lb : list B) : length la = length lb ->
  map (fun p => f (snd p)) (combine la lb) = map f lb.
Proof. revert lb; induction la; intros [|b lb] H; simpl in *; try lia; auto. f_equal. apply IHla. lia. Qed.

Lemma C18_dense uninit rows :
  (forall r row, nth_error rows r = Some row -> length (uninit r) = length row) ->
  exists lvs vs fs, denseLabelVectorSet uninit rows = Some (vs, fs) /\
    (* the label vector of each example lists its relevant labels in order *)
    length lvs = length rows /\
    (forall r row lv, nth_error rows r = Some row -> nth_error lvs r = Some lv ->
       StronglySorted lt lv /\ forall j, In j lv <-> nth_error row j = Some true) /\
    length fs = length vs /\ NoDup vs /\ (forall v, In v vs <-> In v lvs) /\
    (forall i v, nth_error vs i = Some v -> nth_error fs i = Some (count_occ lveq lvs v)).
Proof.
  intros HU. unfold denseLabelVectorSet.
  rewrite (sequence_Some _ (fun p => trues (snd p) 0)).
  - rewrite (map_snd_combine (fun row => trues row 0)) by (rewrite seq_length; auto).
    destruct (C18_count (map (fun row => trues row 0) rows)) as (vs & fs & E & I1 & I2 & I3 & I4).
    exists (map (fun row => trues row 0) rows), vs, fs. split; auto.
    split; [apply map_length|]. split; auto.
    intros r row lv Hr Hlv. rewrite nth_error_map, Hr in Hlv. injection Hlv as <-.
    split; [apply trues_sorted|]. intros j. rewrite trues_In, Nat.sub_0_r. intuition lia.
  - intros [r row] Hin. simpl. apply denseLabelVector_trues.
    apply In_nth_error in Hin as (i & H1). apply HU.
    assert (G : forall (l : list (list bool)) i off, nth_error (combine (seq off (length l)) l) i = Some (r, row) -> r = off + i /\ nth_error l i = Some row).
    { clear. induction l as [|x l IH]; intros [|i'] off H; simpl in H; try discriminate.
      - injection H as <- <-. split; auto; lia.
      - apply IH in H. destruct H; split; auto; lia. }
    apply G in H1. destruct H1 as [-> H1]. auto.
Qed.

(** * Sparse predictions *)
Lemma copyRow_ok row : forall indices n, n + length row <= length indices ->
  exists indices', copyRow row indices n = Some (indices', n + length row) /\ length indices' = length indices /\
    firstn (n + length row) indices' = firstn n indices ++ row.
Proof.
  induction row as [|x row IH]; intros indices n H; simpl in *.
  - exists indices. rewrite Nat.add_0_r, app_nil_r. auto.
  - rewrite aset_Some by lia. destruct (IH (upd indices n x) (n + 1)) as (ind' & E & L & F).
    + rewrite upd_length. lia.
    + exists ind'. replace (n + S (length row)) with (n + 1 + length row) by lia. split; auto.
      split; [rewrite L; apply upd_length|]. rewrite F. rewrite Nat.add_1_r, firstn_S_upd by lia.
      rewrite <- app_assoc. auto.
Qed.

Definition offset (rows : list (list nat)) (r : nat) : nat := length (concat (firstn r rows)).

Lemma firstn_S_nth {A} (l : list A) i x : nth_error l i = Some x -> firstn (S i) l = firstn i l ++ [x].
Proof. revert i; induction l; intros [|i] H; simpl in *; try discriminate; [congruence|]. f_equal. auto. Qed.

Lemma offset_le rows a b : a <= b -> offset rows a <= offset rows b.
Proof.
  intros H. unfold offset. replace (firstn a rows) with (firstn a (firstn b rows)).
  - rewrite <- (firstn_skipn a (firstn b rows)) at 2. rewrite concat_app, app_length. lia.
  - rewrite firstn_firstn. f_equal. lia.
Qed.

Lemma C17_lemma uI uP rows num :
  length uI = num -> length uP = length rows + 1 -> num = length (concat rows) ->
  exists indices indptr, lilToCsr uI uP rows num = Some (indices, indptr) /\
    indices = concat rows /\ length indptr = length rows + 1 /\
    nth_error indptr 0 = Some 0 /\ nth_error indptr (length rows) = Some (length indices) /\
    (forall r row, nth_error rows r = Some row -> csrRow indices indptr r = Some row).
Proof.
  intros HI HP HN. unfold lilToCsr. rewrite aset_Some by lia. rewrite aset_Some by (rewrite upd_length; lia).
  match goal with |- context [forN ?n 0 ?f ?s] =>
    destruct (forN_inv (fun i st => let '((ind, ptr), k) := st in length ind = num /\ length ptr = length rows + 1 /\
        k = offset rows i /\ firstn k ind = concat (firstn i rows) /\
        (forall r, r < i -> nth_error ptr r = Some (offset rows r)) /\
        nth_error ptr (length rows) = Some num) f n 0 s) as (st & E & I)
  end.
  - unfold offset. rewrite !upd_length. repeat (split; [auto; fail|]).
    split; [lia|]. apply nth_error_upd_eq. rewrite upd_length. lia.
  - intros i [[ind ptr] k] Hi (I1 & I2 & I3 & I4 & I5 & I6).
    rewrite aset_Some by lia. destruct (aget_Some rows i ltac:(lia)) as (row & Er). rewrite Er. unfold aget in Er.
    assert (O : offset rows (S i) = offset rows i + length row).
    { unfold offset. rewrite (firstn_S_nth _ _ _ Er), concat_app, app_length. simpl. rewrite app_nil_r. auto. }
    assert (ON : offset rows (S i) <= num).
    { rewrite HN. replace (length (concat rows)) with (offset rows (length rows)) by (unfold offset; rewrite firstn_all; auto).
      apply offset_le. lia. }
    destruct (copyRow_ok row ind k) as (ind' & Ec & L & F); [lia|]. rewrite Ec.
    eexists; split; [reflexivity|]. cbv beta iota. rewrite upd_length.
    split; [lia|]. split; auto. split; [lia|]. split.
    + rewrite F, I4. rewrite (firstn_S_nth _ _ _ Er), concat_app. simpl. rewrite app_nil_r. auto.
    + split.
      * intros r Hr. destruct (Nat.eq_dec i r) as [<-|N].
        -- rewrite nth_error_upd_eq by lia. congruence.
        -- rewrite nth_error_upd_neq by auto. apply I5. lia.
      * rewrite nth_error_upd_neq by lia. auto.
  - rewrite E. simpl plus in I. destruct st as [[ind ptr] k]. destruct I as (I1 & I2 & I3 & I4 & I5 & I6).
    rewrite firstn_all in I4.
    assert (K : k = num). { rewrite I3, HN. unfold offset. rewrite firstn_all. auto. }
    rewrite K, <- I1, firstn_all in I4.
    exists ind, ptr. split; auto. split; auto. split; auto.
    assert (P : forall r, r <= length rows -> nth_error ptr r = Some (offset rows r)).
    { intros r Hr. destruct (Nat.eq_dec r (length rows)) as [->|N].
      - rewrite I6, <- K, I3. auto.
      - apply I5. lia. }
    split. { rewrite P by lia. auto. }
    split. { rewrite I6. congruence. }
    intros r row Er. unfold csrRow, aget.
    assert (Hr : r < length rows) by (apply nth_error_Some; congruence).
    rewrite !P by lia.
    assert (O : offset rows (r + 1) = offset rows r + length row).
    { unfold offset. rewrite Nat.add_1_r, (firstn_S_nth _ _ _ Er), concat_app, app_length. simpl. rewrite app_nil_r. auto. }
    assert (ON : offset rows (r + 1) <= length ind).
    { rewrite I4. replace (length (concat rows)) with (offset rows (length rows)) by (unfold offset; rewrite firstn_all; auto).
      apply offset_le. lia. }
    destruct (Nat.leb_spec (offset rows r) (offset rows (r + 1))); [|lia].
    destruct (Nat.leb_spec (offset rows (r + 1)) (length ind)); [|lia]. simpl. f_equal.
    rewrite O. replace (offset rows r + length row - offset rows r) with (length row) by lia.
    rewrite I4. rewrite <- (firstn_skipn r rows) at 2. rewrite (skipn_nth _ _ _ Er).
    rewrite concat_app. unfold offset. rewrite skipn_app, skipn_all, Nat.sub_diag. simpl.
    rewrite firstn_app, firstn_all, Nat.sub_diag. simpl. rewrite app_nil_r. auto.
Qed.
