(** Proofs about conditions, bodies, condition lists and rule lists. *)
From Coq Require Import ZArith NArith Arith List Bool Lia Permutation.
From Verif Require Import Lib.Arr Model.Rules Model.Prediction Spec.Rules.
Import ListNotations.
Open Scope nat_scope.

(** ** Evaluation of conditions *)

Lemma cvDense_ok {T} (conv : fval -> option T) (cmp : T -> T -> bool) (mk : nat -> T -> condition) row conds :
  (forall f t, cFeature (mk f t) = f) ->
  (forall f t z, nth_error row f = Some (Fin z) -> In (f, t) conds -> evaluable row (mk f t) ->
     exists x, conv (Fin z) = Some x /\ (cmp x t = true <-> satisfies (cComparator (mk f t)) (cThreshold (mk f t)) z)) ->
  (forall c, In c (map (fun '(f, t) => mk f t) conds) -> evaluable row c) ->
  exists r, cvCoversDense conv cmp row conds = Some r /\
    (r = true <-> forall c, In c (map (fun '(f, t) => mk f t) conds) -> holds row c).
Proof.
  intros Hf. induction conds as [|[f t] conds IH]; intros Hc He.
  - exists true. simpl. split; [reflexivity|]. split; [intros _ c []|reflexivity].
  - assert (E1: evaluable row (mk f t)) by (apply He; left; reflexivity).
    pose proof E1 as E1'. destruct E1' as (z & Hz & _). rewrite Hf in Hz.
    destruct (Hc f t z Hz (or_introl eq_refl) E1) as (x & Hx & Hcmp).
    destruct IH as (r & Hr & Hrt).
    { intros f' t' z' H1 H2. apply Hc; auto. right; auto. }
    { intros c Hin. apply He. right; auto. }
    simpl. unfold aget. rewrite Hz, Hx.
    destruct (cmp x t) eqn:Ec; simpl.
    + exists r. split; auto. rewrite Hrt. split.
      * intros H c [<-|Hin]; [|auto]. exists z. rewrite Hf. split; auto. apply Hcmp; auto.
      * intros H c Hin. apply H. right; auto.
    + exists false. split; auto. split; [discriminate|].
      intros H. destruct (H _ (or_introl eq_refl)) as (z' & Hz' & Hs). rewrite Hf, Hz in Hz'.
      injection Hz' as <-. apply Hcmp in Hs. congruence.
Qed.

Lemma toInt32_Fin z : (- 2 ^ 31 <= Z.quot z (2 ^ 149) < 2 ^ 31)%Z -> toInt32 (Fin z) = Some (Z.quot z (2 ^ 149)).
Proof.
  intros [H1 H2]. unfold toInt32. set (q := Z.quot z (2 ^ 149)) in *.
  apply Z.leb_le in H1. apply Z.ltb_lt in H2. rewrite H1, H2. reflexivity.
Qed.

Lemma andThen_ok (a b : option bool) (P Q : Prop) :
  (exists r, a = Some r /\ (r = true <-> P)) -> (exists r, b = Some r /\ (r = true <-> Q)) ->
  exists r, andThen a b = Some r /\ (r = true <-> P /\ Q).
Proof.
  intros (r1 & -> & H1) (r2 & -> & H2). unfold andThen. destruct r1.
  - exists r2. split; auto. tauto.
  - exists false. split; auto. split; [discriminate|]. intros [HP _]. tauto.
Qed.

Lemma evaluable_int row f c t :
  evaluable row (mkCond f c (TInt t)) -> is_numerical c = false ->
  forall z, nth_error row f = Some (Fin z) -> toInt32 (Fin z) = Some (Z.quot z (2 ^ 149)).
Proof.
  intros (z' & H & R) Hn z Hz. simpl in H. rewrite H in Hz. injection Hz as ->.
  apply toInt32_Fin. apply R. auto.
Qed.

Lemma cbodyDense_ok row b :
  Forall well_typed (bodyConditions b) -> Forall (evaluable row) (bodyConditions b) ->
  exists r, cbodyCoversDense row b = Some r /\ (r = true <-> Forall (holds row) (bodyConditions b)).
Proof.
  intros Hw He. rewrite Forall_forall in Hw, He. unfold bodyConditions in Hw, He.
  assert (F : forall c v cmp,
    (forall x, In x (floatConds c v) -> well_typed x) ->
    (forall x, In x (floatConds c v) -> evaluable row x) ->
    (forall z s, cmp (Fin z) (Fin s) = true <-> satisfies c (TFloat (Fin s)) z) ->
    exists r, cvCoversDense toFloat32 cmp row v = Some r /\
      (r = true <-> forall x, In x (floatConds c v) -> holds row x)).
  { intros c v cmp W E C. apply (cvDense_ok toFloat32 cmp (fun f t => mkCond f c (TFloat t))); auto.
    intros f t z Hz Hin _. exists (Fin z). split; [reflexivity|].
    assert (Ht: well_typed (mkCond f c (TFloat t))).
    { apply W. unfold floatConds. apply in_map_iff. exists (f, t). auto. }
    destruct t as [|s]; [destruct Ht|]. simpl. apply C. }
  assert (I : forall c v cmp, is_numerical c = false ->
    (forall x, In x (intConds c v) -> evaluable row x) ->
    (forall z s, cmp (Z.quot z (2 ^ 149)) s = true <-> satisfies c (TInt s) z) ->
    exists r, cvCoversDense toInt32 cmp row v = Some r /\
      (r = true <-> forall x, In x (intConds c v) -> holds row x)).
  { intros c v cmp Nc E C. apply (cvDense_ok toInt32 cmp (fun f t => mkCond f c (TInt t))); auto.
    intros f t z Hz Hin Hev. exists (Z.quot z (2 ^ 149)). split.
    - eapply evaluable_int; eauto.
    - simpl cComparator. simpl cThreshold. apply C. }
  unfold cbodyCoversDense.
  edestruct (F NUMERICAL_LEQ (numericalLeq b) compareNumericalLeq) as (r0 & Hr0).
  { intros x Hx. apply Hw. rewrite ?in_app_iff. tauto. }
  { intros x Hx. apply He. rewrite ?in_app_iff. tauto. }
  { intros z s. unfold compareNumericalLeq, fgt, satisfies. destruct (Z.ltb_spec s z); simpl; split; try easy; lia. }
  edestruct (F NUMERICAL_GR (numericalGr b) compareNumericalGr) as (r1 & Hr1).
  { intros x Hx. apply Hw. rewrite ?in_app_iff. tauto. }
  { intros x Hx. apply He. rewrite ?in_app_iff. tauto. }
  { intros z s. unfold compareNumericalGr, fgt, satisfies. destruct (Z.ltb_spec s z); simpl; split; try easy; lia. }
  edestruct (I ORDINAL_LEQ (ordinalLeq b) compareOrdinalLeq eq_refl) as (r2 & Hr2).
  { intros x Hx. apply He. rewrite ?in_app_iff. tauto. }
  { intros z s. unfold compareOrdinalLeq, satisfies. apply Z.leb_le. }
  edestruct (I ORDINAL_GR (ordinalGr b) compareOrdinalGr eq_refl) as (r3 & Hr3).
  { intros x Hx. apply He. rewrite ?in_app_iff. tauto. }
  { intros z s. unfold compareOrdinalGr, satisfies. rewrite Z.ltb_lt. apply iff_sym, Z.gt_lt_iff. }
  edestruct (I NOMINAL_EQ (nominalEq b) compareNominalEq eq_refl) as (r4 & Hr4).
  { intros x Hx. apply He. rewrite ?in_app_iff. tauto. }
  { intros z s. unfold compareNominalEq, satisfies. apply Z.eqb_eq. }
  edestruct (I NOMINAL_NEQ (nominalNeq b) compareNominalNeq eq_refl) as (r5 & Hr5).
  { intros x Hx. apply He. rewrite ?in_app_iff. tauto. }
  { intros z s. unfold compareNominalNeq, satisfies. rewrite negb_true_iff. apply Z.eqb_neq. }
  pose proof (andThen_ok _ _ _ _ (ex_intro _ r4 Hr4) (ex_intro _ r5 Hr5)) as A4.
  pose proof (andThen_ok _ _ _ _ (ex_intro _ r3 Hr3) A4) as A3.
  pose proof (andThen_ok _ _ _ _ (ex_intro _ r2 Hr2) A3) as A2.
  pose proof (andThen_ok _ _ _ _ (ex_intro _ r1 Hr1) A2) as A1.
  pose proof (andThen_ok _ _ _ _ (ex_intro _ r0 Hr0) A1) as (r & Hr & Hrt).
  exists r. split; auto. rewrite Hrt, Forall_forall. unfold bodyConditions. split.
  - intros H x Hx. rewrite ?in_app_iff in Hx. intuition.
  - intros H. repeat split; intros x Hx; apply H; rewrite ?in_app_iff; tauto.
Qed.

(** ** Sparse rows *)

Lemma writeScratch_ok entries n tmp1 tmp2 row numFeatures sparseValue :
  same_row numFeatures sparseValue entries row -> length tmp1 = numFeatures -> length tmp2 = numFeatures ->
  ~ In n tmp2 ->
  exists tmp1' tmp2', writeScratch entries n (tmp1, tmp2) = Some (tmp1', tmp2') /\
    length tmp1' = numFeatures /\ length tmp2' = numFeatures /\
    (forall x, In x tmp2' -> x = n \/ In x tmp2) /\
    (forall f, f < numFeatures ->
      exists s, nth_error tmp2' f = Some s /\
        (if (s =? n)%N then nth_error tmp1' f else Some sparseValue) = nth_error row f).
Proof.
  intros (Hlen & Hin & Hout) L1 L2 Hn.
  unfold writeScratch.
  match goal with |- context [forL entries ?b _] =>
    pose proof (forL_inv (fun done '(t1, t2) =>
      length t1 = numFeatures /\ length t2 = numFeatures /\
      (forall x, In x t2 -> x = n \/ In x tmp2) /\
      (forall f, f < numFeatures ->
        (In f (map fst done) /\ nth_error t2 f = Some n /\ nth_error t1 f = nth_error row f) \/
        (~ In f (map fst done) /\ nth_error t2 f = nth_error tmp2 f)))
      b entries [] (tmp1, tmp2)) as K end.
  destruct K as ([t1 t2] & E & A & B & C & D).
  - cbv beta iota. split; [exact L1|]. split; [exact L2|]. split; [intros x Hx; right; exact Hx|].
    intros f Hf. right. split; auto.
  - intros pre [f v] post [t1 t2] Eq (A & B & C & D). cbv beta iota. 
    assert (Hv: nth_error row f = Some v).
    { apply Hin. simpl in Eq. rewrite Eq. rewrite in_app_iff. right. left. reflexivity. }
    assert (Hf: f < numFeatures).
    { rewrite <- Hlen. apply (proj1 (nth_error_Some row f)). congruence. }
    rewrite (aset_Some t1), (aset_Some t2) by lia. eexists. split; [reflexivity|]. cbv beta iota.
    rewrite !upd_length. split; auto. split; auto. split.
    { intros x Hx. apply In_nth_error in Hx. destruct Hx as (k & Hk). rewrite nth_error_upd in Hk.
      destruct ((f =? k) && (f <? length t2)).
      - injection Hk as <-. auto.
      - apply nth_error_In in Hk. apply C in Hk. auto. }
    intros g Hg. rewrite map_app, !nth_error_upd. simpl map.
    destruct (Nat.eqb_spec f g) as [<-|Hne].
    + rewrite (proj2 (Nat.ltb_lt f (length t2))), (proj2 (Nat.ltb_lt f (length t1))) by lia. simpl. left.
      rewrite in_app_iff. simpl. auto.
    + simpl. destruct (D g Hg) as [(D1 & D2 & D3)|(D1 & D2)]; [left|right]; rewrite in_app_iff; simpl; intuition.
  - exists t1, t2. rewrite E. split; auto. split; auto. split; auto. split; auto.
    intros f Hf. simpl in D. destruct (D f Hf) as [(D1 & D2 & D3)|(D1 & D2)].
    + exists n. rewrite N.eqb_refl. auto.
    + destruct (nth_error tmp2 f) as [s|] eqn:Es.
      * exists s. rewrite D2. split; auto. destruct (N.eqb_spec s n) as [->|_].
        { exfalso. apply Hn. eapply nth_error_In; eauto. }
        symmetry. apply Hout; auto.
      * apply nth_error_None in Es. lia.
Qed.

Lemma cvSparse_eq {T} (conv : fval -> option T) cmp sparseValue tmp1 tmp2 n row numFeatures conds :
  length row = numFeatures -> length tmp2 = numFeatures ->
  (forall f, f < numFeatures ->
      exists s, nth_error tmp2 f = Some s /\
        (if (s =? n)%N then nth_error tmp1 f else Some sparseValue) = nth_error row f) ->
  cvCoversSparse conv cmp sparseValue tmp1 tmp2 n conds = cvCoversDense conv cmp row conds.
Proof.
  intros L1 L2 H. induction conds as [|[f t] conds IH]; auto. simpl. unfold aget.
  destruct (Nat.lt_ge_cases f numFeatures) as [Hf|Hf].
  - destruct (H f Hf) as (s & Hs & E). rewrite Hs, E. destruct (nth_error row f) as [v|]; auto.
    destruct (conv v); auto. destruct (negb (cmp t0 t)); auto.
  - assert (nth_error tmp2 f = None) as -> by (apply nth_error_None; lia).
    assert (nth_error row f = None) as -> by (apply nth_error_None; lia). reflexivity.
Qed.

Lemma coversSparse_ok entries n tmp1 tmp2 row numFeatures sparseValue b :
  same_row numFeatures sparseValue entries row -> length tmp1 = numFeatures -> length tmp2 = numFeatures ->
  ~ In n tmp2 ->
  match coversDense row b with
  | Some r => exists tmp1' tmp2', coversSparse entries sparseValue (tmp1, tmp2) n b = Some (r, (tmp1', tmp2')) /\
      length tmp1' = numFeatures /\ length tmp2' = numFeatures /\ (forall x, In x tmp2' -> x = n \/ In x tmp2)
  | None => coversSparse entries sparseValue (tmp1, tmp2) n b = None
  end.
Proof.
  intros Hs L1 L2 Hn. destruct b as [|b].
  - simpl. exists tmp1, tmp2. auto 10.
  - simpl. destruct (writeScratch_ok entries n tmp1 tmp2 row numFeatures sparseValue Hs L1 L2 Hn)
      as (t1 & t2 & E & A & B & C & D).
    unfold cbodyCoversSparse. rewrite E.
    rewrite !(cvSparse_eq _ _ sparseValue t1 t2 n row numFeatures) by (auto; apply Hs).
    fold (cbodyCoversDense row b).
    destruct (cbodyCoversDense row b) as [r|].
    + exists t1, t2. auto.
    + reflexivity.
Qed.

(** ** Condition lists *)

Definition comparator_eqb (a b : comparator) : bool := comparatorIndex a =? comparatorIndex b.

Lemma comparator_eqb_eq a b : comparator_eqb a b = true <-> a = b.
Proof. destruct a, b; simpl; split; try discriminate; reflexivity. Qed.

Definition conds_of (c : comparator) (l : list condition) : list condition :=
  filter (fun x => comparator_eqb (cComparator x) c) l.

Definition counts_ok (l : condList) : Prop :=
  length (clCounts l) = 6 /\
  forall c, nth_error (clCounts l) (comparatorIndex c) = Some (length (conds_of c (clVector l))).

Lemma comparatorIndex_lt c : comparatorIndex c < 6.
Proof. destruct c; simpl; lia. Qed.

Lemma comparatorIndex_inj a b : comparatorIndex a = comparatorIndex b -> a = b.
Proof. destruct a, b; simpl; intros; try discriminate; reflexivity. Qed.

Lemma conds_of_snoc d l c : length (conds_of d (l ++ [c])) =
  length (conds_of d l) + (if comparatorIndex (cComparator c) =? comparatorIndex d then 1 else 0).
Proof.
  unfold conds_of. rewrite filter_app, app_length. f_equal. simpl. unfold comparator_eqb.
  destruct (comparatorIndex (cComparator c) =? comparatorIndex d); reflexivity.
Qed.

Lemma clAdd_ok l c : counts_ok l ->
  exists l', clAdd l c = Some l' /\ clVector l' = clVector l ++ [c] /\ counts_ok l'.
Proof.
  intros (L & H). unfold clAdd, aget. rewrite H.
  pose proof (comparatorIndex_lt (cComparator c)). rewrite aset_Some by lia.
  eexists. split; [reflexivity|]. split; [reflexivity|]. split; simpl.
  - rewrite upd_length. auto.
  - intros d. rewrite nth_error_upd, conds_of_snoc.
    destruct (Nat.eqb_spec (comparatorIndex (cComparator c)) (comparatorIndex d)) as [E|E].
    + rewrite (proj2 (Nat.ltb_lt _ _)) by lia. simpl. f_equal.
      apply comparatorIndex_inj in E. rewrite <- E. reflexivity.
    + simpl. rewrite Nat.add_0_r. apply H.
Qed.

Lemma removelast_rev {A} (l : list A) : removelast l = rev (tl (rev l)).
Proof.
  destruct l using rev_ind; auto. rewrite removelast_last, rev_app_distr. simpl. rewrite rev_involutive. auto.
Qed.

Lemma clRemoveLast_ok l : counts_ok l -> clVector l <> [] ->
  exists l', clRemoveLast l = Some l' /\ clVector l' = removelast (clVector l) /\ counts_ok l'.
Proof.
  intros (L & H) Hne. unfold clRemoveLast.
  destruct (rev (clVector l)) as [|c rest] eqn:E.
  { exfalso. apply Hne. rewrite <- (rev_involutive (clVector l)), E. reflexivity. }
  assert (Ev: clVector l = rev rest ++ [c]).
  { rewrite <- (rev_involutive (clVector l)), E. reflexivity. }
  unfold aget. rewrite H. pose proof (comparatorIndex_lt (cComparator c)). rewrite aset_Some by lia.
  eexists. split; [reflexivity|]. split.
  { simpl. rewrite Ev, removelast_last. reflexivity. }
  split; simpl.
  - rewrite upd_length. auto.
  - intros d. rewrite nth_error_upd. pose proof (H d) as Hd.
    rewrite Ev, conds_of_snoc in Hd |- *. rewrite Nat.eqb_refl.
    destruct (Nat.eqb_spec (comparatorIndex (cComparator c)) (comparatorIndex d)) as [E'|E'].
    + rewrite (proj2 (Nat.ltb_lt _ _)) by lia. simpl. f_equal.
      apply comparatorIndex_inj in E'. rewrite <- E'. lia.
    + simpl in Hd |- *. rewrite Nat.add_0_r in Hd. exact Hd.
Qed.

Lemma cl_run_ok ops : forall l conds, counts_ok l -> surviving (clVector l) ops = Some conds ->
  exists l', cl_run l ops = Some l' /\ clVector l' = conds /\ counts_ok l'.
Proof.
  induction ops as [|[c|] ops IH]; simpl; intros l conds Hl Hs.
  - injection Hs as <-. eauto.
  - destruct (clAdd_ok l c Hl) as (l' & -> & Ev & Hl'). apply IH; auto. rewrite Ev. auto.
  - destruct (clVector l) as [|x v] eqn:E; [discriminate|].
    destruct (clRemoveLast_ok l Hl) as (l' & -> & Ev & Hl'); [congruence|].
    apply IH; auto. rewrite Ev, E. auto.
Qed.

Lemma clEmpty_ok : counts_ok clEmpty.
Proof. split; [reflexivity|]. intros []; reflexivity. Qed.

(** The conditions with a certain comparator, as stored in a body. *)
Definition floatVec (c : comparator) (l : list condition) : cvec fval :=
  flat_map (fun x => match cThreshold x with TFloat t => [(cFeature x, t)] | TInt _ => [] end) (conds_of c l).
Definition intVec (c : comparator) (l : list condition) : cvec Z :=
  flat_map (fun x => match cThreshold x with TInt t => [(cFeature x, t)] | TFloat _ => [] end) (conds_of c l).

Lemma conds_of_app c a b : conds_of c (a ++ b) = conds_of c a ++ conds_of c b.
Proof. apply filter_app. Qed.
Lemma floatVec_app c a b : floatVec c (a ++ b) = floatVec c a ++ floatVec c b.
Proof. unfold floatVec. rewrite conds_of_app, flat_map_app. auto. Qed.
Lemma intVec_app c a b : intVec c (a ++ b) = intVec c a ++ intVec c b.
Proof. unfold intVec. rewrite conds_of_app, flat_map_app. auto. Qed.

Lemma conds_of_In c l x : In x (conds_of c l) <-> In x l /\ cComparator x = c.
Proof. unfold conds_of. rewrite filter_In, comparator_eqb_eq. tauto. Qed.

Lemma floatVec_length c l : Forall well_typed l -> is_numerical c = true ->
  length (floatVec c l) = length (conds_of c l).
Proof.
  intros Hw Hc. induction Hw as [|x l Hx Hw IH]; auto.
  rewrite <- (app_nil_l l), (app_comm_cons [] l). rewrite floatVec_app, conds_of_app, !app_length, IH. f_equal.
  unfold floatVec, conds_of. simpl. destruct (comparator_eqb (cComparator x) c) eqn:E; auto.
  apply comparator_eqb_eq in E. unfold well_typed in Hx. simpl. destruct (cThreshold x); auto. congruence.
Qed.

Lemma intVec_length c l : Forall well_typed l -> is_numerical c = false ->
  length (intVec c l) = length (conds_of c l).
Proof.
  intros Hw Hc. induction Hw as [|x l Hx Hw IH]; auto.
  rewrite <- (app_nil_l l), (app_comm_cons [] l). rewrite intVec_app, conds_of_app, !app_length, IH. f_equal.
  unfold intVec, conds_of. simpl. destruct (comparator_eqb (cComparator x) c) eqn:E; auto.
  apply comparator_eqb_eq in E. unfold well_typed in Hx. simpl. destruct (cThreshold x) as [[|]|]; auto; try easy.
  congruence.
Qed.

(** A partially filled array. *)
Definition filled {T} (j : T) (n : nat) (done : list T) (v : list T) : Prop :=
  length done <= n /\ v = done ++ repeat j (n - length done).

Lemma filled_step {T} (j : T) n done v x : filled j n done v -> length done < n ->
  exists v', aset v (length done) x = Some v' /\ filled j n (done ++ [x]) v'.
Proof.
  intros (_ & ->) Hlt. rewrite aset_Some by (rewrite app_length, repeat_length; lia).
  eexists. split; [reflexivity|]. unfold filled. rewrite app_length. simpl length. split; [lia|].
  replace (n - length done) with (S (n - (length done + 1))) by lia. simpl repeat.
  generalize (repeat j (n - (length done + 1))). intros r.
  clear Hlt. induction done as [|d done IH]; simpl; auto. f_equal; auto.
Qed.

Lemma filled_0 {T} (j : T) n : filled j n [] (repeat j n).
Proof. split; simpl; [lia|]. rewrite Nat.sub_0_r. auto. Qed.

Lemma filled_full {T} (j : T) n done v : filled j n done v -> length done = n -> v = done.
Proof. intros (_ & ->) <-. rewrite Nat.sub_diag. simpl. apply app_nil_r. Qed.

Lemma clCreateBody_ok junkF junkI l : counts_ok l -> Forall well_typed (clVector l) ->
  clCreateBody junkF junkI l = Some (mkBody
    (floatVec NUMERICAL_LEQ (clVector l)) (floatVec NUMERICAL_GR (clVector l))
    (intVec ORDINAL_LEQ (clVector l)) (intVec ORDINAL_GR (clVector l))
    (intVec NOMINAL_EQ (clVector l)) (intVec NOMINAL_NEQ (clVector l))).
Proof.
  intros (L & H) Hw. unfold clCreateBody, aget. rewrite !H.
  set (len c := length (conds_of c (clVector l))).
  match goal with |- context [forL _ ?b ?s] =>
    pose proof (forL_inv (fun done '(mkBody v0 v1 v2 v3 v4 v5, (i0, i1, i2, i3, i4, i5)) =>
      (filled junkF (len NUMERICAL_LEQ) (floatVec NUMERICAL_LEQ done) v0 /\ i0 = length (floatVec NUMERICAL_LEQ done)) /\
      (filled junkF (len NUMERICAL_GR) (floatVec NUMERICAL_GR done) v1 /\ i1 = length (floatVec NUMERICAL_GR done)) /\
      (filled junkI (len ORDINAL_LEQ) (intVec ORDINAL_LEQ done) v2 /\ i2 = length (intVec ORDINAL_LEQ done)) /\
      (filled junkI (len ORDINAL_GR) (intVec ORDINAL_GR done) v3 /\ i3 = length (intVec ORDINAL_GR done)) /\
      (filled junkI (len NOMINAL_EQ) (intVec NOMINAL_EQ done) v4 /\ i4 = length (intVec NOMINAL_EQ done)) /\
      (filled junkI (len NOMINAL_NEQ) (intVec NOMINAL_NEQ done) v5 /\ i5 = length (intVec NOMINAL_NEQ done)))
      b (clVector l) [] s) as K end.
  destruct K as ([[v0 v1 v2 v3 v4 v5] [[[[[i0 i1] i2] i3] i4] i5]] & E & A0 & A1 & A2 & A3 & A4 & A5).
  - cbv beta iota. repeat (split; [split; [apply filled_0|reflexivity]|]). split; [apply filled_0|reflexivity].
  - intros pre c post [[v0 v1 v2 v3 v4 v5] [[[[[i0 i1] i2] i3] i4] i5]] Eq (A0 & A1 & A2 & A3 & A4 & A5).
    simpl in Eq.
    assert (Hc: well_typed c).
    { rewrite Forall_forall in Hw. apply Hw. rewrite Eq, in_app_iff. right; left; auto. }
    assert (WF: forall a, Forall well_typed (clVector l) -> is_numerical a = true ->
      length (floatVec a pre) + length (floatVec a [c]) + length (floatVec a post) = len a).
    { intros a W N. unfold len. rewrite <- (floatVec_length a _ W N), Eq.
      rewrite <- (app_nil_l post), (app_comm_cons [] post), !floatVec_app, !app_length. simpl. lia. }
    assert (WI: forall a, Forall well_typed (clVector l) -> is_numerical a = false ->
      length (intVec a pre) + length (intVec a [c]) + length (intVec a post) = len a).
    { intros a W N. unfold len. rewrite <- (intVec_length a _ W N), Eq.
      rewrite <- (app_nil_l post), (app_comm_cons [] post), !intVec_app, !app_length. simpl. lia. }
    clearbody len.
    cbv beta iota.
    destruct c as [f cmp t]. unfold well_typed in Hc. simpl cComparator in *. simpl cThreshold in *. simpl cFeature in *.
    assert (NF: forall a, a <> cmp -> floatVec a [mkCond f cmp t] = []).
    { intros a Ha. unfold floatVec, conds_of. simpl. destruct (comparator_eqb cmp a) eqn:Ec; auto.
      apply comparator_eqb_eq in Ec. congruence. }
    assert (NI: forall a, a <> cmp -> intVec a [mkCond f cmp t] = []).
    { intros a Ha. unfold intVec, conds_of. simpl. destruct (comparator_eqb cmp a) eqn:Ec; auto.
      apply comparator_eqb_eq in Ec. congruence. }
    destruct A0 as (A0 & ->), A1 as (A1 & ->), A2 as (A2 & ->), A3 as (A3 & ->), A4 as (A4 & ->), A5 as (A5 & ->).
    Ltac fin5 NF NI := 
      eexists; split; [reflexivity|]; cbv beta iota;
      rewrite !floatVec_app, !intVec_app;
      repeat (rewrite NF by discriminate); repeat (rewrite NI by discriminate);
      rewrite ?app_nil_r, ?app_length; simpl length; repeat match goal with |- _ /\ _ => split end; auto.
    destruct cmp; destruct t as [[|t]|t]; try discriminate Hc; try destruct Hc; simpl getFloat; simpl getInt;
      cbv beta iota.
    + pose proof (WF NUMERICAL_LEQ Hw eq_refl) as W. simpl in W.
      destruct (filled_step _ _ _ _ (f, Fin t) A0) as (v' & -> & A'); [lia|]. fin5 NF NI.
    + pose proof (WF NUMERICAL_GR Hw eq_refl) as W. simpl in W.
      destruct (filled_step _ _ _ _ (f, Fin t) A1) as (v' & -> & A'); [lia|]. fin5 NF NI.
    + pose proof (WI ORDINAL_LEQ Hw eq_refl) as W. simpl in W.
      destruct (filled_step _ _ _ _ (f, t) A2) as (v' & -> & A'); [lia|]. fin5 NF NI.
    + pose proof (WI ORDINAL_GR Hw eq_refl) as W. simpl in W.
      destruct (filled_step _ _ _ _ (f, t) A3) as (v' & -> & A'); [lia|]. fin5 NF NI.
    + pose proof (WI NOMINAL_EQ Hw eq_refl) as W. simpl in W.
      destruct (filled_step _ _ _ _ (f, t) A4) as (v' & -> & A'); [lia|]. fin5 NF NI.
    + pose proof (WI NOMINAL_NEQ Hw eq_refl) as W. simpl in W.
      destruct (filled_step _ _ _ _ (f, t) A5) as (v' & -> & A'); [lia|]. fin5 NF NI.
  - rewrite E. simpl in A0, A1, A2, A3, A4, A5. f_equal.
    f_equal; (eapply filled_full; [apply A0 || apply A1 || apply A2 || apply A3 || apply A4 || apply A5|]);
    first [apply floatVec_length | apply intVec_length]; auto.
Qed.

Lemma with_comparator_conds c l : with_comparator c l = conds_of c l.
Proof.
  unfold with_comparator, conds_of. apply filter_ext. intros x.
  destruct (comparator_eq_dec (cComparator x) c) as [E|E].
  - symmetry. apply comparator_eqb_eq. auto.
  - destruct (comparator_eqb (cComparator x) c) eqn:E'; auto. apply comparator_eqb_eq in E'. contradiction.
Qed.

Lemma floatConds_vec c l : Forall well_typed l -> is_numerical c = true -> floatConds c (floatVec c l) = conds_of c l.
Proof.
  intros Hw Hc. induction Hw as [|x l Hx Hw IH]; auto.
  change (x :: l) with ([x] ++ l). rewrite floatVec_app, conds_of_app. unfold floatConds in *. rewrite map_app, IH.
  f_equal. unfold floatVec, conds_of. simpl. destruct (comparator_eqb (cComparator x) c) eqn:E; auto.
  apply comparator_eqb_eq in E. unfold well_typed in Hx. destruct x as [f c' t]. simpl in *.
  destruct t as [[|t]|t]; simpl; try congruence; easy.
Qed.

Lemma intConds_vec c l : Forall well_typed l -> is_numerical c = false -> intConds c (intVec c l) = conds_of c l.
Proof.
  intros Hw Hc. induction Hw as [|x l Hx Hw IH]; auto.
  change (x :: l) with ([x] ++ l). rewrite intVec_app, conds_of_app. unfold intConds in *. rewrite map_app, IH.
  f_equal. unfold intVec, conds_of. simpl. destruct (comparator_eqb (cComparator x) c) eqn:E; auto.
  apply comparator_eqb_eq in E. unfold well_typed in Hx. destruct x as [f c' t]. simpl in *.
  destruct t as [[|t]|t]; simpl; try congruence; easy.
Qed.

Lemma conds_of_conds_of c d l : conds_of c (conds_of d l) = if comparator_eqb c d then conds_of c l else [].
Proof.
  induction l as [|x l IH]; simpl.
  - destruct (comparator_eqb c d); auto.
  - destruct (comparator_eqb (cComparator x) d) eqn:E1; simpl; rewrite ?IH.
    + apply comparator_eqb_eq in E1. destruct (comparator_eqb (cComparator x) c) eqn:E2.
      * apply comparator_eqb_eq in E2. assert (comparator_eqb c d = true) as -> by (apply comparator_eqb_eq; congruence).
        auto.
      * auto.
    + destruct (comparator_eqb (cComparator x) c) eqn:E2; auto.
      destruct (comparator_eqb c d) eqn:E3; auto.
      apply comparator_eqb_eq in E2, E3. subst. rewrite (proj2 (comparator_eqb_eq _ _) eq_refl) in E1. discriminate.
Qed.

Lemma six_perm l : Permutation l
  (conds_of NUMERICAL_LEQ l ++ conds_of NUMERICAL_GR l ++ conds_of ORDINAL_LEQ l ++ conds_of ORDINAL_GR l ++
   conds_of NOMINAL_EQ l ++ conds_of NOMINAL_NEQ l).
Proof.
  induction l as [|[f c t] l IH]; [constructor|].
  unfold conds_of in *. cbn [filter cComparator]. destruct c; unfold comparator_eqb at 1 2 3 4 5 6; simpl comparatorIndex; cbn [Nat.eqb].
  - simpl. apply perm_skip. exact IH.
  - apply Permutation_cons_app. exact IH.
  - rewrite app_assoc. apply Permutation_cons_app. rewrite <- app_assoc. exact IH.
  - rewrite 2 app_assoc. apply Permutation_cons_app. rewrite <- 2 app_assoc. exact IH.
  - rewrite 3 app_assoc. apply Permutation_cons_app. rewrite <- 3 app_assoc. exact IH.
  - rewrite 4 app_assoc. apply Permutation_cons_app. rewrite <- 4 app_assoc. exact IH.
Qed.

Lemma create_body_lemma junkF junkI l :
  counts_ok l -> Forall well_typed (clVector l) ->
  exists b, clCreateBody junkF junkI l = Some b /\
    (forall c, with_comparator c (bodyConditions b) = with_comparator c (clVector l)) /\
    Permutation (bodyConditions b) (clVector l).
Proof.
  intros Hl Hw. rewrite (clCreateBody_ok junkF junkI l Hl Hw). eexists. split; [reflexivity|].
  unfold bodyConditions. simpl.
  rewrite !floatConds_vec, !intConds_vec by auto. split.
  - intros c. rewrite !with_comparator_conds, !conds_of_app, !conds_of_conds_of.
    destruct c; simpl; rewrite ?app_nil_r; reflexivity.
  - symmetry. apply six_perm.
Qed.

Lemma Forall_perm {A} (P : A -> Prop) l1 l2 : Permutation l1 l2 -> Forall P l1 -> Forall P l2.
Proof. intros E. rewrite !Forall_forall. intros H x Hx. apply H. eapply Permutation_in; [symmetry|]; eauto. Qed.

Lemma C20_lemma : forall junkF junkI ops conds,
  surviving [] ops = Some conds -> Forall well_typed conds ->
  exists l b, cl_run clEmpty ops = Some l /\ clCreateBody junkF junkI l = Some b /\
    (forall c, with_comparator c (bodyConditions b) = with_comparator c conds) /\
    Permutation (bodyConditions b) conds /\
    forall row, Forall (evaluable row) conds ->
      exists r, cbodyCoversDense row b = Some r /\ (r = true <-> Forall (holds row) conds).
Proof.
  intros junkF junkI ops conds Hs Hw.
  destruct (cl_run_ok ops clEmpty conds clEmpty_ok Hs) as (l & Hr & Hv & Hl).
  destruct (create_body_lemma junkF junkI l Hl) as (b & Hb & H1 & H2); [rewrite Hv; auto|].
  exists l, b. rewrite Hv in *. split; auto. split; auto. split; auto. split; auto.
  intros row He. destruct (cbodyDense_ok row b) as (r & E & Hr').
  - eapply Forall_perm; [symmetry; exact H2|auto].
  - eapply Forall_perm; [symmetry; exact H2|auto].
  - exists r. split; auto. rewrite Hr'. split; apply Forall_perm; auto. symmetry; auto.
Qed.

(** *** Copies *)

Lemma copy_same_partial : forall ops conds l,
  surviving [] ops = Some conds -> cl_run clEmpty ops = Some l ->
  length (with_comparator NOMINAL_EQ conds) = length (with_comparator NOMINAL_NEQ conds) ->
  clCopy l = Some l.
Proof.
  intros ops conds l Hs Hr Hn.
  destruct (cl_run_ok ops clEmpty conds clEmpty_ok Hs) as (l' & Hr' & Hv & L & H).
  rewrite Hr in Hr'. injection Hr' as <-. subst conds. rewrite !with_comparator_conds in Hn.
  destruct l as [v c]. simpl in *.
  destruct c as [|c0 [|c1 [|c2 [|c3 [|c4 [|c5 [|]]]]]]]; try discriminate L.
  pose proof (H NOMINAL_EQ) as H4. pose proof (H NOMINAL_NEQ) as H5. simpl in H4, H5.
  injection H4 as H4. injection H5 as H5. unfold clCopy. simpl. congruence.
Qed.

(** ** Rule lists *)

Definition iter_ok {R} (it : rlIter R) (order : list R) : Prop :=
  forall j, itIndex it + j < length order -> itDeref (itAdvance it j) = nth_error order (itIndex it + j).

Lemma itAdvance_add {R} (it : rlIter R) a b : itAdvance (itAdvance it a) b = itAdvance it (a + b).
Proof. unfold itAdvance. simpl. rewrite Nat.add_assoc. auto. Qed.

Lemma iter_ok_advance {R} (it : rlIter R) order a : iter_ok it order -> iter_ok (itAdvance it a) order.
Proof.
  intros H j Hj. rewrite itAdvance_add. simpl in *. rewrite H by lia. f_equal. lia.
Qed.

Lemma firstn_skipn_S {A} (l : list A) i k x : nth_error l i = Some x ->
  firstn (S k) (skipn i l) = x :: firstn k (skipn (S i) l).
Proof.
  revert i. induction l as [|a l IH]; intros [|i] H; simpl in *; try discriminate.
  - injection H as ->. auto.
  - apply IH in H. destruct l; [destruct i; discriminate|]. exact H.
Qed.

Lemma iterRange_ok {R S} (f : R -> S -> option S) order cnt : forall it st,
  iter_ok it order -> itIndex it + cnt <= length order ->
  iterRange cnt it f st = forL (firstn cnt (skipn (itIndex it) order)) f st.
Proof.
  induction cnt as [|cnt IH]; intros it st Hok Hle; auto.
  assert (D: itDeref it = nth_error order (itIndex it)).
  { specialize (Hok 0). rewrite Nat.add_0_r in Hok.
    replace (itAdvance it 0) with it in Hok.
    - apply Hok. lia.
    - unfold itAdvance. rewrite Nat.add_0_r. destruct it; auto. }
  destruct (nth_error order (itIndex it)) as [x|] eqn:E.
  2:{ apply nth_error_None in E. lia. }
  rewrite (firstn_skipn_S _ _ _ _ E). cbn [iterRange forL]. rewrite D. destruct (f x st) as [st'|]; auto.
  rewrite IH.
  - simpl itIndex. rewrite Nat.add_1_r. auto.
  - apply iter_ok_advance; auto.
  - simpl. lia.
Qed.

Lemma expected_length {R} (l : ruleList R) n :
  n <= rlGetNumRules l -> (rlDefault l = None \/ 1 <= n) ->
  length (expected_order (rlDefault l) (rlRules l) (rlPrecedence l) n) = n.
Proof.
  unfold rlGetNumRules, expected_order. intros Hn Hd.
  destruct (rlDefault l) as [d|].
  - destruct Hd as [|Hd]; [discriminate|].
    destruct (rlPrecedence l); simpl; rewrite ?app_length, firstn_length; simpl; lia.
  - rewrite firstn_length. lia.
Qed.

Lemma nth_error_firstn' {A} (l : list A) n i : nth_error (firstn n l) i = if i <? n then nth_error l i else None.
Proof.
  revert n i; induction l as [|a l IH]; intros [|n] [|i]; simpl; auto.
  - destruct (S i <? S n); auto.
  - rewrite IH. reflexivity.
Qed.

Lemma rlMakeIter_ok {R} (l : ruleList R) i n :
  n <= rlGetNumRules l -> (rlDefault l = None \/ 1 <= n) ->
  iter_ok (rlMakeIter l i n) (expected_order (rlDefault l) (rlRules l) (rlPrecedence l) n).
Proof.
  intros Hn Hd j Hj. rewrite expected_length in Hj by auto. simpl in Hj |- *.
  unfold itDeref, rlMakeIter, rlGetNumRules, expected_order in *. simpl. 
  set (k := i + j) in *. clearbody k.
  destruct (rlDefault l) as [d|] eqn:Ed.
  - destruct Hd as [|Hd]; [discriminate|].
    destruct (rlPrecedence l); simpl.
    + destruct k as [|k]; simpl; auto. unfold aget. rewrite Nat.sub_0_r, nth_error_firstn'.
      rewrite (proj2 (Nat.ltb_lt _ _)) by lia. auto.
    + unfold aget. rewrite Nat.sub_0_r. destruct (Nat.eqb_spec k (n - 1)) as [->|Hne].
      * rewrite nth_error_app2 by (rewrite firstn_length; lia). rewrite firstn_length.
        replace (n - 1 - Nat.min (n - 1) (length (rlRules l))) with 0 by lia. auto.
      * rewrite nth_error_app1 by (rewrite firstn_length; lia). rewrite nth_error_firstn'.
        rewrite (proj2 (Nat.ltb_lt _ _)) by lia. auto.
  - rewrite andb_false_r. simpl. rewrite !Nat.sub_0_r. unfold aget.
    destruct (Nat.eqb_spec k n) as [->|Hne]; [lia|].
    rewrite nth_error_firstn'. rewrite (proj2 (Nat.ltb_lt _ _)) by lia. auto.
Qed.

Lemma iterLoop_ok {R S} (f : R -> S -> option S) (l : ruleList R) i j n st :
  n <= rlGetNumRules l -> (rlDefault l = None \/ 1 <= n) -> i <= j <= n ->
  iterLoop (rlMakeIter l i n) (rlMakeIter l j n) f st =
  forL (firstn (j - i) (skipn i (expected_order (rlDefault l) (rlRules l) (rlPrecedence l) n))) f st.
Proof.
  intros Hn Hd Hij. unfold iterLoop.
  rewrite (iterRange_ok f (expected_order (rlDefault l) (rlRules l) (rlPrecedence l) n)).
  - unfold itDiff. simpl. reflexivity.
  - apply rlMakeIter_ok; auto.
  - unfold itDiff. simpl. rewrite expected_length by auto. lia.
Qed.

Lemma forL_collect {A} (l : list A) : forall acc, forL l (fun r acc => Some (acc ++ [r])) acc = Some (acc ++ l).
Proof.
  induction l as [|a l IH]; intros acc; simpl.
  - rewrite app_nil_r. auto.
  - rewrite IH, <- app_assoc. auto.
Qed.

Lemma rl_fold_ok {R} (p : bool) (ops : list (rl_op R)) :
  fold_left rl_step ops (rlEmpty p) = mkRuleList (last_default ops) (added_rules ops) (last_used ops) p.
Proof.
  induction ops as [|o ops IH] using rev_ind; auto.
  rewrite fold_left_app, IH. unfold last_default, added_rules, last_used.
  rewrite !fold_left_app, flat_map_app. destruct o; simpl; rewrite ?app_nil_r; auto.
Qed.

Lemma limit_ok {R} (l : ruleList R) maxRules n :
  n <= rlGetNumRules l -> (rlDefault l = None \/ 1 <= n) ->
  limitRules maxRules n <= rlGetNumRules l /\ (rlDefault l = None \/ 1 <= limitRules maxRules n).
Proof.
  unfold limitRules. intros Hn Hd. destruct (Nat.ltb_spec 0 maxRules); [|auto]. split; [lia|].
  destruct Hd; [auto|]. right. lia.
Qed.

Lemma rlGetNumUsed_ok {R} (l : ruleList R) : rlNumUsed l <= rlGetNumRules l ->
  rlGetNumUsed l <= rlGetNumRules l /\ (rlDefault l = None \/ 1 <= rlGetNumUsed l).
Proof.
  unfold rlGetNumUsed, rlGetNumRules. intros H. destruct (Nat.ltb_spec 0 (rlNumUsed l)).
  - split; [auto|]. right. lia.
  - split; [lia|]. destruct (rlDefault l); [right; lia|left; auto].
Qed.

Lemma C22_lemma : forall (R : Type) (precedence : bool) (ops : list (rl_op R)) (maxRules : nat),
  let l := fold_left rl_step ops (rlEmpty precedence) in
  let total := length (added_rules ops) + match last_default ops with Some _ => 1 | None => 0 end in
  let used := if last_used ops =? 0 then total else last_used ops in
  let limit n := if maxRules =? 0 then n else Nat.min n maxRules in
  let order := expected_order (last_default ops) (added_rules ops) precedence in
  last_used ops <= total ->
  rlGetNumRules l = total /\ rlGetNumUsed l = used /\
  rlVisit l = Some (order total) /\ length (order total) = total /\
  rlVisitUsed l = Some (order used) /\ length (order used) = used /\
  (forall S (f : R -> S -> option S) st,
     iterLoop (rlBegin l maxRules) (rlEnd l maxRules) f st = forL (order (limit total)) f st) /\
  (forall S (f : R -> S -> option S) st,
     iterLoop (rlUsedBegin l maxRules) (rlUsedEnd l maxRules) f st = forL (order (limit used)) f st).
Proof.
  intros R precedence ops maxRules l total used limit order Hused.
  assert (El: l = mkRuleList (last_default ops) (added_rules ops) (last_used ops) precedence) by apply rl_fold_ok.
  clearbody l. subst l. set (l := mkRuleList _ _ _ _).
  assert (Et: rlGetNumRules l = total) by reflexivity.
  assert (Eu: rlGetNumUsed l = used).
  { unfold rlGetNumUsed, used. rewrite Et. simpl. destruct (last_used ops); auto. }
  assert (Elim: forall n, limitRules maxRules n = limit n).
  { intros n. unfold limitRules, limit. destruct maxRules; auto. }
  assert (Ht: total <= rlGetNumRules l /\ (rlDefault l = None \/ 1 <= total)).
  { rewrite Et. split; auto. simpl. unfold total. destruct (last_default ops); [right; lia|auto]. }
  assert (Hu: used <= rlGetNumRules l /\ (rlDefault l = None \/ 1 <= used)).
  { rewrite <- Eu. apply rlGetNumUsed_ok. rewrite Et. exact Hused. }
  assert (Loop: forall S (f : R -> S -> option S) st n, n <= rlGetNumRules l /\ (rlDefault l = None \/ 1 <= n) ->
    iterLoop (rlMakeIter l 0 n) (rlMakeIter l n n) f st = forL (order n) f st).
  { intros S f st n [H1 H2]. rewrite iterLoop_ok by (auto; lia). rewrite Nat.sub_0_r. simpl skipn.
    change (expected_order (rlDefault l) (rlRules l) (rlPrecedence l) n) with (order n).
    rewrite firstn_all2; auto. unfold order.
    pose proof (expected_length l n H1 H2) as E. simpl in E. lia. }
  split; [auto|]. split; [auto|].
  split. { unfold rlVisit, rlBegin, rlEnd, limitRules. rewrite Et. simpl Nat.ltb. cbv iota. rewrite Loop by auto. apply forL_collect. }
  split. { pose proof (expected_length l total (proj1 Ht) (proj2 Ht)) as E. exact E. }
  split. { unfold rlVisitUsed, rlUsedBegin, rlUsedEnd, limitRules. rewrite Eu. simpl Nat.ltb. cbv iota. rewrite Loop by auto. apply forL_collect. }
  split. { pose proof (expected_length l used (proj1 Hu) (proj2 Hu)) as E. exact E. }
  split; intros S f st.
  - unfold rlBegin, rlEnd. rewrite Et. cbv zeta. rewrite Loop, Elim; auto. apply limit_ok; apply Ht.
  - unfold rlUsedBegin, rlUsedEnd. rewrite Eu. cbv zeta. rewrite Loop, Elim; auto. apply limit_ok; apply Hu.
Qed.
