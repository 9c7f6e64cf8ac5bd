From Coq Require Import QArith Qabs Reals Qreals List Bool Arith Lia Lqa Permutation Sorted.
From Verif Require Import Lib.Arr Spec.Stopping Model.BoostEvaluation Model.BoostNonDecomposable.
From Verif Require Import Spec.BoostEvaluation Spec.BoostNonDecomposable Proofs.Pruning Proofs.Stopping Proofs.BoostEvaluation Proofs.BoostBinning.
Import ListNotations.
Open Scope Q_scope.

(** ** Sums *)
Lemma sumQ_S n f : sumQ (S n) f == sumQ n f + f n.
Proof. unfold sumQ. rewrite seq_S, map_app, Qsum_app. cbn [map Nat.add]. rewrite Qsum_cons. change (Qsum []) with 0. lra. Qed.

Lemma sumQ_0 f : sumQ 0 f == 0.
Proof. reflexivity. Qed.

Lemma sumQ_ext n f g : (forall i, (i < n)%nat -> f i == g i) -> sumQ n f == sumQ n g.
Proof. intros H. apply Qsum_map_eq. intros i Hi. apply in_seq in Hi. apply H. lia. Qed.

Lemma sumQ_plus n f g : sumQ n (fun i => f i + g i) == sumQ n f + sumQ n g.
Proof. induction n; [reflexivity|]. rewrite !sumQ_S, IHn. lra. Qed.

Lemma sumQ_scale n k f : sumQ n (fun i => k * f i) == k * sumQ n f.
Proof. induction n; [rewrite !sumQ_0; ring|]. rewrite !sumQ_S, IHn. ring. Qed.

Lemma sumQ_zero n f : (forall i, (i < n)%nat -> f i == 0) -> sumQ n f == 0.
Proof. intros H. induction n; [reflexivity|]. rewrite sumQ_S, IHn, H; [lra|lia|intros; apply H; lia]. Qed.

Lemma sumQ_swap n m f : sumQ n (fun i => sumQ m (fun j => f i j)) == sumQ m (fun j => sumQ n (fun i => f i j)).
Proof.
  induction n.
  - rewrite sumQ_0. symmetry. apply sumQ_zero. intros. reflexivity.
  - rewrite sumQ_S, IHn. rewrite (sumQ_ext m (fun j => sumQ (S n) (fun i => f i j)) (fun j => sumQ n (fun i => f i j) + f n j)).
    + rewrite sumQ_plus. reflexivity.
    + intros j Hj. apply (sumQ_S n (fun i => f i j)).
Qed.

Lemma sumQ_pick n k f : (k < n)%nat -> sumQ n (fun i => (if (i =? k)%nat then f i else 0)) == f k.
Proof.
  induction n; intros H; [lia|]. rewrite sumQ_S. destruct (Nat.eqb_spec n k) as [->|N].
  - rewrite sumQ_zero; [lra|]. intros i Hi. destruct (Nat.eqb_spec i k); [lia|reflexivity].
  - rewrite IHn by lia. lra.
Qed.

Lemma sumQ_le n f g : (forall i, (i < n)%nat -> f i <= g i) -> sumQ n f <= sumQ n g.
Proof. intros H. apply Qsum_le_map. intros i Hi. apply in_seq in Hi. apply H. lia. Qed.

(** ** Quadratic functions *)
Section Form.
  Variables (n : nat) (a : nat -> nat -> Q).
  Hypothesis (sym : forall i j, a i j == a j i).
  Definition form (x y : nat -> Q) : Q := sumQ n (fun i => sumQ n (fun j => a i j * (x i * y j))).

  Lemma form_plus_l x y z : form (fun i => x i + y i) z == form x z + form y z.
  Proof.
    unfold form. rewrite <- sumQ_plus. apply sumQ_ext. intros. rewrite <- sumQ_plus. apply sumQ_ext. intros. ring.
  Qed.
  Lemma form_sym x y : form x y == form y x.
  Proof. unfold form. rewrite sumQ_swap. apply sumQ_ext. intros. apply sumQ_ext. intros. rewrite sym. ring. Qed.
  Lemma form_ext x x' y y' : (forall i, (i < n)%nat -> x i == x' i) -> (forall i, (i < n)%nat -> y i == y' i) -> form x y == form x' y'.
  Proof. intros H H'. unfold form. apply sumQ_ext. intros. apply sumQ_ext. intros. rewrite H, H' by auto. reflexivity. Qed.
  Lemma form_solution x y b : (forall r, (r < n)%nat -> sumQ n (fun c => a r c * x c) == b r) -> form y x == sumQ n (fun i => b i * y i).
  Proof.
    intros H. unfold form. apply sumQ_ext. intros i Hi. rewrite <- (H i Hi).
    rewrite (sumQ_ext n _ (fun j => y i * (a i j * x j))) by (intros; ring). rewrite sumQ_scale. ring.
  Qed.

  Definition parabola (b x : nat -> Q) : Q := - sumQ n (fun i => b i * x i) + (1 # 2) * form x x.

  Lemma parabola_minimum b x y : (forall r, (r < n)%nat -> sumQ n (fun c => a r c * x c) == b r) ->
    parabola b y == parabola b x + (1 # 2) * form (fun i => y i - x i) (fun i => y i - x i).
  Proof.
    intros H. set (d := fun i => y i - x i).
    assert (Ey : form y y == form x x + form x d + (form d x + form d d)).
    { rewrite (form_ext y (fun i => x i + d i) y (fun i => x i + d i)) by (intros; unfold d; ring).
      rewrite form_plus_l. rewrite (form_sym x (fun i => x i + d i)), (form_sym d (fun i => x i + d i)).
      rewrite !form_plus_l. rewrite (form_sym d x). lra. }
    unfold parabola. rewrite Ey. rewrite (form_sym x d). rewrite (form_solution x d b H).
    rewrite (sumQ_ext n (fun i => b i * y i) (fun i => b i * x i + b i * d i)) by (intros; unfold d; ring).
    rewrite sumQ_plus. lra.
  Qed.
End Form.

(** ** Triangular matrices *)
Lemma tri_S n : triangularNumber (S n) = (triangularNumber n + S n)%nat.
Proof.
  unfold triangularNumber. replace (S n * (S n + 1))%nat with (n * (n + 1) + S n * 2)%nat by lia.
  rewrite Nat.div_add by lia. auto.
Qed.
Lemma tri_mono a b : (a <= b)%nat -> (triangularNumber a <= triangularNumber b)%nat.
Proof. induction 1; auto. rewrite tri_S. lia. Qed.
Lemma tri_bound r c n : (r <= c)%nat -> (c < n)%nat -> (triangularNumber c + r < triangularNumber n)%nat.
Proof. intros H1 H2. pose proof (tri_mono (S c) n ltac:(lia)). rewrite tri_S in H. lia. Qed.

Local Opaque triangularNumber.

Lemma idx_inj n c r c' r' : (r < n)%nat -> (r' < n)%nat -> (c * n + r = c' * n + r')%nat -> c = c' /\ r = r'.
Proof.
  intros H H' E. assert (c = c').
  { apply (f_equal (fun x => (x / n)%nat)) in E. rewrite !Nat.div_add_l, !Nat.div_small in E by lia. lia. }
  subst. split; auto. lia.
Qed.
Lemma idx_bound n c r : (c < n)%nat -> (r < n)%nat -> (c * n + r < n * n)%nat.
Proof. intros. nia. Qed.

Lemma hessianAt_sym h r c : hessianAt h r c = hessianAt h c r.
Proof. unfold hessianAt. rewrite Nat.max_comm, Nat.min_comm. auto. Qed.

(** ** Systems of equations *)
Lemma copyCoefficients_spec hessians coefficients n :
  (n * n <= length coefficients)%nat -> (triangularNumber n <= length hessians)%nat ->
  exists coefficients', copyCoefficients hessians coefficients n = Some coefficients' /\
    length coefficients' = length coefficients /\
    (forall r c, (r <= c)%nat -> (c < n)%nat -> nth (c * n + r) coefficients' 0 = nth (triangularNumber c + r) hessians 0).
Proof.
  intros HL HH. unfold copyCoefficients.
  match goal with |- context[forN ?m ?s ?f ?z] => destruct (forN_inv (fun c (b : list Q * nat) =>
    length (fst b) = length coefficients /\ snd b = triangularNumber c /\
    (forall r c', (r <= c')%nat -> (c' < c)%nat -> nth (c' * n + r) (fst b) 0 = nth (triangularNumber c' + r) hessians 0))
    f m s z) as ((co, k) & E & L & K & V) end.
  - cbn [fst snd]. split; auto. split; [reflexivity|]. intros. lia.
  - intros c (co, k) Hc (L & K & V). cbn [fst snd] in *.
    match goal with |- context[forN ?m ?s ?f ?z] => destruct (forN_inv (fun r (b : list Q * nat) =>
      length (fst b) = length coefficients /\ snd b = (triangularNumber c + r)%nat /\
      (forall r' c', (r' <= c')%nat -> (c' < c \/ (c' = c /\ r' < r))%nat ->
         nth (c' * n + r') (fst b) 0 = nth (triangularNumber c' + r') hessians 0)) f m s z) as ((co', k') & E & L' & K' & V') end.
    + cbn [fst snd]. split; auto. split; [lia|]. intros r' c' Hr [Hc'|]; [auto|lia].
    + intros r (co', k') Hr (L' & K' & V'). cbn [fst snd] in *.
      pose proof (tri_bound r c n ltac:(lia) ltac:(lia)) as B.
      rewrite (aget_nth hessians k' 0) by lia. pose proof (idx_bound n c r ltac:(lia) ltac:(lia)) as B2.
      rewrite aset_Some by lia. eexists. split; [reflexivity|]. cbn [fst snd]. rewrite upd_length. split; auto. split; [lia|].
      intros r' c' Hr' Hc'. rewrite nth_upd by lia. destruct (Nat.eqb_spec (c * n + r) (c' * n + r')) as [Eq|Ne].
      * destruct (idx_inj n c r c' r' ltac:(lia) ltac:(lia) Eq) as (<- & <-). rewrite K'. auto.
      * apply V'; auto. destruct Hc' as [?|(-> & ?)]; auto. right. split; auto.
        destruct (Nat.eq_dec r' r) as [->|]; [congruence|lia].
    + cbn [fst snd] in *. eexists. split; [exact E|]. cbn [fst snd]. split; auto. split; [rewrite tri_S; lia|].
      intros r' c' Hr' Hc'. apply V'; auto. lia.
  - cbn [fst snd] in *. rewrite E. exists co. split; auto.
Qed.

Lemma copyCoefficientsOf_spec hessians indices coefficients n :
  (n * n <= length coefficients)%nat -> (n <= length indices)%nat ->
  (forall r c, (r <= c)%nat -> (c < n)%nat -> (triangularNumber (nth c indices 0) + nth r indices 0 < length hessians)%nat) ->
  exists coefficients', copyCoefficientsOf hessians indices coefficients n = Some coefficients' /\
    length coefficients' = length coefficients /\
    (forall r c, (r <= c)%nat -> (c < n)%nat ->
       nth (c * n + r) coefficients' 0 = nth (triangularNumber (nth c indices 0%nat) + nth r indices 0%nat) hessians 0).
Proof.
  intros HL HI HH. unfold copyCoefficientsOf.
  match goal with |- context[forN ?m ?s ?f ?z] => destruct (forN_inv (fun c (co : list Q) =>
    length co = length coefficients /\
    (forall r c', (r <= c')%nat -> (c' < c)%nat -> nth (c' * n + r) co 0 =
       nth (triangularNumber (nth c' indices 0%nat) + nth r indices 0%nat) hessians 0))
    f m s z) as (co & E & L & V) end.
  - split; auto. intros. lia.
  - intros c co Hc (L & V). rewrite (aget_nth indices c 0%nat) by lia.
    match goal with |- context[forN ?m ?s ?f ?z] => destruct (forN_inv (fun r (co : list Q) =>
      length co = length coefficients /\
      (forall r' c', (r' <= c')%nat -> (c' < c \/ (c' = c /\ r' < r))%nat ->
         nth (c' * n + r') co 0 = nth (triangularNumber (nth c' indices 0%nat) + nth r' indices 0%nat) hessians 0))
      f m s z) as (co' & E & L' & V') end.
    + split; auto. intros r' c' Hr [Hc'|]; [auto|lia].
    + intros r co' Hr (L' & V'). rewrite (aget_nth indices r 0%nat) by lia.
      rewrite (aget_nth hessians _ 0) by (apply HH; lia). pose proof (idx_bound n c r ltac:(lia) ltac:(lia)) as B2.
      rewrite aset_Some by lia. eexists. split; [reflexivity|]. rewrite upd_length. split; auto.
      intros r' c' Hr' Hc'. rewrite nth_upd by lia. destruct (Nat.eqb_spec (c * n + r) (c' * n + r')) as [Eq|Ne].
      * destruct (idx_inj n c r c' r' ltac:(lia) ltac:(lia) Eq) as (<- & <-). auto.
      * apply V'; auto. destruct Hc' as [?|(-> & ?)]; auto. right. split; auto.
        destruct (Nat.eq_dec r' r) as [->|]; [congruence|lia].
    + eexists. split; [exact E|]. split; auto. intros r' c' Hr' Hc'. apply V'; auto. lia.
  - exists co. split; auto.
Qed.

Lemma addL2_spec coefficients n l2 : (n * n <= length coefficients)%nat -> 0 <= l2 ->
  exists coefficients', addL2RegularizationWeight coefficients n l2 = Some coefficients' /\
    length coefficients' = length coefficients /\
    (forall r c, (r <= c)%nat -> (c < n)%nat ->
       nth (c * n + r) coefficients' 0 == nth (c * n + r) coefficients 0 + (if (r =? c)%nat then l2 else 0)).
Proof.
  intros HL H2. unfold addL2RegularizationWeight. destruct (gtb l2 0) eqn:E2.
  - match goal with |- context[forN ?m ?s ?f ?z] => destruct (forN_inv (fun i (co : list Q) =>
      length co = length coefficients /\
      (forall r c, (r <= c)%nat -> (c < n)%nat ->
         nth (c * n + r) co 0 == nth (c * n + r) coefficients 0 + (if (r =? c)%nat && (c <? i)%nat then l2 else 0)))
      f m s z) as (co & E & L & V) end.
    + split; auto. intros. rewrite andb_false_r. lra.
    + intros i co Hi (L & V). pose proof (idx_bound n i i ltac:(lia) ltac:(lia)) as B.
      rewrite (aget_nth co (i * n + i) 0) by lia. rewrite aset_Some by lia. eexists. split; [reflexivity|]. rewrite upd_length.
      split; auto. intros r c Hr Hc. rewrite nth_upd by lia. destruct (Nat.eqb_spec (i * n + i) (c * n + r)) as [Eq|Ne].
      * destruct (idx_inj n i i c r ltac:(lia) ltac:(lia) Eq) as (<- & <-). rewrite V by lia. rewrite Nat.eqb_refl.
        destruct (Nat.ltb_spec i i); [lia|]. destruct (Nat.ltb_spec i (S i)); [|lia]. simpl. lra.
      * rewrite V by auto. destruct (Nat.eqb_spec r c) as [->|]; simpl; [|reflexivity].
        destruct (Nat.ltb_spec c i), (Nat.ltb_spec c (S i)); try lia; try reflexivity.
        exfalso. apply Ne. replace c with i by lia. auto.
    + exists co. split; auto. split; auto. intros r c Hr Hc. rewrite V by auto. simpl.
      destruct (Nat.ltb_spec c n); [|lia]. rewrite andb_true_r. reflexivity.
  - apply gtb_false in E2. exists coefficients. split; auto. split; auto. intros. destruct (_ =? _)%nat; lra.
Qed.

Definition ordinate (l1 g : Q) : Q := - g + getL1RegularizationWeight (- g) l1.

Lemma addL1_spec ordinates l1 : 0 <= l1 ->
  exists ordinates', addL1RegularizationWeight ordinates (length ordinates) l1 = Some ordinates' /\
    length ordinates' = length ordinates /\
    (forall i, (i < length ordinates)%nat -> nth i ordinates' 0 == nth i ordinates 0 + getL1RegularizationWeight (nth i ordinates 0) l1).
Proof.
  intros H1. unfold addL1RegularizationWeight. destruct (gtb l1 0) eqn:E1.
  - match goal with |- context[forN ?m ?s ?f ?z] => destruct (forN_inv (fun j (o : list Q) =>
      length o = length ordinates /\
      (forall i, (i < length ordinates)%nat -> nth i o 0 =
         if (i <? j)%nat then nth i ordinates 0 + getL1RegularizationWeight (nth i ordinates 0) l1 else nth i ordinates 0))
      f m s z) as (o & E & L & V) end.
    + split; auto.
    + intros j o Hj (L & V). rewrite (aget_nth o j 0) by lia. rewrite aset_Some by lia. eexists. split; [reflexivity|].
      rewrite upd_length. split; auto. intros i Hi. rewrite nth_upd by lia. rewrite !V by lia.
      destruct (Nat.eqb_spec j i) as [->|].
      * destruct (Nat.ltb_spec i i); [lia|]. destruct (Nat.ltb_spec i (S i)); [|lia]. auto.
      * destruct (Nat.ltb_spec i j), (Nat.ltb_spec i (S j)); auto; lia.
    + exists o. split; auto. split; auto. intros i Hi. rewrite V by auto. simpl.
      destruct (Nat.ltb_spec i (length ordinates)); [|lia]. reflexivity.
  - apply gtb_false in E1. exists ordinates. split; auto. split; auto. intros i Hi. unfold getL1RegularizationWeight.
    destruct (gtb _ _); [lra|]. destruct (ltb _ _); lra.
Qed.

Lemma copyOrdinates_spec gradients n : (n <= length gradients)%nat ->
  exists ordinates, copyOrdinates gradients n = Some ordinates /\ length ordinates = n /\
    (forall i, (i < n)%nat -> nth i ordinates 0 = - nth i gradients 0).
Proof.
  intros H. unfold copyOrdinates.
  match goal with |- context[forN ?m ?s ?f ?z] => destruct (forN_inv (fun j (o : list Q) => length o = j /\
    (forall i, (i < j)%nat -> nth i o 0 = - nth i gradients 0)) f m s z) as (o & E & L & V) end.
  - split; auto. intros; lia.
  - intros j o Hj (L & V). rewrite (aget_nth gradients j 0) by lia. eexists. split; [reflexivity|]. rewrite app_length. simpl.
    split; [lia|]. intros i Hi. destruct (Nat.eq_dec i j) as [->|].
    + rewrite app_nth2 by lia. rewrite L, Nat.sub_diag. auto.
    + rewrite app_nth1 by lia. apply V. lia.
  - exists o. auto.
Qed.

(** ** Qualities *)
Lemma ddot_spec x y n : (n <= length x)%nat -> (n <= length y)%nat ->
  exists q, ddot x y n = Some q /\ q == sumQ n (fun i => nth i x 0 * nth i y 0).
Proof.
  intros Hx Hy. unfold ddot.
  match goal with |- context[forN ?m ?s ?f ?z] => destruct (forN_inv (fun j q => q == sumQ j (fun i => nth i x 0 * nth i y 0)) f m s z)
    as (q & E & V) end.
  - reflexivity.
  - intros j q Hj V. rewrite (aget_nth x j 0), (aget_nth y j 0) by lia. eexists. split; [reflexivity|]. rewrite sumQ_S, V. reflexivity.
  - exists q. auto.
Qed.

Lemma dspmv_spec h x n : (n <= length x)%nat -> (triangularNumber n <= length h)%nat ->
  exists y, dspmv h x n = Some y /\ length y = n /\
    (forall r, (r < n)%nat -> nth r y 0 == sumQ n (fun c => hessianAt h r c * nth c x 0)).
Proof.
  intros Hx Hh. unfold dspmv.
  match goal with |- context[forN ?m ?s ?f []] => destruct (forN_inv (fun j (y : list Q) => length y = j /\
    (forall r, (r < j)%nat -> nth r y 0 == sumQ n (fun c => hessianAt h r c * nth c x 0))) f m s [])
    as (y & E & L & V) end.
  - split; auto. intros; lia.
  - intros r y Hr (L & V).
    match goal with |- context[forN ?m ?s ?f 0] => destruct (forN_inv (fun j q => q == sumQ j (fun c => hessianAt h r c * nth c x 0)) f m s 0)
      as (q & E & Vq) end.
    + reflexivity.
    + intros c q Hc Vq. pose proof (tri_bound (Nat.min r c) (Nat.max r c) n ltac:(lia) ltac:(lia)) as B.
      rewrite (aget_nth h _ 0) by lia. rewrite (aget_nth x c 0) by lia. eexists. split; [reflexivity|]. rewrite sumQ_S, Vq. reflexivity.
    + rewrite E. eexists. split; [reflexivity|]. rewrite app_length. simpl. split; [lia|]. intros i Hi.
      destruct (Nat.eq_dec i r) as [->|].
      * rewrite app_nth2 by lia. rewrite L, Nat.sub_diag. exact Vq.
      * rewrite app_nth1 by lia. apply V. lia.
  - exists y. auto.
Qed.

Lemma quality_spec values gradients hessians n :
  (n <= length values)%nat -> (n <= length gradients)%nat -> (triangularNumber n <= length hessians)%nat ->
  exists q, calculateOverallQuality values gradients hessians n = Some q /\
    q == sumQ n (fun i => nth i gradients 0 * nth i values 0) +
         (1 # 2) * sumQ n (fun i => sumQ n (fun j => hessianAt hessians i j * (nth i values 0 * nth j values 0))).
Proof.
  intros Hv Hg Hh. unfold calculateOverallQuality.
  destruct (dspmv_spec hessians values n Hv Hh) as (y & -> & Ly & Vy).
  destruct (ddot_spec values gradients n Hv Hg) as (q1 & -> & E1).
  destruct (ddot_spec values y n Hv ltac:(lia)) as (q2 & -> & E2).
  eexists. split; [reflexivity|]. rewrite E1, E2.
  rewrite (sumQ_ext n (fun i => nth i values 0 * nth i gradients 0) (fun i => nth i gradients 0 * nth i values 0)) by (intros; ring).
  rewrite (sumQ_ext n (fun i => nth i values 0 * nth i y 0)
    (fun i => sumQ n (fun j => hessianAt hessians i j * (nth i values 0 * nth j values 0)))); [reflexivity|].
  intros i Hi. rewrite (Vy i Hi). rewrite <- sumQ_scale. apply sumQ_ext. intros. ring.
Qed.

Lemma term_spec values n l1 l2 : (n <= length values)%nat -> 0 <= l1 -> 0 <= l2 ->
  exists q, calculateRegularizationTerm values n l1 l2 = Some q /\
    q == sumQ n (fun i => l1 * Qabs (nth i values 0) + l2 / 2 * (nth i values 0 * nth i values 0)).
Proof.
  intros Hv H1 H2. unfold calculateRegularizationTerm.
  assert (N1 : exists q, l1Norm values n = Some q /\ q == sumQ n (fun i => Qabs (nth i values 0))).
  { unfold l1Norm. match goal with |- context[forN ?m ?s ?f ?z] => destruct (forN_inv (fun j q => q == sumQ j (fun i => Qabs (nth i values 0))) f m s z)
      as (q & E & V) end; [reflexivity| |exists q; auto].
    intros j q Hj V. rewrite (aget_nth values j 0) by lia. eexists. split; [reflexivity|]. rewrite sumQ_S, V. reflexivity. }
  assert (N2 : exists q, l2NormPow values n = Some q /\ q == sumQ n (fun i => nth i values 0 * nth i values 0)).
  { unfold l2NormPow. match goal with |- context[forN ?m ?s ?f ?z] => destruct (forN_inv (fun j q => q == sumQ j (fun i => nth i values 0 * nth i values 0)) f m s z)
      as (q & E & V) end; [reflexivity| |exists q; auto].
    intros j q Hj V. rewrite (aget_nth values j 0) by lia. eexists. split; [reflexivity|]. rewrite sumQ_S, V. reflexivity. }
  destruct N1 as (q1 & -> & E1), N2 as (q2 & -> & E2).
  assert (T : exists t1, (if gtb l1 0 then Some (l1 * q1) else Some 0) = Some t1 /\ t1 == l1 * q1).
  { destruct (gtb l1 0) eqn:E; eexists; (split; [reflexivity|]); [reflexivity|]. apply gtb_false in E. setoid_replace l1 with 0 by lra. ring. }
  destruct T as (t1 & -> & ET).
  assert (T2 : exists t2, (if gtb l2 0 then Some (t1 + (1 # 2) * l2 * q2) else Some t1) = Some t2 /\ t2 == t1 + l2 / 2 * q2).
  { destruct (gtb l2 0) eqn:E; eexists; (split; [reflexivity|]); [field|]. apply gtb_false in E. setoid_replace l2 with 0 by lra. field. }
  destruct T2 as (t2 & -> & ET2). eexists. split; [reflexivity|]. rewrite ET2, ET, E1, E2, <- !sumQ_scale, <- sumQ_plus. reflexivity.
Qed.

Lemma sumQ_form n a x : sumQ n (fun i => sumQ n (fun j => a i j * (x i * x j))) == form n a x x.
Proof. reflexivity. Qed.

Lemma quality_quadratic l1 l2 gradients hessians values positions n :
  n = length positions -> positions = seq 0 n ->
  quadratic l1 l2 gradients hessians positions values ==
  (sumQ n (fun i => nth i gradients 0 * nth i values 0) +
   (1 # 2) * sumQ n (fun i => sumQ n (fun j => hessianAt hessians i j * (nth i values 0 * nth j values 0)))) +
  sumQ n (fun i => l1 * Qabs (nth i values 0) + l2 / 2 * (nth i values 0 * nth i values 0)).
Proof.
  intros -> HP. unfold quadratic.
  assert (N : forall i, (i < length positions)%nat -> nth i positions 0%nat = i) by (intros; rewrite HP; rewrite seq_nth; auto).
  rewrite (sumQ_ext (length positions) _ (fun i => nth i gradients 0 * nth i values 0 +
    (l1 * Qabs (nth i values 0) + l2 / 2 * (nth i values 0 * nth i values 0)))).
  - rewrite sumQ_plus. rewrite (sumQ_ext (length positions) (fun i => sumQ (length positions) (fun j =>
      hessianAt hessians (nth i positions 0%nat) (nth j positions 0%nat) * _)) (fun i => sumQ (length positions) (fun j =>
      hessianAt hessians i j * (nth i values 0 * nth j values 0)))); [ring|].
    intros i Hi. apply sumQ_ext. intros j Hj. rewrite !N by auto. reflexivity.
  - intros i Hi. unfold gradientAt. rewrite N by auto. ring.
Qed.

(** The sums of the terms that do not depend on the L1 regularisation weight. *)
Lemma quadratic_parabola l1 l2 gradients hessians positions values : l1 == 0 -> NoDup positions ->
  quadratic l1 l2 gradients hessians positions values ==
  parabola (length positions) (fun i j => regularised l2 hessians (nth i positions 0%nat) (nth j positions 0%nat))
    (fun i => - gradientAt gradients (nth i positions 0%nat)) (fun i => nth i values 0).
Proof.
  intros E ND. unfold quadratic, parabola, form. set (n := length positions).
  set (x := fun i => nth i values 0). set (p := fun i => nth i positions 0%nat).
  change (sumQ n (fun i => gradientAt gradients (p i) * x i + l1 * Qabs (x i) + l2 / 2 * (x i * x i)) +
          (1 # 2) * sumQ n (fun i => sumQ n (fun j => hessianAt hessians (p i) (p j) * (x i * x j)))
          == - sumQ n (fun i => - gradientAt gradients (p i) * x i) +
             (1 # 2) * sumQ n (fun i => sumQ n (fun j => regularised l2 hessians (p i) (p j) * (x i * x j)))).
  rewrite (sumQ_ext n (fun i => sumQ n (fun j => regularised l2 hessians (p i) (p j) * (x i * x j)))
    (fun i => sumQ n (fun j => hessianAt hessians (p i) (p j) * (x i * x j)) + l2 * (x i * x i))).
  - rewrite (sumQ_ext n (fun i => gradientAt gradients (p i) * x i + l1 * Qabs (x i) + l2 / 2 * (x i * x i))
      (fun i => (-1) * (- gradientAt gradients (p i) * x i) + l2 / 2 * (x i * x i))).
    + rewrite (sumQ_plus n (fun i => sumQ n (fun j => hessianAt hessians (p i) (p j) * (x i * x j))) (fun i => l2 * (x i * x i))).
      rewrite (sumQ_plus n (fun i => (-1) * (- gradientAt gradients (p i) * x i)) (fun i => l2 / 2 * (x i * x i))).
      rewrite (sumQ_scale n (-1) (fun i => - gradientAt gradients (p i) * x i)), (sumQ_scale n (l2 / 2) (fun i => x i * x i)),
        (sumQ_scale n l2 (fun i => x i * x i)). field.
    + intros. rewrite E. ring.
  - intros i Hi. unfold regularised.
    rewrite (sumQ_ext n _ (fun j => hessianAt hessians (p i) (p j) * (x i * x j) + (if (j =? i)%nat then l2 * (x i * x j) else 0))).
    + rewrite sumQ_plus. rewrite (sumQ_pick n i (fun j => l2 * (x i * x j))) by auto. reflexivity.
    + intros j Hj. destruct (Nat.eqb_spec (p i) (p j)) as [Ep|Np], (Nat.eqb_spec j i) as [Ei|Ni]; try ring.
      * exfalso. apply Ni. symmetry. apply (proj1 (NoDup_nth positions 0%nat) ND); auto.
      * exfalso. apply Np. subst. auto.
Qed.

Lemma psd_sub n N l2 hessians positions : NoDup positions -> length positions = n -> Forall (fun p => p < N)%nat positions ->
  positiveSemidefinite N (regularised l2 hessians) ->
  positiveSemidefinite n (fun i j => regularised l2 hessians (nth i positions 0%nat) (nth j positions 0%nat)).
Proof.
  intros ND L F H x. set (p := fun i => nth i positions 0%nat).
  assert (Bp : forall i, (i < n)%nat -> (p i < N)%nat).
  { intros i Hi. rewrite Forall_forall in F. apply F. apply nth_In. lia. }
  set (y := fun q => sumQ n (fun i => if (q =? p i)%nat then x i else 0)).
  specialize (H y).
  assert (Y : forall f, sumQ N (fun q => f q * y q) == sumQ n (fun i => f (p i) * x i)).
  { intros f. rewrite (sumQ_ext N _ (fun q => sumQ n (fun i => if (q =? p i)%nat then f q * x i else 0))).
    - rewrite sumQ_swap. apply sumQ_ext. intros i Hi. apply (sumQ_pick N (p i) (fun q => f q * x i)). auto.
    - intros q Hq. unfold y. rewrite <- sumQ_scale. apply sumQ_ext. intros. destruct (_ =? _)%nat; ring. }
  assert (E : sumQ N (fun i => sumQ N (fun j => regularised l2 hessians i j * (y i * y j)))
    == sumQ n (fun i => sumQ n (fun j => regularised l2 hessians (p i) (p j) * (x i * x j)))).
  { rewrite (sumQ_ext N _ (fun i => sumQ n (fun j => regularised l2 hessians i (p j) * x j) * y i)).
    - rewrite (Y (fun i => sumQ n (fun j => regularised l2 hessians i (p j) * x j))). apply sumQ_ext. intros i Hi.
      rewrite Qmult_comm, <- sumQ_scale. apply sumQ_ext. intros. ring.
    - intros i Hi. rewrite <- (Y (fun j => regularised l2 hessians i j)). rewrite Qmult_comm, <- sumQ_scale. apply sumQ_ext. intros. ring. }
  rewrite E in H. exact H.
Qed.

Lemma regularised_sym l2 h r c : regularised l2 h r c == regularised l2 h c r.
Proof. unfold regularised. rewrite hessianAt_sym, Nat.eqb_sym. reflexivity. Qed.

Lemma optimal_solution l2 gradients hessians positions values N :
  NoDup positions -> Forall (fun p => p < N)%nat positions -> positiveSemidefinite N (regularised l2 hessians) ->
  (forall r, (r < length positions)%nat ->
     sumQ (length positions) (fun c => regularised l2 hessians (nth r positions 0%nat) (nth c positions 0%nat) * nth c values 0)
     == - gradientAt gradients (nth r positions 0%nat)) ->
  forall l1, l1 == 0 -> optimal l1 l2 gradients hessians positions values.
Proof.
  intros ND F P H l1 E values' L'. rewrite !(quadratic_parabola l1) by auto.
  rewrite (parabola_minimum _ _ (fun i j => regularised_sym l2 hessians (nth i positions 0%nat) (nth j positions 0%nat)) _ _ (fun i => nth i values' 0) H).
  pose proof (psd_sub _ N l2 hessians positions ND eq_refl F P (fun i => nth i values' 0 - nth i values 0)) as G.
  match goal with |- ?a <= ?a + (1 # 2) * ?f => assert (G' : 0 <= f) by exact G; set (u := a); set (w := f) in *; clearbody u w end. lra.
Qed.

Lemma getL1_zero g l1 : l1 == 0 -> getL1RegularizationWeight g l1 == 0.
Proof. intros E. unfold getL1RegularizationWeight. destruct (gtb _ _); [lra|]. destruct (ltb _ _); lra. Qed.

(** ** Complete heads *)
Lemma complete_nd_spec dsysv l1 l2 tmp indices gradients hessians n :
  wellFormed n indices gradients hessians tmp -> 0 <= l1 -> 0 <= l2 ->
  exists coefficients ordinates, length coefficients = (n * n)%nat /\ length ordinates = n /\
    (forall r c, (r < n)%nat -> (c < n)%nat ->
       nth (Nat.max r c * n + Nat.min r c) coefficients 0 == regularised l2 hessians r c) /\
    (forall i, (i < n)%nat -> nth i ordinates 0 == ordinate l1 (nth i gradients 0)) /\
    evaluateCompleteND dsysv l1 l2 tmp indices gradients hessians =
      (let* values := dsysv n coefficients ordinates in
       let* quality := calculateOverallQuality values gradients hessians n in
       let* term := calculateRegularizationTerm values n l1 l2 in
       Some (mkScores indices values (quality + term))).
Proof.
  intros (LI & LG & LH & LT) H1 H2. unfold evaluateCompleteND. rewrite LI.
  destruct (copyCoefficients_spec hessians tmp n ltac:(lia) ltac:(lia)) as (co & -> & Lc & Vc).
  destruct (addL2_spec co n l2 ltac:(lia) H2) as (co' & -> & Lc' & Vc').
  destruct (copyOrdinates_spec gradients n ltac:(lia)) as (o & -> & Lo & Vo).
  destruct (addL1_spec o l1 H1) as (o' & E & Lo' & Vo'). rewrite Lo in *. rewrite E.
  exists co', o'. split; [lia|]. split; [lia|]. split; [|split; [|reflexivity]].
  - intros r c Hr Hc. rewrite Vc' by lia. rewrite Vc by lia. unfold regularised, hessianAt.
    assert (Eb : (Nat.min r c =? Nat.max r c)%nat = (r =? c)%nat).
    { destruct (Nat.eqb_spec (Nat.min r c) (Nat.max r c)), (Nat.eqb_spec r c); auto; lia. }
    rewrite Eb. reflexivity.
  - intros i Hi. rewrite Vo' by auto. rewrite Vo by auto. reflexivity.
Qed.

Lemma nth_seq0 n i : (i < n)%nat -> nth i (seq 0 n) 0%nat = i.
Proof. intros. rewrite seq_nth; auto. Qed.

Lemma complete_nd :
  forall (dsysv : solver) (l1 l2 : Q) (n : nat) (tmp : list Q) (indices : list nat) (gradients hessians : list Q),
  wellFormed n indices gradients hessians tmp -> validSolver dsysv -> 0 <= l1 -> 0 <= l2 ->
  ((forall coefficients ordinates, length coefficients = (n * n)%nat -> length ordinates = n -> dsysv n coefficients ordinates <> None) ->
   evaluateCompleteND dsysv l1 l2 tmp indices gradients hessians <> None) /\
  (forall sc, evaluateCompleteND dsysv l1 l2 tmp indices gradients hessians = Some sc ->
   scIndices sc = indices /\ length (scValues sc) = n /\
   scQuality sc == quadratic l1 l2 gradients hessians (seq 0 n) (scValues sc) /\
   (l1 == 0 -> positiveSemidefinite n (regularised l2 hessians) ->
    optimal l1 l2 gradients hessians (seq 0 n) (scValues sc) /\ scQuality sc <= 0)).
Proof.
  intros dsysv l1 l2 n tmp indices gradients hessians W S H1 H2.
  destruct (complete_nd_spec dsysv l1 l2 tmp indices gradients hessians n W H1 H2) as (co & o & Lc & Lo & Vc & Vo & E). rewrite E.
  destruct W as (LI & LG & LH & LT).
  assert (T : forall values, dsysv n co o = Some values -> exists q t, length values = n /\
     calculateOverallQuality values gradients hessians n = Some q /\ calculateRegularizationTerm values n l1 l2 = Some t /\
     q + t == quadratic l1 l2 gradients hessians (seq 0 n) values).
  { intros values Ev. destruct (S _ _ _ _ Ev) as (Lv & _).
    destruct (quality_spec values gradients hessians n ltac:(lia) ltac:(lia) ltac:(lia)) as (q & Eq & Vq).
    destruct (term_spec values n l1 l2 ltac:(lia) H1 H2) as (t & Et & Vt).
    exists q, t. split; auto. split; auto. split; auto.
    rewrite (quality_quadratic l1 l2 gradients hessians values (seq 0 n) n); [|rewrite seq_length; auto|reflexivity].
    rewrite Vq, Vt. reflexivity. }
  destruct (dsysv n co o) as [values|] eqn:Ev.
  - destruct (T values eq_refl) as (q & t & Lv & -> & -> & Eq). split; [discriminate|].
    intros sc Hsc. injection Hsc as <-. cbn [scIndices scValues scQuality]. split; auto. split; auto. split; auto.
    intros El P. assert (Op : optimal l1 l2 gradients hessians (seq 0 n) values).
    { apply (optimal_solution l2 gradients hessians (seq 0 n) values n); auto.
      - apply seq_NoDup.
      - apply Forall_forall. intros x Hx. apply in_seq in Hx. lia.
      - rewrite seq_length. intros r Hr. destruct (S _ _ _ _ Ev) as (_ & Sv). specialize (Sv r Hr).
        rewrite Vo in Sv by auto. rewrite nth_seq0 by auto. unfold ordinate in Sv. rewrite (getL1_zero _ l1 El) in Sv.
        unfold gradientAt. rewrite Qplus_0_r in Sv. rewrite <- Sv. apply sumQ_ext. intros c Hc. rewrite nth_seq0 by auto.
        rewrite (Vc r c Hr Hc). reflexivity. }
    split; [exact Op|]. rewrite Eq. eapply Qle_trans; [apply (Op (repeat 0 n)); rewrite repeat_length, seq_length; auto|].
    unfold quadratic. rewrite seq_length. rewrite (sumQ_zero n), (sumQ_zero n); [lra| |].
    + intros i Hi. apply sumQ_zero. intros j Hj. rewrite !nth_repeat. ring.
    + intros i Hi. rewrite !nth_repeat. rewrite Qabs_pos by lra. field.
  - split.
    + intros C. exfalso. apply (C co o Lc Lo). auto.
    + intros sc Hsc. discriminate.
Qed.

(** ** L1 regularisation *)
Lemma getL1_sign g l1 : 0 <= l1 -> l1 < Qabs g ->
  getL1RegularizationWeight (- g) l1 == (if Qlt_le_dec 0 g then l1 else - l1).
Proof.
  intros H1 Hg. unfold getL1RegularizationWeight. destruct (Qlt_le_dec 0 g) as [P|P].
  - rewrite Qabs_pos in Hg by lra. destruct (gtb (- g) l1) eqn:E; [apply gtb_spec in E; lra|].
    destruct (ltb (- g) (- l1)) eqn:E2; [reflexivity|]. apply ltb_false in E2. lra.
  - rewrite Qabs_neg in Hg by lra. destruct (gtb (- g) l1) eqn:E; [reflexivity|]. apply gtb_false in E. lra.
Qed.

(** Scores are optimal if L1 regularisation does not change their signs. *)
Lemma optimal_l1 l1 l2 gradients hessians positions values N :
  NoDup positions -> Forall (fun p => p < N)%nat positions -> positiveSemidefinite N (regularised l2 hessians) ->
  0 <= l1 ->
  (forall r, (r < length positions)%nat ->
     sumQ (length positions) (fun c => regularised l2 hessians (nth r positions 0%nat) (nth c positions 0%nat) * nth c values 0)
     == ordinate l1 (gradientAt gradients (nth r positions 0%nat))) ->
  (forall r, (r < length positions)%nat -> l1 < Qabs (gradientAt gradients (nth r positions 0%nat)) /\
     gradientAt gradients (nth r positions 0%nat) * nth r values 0 <= 0) ->
  optimal l1 l2 gradients hessians positions values.
Proof.
  intros ND F P H1 H Sg values' L'. set (n := length positions) in *.
  set (g := fun i => gradientAt gradients (nth i positions 0%nat)).
  set (s := fun i => if Qlt_le_dec 0 (g i) then - l1 else l1).
  set (gr := map (fun i => g i + s i) (seq 0 n)).
  assert (Q0 : forall v, quadratic l1 l2 gradients hessians positions v ==
     quadratic 0 l2 gradients hessians positions v + sumQ n (fun i => l1 * Qabs (nth i v 0))).
  { intros v. unfold quadratic. fold n.
    rewrite (sumQ_ext n (fun i => gradientAt gradients (nth i positions 0%nat) * nth i v 0 + l1 * Qabs (nth i v 0) + l2 / 2 * (nth i v 0 * nth i v 0))
      (fun i => (gradientAt gradients (nth i positions 0%nat) * nth i v 0 + 0 * Qabs (nth i v 0) + l2 / 2 * (nth i v 0 * nth i v 0)) + l1 * Qabs (nth i v 0)))
      by (intros; ring). rewrite sumQ_plus. ring. }
  set (a := fun i j => regularised l2 hessians (nth i positions 0%nat) (nth j positions 0%nat)).
  assert (Q1 : forall v, quadratic 0 l2 gradients hessians positions v ==
     parabola n a (fun i => - g i - s i) (fun i => nth i v 0) - sumQ n (fun i => s i * nth i v 0)).
  { intros v. rewrite quadratic_parabola by (auto; reflexivity). fold n. unfold parabola. fold a.
    rewrite (sumQ_ext n (fun i => (- g i - s i) * nth i v 0) (fun i => - gradientAt gradients (nth i positions 0%nat) * nth i v 0 + (-1) * (s i * nth i v 0)))
      by (intros; unfold g; ring). rewrite sumQ_plus, sumQ_scale. ring. }
  assert (G : parabola n a (fun i => - g i - s i) (fun i => nth i values 0) <= parabola n a (fun i => - g i - s i) (fun i => nth i values' 0)).
  { rewrite (parabola_minimum n a (fun i j => regularised_sym l2 hessians (nth i positions 0%nat) (nth j positions 0%nat))
      (fun i => - g i - s i) (fun i => nth i values 0) (fun i => nth i values' 0)).
    - pose proof (psd_sub _ N l2 hessians positions ND eq_refl F P (fun i => nth i values' 0 - nth i values 0)) as G.
      match goal with |- ?a <= ?a + (1 # 2) * ?f => assert (G' : 0 <= f) by exact G; set (u := a); set (w := f) in *; clearbody u w end. lra.
    - intros r Hr. eapply Qeq_trans; [exact (H r Hr)|]. fold (g r). unfold ordinate. rewrite getL1_sign by (auto; apply (Sg r Hr)).
      unfold s. destruct (Qlt_le_dec 0 (g r)); ring. }
  assert (A1 : sumQ n (fun i => l1 * Qabs (nth i values 0)) == sumQ n (fun i => s i * nth i values 0)).
  { apply sumQ_ext. intros i Hi. destruct (Sg i Hi) as (Hg & Hs). fold (g i) in Hg, Hs. unfold s. destruct (Qlt_le_dec 0 (g i)) as [Pg|Pg].
    - assert (X : nth i values 0 <= 0). { destruct (Qlt_le_dec 0 (nth i values 0)) as [C|]; auto. set (v := nth i values 0) in *. clearbody v. nra. }
      rewrite Qabs_neg by auto. ring.
    - assert (g i < 0). { rewrite Qabs_neg in Hg by auto. lra. }
      assert (X : 0 <= nth i values 0). { destruct (Qlt_le_dec (nth i values 0) 0) as [C|]; auto. set (v := nth i values 0) in *. clearbody v. nra. }
      rewrite Qabs_pos by auto. ring. }
  assert (A2 : sumQ n (fun i => s i * nth i values' 0) <= sumQ n (fun i => l1 * Qabs (nth i values' 0))).
  { apply sumQ_le. intros i Hi. set (v := nth i values' 0). pose proof (Qle_Qabs v). pose proof (Qle_Qabs (- v)) as B. rewrite Qabs_opp in B.
    set (av := Qabs v) in *. clearbody av v. unfold s. destruct (Qlt_le_dec 0 (g i)); nra. }
  rewrite !Q0, !Q1. rewrite A1.
  set (u1 := parabola n a _ _) in *. set (u2 := parabola n a _ (fun i => nth i values' 0)) in *.
  set (t1 := sumQ n (fun i => s i * nth i values 0)) in *. set (t2 := sumQ n (fun i => s i * nth i values' 0)) in *.
  set (t3 := sumQ n (fun i => l1 * Qabs (nth i values' 0))) in *. clearbody u1 u2 t1 t2 t3. lra.
Qed.

(** ** Partial heads *)
Lemma positions_loop outputIndices gradients positions N : outputIndices = seq 0 N -> length gradients = N -> Forall (fun p => p < N)%nat positions ->
  forL positions (fun position '(indices, ordinates) =>
    let* index := aget outputIndices position in
    let* g := aget gradients position in
    Some (indices ++ [index], ordinates ++ [- g])) ([], []) = Some (positions, map (fun p => - gradientAt gradients p) positions).
Proof.
  intros HI HG HF.
  match goal with |- forL ?l ?f ?z = _ => destruct (forL_inv (fun pre (b : list nat * list Q) =>
    fst b = pre /\ snd b = map (fun p => - gradientAt gradients p) pre) f l [] z) as ((i, o) & E & H1 & H2) end.
  - split; reflexivity.
  - intros p a r (i, o) Hsplit (H1 & H2). cbn [fst snd] in *. simpl in Hsplit. subst positions.
    apply Forall_app in HF. destruct HF as (_ & HF). apply Forall_inv in HF. cbv beta in HF.
    rewrite (aget_nth outputIndices a 0%nat) by (subst; rewrite seq_length; auto). rewrite (aget_nth gradients a 0) by lia.
    eexists. split; [reflexivity|]. cbn [fst snd]. rewrite map_app, H1, H2. subst outputIndices. rewrite nth_seq0 by auto. split; reflexivity.
  - cbn [fst snd] in *. simpl in H1, H2. rewrite E. subst. auto.
Qed.

Lemma tri_any r c N : (r < N)%nat -> (c < N)%nat -> (triangularNumber c + r < triangularNumber N)%nat.
Proof. intros H1 H2. destruct N as [|M]; [lia|]. rewrite tri_S. pose proof (tri_mono c M ltac:(lia)). lia. Qed.

Definition hessianRead (hessians : list Q) (positions : list nat) (r c : nat) : Q :=
  nth (triangularNumber (nth (Nat.max r c) positions 0%nat) + nth (Nat.min r c) positions 0%nat) hessians 0.

Lemma positions_spec dsysv l1 l2 tmp positions gradients hessians N :
  length gradients = N -> length hessians = triangularNumber N -> (length positions * length positions <= length tmp)%nat ->
  Forall (fun p => p < N)%nat positions -> (length positions <= N)%nat -> 0 <= l1 -> 0 <= l2 ->
  let n := length positions in
  exists coefficients ordinates, length ordinates = n /\
    (forall r c, (r < n)%nat -> (c < n)%nat ->
       nth (Nat.max r c * n + Nat.min r c) coefficients 0 == hessianRead hessians positions r c + (if (r =? c)%nat then l2 else 0)) /\
    (forall i, (i < n)%nat -> nth i ordinates 0 == ordinate l1 (gradientAt gradients (nth i positions 0%nat))) /\
    evaluatePositions dsysv l1 l2 tmp (seq 0 N) positions gradients hessians =
      (let* values := dsysv n coefficients ordinates in
       let* quality := calculateOverallQuality values gradients hessians n in
       let* term := calculateRegularizationTerm values n l1 l2 in
       Some (mkScores positions values (quality + term))).
Proof.
  intros LG LH LT HF HN H1 H2 n. unfold evaluatePositions.
  rewrite (positions_loop (seq 0 N) gradients positions N eq_refl LG HF). fold n.
  destruct (addL1_spec (map (fun p => - gradientAt gradients p) positions) l1 H1) as (o & E & Lo & Vo).
  rewrite map_length in *. fold n in E, Lo, Vo. rewrite E.
  assert (NP : forall i, (i < n)%nat -> (nth i positions 0 < N)%nat).
  { intros i Hi. rewrite Forall_forall in HF. apply HF. apply nth_In. auto. }
  destruct (copyCoefficientsOf_spec hessians positions tmp n ltac:(auto) ltac:(auto)) as (co & -> & Lc & Vc).
  { intros r c Hr Hc. rewrite LH. apply tri_any; apply NP; lia. }
  destruct (addL2_spec co n l2 ltac:(unfold n; lia) H2) as (co' & -> & Lc' & Vc').
  exists co', o. split; [auto|]. split; [|split; [|reflexivity]].
  - intros r c Hr Hc. rewrite Vc' by lia. rewrite Vc by lia.
    assert (Eb : (Nat.min r c =? Nat.max r c)%nat = (r =? c)%nat).
    { destruct (Nat.eqb_spec (Nat.min r c) (Nat.max r c)), (Nat.eqb_spec r c); auto; lia. }
    rewrite Eb. reflexivity.
  - intros i Hi. rewrite Vo by auto. unfold ordinate.
    assert (EN : nth i (map (fun p => - gradientAt gradients p) positions) 0 = - gradientAt gradients (nth i positions 0%nat)).
    { rewrite (nth_indep _ 0 (- gradientAt gradients 0%nat)) by (rewrite map_length; auto).
      apply (map_nth (fun p => - gradientAt gradients p)). }
    rewrite EN. reflexivity.
Qed.

Lemma sorted_read hessians positions r c : StronglySorted lt positions -> (r < length positions)%nat -> (c < length positions)%nat ->
  hessianRead hessians positions r c = hessianAt hessians (nth r positions 0%nat) (nth c positions 0%nat).
Proof.
  intros S Hr Hc. unfold hessianRead, hessianAt.
  assert (M : forall i j, (i < j)%nat -> (j < length positions)%nat -> (nth i positions 0 < nth j positions 0)%nat).
  { clear Hr Hc r c. induction S as [|a l S IH F]; intros i j Hij Hj; simpl in *; [lia|].
    destruct j as [|j]; [lia|]. destruct i as [|i].
    - rewrite Forall_forall in F. apply F. apply nth_In. lia.
    - apply IH; lia. }
  destruct (Nat.lt_trichotomy r c) as [L|[->|L]].
  - rewrite !Nat.max_r, !Nat.min_l by (try lia; apply Nat.lt_le_incl, M; auto). auto.
  - rewrite !Nat.max_id, !Nat.min_id. auto.
  - rewrite !Nat.max_l, !Nat.min_r by (try lia; apply Nat.lt_le_incl, M; auto). auto.
Qed.

Lemma SS_NoDup l : StronglySorted lt l -> NoDup l.
Proof.
  induction 1 as [|a l S IH F]; constructor; auto. intros Hi. rewrite Forall_forall in F. apply F in Hi. lia.
Qed.

Lemma positions_optimal dsysv l1 l2 tmp positions gradients hessians N sc :
  length gradients = N -> length hessians = triangularNumber N -> (length positions * length positions <= length tmp)%nat ->
  Forall (fun p => p < N)%nat positions -> StronglySorted lt positions -> (length positions <= N)%nat ->
  validSolver dsysv -> 0 <= l1 -> 0 <= l2 ->
  evaluatePositions dsysv l1 l2 tmp (seq 0 N) positions gradients hessians = Some sc ->
  scIndices sc = positions /\ length (scValues sc) = length positions /\
  scQuality sc == quadratic l1 l2 gradients hessians (seq 0 (length positions)) (scValues sc) /\
  (l1 == 0 -> positiveSemidefinite N (regularised l2 hessians) -> optimal l1 l2 gradients hessians positions (scValues sc)).
Proof.
  intros LG LH LT HF HS HN Sv H1 H2. set (n := length positions) in *.
  destruct (positions_spec dsysv l1 l2 tmp positions gradients hessians N LG LH LT HF HN H1 H2) as (co & o & Lo & Vc & Vo & E).
  fold n in Lo, Vc, Vo, E. rewrite E. destruct (dsysv n co o) as [values|] eqn:Ev; [|discriminate].
  destruct (Sv _ _ _ _ Ev) as (Lv & Ve). pose proof (tri_mono n N HN).
  destruct (quality_spec values gradients hessians n ltac:(lia) ltac:(lia) ltac:(lia)) as (q & -> & Vq).
  destruct (term_spec values n l1 l2 ltac:(lia) H1 H2) as (t & -> & Vt). intros Hsc. injection Hsc as <-. cbn [scIndices scValues scQuality].
  split; [auto|]. split; [auto|]. split.
  - rewrite (quality_quadratic l1 l2 gradients hessians values (seq 0 n) n); [|rewrite seq_length; auto|reflexivity].
    rewrite Vq, Vt. reflexivity.
  - intros El P. apply (optimal_solution l2 gradients hessians positions values N); auto; [apply SS_NoDup; auto|].
    fold n. intros r Hr. specialize (Ve r Hr). rewrite Vo in Ve by auto. unfold ordinate in Ve. rewrite (getL1_zero _ l1 El), Qplus_0_r in Ve.
    rewrite <- Ve. apply sumQ_ext. intros c Hc. rewrite (Vc r c Hr Hc). rewrite sorted_read by auto. unfold regularised.
    assert (Eb : (nth r positions 0 =? nth c positions 0)%nat = (r =? c)%nat).
    { destruct (Nat.eqb_spec r c) as [->|Ne]; [apply Nat.eqb_refl|]. apply Nat.eqb_neq. intros Ep. apply Ne.
      apply (proj1 (NoDup_nth positions 0%nat) (SS_NoDup _ HS)); auto. }
    rewrite Eb. reflexivity.
Qed.

Lemma diag_index i : (triangularNumber (i + 1) - 1 = triangularNumber i + i)%nat.
Proof. rewrite Nat.add_1_r, tri_S. lia. Qed.

Lemma diagonal_spec gradients hessians : length hessians = triangularNumber (length gradients) ->
  exists st, diagonal gradients hessians = Some st /\ length st = length gradients /\
    (forall p, (p < length gradients)%nat -> nth p st (0, 0) = (gradientAt gradients p, hessianAt hessians p p)).
Proof.
  intros LH. unfold diagonal.
  match goal with |- context[forN ?m ?s ?f ?z] => destruct (forN_inv (fun j (st : list tuple) => length st = j /\
    (forall p, (p < j)%nat -> nth p st (0, 0) = (gradientAt gradients p, hessianAt hessians p p))) f m s z) as (st & E & L & V) end.
  - split; auto. intros; lia.
  - intros j st Hj (L & V). rewrite (aget_nth gradients j 0) by lia. rewrite diag_index.
    pose proof (tri_bound j j (length gradients) ltac:(lia) ltac:(lia)). rewrite (aget_nth hessians _ 0) by lia.
    eexists. split; [reflexivity|]. rewrite app_length. simpl. split; [lia|]. intros p Hp. destruct (Nat.eq_dec p j) as [->|].
    + rewrite app_nth2 by lia. rewrite L, Nat.sub_diag. unfold hessianAt. rewrite Nat.max_id, Nat.min_id. auto.
    + rewrite app_nth1 by lia. apply V. lia.
  - exists st. auto.
Qed.

Lemma SS_length l N : StronglySorted lt l -> Forall (fun p => p < N)%nat l -> (length l <= N)%nat.
Proof.
  intros S F. rewrite <- (seq_length N 0). apply NoDup_incl_length; [apply SS_NoDup; auto|].
  intros x Hx. rewrite Forall_forall in F. apply in_seq. specialize (F x Hx). lia.
Qed.

Lemma dynamic_nd :
  forall (dsysv : solver) (l1 l2 threshold exponent : Q) (n : nat) (tmp gradients hessians : list Q) (sc : scores),
  wellFormed n (seq 0 n) gradients hessians tmp -> (0 < n)%nat -> validSolver dsysv -> 0 <= l1 -> 0 <= l2 ->
  0 < threshold < 1 -> 0 < exponent ->
  evaluateDynamicND dsysv l1 l2 threshold exponent tmp (seq 0 n) gradients hessians = Some sc ->
  exists statistics minimum maximum,
    length statistics = n /\ (forall p, (p < n)%nat -> nth p statistics (0, 0) = (gradientAt gradients p, hessianAt hessians p p)) /\
    isMinimum minimum (map (fun p => Qabs (scoreAt l1 l2 statistics p)) (everyPosition statistics)) /\
    isMaximum maximum (map (fun p => Qabs (scoreAt l1 l2 statistics p)) (everyPosition statistics)) /\
    (forall p, In p (scIndices sc) <-> (p < n)%nat /\
       qualifies minimum maximum exponent (1 - threshold) (Qabs (scoreAt l1 l2 statistics p))) /\
    length (scValues sc) = length (scIndices sc) /\
    scQuality sc == quadratic l1 l2 gradients hessians (seq 0 (length (scIndices sc))) (scValues sc) /\
    (l1 == 0 -> positiveSemidefinite n (regularised l2 hessians) -> optimal l1 l2 gradients hessians (scIndices sc) (scValues sc)).
Proof.
  intros dsysv l1 l2 th e n tmp gradients hessians sc (_ & LG & LH & LT) H0 Sv H1 H2 Hth He.
  unfold evaluateDynamicND. destruct (diagonal_spec gradients hessians) as (st & -> & Ls & Vs); [congruence|]. rewrite LG in *.
  destruct (getMinAndMaxScore_spec l1 l2 st) as (m & M & -> & HM1 & HM2); [destruct st; simpl in *; [lia|discriminate]|].
  assert (B : forall p, (p < length st)%nat -> m <= Qabs (scoreAt l1 l2 st p) /\ Qabs (scoreAt l1 l2 st p) <= M).
  { intros p Hp. destruct HM1 as (_ & F1), HM2 as (_ & F2). rewrite Forall_forall in F1, F2.
    assert (In (Qabs (scoreAt l1 l2 st p)) (map (fun p => Qabs (scoreAt l1 l2 st p)) (everyPosition st))).
    { apply in_map_iff. exists p. split; auto. apply in_seq. lia. } split; auto. }
  match goal with |- context[forN ?c ?s ?f []] => destruct (forN_inv (fun k (ps : list nat) => StronglySorted lt ps /\
      (forall p, In p ps <-> (p < k)%nat /\ qualifies m M e (1 - th) (Qabs (scoreAt l1 l2 st p)))) f c s []) as (ps & -> & HS & HI) end.
  - split; [constructor|]. intros p. split; [intros []|lia].
  - intros j ps Hj (HS & HI). rewrite (aget_nth st j (0, 0)) by lia. cbv zeta.
    fold (scoreAt l1 l2 st j). destruct (B j ltac:(lia)) as (B1 & B2).
    pose proof (qualifies_spec m M (scoreAt l1 l2 st j) e (1 - th) B1 B2 ltac:(lra)) as QS.
    eexists. split; [reflexivity|]. destruct (Rge_dec _ _) as [G|G].
    + split.
      * apply SS_snoc; auto. apply Forall_forall. intros p Hp. apply HI in Hp. lia.
      * intros p. rewrite in_app_iff, HI. simpl. split.
        { intros [(? & ?)|[<-|[]]]; split; auto; apply QS; auto. }
        { intros (Hp & Hq). destruct (Nat.eq_dec p j) as [->|]; auto. left. split; auto. lia. }
    + split; auto. intros p. rewrite HI. split; intros (Hp & Hq); split; auto. destruct (Nat.eq_dec p j) as [->|]; [|lia].
      exfalso. apply G. apply QS. auto.
  - simpl in HI. intros E.
    assert (HF : Forall (fun p => p < n)%nat ps) by (apply Forall_forall; intros p Hp; apply HI in Hp; lia).
    pose proof (SS_length ps n HS HF) as HL.
    destruct (positions_optimal dsysv l1 l2 tmp ps gradients hessians n sc LG LH) as (E1 & E2 & E3 & E4); auto.
    { rewrite LT. apply Nat.mul_le_mono; auto. }
    rewrite E1. exists st, m, M. split; [auto|]. split; [auto|]. split; [auto|]. split; [auto|]. split.
    { intros p. rewrite HI, Ls. reflexivity. }
    split; [auto|]. split; [exact E3|]. auto.
Qed.

Lemma fixed_positions (sorted : list (nat * Q)) k : (k <= length sorted)%nat ->
  forN k 0 (fun i positions => let* (index, _) := aget sorted i in Some (positions ++ [index])) [] = Some (map fst (firstn k sorted)).
Proof.
  intros H. match goal with |- forN ?m ?s ?f ?z = _ => destruct (forN_inv (fun j ps => ps = map fst (firstn j sorted)) f m s z) as (ps & -> & E) end.
  - reflexivity.
  - intros j ps Hj ->. rewrite (aget_nth sorted j (0%nat, 0)) by lia. destruct (nth j sorted (0%nat, 0)) as (i, v) eqn:En.
    eexists. split; [reflexivity|]. rewrite (firstn_S_nth sorted j (i, v)) by (rewrite <- En; apply nth_error_nth'; lia).
    rewrite map_app. reflexivity.
  - simpl in E. congruence.
Qed.

Lemma fixed_nd :
  forall (dsysv : solver) (l1 l2 : Q) (n k : nat) (tmp gradients hessians : list Q) (statistics : list tuple)
         (sorted : list (nat * Q)) (sc : scores),
  length gradients = n -> length hessians = triangularNumber n -> length tmp = (k * k)%nat -> validSolver dsysv -> 0 <= l1 -> 0 <= l2 ->
  diagonal gradients hessians = Some statistics -> partialSort k (outputWiseScores l1 l2 statistics) sorted ->
  evaluateFixedND dsysv l1 l2 tmp k (seq 0 n) gradients hessians sorted = Some sc ->
  length (scIndices sc) = k /\ NoDup (scIndices sc) /\ Forall (fun p => p < n)%nat (scIndices sc) /\
  (forall p o, In p (scIndices sc) -> (o < n)%nat -> ~ In o (scIndices sc) ->
     Qabs (scoreAt l1 l2 statistics o) <= Qabs (scoreAt l1 l2 statistics p)) /\
  length (scValues sc) = k /\ scQuality sc == quadratic l1 l2 gradients hessians (seq 0 k) (scValues sc) /\
  (l1 == 0 -> positiveSemidefinite n (regularised l2 hessians) -> StronglySorted lt (scIndices sc) ->
   optimal l1 l2 gradients hessians (scIndices sc) (scValues sc)).
Proof.
  intros dsysv l1 l2 n k tmp gradients hessians st sorted sc LG LH LT Sv H1 H2 Ed (HP & HK & HSo & HA).
  destruct (diagonal_spec gradients hessians) as (st' & Ed' & Ls & _); [congruence|]. rewrite Ed in Ed'. injection Ed' as <-.
  unfold evaluateFixedND. rewrite fixed_positions by auto. set (ps := map fst (firstn k sorted)).
  assert (PI : forall e, In e sorted <-> In e (outputWiseScores l1 l2 st)).
  { intros e. split; apply Permutation_in; auto. apply Permutation_sym. auto. }
  assert (Lp : length ps = k) by (unfold ps; rewrite map_length, firstn_length; lia).
  assert (NDs : NoDup (map fst sorted)).
  { eapply Permutation_NoDup; [apply Permutation_map; exact HP|]. rewrite entries_fst. apply seq_NoDup. }
  assert (ND : NoDup ps) by (unfold ps; rewrite <- firstn_map; apply nodup_firstn; auto).
  assert (HF : Forall (fun p => p < n)%nat ps).
  { apply Forall_forall. intros p Hp. apply in_map_iff in Hp. destruct Hp as ((i, v) & <- & Hi).
    assert (In (i, v) sorted) by (rewrite <- (firstn_skipn k sorted); apply in_or_app; auto).
    apply PI, entries_In in H. cbn [fst snd] in H. simpl. lia. }
  assert (HN : (k <= n)%nat).
  { rewrite <- Lp, <- (seq_length n 0). apply NoDup_incl_length; auto. intros x Hx. rewrite Forall_forall in HF. apply in_seq. specialize (HF x Hx). lia. }
  intros E.
  assert (Q : scIndices sc = ps /\ length (scValues sc) = k /\ scQuality sc == quadratic l1 l2 gradients hessians (seq 0 k) (scValues sc)).
  { destruct (positions_spec dsysv l1 l2 tmp ps gradients hessians n LG LH ltac:(rewrite Lp, LT; auto) HF ltac:(lia) H1 H2) as (co & o & Lo & Vc & Vo & E').
    rewrite E' in E. rewrite Lp in *. destruct (dsysv k co o) as [values|] eqn:Ev; [|discriminate].
    destruct (Sv _ _ _ _ Ev) as (Lv & Ve). pose proof (tri_mono k n HN).
    destruct (quality_spec values gradients hessians k ltac:(lia) ltac:(lia) ltac:(lia)) as (q & Eq & Vq). rewrite Eq in E.
    destruct (term_spec values k l1 l2 ltac:(lia) H1 H2) as (t & Et & Vt). rewrite Et in E. injection E as <-. cbn [scIndices scValues scQuality].
    split; auto. split; auto.
    rewrite (quality_quadratic l1 l2 gradients hessians values (seq 0 k) k); [|rewrite seq_length; auto|reflexivity].
    rewrite Vq, Vt. reflexivity. }
  destruct Q as (E1 & E2 & E3). rewrite E1. split; [auto|]. split; [auto|]. split; [auto|]. split; [|split; [auto|split; [auto|]]].
  - intros p o Hp Ho No. unfold ps in Hp, No. apply in_map_iff in Hp. destruct Hp as ((i, v) & <- & Hi).
    assert (Hs : In (i, v) sorted) by (rewrite <- (firstn_skipn k sorted); apply in_or_app; auto).
    apply PI, entries_In in Hs. cbn [fst snd] in *. destruct Hs as (_ & ->).
    assert (Hos : In (o, scoreAt l1 l2 st o) sorted) by (apply PI, entries_In; cbn [fst snd]; split; [lia|reflexivity]).
    rewrite <- (firstn_skipn k sorted) in Hos. apply in_app_or in Hos. destruct Hos as [Hos|Hos].
    + exfalso. apply No. apply in_map_iff. exists (o, scoreAt l1 l2 st o). auto.
    + rewrite Forall_forall in HA. specialize (HA _ Hi). rewrite Forall_forall in HA. specialize (HA _ Hos). exact HA.
  - intros El P SS. destruct (positions_optimal dsysv l1 l2 tmp ps gradients hessians n sc LG LH) as (_ & _ & _ & E4); auto; try lia; rewrite ?Lp; auto; lia.
Qed.

(** ** Comparison to decomposable loss functions *)
Lemma diagonal_sum n (f : nat -> Q) i : (i < n)%nat -> (forall j, (j < n)%nat -> j <> i -> f j == 0) -> sumQ n f == f i.
Proof.
  intros Hi H. rewrite <- (sumQ_pick n i f Hi). apply sumQ_ext. intros j Hj. destruct (Nat.eqb_spec j i); [reflexivity|auto].
Qed.

Lemma objective_sum l1 l2 gradients hessians st values n :
  (forall p, (p < n)%nat -> nth p st (0, 0) = (gradientAt gradients p, hessianAt hessians p p)) ->
  length values = n -> diagonalHessians n hessians ->
  headObjective l1 l2 st (seq 0 n) values == quadratic l1 l2 gradients hessians (seq 0 n) values.
Proof.
  intros Vs Lv D. rewrite (quality_quadratic l1 l2 gradients hessians values (seq 0 n) n); [|rewrite seq_length; auto|reflexivity].
  assert (EH : forall m, (m <= n)%nat -> headObjective l1 l2 st (seq 0 m) (firstn m values) ==
    sumQ m (fun i => objective l1 l2 (gradientAt gradients i, hessianAt hessians i i) (nth i values 0))).
  { induction m as [|m IH]; intros Hm; [reflexivity|]. rewrite seq_snoc, (firstn_S_nth values m (nth m values 0)) by (apply nth_error_nth'; lia).
    rewrite headObjective_snoc by (rewrite seq_length, firstn_length; lia). rewrite IH by lia. rewrite sumQ_S, Vs by lia. reflexivity. }
  specialize (EH n (le_n n)). rewrite firstn_all2 in EH by lia. rewrite EH.
  rewrite (sumQ_ext n (fun i => sumQ n (fun j => hessianAt hessians i j * (nth i values 0 * nth j values 0)))
    (fun i => hessianAt hessians i i * (nth i values 0 * nth i values 0))).
  - rewrite <- sumQ_scale, <- !sumQ_plus. apply sumQ_ext. intros i Hi. unfold objective, gradientAt. cbn [fst snd]. field.
  - intros i Hi. apply (diagonal_sum n (fun j => hessianAt hessians i j * (nth i values 0 * nth j values 0)) i Hi).
    intros j Hj Ne. rewrite (D i j) by auto. ring.
Qed.

Lemma agree_nd :
  forall (dsysv : solver) (l1 l2 : Q) (n : nat) (tmp : list Q) (indices : list nat) (gradients hessians : list Q) (statistics : list tuple)
         (sc sc' : scores),
  wellFormed n indices gradients hessians tmp -> validSolver dsysv -> l1 == 0 -> 0 <= l2 -> diagonalHessians n hessians ->
  diagonal gradients hessians = Some statistics -> Forall (fun t => 0 < snd t + l2) statistics ->
  evaluateCompleteND dsysv l1 l2 tmp indices gradients hessians = Some sc ->
  evaluateComplete l1 l2 indices statistics = Some sc' ->
  scIndices sc = scIndices sc' /\ Forall2 Qeq (scValues sc) (scValues sc') /\ scQuality sc == scQuality sc'.
Proof.
  intros dsysv l1 l2 n tmp indices gradients hessians st sc sc' W Sv H1 H2 D Ed HP E E'.
  destruct (diagonal_spec gradients hessians) as (st' & Ed' & Ls & Vs); [destruct W as (_ & -> & -> & _); auto|].
  rewrite Ed in Ed'. injection Ed' as <-.
  destruct (evaluateComplete_spec l1 l2 indices st) as (sc2 & Esc & I2 & V2 & Q2). rewrite E' in Esc. injection Esc as <-.
  destruct (complete_nd dsysv l1 l2 n tmp indices gradients hessians W Sv ltac:(lra) H2) as (_ & C).
  destruct (C sc E) as (I1 & L1 & Q1 & _).
  destruct (complete_nd_spec dsysv l1 l2 tmp indices gradients hessians n W ltac:(lra) H2) as (co & o & Lc & Lo & Vc & Vo & E2).
  rewrite E in E2. destruct (dsysv n co o) as [values|] eqn:Ev; [|discriminate].
  destruct (calculateOverallQuality values gradients hessians n); [|discriminate].
  destruct (calculateRegularizationTerm values n l1 l2); [|discriminate]. injection E2 as ->. cbn [scIndices scValues scQuality] in *.
  destruct (Sv _ _ _ _ Ev) as (Lv & Ve).
  destruct W as (LI & LG & LH & LT). rewrite LG in *.
  assert (HV : forall i, (i < n)%nat -> nth i values 0 == scoreAt l1 l2 st i).
  { intros i Hi. specialize (Ve i Hi). rewrite Vo in Ve by auto. unfold ordinate in Ve. rewrite (getL1_zero _ l1 H1), Qplus_0_r in Ve.
    rewrite (diagonal_sum n _ i Hi) in Ve.
    - rewrite (Vc i i Hi Hi) in Ve. unfold regularised in Ve. rewrite Nat.eqb_refl in Ve. unfold scoreAt, calculateOutputWiseScore.
      rewrite (Vs i Hi). cbn [fst snd]. assert (P : 0 < hessianAt hessians i i + l2).
      { pose proof (positive_nth l2 st i HP ltac:(lia)) as P. rewrite (Vs i Hi) in P. exact P. }
      rewrite divideOrZero_spec by lra. rewrite (getL1_zero _ l1 H1).
      unfold gradientAt. set (h := hessianAt hessians i i + l2) in *. set (v := nth i values 0) in *. set (g := nth i gradients 0) in *. clearbody h v g.
      assert (EE : v == h * v / h) by (field; lra). rewrite EE, Ve. rewrite Qplus_0_r. reflexivity.
    - intros j Hj Ne. rewrite (Vc i j Hi Hj). unfold regularised. destruct (Nat.eqb_spec i j); [congruence|]. rewrite (D i j) by auto. ring. }
  assert (LV2 : length (scValues sc') = n) by (rewrite V2, map_length; unfold everyPosition; rewrite seq_length; auto).
  assert (NV2 : forall i, (i < n)%nat -> nth i (scValues sc') 0 = scoreAt l1 l2 st i).
  { intros i Hi. rewrite V2. rewrite (nth_indep _ 0 (scoreAt l1 l2 st 0)) by (rewrite map_length; unfold everyPosition; rewrite seq_length; lia).
    rewrite (map_nth (scoreAt l1 l2 st)). unfold everyPosition. rewrite seq_nth by lia. auto. }
  split; [congruence|]. split.
  - assert (FE : forall (a b : list Q), length a = length b -> (forall i, (i < length a)%nat -> nth i a 0 == nth i b 0) -> Forall2 Qeq a b).
    { induction a as [|x a IH]; intros [|y b] HL HE; try discriminate; constructor; [apply (HE 0%nat); simpl; lia|].
      apply IH; [simpl in HL; lia|]. intros i Hi. apply (HE (S i)). simpl. lia. }
    apply FE; [lia|]. intros i Hi. rewrite NV2 by lia. apply HV. lia.
  - rewrite Q1, Q2. unfold everyPosition. rewrite Ls. rewrite (objective_sum l1 l2 gradients hessians st (scValues sc') n Vs LV2 D).
    unfold quadratic. rewrite seq_length.
    assert (XX : forall i, (i < n)%nat -> nth i values 0 == nth i (scValues sc') 0) by (intros; rewrite NV2 by auto; auto).
    rewrite (sumQ_ext n (fun i => gradientAt gradients (nth i (seq 0 n) 0%nat) * nth i values 0 + l1 * Qabs (nth i values 0) + l2 / 2 * (nth i values 0 * nth i values 0))
      (fun i => gradientAt gradients (nth i (seq 0 n) 0%nat) * nth i (scValues sc') 0 + l1 * Qabs (nth i (scValues sc') 0) + l2 / 2 * (nth i (scValues sc') 0 * nth i (scValues sc') 0)))
      by (intros i Hi; rewrite (XX i Hi); reflexivity).
    rewrite (sumQ_ext n (fun i => sumQ n (fun j => hessianAt hessians (nth i (seq 0 n) 0%nat) (nth j (seq 0 n) 0%nat) * (nth i values 0 * nth j values 0)))
      (fun i => sumQ n (fun j => hessianAt hessians (nth i (seq 0 n) 0%nat) (nth j (seq 0 n) 0%nat) * (nth i (scValues sc') 0 * nth j (scValues sc') 0)))); [reflexivity|].
    intros i Hi. apply sumQ_ext. intros j Hj. rewrite (XX i Hi), (XX j Hj). reflexivity.
Qed.

(** ** L1 regularisation of complete heads *)
Lemma complete_nd_l1 :
  forall (dsysv : solver) (l1 l2 : Q) (n : nat) (tmp : list Q) (indices : list nat) (gradients hessians : list Q) (sc : scores),
  wellFormed n indices gradients hessians tmp -> validSolver dsysv -> 0 <= l1 -> 0 <= l2 ->
  positiveSemidefinite n (regularised l2 hessians) ->
  evaluateCompleteND dsysv l1 l2 tmp indices gradients hessians = Some sc ->
  (forall p, (p < n)%nat -> l1 < Qabs (gradientAt gradients p) /\ gradientAt gradients p * nth p (scValues sc) 0 <= 0) ->
  optimal l1 l2 gradients hessians (seq 0 n) (scValues sc).
Proof.
  intros dsysv l1 l2 n tmp indices gradients hessians sc W Sv H1 H2 P E Hs.
  destruct (complete_nd_spec dsysv l1 l2 tmp indices gradients hessians n W H1 H2) as (co & o & Lc & Lo & Vc & Vo & E2).
  rewrite E in E2. destruct (dsysv n co o) as [values|] eqn:Ev; [|discriminate].
  destruct (calculateOverallQuality values gradients hessians n); [|discriminate].
  destruct (calculateRegularizationTerm values n l1 l2); [|discriminate]. injection E2 as ->. cbn [scIndices scValues scQuality] in *.
  destruct (Sv _ _ _ _ Ev) as (Lv & Ve).
  apply (optimal_l1 l1 l2 gradients hessians (seq 0 n) values n); auto.
  - apply seq_NoDup.
  - apply Forall_forall. intros p Hp. apply in_seq in Hp. lia.
  - rewrite seq_length. intros r Hr. rewrite nth_seq0 by auto. rewrite <- (Vo r Hr), <- (Ve r Hr).
    apply sumQ_ext. intros c Hc. rewrite nth_seq0 by auto. rewrite (Vc r c Hr Hc). reflexivity.
  - rewrite seq_length. intros r Hr. rewrite nth_seq0 by auto. auto.
Qed.

Lemma checked_valid values : validSolver (checked values).
Proof.
  intros n co o v H. unfold checked in H. destruct (length values =? n)%nat eqn:E; [|discriminate].
  apply Nat.eqb_eq in E. simpl in H. destruct (forallb _ _) eqn:F; [|discriminate]. injection H as <-. split; auto.
  intros r Hr. rewrite forallb_forall in F. apply Qeq_bool_eq. apply F. apply in_seq. lia.
Qed.

(** ** Counterexamples *)
Local Transparent triangularNumber.

Lemma Qsq_nonneg x : 0 <= x * x.
Proof. nra. Qed.

Lemma psd_diag2 : positiveSemidefinite 2 (regularised 0 [2; 1; 2]).
Proof.
  intros x. unfold sumQ, regularised, hessianAt, triangularNumber, Qsum. simpl. set (a := x 0%nat). set (b := x 1%nat). clearbody a b.
  pose proof (Qsq_nonneg a). pose proof (Qsq_nonneg b). pose proof (Qsq_nonneg (a + b)). lra.
Qed.

Lemma complete_l1_refuted :
  exists (dsysv : solver) (l1 : Q) (gradients hessians tmp : list Q) (sc : scores),
  wellFormed 1 [0%nat] gradients hessians tmp /\ validSolver dsysv /\ 0 <= l1 /\ positiveSemidefinite 1 (regularised 0 hessians) /\
  evaluateCompleteND dsysv l1 0 tmp [0%nat] gradients hessians = Some sc /\
  quadratic l1 0 gradients hessians [0%nat] [0] < quadratic l1 0 gradients hessians [0%nat] (scValues sc) /\
  0 < scQuality sc.
Proof.
  exists (checked [-1]), 2, [1], [1], [0]. eexists. split; [repeat split|]. split; [apply checked_valid|]. split; [discriminate|]. split.
  { intros x. unfold sumQ, regularised, hessianAt, triangularNumber, Qsum. simpl. set (a := x 0%nat). clearbody a. nra. }
  split; [vm_compute; reflexivity|]. split; vm_compute; reflexivity.
Qed.

Lemma agree_refuted :
  exists (dsysv : solver) (l1 : Q) (gradients hessians tmp : list Q) (statistics : list tuple) (sc sc' : scores),
  wellFormed 1 [0%nat] gradients hessians tmp /\ validSolver dsysv /\ 0 <= l1 /\ diagonalHessians 1 hessians /\
  diagonal gradients hessians = Some statistics /\ Forall (fun t => 0 < snd t) statistics /\
  evaluateCompleteND dsysv l1 0 tmp [0%nat] gradients hessians = Some sc /\
  evaluateComplete l1 0 [0%nat] statistics = Some sc' /\
  Forall2 Qlt (scValues sc') (scValues sc) /\ optimal l1 0 gradients hessians [0%nat] (scValues sc).
Proof.
  exists (checked [-1]), 1, [2], [1], [0]. eexists. eexists. eexists.
  assert (E : evaluateCompleteND (checked [-1]) 1 0 [0] [0%nat] [2] [1] = Some (mkScores [0%nat] [-1] (-1 # 2))) by (vm_compute; reflexivity).
  split; [repeat split|]. split; [apply checked_valid|]. split; [discriminate|]. split; [intros r c Hr Hc Ne; lia|].
  split; [vm_compute; reflexivity|]. split; [repeat constructor|]. split; [exact E|]. split; [vm_compute; reflexivity|].
  split; [repeat constructor|]. cbn [scValues].
  assert (Eq : forall y, quadratic 1 0 [2] [1] [0%nat] [y] == 2 * y + Qabs y + (1 # 2) * y * y).
  { intros y. unfold quadratic, sumQ, Qsum, gradientAt, hessianAt, triangularNumber. simpl. field. }
  intros [|y [|]] L; try discriminate.  pose proof (Qsq_nonneg (y + 1)). rewrite !Eq. change (Qabs (-1)) with 1.
  destruct (Qlt_le_dec y 0); [rewrite (Qabs_neg y) by lra|rewrite (Qabs_pos y) by lra]; nra.
Qed.

Lemma dynamic_quality_refuted :
  exists (dsysv : solver) (gradients hessians tmp : list Q) (sc : scores),
  wellFormed 2 [0; 1]%nat gradients hessians tmp /\ validSolver dsysv /\ positiveSemidefinite 2 (regularised 0 hessians) /\
  evaluateDynamicND dsysv 0 0 (1 # 50) 2 tmp [0; 1]%nat gradients hessians = Some sc /\
  scIndices sc = [1%nat] /\ optimal 0 0 gradients hessians [1%nat] (scValues sc) /\
  quadratic 0 0 gradients hessians [1%nat] (scValues sc) < 0 < scQuality sc.
Proof.
  assert (P : positiveSemidefinite 2 (regularised 0 [1; 0; 1])).
  { intros x. unfold sumQ, regularised, hessianAt, triangularNumber, Qsum. simpl. set (a := x 0%nat). set (b := x 1%nat). clearbody a b. nra. }
  assert (X : exists sc, evaluateDynamicND (checked [4]) 0 0 (1 # 50) 2 [0; 0; 0; 0] [0; 1]%nat [1; -4] [1; 0; 1] = Some sc /\ scIndices sc = [1%nat] /\
    scValues sc = [4] /\ scQuality sc == 12).
  { unfold evaluateDynamicND.
    replace (diagonal [1; -4] [1; 0; 1]) with (Some [(1, 1); (-4, 1)]) by (vm_compute; reflexivity).
    destruct (getMinAndMaxScore_spec 0 0 [(1, 1); (-4, 1)]) as (m & M & -> & (Im & Hm) & (IM & HM)); [discriminate|].
    assert (S0 : Qabs (scoreAt 0 0 [(1, 1); (-4, 1)] 0) == 1) by (vm_compute; reflexivity).
    assert (S1 : Qabs (scoreAt 0 0 [(1, 1); (-4, 1)] 1) == 4) by (vm_compute; reflexivity).
    set (s0 := Qabs (scoreAt 0 0 [(1, 1); (-4, 1)] 0)) in *. set (s1 := Qabs (scoreAt 0 0 [(1, 1); (-4, 1)] 1)) in *.
    change (map (fun p => Qabs (scoreAt 0 0 [(1, 1); (-4, 1)] p)) (everyPosition [(1, 1); (-4, 1)])) with [s0; s1] in *.
    assert (Em : m == 1).
    { inversion Hm as [|? ? A B]; subst. inversion B as [|? ? C _]; subst.
      destruct Im as [E|[E|[]]]; rewrite <- E in *; [exact S0|]. lra. }
    assert (EM : M == 4).
    { inversion HM as [|? ? A B]; subst. inversion B as [|? ? C _]; subst.
      destruct IM as [E|[E|[]]]; rewrite <- E in *; [|exact S1]. lra. }
    unfold s0, s1 in S0, S1. clear s0 s1 Im Hm IM HM.
    pose proof (qualifies_spec m M (scoreAt 0 0 [(1, 1); (-4, 1)] 0) 2 (1 - (1 # 50)) ltac:(rewrite S0; lra) ltac:(rewrite S0; lra) ltac:(reflexivity)) as Q0.
    pose proof (qualifies_spec m M (scoreAt 0 0 [(1, 1); (-4, 1)] 1) 2 (1 - (1 # 50)) ltac:(rewrite S1; lra) ltac:(rewrite S1; lra) ltac:(reflexivity)) as Q1.
    replace (forN _ _ _ _) with (Some [1%nat]); [eexists; split; [vm_compute; reflexivity|repeat split]|].
    symmetry. cbv [length forN aget nth_error]. change (calculateOutputWiseScore 0 0 (1, 1)) with (scoreAt 0 0 [(1, 1); (-4, 1)] 0).
    change (calculateOutputWiseScore 0 0 (-4, 1)) with (scoreAt 0 0 [(1, 1); (-4, 1)] 1).
    match goal with |- context[Rge_dec (calculateWeightedScore (scoreAt _ _ _ 0) _ _) ?l] =>
      destruct (Rge_dec (calculateWeightedScore (scoreAt 0 0 [(1, 1); (-4, 1)] 0) m 2) l) as [G|G] end.
    { exfalso. apply Q0 in G. destruct G as [G|(G & _)]; [rewrite Em, EM in G; discriminate|]. rewrite Em, S0 in G. discriminate. }
    destruct (Rge_dec _ _) as [G1|G1]; [reflexivity|]. exfalso. apply G1, Q1. right. split; [rewrite Em, S1; reflexivity|].
    replace (Q2R ((Qabs (scoreAt 0 0 [(1, 1); (-4, 1)] 1) - m) / (M - m))) with 1%R.
    - unfold Rpower. rewrite ln_1, Rmult_0_r, exp_0. replace 1%R with (Q2R 1) by (unfold Q2R; simpl; field). apply Qle_Rle. discriminate.
    - replace 1%R with (Q2R 1) by (unfold Q2R; simpl; field). apply Qeq_eqR. rewrite S1, Em, EM. reflexivity. }
  destruct X as (sc & E & I & V & Qq). exists (checked [4]), [1; -4], [1; 0; 1], [0; 0; 0; 0], sc.
  split; [repeat split|]. split; [apply checked_valid|]. split; [exact P|]. split; [exact E|]. split; [exact I|]. rewrite V.
  assert (Eq : forall y, quadratic 0 0 [1; -4] [1; 0; 1] [1%nat] [y] == - (4) * y + (1 # 2) * y * y).
  { intros y. unfold quadratic, sumQ, Qsum, gradientAt, hessianAt, triangularNumber. simpl. field. }
  split; [|split; [rewrite Eq; reflexivity|rewrite Qq; reflexivity]].
  intros [|y [|]] L; try discriminate. rewrite !Eq. pose proof (Qsq_nonneg (y - 4)). lra.
Qed.

Lemma fixed_scores_refuted :
  exists (dsysv : solver) (gradients hessians tmp : list Q) (statistics : list tuple) (sorted : list (nat * Q)) (sc : scores),
  length gradients = 3%nat /\ length hessians = triangularNumber 3 /\ length tmp = 4%nat /\ validSolver dsysv /\
  positiveSemidefinite 3 (regularised 0 hessians) /\ diagonal gradients hessians = Some statistics /\
  partialSort 2 (outputWiseScores 0 0 statistics) sorted /\
  evaluateFixedND dsysv 0 0 tmp 2 [0; 1; 2]%nat gradients hessians sorted = Some sc /\
  scIndices sc = [2; 0]%nat /\
  quadratic 0 0 gradients hessians [2; 0]%nat [0; 0] < quadratic 0 0 gradients hessians [2; 0]%nat (scValues sc).
Proof.
  exists (checked [-8 # 9; 28 # 9]), [-2; 0; -3], [1; 0; 5 # 4; 0; 0; 1], [0; 0; 0; 0], [(-2, 1); (0, 5 # 4); (-3, 1)].
  exists [(2%nat, scoreAt 0 0 [(-2, 1); (0, 5 # 4); (-3, 1)] 2); (0%nat, scoreAt 0 0 [(-2, 1); (0, 5 # 4); (-3, 1)] 0);
          (1%nat, scoreAt 0 0 [(-2, 1); (0, 5 # 4); (-3, 1)] 1)].
  eexists. split; [reflexivity|]. split; [reflexivity|]. split; [reflexivity|]. split; [apply checked_valid|]. split.
  { intros x. unfold sumQ, regularised, hessianAt, triangularNumber, Qsum. simpl. set (a := x 0%nat). set (b := x 1%nat). set (c := x 2%nat). clearbody a b c.
    pose proof (Qsq_nonneg a). pose proof (Qsq_nonneg b). pose proof (Qsq_nonneg c). lra. }
  split; [vm_compute; reflexivity|]. split.
  { split; [|split; [simpl; lia|split]].
    - match goal with |- Permutation _ [?c; ?a; ?b] => exact (Permutation_app_comm [a; b] [c]) end.
    - simpl. repeat constructor. vm_compute. discriminate.
    - simpl. repeat constructor; vm_compute; discriminate. }
  split; [vm_compute; reflexivity|]. split; vm_compute; reflexivity.
Qed.
