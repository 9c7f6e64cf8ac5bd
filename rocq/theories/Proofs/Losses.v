(** Proofs about loss functions. *)
From Coq Require Import Reals List Bool Arith Lia Lra.
From Verif Require Import Lib.Arr Model.Losses Spec.Losses.
From Verif Require Model.BoostNonDecomposable Proofs.BoostNonDecomposable Proofs.BoostEvaluation.
Import ListNotations.
Open Scope R_scope.

Notation tri := BoostNonDecomposable.triangularNumber.
Definition tri_S := BoostNonDecomposable.tri_S.

(** ** Sums *)
Lemma sumR_ext n f g : (forall i, (i < n)%nat -> f i = g i) -> sumR n f = sumR n g.
Proof. induction n; simpl; intros H; auto. rewrite IHn by (intros; apply H; lia). rewrite H by lia. auto. Qed.

Lemma sumR_nonneg n f : (forall i, (i < n)%nat -> 0 <= f i) -> 0 <= sumR n f.
Proof. induction n; simpl; intros H; [lra|]. assert (0 <= sumR n f) by (apply IHn; intros; apply H; lia). specialize (H n ltac:(lia)). lra. Qed.

Lemma sumR_scale n f a : sumR n (fun i => a * f i) = a * sumR n f.
Proof. induction n; simpl; [ring|]. rewrite IHn. ring. Qed.

Lemma nth_upd_R (l : list R) i j v : (i < length l)%nat -> nth j (upd l i v) 0 = if (i =? j)%nat then v else nth j l 0.
Proof.
  revert i j. induction l as [|a l IH]; intros i j H; simpl in *; [lia|]. destruct i as [|i]; simpl.
  - destruct j; reflexivity.
  - destruct j as [|j]; simpl; auto. apply IH. lia.
Qed.

Lemma upd_same (l : list R) i : upd l i (nth i l 0) = l.
Proof. revert i. induction l as [|a l IH]; intros [|i]; simpl; auto. f_equal. apply IH. Qed.

Lemma sumR_upd n (F : nat -> R -> R) s c x : length s = n -> (c < n)%nat ->
  sumR n (fun i => F i (nth i (upd s c x) 0)) = sumR n (fun i => F i (nth i s 0)) - F c (nth c s 0) + F c x.
Proof.
  intros L Hc.
  assert (G : forall m, (m <= n)%nat -> sumR m (fun i => F i (nth i (upd s c x) 0)) =
    sumR m (fun i => F i (nth i s 0)) + (if (c <? m)%nat then F c x - F c (nth c s 0) else 0)).
  { induction m as [|m IH]; intros Hm; simpl; [lra|]. rewrite IH by lia. rewrite nth_upd_R by lia.
    destruct (Nat.eqb_spec c m) as [->|Ne].
    - rewrite Nat.ltb_irrefl. destruct (Nat.ltb_spec m (S m)); [lra|lia].
    - destruct (Nat.ltb_spec c m), (Nat.ltb_spec c (S m)); try lia; lra. }
  rewrite G by lia. destruct (Nat.ltb_spec c n); [lra|lia].
Qed.

(** ** Derivatives *)
Lemma lim_ext f g x d : (forall y, f y = g y) -> derivable_pt_lim f x d -> derivable_pt_lim g x d.
Proof. intros E H eps He. destruct (H eps He) as (delta & Hd). exists delta. intros h H0 H1. rewrite <- !E. auto. Qed.

Lemma lim_ext_loc f g x d delta : 0 < delta -> (forall y, Rabs (y - x) < delta -> f y = g y) -> derivable_pt_lim f x d -> derivable_pt_lim g x d.
Proof.
  intros Hp E H eps He. destruct (H eps He) as (d1 & Hd). exists (mkposreal (Rmin d1 delta) (Rmin_pos _ _ (cond_pos d1) Hp)).
  intros h H0 H1. simpl in H1. rewrite <- !E.
  - apply Hd; auto. eapply Rlt_le_trans; [exact H1|apply Rmin_l].
  - replace (x - x) with 0 by ring. rewrite Rabs_R0. auto.
  - replace (x + h - x) with h by ring. eapply Rlt_le_trans; [exact H1|apply Rmin_r].
Qed.

Lemma lim_eq f x d d' : d = d' -> derivable_pt_lim f x d -> derivable_pt_lim f x d'.
Proof. intros ->. auto. Qed.

Lemma lim_shift f x d a : derivable_pt_lim f x d -> derivable_pt_lim (fun y => a + f y) x d.
Proof.
  intros H. apply (lim_eq _ _ (0 + d)); [ring|].
  apply (lim_ext (plus_fct (fct_cte a) f)); [reflexivity|]. apply derivable_pt_lim_plus; auto. apply derivable_pt_lim_const.
Qed.

Lemma lim_scal f x d a : derivable_pt_lim f x d -> derivable_pt_lim (fun y => a * f y) x (a * d).
Proof. intros H. apply (lim_ext (mult_real_fct a f)); [reflexivity|]. apply derivable_pt_lim_scal. auto. Qed.

Lemma lim_comp f g x d e : derivable_pt_lim f x d -> derivable_pt_lim g (f x) e -> derivable_pt_lim (fun y => g (f y)) x (e * d).
Proof. intros H1 H2. apply (lim_ext (comp g f)); [reflexivity|]. apply derivable_pt_lim_comp; auto. Qed.

Lemma lim_mult f g x d e : derivable_pt_lim f x d -> derivable_pt_lim g x e -> derivable_pt_lim (fun y => f y * g y) x (d * g x + f x * e).
Proof. intros H1 H2. apply (lim_ext (mult_fct f g)); [reflexivity|]. apply derivable_pt_lim_mult; auto. Qed.

Lemma lim_cont f x d : derivable_pt_lim f x d -> forall eps, 0 < eps -> exists delta, 0 < delta /\ forall y, Rabs (y - x) < delta -> Rabs (f y - f x) < eps.
Proof.
  intros H eps He. assert (C : continuity_pt f x) by (apply derivable_continuous_pt; exists d; exact H).
  destruct (C eps He) as (delta & Hd & Hc). exists delta. split; auto. intros y Hy. destruct (Req_dec x y) as [->|Ne].
  - replace (f y - f y) with 0 by ring. rewrite Rabs_R0. auto.
  - apply (Hc y). split; [split; [exact I|auto]|exact Hy].
Qed.

(** The composition of a function and the sum of functions of single scores. *)
Section Composite.
  Variable n : nat.
  Variable l l1 : nat -> R -> R.
  Variable phi : R -> R.
  Hypothesis Hl : forall i x, (i < n)%nat -> derivable_pt_lim (l i) x (l1 i x).

  Definition total (s : list R) : R := sumR n (fun i => l i (nth i s 0)).
  Definition composite (s : list R) : R := phi (total s).

  Lemma total_upd s c x : length s = n -> (c < n)%nat -> total (upd s c x) = total s - l c (nth c s 0) + l c x.
  Proof. intros L Hc. unfold total. rewrite (sumR_upd n l s c x L Hc). ring. Qed.

  Lemma composite_first s c p : length s = n -> (c < n)%nat -> derivable_pt_lim phi (total s) p ->
    partialDerivative composite s c (p * l1 c (nth c s 0)).
  Proof.
    intros L Hc Hp. unfold partialDerivative.
    apply (lim_ext (fun x => phi (total s - l c (nth c s 0) + l c x))).
    - intros y. unfold composite. rewrite total_upd by auto. auto.
    - apply (lim_comp (fun x => total s - l c (nth c s 0) + l c x) phi).
      + apply lim_shift. auto.
      + replace (total s - l c (nth c s 0) + l c (nth c s 0)) with (total s) by ring. auto.
  Qed.

  Lemma composite_second s r c phi1 p2 l2 eps : length s = n -> (c < n)%nat -> (r < n)%nat -> 0 < eps ->
    (forall u, Rabs (u - total s) < eps -> derivable_pt_lim phi u (phi1 u)) -> derivable_pt_lim phi1 (total s) p2 ->
    (r = c -> derivable_pt_lim (l1 c) (nth c s 0) l2) ->
    partialDerivative2 composite s r c
      (p2 * l1 r (nth r s 0) * l1 c (nth c s 0) + (if (r =? c)%nat then phi1 (total s) * l2 else 0)).
  Proof.
    intros L Hc Hr He H1 H2 Hl2.
    destruct (lim_cont (l r) (nth r s 0) (l1 r (nth r s 0)) (Hl r _ Hr) eps He) as (delta & Hd & HD).
    exists (fun y => phi1 (total s - l r (nth r s 0) + l r y) * l1 c (nth c (upd s r y) 0)), delta. split; [auto|]. split.
    - intros y Hy. rewrite <- total_upd by auto. apply composite_first; [rewrite upd_length; auto|auto|].
      apply H1. rewrite total_upd by auto. replace (total s - l r (nth r s 0) + l r y - total s) with (l r y - l r (nth r s 0)) by ring. auto.
    - set (u := fun y => total s - l r (nth r s 0) + l r y).
      assert (Eu : u (nth r s 0) = total s) by (unfold u; ring).
      assert (Du : derivable_pt_lim (fun y => phi1 (u y)) (nth r s 0) (p2 * l1 r (nth r s 0))).
      { apply (lim_comp u phi1); [unfold u; apply lim_shift; auto|]. rewrite Eu. auto. }
      destruct (Nat.eqb_spec r c) as [->|Ne].
      + apply (lim_ext (fun y => phi1 (u y) * l1 c y)).
        { intros y. rewrite nth_upd_R by lia. rewrite Nat.eqb_refl. auto. }
        eapply lim_eq; [|apply lim_mult; [exact Du|apply Hl2; auto]]. cbv beta; unfold u in *; rewrite Eu; ring.
      + apply (lim_ext (fun y => l1 c (nth c s 0) * phi1 (u y))).
        { intros y. rewrite nth_upd_R by lia. destruct (Nat.eqb_spec r c); [contradiction|]. unfold u. ring. }
        eapply lim_eq; [|apply lim_scal; exact Du]. ring.
  Qed.
End Composite.

(** ** Loops *)
Lemma storeTerms_spec {T} (d : T) term scores truth gradients :
  length scores = length truth -> length gradients = length truth ->
  exists g, storeTerms term scores truth gradients = Some (g, sumR (length truth) (fun i => term (nth i truth d) (nth i scores 0))) /\
    length g = length truth /\ (forall i, (i < length truth)%nat -> nth i g 0 = term (nth i truth d) (nth i scores 0)).
Proof.
  intros LS LG. unfold storeTerms.
  match goal with |- context[forN ?m ?s ?f ?z] => destruct (forN_inv (fun j (st : list R * R) =>
    length (fst st) = length truth /\ snd st = sumR j (fun i => term (nth i truth d) (nth i scores 0)) /\
    (forall i, (i < j)%nat -> nth i (fst st) 0 = term (nth i truth d) (nth i scores 0))) f m s z) as ((g, t) & E & L & S & V) end.
  - split; [auto|]. split; [reflexivity|]. intros; lia.
  - intros j (g, t) Hj (L & S & V). cbn [fst snd] in *.
    rewrite (BoostEvaluation.aget_nth scores j 0), (BoostEvaluation.aget_nth truth j d) by lia.
    rewrite aset_Some by lia. eexists. split; [reflexivity|]. cbn [fst snd]. rewrite upd_length. split; [auto|]. split; [simpl; rewrite S; auto|].
    intros i Hi. rewrite nth_upd_R by lia. destruct (Nat.eqb_spec j i) as [->|]; auto. apply V. lia.
  - cbn [fst snd] in *. rewrite E. exists g. simpl in S. rewrite S. auto.
Qed.

Lemma writeDecomposable_spec {T} (d : T) statistics scores truth gradients hessians :
  length scores = length truth -> length gradients = length truth -> length hessians = length truth ->
  exists g h, writeDecomposable statistics scores truth gradients hessians = Some (g, h) /\
    length g = length truth /\ length h = length truth /\
    (forall i, (i < length truth)%nat ->
       (nth i g 0, nth i h 0) = statistics (nth i truth d) (nth i scores 0) (nth i gradients 0)).
Proof.
  intros LS LG LH. unfold writeDecomposable.
  match goal with |- context[forN ?m ?s ?f ?z] => destruct (forN_inv (fun j (st : list R * list R) =>
    length (fst st) = length truth /\ length (snd st) = length truth /\
    (forall i, (i < j)%nat -> (nth i (fst st) 0, nth i (snd st) 0) = statistics (nth i truth d) (nth i scores 0) (nth i gradients 0)) /\
    (forall i, (j <= i)%nat -> nth i (fst st) 0 = nth i gradients 0)) f m s z) as ((g, h) & E & L1 & L2 & V & _) end.
  - split; [auto|]. split; [auto|]. split; [intros; lia|]. auto.
  - intros j (g, h) Hj (L1 & L2 & V & W). cbn [fst snd] in *.
    rewrite (BoostEvaluation.aget_nth scores j 0), (BoostEvaluation.aget_nth truth j d), (BoostEvaluation.aget_nth g j 0) by lia.
    rewrite (W j) by lia. destruct (statistics (nth j truth d) (nth j scores 0) (nth j gradients 0)) as (a, b) eqn:Es.
    rewrite !aset_Some by lia. eexists. split; [reflexivity|]. cbn [fst snd]. rewrite !upd_length. split; [auto|]. split; [auto|]. split.
    + intros i Hi. rewrite !nth_upd_R by lia. destruct (Nat.eqb_spec j i) as [->|]; [auto|]. apply V. lia.
    + intros i Hi. rewrite nth_upd_R by lia. destruct (Nat.eqb_spec j i); [lia|]. apply W. lia.
  - cbn [fst snd] in *. exists g, h. auto.
Qed.

Lemma writeNonDecomposable_spec {T} (d : T) statistics offDiagonal scores truth gradients hessians :
  length scores = length truth -> length gradients = length truth -> length hessians = tri (length truth) ->
  exists g h, writeNonDecomposable statistics offDiagonal scores truth gradients hessians = Some (g, h) /\
    length g = length truth /\ length h = tri (length truth) /\
    (forall i, (i < length truth)%nat ->
       (nth i g 0, nth (tri i + i) h 0) = statistics (nth i truth d) (nth i scores 0) (nth i gradients 0)) /\
    (forall i j, (i < length truth)%nat -> (j < i)%nat ->
       nth (tri i + j) h 0 = offDiagonal (nth i truth d) (nth i scores 0)
         (fst (statistics (nth i truth d) (nth i scores 0) (nth i gradients 0))) (nth j truth d) (nth j scores 0)).
Proof.
  intros LS LG LH. unfold writeNonDecomposable. set (n := length truth) in *.
  set (st := fun i => statistics (nth i truth d) (nth i scores 0) (nth i gradients 0)).
  set (off := fun i j => offDiagonal (nth i truth d) (nth i scores 0) (fst (st i)) (nth j truth d) (nth j scores 0)).
  match goal with |- context[forN ?m ?s ?f ?z] => destruct (forN_inv (fun j (x : list R * list R * nat) =>
    length (fst (fst x)) = n /\ length (snd (fst x)) = tri n /\ snd x = tri j /\
    (forall i, (i < j)%nat -> (nth i (fst (fst x)) 0, nth (tri i + i) (snd (fst x)) 0) = st i) /\
    (forall i r, (i < j)%nat -> (r < i)%nat -> nth (tri i + r) (snd (fst x)) 0 = off i r) /\
    (forall i, (j <= i)%nat -> nth i (fst (fst x)) 0 = nth i gradients 0)) f m s z) as (((g, h), k) & E & L1 & L2 & _ & V & O & _) end.
  - cbn [fst snd]. split; [auto|]. split; [auto|]. split; [reflexivity|]. split; [intros; lia|]. split; [intros; lia|]. auto.
  - intros i ((g, h), k) Hi (L1 & L2 & K & V & O & W). cbn [fst snd] in *. subst k.
    assert (Hi' : (i < n)%nat) by lia.
    rewrite (BoostEvaluation.aget_nth scores i 0), (BoostEvaluation.aget_nth truth i d), (BoostEvaluation.aget_nth g i 0) by (fold n; lia).
    rewrite (W i) by lia. fold (st i). destruct (st i) as (a, b) eqn:Es.
    pose proof (tri_S i) as TS. pose proof (BoostNonDecomposable.tri_mono (S i) n ltac:(lia)) as TM.
    match goal with |- context[forN i 0 ?f ?z] => destruct (forN_inv (fun j (x : list R * nat) =>
      length (fst x) = tri n /\ snd x = (tri i + j)%nat /\
      (forall q, (q < tri i)%nat -> nth q (fst x) 0 = nth q h 0) /\
      (forall r, (r < j)%nat -> nth (tri i + r) (fst x) 0 = off i r)) f i 0 z) as ((h', k') & E' & L2' & K' & W' & O') end.
    + cbn [fst snd]. split; [auto|]. split; [lia|]. split; [auto|]. intros; lia.
    + intros j (h', k') Hj (L2' & K' & W' & O'). cbn [fst snd] in *. subst k'.
      rewrite (BoostEvaluation.aget_nth scores j 0), (BoostEvaluation.aget_nth truth j d) by (fold n; lia).
      rewrite aset_Some by lia. eexists. split; [reflexivity|]. cbn [fst snd]. rewrite upd_length. split; [auto|]. split; [lia|]. split.
      * intros q Hq. rewrite nth_upd_R by lia. destruct (Nat.eqb_spec (tri i + j) q); [lia|]. auto.
      * intros r Hr. rewrite nth_upd_R by lia. destruct (Nat.eqb_spec (tri i + j) (tri i + r)) as [Eq|Ne].
        { assert (r = j) by lia. subst r. unfold off. rewrite Es. auto. }
        { apply O'. lia. }
    + cbn [fst snd] in *. rewrite E'. subst k'. simpl in O'. rewrite !aset_Some by lia. eexists. split; [reflexivity|]. cbn [fst snd]. rewrite !upd_length.
      simpl. split; [auto|]. split; [auto|]. split; [rewrite TS; lia|]. split; [|split].
      * intros q Hq. rewrite !nth_upd_R by lia. destruct (Nat.eqb_spec i q) as [->|Ne].
        { rewrite Nat.eqb_refl. auto. }
        { pose proof (BoostNonDecomposable.tri_mono (S q) i ltac:(lia)). rewrite tri_S in H.
          destruct (Nat.eqb_spec (tri i + i) (tri q + q)); [lia|]. rewrite W' by lia. apply V. lia. }
      * intros q r Hq Hr. rewrite nth_upd_R by lia. destruct (Nat.eq_dec i q) as [->|Ne].
        { destruct (Nat.eqb_spec (tri q + q) (tri q + r)); [lia|]. apply O'. lia. }
        { pose proof (BoostNonDecomposable.tri_mono (S q) i ltac:(lia)). rewrite tri_S in H.
          destruct (Nat.eqb_spec (tri i + i) (tri q + r)); [lia|]. rewrite W' by lia. apply O; lia. }
      * intros q Hq. rewrite nth_upd_R by lia. destruct (Nat.eqb_spec i q); [lia|]. apply W. lia.
  - cbn [fst snd] in *. rewrite E. exists g, h. split; [auto|]. split; [auto|]. split; [auto|]. split; [auto|]. auto.
Qed.

Lemma forN_sum (F : nat -> R) n body a : (forall i x, (i < n)%nat -> body i x = Some (x + F i)) ->
  forN n 0 body a = Some (a + sumR n F).
Proof.
  intros H. destruct (forN_inv (fun j (x : R) => x = a + sumR j F) body n 0 a) as (x & E & ->).
  - simpl. ring.
  - intros i x Hi ->. rewrite H by lia. eexists. split; [reflexivity|]. simpl. ring.
  - exact E.
Qed.

(** ** The exponential function *)
Definition exponential (e : R -> R) : Prop := forall x, x <= 0 -> e x = exp x.

Lemma exp_opp x : exp (- x) = / exp x. Proof. apply exp_Ropp. Qed.

Lemma logistic_form e x : exponential e -> logisticFunction e x = / (1 + exp (- x)).
Proof.
  intros E. unfold logisticFunction. destruct (Rlt_dec x 0).
  - rewrite E by lra. rewrite exp_opp. pose proof (exp_pos x). field. split; lra.
  - rewrite E by lra. unfold Rdiv. ring.
Qed.

Lemma squared_logistic_form e x : exponential e -> squaredLogisticFunction e x = / (1 + exp (- x)) * / (1 + exp (- x)).
Proof.
  intros E. unfold squaredLogisticFunction. destruct (Rlt_dec x 0).
  - rewrite E by lra. rewrite exp_opp. pose proof (exp_pos x). field. split; lra.
  - rewrite E by lra. pose proof (exp_pos (- x)). field. lra.
Qed.

Lemma logSumExp_form e x : exponential e -> logSumExp e x = ln (1 + exp x).
Proof.
  intros E. unfold logSumExp. destruct (Rgt_dec x 0).
  - rewrite E by lra. rewrite <- (ln_exp x) at 1. rewrite <- ln_mult; [|apply exp_pos|].
    + f_equal. rewrite Rmult_plus_distr_l, <- exp_plus. replace (x + (0 - x)) with 0 by ring. rewrite exp_0. ring.
    + pose proof (exp_pos (0 - x)). lra.
  - rewrite E by lra. auto.
Qed.

Lemma logistic_function :
  forall e : R -> R, (forall x, x <= 0 -> e x = exp x) ->
  forall x, logisticFunction e x = 1 / (1 + exp (- x)) /\ 0 < logisticFunction e x < 1 /\
    logisticFunction e (- x) = 1 - logisticFunction e x /\ (forall y, x < y -> logisticFunction e x < logisticFunction e y).
Proof.
  intros e E x. rewrite !logistic_form by auto. pose proof (exp_pos (- x)) as P. split; [unfold Rdiv; ring|]. split; [|split].
  - split; [apply Rinv_0_lt_compat; lra|]. rewrite <- Rinv_1 at 2. apply Rinv_lt_contravar; lra.
  - rewrite Ropp_involutive. rewrite (exp_opp x). pose proof (exp_pos x). field. split; lra.
  - intros y Hy. rewrite (logistic_form e y) by auto. apply Rinv_lt_contravar.
    + pose proof (exp_pos (- y)). apply Rmult_lt_0_compat; lra.
    + assert (exp (- y) < exp (- x)) by (apply exp_increasing; lra). lra.
Qed.

(** ** Derivatives of elementary functions *)
Lemma lim_id x : derivable_pt_lim (fun y => y) x 1. Proof. apply (lim_ext id); [reflexivity|]. apply derivable_pt_lim_id. Qed.

Lemma lim_exp_scal a x : derivable_pt_lim (fun y => exp (a * y)) x (a * exp (a * x)).
Proof.
  eapply lim_eq; [|apply (lim_comp (fun y => a * y) exp)].
  - rewrite Rmult_comm. reflexivity.
  - eapply lim_eq; [|apply lim_scal; apply lim_id]. ring.
  - apply derivable_pt_lim_exp.
Qed.

Lemma lim_ln1 u : -1 < u -> derivable_pt_lim (fun y => ln (1 + y)) u (/ (1 + u)).
Proof.
  intros H. eapply lim_eq; [|apply (lim_comp (fun y => 1 + y) ln)].
  - apply Rmult_1_r.
  - apply lim_shift, lim_id.
  - apply derivable_pt_lim_ln. lra.
Qed.

Lemma lim_inv f x d : f x <> 0 -> derivable_pt_lim f x d -> derivable_pt_lim (fun y => / f y) x (- d / (f x * f x)).
Proof.
  intros N H. apply (lim_ext (div_fct (fct_cte 1) f)).
  - intros y. unfold div_fct, fct_cte, Rdiv. ring.
  - eapply lim_eq; [|apply derivable_pt_lim_div; [apply derivable_pt_lim_const|exact H|exact N]]. unfold fct_cte, Rsqr. field. auto.
Qed.

Lemma lim_inv1 u : -1 < u -> derivable_pt_lim (fun y => / (1 + y)) u (- (/ (1 + u) * / (1 + u))).
Proof.
  intros H. eapply lim_eq; [|apply (lim_inv (fun y => 1 + y) u 1); [lra|apply lim_shift, lim_id]]. field. lra.
Qed.

Lemma lim_sqrt u : 0 < u -> derivable_pt_lim sqrt u (/ (2 * sqrt u)).
Proof. apply derivable_pt_lim_sqrt. Qed.

Lemma lim_inv_sqrt u : 0 < u -> derivable_pt_lim (fun y => / (2 * sqrt y)) u (- / (4 * (u * sqrt u))).
Proof.
  intros H. pose proof (sqrt_lt_R0 u H) as P. eapply lim_eq; [|apply (lim_inv (fun y => 2 * sqrt y) u (2 * / (2 * sqrt u)))].
  - pose proof (sqrt_sqrt u ltac:(lra)) as Q. replace (2 * sqrt u * (2 * sqrt u)) with (4 * (sqrt u * sqrt u)) by ring. rewrite Q. field. split; lra.
  - lra.
  - apply lim_scal. apply lim_sqrt. auto.
Qed.

Lemma pow15_form u : 0 < u -> pow15 u = u * sqrt u.
Proof.
  intros H. unfold pow15. destruct (Rlt_dec 0 u); [|lra]. replace (3 / 2) with (1 + / 2) by lra.
  rewrite Rpower_plus, Rpower_1, Rpower_sqrt by auto. auto.
Qed.

(** The square of the positive part of a number. *)
Lemma lim_pos x : derivable_pt_lim (fun y => Rmax y 0 * Rmax y 0) x (2 * Rmax x 0).
Proof.
  intros eps He. exists (mkposreal eps He). intros h Hh Hl. simpl in Hl.
  set (N := Rmax (x + h) 0 * Rmax (x + h) 0 - Rmax x 0 * Rmax x 0 - 2 * Rmax x 0 * h).
  assert (B : 0 <= N <= h * h).
  { unfold N. assert (0 <= h * h) by (apply Rle_0_sqr). assert (0 <= (x + h) * (x + h)) by (apply Rle_0_sqr).
    unfold Rmax. destruct (Rle_dec (x + h) 0), (Rle_dec x 0); split; nra. }
  replace ((Rmax (x + h) 0 * Rmax (x + h) 0 - Rmax x 0 * Rmax x 0) / h - 2 * Rmax x 0) with (N / h) by (unfold N; field; auto).
  apply Rle_lt_trans with (Rabs h); [|auto]. unfold Rdiv. rewrite Rabs_mult, (Rabs_right N) by lra. rewrite Rabs_inv.
  assert (0 < Rabs h) by (apply Rabs_pos_lt; auto). apply Rmult_le_reg_r with (Rabs h); [auto|].
  rewrite Rmult_assoc, Rinv_l, Rmult_1_r by lra. rewrite <- Rabs_mult. rewrite Rabs_right by (apply Rle_ge, Rle_0_sqr). lra.
Qed.

Definition hinge1 (label : bool) (x : R) : R := if label then -2 * Rmax (1 - x) 0 else 2 * Rmax x 0.

Lemma lim_hinge label x : derivable_pt_lim (hinge label) x (hinge1 label x).
Proof.
  destruct label; simpl.
  - eapply lim_eq; [|apply (lim_comp (fun y => 1 - y) (fun y => Rmax y 0 * Rmax y 0) x (-1) (2 * Rmax (1 - x) 0))].
    + simpl. ring.
    + apply (lim_ext (fun y => 1 + -1 * y)); [intros; ring|]. apply lim_shift. eapply lim_eq; [|apply lim_scal, lim_id]. ring.
    + apply lim_pos.
  - apply lim_pos.
Qed.

Lemma lim_hinge1 label x : violatesMargin label x -> derivable_pt_lim (hinge1 label) x 2.
Proof.
  destruct label; simpl; intros H.
  - apply (lim_ext_loc (fun y => -2 + 2 * y) _ _ _ (1 - x)); [lra| |].
    + intros y Hy. apply Rabs_def2 in Hy. cbv beta iota delta [hinge1]. rewrite Rmax_left by lra. ring.
    + eapply lim_eq; [|apply lim_shift, lim_scal, lim_id]. ring.
  - apply (lim_ext_loc (fun y => 2 * y) _ _ _ x); [lra| |].
    + intros y Hy. apply Rabs_def2 in Hy. cbv beta iota delta [hinge1]. rewrite Rmax_left by lra. ring.
    + eapply lim_eq; [|apply lim_scal, lim_id]. ring.
Qed.

(** ** Decomposable loss functions *)
Lemma logistic_derivative label x : derivable_pt_lim (fun y => ln (1 + exp (- expected label * y))) x
  (- expected label * / (1 + exp (expected label * x))).
Proof.
  pose proof (exp_pos (- expected label * x)) as P.
  eapply lim_eq; [|apply (lim_comp (fun y => exp (- expected label * y)) (fun y => ln (1 + y)))].
  2: apply lim_exp_scal. 2: apply lim_ln1; lra.
  cbv beta. replace (expected label * x) with (- (- expected label * x)) by ring. rewrite (exp_opp (- expected label * x)).
  field. split; lra.
Qed.

Lemma logistic_derivative2 label x : derivable_pt_lim (fun y => - expected label * / (1 + exp (expected label * y))) x
  (/ (1 + exp (- x)) - / (1 + exp (- x)) * / (1 + exp (- x))).
Proof.
  pose proof (exp_pos (expected label * x)) as P.
  eapply lim_eq; [|apply lim_scal; apply (lim_inv (fun y => 1 + exp (expected label * y)))].
  2: { cbv beta; lra. } 2: apply lim_shift, lim_exp_scal.
  cbv beta. pose proof (exp_pos x). rewrite (exp_opp x). destruct label; unfold expected in *.
  - replace (1 * x) with x in * by ring. field. split; lra.
  - replace (-1 * x) with (- x) in * by ring. rewrite (exp_opp x) in *. field. split; lra.
Qed.

Lemma logistic_evaluate e label x : exponential e -> evaluateLogistic e label x = ln (1 + exp (- expected label * x)).
Proof. intros E. unfold evaluateLogistic. rewrite logSumExp_form by auto. destruct label; unfold expected; do 3 f_equal; ring. Qed.

Lemma logistic_gradient e label x : exponential e ->
  updateLogistic e label x = (- expected label * / (1 + exp (expected label * x)), / (1 + exp (- x)) - / (1 + exp (- x)) * / (1 + exp (- x))).
Proof.
  intros E. unfold updateLogistic. rewrite squared_logistic_form, logistic_form by auto. f_equal.
  destruct label; unfold expected.
  - replace (1 * x) with x by ring. rewrite exp_opp. pose proof (exp_pos x). field. split; lra.
  - replace (-1 * x) with (- x) by ring. pose proof (exp_pos (- x)). field. lra.
Qed.

Lemma logistic_loss :
  forall e : R -> R, (forall x, x <= 0 -> e x = exp x) -> forall label score,
    evaluateLogistic e label score = ln (1 + exp (- expected label * score)) /\
    firstDerivative (evaluateLogistic e label) score (fst (updateLogistic e label score)) /\
    secondDerivative (evaluateLogistic e label) score (snd (updateLogistic e label score)).
Proof.
  intros e E label x. rewrite logistic_gradient by auto. cbn [fst snd]. split; [apply logistic_evaluate; auto|]. split.
  - apply (lim_ext (fun y => ln (1 + exp (- expected label * y)))); [intros; rewrite logistic_evaluate; auto|]. apply logistic_derivative.
  - exists (fun y => - expected label * / (1 + exp (expected label * y))), 1. split; [lra|]. split.
    + intros y _. apply (lim_ext (fun y => ln (1 + exp (- expected label * y)))); [intros; rewrite logistic_evaluate; auto|]. apply logistic_derivative.
    + apply logistic_derivative2.
Qed.

Lemma hinge_evaluate label x : evaluateSquaredHinge label x = hinge label x.
Proof.
  unfold evaluateSquaredHinge, hinge. destruct label.
  - destruct (Rlt_dec x 1); [rewrite Rmax_left by lra; auto|rewrite Rmax_right by lra; ring].
  - destruct (Rgt_dec x 0); [rewrite Rmax_left by lra; auto|rewrite Rmax_right by lra; ring].
Qed.

Lemma squared_hinge_loss :
  forall label score,
    evaluateSquaredHinge label score = hinge label score /\
    firstDerivative (evaluateSquaredHinge label) score (2 * fst (updateSquaredHinge label score)) /\
    (violatesMargin label score -> secondDerivative (evaluateSquaredHinge label) score (2 * snd (updateSquaredHinge label score))).
Proof.
  intros label x. split; [apply hinge_evaluate|]. split.
  - apply (lim_ext (hinge label)); [intros; rewrite hinge_evaluate; auto|]. eapply lim_eq; [|apply lim_hinge].
    unfold hinge1, updateSquaredHinge. destruct label; cbn [fst].
    + destruct (Rlt_dec x 1); [rewrite Rmax_left by lra; ring|rewrite Rmax_right by lra; ring].
    + destruct (Rgt_dec x 0); [rewrite Rmax_left by lra; ring|rewrite Rmax_right by lra; ring].
  - intros V. exists (hinge1 label), 1. split; [lra|]. split.
    + intros y _. apply (lim_ext (hinge label)); [intros; rewrite hinge_evaluate; auto|]. apply lim_hinge.
    + eapply lim_eq; [|apply lim_hinge1; auto]. unfold updateSquaredHinge. cbn [snd]. ring.
Qed.

Lemma squared_error_lim t x : derivable_pt_lim (evaluateSquaredErrorRegression t) x (2 * (x - t)).
Proof.
  apply (lim_ext (fun y => (y - t) * (y - t))); [intros y; unfold evaluateSquaredErrorRegression; ring|].
  assert (D : derivable_pt_lim (fun y => y - t) x 1).
  { apply (lim_ext (fun y => - t + y)); [intros; ring|]. apply lim_shift, lim_id. }
  eapply lim_eq; [|apply (lim_mult (fun y => y - t) (fun y => y - t) x 1 1); exact D]. cbv beta. ring.
Qed.

Lemma squared_error_lim2 t x : derivable_pt_lim (fun y => 2 * (y - t)) x 2.
Proof.
  apply (lim_ext (fun y => - (2 * t) + 2 * y)); [intros; ring|]. eapply lim_eq; [|apply lim_shift, lim_scal, lim_id]. ring.
Qed.

Lemma squared_error_loss :
  forall score,
    (forall truth : R,
       evaluateSquaredErrorRegression truth score = (truth - score) * (truth - score) /\
       firstDerivative (evaluateSquaredErrorRegression truth) score (2 * fst (updateSquaredErrorRegression truth score)) /\
       secondDerivative (evaluateSquaredErrorRegression truth) score (2 * snd (updateSquaredErrorRegression truth score))) /\
    (forall label : bool,
       evaluateSquaredErrorClassification label score = (expected label - score) * (expected label - score) /\
       firstDerivative (evaluateSquaredErrorClassification label) score (2 * fst (updateSquaredErrorClassification label score)) /\
       secondDerivative (evaluateSquaredErrorClassification label) score (2 * snd (updateSquaredErrorClassification label score))).
Proof.
  intros x. assert (G : forall t, evaluateSquaredErrorRegression t x = (t - x) * (t - x) /\
       firstDerivative (evaluateSquaredErrorRegression t) x (2 * fst (updateSquaredErrorRegression t x)) /\
       secondDerivative (evaluateSquaredErrorRegression t) x (2 * snd (updateSquaredErrorRegression t x))).
  { intros t. split; [reflexivity|]. split; [apply squared_error_lim|]. exists (fun y => 2 * (y - t)), 1. split; [lra|]. split.
    - intros y _. apply squared_error_lim.
    - eapply lim_eq; [|apply squared_error_lim2]. simpl. ring. }
  split; [exact G|]. intros label. exact (G (expected label)).
Qed.

Lemma squared_hinge_gradient_refuted :
  exists label score, evaluateSquaredHinge label score = hinge label score /\
    ~ firstDerivative (evaluateSquaredHinge label) score (fst (updateSquaredHinge label score)).
Proof.
  exists true, 0. split; [apply hinge_evaluate|]. intros H.
  pose proof (proj1 (proj2 (squared_hinge_loss true 0))) as H2. pose proof (uniqueness_limite _ _ _ _ H H2) as E.
  unfold updateSquaredHinge in E. destruct (Rlt_dec 0 1); cbn [fst] in E; lra.
Qed.

Lemma squared_hinge_hessian_refuted :
  exists label score, secondDerivative (evaluateSquaredHinge label) score 0 /\ snd (updateSquaredHinge label score) = 1.
Proof.
  exists true, 2. split; [|reflexivity]. exists (hinge1 true), 1. split; [lra|]. split.
  - intros y _. apply (lim_ext (hinge true)); [intros; rewrite hinge_evaluate; auto|]. apply lim_hinge.
  - apply (lim_ext_loc (fct_cte 0) _ _ _ 1); [lra| |apply derivable_pt_lim_const].
    intros y Hy. apply Rabs_def2 in Hy. unfold fct_cte, hinge1. rewrite Rmax_right by lra. ring.
Qed.

Lemma squared_error_gradient_refuted :
  exists truth score, ~ firstDerivative (evaluateSquaredErrorRegression truth) score (fst (updateSquaredErrorRegression truth score)).
Proof.
  exists 1, 0. intros H. pose proof (uniqueness_limite _ _ _ _ H (squared_error_lim 1 0)) as E. simpl in E. lra.
Qed.

(** ** Arrays of statistics *)
Lemma updatePartial_spec {T} (d : T) update scores (truth : list T) indices gradients hessians n :
  length scores = n -> length truth = n -> length gradients = n -> length hessians = n -> Forall (fun i => (i < n)%nat) indices ->
  exists g h, updatePartial update scores truth indices gradients hessians = Some (g, h) /\ length g = n /\ length h = n /\
    (forall j, In j indices -> (nth j g 0, nth j h 0) = update (nth j truth d) (nth j scores 0)) /\
    (forall j, ~ In j indices -> (nth j g 0, nth j h 0) = (nth j gradients 0, nth j hessians 0)).
Proof.
  intros L1 L2 L3 L4 B. unfold updatePartial.
  match goal with |- context[forN ?m ?s ?f ?z] => destruct (forN_inv (fun k (st : list R * list R) =>
    length (fst st) = n /\ length (snd st) = n /\
    (forall j, In j (firstn k indices) -> (nth j (fst st) 0, nth j (snd st) 0) = update (nth j truth d) (nth j scores 0)) /\
    (forall j, ~ In j (firstn k indices) -> (nth j (fst st) 0, nth j (snd st) 0) = (nth j gradients 0, nth j hessians 0))) f m s z)
    as ((g, h) & E & G1 & G2 & I & U) end.
  - simpl. split; [auto|]. split; [auto|]. split; [intros j []|auto].
  - intros k (g, h) Hk (G1 & G2 & I & U). cbn [fst snd] in *.
    destruct (nth_error indices k) as [index|] eqn:Ek; [|apply nth_error_None in Ek; lia].
    assert (Hi : (index < n)%nat) by (rewrite Forall_forall in B; apply B; eapply nth_error_In; eauto).
    unfold aget at 1. rewrite Ek.
    rewrite (BoostEvaluation.aget_nth truth index d), (BoostEvaluation.aget_nth scores index 0) by lia.
    destruct (update (nth index truth d) (nth index scores 0)) as (a, b) eqn:Eu.
    rewrite !aset_Some by lia. eexists. split; [reflexivity|]. cbn [fst snd]. rewrite !upd_length. split; [auto|]. split; [auto|].
    assert (F : firstn (S k) indices = firstn k indices ++ [index]).
    { clear -Ek. revert k Ek. induction indices as [|q l IH]; intros [|k] Ek; simpl in *; try discriminate; [congruence|]. f_equal. apply IH; auto. }
    split; intros j Hj; rewrite F in Hj; rewrite !nth_upd_R by lia.
    + destruct (Nat.eqb_spec index j) as [->|Ne]; [auto|]. apply I. rewrite in_app_iff in Hj. simpl in Hj. tauto.
    + rewrite in_app_iff in Hj. simpl in Hj. destruct (Nat.eqb_spec index j) as [->|Ne]; [tauto|]. apply U. tauto.
  - cbn [fst snd] in *. simpl in I, U; rewrite firstn_all in I, U. exists g, h. auto.
Qed.

Lemma updateComplete_spec {T} (d : T) update scores (truth : list T) m gradients hessians n :
  length scores = n -> length truth = n -> length gradients = n -> length hessians = n -> (m <= n)%nat ->
  exists g h, updateComplete update scores truth m gradients hessians = Some (g, h) /\ length g = n /\ length h = n /\
    (forall j, (j < m)%nat -> (nth j g 0, nth j h 0) = update (nth j truth d) (nth j scores 0)) /\
    (forall j, (m <= j)%nat -> (nth j g 0, nth j h 0) = (nth j gradients 0, nth j hessians 0)).
Proof.
  intros L1 L2 L3 L4 B.
  destruct (updatePartial_spec d update scores truth (seq 0 m) gradients hessians n L1 L2 L3 L4) as (g & h & E & G1 & G2 & I & U).
  { rewrite Forall_forall. intros i Hi. apply in_seq in Hi. lia. }
  exists g, h. split; [|split; [auto|split; [auto|split]]].
  - rewrite <- E. unfold updateComplete, updatePartial. rewrite seq_length. apply forN_ext. intros i [a b] Hi.
    unfold aget at 3. rewrite (nth_error_nth' (seq 0 m) 0%nat) by (rewrite seq_length; lia). rewrite seq_nth by lia. reflexivity.
  - intros j Hj. apply I. apply in_seq. lia.
  - intros j Hj. apply U. rewrite in_seq. lia.
Qed.

Lemma evaluateMean_spec {T} (d : T) evaluate scores (truth : list T) :
  length scores = length truth ->
  evaluateMean evaluate scores truth (length truth) =
    Some (sumR (length truth) (fun i => evaluate (nth i truth d) (nth i scores 0)) / INR (length truth)).
Proof.
  intros L. unfold evaluateMean.
  match goal with |- context[forN ?m ?s ?f ?z] => destruct (forN_inv (fun k (mean : R) =>
    INR k * mean = sumR k (fun i => evaluate (nth i truth d) (nth i scores 0)) /\ (k = 0%nat -> mean = 0)) f m s z) as (mean & E & SM & Z) end.
  - simpl. split; [ring|auto].
  - intros i mean Hi (SM & _). rewrite (BoostEvaluation.aget_nth scores i 0), (BoostEvaluation.aget_nth truth i d) by lia.
    eexists. split; [reflexivity|]. split; [|lia]. simpl sumR. rewrite <- SM. replace (i + 1)%nat with (S i) by lia.
    rewrite S_INR. pose proof (pos_INR i). field. lra.
  - rewrite E. simpl in SM. f_equal. destruct (length truth) as [|n] eqn:En.
    + simpl. rewrite Z by auto. unfold Rdiv. ring.
    + rewrite <- SM. rewrite <- En in *. field. apply not_0_INR. lia.
Qed.

Lemma partial_update :
  forall (T : Type) (d : T) (update : T -> R -> R * R) scores (truth : list T) indices gradients hessians n,
    length scores = n -> length truth = n -> length gradients = n -> length hessians = n -> Forall (fun i => (i < n)%nat) indices ->
    exists gradients' hessians', updatePartial update scores truth indices gradients hessians = Some (gradients', hessians') /\
      length gradients' = n /\ length hessians' = n /\
      forall j, (j < n)%nat ->
        (nth j gradients' 0, nth j hessians' 0) =
          (if in_dec Nat.eq_dec j indices then update (nth j truth d) (nth j scores 0) else (nth j gradients 0, nth j hessians 0)).
Proof.
  intros T d update scores truth indices gradients hessians n L1 L2 L3 L4 B.
  destruct (updatePartial_spec d update scores truth indices gradients hessians n L1 L2 L3 L4 B) as (g & h & E & G1 & G2 & I & U).
  exists g, h. split; [auto|]. split; [auto|]. split; [auto|]. intros j Hj. destruct (in_dec Nat.eq_dec j indices); auto.
Qed.

Lemma complete_update :
  forall (T : Type) (d : T) (update : T -> R -> R * R) scores (truth : list T) gradients hessians n,
    length scores = n -> length truth = n -> length gradients = n -> length hessians = n ->
    exists gradients' hessians', updateComplete update scores truth n gradients hessians = Some (gradients', hessians') /\
      length gradients' = n /\ length hessians' = n /\
      forall j, (j < n)%nat -> (nth j gradients' 0, nth j hessians' 0) = update (nth j truth d) (nth j scores 0).
Proof.
  intros T d update scores truth gradients hessians n L1 L2 L3 L4.
  destruct (updateComplete_spec d update scores truth n gradients hessians n L1 L2 L3 L4 (Nat.le_refl n)) as (g & h & E & G1 & G2 & I & U).
  exists g, h. auto.
Qed.

Lemma partial_update_regression_refuted :
  exists scores truth indices gradients hessians n gradients' hessians',
    length scores = n /\ length truth = n /\ length gradients = n /\ length hessians = n /\ Forall (fun i => (i < n)%nat) indices /\
    updatePartialRegression updateSquaredErrorRegression scores truth indices gradients hessians = Some (gradients', hessians') /\
    (exists j, In j indices /\ nth j gradients' 0 <> fst (updateSquaredErrorRegression (nth j truth 0) (nth j scores 0))) /\
    (exists j, ~ In j indices /\ nth j gradients' 0 <> nth j gradients 0).
Proof.
  exists [3; 5], [0; 0], [1%nat], [1; 1], [1; 1], 2%nat, [3 - 0; 1], [1; 1].
  split; [reflexivity|]. split; [reflexivity|]. split; [reflexivity|]. split; [reflexivity|]. split; [repeat constructor|]. split; [reflexivity|]. split.
  - exists 1%nat. split; [simpl; auto|]. simpl. lra.
  - exists 0%nat. split; [simpl; lia|]. simpl. lra.
Qed.

Lemma evaluation_mean :
  forall (T : Type) (d : T) (evaluate : T -> R -> R) scores (truth : list T), length scores = length truth ->
    evaluateMean evaluate scores truth (length truth) =
      Some (sumR (length truth) (fun i => evaluate (nth i truth d) (nth i scores 0)) / INR (length truth)).
Proof. intros. apply evaluateMean_spec; auto. Qed.

(** ** The non-decomposable logistic loss *)
Section LogisticND.
  Variable e : R -> R.
  Variable labels : list bool.
  Variable scores : list R.
  Hypothesis LS : length scores = length labels.
  Let n := length labels.
  Let sg (i : nat) : R := - expected (nth i labels true).
  Let xs (i : nat) : R := sg i * nth i scores 0.

  Lemma xs_form i : (if nth i labels true then - nth i scores 0 else nth i scores 0) = xs i.
  Proof. unfold xs, sg, expected. destruct (nth i labels true); ring. Qed.

  Lemma first_loop gradients : length gradients = n ->
    exists g max max2,
      forN (length labels) 0 (fun c '(gradients, max, max2) =>
        let* predictedScore := aget scores c in
        let* trueLabel := aget labels c in
        let x := if trueLabel then - predictedScore else predictedScore in
        let* gradients := aset gradients c x in
        Some (if Rgt_dec x max then (gradients, x, max)
          else if Rgt_dec x max2 then (gradients, max, x) else (gradients, max, max2))) (gradients, 0, 0) = Some (g, max, max2) /\
      length g = n /\ (forall i, (i < n)%nat -> nth i g 0 = xs i) /\ 0 <= max2 <= max /\ (forall i, (i < n)%nat -> xs i <= max) /\
      (forall i j, (i < n)%nat -> (j < n)%nat -> i <> j -> xs i + xs j <= max + max2).
  Proof.
    intros LG.
    match goal with |- context[forN ?m ?s ?f ?z] => destruct (forN_inv (fun k (st : list R * R * R) =>
      length (fst (fst st)) = n /\ (forall i, (i < k)%nat -> nth i (fst (fst st)) 0 = xs i) /\ 0 <= snd st <= snd (fst st) /\
      (forall i, (i < k)%nat -> xs i <= snd (fst st)) /\
      (forall i j, (i < k)%nat -> (j < k)%nat -> i <> j -> xs i + xs j <= snd (fst st) + snd st)) f m s z) as (((g, mx), m2) & E & L & V & B & M & P) end.
    - cbn [fst snd]. split; [auto|]. split; [intros; lia|]. split; [lra|]. split; [intros; lia|intros; lia].
    - intros k ((g, mx), m2) Hk (L & V & B & M & P). cbn [fst snd] in *.
      rewrite (BoostEvaluation.aget_nth scores k 0), (BoostEvaluation.aget_nth labels k true) by lia. cbv zeta. rewrite xs_form.
      rewrite aset_Some by (fold n in Hk; lia).
      assert (V' : forall i, (i < S k)%nat -> nth i (upd g k (xs k)) 0 = xs i).
      { intros i Hi. rewrite nth_upd_R by (fold n in Hk; lia). destruct (Nat.eqb_spec k i) as [->|]; auto. apply V. lia. }
      assert (step : forall mx' m2', 0 <= m2' <= mx' -> mx <= mx' -> xs k <= mx' -> mx + m2 <= mx' + m2' -> xs k + mx <= mx' + m2' ->
        length (upd g k (xs k)) = n /\ (forall i, (i < S k)%nat -> nth i (upd g k (xs k)) 0 = xs i) /\ 0 <= m2' <= mx' /\
        (forall i, (i < S k)%nat -> xs i <= mx') /\ (forall i j, (i < S k)%nat -> (j < S k)%nat -> i <> j -> xs i + xs j <= mx' + m2')).
      { intros mx' m2' B' A1 A2 A3 A4. rewrite upd_length. split; [auto|]. split; [auto|]. split; [auto|]. split.
        - intros i Hi. destruct (Nat.eq_dec i k) as [->|]; [auto|]. specialize (M i ltac:(lia)). lra.
        - intros i j Hi Hj Ne. destruct (Nat.eq_dec i k) as [->|Ni].
          + specialize (M j ltac:(lia)). lra.
          + destruct (Nat.eq_dec j k) as [->|Nj].
            * specialize (M i ltac:(lia)). lra.
            * specialize (P i j ltac:(lia) ltac:(lia) Ne). lra. }
      destruct (Rgt_dec (xs k) mx); [|destruct (Rgt_dec (xs k) m2)]; (eexists; split; [reflexivity|]); cbn [fst snd]; apply step; lra.
    - cbn [fst snd] in *. exists g, mx, m2. split; [exact E|]. split; [auto|]. split; [auto|]. split; [auto|]. split; [auto|auto].
  Qed.

  Definition D : R := sumR n (fun i => exp (xs i)).

  Lemma D_nonneg : 0 <= D. Proof. apply sumR_nonneg. intros. left. apply exp_pos. Qed.

  Lemma sum_shift m : exp (0 - m) + sumR n (fun i => exp (xs i - m)) = exp (- m) * (1 + D).
  Proof.
    unfold D. rewrite Rmult_plus_distr_l, <- sumR_scale. f_equal.
    - rewrite Rmult_1_r. f_equal. ring.
    - apply sumR_ext. intros i _. rewrite <- exp_plus. f_equal. ring.
  Qed.

  Lemma ratio_shift m x : divideOrZero (exp (x - m)) (exp (- m) * (1 + D)) = exp x / (1 + D).
  Proof.
    pose proof D_nonneg. pose proof (exp_pos (- m)). unfold divideOrZero.
    destruct (Req_EM_T (exp (- m) * (1 + D)) 0) as [Z|_].
    - exfalso. assert (0 < exp (- m) * (1 + D)) by (apply Rmult_lt_0_compat; lra). lra.
    - replace (x - m) with (- m + x) by ring. rewrite exp_plus. field. split; lra.
  Qed.

  (** The gradients and Hessians, if the exponential function is exact. *)
  Lemma update_logistic_nd_form gradients hessians : exponential e -> length gradients = n -> length hessians = tri n ->
    exists g h, updateLogisticND e scores labels gradients hessians = Some (g, h) /\ length g = n /\ length h = tri n /\
      (forall c, (c < n)%nat -> nth c g 0 = sg c * (exp (xs c) / (1 + D)) /\
         nth (tri c + c) h 0 = exp (xs c) / (1 + D) * (1 - exp (xs c) / (1 + D)) /\
         (forall r, (r < c)%nat -> nth (tri c + r) h 0 = - (sg c * sg r * (exp (xs c) * exp (xs r)) / ((1 + D) * (1 + D))))).
  Proof.
    intros HE LG LH. unfold updateLogisticND.
    destruct (first_loop gradients LG) as (g1 & mx & m2 & E1 & L1 & V1 & B & M & P). cbv zeta in E1 |- *. rewrite E1. clear E1.
    match goal with |- context[forN ?m ?s ?f ?z] => destruct (forN_inv (fun k (st : R * R) =>
      fst st = exp (0 - mx) + sumR k (fun i => exp (xs i - mx)) /\
      snd st = exp (0 - (m2 + mx)) + sumR k (fun i => exp (xs i - (m2 + mx)))) f m s z) as ((s1, s2) & E2 & S1 & S2) end.
    { cbn [fst snd]. simpl. rewrite !HE by lra. split; ring. }
    { intros k (s1, s2) Hk (S1 & S2). cbn [fst snd] in *. rewrite (BoostEvaluation.aget_nth g1 k 0) by (fold n in Hk; lia).
      rewrite V1 by (fold n in Hk; lia). specialize (M k ltac:(fold n in Hk; lia)). rewrite !HE by lra. eexists. split; [reflexivity|]. cbn [fst snd].
      rewrite S1, S2. simpl. split; ring. }
    cbn [fst snd] in *. rewrite E2. clear E2. simpl in S1, S2. fold n in S1, S2. rewrite sum_shift in S1, S2. rewrite HE by lra.
    match goal with |- context[writeNonDecomposable ?st ?off _ _ _ _] =>
      destruct (writeNonDecomposable_spec true st off scores labels g1 hessians LS L1 LH) as (g & h & E & G1 & G2 & G3 & G4) end.
    exists g, h. split; [exact E|]. split; [auto|]. split; [auto|]. intros c Hc.
    specialize (G3 c Hc). specialize (fun r H => G4 c r Hc H).
    assert (Esg : (if nth c labels true then -1 else 1) = sg c) by (unfold sg, expected; destruct (nth c labels true); ring).
    rewrite Esg in *. replace (nth c scores 0 * sg c) with (xs c) in * by (unfold xs; ring).
    unfold updateGradientAndHessian in G3. cbv zeta in G3. rewrite HE in G3 by (specialize (M c Hc); lra). rewrite S1, ratio_shift in G3.
    injection G3 as G3a G3b. split; [auto|]. split; [auto|]. intros r Hr. rewrite (G4 r Hr). cbv zeta.
    replace (nth r scores 0 * - (if nth r labels true then 1 else -1)) with (xs r) by (unfold xs, sg, expected; destruct (nth r labels true); ring).
    replace (if nth r labels true then 1 else -1) with (- sg r) by (unfold sg, expected; destruct (nth r labels true); ring).
    rewrite HE by (specialize (P c r Hc ltac:(lia) ltac:(lia)); lra). rewrite S2. rewrite !ratio_shift. rewrite exp_plus, exp_0.
    pose proof D_nonneg. field. lra.
  Qed.

  Lemma update_decomposable_logistic_nd_form gradients hessians : exponential e -> length gradients = n -> length hessians = n ->
    exists g h, updateDecomposableLogisticND e scores labels gradients hessians = Some (g, h) /\ length g = n /\ length h = n /\
      (forall c, (c < n)%nat -> nth c g 0 = sg c * (exp (xs c) / (1 + D)) /\
         nth c h 0 = exp (xs c) / (1 + D) * (1 - exp (xs c) / (1 + D))).
  Proof.
    intros HE LG LH. unfold updateDecomposableLogisticND.
    match goal with |- context[forN ?m ?s ?f (gradients, 0)] => destruct (forN_inv (fun k (st : list R * R) =>
      length (fst st) = n /\ (forall i, (i < k)%nat -> nth i (fst st) 0 = xs i) /\ 0 <= snd st /\
      (forall i, (i < k)%nat -> xs i <= snd st)) f m s (gradients, 0)) as ((g1, mx) & E1 & L1 & V1 & B & M) end.
    { cbn [fst snd]. split; [auto|]. split; [intros; lia|]. split; [lra|intros; lia]. }
    { intros k (g, mx) Hk (L & V & B & M). cbn [fst snd] in *.
      rewrite (BoostEvaluation.aget_nth scores k 0), (BoostEvaluation.aget_nth labels k true) by lia. cbv zeta. rewrite xs_form.
      rewrite aset_Some by (fold n in Hk; lia). eexists. split; [reflexivity|]. cbn [fst snd]. rewrite upd_length. split; [auto|]. split; [|split].
      - intros i Hi. rewrite nth_upd_R by (fold n in Hk; lia). destruct (Nat.eqb_spec k i) as [->|]; auto. apply V. lia.
      - destruct (Rgt_dec (xs k) mx); lra.
      - intros i Hi. destruct (Nat.eq_dec i k) as [->|]; [destruct (Rgt_dec (xs k) mx); lra|]. specialize (M i ltac:(lia)). destruct (Rgt_dec (xs k) mx); lra. }
    cbn [fst snd] in *. rewrite E1. clear E1. cbv beta iota. simpl in M, V1.
    rewrite (forN_sum (fun i => exp (xs i - mx))).
    2: { intros i x Hi. rewrite (BoostEvaluation.aget_nth g1 i 0) by (fold n in Hi; lia). rewrite V1 by auto. rewrite HE by (specialize (M i Hi); lra). auto. }
    rewrite HE by lra. fold n. rewrite sum_shift.
    match goal with |- context[writeDecomposable ?st _ _ _ _] =>
      destruct (writeDecomposable_spec true st scores labels g1 hessians LS L1 LH) as (g & h & E & G1 & G2 & G3) end.
    exists g, h. split; [exact E|]. split; [auto|]. split; [auto|]. intros c Hc. specialize (G3 c Hc).
    assert (Esg : (if nth c labels true then -1 else 1) = sg c) by (unfold sg, expected; destruct (nth c labels true); ring).
    rewrite Esg in *. replace (nth c scores 0 * sg c) with (xs c) in * by (unfold xs; ring).
    unfold updateGradientAndHessian in G3. cbv zeta in G3. rewrite HE in G3 by (specialize (M c Hc); lra). rewrite ratio_shift in G3.
    injection G3 as G3a G3b. auto.
  Qed.

  Lemma evaluate_logistic_nd_form : exponential e -> evaluateLogisticND e scores labels = Some (ln (1 + D)).
  Proof.
    intros HE. unfold evaluateLogisticND.
    match goal with |- context[forN ?m ?s ?f 0] => destruct (forN_inv (fun k (mx : R) => 0 <= mx /\
      (forall i, (i < k)%nat -> xs i <= mx)) f m s 0) as (mx & E1 & B & M) end.
    { split; [lra|intros; lia]. }
    { intros k mx Hk (B & M). rewrite (BoostEvaluation.aget_nth scores k 0), (BoostEvaluation.aget_nth labels k true) by lia. cbv zeta. rewrite xs_form.
      eexists. split; [reflexivity|]. split; [destruct (Rgt_dec (xs k) mx); lra|].
      intros i Hi. destruct (Nat.eq_dec i k) as [->|]; [destruct (Rgt_dec (xs k) mx); lra|]. specialize (M i ltac:(lia)). destruct (Rgt_dec (xs k) mx); lra. }
    rewrite E1. clear E1. cbv beta iota. simpl in M.
    rewrite (forN_sum (fun i => exp (xs i - mx))).
    2: { intros i x Hi. rewrite (BoostEvaluation.aget_nth scores i 0), (BoostEvaluation.aget_nth labels i true) by lia. cbv zeta. rewrite xs_form.
         rewrite HE by (specialize (M i Hi); lra). auto. }
    rewrite HE by lra. fold n. rewrite sum_shift. f_equal. pose proof D_nonneg.
    rewrite ln_mult; [|apply exp_pos|lra]. rewrite ln_exp. ring.
  Qed.

  (** If large negative arguments of the exponential function result in zero. *)
  Lemma underflow_form gradients hessians c r : (r < c)%nat -> (c < n)%nat -> length gradients = n -> length hessians = tri n ->
    (forall x, x < -746 -> e x = 0) -> (forall i, (i < n)%nat -> xs i = 800) ->
    exists g h, updateLogisticND e scores labels gradients hessians = Some (g, h) /\ nth (tri c + r) h 0 = 0.
  Proof.
    intros Hr Hc LG LH HE HX. unfold updateLogisticND.
    destruct (first_loop gradients LG) as (g1 & mx & m2 & E1 & L1 & V1 & B & M & P). cbv zeta in E1 |- *. rewrite E1. clear E1.
    specialize (P c r Hc ltac:(lia) ltac:(lia)). rewrite !HX in P by lia.
    match goal with |- context[forN ?m ?s ?f ?z] => destruct (forN_inv (fun k (st : R * R) => snd st = 0) f m s z) as ((s1, s2) & E2 & S2) end.
    { cbn [snd]. apply HE. lra. }
    { intros k (s1, s2) Hk S2. cbn [fst snd] in *. rewrite (BoostEvaluation.aget_nth g1 k 0) by (fold n in Hk; lia).
      rewrite V1 by (fold n in Hk; lia). rewrite HX by (fold n in Hk; lia). eexists. split; [reflexivity|]. cbn [snd]. rewrite S2, (HE (800 - (m2 + mx))) by lra. ring. }
    cbn [snd] in S2. rewrite E2. clear E2. subst s2.
    match goal with |- context[writeNonDecomposable ?st ?off _ _ _ _] =>
      destruct (writeNonDecomposable_spec true st off scores labels g1 hessians LS L1 LH) as (g & h & E & G1 & G2 & G3 & G4) end.
    exists g, h. split; [exact E|]. rewrite (G4 c r Hc Hr). cbv zeta. unfold divideOrZero. destruct (Req_EM_T 0 0); [ring|contradiction].
  Qed.
End LogisticND.

Definition logisticLoss (labels : list bool) (scores : list R) : R :=
  ln (1 + sumR (length labels) (fun i => exp (- expected (nth i labels true) * nth i scores 0))).

Lemma logistic_nd_first labels scores c : length scores = length labels -> (c < length labels)%nat ->
  partialDerivative (logisticLoss labels) scores c
    (- expected (nth c labels true) * (exp (- expected (nth c labels true) * nth c scores 0) / (1 + D labels scores))).
Proof.
  intros LS Hc.
  pose proof (composite_first (length labels) (fun i x => exp (- expected (nth i labels true) * x))
    (fun i x => - expected (nth i labels true) * exp (- expected (nth i labels true) * x)) (fun u => ln (1 + u))
    (fun i x _ => lim_exp_scal _ x) scores c (/ (1 + D labels scores)) LS Hc) as H.
  pose proof (D_nonneg labels scores). eapply lim_eq; [|apply H; apply lim_ln1; unfold total; fold (D labels scores); lra].
  cbv beta. unfold Rdiv. ring.
Qed.

Lemma logistic_nd_second labels scores r c : length scores = length labels -> (c < length labels)%nat -> (r < length labels)%nat ->
  let E i := exp (- expected (nth i labels true) * nth i scores 0) in
  partialDerivative2 (logisticLoss labels) scores r c
    (if (r =? c)%nat then E c / (1 + D labels scores) * (1 - E c / (1 + D labels scores))
     else - (- expected (nth c labels true) * - expected (nth r labels true) * (E c * E r) / ((1 + D labels scores) * (1 + D labels scores)))).
Proof.
  intros LS Hc Hr E.
  set (T := total (length labels) (fun i x => exp (- expected (nth i labels true) * x)) scores).
  assert (ET : T = D labels scores) by reflexivity.
  pose proof (D_nonneg labels scores) as P. rewrite <- ET in P.
  pose proof (composite_second (length labels) (fun i x => exp (- expected (nth i labels true) * x))
    (fun i x => - expected (nth i labels true) * exp (- expected (nth i labels true) * x)) (fun u => ln (1 + u))
    (fun i x _ => lim_exp_scal _ x) scores r c (fun u => / (1 + u)) (- (/ (1 + T) * / (1 + T)))
    (- expected (nth c labels true) * (- expected (nth c labels true) * E c)) 1 LS Hc Hr ltac:(lra)) as H.
  fold T in H. cbv beta in H.
  destruct H as (f' & delta & H1 & H2 & H3).
  - intros u Hu. apply lim_ln1. apply Rabs_def2 in Hu. lra.
  - apply lim_inv1. lra.
  - intros _. apply lim_scal. apply lim_exp_scal.
  - exists f', delta. split; [auto|]. split; [exact H2|]. eapply lim_eq; [|exact H3]. fold (E c) (E r).
    rewrite <- ET. destruct (Nat.eqb_spec r c) as [->|Ne].
    + destruct (nth c labels true); unfold expected; field; lra.
    + field. lra.
Qed.

Lemma tri_form c : tri c = (c * (c + 1) / 2)%nat. Proof. reflexivity. Qed.

Lemma non_decomposable_logistic_loss :
  forall e : R -> R, (forall x, x <= 0 -> e x = exp x) -> forall labels scores gradients hessians n,
    length labels = n -> length scores = n -> length gradients = n -> length hessians = (n * (n + 1) / 2)%nat ->
    let f s := ln (1 + sumR n (fun i => exp (- expected (nth i labels true) * nth i s 0))) in
    computes n (fun s => evaluateLogisticND e s labels) f /\
    exists gradients' hessians', updateLogisticND e scores labels gradients hessians = Some (gradients', hessians') /\
      length gradients' = n /\ length hessians' = (n * (n + 1) / 2)%nat /\
      forall c, (c < n)%nat -> partialDerivative f scores c (nth c gradients' 0) /\
        forall r, (r <= c)%nat -> partialDerivative2 f scores r c (nth (c * (c + 1) / 2 + r) hessians' 0).
Proof.
  intros e HE labels scores gradients hessians n <- LS LG LH f. split.
  - intros s Hs. apply (evaluate_logistic_nd_form e labels s Hs HE).
  - destruct (update_logistic_nd_form e labels scores LS gradients hessians HE LG LH) as (g & h & E & G1 & G2 & G3).
    exists g, h. split; [auto|]. split; [auto|]. split; [auto|]. intros c Hc. destruct (G3 c Hc) as (V1 & V2 & V3). split.
    + rewrite V1. apply (logistic_nd_first labels scores c LS Hc).
    + intros r Hr. rewrite <- tri_form. pose proof (logistic_nd_second labels scores r c LS Hc ltac:(lia)) as H. cbv zeta in H.
      destruct (Nat.eqb_spec r c) as [->|Ne].
      * rewrite V2. exact H.
      * rewrite V3 by lia. exact H.
Qed.

Lemma non_decomposable_logistic_loss_diagonal :
  forall e : R -> R, (forall x, x <= 0 -> e x = exp x) -> forall labels scores gradients hessians n,
    length labels = n -> length scores = n -> length gradients = n -> length hessians = n ->
    let f s := ln (1 + sumR n (fun i => exp (- expected (nth i labels true) * nth i s 0))) in
    exists gradients' hessians', updateDecomposableLogisticND e scores labels gradients hessians = Some (gradients', hessians') /\
      length gradients' = n /\ length hessians' = n /\
      forall c, (c < n)%nat -> partialDerivative f scores c (nth c gradients' 0) /\ partialDerivative2 f scores c c (nth c hessians' 0).
Proof.
  intros e HE labels scores gradients hessians n <- LS LG LH f.
  destruct (update_decomposable_logistic_nd_form e labels scores LS gradients hessians HE LG LH) as (g & h & E & G1 & G2 & G3).
  exists g, h. split; [auto|]. split; [auto|]. split; [auto|]. intros c Hc. destruct (G3 c Hc) as (V1 & V2). split.
  - rewrite V1. apply (logistic_nd_first labels scores c LS Hc).
  - pose proof (logistic_nd_second labels scores c c LS Hc Hc) as H. cbv zeta in H. rewrite Nat.eqb_refl in H. rewrite V2. exact H.
Qed.

Lemma partialDerivative2_unique f scores r c d1 d2 :
  partialDerivative2 f scores r c d1 -> partialDerivative2 f scores r c d2 -> d1 = d2.
Proof.
  intros (f1 & e1 & P1 & D1 & L1) (f2 & e2 & P2 & D2 & L2).
  apply (uniqueness_limite f1 (nth r scores 0)); [exact L1|]. apply (lim_ext_loc f2 f1 _ _ (Rmin e1 e2)); [apply Rmin_pos; auto| |exact L2].
  intros y Hy. symmetry. eapply uniqueness_limite.
  - apply D1. eapply Rlt_le_trans; [exact Hy|apply Rmin_l].
  - apply D2. eapply Rlt_le_trans; [exact Hy|apply Rmin_r].
Qed.

Lemma logistic_underflow_refuted :
  let e x := if Rlt_dec x (-746) then 0 else exp x in
  exists labels scores gradients' hessians' d,
    updateLogisticND e scores labels [0; 0] [0; 0; 0] = Some (gradients', hessians') /\
    partialDerivative2 (fun s => ln (1 + sumR 2 (fun i => exp (- expected (nth i labels true) * nth i s 0)))) scores 0 1 d /\
    nth 1 hessians' 0 = 0 /\ d < -1 / 9.
Proof.
  intros e.
  exists [true; true], [-800; -800].
  destruct (underflow_form e [true; true] [-800; -800] eq_refl [0; 0] [0; 0; 0] 1 0) as (g & h & E & Z).
  - lia.
  - simpl. lia.
  - reflexivity.
  - reflexivity.
  - intros x Hx. unfold e. destruct (Rlt_dec x (-746)); lra.
  - intros i Hi. simpl in Hi. destruct i as [|[|i]]; [| |lia]; simpl; lra.
  - pose proof (logistic_nd_second [true; true] [-800; -800] 0 1 eq_refl ltac:(simpl; lia) ltac:(simpl; lia)) as H. cbv zeta in H.
    exists g, h. eexists. split; [exact E|]. split; [exact H|]. split; [exact Z|].
    unfold D. simpl. replace (- (1) * -800) with 800 by ring. pose proof (exp_ineq1 800 ltac:(lra)) as P. set (q := exp 800) in *. clearbody q.
    apply Rmult_lt_reg_r with ((1 + (0 + q + q)) * (1 + (0 + q + q))); [apply Rmult_lt_0_compat; lra|].
    replace (- (- (1) * - (1) * (q * q) / ((1 + (0 + q + q)) * (1 + (0 + q + q)))) * ((1 + (0 + q + q)) * (1 + (0 + q + q)))) with (- (q * q)) by (field; lra).
    nra.
Qed.

(** ** Loss functions that are square roots of sums *)
Section SqrtND.
  Variable n : nat.
  Variable l l1 : nat -> R -> R.
  Hypothesis Hl : forall i x, (i < n)%nat -> derivable_pt_lim (l i) x (l1 i x).

  Lemma sqrt_first s c : length s = n -> (c < n)%nat -> 0 < total n l s ->
    partialDerivative (composite n l sqrt) s c (l1 c (nth c s 0) / 2 / sqrt (total n l s)).
  Proof.
    intros L Hc P. pose proof (sqrt_lt_R0 _ P). eapply lim_eq; [|apply (composite_first n l l1 sqrt Hl s c _ L Hc (lim_sqrt _ P))]. field. lra.
  Qed.

  Lemma sqrt_second s r c l2 : length s = n -> (c < n)%nat -> (r < n)%nat -> 0 < total n l s ->
    (r = c -> derivable_pt_lim (l1 c) (nth c s 0) l2) ->
    partialDerivative2 (composite n l sqrt) s r c
      ((- (l1 r (nth r s 0) / 2 * (l1 c (nth c s 0) / 2)) + (if (r =? c)%nat then total n l s * (l2 / 2) else 0)) / pow15 (total n l s)).
  Proof.
    intros L Hc Hr P H2. pose proof (sqrt_lt_R0 _ P).
    destruct (composite_second n l l1 sqrt Hl s r c (fun u => / (2 * sqrt u)) (- / (4 * (total n l s * sqrt (total n l s)))) l2 (total n l s) L Hc Hr P)
      as (f' & delta & A & B & C).
    - intros u Hu. apply lim_sqrt. apply Rabs_def2 in Hu. lra.
    - apply lim_inv_sqrt. auto.
    - auto.
    - exists f', delta. split; [auto|]. split; [auto|]. eapply lim_eq; [|exact C]. rewrite pow15_form by auto.
      destruct (r =? c)%nat; field; lra.
  Qed.
End SqrtND.

Lemma pow15_pos u : 0 < u -> 0 < pow15 u.
Proof. intros H. rewrite pow15_form by auto. apply Rmult_lt_0_compat; [auto|apply sqrt_lt_R0; auto]. Qed.

Lemma divideOrZero_pos a b : 0 < b -> divideOrZero a b = a / b.
Proof. intros H. unfold divideOrZero. destruct (Req_EM_T b 0); [lra|auto]. Qed.

(** The squared hinge loss. *)
Lemma hingeTerm_form label x : hingeTerm label x = hinge label x.
Proof.
  unfold hingeTerm, hinge. destruct label.
  - destruct (Rlt_dec x 1); [rewrite Rmax_left by lra; ring|rewrite Rmax_right by lra; ring].
  - destruct (Rgt_dec x 0); [rewrite Rmax_left by lra; auto|rewrite Rmax_right by lra; ring].
Qed.

Definition margin_dec label x : {violatesMargin label x} + {~ violatesMargin label x}.
Proof. destruct label; simpl; [apply Rlt_dec|apply Rlt_dec]. Defined.

Lemma hingeStatistics_gradient D label x : 0 < D ->
  fst (hingeStatistics D (sqrt D) (pow15 D) label x (hinge label x)) = hinge1 label x / 2 / sqrt D.
Proof.
  intros P. pose proof (sqrt_lt_R0 D P). unfold hingeStatistics, hinge1. destruct label.
  - destruct (Rlt_dec x 1); cbn [fst].
    + rewrite divideOrZero_pos by auto. rewrite Rmax_left by lra. field. lra.
    + rewrite Rmax_right by lra. field. lra.
  - destruct (Rgt_dec x 0); cbn [fst].
    + rewrite divideOrZero_pos by auto. rewrite Rmax_left by lra. field. lra.
    + rewrite Rmax_right by lra. field. lra.
Qed.

Lemma hingeStatistics_hessian D label x : 0 < D ->
  snd (hingeStatistics D (sqrt D) (pow15 D) label x (hinge label x)) = if margin_dec label x then (D - hinge label x) / pow15 D else 1.
Proof.
  intros P. pose proof (pow15_pos D P). unfold hingeStatistics. destruct label; simpl.
  - destruct (Rlt_dec x 1); [apply divideOrZero_pos; auto|auto].
  - destruct (Rgt_dec x 0), (Rlt_dec 0 x); try lra; [apply divideOrZero_pos; auto|auto].
Qed.

Lemma hinge1_zero label x : ~ violatesMargin label x -> hinge1 label x = 0.
Proof. destruct label; simpl; intros H; rewrite Rmax_right by lra; ring. Qed.

Lemma hingeOffDiagonal_form D label x g label2 x2 : 0 < D -> g = hinge1 label x / 2 / sqrt D -> (g = 0 \/ / 2 ^ 52 < Rabs g) ->
  hingeOffDiagonal (pow15 D) label x g label2 x2 = - (hinge1 label2 x2 / 2 * (hinge1 label x / 2)) / pow15 D.
Proof.
  intros P Eg Hg. pose proof (pow15_pos D P) as P15. pose proof (sqrt_lt_R0 D P) as PS. unfold hingeOffDiagonal, isEqualToZero.
  assert (E52 : 0 < / 2 ^ 52) by (apply Rinv_0_lt_compat, pow_lt; lra).
  assert (E52' : / 2 ^ 52 < 1) by (rewrite <- Rinv_1; apply Rinv_lt_contravar; [rewrite Rmult_1_l; apply pow_lt; lra|apply Rlt_pow_R1; [lra|lia]]).
  destruct (Rle_dec (Rabs (g - 0)) (/ 2 ^ 52 * Rmax 1 (Rmax (Rabs g) (Rabs 0)))) as [Z|NZ].
  - assert (g = 0).
    { destruct Hg as [|Hg]; auto. exfalso. rewrite Rminus_0_r, Rabs_R0 in Z. pose proof (Rabs_pos g). rewrite (Rmax_left (Rabs g) 0) in Z by lra.
      destruct (Rle_dec (Rabs g) 1).
      - rewrite Rmax_left in Z by lra. lra.
      - rewrite Rmax_right in Z by lra. nra. }
    assert (hinge1 label x = 0).
    { rewrite H in Eg. assert (hinge1 label x = 2 * sqrt D * (hinge1 label x / 2 / sqrt D)) by (field; lra). rewrite <- Eg in H0. lra. }
    rewrite H0. unfold Rdiv. ring.
  - assert (Hv : hinge1 label x <> 0).
    { intros Z. apply NZ. assert (g = 0) by (rewrite Eg, Z; unfold Rdiv; ring). rewrite H. rewrite Rminus_0_r, Rabs_R0.
      pose proof (Rmax_l 1 (Rmax 0 0)). nra. }
    rewrite divideOrZero_pos by auto. f_equal. destruct (margin_dec label x) as [V|V]; [|exfalso; apply Hv, hinge1_zero; auto].
    assert (E1 : hinge1 label x / 2 = if label then x - 1 else x).
    { destruct label; simpl in *; rewrite Rmax_left by lra; field. }
    assert (E2 : hinge1 label2 x2 / 2 = if label2 then if Rlt_dec x2 1 then x2 - 1 else 0 else if Rgt_dec x2 0 then x2 else 0).
    { destruct label2; simpl.
      - destruct (Rlt_dec x2 1); [rewrite Rmax_left by lra; field|rewrite Rmax_right by lra; field].
      - destruct (Rgt_dec x2 0); [rewrite Rmax_left by lra; field|rewrite Rmax_right by lra; field]. }
    rewrite E1, E2. destruct label; ring.
Qed.

Lemma hinge_square label x : hinge1 label x / 2 * (hinge1 label x / 2) = hinge label x.
Proof. unfold hinge1, hinge. destruct label; field. Qed.

Definition hingeLoss (labels : list bool) (scores : list R) : R :=
  sqrt (sumR (length labels) (fun i => hinge (nth i labels true) (nth i scores 0))).

Lemma hinge_storeTerms labels scores gradients : length scores = length labels -> length gradients = length labels ->
  exists g, storeTerms hingeTerm scores labels gradients = Some (g, sumR (length labels) (fun i => hinge (nth i labels true) (nth i scores 0))) /\
    length g = length labels /\ (forall i, (i < length labels)%nat -> nth i g 0 = hinge (nth i labels true) (nth i scores 0)).
Proof.
  intros LS LG. destruct (storeTerms_spec true hingeTerm scores labels gradients LS LG) as (g & E & L & V). exists g.
  rewrite (sumR_ext _ _ (fun i => hinge (nth i labels true) (nth i scores 0))) in E by (intros; apply hingeTerm_form).
  split; [auto|]. split; [auto|]. intros. rewrite V by auto. apply hingeTerm_form.
Qed.

Lemma hinge_evaluate_nd labels scores : length scores = length labels -> evaluateSquaredHingeND scores labels = Some (hingeLoss labels scores).
Proof.
  intros LS. unfold evaluateSquaredHingeND. rewrite (forN_sum (fun i => hinge (nth i labels true) (nth i scores 0))).
  - unfold hingeLoss. do 2 f_equal. ring.
  - intros i x Hi. rewrite (BoostEvaluation.aget_nth scores i 0), (BoostEvaluation.aget_nth labels i true) by lia.
    f_equal. rewrite <- hinge_evaluate. unfold evaluateSquaredHinge. destruct (nth i labels true).
    + destruct (Rlt_dec (nth i scores 0) 1); ring.
    + destruct (Rgt_dec (nth i scores 0) 0); ring.
Qed.

Lemma non_decomposable_squared_hinge_loss :
  forall labels scores gradients hessians n,
    length labels = n -> length scores = n -> length gradients = n -> length hessians = (n * (n + 1) / 2)%nat ->
    let f s := sqrt (sumR n (fun i => hinge (nth i labels true) (nth i s 0))) in
    computes n (fun s => evaluateSquaredHingeND s labels) f /\
    (0 < f scores -> exists gradients' hessians', updateSquaredHingeND scores labels gradients hessians = Some (gradients', hessians') /\
      length gradients' = n /\ length hessians' = (n * (n + 1) / 2)%nat /\
      forall c, (c < n)%nat -> partialDerivative f scores c (nth c gradients' 0) /\
        (violatesMargin (nth c labels true) (nth c scores 0) -> partialDerivative2 f scores c c (nth (c * (c + 1) / 2 + c) hessians' 0)) /\
        (nth c gradients' 0 = 0 \/ / 2 ^ 52 < Rabs (nth c gradients' 0) ->
         forall r, (r < c)%nat -> partialDerivative2 f scores r c (nth (c * (c + 1) / 2 + r) hessians' 0))).
Proof.
  intros labels scores gradients hessians n <- LS LG LH f. split.
  - intros s Hs. apply (hinge_evaluate_nd labels s Hs).
  - intros PF.
    set (T := sumR (length labels) (fun i => hinge (nth i labels true) (nth i scores 0))) in *.
    assert (P : 0 < T).
    { destruct (Rlt_dec 0 T) as [|N]; auto. exfalso. unfold f in PF. fold T in PF. rewrite sqrt_neg_0 in PF by lra. lra. }
    unfold updateSquaredHingeND. destruct (hinge_storeTerms labels scores gradients LS LG) as (g1 & E1 & L1 & V1). rewrite E1. clear E1. fold T.
    match goal with |- context[writeNonDecomposable ?st ?off _ _ _ _] =>
      destruct (writeNonDecomposable_spec true st off scores labels g1 hessians LS L1 LH) as (g & h & E & G1 & G2 & G3 & G4) end.
    exists g, h. split; [exact E|]. split; [auto|]. split; [auto|]. intros c Hc. specialize (G3 c Hc). specialize (fun r H => G4 c r Hc H).
    rewrite (V1 c Hc) in *. rewrite <- tri_form.
    assert (Ga : nth c g 0 = hinge1 (nth c labels true) (nth c scores 0) / 2 / sqrt T).
    { rewrite <- (hingeStatistics_gradient T) by auto. rewrite <- G3. auto. }
    assert (Gb : nth (tri c + c) h 0 = if margin_dec (nth c labels true) (nth c scores 0) then (T - hinge (nth c labels true) (nth c scores 0)) / pow15 T else 1).
    { rewrite <- (hingeStatistics_hessian T) by auto. rewrite <- G3. auto. }
    split; [|split].
    + rewrite Ga. apply (sqrt_first (length labels) (fun i => hinge (nth i labels true)) (fun i => hinge1 (nth i labels true)) (fun i x _ => lim_hinge _ x) scores c LS Hc P).
    + intros V. rewrite Gb. destruct (margin_dec _ _); [|contradiction].
      pose proof (sqrt_second (length labels) (fun i => hinge (nth i labels true)) (fun i => hinge1 (nth i labels true)) (fun i x _ => lim_hinge _ x)
        scores c c 2 LS Hc Hc P (fun _ => lim_hinge1 _ _ V)) as H. cbv beta in H. rewrite Nat.eqb_refl, hinge_square in H.
      destruct H as (f' & delta & A & B & C). exists f', delta. split; [auto|]. split; [exact B|]. eapply lim_eq; [|exact C]. f_equal.
      unfold total. fold T. field.
    + intros Hg r Hr. rewrite (G4 r Hr).
      rewrite (hingeStatistics_gradient T) by auto. rewrite (hingeOffDiagonal_form T); [|auto|auto|rewrite <- Ga; auto].
      pose proof (sqrt_second (length labels) (fun i => hinge (nth i labels true)) (fun i => hinge1 (nth i labels true)) (fun i x _ => lim_hinge _ x)
        scores r c 0 LS Hc ltac:(lia) P ltac:(lia)) as H. cbv beta in H. destruct (Nat.eqb_spec r c); [lia|].
      destruct H as (f' & delta & A & B & C). exists f', delta. split; [auto|]. split; [exact B|]. eapply lim_eq; [|exact C]. f_equal. ring.
Qed.

Lemma non_decomposable_squared_hinge_loss_diagonal :
  forall labels scores gradients hessians n,
    length labels = n -> length scores = n -> length gradients = n -> length hessians = n ->
    let f s := sqrt (sumR n (fun i => hinge (nth i labels true) (nth i s 0))) in
    0 < f scores -> exists gradients' hessians', updateDecomposableSquaredHingeND scores labels gradients hessians = Some (gradients', hessians') /\
      length gradients' = n /\ length hessians' = n /\
      forall c, (c < n)%nat -> partialDerivative f scores c (nth c gradients' 0) /\
        (violatesMargin (nth c labels true) (nth c scores 0) -> partialDerivative2 f scores c c (nth c hessians' 0)).
Proof.
  intros labels scores gradients hessians n <- LS LG LH f PF.
  set (T := sumR (length labels) (fun i => hinge (nth i labels true) (nth i scores 0))) in *.
  assert (P : 0 < T).
  { destruct (Rlt_dec 0 T) as [|N]; auto. exfalso. unfold f in PF. fold T in PF. rewrite sqrt_neg_0 in PF by lra. lra. }
  unfold updateDecomposableSquaredHingeND. destruct (hinge_storeTerms labels scores gradients LS LG) as (g1 & E1 & L1 & V1). rewrite E1. clear E1. fold T.
  match goal with |- context[writeDecomposable ?st _ _ _ _] =>
    destruct (writeDecomposable_spec true st scores labels g1 hessians LS L1 LH) as (g & h & E & G1 & G2 & G3) end.
  exists g, h. split; [exact E|]. split; [auto|]. split; [auto|]. intros c Hc. specialize (G3 c Hc). rewrite (V1 c Hc) in *.
  assert (Ga : nth c g 0 = hinge1 (nth c labels true) (nth c scores 0) / 2 / sqrt T).
  { rewrite <- (hingeStatistics_gradient T) by auto. rewrite <- G3. auto. }
  assert (Gb : nth c h 0 = if margin_dec (nth c labels true) (nth c scores 0) then (T - hinge (nth c labels true) (nth c scores 0)) / pow15 T else 1).
  { rewrite <- (hingeStatistics_hessian T) by auto. rewrite <- G3. auto. }
  split.
  + rewrite Ga. apply (sqrt_first (length labels) (fun i => hinge (nth i labels true)) (fun i => hinge1 (nth i labels true)) (fun i x _ => lim_hinge _ x) scores c LS Hc P).
  + intros V. rewrite Gb. destruct (margin_dec _ _); [|contradiction].
    pose proof (sqrt_second (length labels) (fun i => hinge (nth i labels true)) (fun i => hinge1 (nth i labels true)) (fun i x _ => lim_hinge _ x)
      scores c c 2 LS Hc Hc P (fun _ => lim_hinge1 _ _ V)) as H. cbv beta in H. rewrite Nat.eqb_refl, hinge_square in H.
    destruct H as (f' & delta & A & B & C). exists f', delta. split; [auto|]. split; [exact B|]. eapply lim_eq; [|exact C]. f_equal.
    unfold total. fold T. field.
Qed.

Lemma non_decomposable_squared_hinge_hessian_refuted :
  exists labels scores gradients' hessians' c,
    0 < sqrt (sumR 2 (fun i => hinge (nth i labels true) (nth i scores 0))) /\
    updateSquaredHingeND scores labels [0; 0] [0; 0; 0] = Some (gradients', hessians') /\ (c < 2)%nat /\
    partialDerivative2 (fun s => sqrt (sumR 2 (fun i => hinge (nth i labels true) (nth i s 0)))) scores c c 0 /\
    nth (c * (c + 1) / 2 + c) hessians' 0 = 1.
Proof.
  set (labels := [true; true]). set (scores := [0; 2]).
  assert (ET : sumR 2 (fun i => hinge (nth i labels true) (nth i scores 0)) = 1).
  { simpl. rewrite (Rmax_left (1 - 0) 0), (Rmax_right (1 - 2) 0) by lra. ring. }
  exists labels, scores.
  destruct (hinge_storeTerms labels scores [0; 0] eq_refl eq_refl) as (g1 & E1 & L1 & V1). simpl length in *. rewrite ET in E1.
  destruct (writeNonDecomposable_spec true (hingeStatistics 1 (sqrt 1) (pow15 1)) (hingeOffDiagonal (pow15 1)) scores labels g1 [0; 0; 0] eq_refl L1 eq_refl)
    as (g & h & E & G1 & G2 & G3 & _).
  exists g, h, 1%nat. split; [rewrite ET, sqrt_1; lra|]. split; [|split; [lia|split]].
  - unfold updateSquaredHingeND. rewrite E1. exact E.
  - pose proof (sqrt_second 2 (fun i => hinge (nth i labels true)) (fun i => hinge1 (nth i labels true)) (fun i x _ => lim_hinge _ x)
      scores 1 1 0 eq_refl ltac:(lia) ltac:(lia)) as H. unfold total in H. rewrite ET in H.
    destruct H as (f' & delta & A & B & C); [lra| |].
    + intros _. apply (lim_ext_loc (fct_cte 0) _ _ _ 1); [lra| |apply derivable_pt_lim_const].
      intros y Hy. apply Rabs_def2 in Hy. simpl in Hy. unfold fct_cte, hinge1. simpl. rewrite Rmax_right by lra. ring.
    + exists f', delta. split; [auto|]. split; [exact B|]. eapply lim_eq; [|exact C]. rewrite hinge_square. simpl. rewrite Rmax_right by lra. unfold Rdiv. ring.
  - specialize (G3 1%nat ltac:(simpl; lia)). rewrite (V1 1%nat) in G3 by lia.
    pose proof (hingeStatistics_hessian 1 (nth 1 labels true) (nth 1 scores 0) ltac:(lra)) as H. rewrite <- G3 in H. cbn [snd] in H.
    change (1 * (1 + 1) / 2 + 1)%nat with (tri 1 + 1)%nat. rewrite H. destruct (margin_dec _ _) as [V|]; [simpl in V; lra|auto].
Qed.

(** The squared error. *)
Definition errorLoss {T} (d : T) (conv : T -> R) (truth : list T) (scores : list R) : R :=
  sqrt (sumR (length truth) (fun i => (conv (nth i truth d) - nth i scores 0) * (conv (nth i truth d) - nth i scores 0))).

Lemma error_storeTerms {T} (d : T) conv scores truth gradients :
  length scores = length truth -> length gradients = length truth -> (forall t, In t truth -> conv t * conv t = 1) ->
  exists g, storeTerms (fun groundTruth predictedScore => predictedScore * predictedScore + -2 * conv groundTruth * predictedScore + 1) scores truth gradients =
    Some (g, sumR (length truth) (fun i => (conv (nth i truth d) - nth i scores 0) * (conv (nth i truth d) - nth i scores 0))) /\
    length g = length truth /\
    (forall i, (i < length truth)%nat -> nth i g 0 = (conv (nth i truth d) - nth i scores 0) * (conv (nth i truth d) - nth i scores 0)).
Proof.
  intros LS LG S1.
  destruct (storeTerms_spec d (fun groundTruth predictedScore => predictedScore * predictedScore + -2 * conv groundTruth * predictedScore + 1) scores truth gradients LS LG) as (g & E & L & V).
  assert (Q : forall i, (i < length truth)%nat ->
    nth i scores 0 * nth i scores 0 + -2 * conv (nth i truth d) * nth i scores 0 + 1 = (conv (nth i truth d) - nth i scores 0) * (conv (nth i truth d) - nth i scores 0)).
  { intros i Hi. rewrite <- (S1 (nth i truth d)) by (apply nth_In; auto). ring. }
  exists g. rewrite (sumR_ext _ _ (fun i => (conv (nth i truth d) - nth i scores 0) * (conv (nth i truth d) - nth i scores 0))) in E by (intros; apply Q; auto).
  split; [auto|]. split; [auto|]. intros. rewrite V by auto. apply Q. auto.
Qed.

Lemma error_lim {T} (d : T) conv (truth : list T) i x :
  derivable_pt_lim (fun y => (conv (nth i truth d) - y) * (conv (nth i truth d) - y)) x (2 * (x - conv (nth i truth d))).
Proof. apply squared_error_lim. Qed.

Lemma error_first {T} (d : T) conv (truth : list T) scores c : length scores = length truth -> (c < length truth)%nat ->
  let S := sumR (length truth) (fun i => (conv (nth i truth d) - nth i scores 0) * (conv (nth i truth d) - nth i scores 0)) in
  0 < S -> partialDerivative (errorLoss d conv truth) scores c ((nth c scores 0 - conv (nth c truth d)) / sqrt S).
Proof.
  intros LS Hc S P. eapply lim_eq; [|apply (sqrt_first (length truth) (fun i y => (conv (nth i truth d) - y) * (conv (nth i truth d) - y))
    (fun i y => 2 * (y - conv (nth i truth d))) (fun i x _ => error_lim d conv truth i x) scores c LS Hc P)].
  unfold total. fold S. pose proof (sqrt_lt_R0 S P). field. lra.
Qed.

Lemma error_second {T} (d : T) conv (truth : list T) scores r c : length scores = length truth -> (c < length truth)%nat -> (r < length truth)%nat ->
  let S := sumR (length truth) (fun i => (conv (nth i truth d) - nth i scores 0) * (conv (nth i truth d) - nth i scores 0)) in
  0 < S -> partialDerivative2 (errorLoss d conv truth) scores r c
    ((- ((nth r scores 0 - conv (nth r truth d)) * (nth c scores 0 - conv (nth c truth d))) + (if (r =? c)%nat then S else 0)) / pow15 S).
Proof.
  intros LS Hc Hr S P.
  destruct (sqrt_second (length truth) (fun i y => (conv (nth i truth d) - y) * (conv (nth i truth d) - y))
    (fun i y => 2 * (y - conv (nth i truth d))) (fun i x _ => error_lim d conv truth i x) scores r c 2 LS Hc Hr P) as (f' & delta & A & B & C).
  - intros _. apply squared_error_lim2.
  - exists f', delta. split; [auto|]. split; [exact B|]. eapply lim_eq; [|exact C]. unfold total. fold S. pose proof (pow15_pos S P).
    destruct (r =? c)%nat; field; lra.
Qed.

Lemma error_update {T} (d : T) (conv : T -> R) scores truth gradients hessians :
  length scores = length truth -> length gradients = length truth -> length hessians = tri (length truth) ->
  (forall t, In t truth -> conv t * conv t = 1) -> 0 < errorLoss d conv truth scores ->
  exists g h, updateSquaredErrorND conv scores truth gradients hessians = Some (g, h) /\ length g = length truth /\ length h = tri (length truth) /\
    forall c, (c < length truth)%nat -> partialDerivative (errorLoss d conv truth) scores c (nth c g 0) /\
      forall r, (r <= c)%nat -> partialDerivative2 (errorLoss d conv truth) scores r c (nth (tri c + r) h 0).
Proof.
  intros LS LG LH S1 PF.
  set (S := sumR (length truth) (fun i => (conv (nth i truth d) - nth i scores 0) * (conv (nth i truth d) - nth i scores 0))) in *.
  assert (P : 0 < S).
  { destruct (Rlt_dec 0 S) as [|N]; auto. exfalso. unfold errorLoss in PF. fold S in PF. rewrite sqrt_neg_0 in PF by lra. lra. }
  pose proof (sqrt_lt_R0 S P) as PS. pose proof (pow15_pos S P) as P15.
  unfold updateSquaredErrorND. cbv zeta. destruct (error_storeTerms d conv scores truth gradients LS LG S1) as (g1 & E1 & L1 & V1). rewrite E1. clear E1. fold S.
  match goal with |- context[writeNonDecomposable ?st ?off _ _ _ _] =>
    destruct (writeNonDecomposable_spec d st off scores truth g1 hessians LS L1 LH) as (g & h & E & G1 & G2 & G3 & G4) end.
  exists g, h. split; [exact E|]. split; [auto|]. split; [auto|]. intros c Hc. specialize (G3 c Hc). specialize (fun r H => G4 c r Hc H).
  rewrite (V1 c Hc) in *. rewrite !divideOrZero_pos in G3 by auto. injection G3 as Ga Gb. split.
  - rewrite Ga. apply error_first; auto.
  - intros r Hr. pose proof (error_second d conv truth scores r c LS Hc ltac:(lia) P) as H. fold S in H. destruct (Nat.eqb_spec r c) as [->|Ne].
    + rewrite Gb. destruct H as (f' & delta & A & B & C). exists f', delta. split; [auto|]. split; [exact B|].
      eapply lim_eq; [|exact C]. f_equal. ring.
    + rewrite G4 by lia. rewrite divideOrZero_pos by auto. destruct H as (f' & delta & A & B & C). exists f', delta. split; [auto|]. split; [exact B|].
      eapply lim_eq; [|exact C]. f_equal. ring.
Qed.

Lemma error_update_diagonal {T} (d : T) (toBool : T -> bool) scores truth gradients hessians :
  let conv t := if toBool t then 1 else -1 in
  length scores = length truth -> length gradients = length truth -> length hessians = length truth ->
  0 < errorLoss d conv truth scores ->
  exists g h, updateDecomposableSquaredErrorND toBool scores truth gradients hessians = Some (g, h) /\ length g = length truth /\ length h = length truth /\
    forall c, (c < length truth)%nat -> partialDerivative (errorLoss d conv truth) scores c (nth c g 0) /\
      partialDerivative2 (errorLoss d conv truth) scores c c (nth c h 0).
Proof.
  intros conv LS LG LH PF.
  assert (S1 : forall t, In t truth -> conv t * conv t = 1) by (intros t _; unfold conv; destruct (toBool t); ring).
  set (S := sumR (length truth) (fun i => (conv (nth i truth d) - nth i scores 0) * (conv (nth i truth d) - nth i scores 0))) in *.
  assert (P : 0 < S).
  { destruct (Rlt_dec 0 S) as [|N]; auto. exfalso. unfold errorLoss in PF. fold S in PF. rewrite sqrt_neg_0 in PF by lra. lra. }
  pose proof (sqrt_lt_R0 S P) as PS. pose proof (pow15_pos S P) as P15.
  unfold updateDecomposableSquaredErrorND. cbv zeta. destruct (error_storeTerms d conv scores truth gradients LS LG S1) as (g1 & E1 & L1 & V1).
  unfold conv in E1 at 1. rewrite E1. clear E1. fold S.
  match goal with |- context[writeDecomposable ?st _ _ _ _] =>
    destruct (writeDecomposable_spec d st scores truth g1 hessians LS L1 LH) as (g & h & E & G1 & G2 & G3) end.
  exists g, h. split; [exact E|]. split; [auto|]. split; [auto|]. intros c Hc. specialize (G3 c Hc).
  rewrite (V1 c Hc) in *. rewrite !divideOrZero_pos in G3 by auto. injection G3 as Ga Gb. split.
  - rewrite Ga. exact (error_first d conv truth scores c LS Hc P).
  - pose proof (error_second d conv truth scores c c LS Hc Hc P) as H. fold S in H. rewrite Nat.eqb_refl in H.
    rewrite Gb. destruct H as (f' & delta & A & B & C). exists f', delta. split; [auto|]. split; [exact B|]. eapply lim_eq; [|exact C]. f_equal. ring.
Qed.

Lemma error_evaluate {T} (d : T) (toBool : T -> bool) scores truth : length scores = length truth ->
  evaluateSquaredErrorND toBool scores truth = Some (errorLoss d (fun t => if toBool t then 1 else -1) truth scores).
Proof.
  intros LS. unfold evaluateSquaredErrorND, errorLoss. cbv zeta.
  rewrite (forN_sum (fun i => ((if toBool (nth i truth d) then 1 else -1) - nth i scores 0) * ((if toBool (nth i truth d) then 1 else -1) - nth i scores 0))).
  - do 2 f_equal. ring.
  - intros i x Hi. rewrite (BoostEvaluation.aget_nth scores i 0), (BoostEvaluation.aget_nth truth i d) by lia. auto.
Qed.

Lemma non_decomposable_squared_error_loss :
  forall labels scores gradients hessians n,
    length labels = n -> length scores = n -> length gradients = n -> length hessians = (n * (n + 1) / 2)%nat ->
    let f s := sqrt (sumR n (fun i => (expected (nth i labels true) - nth i s 0) * (expected (nth i labels true) - nth i s 0))) in
    computes n (fun s => evaluateSquaredErrorND (fun label => label) s labels) f /\
    (0 < f scores -> exists gradients' hessians',
      updateSquaredErrorND binaryConversionFunction scores labels gradients hessians = Some (gradients', hessians') /\
      length gradients' = n /\ length hessians' = (n * (n + 1) / 2)%nat /\
      forall c, (c < n)%nat -> partialDerivative f scores c (nth c gradients' 0) /\
        forall r, (r <= c)%nat -> partialDerivative2 f scores r c (nth (c * (c + 1) / 2 + r) hessians' 0)).
Proof.
  intros labels scores gradients hessians n <- LS LG LH f. split.
  - intros s Hs. apply (error_evaluate true (fun label => label) s labels Hs).
  - intros PF. apply (error_update true binaryConversionFunction scores labels gradients hessians LS LG LH); [|exact PF].
    intros [|] _; unfold binaryConversionFunction; ring.
Qed.

Lemma non_decomposable_squared_error_loss_diagonal :
  forall labels scores gradients hessians n,
    length labels = n -> length scores = n -> length gradients = n -> length hessians = n ->
    let f s := sqrt (sumR n (fun i => (expected (nth i labels true) - nth i s 0) * (expected (nth i labels true) - nth i s 0))) in
    0 < f scores -> exists gradients' hessians',
      updateDecomposableSquaredErrorND (fun label => label) scores labels gradients hessians = Some (gradients', hessians') /\
      length gradients' = n /\ length hessians' = n /\
      forall c, (c < n)%nat -> partialDerivative f scores c (nth c gradients' 0) /\ partialDerivative2 f scores c c (nth c hessians' 0).
Proof.
  intros labels scores gradients hessians n <- LS LG LH f PF.
  apply (error_update_diagonal true (fun label => label) scores labels gradients hessians LS LG LH PF).
Qed.

(** Regression problems. *)
Lemma regression_update :
  forall truth scores gradients hessians n,
    length truth = n -> length scores = n -> length gradients = n -> length hessians = (n * (n + 1) / 2)%nat ->
    (forall t, In t truth -> t = 1 \/ t = -1) ->
    let f s := sqrt (sumR n (fun i => (nth i truth 0 - nth i s 0) * (nth i truth 0 - nth i s 0))) in
    0 < f scores -> exists gradients' hessians',
      updateSquaredErrorND scoreConversionFunction scores truth gradients hessians = Some (gradients', hessians') /\
      length gradients' = n /\ length hessians' = (n * (n + 1) / 2)%nat /\
      forall c, (c < n)%nat -> partialDerivative f scores c (nth c gradients' 0) /\
        forall r, (r <= c)%nat -> partialDerivative2 f scores r c (nth (c * (c + 1) / 2 + r) hessians' 0).
Proof.
  intros truth scores gradients hessians n <- LS LG LH H1 f PF.
  apply (error_update 0 scoreConversionFunction scores truth gradients hessians LS LG LH); [|exact PF].
  intros t Ht. unfold scoreConversionFunction. destruct (H1 t Ht) as [->| ->]; ring.
Qed.

Lemma regression_evaluation_refuted :
  exists truth scores loss, scores = truth /\ evaluateSquaredErrorND floatToBool scores truth = Some loss /\ 0 < loss.
Proof.
  exists [5], [5]. eexists. split; [reflexivity|]. split; [apply (error_evaluate 0); reflexivity|].
  unfold errorLoss. simpl. unfold floatToBool. destruct (Req_EM_T 5 0); [lra|]. apply sqrt_lt_R0. lra.
Qed.

Lemma regression_first_derivative truth score d : score < truth ->
  partialDerivative (fun s => sqrt (sumR 1 (fun i => (nth i [truth] 0 - nth i s 0) * (nth i [truth] 0 - nth i s 0)))) [score] 0 d -> d = -1.
Proof.
  intros Hl H. assert (E : partialDerivative (errorLoss 0 (fun t => t) [truth]) [score] 0 (-1)).
  { eapply lim_eq; [|apply error_first; [reflexivity|simpl; lia|simpl; nra]]. simpl.
    replace (0 + (truth - score) * (truth - score)) with ((truth - score) * (truth - score)) by ring. rewrite sqrt_square by lra. field. lra. }
  eapply uniqueness_limite; [exact H|exact E].
Qed.

Lemma regression_gradient_refuted :
  exists truth scores gradients' hessians',
    updateSquaredErrorND scoreConversionFunction scores truth [0] [0] = Some (gradients', hessians') /\ nth 0 gradients' 0 = -5 /\
    forall d, partialDerivative (fun s => sqrt (sumR 1 (fun i => (nth i truth 0 - nth i s 0) * (nth i truth 0 - nth i s 0)))) scores 0 d -> d = -1.
Proof.
  exists [5], [0]. eexists. eexists. split; [reflexivity|]. split; [|intros d; apply regression_first_derivative; lra].
  simpl. unfold scoreConversionFunction. replace (0 + (0 * 0 + -2 * 5 * 0 + 1)) with 1 by ring. rewrite sqrt_1.
  rewrite divideOrZero_pos by lra. lra.
Qed.

Lemma regression_gradient_sign_refuted :
  exists truth scores gradients' hessians',
    updateDecomposableSquaredErrorND floatToBool scores truth [0] [0] = Some (gradients', hessians') /\ nth 0 gradients' 0 = 1 /\
    forall d, partialDerivative (fun s => sqrt (sumR 1 (fun i => (nth i truth 0 - nth i s 0) * (nth i truth 0 - nth i s 0)))) scores 0 d -> d = -1.
Proof.
  exists [5], [3]. eexists. eexists. split; [reflexivity|]. split; [|intros d; apply regression_first_derivative; lra].
  simpl. unfold floatToBool. destruct (Req_EM_T 5 0); [lra|]. replace (0 + (3 * 3 + -2 * 1 * 3 + 1)) with (2 * 2) by ring. rewrite sqrt_square by lra.
  rewrite divideOrZero_pos by lra. lra.
Qed.
