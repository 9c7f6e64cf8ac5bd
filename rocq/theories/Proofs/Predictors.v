(** Proofs about the predictors of binary labels. *)
From Coq Require Import ZArith NArith QArith List Bool Arith Lia Permutation Sorted.
From Verif Require Import Lib.Arr Model.Labels Model.Rules Model.Prediction Model.JointPrediction Model.Predictors.
From Verif Require Import Spec.Labels Spec.Rules Spec.JointPrediction Spec.Predictors.
From Verif Require Import Proofs.Rules Proofs.Prediction Proofs.Labels.
Import ListNotations.
Open Scope nat_scope.

(** ** Transformations *)

Lemma output_wise_dense {V} (d : nat -> V -> bool) (z : V) n :
  writes_labels n (fun scores => map (fun l => d l (nth l scores z)) (seq 0 (length scores))) (applyOutputWise d).
Proof.
  intros scores prediction Hs Hp. unfold applyOutputWise.
  match goal with |- forN ?c ?s ?b ?st = _ =>
    destruct (forN_inv (fun k p => length p = n /\ forall i, i < k -> nth_error p i = Some (d i (nth i scores z))) b c s st) as (p & -> & L & E) end.
  - split; [auto|]. intros; lia.
  - intros j p Hj (L & E). unfold aget. rewrite (nth_error_nth' scores z) by lia. rewrite aset_Some by lia.
    eexists. split; [reflexivity|]. rewrite upd_length. split; [auto|]. intros i Hi. rewrite nth_error_upd.
    destruct (Nat.eqb_spec j i) as [->|].
    + rewrite (proj2 (Nat.ltb_lt _ _)) by lia. reflexivity.
    + apply E. lia.
  - f_equal. apply nth_error_ext. intros i. destruct (Nat.lt_ge_cases i n) as [Hi|Hi].
    + rewrite E by lia. rewrite nth_error_map_seq by lia. reflexivity.
    + transitivity (@None bool); [|symmetry]; apply nth_error_None; rewrite ?map_length, ?seq_length; lia.
Qed.

Lemma filter_map_seq (f : nat -> bool) n : filter (fun l => nth l (map f (seq 0 n)) false) (seq 0 n) = filter f (seq 0 n).
Proof.
  apply filter_ext_in. intros l Hl. apply in_seq in Hl. rewrite (nth_indep _ false (f 0)) by (rewrite map_length, seq_length; lia).
  rewrite map_nth, seq_nth by lia. reflexivity.
Qed.

Lemma relevant_labels_map (f : nat -> bool) n : relevant_labels (map f (seq 0 n)) = filter f (seq 0 n).
Proof. unfold relevant_labels. rewrite map_length, seq_length. apply filter_map_seq. Qed.

Lemma output_wise_sparse {V} (d : nat -> V -> bool) (z : V) n :
  appends_labels n (fun scores => map (fun l => d l (nth l scores z)) (seq 0 (length scores))) (applyOutputWiseSparse d).
Proof.
  intros scores row Hs. unfold applyOutputWiseSparse. rewrite relevant_labels_map.
  match goal with |- forN ?c ?s ?b ?st = _ =>
    destruct (forN_inv (fun k r => r = row ++ filter (fun l => d l (nth l scores z)) (seq 0 k)) b c s st) as (r & -> & E) end.
  - rewrite app_nil_r. reflexivity.
  - intros j r Hj ->. unfold aget. rewrite (nth_error_nth' scores z) by lia. eexists. split; [reflexivity|].
    rewrite seq_S, filter_app, app_assoc. simpl. destruct (d j (nth j scores z)); simpl; rewrite ?app_nil_r; reflexivity.
  - rewrite E. reflexivity.
Qed.

(** ** Loops over examples *)

Section Dispatch.
Context {R P : Type} (rows : nat) (threads : nat -> Prop) (g : nat -> P) (ok : P -> Prop) (inv : list nat -> list R -> Prop).
Variable step : nat -> nat -> list R * list P -> option (list R * list P).
Hypothesis Hstep : forall t i rest real preds p, threads t -> i < rows -> ~ In i rest -> inv (i :: rest) real ->
  nth_error preds i = Some p -> ok p ->
  exists real', step t i (real, preds) = Some (real', upd preds i (g i)) /\ inv rest real'.

Definition written (order : list (nat * nat)) (preds preds' : list P) : Prop :=
  length preds' = length preds /\
  forall i, nth_error preds' i = if in_dec Nat.eq_dec i (map fst order) then Some (g i) else nth_error preds i.

Lemma written_step i t order preds preds' : ~ In i (map fst order) -> i < length preds ->
  written order (upd preds i (g i)) preds' -> written ((i, t) :: order) preds preds'.
Proof.
  intros Hi Hl (L & E). rewrite upd_length in L. split; [auto|]. intros k. rewrite E. cbn [map fst].
  destruct (in_dec Nat.eq_dec k (map fst order)) as [Hk|Hk].
  - destruct (in_dec Nat.eq_dec k (i :: map fst order)) as [_|Hn]; [reflexivity|]. exfalso. apply Hn. right. auto.
  - rewrite nth_error_upd. destruct (Nat.eqb_spec i k) as [->|Hne].
    + rewrite (proj2 (Nat.ltb_lt _ _)) by lia. destruct (in_dec Nat.eq_dec k (k :: map fst order)) as [_|Hn]; [reflexivity|].
      exfalso. apply Hn. left. auto.
    + destruct (in_dec Nat.eq_dec k (i :: map fst order)) as [[Hi'|Hi']|_]; [congruence|contradiction|reflexivity].
Qed.

Lemma dispatch_ok order : forall real preds, NoDup (map fst order) -> Forall (fun '(i, t) => i < rows /\ threads t) order ->
  inv (map fst order) real -> length preds = rows -> (forall i p, In i (map fst order) -> nth_error preds i = Some p -> ok p) ->
  exists real' preds', dispatch step order (real, preds) = Some (real', preds') /\ inv [] real' /\ written order preds preds'.
Proof.
  unfold dispatch. induction order as [|(i, t) order IH]; intros real preds ND F I L O.
  - exists real, preds. split; [reflexivity|]. split; [exact I|]. split; [auto|]. intros. reflexivity.
  - cbn [map fst] in *. inversion ND; subst. inversion F as [|? ? Hit F']; subst. destruct Hit as (Hi & Ht). cbn [forL].
    destruct (nth_error preds i) as [p|] eqn:Ep; [|apply nth_error_None in Ep; lia].
    destruct (Hstep t i (map fst order) real preds p Ht Hi ltac:(auto) I Ep) as (real' & -> & I').
    { apply (O i); [left; reflexivity|auto]. }
    destruct (IH real' (upd preds i (g i))) as (real'' & preds' & -> & I'' & W); auto.
    + rewrite upd_length. auto.
    + intros k q Hk Hq. rewrite nth_error_upd_neq in Hq by (intros ->; contradiction). apply (O k); [right; auto|auto].
    + exists real'', preds'. split; [reflexivity|]. split; [auto|]. apply written_step; [auto|lia|auto].
Qed.

Lemma written_all order preds preds' : Permutation (map fst order) (seq 0 rows) -> length preds = rows ->
  written order preds preds' -> preds' = map g (seq 0 rows).
Proof.
  intros HP L (L' & E). apply nth_error_ext. intros i. destruct (Nat.lt_ge_cases i rows) as [Hi|Hi].
  - rewrite E, nth_error_map_seq by auto. destruct (in_dec Nat.eq_dec i (map fst order)) as [_|Hn]; [reflexivity|].
    exfalso. apply Hn. eapply Permutation_in; [symmetry; exact HP|]. apply in_seq. lia.
  - transitivity (@None P); [|symmetry]; apply nth_error_None; rewrite ?map_length, ?seq_length; lia.
Qed.
End Dispatch.

Lemma sizes_sum {A} (g : nat -> list A) l : N.of_nat (length (concat (map g l))) = fold_right (fun i s => (N.of_nat (length (g i)) + s)%N) 0%N l.
Proof. induction l as [|i l IH]; simpl; [reflexivity|]. rewrite app_length, Nat2N.inj_add, IH. reflexivity. Qed.

Lemma dispatchSparse_ok {R} rows (threads : nat -> Prop) (g : nat -> list nat) (ok : list nat -> Prop) (inv : list nat -> list R -> Prop)
  (step : nat -> nat -> list R * list (list nat) -> option (list R * list (list nat))) :
  (forall t i rest real preds p, threads t -> i < rows -> ~ In i rest -> inv (i :: rest) real ->
     nth_error preds i = Some p -> ok p ->
     exists real', step t i (real, preds) = Some (real', upd preds i (g i)) /\ inv rest real') ->
  forall order real preds, NoDup (map fst order) -> Forall (fun '(i, t) => i < rows /\ threads t) order ->
  inv (map fst order) real -> length preds = rows -> (forall i p, In i (map fst order) -> nth_error preds i = Some p -> ok p) ->
  exists real' preds', dispatchSparse step order (real, preds) =
      Some (real', preds', (N.of_nat (length (concat (map g (map fst order)))) mod 2 ^ 32)%N) /\
    inv [] real' /\ written g order preds preds'.
Proof.
  intros Hstep. unfold dispatchSparse. intros order real preds ND F I L O.
  cut (forall c, (c < 2 ^ 32)%N -> exists real' preds', forL order (fun '(exampleIndex, threadIndex) '(st, numDenseElements) =>
    let* st := step threadIndex exampleIndex st in
    let* predictionRow := aget (snd st) exampleIndex in
    Some (st, ((numDenseElements + N.of_nat (length predictionRow)) mod 2 ^ 32)%N)) (real, preds, c) =
      Some (real', preds', ((c + N.of_nat (length (concat (map g (map fst order))))) mod 2 ^ 32)%N) /\
    inv [] real' /\ written g order preds preds').
  { intros H. apply (H 0%N). reflexivity. }
  revert real preds ND F I L O. induction order as [|(i, t) order IH]; intros real preds ND F I L O c Hc.
  - exists real, preds. split; [|split; [exact I|split; [auto|]; intros; reflexivity]].
    cbn [forL map concat length]. rewrite N.add_0_r, N.mod_small by auto. reflexivity.
  - cbn [map fst] in *. inversion ND; subst. inversion F as [|? ? Hit F']; subst. destruct Hit as (Hi & Ht). cbn [forL].
    destruct (nth_error preds i) as [p|] eqn:Ep; [|apply nth_error_None in Ep; lia].
    destruct (Hstep t i (map fst order) real preds p Ht Hi ltac:(auto) I Ep) as (real' & -> & I').
    { apply (O i); [left; reflexivity|auto]. }
    cbn [snd]. assert (Eg : aget (upd preds i (g i)) i = Some (g i)) by (apply nth_error_upd_eq; lia). rewrite Eg.
    destruct (IH real' (upd preds i (g i))) with (c := ((c + N.of_nat (length (g i))) mod 2 ^ 32)%N) as (real'' & preds' & E & I'' & W); auto.
    + rewrite upd_length. auto.
    + intros k q Hk Hq. rewrite nth_error_upd_neq in Hq by (intros ->; contradiction). apply (O k); [right; auto|auto].
    + apply N.mod_lt. discriminate.
    + rewrite E. exists real'', preds'. split; [|split; [auto|apply written_step; [auto|lia|auto]]].
      f_equal. f_equal. cbn [map concat]. rewrite app_length, Nat2N.inj_add, N.add_assoc.
      rewrite (N.add_mod_idemp_l) by discriminate. reflexivity.
Qed.

(** ** Predictors *)

Section Model.
Context {V : Type} (add : V -> V -> V) (zero : V).
Variables (junk : fval) (m : featureMatrix) (l : ruleList (rule V)) (numLabels maxRules : nat) (row : nat -> list fval).
Hypothesis Hused : rlNumUsed l <= rlGetNumRules l.
Hypothesis H32 : (N.of_nat (rlGetNumRules l) < 2 ^ 32)%N.
Notation n := (limitRules maxRules (rlGetNumUsed l)).
Notation order := (expected_order (rlDefault l) (rlRules l) (rlPrecedence l) n).
Notation cov row := (fun r : rule V => coversDense row (fst r)).
Hypothesis Hrows : forall i, i < fmRows m -> example_row m i (row i) /\
  exists s, score_of add (cov (row i)) order (repeat zero numLabels) = Some s.
Notation prefix := (prefix_scores add zero l numLabels maxRules row).

Lemma model_n : n <= rlGetNumRules l /\ (rlDefault l = None \/ 1 <= n).
Proof. apply limit_ok; apply rlGetNumUsed_ok; auto. Qed.

Lemma model_order : length order = n.
Proof. apply expected_length; apply model_n. Qed.

Lemma prefix_ok k i : i < fmRows m -> score_of add (cov (row i)) (firstn k order) (repeat zero numLabels) = Some (prefix k i).
Proof. intros Hi. eapply prefix_scores_ok; eauto. Qed.

Lemma prefix_length k i : i < fmRows m -> length (prefix k i) = numLabels.
Proof. intros Hi. rewrite (score_of_length _ _ _ _ _ (prefix_ok k i Hi)). apply repeat_length. Qed.

Lemma prefix_0 i : i < fmRows m -> prefix 0 i = repeat zero numLabels.
Proof. intros Hi. pose proof (prefix_ok 0 i Hi) as E. simpl in E. congruence. Qed.

Lemma aggregate_range i j e : i <= j <= n -> e < fmRows m ->
  aggregateScores add junk m (rlMakeIter l i n) (rlMakeIter l j n) e (prefix i e) = Some (prefix j e).
Proof.
  intros Hij He. rewrite (aggregate_ok add junk m _ _ (firstn (j - i) (skipn i order)) e (row e)).
  - pose proof (prefix_ok j e He) as E. rewrite <- (firstn_firstn_skipn order i j) in E by lia.
    rewrite score_of_app, prefix_ok in E by auto. exact E.
  - apply Hrows; auto.
  - apply loops_over_range; [apply model_n|apply model_n|auto].
  - rewrite firstn_length, skipn_length, model_order. destruct model_n. lia.
Qed.

(** One example, without and with previous scores. *)

Lemma predict_step {P} (apply : list V -> P -> option P) (g : nat -> P) (ok : P -> Prop) T :
  (forall i p, i < fmRows m -> ok p -> apply (prefix n i) p = Some (g i)) ->
  forall t i (rest : list nat) real preds p, t < T -> i < fmRows m -> ~ In i rest ->
  (length real = T /\ Forall (fun r => length r = numLabels) real) -> nth_error preds i = Some p -> ok p ->
  exists real', predictForExample add zero junk apply m (rlUsedBegin l maxRules) (rlUsedEnd l maxRules) t i (real, preds) =
      Some (real', upd preds i (g i)) /\ length real' = T /\ Forall (fun r => length r = numLabels) real'.
Proof.
  intros HA t i rest real preds p Ht Hi _ (L & F) Ep Hp. unfold predictForExample.
  destruct (nth_error real t) as [r|] eqn:Er; [|apply nth_error_None in Er; lia].
  unfold aget at 1. rewrite Er. rewrite aset_Some by lia.
  unfold aget at 1. rewrite nth_error_upd_eq by lia.
  assert (Hr : length r = numLabels). { rewrite Forall_forall in F. apply F. eapply nth_error_In; eauto. }
  rewrite Hr, <- (prefix_0 i Hi). pose proof (aggregate_range 0 n i ltac:(lia) Hi) as E.
  change (rlUsedBegin l maxRules) with (rlMakeIter l 0 n). change (rlUsedEnd l maxRules) with (rlMakeIter l n n). rewrite E.
  rewrite aset_Some by (rewrite upd_length; lia). unfold aget. rewrite Ep, (HA i p Hi Hp).
  rewrite aset_Some by (apply nth_error_Some; congruence). eexists. split; [reflexivity|]. rewrite !upd_length. split; [auto|].
  rewrite upd_upd. apply Forall_forall. intros x Hx. apply upd_In in Hx. destruct Hx as [-> | Hx].
  - apply prefix_length; auto.
  - rewrite Forall_forall in F. auto.
Qed.

Definition real_inv (i j : nat) (rest : list nat) (real : list (list V)) : Prop :=
  length real = fmRows m /\
  forall e, e < fmRows m -> nth_error real e = Some (if in_dec Nat.eq_dec e rest then prefix i e else prefix j e).

Lemma increment_step {P} (apply : list V -> P -> option P) (clear : P -> P) (g : nat -> P) (ok : P -> Prop) k j :
  k <= j <= n ->
  (forall i p, i < fmRows m -> ok p -> apply (prefix j i) (clear p) = Some (g i)) ->
  forall (t : nat) i rest real preds p, True -> i < fmRows m -> ~ In i rest ->
  real_inv k j (i :: rest) real -> nth_error preds i = Some p -> ok p ->
  exists real', incrementForExample add junk apply clear m (rlMakeIter l k n) (rlMakeIter l j n) i (real, preds) =
      Some (real', upd preds i (g i)) /\ real_inv k j rest real'.
Proof.
  intros Hkj HA t i rest real preds p _ Hi Hn (L & E) Ep Hp. unfold incrementForExample.
  unfold aget at 1. rewrite E by auto. destruct (in_dec Nat.eq_dec i (i :: rest)) as [_|Hc]; [|exfalso; apply Hc; left; auto].
  rewrite aggregate_range by auto. rewrite aset_Some by lia. unfold aget. rewrite Ep, (HA i p Hi Hp).
  rewrite aset_Some by (apply nth_error_Some; congruence). eexists. split; [reflexivity|]. split; [rewrite upd_length; auto|].
  intros e He. rewrite nth_error_upd. destruct (Nat.eqb_spec i e) as [<-|Hne].
  - rewrite (proj2 (Nat.ltb_lt _ _)) by lia. destruct (in_dec Nat.eq_dec i rest); [contradiction|reflexivity].
  - cbn [andb]. rewrite E by auto. f_equal.
    destruct (in_dec Nat.eq_dec e (i :: rest)) as [[Hx|Hx]|Hx], (in_dec Nat.eq_dec e rest) as [Hy|Hy]; try congruence; try contradiction.
    exfalso. apply Hx. right. auto.
Qed.

Lemma order_facts (T : nat -> Prop) (o : list (nat * nat)) : Permutation (map fst o) (seq 0 (fmRows m)) -> Forall T (map snd o) ->
  NoDup (map fst o) /\ Forall (fun '(i, t) => i < fmRows m /\ T t) o.
Proof.
  intros HP HT. split; [eapply Permutation_NoDup; [symmetry; exact HP|apply seq_NoDup]|].
  apply Forall_forall. intros (i, t) Hx. split.
  - apply (in_map fst) in Hx. apply (Permutation_in _ HP) in Hx. apply in_seq in Hx. simpl in Hx. lia.
  - rewrite Forall_forall in HT. apply HT. apply (in_map snd) in Hx. exact Hx.
Qed.

Lemma predict_dense f apply o realMemory memory : writes_labels numLabels f apply ->
  Permutation (map fst o) (seq 0 (fmRows m)) -> Forall (fun t => t < length realMemory) (map snd o) ->
  Forall (fun r => length r = numLabels) realMemory -> length memory = fmRows m -> Forall (fun r => length r = numLabels) memory ->
  predictBinary add zero junk (Some apply) m l numLabels maxRules o realMemory memory =
    Some (map (fun i => f (prefix n i)) (seq 0 (fmRows m))).
Proof.
  intros HW HP HT HR HM HF. destruct (order_facts _ _ HP HT) as (ND & FO). unfold predictBinary.
  edestruct (dispatch_ok (fmRows m) (fun t => t < length realMemory) (fun i => f (prefix n i)) (fun p => length p = numLabels)
    (fun _ (real : list (list V)) => length real = length realMemory /\ Forall (fun r => length r = numLabels) real)) as (real' & preds' & E & _ & W).
  - apply predict_step. intros i p Hi Hp. apply HW; auto. apply prefix_length; auto.
  - exact ND.
  - exact FO.
  - split; [reflexivity|exact HR].
  - exact HM.
  - intros i p _ Hp. rewrite Forall_forall in HF. apply HF. eapply nth_error_In; eauto.
  - rewrite E. f_equal. eapply written_all; eauto.
Qed.

Lemma concat_perm {A} (g : nat -> list A) a b : Permutation a b -> length (concat (map g a)) = length (concat (map g b)).
Proof.
  induction 1; simpl; rewrite ?app_length; try lia.
Qed.

Lemma to_csr u g : (N.of_nat (length (concat (map g (seq 0 (fmRows m))))) < 2 ^ 32)%N ->
  forall o, Permutation (map fst o) (seq 0 (fmRows m)) (A := nat) ->
  let num := N.to_nat (N.of_nat (length (concat (map g (map (@fst nat nat) o)))) mod 2 ^ 32) in
  exists indices indptr, lilToCsr (repeat u num) (repeat u (length (map g (seq 0 (fmRows m))) + 1)) (map g (seq 0 (fmRows m))) num = Some (indices, indptr) /\
    length indptr = fmRows m + 1 /\ (forall i, i < fmRows m -> csrRow indices indptr i = Some (g i)).
Proof.
  intros Hc o HP. cbv zeta. rewrite (concat_perm g _ _ HP), N.mod_small, Nat2N.id by auto.
  set (rows := map g (seq 0 (fmRows m))) in *.
  destruct (C17_lemma (repeat u (length (concat rows))) (repeat u (length rows + 1)) rows (length (concat rows))) as (indices & indptr & E & _ & L & _ & _ & HR).
  - apply repeat_length.
  - apply repeat_length.
  - reflexivity.
  - exists indices, indptr. split; [exact E|]. split.
    + rewrite L. unfold rows. rewrite map_length, seq_length. reflexivity.
    + intros i Hi. apply HR. unfold rows. apply nth_error_map_seq. auto.
Qed.

Lemma predict_sparse f apply o realMemory u : appends_labels numLabels f apply ->
  Permutation (map fst o) (seq 0 (fmRows m)) -> Forall (fun t => t < length realMemory) (map snd o) ->
  Forall (fun r => length r = numLabels) realMemory ->
  (N.of_nat (length (concat (map (fun i => relevant_labels (f (prefix n i))) (seq 0 (fmRows m))))) < 2 ^ 32)%N ->
  exists indices indptr, predictBinarySparse add zero junk (Some apply) m l maxRules o realMemory u = Some (indices, indptr) /\
    length indptr = fmRows m + 1 /\ forall i, i < fmRows m -> csrRow indices indptr i = Some (relevant_labels (f (prefix n i))).
Proof.
  intros HW HP HT HR HC. destruct (order_facts _ _ HP HT) as (ND & FO). unfold predictBinarySparse.
  edestruct (dispatchSparse_ok (fmRows m) (fun t => t < length realMemory) (fun i => relevant_labels (f (prefix n i))) (fun p => p = [])
    (fun _ (real : list (list V)) => length real = length realMemory /\ Forall (fun r => length r = numLabels) real)) as (real' & preds' & E & _ & W).
  - apply predict_step. intros i p Hi ->. apply (HW _ []); auto. apply prefix_length; auto.
  - exact ND.
  - exact FO.
  - split; [reflexivity|exact HR].
  - apply repeat_length.
  - intros i p _ Hp. apply nth_error_In, repeat_spec in Hp. exact Hp.
  - rewrite E. cbv beta iota zeta. apply (written_all (fmRows m)) in W; [|exact HP|apply repeat_length]. rewrite W.
    exact (to_csr u _ HC o HP).
Qed.

(** ** Incremental prediction *)

Definition state_inv {P} (ok : P -> Prop) (k : nat) (p : incrementalPredictor V P) : Prop :=
  ipCurrent p = rlMakeIter l k n /\ ipEnd p = rlMakeIter l n n /\ k <= n /\
  ipReal p = map (prefix k) (seq 0 (fmRows m)) /\ length (ipPredictions p) = fmRows m /\ Forall ok (ipPredictions p).

Lemma real_start k j rest : (forall i, i < fmRows m -> In i rest) -> real_inv k j rest (map (prefix k) (seq 0 (fmRows m))).
Proof.
  intros H. split; [rewrite map_length, seq_length; auto|]. intros e He. rewrite nth_error_map_seq by auto.
  destruct (in_dec Nat.eq_dec e rest) as [_|Hn]; [reflexivity|]. exfalso. auto.
Qed.

Lemma real_end k j real : real_inv k j [] real -> real = map (prefix j) (seq 0 (fmRows m)).
Proof.
  intros (L & E). apply nth_error_ext. intros i. destruct (Nat.lt_ge_cases i (fmRows m)) as [Hi|Hi].
  - rewrite E, nth_error_map_seq by auto. reflexivity.
  - transitivity (@None (list V)); [|symmetry]; apply nth_error_None; rewrite ?map_length, ?seq_length; lia.
Qed.

Lemma advance k s : k <= n -> itAdvance (rlMakeIter l k n) (Nat.min s (n - k)) = rlMakeIter l (Nat.min n (k + s)) n.
Proof. intros. unfold itAdvance, rlMakeIter. simpl. f_equal. lia. Qed.

Lemma in_order (o : list (nat * nat)) i : Permutation (map fst o) (seq 0 (fmRows m)) -> i < fmRows m -> In i (map fst o).
Proof. intros HP Hi. eapply Permutation_in; [symmetry; exact HP|]. apply in_seq. lia. Qed.

Lemma true_threads (o : list (nat * nat)) : Forall (fun _ : nat => True) (map snd o).
Proof. apply Forall_forall. auto. Qed.

Lemma next_dense f apply k s o p : writes_labels numLabels f apply -> (forall x, length x = numLabels -> length (f x) = numLabels) ->
  Permutation (map fst o) (seq 0 (fmRows m)) ->
  state_inv (fun x => length x = numLabels) k p ->
  exists p', applyNext add junk (Some apply) m s o p = Some p' /\ state_inv (fun x => length x = numLabels) (Nat.min n (k + s)) p' /\
    ipPredictions p' = map (fun i => f (prefix (Nat.min n (k + s)) i)) (seq 0 (fmRows m)).
Proof.
  intros HW HL HP (E1 & E2 & Hk & E3 & L & F). destruct (order_facts _ _ HP (true_threads o)) as (ND & FO).
  unfold applyNext, getNumNext, itDiff. rewrite E1, E2, E3. cbn [itIndex rlMakeIter]. rewrite advance by auto. set (j := Nat.min n (k + s)).
  edestruct (dispatch_ok (fmRows m) (fun _ => True) (fun i => f (prefix j i)) (fun x => length x = numLabels) (real_inv k j)
    (fun _ => incrementForExample add junk apply (fun x => x) m (rlMakeIter l k n) (rlMakeIter l j n))) as (real' & preds' & E & I & W).
  - apply (increment_step apply (fun x => x)); [unfold j; lia|]. intros i x Hi Hx. apply HW; auto. apply prefix_length; auto.
  - exact ND.
  - exact FO.
  - apply (real_start k j). intros. apply in_order; auto.
  - exact L.
  - intros i x _ Hx. rewrite Forall_forall in F. apply F. eapply nth_error_In; eauto.
  - rewrite E. eexists. split; [reflexivity|]. apply (written_all (fmRows m)) in W; [|exact HP|exact L]. subst preds'.
    split; [|reflexivity]. split; [reflexivity|]. split; [reflexivity|]. split; [unfold j; lia|]. split; [apply (real_end k); auto|].
    cbn [ipPredictions]. split; [rewrite map_length, seq_length; auto|]. apply Forall_forall. intros x Hx. apply in_map_iff in Hx.
    destruct Hx as (i & <- & Hi). apply in_seq in Hi. apply HL. apply prefix_length. lia.
Qed.

Lemma next_sparse f apply k s o u p : appends_labels numLabels f apply ->
  Permutation (map fst o) (seq 0 (fmRows m)) -> state_inv (fun _ => True) k p ->
  (N.of_nat (length (concat (map (fun i => relevant_labels (f (prefix (Nat.min n (k + s)) i))) (seq 0 (fmRows m))))) < 2 ^ 32)%N ->
  exists p' indices indptr, applyNextSparse add junk (Some apply) m s o u p = Some (p', (indices, indptr)) /\
    state_inv (fun _ => True) (Nat.min n (k + s)) p' /\ length indptr = fmRows m + 1 /\
    forall i, i < fmRows m -> csrRow indices indptr i = Some (relevant_labels (f (prefix (Nat.min n (k + s)) i))).
Proof.
  intros HW HP (E1 & E2 & Hk & E3 & L & F) HC. destruct (order_facts _ _ HP (true_threads o)) as (ND & FO).
  unfold applyNextSparse, getNumNext, itDiff. rewrite E1, E2, E3. cbn [itIndex rlMakeIter]. rewrite advance by auto. set (j := Nat.min n (k + s)) in *.
  edestruct (dispatchSparse_ok (fmRows m) (fun _ => True) (fun i => relevant_labels (f (prefix j i))) (fun _ => True) (real_inv k j)
    (fun _ => incrementForExample add junk apply (fun _ => []) m (rlMakeIter l k n) (rlMakeIter l j n))) as (real' & preds' & E & I & W).
  - apply (increment_step apply (fun _ => [])); [unfold j; lia|]. intros i x Hi Hx. apply (HW _ []). apply prefix_length; auto.
  - exact ND.
  - exact FO.
  - apply (real_start k j). intros. apply in_order; auto.
  - exact L.
  - auto.
  - rewrite E. apply (written_all (fmRows m)) in W; [|exact HP|exact L]. subst preds'.
    destruct (to_csr u _ HC o HP) as (indices & indptr & -> & L2 & HR). eexists. exists indices, indptr. split; [reflexivity|].
    split; [|auto]. split; [reflexivity|]. split; [reflexivity|]. split; [unfold j; lia|]. split; [apply (real_end k); auto|].
    cbn [ipPredictions]. split; [rewrite map_length, seq_length; auto|]. apply Forall_forall. auto.
Qed.

Lemma run_dense f apply : writes_labels numLabels f apply -> (forall x, length x = numLabels -> length (f x) = numLabels) ->
  forall steps k p, Forall (fun step => Permutation (map fst (snd step)) (seq 0 (fmRows m))) steps ->
  state_inv (fun x => length x = numLabels) k p ->
  exists results, applyAll add junk (Some apply) m steps p = Some results /\ length results = length steps /\
    forall q, q < length steps -> nth_error results q =
      Some (map (fun i => f (prefix (Nat.min n (k + list_sum (map fst (firstn (S q) steps)))) i)) (seq 0 (fmRows m))).
Proof.
  intros HW HL. induction steps as [|(s, o) steps IH]; intros k p HO HI.
  - exists []. split; [reflexivity|]. split; [reflexivity|]. simpl. intros; lia.
  - inversion HO; subst. cbn [applyAll]. destruct (next_dense f apply k s o p HW HL ltac:(auto) HI) as (p' & -> & HI' & EP).
    destruct (IH _ p' ltac:(auto) HI') as (results & -> & LR & HR). eexists. split; [reflexivity|]. split; [simpl; auto|].
    intros [|q] Hq.
    + cbn [nth_error firstn map list_sum fold_right fst]. rewrite EP. f_equal. apply map_ext. intros i. do 2 f_equal. lia.
    + simpl length in Hq. cbn [nth_error]. rewrite HR by lia. f_equal. apply map_ext. intros i. do 2 f_equal.
      cbn [firstn map list_sum fold_right fst]. change (fold_right Nat.add 0) with list_sum. lia.
Qed.

Lemma run_sparse f apply u : appends_labels numLabels f apply ->
  forall steps k p, Forall (fun step => Permutation (map fst (snd step)) (seq 0 (fmRows m))) steps ->
  state_inv (fun _ => True) k p ->
  (forall q, (N.of_nat (length (concat (map (fun i => relevant_labels (f (prefix q i))) (seq 0 (fmRows m))))) < 2 ^ 32)%N) ->
  exists results, applyAllSparse add junk (Some apply) m u steps p = Some results /\ length results = length steps /\
    forall q, q < length steps -> exists indices indptr, nth_error results q = Some (indices, indptr) /\ length indptr = fmRows m + 1 /\
      forall i, i < fmRows m -> csrRow indices indptr i =
        Some (relevant_labels (f (prefix (Nat.min n (k + list_sum (map fst (firstn (S q) steps)))) i))).
Proof.
  intros HW. induction steps as [|(s, o) steps IH]; intros k p HO HI HC.
  - exists []. split; [reflexivity|]. split; [reflexivity|]. simpl. intros; lia.
  - inversion HO; subst. cbn [applyAllSparse]. destruct (next_sparse f apply k s o u p HW ltac:(auto) HI (HC _)) as (p' & indices & indptr & -> & HI' & LI & HR').
    destruct (IH _ p' ltac:(auto) HI' HC) as (results & -> & LR & HR). eexists. split; [reflexivity|]. split; [simpl; auto|].
    intros [|q] Hq.
    + exists indices, indptr. split; [reflexivity|]. split; [auto|]. intros i Hi. rewrite HR' by auto. do 4 f_equal. simpl. lia.
    + simpl length in Hq. cbn [nth_error]. destruct (HR q ltac:(lia)) as (a & b & -> & L2 & HR2). exists a, b. split; [reflexivity|]. split; [auto|].
      intros i Hi. rewrite HR2 by auto. do 4 f_equal. cbn [firstn map list_sum fold_right fst]. change (fold_right Nat.add 0) with list_sum. lia.
Qed.

Lemma min_prefix q i : prefix (Nat.min n q) i = prefix q i.
Proof.
  unfold prefix_scores. destruct (Nat.le_ge_cases n q).
  - rewrite (firstn_all2 order (n := q)) by (rewrite model_order; lia). rewrite firstn_all2 by (rewrite model_order; lia). reflexivity.
  - replace (Nat.min n q) with q by lia. reflexivity.
Qed.

End Model.
