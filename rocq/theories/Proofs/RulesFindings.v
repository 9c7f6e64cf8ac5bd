(** Counterexamples and the corresponding restricted statements for rules and condition lists. *)
From Coq Require Import ZArith NArith Arith List Bool Lia Permutation.
From Verif Require Import Lib.Arr Model.Rules Model.Prediction Spec.Rules Proofs.Rules.
Import ListNotations.
Open Scope nat_scope.

Lemma copy_refuted_write :
  exists (ops : list cl_op) (conds : list condition) (l l' : condList),
    surviving [] ops = Some conds /\ Forall well_typed conds /\
    cl_run clEmpty ops = Some l /\ clCopy l = Some l' /\
    forall junkF junkI, exists b, clCreateBody junkF junkI l = Some b /\ clCreateBody junkF junkI l' = None.
Proof.
  exists [ClAdd (mkCond 0 NOMINAL_NEQ (TInt 1))], [mkCond 0 NOMINAL_NEQ (TInt 1)].
  eexists. eexists. split; [reflexivity|]. split; [repeat constructor|]. split; [reflexivity|]. split; [reflexivity|].
  intros. eexists. split; reflexivity.
Qed.

Lemma copy_refuted_read :
  exists (ops : list cl_op) (conds : list condition) (l l' : condList),
    surviving [] ops = Some conds /\ Forall well_typed conds /\
    cl_run clEmpty ops = Some l /\ clCopy l = Some l' /\
    forall junkF junkI, exists b', clCreateBody junkF junkI l' = Some b' /\
      In (mkCond (fst junkI) NOMINAL_NEQ (TInt (snd junkI))) (bodyConditions b') /\
      length (bodyConditions b') = length conds + 1.
Proof.
  exists [ClAdd (mkCond 0 NOMINAL_EQ (TInt 1))], [mkCond 0 NOMINAL_EQ (TInt 1)].
  eexists. eexists. split; [reflexivity|]. split; [repeat constructor|]. split; [reflexivity|]. split; [reflexivity|].
  intros junkF [f t]. eexists. split; [reflexivity|]. split; [|reflexivity]. simpl. auto.
Qed.

Lemma missing_refuted :
  exists (row : list fval) (b : cbody),
    Forall well_typed (bodyConditions b) /\
    (exists c, In c (bodyConditions b) /\ nth_error row (cFeature c) = Some NaN) /\
    coversDense row (ConjunctiveBody b) = Some true.
Proof.
  exists [NaN], (mkBody [(0, Fin 3)] [] [] [] [] []). split; [repeat constructor|]. split; [|reflexivity].
  eexists. split; [left; reflexivity|reflexivity].
Qed.

Lemma cvDense_missing {T} (conv : fval -> option T) cmp row conds f t :
  In (f, t) conds -> nth_error row f = Some NaN -> (forall x, conv NaN = Some x -> cmp x t = false) ->
  cvCoversDense conv cmp row conds <> Some true.
Proof.
  intros Hin Hf Hc. induction conds as [|[g s] conds IH]; [destruct Hin|].
  simpl. unfold aget. destruct Hin as [[= -> ->]|Hin].
  - rewrite Hf. destruct (conv NaN) as [x|]; [|discriminate]. rewrite (Hc x eq_refl). discriminate.
  - destruct (nth_error row g); [|discriminate]. destruct (conv f0); [|discriminate].
    destruct (negb (cmp t0 s)); [discriminate|]. auto.
Qed.

Lemma missing_gr : forall (row : list fval) (b : cbody) (f : nat) (t : fval),
  In (f, t) (numericalGr b) -> nth_error row f = Some NaN -> coversDense row (ConjunctiveBody b) <> Some true.
Proof.
  intros row b f t Hin Hf. simpl. unfold cbodyCoversDense.
  pose proof (cvDense_missing toFloat32 compareNumericalGr row (numericalGr b) f t Hin Hf) as M.
  assert (Hc: forall x, toFloat32 NaN = Some x -> compareNumericalGr x t = false).
  { intros x [= <-]. reflexivity. }
  specialize (M Hc). unfold andThen at 1.
  destruct (cvCoversDense toFloat32 compareNumericalLeq row (numericalLeq b)) as [[]|]; try discriminate.
  unfold andThen at 1.
  destruct (cvCoversDense toFloat32 compareNumericalGr row (numericalGr b)) as [[]|]; try discriminate. contradiction.
Qed.
