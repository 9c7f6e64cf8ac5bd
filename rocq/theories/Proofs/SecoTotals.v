(** The confusion matrices of covered and uncovered examples. *)
From Coq Require Import ZArith NArith Arith List Bool Sorted Lia.
From Verif Require Import Lib.Arr Model.SecoStatistics Spec.Seco Proofs.SecoExact.
Import ListNotations.
Open Scope nat_scope.

Lemma seco_covered_uncovered :
  forall lm label majority counts weights, represents lm label -> length counts = lmRows lm * lmCols lm ->
    StronglySorted lt majority -> length weights = lmRows lm ->
    forall ops excluded o sops, Forall (op_in_range (lmRows lm)) ops -> Forall (fun i => i < lmRows lm) excluded ->
      valid_outputs (lmCols lm) o -> Forall (sop_in_range (lmRows lm)) sops ->
      exists ws s, (let* ws := newWeighted lm majority counts weights in
                    forL ops (wsStep lm majority counts weights) ws) = Some ws /\
        (let* s := newSubset lm majority counts weights ws excluded o in
         forL sops (ssStep lm majority counts weights o) s) = Some s /\
        forall k k', k = Covered /\ k' = Uncovered \/ k = CoveredAccumulated /\ k' = UncoveredAccumulated /\ In ResetSubset sops ->
          exists covered uncovered', scoredVector o ws s k = Some covered /\ scoredVector o ws s k' = Some uncovered' /\
            forall i l, nth_error (labelsOf o) i = Some l -> exists x y, nth_error covered i = Some x /\ nth_error uncovered' i = Some y /\
              forall relevant predicted, (element x relevant predicted + element y relevant predicted)%Z =
                weightOf label (uncovered (lmCols lm) counts) (mem majority) l relevant predicted (coverable weights ops excluded).
Proof.
  intros lm label majority counts weights RP LC SM LW ops excluded o sops F1 F2 VO F3.
  destruct (confusion_matrices_exact lm label majority counts weights RP LC SM LW ops F1) as (ws0 & ws & E1 & E2 & _ & H).
  destruct (H excluded o sops F2 VO F3) as (s0 & s & E3 & E4 & G). exists ws, s. rewrite E1. cbv beta iota.
  split; [auto|]. rewrite E3. cbv beta iota. split; [auto|]. intros k k' HK.
  destruct (G k) as (v & E & L & X). { destruct HK as [[-> ->]|(-> & -> & HK)]; simpl; tauto. }
  destruct (G k') as (v' & E' & L' & X'). { destruct HK as [[-> ->]|(-> & -> & HK)]; simpl; tauto. }
  exists v, v'. split; [auto|split; [auto|]]. intros i l El. assert (Hi : i < length (labelsOf o)) by (apply nth_error_Some; congruence).
  destruct (nth_error v i) as [x|] eqn:Ex; [|apply nth_error_None in Ex; lia].
  destruct (nth_error v' i) as [y|] eqn:Ey; [|apply nth_error_None in Ey; lia].
  exists x, y. split; [auto|split; [auto|]]. intros r p. rewrite (X i l x El Ex r p), (X' i l y El Ey r p).
  assert (A : forall lb un mj a b, weightOf lb un mj l r p (a ++ b) = (weightOf lb un mj l r p a + weightOf lb un mj l r p b)%Z).
  { clear. intros. induction a as [|[e w] a IH]; simpl; auto. rewrite IH. destruct (_ && _); lia. }
  assert (B : forall lb un mj a, weightOf lb un mj l r p (negated a) = (- weightOf lb un mj l r p a)%Z).
  { clear. intros. induction a as [|[e w] a IH]; simpl; auto. fold (negated a). rewrite IH. destruct (_ && _); lia. }
  destruct HK as [[-> ->]|(-> & -> & HK)]; simpl; rewrite A, B; lia.
Qed.
