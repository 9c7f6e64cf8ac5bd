(** Counterexamples for isotonic calibration. *)
From Coq Require Import ZArith QArith Arith List Bool Lia Permutation Lqa.
From Verif Require Import Lib.Arr Model.Stopping Model.Isotonic Spec.Stopping Spec.Isotonic Proofs.Calibration.
Import ListNotations.
Open Scope nat_scope.

Lemma duplicates_refuted : exists bins, forall sorted, Permutation bins sorted -> thresholds_sorted sorted ->
  exists out b, eliminateDuplicates sorted = Some out /\ In b out /\ ~ is_mean (map snd (sharing bins (fst b))) (snd b).
Proof.
  exists [(1 # 2, 0); (1 # 2, 1)]%Q. intros sorted HP _. apply Permutation_length_2_inv in HP.
  destruct HP as [ -> | -> ]; vm_compute eliminateDuplicates; eexists; eexists; (split; [reflexivity|]);
    (split; [left; reflexivity|]); intros [_ H]; vm_compute in H; discriminate.
Qed.

Lemma duplicates_partial sorted : sorted <> [] -> thresholds_sorted sorted ->
  (forall a b, In a sorted -> In b sorted -> isEqualQ (fst a) (fst b) = true -> (fst a == fst b)%Q) ->
  (forall b0, sharing sorted (fst (last sorted b0)) = [last sorted b0]) ->
  exists out, eliminateDuplicates sorted = Some out /\ thresholds_increasing out /\
    (forall b, In b out -> is_mean (map snd (sharing sorted (fst b))) (snd b)) /\
    (forall b, In b sorted -> exists b', In b' out /\ (fst b == fst b')%Q).
Proof.
  intros Hne HS Hsep Hlast. destruct (eliminate_means sorted Hne HS Hsep) as (init & b0 & E1 & E2 & E3 & E4).
  eexists. split; [exact E1|]. split; [exact E2|]. split; [|exact E4].
  intros b Hb. apply in_app_or in Hb. destruct Hb as [Hb|[<-|[]]]; auto. rewrite Hlast. split; [discriminate|].
  simpl. change (inject_Z 1) with 1%Q. ring.
Qed.

Lemma least_squares_refuted : exists bins out (fit : nat -> Q),
  thresholds_increasing bins /\ fitSorted bins = Some out /\ (forall i j, i <= j -> (fit i <= fit j)%Q) /\
  (squared_error fit (map snd bins) <
   squared_error (fun i => assigned out (fst (nth i bins (0, 0)%Q))) (map snd bins))%Q.
Proof.
  exists [(1 # 10, 0); (2 # 10, 1); (3 # 10, 0); (4 # 10, 1); (5 # 10, 0); (6 # 10, 0)]%Q.
  eexists. exists (fun i => if i =? 0 then 0%Q else (2 # 5)%Q). split; [|split; [vm_compute; reflexivity|split]].
  - intros i j a b Hij Ha Hb.
    do 6 (destruct j as [|j]; [try lia; do 6 (destruct i as [|i]; [try lia; simpl in *; injection Ha as <-; injection Hb as <-; reflexivity|]); lia|]).
    destruct j; discriminate.
  - intros [|i] [|j] H; simpl; try lia; lra.
  - vm_compute. reflexivity.
Qed.

Lemma zero_refuted : exists bins out,
  (forall b, In b bins -> (0 <= fst b <= 1)%Q /\ (0 <= snd b <= 1)%Q) /\ thresholds_increasing bins /\
  fitSorted bins = Some out /\ calibrateProbability out 0 = Some None.
Proof.
  exists [(0, 1 # 3); (1 # 2, 1)]%Q. eexists. split; [|split; [|split]].
  - intros b [<-|[<-|[]]]; simpl; lra.
  - intros i j a b Hij Ha Hb. destruct j as [|[|j]]; [lia| |destruct j; discriminate].
    assert (i = 0) as -> by lia. simpl in *. injection Ha as <-. injection Hb as <-. reflexivity.
  - vm_compute. reflexivity.
  - vm_compute. reflexivity.
Qed.

Lemma equal_refuted : exists l lv, areLabelVectorsEqual l lv = Some true /\ l <> lv.
Proof. exists [0; 1], [0]. split; [reflexivity|discriminate]. Qed.

Lemma equal_partial l lv : (areLabelVectorsEqual l lv = Some true <-> exists rest, l = lv ++ rest) /\
  (length l <= length lv -> (areLabelVectorsEqual l lv = Some true <-> l = lv)).
Proof.
  split; [apply equal_prefix|]. intros HL. rewrite equal_prefix. split.
  - intros (rest & ->). rewrite app_length in HL. destruct rest; [apply app_nil_r|simpl in HL; lia].
  - intros ->. exists []. rewrite app_nil_r. auto.
Qed.
