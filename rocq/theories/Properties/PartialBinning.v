(** Properties of label binning for rules that predict for some of the outputs. *)
From Coq Require Import QArith Qabs Reals List Bool Arith Permutation Sorted Lia Lqa.
From Verif Require Import Lib.Arr Spec.Stopping Model.BoostEvaluation Model.BoostBinning Model.BoostNonDecomposable
  Model.BoostNDBinning Model.PartialBinning Spec.BoostEvaluation Spec.BoostBinning Spec.BoostNonDecomposable Spec.BoostNDBinning
  Proofs.BoostEvaluation Proofs.BoostNonDecomposable Proofs.BoostNDBinning Proofs.PartialBinning.
Import ListNotations.
Open Scope Q_scope.

(** ** C131: Label binning does not affect the outputs a rule predicts for *)

(** A fixed number of outputs. *)
Theorem C131_fixed : forall (conversion : nat) (c : binningConfig) (l1 l2 : Q) (k : nat) (s : binnedState) (indices : list nat) (statistics : list tuple)
      (sorted : list (nat * Q)),
  validBinning c -> length indices = length statistics -> partialSort k (outputWiseScores l1 l2 statistics) sorted ->
  allocated k (getMaxBins c k) s ->
  exists unbinned, evaluateFixed l1 l2 k indices statistics sorted = Some unbinned /\ length (scValues unbinned) = k /\
    (binsFit c (scValues unbinned) (getMaxBins c k) ->
     exists info bins score binned s',
       getLabelInfo c (scValues unbinned) k = Some info /\ createBins (Some conversion) info (scValues unbinned) k = Some bins /\
       evaluateFixedBinned (Some conversion) c l1 l2 s k indices statistics sorted = Some (binned, s') /\
       allocated k (getMaxBins c k) s' /\ scIndices binned = scIndices unbinned /\ scValues binned = binScores score bins).
Proof. exact fixed_binned. Qed.
Print Assumptions C131_fixed.

(* Two out of three outputs *)
Example C131_fixed_example :
  let c := mkBinning (1 # 25) 1 0 in let statistics := [(1, 1); (-3, 1); (2, 1)] in let sorted := [(1%nat, 3); (2%nat, -2); (0%nat, -1)] in
  validBinning c /\ partialSort 2 (outputWiseScores 0 0 statistics) sorted /\
  exists unbinned s' binned, evaluateFixed 0 0 2 [4; 5; 8]%nat statistics sorted = Some unbinned /\
    binsFit c (scValues unbinned) (getMaxBins c 2) /\ allocated 2 (getMaxBins c 2) (mkState [9; 9]%nat [7; 7; 0] [(7, 7); (7, 7)] [7; 7]%nat) /\ scIndices unbinned = [5; 8]%nat /\
    evaluateFixedBinned (Some 0%nat) c 0 0 (mkState [9; 9]%nat [7; 7; 0] [(7, 7); (7, 7)] [7; 7]%nat) 2 [4; 5; 8]%nat statistics sorted = Some (binned, s') /\
    scIndices binned = [5; 8]%nat.
Proof.
  intros c statistics sorted.
  split; [split; [reflexivity|]; split; [reflexivity|]; split; [simpl; lia|left; reflexivity]|]. split.
  { split; [|split; [cbn; lia|]].
    - vm_compute. transitivity [(1%nat, 3); (0%nat, -1); (2%nat, -2)]; [apply perm_swap|]. apply perm_skip. apply perm_swap.
    - split; repeat constructor; vm_compute; discriminate. }
  eexists. eexists. eexists. split; [vm_compute; reflexivity|]. split; [intros info E; vm_compute in E; injection E as <-; vm_compute; lia|].
  split; [|split; [reflexivity|split; [vm_compute; reflexivity|reflexivity]]].
  split; [|split; [|split; [|split]]]; vm_compute; reflexivity.
Qed.

(** A dynamic number of outputs. *)
Theorem C131_dynamic : forall (conversion : nat) (c : binningConfig) (l1 l2 threshold exponent : Q) (s : binnedState) (indices : list nat) (statistics : list tuple),
  validBinning c -> statistics <> [] -> length indices = length statistics -> 0 < threshold < 1 -> 0 < exponent ->
  allocated (length indices) (getMaxBins c (length indices)) s ->
  exists unbinned, evaluateDynamic l1 l2 threshold exponent indices statistics = Some unbinned /\
    (binsFit c (scValues unbinned) (getMaxBins c (length indices)) ->
     exists info bins score binned s',
       getLabelInfo c (scValues unbinned) (length (scValues unbinned)) = Some info /\
       createBins (Some conversion) info (scValues unbinned) (length (scValues unbinned)) = Some bins /\
       evaluateDynamicBinned (Some conversion) c l1 l2 threshold exponent s indices statistics = Some (binned, s') /\
       allocated (length indices) (getMaxBins c (length indices)) s' /\
       scIndices binned = scIndices unbinned /\ scValues binned = binScores score bins).
Proof. exact dynamic_binned. Qed.
Print Assumptions C131_dynamic.

(* All criteria fit into two bins *)
Example C131_dynamic_example :
  let c := mkBinning (1 # 25) 1 0 in let statistics := [(1, 1); (-3, 1); (2, 1)] in
  validBinning c /\ 0 < 1 # 50 < 1 /\ allocated 3 (getMaxBins c 3) (mkState [9; 9; 9]%nat [7; 7; 0] [(7, 7); (7, 7)] [7; 7]%nat) /\
  exists unbinned, evaluateDynamic 0 0 (1 # 50) 2 [4; 5; 8]%nat statistics = Some unbinned /\ binsFit c (scValues unbinned) (getMaxBins c 3).
Proof.
  intros c statistics.
  split; [split; [reflexivity|]; split; [reflexivity|]; split; [simpl; lia|left; reflexivity]|]. split; [split; reflexivity|].
  split; [split; [|split; [|split; [|split]]]; vm_compute; reflexivity|].
  destruct (evaluateDynamic_spec 0 0 (1 # 50) 2 [4; 5; 8]%nat statistics) as (sc & ps & m & M & E & (_ & HV & _) & SS & _ & _ & HI & _);
    [discriminate|reflexivity|split; reflexivity|reflexivity|]. exists sc. split; [exact E|]. rewrite HV.
  assert (HP : forall p, In p ps -> (p < 3)%nat) by (intros p Hp; apply HI in Hp; apply Hp). clear - HP SS.
  destruct ps as [|a [|b [|d [|e ps]]]]; intros info E;
    repeat match goal with H : Sorted.StronglySorted _ (_ :: _) |- _ => inversion H; clear H; subst | H : Forall _ (_ :: _) |- _ => inversion H; clear H; subst end;
    try (pose proof (HP a ltac:(simpl; auto))); try (pose proof (HP b ltac:(simpl; auto))); try (pose proof (HP d ltac:(simpl; auto)));
    try (pose proof (HP e ltac:(simpl; auto))); try lia;
    try (destruct a as [|[|[|a]]]; try lia); try (destruct b as [|[|[|b]]]; try lia); try (destruct d as [|[|[|d]]]; try lia);
    vm_compute in E; injection E as <-; vm_compute; lia.
Qed.

(** A fixed number of outputs, non-decomposable loss functions. The outputs are selected based on the diagonal of the Hessian matrix. *)
Theorem C131_fixed_non_decomposable : forall (dsysv : solver) (conversion : nat) (c : binningConfig) (l1 l2 : Q) (k n : nat) (tmp : list Q) (s : ndBinnedState) (indices : list nat)
      (gradients hessians : list Q) (statistics : list tuple) (sorted : list (nat * Q)),
  validBinning c -> validSolver dsysv -> 0 <= l1 -> 0 <= l2 ->
  length indices = n -> length gradients = n -> length hessians = triangularNumber n ->
  length tmp = (getMaxBins c k * getMaxBins c k)%nat -> allocatedND k (getMaxBins c k) s ->
  diagonal gradients hessians = Some statistics -> partialSort k (outputWiseScores l1 l2 statistics) sorted ->
  exists selected, evaluateFixed l1 l2 k indices statistics sorted = Some selected /\ length (scValues selected) = k /\
    (forall tmp unbinned, evaluateFixedND dsysv l1 l2 tmp k indices gradients hessians sorted = Some unbinned -> scIndices unbinned = scIndices selected) /\
    (binsFit c (scValues selected) (getMaxBins c k) ->
     exists info bins,
       getLabelInfo c (scValues selected) k = Some info /\ createBins (Some conversion) info (scValues selected) k = Some bins /\
       (totalSolver dsysv -> evaluateFixedBinnedND (Some conversion) dsysv c l1 l2 tmp s k indices gradients hessians sorted <> None) /\
       forall binned s', evaluateFixedBinnedND (Some conversion) dsysv c l1 l2 tmp s k indices gradients hessians sorted = Some (binned, s') ->
         allocatedND k (getMaxBins c k) s' /\ scIndices binned = scIndices selected /\ exists score, scValues binned = binScores score bins).
Proof. exact fixed_binned_nd. Qed.
Print Assumptions C131_fixed_non_decomposable.

(* Two out of three outputs *)
Example C131_fixed_non_decomposable_example :
  let c := mkBinning (1 # 25) 1 0 in let gradients := [1; -3; 2] in let hessians := [1; 1 # 2; 1; 0; 1 # 2; 1] in
  let statistics := [(1, 1); (-3, 1); (2, 1)] in let sorted := [(1%nat, 3); (2%nat, -2); (0%nat, -1)] in
  validBinning c /\ validSolver (checked [8 # 3; -14 # 3]) /\ diagonal gradients hessians = Some statistics /\
  partialSort 2 (outputWiseScores 0 0 statistics) sorted /\ allocatedND 2 (getMaxBins c 2) (initialND 2 2) /\
  exists selected, evaluateFixed 0 0 2 [4; 5; 8]%nat statistics sorted = Some selected /\ scIndices selected = [5; 8]%nat /\
    binsFit c (scValues selected) (getMaxBins c 2).
Proof.
  intros c gradients hessians statistics sorted.
  split; [split; [reflexivity|]; split; [reflexivity|]; split; [simpl; lia|left; reflexivity]|].
  split; [apply checked_valid|]. split; [reflexivity|]. split.
  { split; [|split; [cbn; lia|]].
    - vm_compute. transitivity [(1%nat, 3); (0%nat, -1); (2%nat, -2)]; [apply perm_swap|]. apply perm_skip. apply perm_swap.
    - split; repeat constructor; vm_compute; discriminate. }
  split; [split; [|split; [|split; [|split; [|split; [|split]]]]]; vm_compute; reflexivity|].
  eexists. split; [vm_compute; reflexivity|]. split; [reflexivity|]. intros info E; vm_compute in E; injection E as <-; vm_compute; lia.
Qed.

(** A dynamic number of outputs, non-decomposable loss functions. *)
Theorem C131_dynamic_non_decomposable : forall (dsysv : solver) (conversion : nat) (c : binningConfig) (l1 l2 threshold exponent : Q) (n : nat) (tmp : list Q) (s : ndBinnedState)
      (indices : list nat) (gradients hessians : list Q) (statistics : list tuple),
  validBinning c -> validSolver dsysv -> 0 <= l1 -> 0 <= l2 -> 0 < threshold < 1 -> 0 < exponent -> (0 < n)%nat ->
  length indices = n -> length gradients = n -> length hessians = triangularNumber n ->
  length tmp = (getMaxBins c n * getMaxBins c n)%nat -> allocatedND n (getMaxBins c n) s ->
  diagonal gradients hessians = Some statistics ->
  exists selected, evaluateDynamic l1 l2 threshold exponent indices statistics = Some selected /\
    (forall tmp unbinned, evaluateDynamicND dsysv l1 l2 threshold exponent tmp indices gradients hessians = Some unbinned ->
       scIndices unbinned = scIndices selected) /\
    (binsFit c (scValues selected) (getMaxBins c n) ->
     exists info bins,
       getLabelInfo c (scValues selected) (length (scValues selected)) = Some info /\
       createBins (Some conversion) info (scValues selected) (length (scValues selected)) = Some bins /\
       (totalSolver dsysv -> evaluateDynamicBinnedND (Some conversion) dsysv c l1 l2 threshold exponent tmp s indices gradients hessians <> None) /\
       forall binned s', evaluateDynamicBinnedND (Some conversion) dsysv c l1 l2 threshold exponent tmp s indices gradients hessians = Some (binned, s') ->
         allocatedND n (getMaxBins c n) s' /\ scIndices binned = scIndices selected /\ exists score, scValues binned = binScores score bins).
Proof. exact dynamic_binned_nd. Qed.
Print Assumptions C131_dynamic_non_decomposable.

Example C131_dynamic_non_decomposable_example :
  let c := mkBinning (1 # 25) 1 0 in let gradients := [1; -3; 2] in let hessians := [1; 1 # 2; 1; 0; 1 # 2; 1] in
  let statistics := [(1, 1); (-3, 1); (2, 1)] in
  validBinning c /\ 0 < 1 # 50 < 1 /\ diagonal gradients hessians = Some statistics /\ allocatedND 3 (getMaxBins c 3) (initialND 3 2) /\
  exists unbinned, evaluateDynamic 0 0 (1 # 50) 2 [4; 5; 8]%nat statistics = Some unbinned /\ binsFit c (scValues unbinned) (getMaxBins c 3).
Proof.
  intros c gradients hessians statistics.
  split; [split; [reflexivity|]; split; [reflexivity|]; split; [simpl; lia|left; reflexivity]|]. split; [split; reflexivity|]. split; [reflexivity|].
  split; [split; [|split; [|split; [|split; [|split; [|split]]]]]; vm_compute; reflexivity|].
  destruct (evaluateDynamic_spec 0 0 (1 # 50) 2 [4; 5; 8]%nat statistics) as (sc & ps & m & M & E & (_ & HV & _) & SS & _ & _ & HI & _);
    [discriminate|reflexivity|split; reflexivity|reflexivity|]. exists sc. split; [exact E|]. rewrite HV.
  assert (HP : forall p, In p ps -> (p < 3)%nat) by (intros p Hp; apply HI in Hp; apply Hp). clear - HP SS.
  destruct ps as [|a [|b [|d [|e ps]]]]; intros info E;
    repeat match goal with H : Sorted.StronglySorted _ (_ :: _) |- _ => inversion H; clear H; subst | H : Forall _ (_ :: _) |- _ => inversion H; clear H; subst end;
    try (pose proof (HP a ltac:(simpl; auto))); try (pose proof (HP b ltac:(simpl; auto))); try (pose proof (HP d ltac:(simpl; auto)));
    try (pose proof (HP e ltac:(simpl; auto))); try lia;
    try (destruct a as [|[|[|a]]]; try lia); try (destruct b as [|[|[|b]]]; try lia); try (destruct d as [|[|[|d]]]; try lia);
    vm_compute in E; injection E as <-; vm_compute; lia.
Qed.
