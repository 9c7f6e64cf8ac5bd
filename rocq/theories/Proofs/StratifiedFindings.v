From Coq Require Import NArith Arith List Bool Lia Permutation ZArith QArith Qround Sorting.Sorted.
From Verif Require Import Lib.Arr Model.Rng Model.Sampling Model.Stratified Spec.Labels Spec.Stratified.
Import ListNotations.
Open Scope nat_scope.

(** Ten different label vectors that occur once and one that occurs ten times. *)
Definition c67_rows : list (list bool) :=
  map (fun i => map (fun j => Nat.eqb i j) (seq 0 10)) (seq 0 10) ++ repeat (repeat true 10) 10.
Definition c67_order : list (list nat) := map (fun i => [i]) (seq 0 10) ++ [seq 10 10].

Lemma C67_lemma :
  exists (rows : list (list bool)) (order : list (list nat)) groups,
    groupExamples equalRows rows (seq 0 (length rows)) [] = Some groups /\
    Permutation order (map snd groups) /\ sortedBySize order /\
    (exists order' w n s', calculateBoundedFraction (length rows) (9 # 10) 1 0 = 18 /\
      stratifiedWeights order (length rows) (9 # 10) 1 0 (repeat false (length rows)) 1 = Some (order', w, n, s') /\ n = 19) /\
    (exists order' w n s', calculateBoundedFraction (length rows) 1 1 3 = 3 /\
      stratifiedWeights order (length rows) 1 1 3 (repeat false (length rows)) 1 = Some (order', w, n, s') /\ n = 20).
Proof.
  exists c67_rows, c67_order. eexists. split; [vm_compute; reflexivity|].
  split; [vm_compute; apply Permutation_refl|].
  split; [vm_compute; repeat constructor|].
  split; eexists _, _, _, _; (split; [vm_compute; reflexivity|split; [vm_compute; reflexivity|reflexivity]]).
Qed.

Lemma C68_lemma :
  (exists (rows : list (list bool)) (indices indptr : list nat) (keys : list (list nat)),
     csr_represents indices indptr rows /\
     (forall r, r < length rows -> csrRowKey indices indptr 2 r = nth_error keys r) /\
     Forall (fun row => length row = 2) rows /\
     groupExamples equalRows rows [0; 1; 2; 3] [] =
       Some [([true; false], [0; 1]); ([false; true], [2]); ([true; true], [3])] /\
     groupExamples (fun a b => if list_eq_dec Nat.eq_dec a b then true else false) keys [0; 1; 2; 3] [] =
       Some [([0; 0], [0]); ([0; 1], [1; 3]); ([1; 0], [2])]) /\
  (exists (rows : list (list bool)) (indices indptr : list nat),
     csr_represents indices indptr rows /\ Forall (fun row => length row = 2) rows /\
     csrRowKey indices indptr 2 0 = None).
Proof.
  split.
  - exists [[true; false]; [true; false]; [false; true]; [true; true]], [0; 0; 1; 0; 1], [0; 1; 2; 3; 5],
      [[0; 0]; [0; 1]; [1; 0]; [0; 1]].
    split; [|split; [|split; [repeat constructor|split; vm_compute; reflexivity]]].
    + intros [|[|[|[|r]]]] row E; simpl in E; try discriminate; try (destruct r; discriminate);
        injection E as <-; eexists _, _, _; (split; [reflexivity|split; [reflexivity|split; [simpl; lia|split; [reflexivity|split]]]]).
      all: try (simpl; repeat constructor; fail).
      all: intros [|[|[|j]]]; simpl; intuition (try discriminate; try lia).
    + intros [|[|[|[|r]]]] H; try reflexivity. simpl in H. lia.
  - exists [[true; false]], [0], [0; 1]. split; [|split; [repeat constructor|reflexivity]].
    intros [|[|r]] row E; simpl in E; try discriminate.
    injection E as <-. exists 0, 1, [0]. split; [reflexivity|]. split; [reflexivity|]. split; [simpl; lia|]. split; [reflexivity|].
    split; [repeat constructor|]. intros [|[|[|j]]]; simpl; intuition (try discriminate; try lia).
Qed.
