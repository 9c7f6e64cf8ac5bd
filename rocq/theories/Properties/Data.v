(** Properties C13-C18: containers, iterators, label vectors. *)
From Coq Require Import NArith Arith List Bool Lia Permutation Sorting.Sorted.
From Verif Require Import Lib.Arr Model.Containers Spec.Containers Model.Labels Spec.Labels
  Proofs.Containers Proofs.Labels.
Import ListNotations.
Open Scope nat_scope.

(** ** C13 *)
Theorem C13_bit_vector :
  forall (n : nat) (ops : list bv_op) (arr : list N),
    length arr = bv_size n -> Forall (bv_op_in_range n) ops ->
    exists arr', bv_run arr ops = Some arr' /\ length arr' = bv_size n /\
      forall pos, pos < n ->
        exists b, bv_get arr pos = Some b /\ bv_get arr' pos = Some (last_written b ops pos).
Proof. exact bv_run_ok. Qed.
Print Assumptions C13_bit_vector.

Example C13_example : exists arr',
  bv_run [0; 0]%N [BvSet 31 true; BvSet 32 true; BvSet 33 true; BvSet 32 false] = Some arr' /\
  bv_size 40 = 2 /\
  map (bv_get arr') [30; 31; 32; 33; 34] = [Some false; Some true; Some false; Some true; Some false].
Proof. eexists. vm_compute. repeat split. Qed.

(** ** C14 *)
Theorem C14_ring_buffer :
  forall (A : Type) (uninit vals : list A), 0 < length uninit ->
    let n := length uninit in
    exists rs b, rb_run (rb_init uninit) vals = Some (rs, b) /\
      rb_full b = (n <=? length vals) /\
      rb_num b = Nat.min n (length vals) /\
      Permutation (rb_elements b) (lastn n vals) /\
      (length vals <= n -> rb_elements b = vals) /\
      length rs = length vals /\
      (forall i full old, nth_error rs i = Some (full, old) ->
         full = (n <=? i) /\ (full = true -> nth_error vals (i - n) = Some old)).
Proof. exact @C14_lemma. Qed.
Print Assumptions C14_ring_buffer.

Example C14_example : rb_run (rb_init [0; 0; 0]) [1; 2; 3; 4; 5] =
  Some ([(false, 0); (false, 0); (false, 0); (true, 1); (true, 2)], mkRing [4; 5; 3] 2 true).
Proof. reflexivity. Qed.

(** ** C15 *)
Theorem C15_sparse_set :
  forall (V : Type) (n : nat) (ops : list (ss_op V)), Forall (ss_op_in_range n) ops ->
    exists s, ss_run (ss_empty V n) ops = Some s /\
      (forall i, i < n -> ss_get s i = Some (option_map (pair i) (fm_run ops i))) /\
      NoDup (map fst (ss_values s)) /\
      (forall i v, In (i, v) (ss_values s) <-> fm_run ops i = Some v).
Proof. exact C15_lemma. Qed.
Print Assumptions C15_sparse_set.

Example C15_example : exists s,
  ss_run (ss_empty nat 5) [SsEmplace 3 7; SsEmplace 1 8; SsEmplace 4 9; SsErase 3; SsUpdate 1 (plus 2)] = Some s /\
  ss_values s = [(4, 9); (1, 10)] /\ map (ss_get s) [1; 3; 4] = [Some (Some (1, 10)); Some None; Some (Some (4, 9))].
Proof. eexists. repeat split. Qed.

(** ** C16 *)
Theorem C16_sparse_iteration :
  forall (V : Type) (indices : list nat) (values : list V) (start width : nat) (sparse : V) (dense : list V),
    length indices = length values -> StronglySorted lt indices -> Forall (le start) indices ->
    length dense = width ->
    (forall k i v, nth_error indices k = Some i -> nth_error values k = Some v -> i - start < width ->
       nth_error dense (i - start) = Some v) ->
    (forall p, p < width -> ~ In (start + p) indices -> nth_error dense p = Some sparse) ->
    si_read width (si_create indices values start sparse) = Some dense.
Proof. exact @C16_numeric. Qed.
Print Assumptions C16_sparse_iteration.

Theorem C16_binary_iteration :
  forall (indices : list nat) (start width : nat) (dense : list bool),
    StronglySorted lt indices -> Forall (le start) indices -> length dense = width ->
    (forall p, p < width -> (nth_error dense p = Some true <-> In (start + p) indices)) ->
    bi_read width (bi_create indices start) = dense.
Proof. exact C16_binary. Qed.
Print Assumptions C16_binary_iteration.

Theorem C16_non_zero_iteration :
  forall l : list bool,
    StronglySorted lt (nz_read l) /\ forall i, In i (nz_read l) <-> nth_error l i = Some true.
Proof. exact C16_non_zero. Qed.
Print Assumptions C16_non_zero_iteration.

Example C16_example : si_read 6 (si_create [1; 4] [10; 40] 0 7) = Some [7; 10; 7; 7; 40; 7] /\
  bi_read 4 (bi_create [0; 2] 0) = [true; false; true; false] /\
  nz_read [false; true; true; false; true] = [1; 2; 4].
Proof. repeat split. Qed.

(** ** C17 *)
Theorem C17_sparse_prediction_conversion :
  forall (uI uP : list nat) (rows : list (list nat)) (num : nat),
    length uI = num -> length uP = length rows + 1 -> num = length (concat rows) ->
    exists indices indptr, lilToCsr uI uP rows num = Some (indices, indptr) /\
      indices = concat rows /\ length indptr = length rows + 1 /\
      nth_error indptr 0 = Some 0 /\ nth_error indptr (length rows) = Some (length indices) /\
      (forall r row, nth_error rows r = Some row -> csrRow indices indptr r = Some row).
Proof. exact C17_lemma. Qed.
Print Assumptions C17_sparse_prediction_conversion.

Example C17_example : lilToCsr [9; 9; 9] [9; 9; 9; 9] [[1; 4]; []; [0]] 3 = Some ([1; 4; 0], [0; 2; 2; 3]).
Proof. reflexivity. Qed.

(** ** C18 *)
Theorem C18_label_vector_set :
  forall (uninit : nat -> list nat) (rows : list (list bool)),
    (forall r row, nth_error rows r = Some row -> length (uninit r) = length row) ->
    exists lvs vs fs, denseLabelVectorSet uninit rows = Some (vs, fs) /\
      length lvs = length rows /\
      (forall r row lv, nth_error rows r = Some row -> nth_error lvs r = Some lv ->
         StronglySorted lt lv /\ forall j, In j lv <-> nth_error row j = Some true) /\
      length fs = length vs /\ NoDup vs /\ (forall v, In v vs <-> In v lvs) /\
      (forall i v, nth_error vs i = Some v -> nth_error fs i = Some (count_occ lveq lvs v)).
Proof. exact C18_dense. Qed.
Print Assumptions C18_label_vector_set.

Theorem C18_storage_independent :
  forall (uninit : nat -> list nat) (rows : list (list bool)) (indices indptr : list nat),
    (forall r row, nth_error rows r = Some row -> length (uninit r) = length row) ->
    csr_represents indices indptr rows ->
    denseLabelVectorSet uninit rows = csrLabelVectorSet indices indptr (length rows).
Proof. exact C18_agree. Qed.
Print Assumptions C18_storage_independent.

Example C18_example :
  denseLabelVectorSet (fun _ => [9; 9; 9]) [[true; false; true]; [false; false; false]; [true; false; true]]
    = Some ([[0; 2]; []], [2; 1]) /\
  csrLabelVectorSet [0; 2; 0; 2] [0; 2; 2; 4] 3 = Some ([[0; 2]; []], [2; 1]).
Proof. split; reflexivity. Qed.
