(** Specifications concerning label vectors. *)
From Coq Require Import List Arith Sorting.Sorted.
Import ListNotations.

(** Decidable equality of label vectors, for counting occurrences. *)
Definition lveq := list_eq_dec Nat.eq_dec.

(** A CSR matrix represents dense rows: each row segment is strictly increasing and contains the positions of
    the relevant labels. *)
Definition csr_represents (indices indptr : list nat) (rows : list (list bool)) : Prop :=
  forall r row, nth_error rows r = Some row ->
    exists s e seg, nth_error indptr r = Some s /\ nth_error indptr (r + 1) = Some e /\ s <= e <= length indices /\
      seg = firstn (e - s) (skipn s indices) /\ StronglySorted lt seg /\
      (forall j, In j seg <-> nth_error row j = Some true).

