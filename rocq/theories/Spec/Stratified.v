(** Specifications concerning stratified sampling. *)
From Coq Require Import List Bool Arith.
Import ListNotations.

(** Number of examples among [l] that have weight 1. *)
Definition numSelected (w : list bool) (l : list nat) : nat :=
  length (filter (fun i => match nth_error w i with Some true => true | _ => false end) l).

(** The examples among [indices] whose row is [row]. *)
Definition stratumOf (rows : list (list bool)) (indices : list nat) (row : list bool) : list nat :=
  filter (fun i => match nth_error rows i with
                   | Some r => if list_eq_dec bool_dec r row then true else false
                   | None => false
                   end) indices.
