(** Specifications of the containers, independent of their representation. *)
From Coq Require Import List Arith Bool.
From Verif Require Import Model.Containers.
Import ListNotations.

(** Bit vector: the value most recently written to a position, [init] if none. *)
Fixpoint last_written (init : bool) (ops : list bv_op) (pos : nat) : bool :=
  match ops with
  | [] => init
  | BvSet p v :: rest => last_written (if p =? pos then v else init) rest pos
  | BvClear :: rest => last_written false rest pos
  end.

Definition bv_op_in_range (n : nat) (op : bv_op) : Prop :=
  match op with BvSet p _ => p < n | BvClear => True end.

(** Ring buffer: the last [n] elements of a list, in order. *)
Definition lastn {A} (n : nat) (l : list A) : list A := skipn (length l - n) l.

(** Sparse set: a partial function from indices to values. *)
Definition fmap (V : Type) := nat -> option V.

Definition fm_step {V} (m : fmap V) (op : ss_op V) : fmap V :=
  match op with
  | SsEmplace i d => fun j => if j =? i then match m i with Some v => Some v | None => Some d end else m j
  | SsUpdate i f => fun j => if j =? i then option_map f (m i) else m j
  | SsErase i => fun j => if j =? i then None else m j
  | SsClear => fun _ => None
  end.

Definition fm_run {V} (ops : list (ss_op V)) : fmap V := fold_left fm_step ops (fun _ => None).

Definition ss_op_in_range {V} (n : nat) (op : ss_op V) : Prop :=
  match op with SsEmplace i _ | SsUpdate i _ | SsErase i => i < n | SsClear => True end.
