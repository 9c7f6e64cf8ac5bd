(** The semantics of decision lists. *)
From Coq Require Import Arith List Bool Sorted.
From Verif Require Import Model.Rules Model.Prediction.
Import ListNotations.

(** What a head predicts for a label, if anything. *)
Definition predicts (h : head bool) (label : nat) : option bool :=
  match h with
  | CompleteHead values => nth_error values label
  | PartialHead values => option_map snd (find (fun p => fst p =? label) values)
  end.

(** The prediction of the first rule that covers the example and predicts for the label. *)
Fixpoint decide (covers : rule bool -> bool) (rules : list (rule bool)) (label : nat) : option bool :=
  match rules with
  | [] => None
  | r :: rules' =>
      match (if covers r then predicts (snd r) label else None) with
      | Some b => Some b
      | None => decide covers rules' label
      end
  end.

(** Some of the rules that cover the example predicts the label as relevant. *)
Definition some_relevant (covers : rule bool -> bool) (rules : list (rule bool)) (label : nat) : Prop :=
  exists r, In r rules /\ covers r = true /\ predicts (snd r) label = Some true.

(** Heads predict for existing labels. *)
Definition head_for (numLabels : nat) (h : head bool) : Prop :=
  match h with
  | CompleteHead values => length values = numLabels
  | PartialHead values => Forall (fun p => fst p < numLabels) values
  end.

(** The labels of partial heads are given in ascending order. *)
Definition head_sorted (h : head bool) : Prop :=
  match h with CompleteHead _ => True | PartialHead values => StronglySorted lt (map fst values) end.

(** The default rule covers all examples and predicts for all labels. *)
Definition default_for (numLabels : nat) (d : option (rule bool)) : Prop :=
  match d with None => True | Some r => fst r = EmptyBody /\ exists values, snd r = CompleteHead values /\ length values = numLabels end.
