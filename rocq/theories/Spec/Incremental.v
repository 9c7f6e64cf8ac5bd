(** Definitions for stating the properties of the predictions that are obtained from Python. *)
From Coq Require Import List Bool Arith ZArith.
From Verif Require Import Lib.Arr Model.Estimators Model.Incremental.
Import ListNotations.

(** The number of rules that are used after each step. *)
Fixpoint totals (steps : list nat) : list nat :=
  match steps with [] => [] | s :: steps => s :: map (fun t => s + t) (totals steps) end.

(** The maximum number of rules, if it is restricted in addition. *)
Definition restrict (maxRules n : nat) : nat := if maxRules =? 0 then n else Nat.min maxRules n.

(** Statements after which the incremental predictor is not used anymore. *)
Definition cleanup {R} (s : statement R) : Prop := match s with ApplyNext _ => False | _ => True end.

(** Whether the arrays that are returned to the user own their memory. *)
Definition ownsMemory (native : bool) (k : kind) : Prop := native = false \/ k = Probabilities 1.

(** The sizes of the models that are documented to be evaluated. *)
Definition firstSize (minSize stepSize : nat) : nat := if minSize =? 0 then stepSize else minSize.
