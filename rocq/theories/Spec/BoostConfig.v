(** Notions for stating which kinds of rules and statistics result from a configuration. *)
From Coq Require Import Arith Bool.
From Verif Require Import Model.BoostConfig.

(** [may_predict e n k]: given [n] outputs, a rule that is evaluated via [e] may predict for [k] of them. *)
Definition may_predict (e : evaluator) (n k : nat) : Prop :=
  match e with
  | DecomposableSingleOutput => k = 1
  | DecomposableComplete _ | NonDecomposableComplete _ => k = n
  | DecomposableFixedPartial _ | NonDecomposableFixedPartial _
  | DecomposableDynamicPartial _ | NonDecomposableDynamicPartial _ => 1 <= k <= n
  end.

(** Whether the outputs, for which a rule that is evaluated via [e] predicts, are assigned to bins. *)
Definition uses_bins (e : evaluator) : bool :=
  match e with
  | DecomposableSingleOutput => false
  | DecomposableComplete b | DecomposableFixedPartial b | DecomposableDynamicPartial b
  | NonDecomposableComplete b | NonDecomposableFixedPartial b | NonDecomposableDynamicPartial b => b
  end.

(** Whether gradients and Hessians are stored in a sparse format. *)
Definition stored_sparsely (t : training) : Prop := trStorage t = SparseDecomposable.

(** The same configuration with another choice of the parameter [default_rule]. *)
Definition with_default_rule (c : config) (d : defaultRule) : config :=
  mkConfig (cfgLoss c) (cfgHead c) (cfgFormat c) d (cfgBinning c).

(** The losses that come with an implementation for sparse statistics. *)
Definition supports_sparse_statistics (l : loss) : Prop := l = DecomposableSquaredHinge.

(** The evaluation [e] results in heads of the configured type. *)
Definition has_head_type (h : headType) (e : evaluator) : Prop :=
  match h with
  | HeadAuto => True
  | HeadSingle => e = DecomposableSingleOutput
  | HeadPartialFixed => exists b, e = DecomposableFixedPartial b \/ e = NonDecomposableFixedPartial b
  | HeadPartialDynamic => exists b, e = DecomposableDynamicPartial b \/ e = NonDecomposableDynamicPartial b
  | HeadComplete => exists b, e = DecomposableComplete b \/ e = NonDecomposableComplete b
  end.
