(** Specifications for stopping criteria and the assemblage of rules. *)
From Coq Require Import ZArith QArith Arith List Bool.
From Verif Require Import Lib.Arr Model.Stopping Spec.Containers.
Import ListNotations.
Open Scope nat_scope.

(** The last number of rules that has been reported, zero if there is none. *)
Fixpoint last_reported (l : list nat) : nat :=
  match l with
  | [] => 0
  | n :: l' => if last_reported l' =? 0 then n else last_reported l'
  end.

(** The sum of a list of numbers. *)
Definition Qsum (l : list Q) : Q := fold_right Qplus 0%Q l.

(** [a] is the minimum/maximum/mean of the elements of [l]. *)
Definition is_aggregate (f : aggregationFunction) (l : list Q) (a : Q) : Prop :=
  match f with
  | AggMin => (exists x, In x l /\ x == a)%Q /\ (forall x, In x l -> a <= x)%Q
  | AggMax => (exists x, In x l /\ x == a)%Q /\ (forall x, In x l -> x <= a)%Q
  | AggMean => (a * inject_Z (Z.of_nat (length l)) == Qsum l)%Q
  end.

(** [n] is the first of the numbers [candidates] whose score is minimal. *)
Definition first_best (score : nat -> Q) (candidates : list nat) (n : nat) : Prop :=
  exists l1 l2, candidates = l1 ++ n :: l2 /\
    Forall (fun m => score n < score m)%Q l1 /\ Forall (fun m => score n <= score m)%Q l2.

(** The models whose quality is assessed by post-pruning. *)
Definition post_evaluated (minRules interval start cnt : nat) : list nat :=
  filter (fun r => (minRules <=? r) && (r mod interval =? 0)) (seq start cnt).

(** Pre-pruning: each [u]-th model is assessed, provided that it has more than [offset] rules. The first [start] models
    are not assessed. *)
Definition pre_offset (c : preConfig) : nat :=
  pcMinRules c - (pcNumPast c + pcNumCurrent c) * pcUpdateInterval c.
Definition pre_evaluated (c : preConfig) (start r : nat) : list nat :=
  filter (fun r => (pre_offset c <? r) && (r mod pcUpdateInterval c =? 0)) (seq start (r - start)).

(** At [r], at least as many models have been assessed before as fit into both windows. *)
Definition windows_full (c : preConfig) (start r : nat) : Prop :=
  pre_offset c < r /\ r mod pcUpdateInterval c = 0 /\
  pcNumPast c + pcNumCurrent c <= length (pre_evaluated c start r).

(** The improvement of the recent over the past scores, relative to the recent ones, is below [m]. A quotient with
    divisor zero is infinite or undefined. *)
Definition improvement_below (past recent m : Q) : Prop :=
  (~ recent == 0 /\ (past - recent) / recent < m)%Q \/ (recent == 0 /\ past < 0)%Q.

(** The condition for stopping at [r]. *)
Definition must_stop (c : preConfig) (score : nat -> Q) (start r : nat) : Prop :=
  let hist := map score (pre_evaluated c start r) in
  windows_full c start r /\ r mod pcStopInterval c = 0 /\
  exists past recent,
    is_aggregate (pcAggregation c) (firstn (pcNumPast c) (lastn (pcNumPast c + pcNumCurrent c) hist)) past /\
    is_aggregate (pcAggregation c) (lastn (pcNumCurrent c) hist) recent /\
    improvement_below past recent (pcMinImprovement c).

(** The models among which pre-pruning selects: those that have been assessed with full windows, up to [r]. *)
Definition pre_candidates (c : preConfig) (start r : nat) : list nat :=
  skipn (pcNumPast c + pcNumCurrent c) (pre_evaluated c start (r + 1)).

(** A training run that starts with [n0] rules, learns [rules] and then ends. [ts]: the training state before the i-th
    rule is learned, [cs]: the state of the stopping criterion before its i-th test. *)
Definition training_run {R T C} (test : T -> nat -> C -> option (result * C)) (induce : T -> option R * T) (n0 : nat)
  (ts : nat -> T) (cs : nat -> C) (rules : list R) (results : list result) (final : T) : Prop :=
  length results = length rules + 1 /\
  (forall i r, nth_error results i = Some r -> test (ts i) (n0 + i) (cs i) = Some (r, cs (i + 1))) /\
  (forall i rule, nth_error rules i = Some rule ->
     (exists used, nth_error results i = Some (mkResult false used)) /\
     induce (ts i) = (Some rule, ts (i + 1))) /\
  (exists stop used, nth_error results (length rules) = Some (mkResult stop used) /\
     if stop then final = ts (length rules) else induce (ts (length rules)) = (None, final)).

(** Criteria that never report a number of rules to be used. *)
Definition silent (c : crit) : Prop :=
  match c with CSize _ | CTime _ _ => True | CPost _ _ _ _ _ | CPre _ _ _ _ => False end.
