(** What conditions, rules and rule lists mean. *)
From Coq Require Import ZArith NArith Arith List Bool.
From Verif Require Import Model.Rules Model.Prediction.
Import ListNotations.

(** The value of a feature satisfies a condition. A number [z] stands for [z * 2^-149]; the values of ordinal and
    nominal features are truncated to integers. *)
Definition satisfies (c : comparator) (t : threshold) (z : Z) : Prop :=
  match c, t with
  | NUMERICAL_LEQ, TFloat (Fin s) => (z <= s)%Z
  | NUMERICAL_GR, TFloat (Fin s) => (z > s)%Z
  | ORDINAL_LEQ, TInt s => (Z.quot z (2 ^ 149) <= s)%Z
  | ORDINAL_GR, TInt s => (Z.quot z (2 ^ 149) > s)%Z
  | NOMINAL_EQ, TInt s => Z.quot z (2 ^ 149) = s
  | NOMINAL_NEQ, TInt s => Z.quot z (2 ^ 149) <> s
  | _, _ => False
  end.

Definition is_numerical (c : comparator) : bool :=
  match c with NUMERICAL_LEQ | NUMERICAL_GR => true | _ => false end.

(** The threshold has the type required by the comparator. *)
Definition well_typed (c : condition) : Prop :=
  match cThreshold c with
  | TFloat (Fin _) => is_numerical (cComparator c) = true
  | TFloat NaN => False
  | TInt _ => is_numerical (cComparator c) = false
  end.

(** The example provides a value for the feature of the condition: no missing value, and one that fits into 32 bits in
    case of an ordinal or nominal feature. *)
Definition evaluable (row : list fval) (c : condition) : Prop :=
  exists z, nth_error row (cFeature c) = Some (Fin z) /\
    (is_numerical (cComparator c) = false -> (- 2 ^ 31 <= Z.quot z (2 ^ 149) < 2 ^ 31)%Z).

Definition holds (row : list fval) (c : condition) : Prop :=
  exists z, nth_error row (cFeature c) = Some (Fin z) /\ satisfies (cComparator c) (cThreshold c) z.

(** All conditions of a body. *)
Definition floatConds (c : comparator) (v : cvec fval) : list condition :=
  map (fun '(f, t) => mkCond f c (TFloat t)) v.
Definition intConds (c : comparator) (v : cvec Z) : list condition :=
  map (fun '(f, t) => mkCond f c (TInt t)) v.
Definition bodyConditions (b : cbody) : list condition :=
  floatConds NUMERICAL_LEQ (numericalLeq b) ++ floatConds NUMERICAL_GR (numericalGr b) ++
  intConds ORDINAL_LEQ (ordinalLeq b) ++ intConds ORDINAL_GR (ordinalGr b) ++
  intConds NOMINAL_EQ (nominalEq b) ++ intConds NOMINAL_NEQ (nominalNeq b).

(** A dense row has the same content as a sparse one. *)
Definition same_row (numFeatures : nat) (sparseValue : fval) (entries : list (nat * fval)) (row : list fval) : Prop :=
  length row = numFeatures /\
  (forall f v, In (f, v) entries -> nth_error row f = Some v) /\
  (forall f, f < numFeatures -> ~ In f (map fst entries) -> nth_error row f = Some sparseValue).

(** The conditions with a certain comparator, in order. *)
Definition comparator_eq_dec (a b : comparator) : {a = b} + {a <> b}.
Proof. decide equality. Defined.
Definition with_comparator (c : comparator) (l : list condition) : list condition :=
  filter (fun x => if comparator_eq_dec (cComparator x) c then true else false) l.

(** Histories of a condition list. *)
Inductive cl_op : Type := ClAdd (c : condition) | ClRemoveLast.

Fixpoint cl_run (l : condList) (ops : list cl_op) : option condList :=
  match ops with
  | [] => Some l
  | ClAdd c :: ops' => match clAdd l c with Some l' => cl_run l' ops' | None => None end
  | ClRemoveLast :: ops' => match clRemoveLast l with Some l' => cl_run l' ops' | None => None end
  end.

(** The conditions that remain; [None] if a condition is removed though there is none. *)
Fixpoint surviving (l : list condition) (ops : list cl_op) : option (list condition) :=
  match ops with
  | [] => Some l
  | ClAdd c :: ops' => surviving (l ++ [c]) ops'
  | ClRemoveLast :: ops' => match l with [] => None | _ => surviving (removelast l) ops' end
  end.

(** The order in which rules are expected to be visited if only [n] rules may be used: the default rule (if there is
    one) takes its configured position, the remaining positions are taken by the first other rules. *)
Definition expected_order {R} (default : option R) (rules : list R) (precedence : bool) (n : nat) : list R :=
  match default with
  | None => firstn n rules
  | Some d => if precedence then d :: firstn (n - 1) rules else firstn (n - 1) rules ++ [d]
  end.

(** Histories of a rule list. *)
Inductive rl_op (R : Type) : Type := RlDefault (r : R) | RlRule (r : R) | RlUsed (n : nat).
Arguments RlDefault {R}. Arguments RlRule {R}. Arguments RlUsed {R}.

Definition rl_step {R} (l : ruleList R) (o : rl_op R) : ruleList R :=
  match o with RlDefault r => rlAddDefault l r | RlRule r => rlAddRule l r | RlUsed n => rlSetNumUsed l n end.

Definition last_default {R} (ops : list (rl_op R)) : option R :=
  fold_left (fun acc o => match o with RlDefault r => Some r | _ => acc end) ops None.
Definition added_rules {R} (ops : list (rl_op R)) : list R :=
  flat_map (fun o => match o with RlRule r => [r] | _ => [] end) ops.
Definition last_used {R} (ops : list (rl_op R)) : nat :=
  fold_left (fun acc o => match o with RlUsed n => n | _ => acc end) ops 0.

(** ** Prediction *)

(** Adds the scores of a head to the scores of an example; [None] if the head refers to an output that does not
    exist. *)
Section Scores.
Context {V : Type} (add : V -> V -> V).

Fixpoint addComplete (h scores : list V) : option (list V) :=
  match h, scores with
  | [], _ => Some scores
  | v :: h', s :: scores' => option_map (cons (add s v)) (addComplete h' scores')
  | _ :: _, [] => None
  end.

Definition addAt (i : nat) (v : V) (scores : list V) : option (list V) :=
  match nth_error scores i with
  | Some s => Some (firstn i scores ++ add s v :: skipn (S i) scores)
  | None => None
  end.

Fixpoint addPartial (h : list (nat * V)) (scores : list V) : option (list V) :=
  match h with
  | [] => Some scores
  | (i, v) :: h' => match addAt i v scores with Some scores' => addPartial h' scores' | None => None end
  end.

Definition addHead (h : head V) (scores : list V) : option (list V) :=
  match h with CompleteHead h => addComplete h scores | PartialHead h => addPartial h scores end.

(** The rules are applied one after the other; [covers r] tells whether rule [r] covers the example. *)
Fixpoint score_of (covers : rule V -> option bool) (rules : list (rule V)) (scores : list V) : option (list V) :=
  match rules with
  | [] => Some scores
  | r :: rules' =>
      match covers r with
      | Some true => match addHead (snd r) scores with Some scores' => score_of covers rules' scores' | None => None end
      | Some false => score_of covers rules' scores
      | None => None
      end
  end.
End Scores.

(** The feature values of an example. *)
Definition example_row (m : featureMatrix) (i : nat) (row : list fval) : Prop :=
  match m with
  | DenseMatrix rows => nth_error rows i = Some row
  | CsrMatrix numCols sparseValue rows =>
      exists entries, nth_error rows i = Some entries /\ same_row numCols sparseValue entries row
  end.
