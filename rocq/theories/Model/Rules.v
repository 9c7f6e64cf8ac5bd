(** Model of conditions, condition lists, rule bodies, heads and rule lists. *)
From Coq Require Import ZArith NArith Arith List Bool.
From Verif Require Import Lib.Arr.
Import ListNotations.

(** A [float32]. [Fin z] stands for the number [z * 2^-149]; each finite [float32] is of this form. An infinity is
    represented by a number of larger magnitude than any finite [float32], which preserves the results of comparisons. *)
Inductive fval : Type := NaN | Fin (z : Z).

(** C++ [a > b] on [float32] operands. *)
Definition fgt (a b : fval) : bool :=
  match a, b with Fin x, Fin y => (y <? x)%Z | _, _ => false end.

(** C++ conversion [(int32) v] of a [float32]: truncation; undefined behaviour ([None]) if the result does not fit. *)
Definition toInt32 (v : fval) : option Z :=
  match v with
  | NaN => None
  | Fin z => let i := Z.quot z (2 ^ 149) in
             if ((- 2 ^ 31 <=? i) && (i <? 2 ^ 31))%Z then Some i else None
  end.

(** C++ conversion [(float32) v] of a [float32]. *)
Definition toFloat32 (v : fval) : option fval := Some v.

(** cpp/subprojects/common/include/mlrl/common/model/body_conjunctive.hpp, lines 56-159 (comparison functors). *)
Definition compareNumericalLeq (featureValue threshold : fval) : bool := negb (fgt featureValue threshold).
(** See above (cpp/subprojects/common/include/mlrl/common/model/body_conjunctive.hpp, lines 56-159). *)
Definition compareNumericalGr (featureValue threshold : fval) : bool := fgt featureValue threshold.
(** See above (cpp/subprojects/common/include/mlrl/common/model/body_conjunctive.hpp, lines 56-159). *)
Definition compareOrdinalLeq (featureValue threshold : Z) : bool := (featureValue <=? threshold)%Z.
(** See above (cpp/subprojects/common/include/mlrl/common/model/body_conjunctive.hpp, lines 56-159). *)
Definition compareOrdinalGr (featureValue threshold : Z) : bool := (threshold <? featureValue)%Z.
(** See above (cpp/subprojects/common/include/mlrl/common/model/body_conjunctive.hpp, lines 56-159). *)
Definition compareNominalEq (featureValue threshold : Z) : bool := (featureValue =? threshold)%Z.
(** See above (cpp/subprojects/common/include/mlrl/common/model/body_conjunctive.hpp, lines 56-159). *)
Definition compareNominalNeq (featureValue threshold : Z) : bool := negb (featureValue =? threshold)%Z.

(** A condition vector: feature indices and thresholds. *)
Definition cvec (T : Type) : Type := list (nat * T).

(** cpp/subprojects/common/src/mlrl/common/model/body_conjunctive.cpp, lines 9-27. *)
Fixpoint cvCoversDense {T} (conv : fval -> option T) (cmp : T -> T -> bool) (row : list fval) (conds : cvec T)
  : option bool :=
  match conds with
  | [] => Some true
  | (featureIndex, threshold) :: conds' =>
      let* v := aget row featureIndex in
      let* featureValue := conv v in
      if negb (cmp featureValue threshold) then Some false else cvCoversDense conv cmp row conds'
  end.

(** cpp/subprojects/common/src/mlrl/common/model/body_conjunctive.cpp, lines 29-51. *)
Fixpoint cvCoversSparse {T} (conv : fval -> option T) (cmp : T -> T -> bool) (sparseValue : fval)
  (tmp1 : list fval) (tmp2 : list N) (n : N) (conds : cvec T) : option bool :=
  match conds with
  | [] => Some true
  | (featureIndex, threshold) :: conds' =>
      let* stamp := aget tmp2 featureIndex in
      let* v := (if (stamp =? n)%N then aget tmp1 featureIndex else Some sparseValue) in
      let* featureValue := conv v in
      if negb (cmp featureValue threshold) then Some false
      else cvCoversSparse conv cmp sparseValue tmp1 tmp2 n conds'
  end.

(** The six condition vectors of a [ConjunctiveBody]: body_conjunctive.hpp, lines 161-171. *)
Record cbody : Type := mkBody {
  numericalLeq : cvec fval;
  numericalGr : cvec fval;
  ordinalLeq : cvec Z;
  ordinalGr : cvec Z;
  nominalEq : cvec Z;
  nominalNeq : cvec Z }.

(** C++ [a && b] for operands that may be undefined; the second one is evaluated only if the first one is true. *)
Definition andThen (a b : option bool) : option bool :=
  let* x := a in if x then b else Some false.

(** body_conjunctive.cpp, lines 274-278. *)
Definition cbodyCoversDense (row : list fval) (b : cbody) : option bool :=
  andThen (cvCoversDense toFloat32 compareNumericalLeq row (numericalLeq b))
  (andThen (cvCoversDense toFloat32 compareNumericalGr row (numericalGr b))
  (andThen (cvCoversDense toInt32 compareOrdinalLeq row (ordinalLeq b))
  (andThen (cvCoversDense toInt32 compareOrdinalGr row (ordinalGr b))
  (andThen (cvCoversDense toInt32 compareNominalEq row (nominalEq b))
           (cvCoversDense toInt32 compareNominalNeq row (nominalNeq b)))))).

(** body_conjunctive.cpp, lines 286-291: copies the values of a sparse row into the scratch arrays. *)
Definition writeScratch (entries : list (nat * fval)) (n : N) (tmp : list fval * list N)
  : option (list fval * list N) :=
  forL entries (fun '(featureIndex, featureValue) '(tmp1, tmp2) =>
    let* tmp1 := aset tmp1 featureIndex featureValue in
    let* tmp2 := aset tmp2 featureIndex n in
    Some (tmp1, tmp2)) tmp.

(** body_conjunctive.cpp, lines 280-305. Returns the scratch arrays as well. *)
Definition cbodyCoversSparse (entries : list (nat * fval)) (sparseValue : fval) (tmp : list fval * list N) (n : N)
  (b : cbody) : option (bool * (list fval * list N)) :=
  let* (tmp1, tmp2) := writeScratch entries n tmp in
  let* r :=
    andThen (cvCoversSparse toFloat32 compareNumericalLeq sparseValue tmp1 tmp2 n (numericalLeq b))
    (andThen (cvCoversSparse toFloat32 compareNumericalGr sparseValue tmp1 tmp2 n (numericalGr b))
    (andThen (cvCoversSparse toInt32 compareOrdinalLeq sparseValue tmp1 tmp2 n (ordinalLeq b))
    (andThen (cvCoversSparse toInt32 compareOrdinalGr sparseValue tmp1 tmp2 n (ordinalGr b))
    (andThen (cvCoversSparse toInt32 compareNominalEq sparseValue tmp1 tmp2 n (nominalEq b))
             (cvCoversSparse toInt32 compareNominalNeq sparseValue tmp1 tmp2 n (nominalNeq b)))))) in
  Some (r, (tmp1, tmp2)).

(** A body of a rule: cpp/subprojects/common/src/mlrl/common/model/body_empty.cpp, lines 3-11 (covers everything),
    or a conjunctive body. *)
Inductive body : Type := EmptyBody | ConjunctiveBody (b : cbody).

(** body_empty.cpp, lines 3-5, and body_conjunctive.cpp (see [cbodyCoversDense]). *)
Definition coversDense (row : list fval) (b : body) : option bool :=
  match b with EmptyBody => Some true | ConjunctiveBody b => cbodyCoversDense row b end.

(** body_empty.cpp, lines 7-11, and body_conjunctive.cpp (see [cbodyCoversSparse]). *)
Definition coversSparse (entries : list (nat * fval)) (sparseValue : fval) (tmp : list fval * list N) (n : N) (b : body)
  : option (bool * (list fval * list N)) :=
  match b with EmptyBody => Some (true, tmp) | ConjunctiveBody b => cbodyCoversSparse entries sparseValue tmp n b end.

(** ** Condition lists *)

(** cpp/subprojects/common/include/mlrl/common/model/condition.hpp, lines 13-20. *)
Inductive comparator : Type := NUMERICAL_LEQ | NUMERICAL_GR | ORDINAL_LEQ | ORDINAL_GR | NOMINAL_EQ | NOMINAL_NEQ.

(** See above (cpp/subprojects/common/include/mlrl/common/model/condition.hpp, lines 13-20). *)
Definition comparatorIndex (c : comparator) : nat :=
  match c with
  | NUMERICAL_LEQ => 0 | NUMERICAL_GR => 1 | ORDINAL_LEQ => 2 | ORDINAL_GR => 3 | NOMINAL_EQ => 4 | NOMINAL_NEQ => 5
  end.

(** condition.hpp, line 25: [std::variant<float32, int32>]. *)
Inductive threshold : Type := TFloat (v : fval) | TInt (z : Z).

(** condition.hpp, lines 33-81; the interval and the number of covered examples play no role here. *)
Record condition : Type := mkCond { cFeature : nat; cComparator : comparator; cThreshold : threshold }.

(** cpp/subprojects/common/include/mlrl/common/model/condition_list.hpp, lines 16-21: the vector and the number of conditions per
    comparator. *)
Record condList : Type := mkCondList { clVector : list condition; clCounts : list nat }.

(** Line 3. *)
Definition clEmpty : condList := mkCondList [] [0; 0; 0; 0; 0; 0].

(** Lines 5-10. *)
Definition clCopy (l : condList) : option condList :=
  let* c0 := aget (clCounts l) 0 in
  let* c1 := aget (clCounts l) 1 in
  let* c2 := aget (clCounts l) 2 in
  let* c3 := aget (clCounts l) 3 in
  let* c4 := aget (clCounts l) 4 in
  let* c5 := aget (clCounts l) 4 in
  Some (mkCondList (clVector l) [c0; c1; c2; c3; c4; c5]).

(** Lines 24-27. *)
Definition clAdd (l : condList) (c : condition) : option condList :=
  let i := comparatorIndex (cComparator c) in
  let* n := aget (clCounts l) i in
  let* counts := aset (clCounts l) i (n + 1) in
  Some (mkCondList (clVector l ++ [c]) counts).

(** Lines 29-33. [None] if there is no condition. *)
Definition clRemoveLast (l : condList) : option condList :=
  match rev (clVector l) with
  | [] => None
  | c :: rest =>
      let i := comparatorIndex (cComparator c) in
      let* n := aget (clCounts l) i in
      let* counts := aset (clCounts l) i (n - 1) in
      Some (mkCondList (rev rest) counts)
  end.

(** [*std::get_if<T>(&threshold)]; undefined for the other alternative. *)
Definition getFloat (t : threshold) : option fval := match t with TFloat v => Some v | TInt _ => None end.
Definition getInt (t : threshold) : option Z := match t with TInt z => Some z | TFloat _ => None end.

(** Lines 35-96. [junkF], [junkI]: content of uninitialised memory. The state consists of the vectors of the body and
    the index of the next element of each. *)
Definition clCreateBody (junkF : nat * fval) (junkI : nat * Z) (l : condList) : option cbody :=
  let* n0 := aget (clCounts l) (comparatorIndex NUMERICAL_LEQ) in
  let* n1 := aget (clCounts l) (comparatorIndex NUMERICAL_GR) in
  let* n2 := aget (clCounts l) (comparatorIndex ORDINAL_LEQ) in
  let* n3 := aget (clCounts l) (comparatorIndex ORDINAL_GR) in
  let* n4 := aget (clCounts l) (comparatorIndex NOMINAL_EQ) in
  let* n5 := aget (clCounts l) (comparatorIndex NOMINAL_NEQ) in
  let* (b, _) :=
    forL (clVector l) (fun c '(mkBody v0 v1 v2 v3 v4 v5, (i0, i1, i2, i3, i4, i5)) =>
      match cComparator c with
      | NUMERICAL_LEQ =>
          let* t := getFloat (cThreshold c) in
          let* v0 := aset v0 i0 (cFeature c, t) in
          Some (mkBody v0 v1 v2 v3 v4 v5, (i0 + 1, i1, i2, i3, i4, i5))
      | NUMERICAL_GR =>
          let* t := getFloat (cThreshold c) in
          let* v1 := aset v1 i1 (cFeature c, t) in
          Some (mkBody v0 v1 v2 v3 v4 v5, (i0, i1 + 1, i2, i3, i4, i5))
      | ORDINAL_LEQ =>
          let* t := getInt (cThreshold c) in
          let* v2 := aset v2 i2 (cFeature c, t) in
          Some (mkBody v0 v1 v2 v3 v4 v5, (i0, i1, i2 + 1, i3, i4, i5))
      | ORDINAL_GR =>
          let* t := getInt (cThreshold c) in
          let* v3 := aset v3 i3 (cFeature c, t) in
          Some (mkBody v0 v1 v2 v3 v4 v5, (i0, i1, i2, i3 + 1, i4, i5))
      | NOMINAL_EQ =>
          let* t := getInt (cThreshold c) in
          let* v4 := aset v4 i4 (cFeature c, t) in
          Some (mkBody v0 v1 v2 v3 v4 v5, (i0, i1, i2, i3, i4 + 1, i5))
      | NOMINAL_NEQ =>
          let* t := getInt (cThreshold c) in
          let* v5 := aset v5 i5 (cFeature c, t) in
          Some (mkBody v0 v1 v2 v3 v4 v5, (i0, i1, i2, i3, i4, i5 + 1))
      end)
      (mkBody (repeat junkF n0) (repeat junkF n1) (repeat junkI n2) (repeat junkI n3) (repeat junkI n4)
         (repeat junkI n5), (0, 0, 0, 0, 0, 0)) in
  Some b.

(** ** Rule lists *)

(** cpp/subprojects/common/include/mlrl/common/model/rule_list.hpp, lines 253-259. *)
Record ruleList (R : Type) : Type := mkRuleList {
  rlDefault : option R;
  rlRules : list R;
  rlNumUsed : nat;
  rlPrecedence : bool }.
Arguments mkRuleList {R}. Arguments rlDefault {R}. Arguments rlRules {R}. Arguments rlNumUsed {R}.
Arguments rlPrecedence {R}.

(** cpp/subprojects/common/src/mlrl/common/model/rule_list.cpp, lines 77-78, 118-124, 114-116. *)
Definition rlEmpty {R} (precedence : bool) : ruleList R := mkRuleList None [] 0 precedence.
(** See above (cpp/subprojects/common/src/mlrl/common/model/rule_list.cpp, lines 77-78, 118-124, 114-116). *)
Definition rlAddDefault {R} (l : ruleList R) (r : R) : ruleList R :=
  mkRuleList (Some r) (rlRules l) (rlNumUsed l) (rlPrecedence l).
(** See above (cpp/subprojects/common/src/mlrl/common/model/rule_list.cpp, lines 77-78, 118-124, 114-116). *)
Definition rlAddRule {R} (l : ruleList R) (r : R) : ruleList R :=
  mkRuleList (rlDefault l) (rlRules l ++ [r]) (rlNumUsed l) (rlPrecedence l).
(** See above (cpp/subprojects/common/src/mlrl/common/model/rule_list.cpp, lines 77-78, 118-124, 114-116). *)
Definition rlSetNumUsed {R} (l : ruleList R) (n : nat) : ruleList R :=
  mkRuleList (rlDefault l) (rlRules l) n (rlPrecedence l).

(** Lines 100-108. *)
Definition rlGetNumRules {R} (l : ruleList R) : nat :=
  length (rlRules l) + match rlDefault l with Some _ => 1 | None => 0 end.

(** Lines 110-112. *)
Definition rlGetNumUsed {R} (l : ruleList R) : nat :=
  if 0 <? rlNumUsed l then rlNumUsed l else rlGetNumRules l.

(** Lines 28-32: an iterator. *)
Record rlIter (R : Type) : Type := mkIter {
  itDefault : option R; itRules : list R; itOffset : nat; itDefaultIndex : nat; itIndex : nat }.
Arguments mkIter {R}. Arguments itDefault {R}. Arguments itRules {R}. Arguments itOffset {R}.
Arguments itDefaultIndex {R}. Arguments itIndex {R}.

(** See above (cpp/subprojects/common/src/mlrl/common/model/rule_list.cpp, lines 28-32). *)
Definition rlMakeIter {R} (l : ruleList R) (start stop : nat) : rlIter R :=
  let isDefault := match rlDefault l with Some _ => true | None => false end in
  let offset := if rlPrecedence l && isDefault then 1 else 0 in
  mkIter (rlDefault l) (rlRules l) offset
    (if 0 <? offset then 0 else stop - (if isDefault then 1 else 0)) start.

(** Lines 34-42. A null default rule must not be dereferenced. *)
Definition itDeref {R} (it : rlIter R) : option R :=
  if itIndex it =? itDefaultIndex it then itDefault it else aget (itRules it) (itIndex it - itOffset it).

(** Lines 60-63. *)
Definition itAdvance {R} (it : rlIter R) (difference : nat) : rlIter R :=
  mkIter (itDefault it) (itRules it) (itOffset it) (itDefaultIndex it) (itIndex it + difference).

(** Lines 73-75. *)
Definition itDiff {R} (a b : rlIter R) : nat := itIndex a - itIndex b.

(** Lines 80-98. *)
Definition limitRules (maxRules n : nat) : nat := if 0 <? maxRules then Nat.min n maxRules else n.
(** See above (cpp/subprojects/common/src/mlrl/common/model/rule_list.cpp, lines 80-98). *)
Definition rlBegin {R} (l : ruleList R) (maxRules : nat) : rlIter R :=
  rlMakeIter l 0 (limitRules maxRules (rlGetNumRules l)).
(** See above (cpp/subprojects/common/src/mlrl/common/model/rule_list.cpp, lines 80-98). *)
Definition rlEnd {R} (l : ruleList R) (maxRules : nat) : rlIter R :=
  let n := limitRules maxRules (rlGetNumRules l) in rlMakeIter l n n.
(** See above (cpp/subprojects/common/src/mlrl/common/model/rule_list.cpp, lines 80-98). *)
Definition rlUsedBegin {R} (l : ruleList R) (maxRules : nat) : rlIter R :=
  rlMakeIter l 0 (limitRules maxRules (rlGetNumUsed l)).
(** See above (cpp/subprojects/common/src/mlrl/common/model/rule_list.cpp, lines 80-98). *)
Definition rlUsedEnd {R} (l : ruleList R) (maxRules : nat) : rlIter R :=
  let n := limitRules maxRules (rlGetNumUsed l) in rlMakeIter l n n.

(** A loop [for (; it != end; it++) body]. The number of iterations is [end - it]; a loop whose bounds are reversed
    does not terminate normally and is not represented. *)
Fixpoint iterRange {R S} (cnt : nat) (it : rlIter R) (f : R -> S -> option S) (st : S) : option S :=
  match cnt with
  | O => Some st
  | S cnt' => let* r := itDeref it in
              let* st' := f r st in
              iterRange cnt' (itAdvance it 1) f st'
  end.

Definition iterLoop {R S} (it stop : rlIter R) (f : R -> S -> option S) (st : S) : option S :=
  iterRange (itDiff stop it) it f st.

(** Lines 134-150: the rules visited by [visit] and [visitUsed]. *)
Definition rlVisit {R} (l : ruleList R) : option (list R) :=
  iterLoop (rlBegin l 0) (rlEnd l 0) (fun r acc => Some (acc ++ [r])) [].
(** See above (cpp/subprojects/common/src/mlrl/common/model/rule_list.cpp, lines 134-150). *)
Definition rlVisitUsed {R} (l : ruleList R) : option (list R) :=
  iterLoop (rlUsedBegin l 0) (rlUsedEnd l 0) (fun r acc => Some (acc ++ [r])) [].
