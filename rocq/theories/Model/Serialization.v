(** Model of the serialization of models by Python's pickle module. The states that are written and read are Python
    objects; here, they are represented by typed values of the same structure.
    python/subprojects/common/mlrl/common/cython/{rule_model,output_space_info,probability_calibration}.pyx *)
From Coq Require Import ZArith NArith Arith List Bool.
From Verif Require Import Lib.Arr Model.Rules Model.Prediction.
Import ListNotations.

(** The outcome of a Python function: a value, an exception, or undefined behaviour of the underlying C++ code. *)
Inductive outcome (A : Type) : Type := Returned (a : A) | Raised | Undefined.
Arguments Returned {A}. Arguments Raised {A}. Arguments Undefined {A}.

Notation "'let!' x ':=' e1 'in' e2" :=
  (match e1 with Returned x => e2 | Raised => Raised | Undefined => Undefined end)
  (at level 200, x pattern, e1 at level 100, e2 at level 200, right associativity).

(** C++ code that is called from Python. *)
Definition called {A} (o : option A) : outcome A := match o with Some a => Returned a | None => Undefined end.

(** [for i in range(cnt)] and [for x in xs]. *)
Fixpoint pyForN {A} (cnt start : nat) (f : nat -> A -> outcome A) (st : A) : outcome A :=
  match cnt with O => Returned st | S cnt' => let! st := f start st in pyForN cnt' (start + 1) f st end.
Fixpoint pyForL {A B} (xs : list B) (f : B -> A -> outcome A) (st : A) : outcome A :=
  match xs with [] => Returned st | x :: xs => let! st := f x st in pyForL xs f st end.

(** The cast [<T[:num_elements]>ptr] of Cython creates a view on an array; it raises an error if [num_elements] is 0. *)
Definition castToArray {T} (xs : list T) : outcome (list T) :=
  match xs with [] => Raised | _ :: _ => Returned xs end.

(** [np.asarray(<T[:num_elements]>ptr) if num_elements > 0 else None]. *)
Definition optionalArray {T} (xs : list T) : outcome (option (list T)) :=
  if 0 <? length xs then let! a := castToArray xs in Returned (Some a) else Returned None.

Section Serialization.
Context {V : Type}.

(** ** Rule models *)

(** rule_model.pyx, lines 290-315: the elements of the tuple, in order. *)
Record bodyState : Type := mkBodyState {
  bs0 : option (list fval); bs1 : option (list nat); bs2 : option (list fval); bs3 : option (list nat);
  bs4 : option (list Z); bs5 : option (list nat); bs6 : option (list Z); bs7 : option (list nat);
  bs8 : option (list Z); bs9 : option (list nat); bs10 : option (list Z); bs11 : option (list nat) }.

(** Lines 321 and 327-328: a tuple that consists of one or two arrays. *)
Inductive headState : Type := OneArray (scores : list V) | TwoArrays (scores : list V) (indices : list nat).

(** Lines 280, 316: a list of two elements, each of which may be [None]. *)
Definition ruleState : Type := (option bodyState * option headState)%type.

(** Line 485: version, states of the rules, whether the default rule takes precedence, number of used rules. *)
Definition modelState : Type := (nat * (list ruleState * bool * nat))%type.

(** Lines 278-281. *)
Definition serializeEmptyBody (state : list ruleState) : outcome (list ruleState) :=
  Returned (state ++ [(None, None)]).

(** Lines 283-317. *)
Definition serializeConjunctiveBody (b : cbody) (state : list ruleState) : outcome (list ruleState) :=
  let! s0 := optionalArray (map snd (numericalLeq b)) in
  let! s1 := optionalArray (map fst (numericalLeq b)) in
  let! s2 := optionalArray (map snd (numericalGr b)) in
  let! s3 := optionalArray (map fst (numericalGr b)) in
  let! s4 := optionalArray (map snd (ordinalLeq b)) in
  let! s5 := optionalArray (map fst (ordinalLeq b)) in
  let! s6 := optionalArray (map snd (ordinalGr b)) in
  let! s7 := optionalArray (map fst (ordinalGr b)) in
  let! s8 := optionalArray (map snd (nominalEq b)) in
  let! s9 := optionalArray (map fst (nominalEq b)) in
  let! s10 := optionalArray (map snd (nominalNeq b)) in
  let! s11 := optionalArray (map fst (nominalNeq b)) in
  Returned (state ++ [(Some (mkBodyState s0 s1 s2 s3 s4 s5 s6 s7 s8 s9 s10 s11), None)]).

(** Lines 322-323 and 329-330: the element at index 1 of the last list is replaced. *)
Definition setHeadState (h : headState) (state : list ruleState) : outcome (list ruleState) :=
  let! r := called (aget state (length state - 1)) in
  called (aset state (length state - 1) (fst r, Some h)).

(** Lines 319-323. *)
Definition serializeCompleteHead (h : list V) (state : list ruleState) : outcome (list ruleState) :=
  let! scores := castToArray h in setHeadState (OneArray scores) state.

(** Lines 325-330. *)
Definition serializePartialHead (h : list (nat * V)) (state : list ruleState) : outcome (list ruleState) :=
  let! scores := castToArray (map snd h) in
  let! indices := castToArray (map fst h) in
  setHeadState (TwoArrays scores indices) state.

(** cpp/subprojects/common/src/mlrl/common/model/rule_list.cpp, lines 20-26, with the visitors of rule_model.pyx, lines
    478-482. *)
Definition serializeRule (r : @rule V) (state : list ruleState) : outcome (list ruleState) :=
  let! state :=
    match fst r with EmptyBody => serializeEmptyBody state | ConjunctiveBody b => serializeConjunctiveBody b state end in
  match snd r with
  | CompleteHead h => serializeCompleteHead h state
  | PartialHead h => serializePartialHead h state
  end.

(** rule_model.pyx, line 11. *)
Definition ruleModelVersion : nat := 4.

(** Lines 476-487. An error that occurs in a visitor is reported, but does not stop the visit; this is simplified. *)
Definition reduceRuleList (l : ruleList (@rule V)) : outcome modelState :=
  let! rules := called (rlVisit l) in
  let! state := pyForL rules serializeRule [] in
  Returned (ruleModelVersion, (state, rlPrecedence l, rlGetNumUsed l)).

(** Lines 353-405: a vector of conditions with as many elements as there are thresholds is allocated
    and filled. [junk]: content of uninitialised memory. Elements of an array that does not exist must not be read. *)
Definition deserializeVector {T} (junk : nat * T) (thresholds : option (list T)) (indices : option (list nat))
  : outcome (cvec T) :=
  let n := match thresholds with Some a => length a | None => 0 end in
  called (forN n 0 (fun i v =>
    let* thresholds := thresholds in
    let* threshold := aget thresholds i in
    let* indices := indices in
    let* index := aget indices i in
    aset v i (index, threshold)) (repeat junk n)).

(** Lines 340-407. *)
Definition deserializeConjunctiveBody (junkF : nat * fval) (junkI : nat * Z) (s : bodyState) : outcome cbody :=
  let! v0 := deserializeVector junkF (bs0 s) (bs1 s) in
  let! v1 := deserializeVector junkF (bs2 s) (bs3 s) in
  let! v2 := deserializeVector junkI (bs4 s) (bs5 s) in
  let! v3 := deserializeVector junkI (bs6 s) (bs7 s) in
  let! v4 := deserializeVector junkI (bs8 s) (bs9 s) in
  let! v5 := deserializeVector junkI (bs10 s) (bs11 s) in
  Returned (mkBody v0 v1 v2 v3 v4 v5).

(** Lines 332-338; a null pointer is represented by [None]. *)
Definition deserializeBody (junkF : nat * fval) (junkI : nat * Z) (s : option bodyState) : outcome (option cbody) :=
  match s with
  | None => Returned None
  | Some s => let! b := deserializeConjunctiveBody junkF junkI s in Returned (Some b)
  end.

(** Lines 415-425. *)
Definition deserializeCompleteHead (junkV : V) (scores : list V) : outcome (@head V) :=
  let n := length scores in
  let! values := called (forN n 0 (fun i v => let* s := aget scores i in aset v i s) (repeat junkV n)) in
  Returned (CompleteHead values).

(** Lines 427-440. *)
Definition deserializePartialHead (junkV : V) (scores : list V) (indices : list nat) : outcome (@head V) :=
  let n := length scores in
  let! values := called (forN n 0 (fun i v =>
    let* s := aget scores i in
    let* index := aget indices i in
    aset v i (index, s)) (repeat (0, junkV) n)) in
  Returned (PartialHead values).

(** Lines 409-413; [len(None)] raises an error. *)
Definition deserializeHead (junkV : V) (s : option headState) : outcome (@head V) :=
  match s with
  | None => Raised
  | Some (TwoArrays scores indices) => deserializePartialHead junkV scores indices
  | Some (OneArray scores) => deserializeCompleteHead junkV scores
  end.

(** Lines 489-518. *)
Definition setstateRuleList (junkF : nat * fval) (junkI : nat * Z) (junkV : V) (s : modelState)
  : outcome (ruleList (@rule V)) :=
  let '(version, (rules, precedence, numUsed)) := s in
  if negb (version =? ruleModelVersion) then Raised else
  let! l := pyForN (length rules) 0 (fun i l =>
    let! r := called (aget rules i) in
    let! b := deserializeBody junkF junkI (fst r) in
    let! h := deserializeHead junkV (snd r) in
    match b with
    | None => Returned (rlAddDefault l (EmptyBody, h))
    | Some b => Returned (rlAddRule l (ConjunctiveBody b, h))
    end) (rlEmpty precedence) in
  Returned (rlSetNumUsed l numUsed).

End Serialization.

(** ** Label vector sets *)

(** The label vectors and their frequencies. *)
Definition lvSet : Type := (list (list nat) * list nat)%type.

(** cpp/subprojects/common/src/mlrl/common/prediction/label_vector_set.cpp, lines 56-59. *)
Definition lvsAdd (s : lvSet) (v : list nat) (frequency : nat) : lvSet := (fst s ++ [v], snd s ++ [frequency]).

(** Lines 61-69. *)
Definition lvsVisit {A} (visitor : list nat -> nat -> A -> outcome A) (s : lvSet) (st : A) : outcome A :=
  pyForN (length (fst s)) 0 (fun i st =>
    let! v := called (aget (fst s) i) in
    let! frequency := called (aget (snd s) i) in
    visitor v frequency st) st.

(** output_space_info.pyx, line 11. *)
Definition outputSpaceVersion : nat := 3.

(** Lines 80-90. *)
Definition serializeLabelVector (v : list nat) (frequency : nat) (state : list (list nat * nat))
  : outcome (list (list nat * nat)) :=
  let! labels := pyForN (length v) 0 (fun i labels =>
    let! labelIndex := called (aget v i) in Returned (labels ++ [labelIndex])) [] in
  Returned (state ++ [(labels, frequency)]).

(** Lines 104-110. *)
Definition reduceLabelVectorSet (s : lvSet) : outcome (nat * list (list nat * nat)) :=
  let! state := lvsVisit serializeLabelVector s [] in Returned (outputSpaceVersion, state).

(** Lines 92-102. *)
Definition deserializeLabelVector (junk : nat) (labels : list nat) : outcome (list nat) :=
  pyForN (length labels) 0 (fun i v =>
    let! labelIndex := called (aget labels i) in called (aset v i labelIndex)) (repeat junk (length labels)).

(** Lines 112-129. *)
Definition setstateLabelVectorSet (junk : nat) (state : nat * list (list nat * nat)) : outcome lvSet :=
  let '(version, vectors) := state in
  if negb (version =? outputSpaceVersion) then Raised else
  pyForN (length vectors) 0 (fun i s =>
    let! (labels, frequency) := called (aget vectors i) in
    let! v := deserializeLabelVector junk labels in
    Returned (lvsAdd s v frequency)) ([], []).

(** ** Isotonic calibration models *)

Section Calibration.
(** Thresholds and probabilities are copied only. *)
Context {P : Type}.

(** cpp/subprojects/common/src/mlrl/common/prediction/probability_calibration_isotonic.cpp, lines 134-136, 180-182. *)
Definition calCreate (numLists : nat) : list (list (P * P)) := repeat [] numLists.

(** Lines 162-165. *)
Definition calAddBin (m : list (list (P * P))) (listIndex : nat) (threshold probability : P)
  : option (list (list (P * P))) :=
  let* row := aget m listIndex in aset m listIndex (row ++ [(threshold, probability)]).

(** Lines 167-178. *)
Definition calVisit {A} (visitor : nat -> P -> P -> A -> outcome A) (m : list (list (P * P))) (st : A) : outcome A :=
  pyForN (length m) 0 (fun i st =>
    let! bins := called (aget m i) in
    pyForL bins (fun b st => visitor i (fst b) (snd b) st) st) st.

(** probability_calibration.pyx, line 8. *)
Definition calibrationVersion : nat := 0.

(** Lines 117-119 and 175-177; an index that is out of range raises an error. *)
Definition serializeBin (listIndex : nat) (threshold probability : P) (state : list (list (P * P)))
  : outcome (list (list (P * P))) :=
  match aget state listIndex with
  | None => Raised
  | Some bins => called (aset state listIndex (bins ++ [(threshold, probability)]))
  end.

(** Lines 121-128 and 179-186. *)
Definition reduceCalibration (m : list (list (P * P))) : outcome (nat * list (list (P * P))) :=
  let! state := calVisit serializeBin m (repeat [] (length m)) in Returned (calibrationVersion, state).

(** Lines 130-154 and 188-212. *)
Definition setstateCalibration (state : nat * list (list (P * P))) : outcome (list (list (P * P))) :=
  let '(version, lists) := state in
  if negb (version =? calibrationVersion) then Raised else
  pyForN (length lists) 0 (fun i m =>
    let! bins := called (aget lists i) in
    pyForN (length bins) 0 (fun j m =>
      let! (threshold, probability) := called (aget bins j) in
      called (calAddBin m i threshold probability)) m) (calCreate (length lists)).
End Calibration.
