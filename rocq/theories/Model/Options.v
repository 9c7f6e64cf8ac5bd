(** * Parsing of parameter values that are specified in bracket notation

    Model of options.py (python/subprojects/common/mlrl/common/options.py): the functions that parse the value of a
    nominal parameter, e.g., [equal-width{bin_ratio=0.33,min_bins=2}].

    Simplifications: A Python string is a list of 8-bit characters (code points up to 255). The messages of exceptions
    are omitted. The built-in conversions [int(...)] and [float(...)] are represented by arbitrary functions. *)

From Coq Require Import List Bool Ascii String PeanoNat.
Import ListNotations.

(** A Python string. *)
Definition pystr := list ascii.

(** A string literal. *)
Definition str (s : string) : pystr := list_ascii_of_string s.

(** The outcome of a Python function: it returns a value, it raises a [ValueError] (options.py, lines 32, 63-98, 145,
    166, 186, 210, 215) or it raises an [AttributeError], because a method does not exist. *)
Inductive result (A : Type) : Type :=
| Ok : A -> result A
| ValueError : result A
| AttributeError : result A.
Arguments Ok {A} _.
Arguments ValueError {A}.
Arguments AttributeError {A}.

(** Sequential execution, where an exception that is raised by the first statement is passed on. *)
Definition rbind {A B : Type} (r : result A) (f : A -> result B) : result B :=
  match r with
  | Ok a => f a
  | ValueError => ValueError
  | AttributeError => AttributeError
  end.

Notation "'let?' x ':=' e 'in' f" := (rbind e (fun x => f)) (at level 200, x pattern, e at level 100, f at level 200).

(** The operator [==] for strings. *)
Fixpoint pyEq (a b : pystr) : bool :=
  match a, b with
  | [], [] => true
  | c :: a', d :: b' => Ascii.eqb c d && pyEq a' b'
  | _, _ => false
  end.

(** The operator [in] for sets of strings. *)
Definition pyIn (x : pystr) (l : list pystr) : bool := existsb (pyEq x) l.

(** The method [str.startswith]. *)
Fixpoint startsWith (s p : pystr) : bool :=
  match p, s with
  | [], _ => true
  | c :: p', d :: s' => Ascii.eqb c d && startsWith s' p'
  | _ :: _, [] => false
  end.

(** The method [str.endswith]. *)
Definition endsWith (s p : pystr) : bool := startsWith (rev s) (rev p).

(** The method [str.split] with a single character as the separator. *)
Fixpoint split (sep : ascii) (s : pystr) : list pystr :=
  match s with
  | [] => [[]]
  | c :: s' =>
      if Ascii.eqb c sep then [] :: split sep s'
      else match split sep s' with
           | [] => [[c]]
           | w :: ws => (c :: w) :: ws
           end
  end.

(** The method [str.isspace] for a single character. *)
Definition isSpace (c : ascii) : bool :=
  let n := nat_of_ascii c in
  ((9 <=? n) && (n <=? 13)) || ((28 <=? n) && (n <=? 32)) || (n =? 133) || (n =? 160).

(** The method [str.lstrip]. *)
Fixpoint lstrip (s : pystr) : pystr :=
  match s with
  | [] => []
  | c :: s' => if isSpace c then lstrip s' else s
  end.

(** The method [str.strip]. *)
Definition strip (s : pystr) : pystr := rev (lstrip (rev (lstrip s))).

(** A Python dictionary, the keys of which are strings, in order of insertion. *)
Definition pydict (V : Type) := list (pystr * V).

(** The assignment [d[key] = value]. *)
Fixpoint dictSet {V : Type} (k : pystr) (v : V) (d : pydict V) : pydict V :=
  match d with
  | [] => [(k, v)]
  | (k', v') :: d' => if pyEq k' k then (k', v) :: d' else (k', v') :: dictSet k v d'
  end.

(** The access [d[key]], where [None] means that the key is missing. *)
Fixpoint dictGet {V : Type} (k : pystr) (d : pydict V) : option V :=
  match d with
  | [] => None
  | (k', v') :: d' => if pyEq k' k then Some v' else dictGet k d'
  end.

(** The class [Options] (options.py, lines 36-46): the key-value pairs that have been specified. *)
Definition options := pydict pystr.

(** The body of the loop in [Options.create] (options.py, lines 71-100). *)
Fixpoint createLoop (allowed : list pystr) (elements : list pystr) (d : options) : result options :=
  match elements with
  | [] => Ok d
  | option :: elements' =>
      if 0 <? List.length option then
        match split "=" option with
        | [key; value] =>
            if List.length key =? 0 then ValueError
            else if negb (pyIn key allowed) then ValueError
            else if List.length value =? 0 then ValueError
            else createLoop allowed elements' (dictSet key value d)
        | _ => ValueError
        end
      else createLoop allowed elements' d
  end.

(** The function [Options.create] (options.py, lines 48-102). *)
Definition createOptions (string : pystr) (allowed : list pystr) : result options :=
  if 0 <? List.length string then
    if negb (startsWith string (str "{")) then ValueError
    else if negb (endsWith string (str "}")) then ValueError
    else
      let string := removelast (tl string) in
      if 0 <? List.length string then createLoop allowed (split "," string) [] else Ok []
  else Ok [].

(** The function [BooleanOption.parse] (options.py, lines 19-33). *)
Definition parseBoolean (text : pystr) : result bool :=
  if pyEq text (str "true") then Ok true
  else if pyEq text (str "false") then Ok false
  else ValueError.

(** The function [get_string] (options.py, lines 104-115). *)
Definition getString (o : options) (key : pystr) (default : pystr) : pystr :=
  match dictGet key o with
  | Some v => v
  | None => default
  end.

(** The function [get_bool] (options.py, lines 117-129). *)
Definition getBool (o : options) (key : pystr) (default : bool) : result bool :=
  match dictGet key o with
  | Some v => parseBoolean v
  | None => Ok default
  end.

(** The functions [get_int] and [get_float] (options.py, lines 131-171), given the conversion [int] or [float]. *)
Definition getNumber {N : Type} (convert : pystr -> option N) (o : options) (key : pystr) (default : N) : result N :=
  match dictGet key o with
  | Some v => match convert v with Some n => Ok n | None => ValueError end
  | None => Ok default
  end.

(** The function [parse_param] (options.py, lines 174-187). *)
Definition parseParam (value : pystr) (allowed : list pystr) : result pystr :=
  if pyIn value allowed then Ok value else ValueError.

(** The function [parse_param_and_options] (options.py, lines 190-216). The dictionary is traversed in order of
    insertion. *)
Fixpoint parseParamAndOptions (value : pystr) (allowed : pydict (list pystr)) : result (pystr * options) :=
  match allowed with
  | [] => ValueError
  | (allowedValue, allowedOptions) :: allowed' =>
      if startsWith value allowedValue then
        let suffix := strip (skipn (List.length allowedValue) value) in
        if 0 <? List.length suffix then
          let? o := createOptions suffix allowedOptions in Ok (allowedValue, o)
        else Ok (allowedValue, [])
      else parseParamAndOptions value allowed'
  end.
