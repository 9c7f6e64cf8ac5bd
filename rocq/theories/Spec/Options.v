(** * Specification of the bracket notation

    The grammar of parameter values according to the documentation (doc/quickstart/testbed.md, section "Bracket
    Notation"): a value that is optionally followed by a comma-separated list of key-value pairs in curly brackets. *)

From Coq Require Import List Bool Ascii String.
From Verif Require Import Model.Options.
Import ListNotations.

(** The key-value pairs that have been specified, in order of appearance. *)
Definition pairs := list (pystr * pystr).

(** A word that does not contain any of the characters that separate key-value pairs. *)
Definition word (w : pystr) : Prop := w <> [] /\ ~ In ","%char w /\ ~ In "="%char w.

(** An element of the comma-separated list is either empty or a key-value pair. *)
Inductive element : pystr -> pairs -> Prop :=
| empty_element : element [] []
| pair_element : forall k v, word k -> word v -> element (k ++ "="%char :: v) [(k, v)].

(** The elements are separated by commas. *)
Inductive elements : pystr -> pairs -> Prop :=
| last_element : forall e ps, element e ps -> elements e ps
| more_elements : forall e ps r qs, element e ps -> elements r qs -> elements (e ++ ","%char :: r) (ps ++ qs).

(** White space. *)
Definition spaces (s : pystr) : Prop := Forall (fun c => isSpace c = true) s.

(** The text [text] specifies the value [v], together with the key-value pairs [ps], given the allowed values and the
    keys that are allowed in combination with them. *)
Definition specifies (allowed : pydict (list pystr)) (text v : pystr) (ps : pairs) : Prop :=
  exists keys, In (v, keys) allowed /\ Forall (fun p => In (fst p) keys) ps /\
    exists s1 s2, spaces s1 /\ spaces s2 /\
      ((text = v ++ s1 /\ ps = []) \/
       exists body, elements body ps /\ text = v ++ s1 ++ "{"%char :: body ++ "}"%char :: s2).

(** The value that corresponds to a key, if it has been specified several times, the last one counts. *)
Fixpoint lastValue (k : pystr) (ps : pairs) : option pystr :=
  match ps with
  | [] => None
  | (k', v) :: ps' =>
      match lastValue k ps' with
      | Some w => Some w
      | None => if pyEq k' k then Some v else None
      end
  end.

(** No allowed value starts with another one. *)
Definition unambiguous {V : Type} (allowed : pydict V) : Prop :=
  NoDup (map fst allowed) /\
  forall v w, In v (map fst allowed) -> In w (map fst allowed) -> (exists s, w = v ++ s) -> v = w.

(** The usual way to write down key-value pairs. *)
Fixpoint writePairs (ps : pairs) : pystr :=
  match ps with
  | [] => []
  | [(k, v)] => k ++ "="%char :: v
  | (k, v) :: ps' => k ++ "="%char :: v ++ ","%char :: writePairs ps'
  end.
