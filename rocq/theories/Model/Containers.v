(** Model of basic containers: bit vector, ring buffer, sparse set.
    Sources (below cpp/subprojects/common): src/mlrl/common/data/vector_bit.cpp,
    include/mlrl/common/data/ring_buffer.hpp, include/mlrl/common/data/view_vector_sparse_set.hpp. *)
From Coq Require Import NArith Arith List Bool.
From Verif Require Import Lib.Arr Model.Rng.
Import ListNotations.
Open Scope nat_scope.

(** * Bit vector. State: the array of 32-bit words. *)

(** vector_bit.cpp, line 5. *)
Definition UINT32_SIZE : nat := 32.

(** vector_bit.cpp, lines 7-9. *)
Definition bv_size (numElements : nat) : nat :=
  numElements / UINT32_SIZE + (if numElements mod UINT32_SIZE =? 0 then 0 else 1).

(** vector_bit.cpp, lines 11-13. *)
Definition bv_index (pos : nat) : nat := pos / UINT32_SIZE.

(** vector_bit.cpp, lines 15-17. *)
Definition bv_mask (pos : nat) : N := u32 (N.shiftl 1 (N.of_nat (pos mod UINT32_SIZE))).

(** Bitwise complement of a [uint32]. *)
Definition u32_not (x : N) : N := N.lxor x (N.ones 32).

(** vector_bit.cpp, lines 24-26. *)
Definition bv_get (arr : list N) (pos : nat) : option bool :=
  let* w := aget arr (bv_index pos) in Some (negb (N.land w (bv_mask pos) =? 0)%N).

(** vector_bit.cpp, lines 28-34. *)
Definition bv_set (arr : list N) (pos : nat) (value : bool) : option (list N) :=
  let* w := aget arr (bv_index pos) in
  if value then aset arr (bv_index pos) (N.lor w (bv_mask pos))
  else aset arr (bv_index pos) (N.land w (u32_not (bv_mask pos))).

(** [ClearableViewDecorator::clear] (include/mlrl/common/data/view.hpp, lines 386-388): sets all words to zero. *)
Definition bv_clear (arr : list N) : list N := map (fun _ => 0%N) arr.

(** The operations that are modelled above: vector_bit.cpp, lines 24-34, and view.hpp, lines 386-388. *)
Inductive bv_op := BvSet (pos : nat) (value : bool) | BvClear.

(** See above (vector_bit.cpp, lines 24-34, and view.hpp, lines 386-388). *)
Definition bv_step (arr : list N) (op : bv_op) : option (list N) :=
  match op with
  | BvSet pos value => bv_set arr pos value
  | BvClear => Some (bv_clear arr)
  end.

(** A client: a sequence of operations. *)
Fixpoint bv_run (arr : list N) (ops : list bv_op) : option (list N) :=
  match ops with
  | [] => Some arr
  | op :: rest => let* arr' := bv_step arr op in bv_run arr' rest
  end.

(** * Ring buffer. *)

(** ring_buffer.hpp, lines 16-29: the array, [pos_] and [full_]. The initial array is not initialised; its
    content is a parameter. *)
Record ring (A : Type) := mkRing { rb_array : list A; rb_pos : nat; rb_full : bool }.
Arguments mkRing {A}. Arguments rb_array {A}. Arguments rb_pos {A}. Arguments rb_full {A}.

(** ring_buffer.hpp, lines 28-29. *)
Definition rb_init {A} (uninit : list A) : ring A := mkRing uninit 0 (length uninit =? 0).

(** ring_buffer.hpp, lines 90-103. *)
Definition rb_push {A} (b : ring A) (value : A) : option ((bool * A) * ring A) :=
  let* old := aget (rb_array b) (rb_pos b) in
  let* array := aset (rb_array b) (rb_pos b) value in
  let pos := rb_pos b + 1 in
  if length (rb_array b) <=? pos then Some ((rb_full b, old), mkRing array 0 true)
  else Some ((rb_full b, old), mkRing array pos (rb_full b)).

(** ring_buffer.hpp, lines 41-52 and 68-70: the elements between [cbegin] and [cend]. *)
Definition rb_elements {A} (b : ring A) : list A :=
  firstn (if rb_full b then length (rb_array b) else rb_pos b) (rb_array b).

(** See above (ring_buffer.hpp, lines 41-52 and 68-70). *)
Definition rb_num {A} (b : ring A) : nat := if rb_full b then length (rb_array b) else rb_pos b.

(** A client: a sequence of values is added to the buffer (ring_buffer.hpp, line 90). *)
Fixpoint rb_run {A} (b : ring A) (vals : list A) : option (list (bool * A) * ring A) :=
  match vals with
  | [] => Some ([], b)
  | v :: rest =>
      let* (r, b') := rb_push b v in
      let* (rs, b'') := rb_run b' rest in
      Some (r :: rs, b'')
  end.

(** * Sparse set (one row of a list-of-lists matrix with back-pointers). *)

(** view_vector_sparse_set.hpp, lines 27-50: [values] and [indices]; the sentinel [MAX_INDEX] is [None]. *)
Record sset (V : Type) := mkSset { ss_values : list (nat * V); ss_indices : list (option nat) }.
Arguments mkSset {V}. Arguments ss_values {V}. Arguments ss_indices {V}.

(** view_vector_sparse_set.hpp, lines 133-148: the outer option is undefined behaviour, the inner one is the
    null pointer. *)
Definition ss_get {V} (s : sset V) (index : nat) : option (option (nat * V)) :=
  let* p := aget (ss_indices s) index in
  match p with
  | None => Some None
  | Some i => let* e := aget (ss_values s) i in Some (Some e)
  end.

(** view_vector_sparse_set.hpp, lines 177-187: insert with a default value unless present. *)
Definition ss_emplace {V} (s : sset V) (index : nat) (defaultValue : V) : option (sset V) :=
  let* p := aget (ss_indices s) index in
  match p with
  | None =>
      let* ind := aset (ss_indices s) index (Some (length (ss_values s))) in
      Some (mkSset (ss_values s ++ [(index, defaultValue)]) ind)
  | Some i => let* _ := aget (ss_values s) i in Some s
  end.

(** Assignment through the reference returned by [emplace] (lines 163, 166, 183, 186) or the pointer returned
    by [operator[]]: replaces the value of the entry, keeping its index. *)
Definition ss_update {V} (s : sset V) (index : nat) (f : V -> V) : option (sset V) :=
  let* p := aget (ss_indices s) index in
  match p with
  | None => Some s
  | Some i =>
      let* e := aget (ss_values s) i in
      let* vals := aset (ss_values s) i (fst e, f (snd e)) in
      Some (mkSset vals (ss_indices s))
  end.

(** view_vector_sparse_set.hpp, lines 194-209. *)
Definition ss_erase {V} (s : sset V) (index : nat) : option (sset V) :=
  let* p := aget (ss_indices s) index in
  match p with
  | None => Some s
  | Some i =>
      let* lastEntry := aget (ss_values s) (length (ss_values s) - 1) in
      let lastIndex := fst lastEntry in
      let* s1 :=
        (if lastIndex =? index then Some s
         else
           let* vals := aset (ss_values s) i lastEntry in
           let* ind := aset (ss_indices s) lastIndex (Some i) in
           Some (mkSset vals ind)) in
      let* ind := aset (ss_indices s1) index None in
      Some (mkSset (removelast (ss_values s1)) ind)
  end.

(** view_vector_sparse_set.hpp, lines 214-220: pops entries from the back and resets their back-pointers. *)
Fixpoint ss_clear_rev {V} (rvals : list (nat * V)) (ind : list (option nat)) : option (list (option nat)) :=
  match rvals with
  | [] => Some ind
  | e :: rest => let* ind' := aset ind (fst e) None in ss_clear_rev rest ind'
  end.
(** See above (view_vector_sparse_set.hpp, lines 214-220). *)
Definition ss_clear {V} (s : sset V) : option (sset V) :=
  let* ind := ss_clear_rev (rev (ss_values s)) (ss_indices s) in Some (mkSset [] ind).

(** The operations of view_vector_sparse_set.hpp that are modelled above (lines 140-220). *)
Inductive ss_op (V : Type) :=
| SsEmplace (index : nat) (defaultValue : V)
| SsUpdate (index : nat) (f : V -> V)
| SsErase (index : nat)
| SsClear.
Arguments SsEmplace {V}. Arguments SsUpdate {V}. Arguments SsErase {V}. Arguments SsClear {V}.

(** The operations of view_vector_sparse_set.hpp that are modelled above (lines 140-220). *)
Definition ss_step {V} (s : sset V) (op : ss_op V) : option (sset V) :=
  match op with
  | SsEmplace i d => ss_emplace s i d
  | SsUpdate i f => ss_update s i f
  | SsErase i => ss_erase s i
  | SsClear => ss_clear s
  end.

(** A client: a sequence of operations (view_vector_sparse_set.hpp, lines 140-220). *)
Fixpoint ss_run {V} (s : sset V) (ops : list (ss_op V)) : option (sset V) :=
  match ops with
  | [] => Some s
  | op :: rest => let* s' := ss_step s op in ss_run s' rest
  end.

(** A row of a newly created matrix (view_matrix_sparse_set.hpp, lines 41-47): no values, all back-pointers unset. *)
Definition ss_empty (V : Type) (numCols : nat) : sset V := mkSset [] (repeat None numCols).
