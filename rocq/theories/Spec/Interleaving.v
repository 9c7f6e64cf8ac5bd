(** Concurrent execution of several threads. *)
From Coq Require Import List.
Import ListNotations.

(** Interleavings of the programs of several threads: each step is the next step of some thread. *)
Inductive interleaving {A : Type} : list (list A) -> list A -> Prop :=
| il_done : forall ps, Forall (fun p => p = []) ps -> interleaving ps []
| il_step : forall ps1 a p ps2 l,
    interleaving (ps1 ++ p :: ps2) l -> interleaving (ps1 ++ (a :: p) :: ps2) (a :: l).
