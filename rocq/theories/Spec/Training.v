(** Vocabulary for training: batches of places in the data, and runs of steps. *)
From Coq Require Import List Arith.
Import ListNotations.

(** full batches of b places each, none used twice; fewer than b places are left over *)
Definition batching (n b : nat) (batches : list (list nat)) : Prop :=
  (forall l, In l batches -> length l = b) /\
  NoDup (concat batches) /\
  (forall i, In i (concat batches) -> i < n) /\
  length (concat batches) <= n < length (concat batches) + b.

(** the states a run passes through, after each of its inputs *)
Inductive trace {A B} (step : A -> B -> A -> Prop) : A -> list B -> list A -> Prop :=
| trace_done s : trace step s [] []
| trace_step s x s' xs ss : step s x s' -> trace step s' xs ss -> trace step s (x :: xs) (s' :: ss).
