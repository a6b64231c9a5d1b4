(** What is expected of the loss of the graph network. *)
From Coq Require Import Reals ZArith String Ascii List.
From Verif Require Import Base.Prelude Model.GraphLearning.
Import ListNotations.
Open Scope R_scope.

(** the sum of f 0, ..., f (n - 1) *)
Definition total (n : nat) (f : nat -> R) : R := rsum (map f (seq 0 n)).
(** the sum over all examples of a batch *)
Definition over_batch {I} (b : @gbatch I) (f : gexample -> R) : R := rsum (map f (gb_examples b)).
Definition batch_size {I} (b : @gbatch I) : nat := length (gb_examples b).
Definition private (k : string) : Prop := exists rest, k = String "_"%char rest.
