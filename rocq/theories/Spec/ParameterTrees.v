(** Trees of arrays: what makes them alike, and what an array or a tree is at
    a place of its first axis. *)
From Coq Require Import ZArith List String.
From Verif Require Import Base.Prelude Model.ParameterTrees.
Import ListNotations.

(** an array has as many numbers as its shape says *)
Definition full {A} (a : array A) : Prop := length (ar_data A a) = fold_right Nat.mul 1 (ar_shape A a).

(** [everywhere P t u]: t and u have the same keys in the same order, and the
    arrays at the same place are related by P *)
Inductive everywhere {A B} (P : array A -> array B -> Prop) : tree A -> tree B -> Prop :=
| everywhere_leaf a b : P a b -> everywhere P (Leaf A a) (Leaf B b)
| everywhere_node cs ds :
    Forall2 (fun c d => fst c = fst d /\ everywhere P (snd c) (snd d)) cs ds ->
    everywhere P (Node A cs) (Node B ds).

(** the same keys and the same shapes *)
Definition alike {A} : tree A -> tree A -> Prop := everywhere (fun a b => ar_shape A a = ar_shape A b).
(** the same keys, whatever the arrays *)
Definition same_keys {A} : tree A -> tree A -> Prop := everywhere (fun _ _ => True).

(** b is the k-th of the n parts of a along its first axis *)
Definition part {A} (n k : nat) (a b : array A) : Prop :=
  ar_shape A a = n :: ar_shape A b /\ full b /\
  exists before after, length before = k * fold_right Nat.mul 1 (ar_shape A b) /\
    ar_data A a = before ++ ar_data A b ++ after.

(** all arrays of a tree *)
Inductive all_arrays {A} (P : array A -> Prop) : tree A -> Prop :=
| all_leaf a : P a -> all_arrays P (Leaf A a)
| all_node cs : Forall (fun c => all_arrays P (snd c)) cs -> all_arrays P (Node A cs).
