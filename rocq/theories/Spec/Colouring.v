(** Vocabulary for spreading labels over a graph. *)
From Coq Require Import Reals ZArith List Permutation.
From Verif Require Import Base.Prelude Model.Alignment.
Import ListNotations.
Open Scope R_scope.

Section Graph.
Variable n : nat.
Variable bond : nat -> nat -> Prop.

(** with at least three bonds *)
Definition trusted (i : nat) : Prop :=
  (i < n)%nat /\ exists a b c, a <> b /\ a <> c /\ b <> c /\
    (a < n)%nat /\ (b < n)%nat /\ (c < n)%nat /\ bond i a /\ bond i b /\ bond i c.
(** within k steps of a trusted node *)
Fixpoint within_steps (k : nat) (i : nat) : Prop :=
  match k with
  | O => trusted i
  | S k => within_steps k i \/ ((i < n)%nat /\ exists j, (j < n)%nat /\ bond i j /\ within_steps k j)
  end.
(** exactly k steps from the nearest trusted node *)
Definition layer (k : nat) (i : nat) : Prop :=
  within_steps k i /\ match k with O => True | S k => ~ within_steps k i end.

(** labels spread outwards from the trusted nodes: a node is 1 if all its
    neighbours one step closer are 0, else 0; nodes that are trusted, or not
    connected to one that is, keep their label *)
Definition spread (labels final : nat -> Z) : Prop :=
  (forall i, trusted i -> final i = labels i) /\
  (forall k i, layer (S k) i ->
     (final i = 1%Z /\ forall j, (j < n)%nat -> bond i j -> layer k j -> final j = 0%Z) \/
     (final i = 0%Z /\ exists j, (j < n)%nat /\ bond i j /\ layer k j /\ final j = 1%Z)) /\
  (forall i, (i < n)%nat -> (forall k, ~ within_steps k i) -> final i = labels i).
End Graph.

(** the smallest k of some numbers *)
Definition smallest (k : nat) (l s : list R) : Prop :=
  exists rest, Permutation l (s ++ rest) /\ length s = Nat.min k (length l) /\
    forall a b, In a s -> In b rest -> a <= b.

(** how far atom j is from atom i; an atom counts as 1000 away from itself *)
Definition apart (ps : list pt) (i j : nat) : R :=
  pdist (nth i ps pzero) (nth j ps pzero) + (if Nat.eqb i j then 1000 else 0).
(** 1.1 times the mean distance of the atoms to their three nearest *)
Definition bond_length (ps : list pt) (bound : R) : Prop :=
  exists parts, Forall2 (fun i s => smallest 3 (map (apart ps i) (seq 0 (length ps))) s) (seq 0 (length ps)) parts /\
    bound = rsum (concat parts) / INR (length (concat parts)) * (11 / 10).
Definition bonded (ps : list pt) (bound : R) (i j : nat) : Prop := apart ps i j < bound.

(** all atoms, nearest to atom i first; it counts as [self] away from itself *)
Definition away (self : R) (ps : list pt) (i j : nat) : R :=
  pdist (nth i ps pzero) (nth j ps pzero) + (if Nat.eqb i j then self else 0).
Definition by_distance (self : R) (ps : list pt) (i : nat) (js : list nat) : Prop :=
  Permutation js (seq 0 (length ps)) /\
  forall a b j k, (a < b)%nat -> nth_error js a = Some j -> nth_error js b = Some k -> away self ps i j <= away self ps i k.
(** the directions from atom i to others *)
Definition directions (ps : list pt) (i : nat) (js : list nat) : list pt :=
  map (fun j => psub (nth j ps pzero) (nth i ps pzero)) js.
(** in increasing order *)
Definition increasing (l : list R) : Prop :=
  forall a b x y, (a < b)%nat -> nth_error l a = Some x -> nth_error l b = Some y -> x <= y.
