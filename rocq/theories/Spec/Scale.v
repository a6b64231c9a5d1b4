(** Vocabulary for the scale of a lattice. *)
From Coq Require Import Reals List Arith Permutation.
From Verif Require Import Base.Prelude Spec.Colouring.
Import ListNotations.
Open Scope R_scope.

(** the distances of atom i to the other atoms *)
Definition to_others (ps : list pt) (i : nat) : list R :=
  map (fun j => pdist (nth i ps pzero) (nth j ps pzero)) (filter (fun j => negb (Nat.eqb i j)) (seq 0 (length ps))).
(** those to its three nearest, for every atom *)
Definition neighbour_distances (ps : list pt) (ds : list R) : Prop :=
  exists parts, Forall2 (fun i s => smallest 3 (to_others ps i) s) (seq 0 (length ps)) parts /\ ds = concat parts.
(** the mean without the smallest and the greatest quarter, rounded down *)
Definition middle_mean (ds : list R) (m : R) : Prop :=
  exists low mid high, Permutation ds (low ++ mid ++ high) /\
    (4 * length low <= length ds < 4 * length low + 4)%nat /\ length high = length low /\
    (forall a b, In a low -> In b (mid ++ high) -> a <= b) /\ (forall a b, In a mid -> In b high -> a <= b) /\
    mid <> [] /\ m = rsum mid / INR (length mid).
(** how many are smaller or greater *)
Definition below (d : R) (ds : list R) : nat := length (filter (fun x => Rltb x d) ds).
Definition above (d : R) (ds : list R) : nat := length (filter (fun x => Rltb d x) ds).
