(** Vocabulary for merging clumps of points and for copying atomic numbers. *)
From Coq Require Import Reals ZArith List.
From Verif Require Import Base.Prelude Model.Alignment Spec.Merging.
Import ListNotations.
Open Scope R_scope.

(** points i and j are at most r apart *)
Definition near (coords : list pt) (r : R) (i j : nat) : Prop :=
  (i < length coords)%nat /\ (j < length coords)%nat /\ pdist (nth i coords pzero) (nth j coords pzero) <= r.

(** a largest set of points that are pairwise near *)
Definition clump (coords : list pt) (r : R) (c : list nat) : Prop :=
  c <> [] /\ NoDup c /\
  (forall i, In i c -> (i < length coords)%nat) /\
  (forall i j, In i c -> In j c -> i <> j -> near coords r i j) /\
  (forall k, (k < length coords)%nat -> ~ In k c -> exists i, In i c /\ ~ near coords r i k).

(** all clumps, each once *)
Definition all_clumps (coords : list pt) (r : R) (cs : list (list nat)) : Prop :=
  (forall c, In c cs -> clump coords r c) /\
  (forall c, clump coords r c -> exists c', In c' cs /\ same_members c c') /\
  (forall a b c c', a <> b -> nth_error cs a = Some c -> nth_error cs b = Some c' -> ~ same_members c c').

(** number of points in a clump, and its centre of mass *)
Definition total (counts : list R) (c : list nat) : R := rsum (map (fun i => nth i counts 0) c).
Definition centre (coords : list pt) (counts : list R) (c : list nat) : pt :=
  pscale (/ total counts c) (psum (map (fun i => pscale (nth i counts 0) (nth i coords pzero)) c)).

(** at most n times, as long as two points are near, clumps become points *)
Inductive clumping (r : R) : nat -> list pt * list R -> list pt * list R -> Prop :=
| clumping_out coords counts : clumping r 0 (coords, counts) (coords, counts)
| clumping_apart n coords counts :
    (forall i j, i <> j -> ~ near coords r i j) -> clumping r n (coords, counts) (coords, counts)
| clumping_round n coords counts cs result :
    (exists i j, i <> j /\ near coords r i j) -> all_clumps coords r cs ->
    clumping r n (map (centre coords counts) cs, map (total counts) cs) result ->
    clumping r (S n) (coords, counts) result.

(** The atoms of the original that name atom j of the merged grid: those whose
    nearest merged atom it is (the first of several), nearer than the threshold *)
Inductive candidates (merged : list pt) (threshold : R) (j : nat) : list (pt * Z) -> list Z -> Prop :=
| candidates_nil : candidates merged threshold j [] []
| candidates_yes p z atoms zs : nearest_at merged p j -> pdist p (nth j merged pzero) < threshold ->
    candidates merged threshold j atoms zs -> candidates merged threshold j ((p, z) :: atoms) (z :: zs)
| candidates_no p z atoms zs : ~ (nearest_at merged p j /\ pdist p (nth j merged pzero) < threshold) ->
    candidates merged threshold j atoms zs -> candidates merged threshold j ((p, z) :: atoms) zs.
