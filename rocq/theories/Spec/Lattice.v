(** The honeycomb lattice in integer coordinates. *)
From Coq Require Import Reals ZArith List.
From Verif Require Import Base.Prelude.
Import ListNotations.
Open Scope R_scope.

(** the site with half-column x and row y *)
Definition site (x y : Z) : pt := mkpt (IZR x / 2) (IZR y * (sqrt 3 / 2)).

(** sites of the triangular lattice (same parity) that are not the centre of
    a hexagon *)
Definition honeycomb (x y : Z) : Prop := Z.even (x + y) = true /\ (x mod 3 <> 0)%Z.

(** the part of the honeycomb that fits a square of side n (rows of height
    sqrt 3 / 2) *)
Definition on_sheet (n : nat) (x y : Z) : Prop :=
  honeycomb x y /\ (0 <= x < 2 * Z.of_nat n)%Z /\ (0 <= y)%Z /\
  (IZR y + 1) * (sqrt 3 / 2) <= INR n.

(** exactly three points of l are at distance d from p, all others are
    further away *)
Definition three_at (l : list pt) (d : R) (p : pt) : Prop :=
  exists a b c, In a l /\ In b l /\ In c l /\ a <> b /\ a <> c /\ b <> c /\
    pdist p a = d /\ pdist p b = d /\ pdist p c = d /\
    forall q, In q l -> q = p \/ q = a \/ q = b \/ q = c \/ d < pdist p q.

(** rotation about the origin by minus a *)
Definition turned (a : R) (p : pt) : pt :=
  mkpt (cos a * px p + sin a * py p) (cos a * py p - sin a * px p).

(** [graphene_sheet n ps]: ps is the sheet of size n, scaled to the bond length
    of 1.42 angstroms, shifted and rotated, each site once; its centroid is an
    offset of at most half a bond in x and y, rotated *)
Definition graphene_sheet (n : nat) (ps : list pt) : Prop :=
  exists sites t o a,
    NoDup sites /\
    (forall p, In p sites <-> exists x y, p = site x y /\ on_sheet n x y) /\
    ps = map (fun p => turned a (padd (pscale (142 / 100) p) t)) sites /\
    Rabs (px o) <= 71 / 100 /\ Rabs (py o) <= 71 / 100 /\ 0 <= a <= 2 * PI /\
    pmean ps = turned a o.
