(** Specification vocabulary for grids, boxes and conversions, independent of
    the model's helper functions. *)
From Coq Require Import Reals ZArith List.
From Verif Require Import Base.Prelude Model.MicroscopeUtils.
Import ListNotations.
Open Scope R_scope.

(** an AtomicGrid with one atomic number per position *)
Definition wf_grid (g : grid) : Prop := length (positions g) = length (numbers g).

(** the atoms of a grid, in order *)
Definition atoms (g : grid) : list (pt * Z) := combine (positions g) (numbers g).

(** [selects P l r]: r consists of exactly the elements of l that satisfy P,
    in the same order *)
Inductive selects {A} (P : A -> Prop) : list A -> list A -> Prop :=
| selects_nil : selects P [] []
| selects_keep x l r : P x -> selects P l r -> selects P (x :: l) (x :: r)
| selects_drop x l r : ~ P x -> selects P l r -> selects P (x :: l) r.

(** p lies in the closed box with corners ll and ur, enlarged by tol *)
Definition inside (ll ur : pt) (tol : R) (p : pt) : Prop :=
  px ll - tol <= px p <= px ur + tol /\ py ll - tol <= py p <= py ur + tol.

(** the field of view has positive width and height *)
Definition proper (f : fov) : Prop :=
  px (lower_left f) < px (upper_right f) /\ py (lower_left f) < py (upper_right f).

(** [moved h x y]: y is x with every position moved by h and nothing else
    changed *)
Inductive moved (h : pt -> pt) : payload -> payload -> Prop :=
| moved_grid ps ps' ns : Forall2 (fun p q => q = h p) ps ps' ->
    moved h (PGrid (mkgrid ps ns)) (PGrid (mkgrid ps' ns))
| moved_arr1 x y : moved h (PArr1 [x; y]) (PArr1 [px (h (mkpt x y)); py (h (mkpt x y))])
| moved_arr2 ps ps' : Forall2 (fun p q => q = h p) ps ps' ->
    moved h (PArr2 ps) (PArr2 ps')
| moved_point p : moved h (PPoint p) (PPoint (h p))
| moved_control p d v c :
    moved h (PControl (mkcontrol p d v c)) (PControl (mkcontrol (h p) d v c)).

(** the point at relative coordinates q of a field of view *)
Definition at_relative (f : fov) (q : pt) : pt :=
  mkpt (px (lower_left f) + px q * (px (upper_right f) - px (lower_left f)))
       (py (lower_left f) + py q * (py (upper_right f) - py (lower_left f))).

(** the relative coordinates of a point in a field of view *)
Definition relative_to (f : fov) (p : pt) : pt :=
  mkpt ((px p - px (lower_left f)) / (px (upper_right f) - px (lower_left f)))
       ((py p - py (lower_left f)) / (py (upper_right f) - py (lower_left f))).

(** the translation by d *)
Definition translated (d p : pt) : pt := mkpt (px p + px d) (py p + py d).

(** [shows f gr out]: the microscope-frame grid out consists of exactly the
    atoms of the material grid gr inside the closed field of view, in order,
    at their relative coordinates *)
Definition shows (f : fov) (gr out : grid) : Prop :=
  wf_grid out /\ exists sel,
    selects (fun a => inside (lower_left f) (upper_right f) 0 (fst a)) (atoms gr) sel /\
    Forall2 (fun a b => fst b = relative_to f (fst a) /\ snd b = snd a) sel (atoms out).
