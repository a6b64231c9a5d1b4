(** Vocabulary for the detection of atoms in images. *)
From Coq Require Import Reals ZArith List Bool.
From Verif Require Import Base.Prelude Model.MicroscopeUtils Model.ImageAligner.
Import ListNotations.
Open Scope R_scope.

(** the class of a pixel with these values for background, carbon and silicon:
    the greatest, the first of equals *)
Definition background_wins (v : R * R * R) : Prop := let '(a, b, c) := v in b <= a /\ c <= a.
Definition carbon_wins (v : R * R * R) : Prop := let '(a, b, c) := v in a < b /\ c <= b.
Definition silicon_wins (v : R * R * R) : Prop := let '(a, b, c) := v in a < c /\ b < c.
(** the pixels of a class *)
Definition mask_of {A} (P : A -> Prop) (r : raster A) (mask : raster bool) : Prop :=
  rs_height mask = rs_height r /\ rs_width mask = rs_width r /\ forall i j, rs_pixel mask i j = true <-> P (rs_pixel r i j).

(** column and row of the centre of mass of a contour *)
Definition centre_column (m : moments) : R := m10 m / m00 m.
Definition centre_row (m : moments) : R := m01 m / m00 m.
(** a contour with an area, whose centre of mass is in an image of h rows and w
    columns; one without an area has m00 = 0 *)
Definition solid_in (h w : nat) (m : moments) : Prop :=
  m00 m <> 0 /\ 0 <= centre_column m < INR w /\ 0 <= centre_row m < INR h.
(** where that is in the microscope frame of a field of view: x from the left,
    y from the bottom, in units of its sides *)
Definition seen_centre (h w : nat) (m : moments) : pt :=
  mkpt (centre_column m / INR w) (1 - centre_row m / INR h).
(** inside, farther than b from the edges *)
Definition off_edge (b : R) (p : pt) : Prop := b < px p < 1 - b /\ b < py p < 1 - b.
(** at most e below and e beside *)
Definition within (e : R) (p q : pt) : Prop := Rabs (px p - px q) < e /\ Rabs (py p - py q) < e.
