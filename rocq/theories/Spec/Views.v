(** Vocabulary for images of a field of view. *)
From Coq Require Import Reals ZArith Bool.
From Verif Require Import Base.Prelude Model.MicroscopeUtils Model.ImageAligner.
Open Scope R_scope.

(** a square field of view with sides of this length *)
Definition square_view (f : fov) (side : R) : Prop :=
  0 < side /\ px (upper_right f) - px (lower_left f) = side /\ py (upper_right f) - py (lower_left f) = side.

(** where on the material the centre of a pixel is, in an image of h rows (from
    the top) and w columns *)
Definition pixel_centre (f : fov) (h w i j : nat) : pt :=
  mkpt (px (lower_left f) + (INR j + 1 / 2) * (px (upper_right f) - px (lower_left f)) / INR w)
       (py (upper_right f) - (INR i + 1 / 2) * (py (upper_right f) - py (lower_left f)) / INR h).

(** a place within the field of view, not nearer than these margins to its edges *)
Definition well_inside (f : fov) (dx dy : R) (p : pt) : Prop :=
  px (lower_left f) + dx <= px p <= px (upper_right f) - dx /\
  py (lower_left f) + dy <= py p <= py (upper_right f) - dy.
(** a place outside the field of view, farther than these margins from it *)
Definition well_outside (f : fov) (dx dy : R) (p : pt) : Prop :=
  px p < px (lower_left f) - dx \/ px (upper_right f) + dx < px p \/
  py p < py (lower_left f) - dy \/ py (upper_right f) + dy < py p.

(** the image moved by whole pixels, with nothing where it has no pixels *)
Definition panned {A} (zero : A) (r : raster A) (down right : Z) (i j : nat) : A :=
  let i := (Z.of_nat i + down)%Z in
  let j := (Z.of_nat j + right)%Z in
  if ((0 <=? i) && (i <? Z.of_nat (rs_height r)) && (0 <=? j) && (j <? Z.of_nat (rs_width r)))%Z
  then rs_pixel r (Z.to_nat i) (Z.to_nat j) else zero.

(** x is a pixel of an image of the field of view f0, of sides s0, whose centre
    is at most half a pixel of that image and a whole pixel of an image of a
    field of view of sides s1 away from here, along each axis *)
Definition seen_at {A} (image : raster A) (f0 : fov) (s0 s1 : R) (here : pt) (x : A) : Prop :=
  exists i0 j0, (i0 < rs_height image)%nat /\ (j0 < rs_width image)%nat /\ x = rs_pixel image i0 j0 /\
    Rabs (px (pixel_centre f0 (rs_height image) (rs_width image) i0 j0) - px here)
      <= s0 / (2 * INR (rs_width image)) + s1 / INR (rs_width image) /\
    Rabs (py (pixel_centre f0 (rs_height image) (rs_width image) i0 j0) - py here)
      <= s0 / (2 * INR (rs_height image)) + s1 / INR (rs_height image).
