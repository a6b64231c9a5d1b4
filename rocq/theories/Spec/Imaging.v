(** Vocabulary for masks and images of atoms. *)
From Coq Require Import Reals ZArith List Bool.
From Flocq Require Import Core.Raux.
From Verif Require Import Base.Prelude Model.MicroscopeUtils Model.ImageAligner Spec.Grids Spec.Views.
Import ListNotations.
Open Scope R_scope.

(** the atoms of a grid with their atomic numbers, in order *)
Definition atoms_of (g : grid) : list (pt * Z) := combine (positions g) (numbers g).

(** the disc of an atom on the material: for carbon its area is pi / 10 square
    Angstroms, for other elements as many times more as the given power of the
    quotient of the atomic numbers *)
Definition disc_area_over_pi (e : R) (z : Z) : R := Rpower (IZR z / 6) e / 10.
Definition covers (e : R) (f : fov) (here : pt) (atom : pt * Z) : Prop :=
  (px here - px (at_relative f (fst atom))) ^ 2 + (py here - py (at_relative f (fst atom))) ^ 2
  < disc_area_over_pi e (snd atom).

(** the last element with a property, if there is one *)
Definition last_such {A} (P : A -> Prop) (l : list A) (o : option A) : Prop :=
  match o with
  | Some x => exists before after, l = before ++ x :: after /\ P x /\ Forall (fun y => ~ P y) after
  | None => Forall (fun y => ~ P y) l
  end.

(** carbon and silicon atoms that are a carbon bond apart, or farther *)
Definition apart (f : fov) (l : list (pt * Z)) : Prop :=
  Forall (fun a => snd a = 6%Z \/ snd a = 14%Z) l /\
  ForallOrdPairs (fun a b => 142 / 100 <= pdist (at_relative f (fst a)) (at_relative f (fst b))) l.

(** * Images *)

(** the weight a Gaussian of deviation sigma pixels, cut off at
    floor(4 sigma + 1/2) pixels and normalized to sum 1, has at a distance of d
    pixels *)
Definition gauss (sigma : R) (d : Z) : R := exp (- (IZR d * IZR d) / (2 * (sigma * sigma))).
Definition reach (sigma : R) : Z := Zfloor (4 * sigma + 1 / 2).
Definition spread (sigma : R) (d : Z) : R :=
  if (Z.abs d <=? reach sigma)%Z
  then gauss sigma d
       / rsum (map (fun k => gauss sigma (Z.of_nat k - reach sigma)) (seq 0 (Z.to_nat (2 * reach sigma + 1))))
  else 0.

(** the pixel a coordinate falls into, of n pixels from -b to 1 + b *)
Definition pixel_along (b : R) (n : nat) (x : R) : Z :=
  if Req_EM_T x (1 + b) then (Z.of_nat n - 1)%Z else Zfloor ((x + b) / (1 + 2 * b) * INR n).
(** within the view and its margin *)
Definition in_margin (b : R) (p : pt) : bool :=
  Rleb (- b) (px p) && Rleb (px p) (1 + b) && Rleb (- b) (py p) && Rleb (py p) (1 + b).
(** the light in a pixel of an image of n rows and columns with a margin of m
    pixels around it, before it is scaled: each atom gives a power of its
    atomic number, spread around its pixel *)
Definition light (e sigma_vertical sigma_horizontal b : R) (n m : nat) (atoms : list (pt * Z)) (i j : nat) : R :=
  rsum (map (fun a =>
    if in_margin b (fst a)
    then Rpower (IZR (snd a)) e
         * spread sigma_vertical (Z.of_nat (n + 2 * m) - 1 - pixel_along b (n + 2 * m) (py (fst a)) - (Z.of_nat i + Z.of_nat m))
         * spread sigma_horizontal (pixel_along b (n + 2 * m) (px (fst a)) - (Z.of_nat j + Z.of_nat m))
    else 0) atoms).

(** an image that shows these values, scaled so that the greatest is one; it is
    NaN everywhere if all are zero *)
Definition shows_scaled (v : nat -> nat -> R) (h w : nat) (image : frame) : Prop :=
  rs_height image = h /\ rs_width image = w /\
  (((forall i j, (i < h)%nat -> (j < w)%nat -> v i j = 0 /\ rs_pixel image i j = None)) \/
   exists i0 j0, (i0 < h)%nat /\ (j0 < w)%nat /\ 0 < v i0 j0 /\
     forall i j, (i < h)%nat -> (j < w)%nat -> 0 <= v i j <= v i0 j0 /\ rs_pixel image i j = Some (v i j / v i0 j0)).

(** * Noise *)

(** draws from these distributions one after the other, from a state of the
    generator to another one *)
Inductive drawn {G B : Type} : list (G -> B * G) -> G -> list B -> G -> Prop :=
| drawn_nil g : drawn [] g [] g
| drawn_cons d ds g y ys g' g'' : d g = (y, g') -> drawn ds g' ys g'' -> drawn (d :: ds) g (y :: ys) g''.
(** an image with these numbers in its pixels *)
Definition shows (x : nat -> nat -> R) (h w : nat) (image : frame) : Prop :=
  rs_height image = h /\ rs_width image = w /\
  forall i j, (i < h)%nat -> (j < w)%nat -> rs_pixel image i j = Some (x i j).
(** an image with a NaN in it, and one of NaN only *)
Definition some_nan (image : frame) : Prop :=
  exists i j, (i < rs_height image)%nat /\ (j < rs_width image)%nat /\ rs_pixel image i j = None.
Definition all_nan (h w : nat) (image : frame) : Prop :=
  rs_height image = h /\ rs_width image = w /\
  forall i j, (i < h)%nat -> (j < w)%nat -> rs_pixel image i j = None.
(** the pixel at a place beyond the edges, of n pixels mirrored at both edges
    again and again *)
Definition mirrored (n : nat) (i : Z) (k : nat) : Prop :=
  (k < n)%nat /\ exists period : Z,
    (i = period * (2 * Z.of_nat n) + Z.of_nat k \/ i = period * (2 * Z.of_nat n) + 2 * Z.of_nat n - 1 - Z.of_nat k)%Z.
