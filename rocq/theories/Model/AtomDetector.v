(** putting_dune/atom_detector.py: the stand-alone atom detector *)
From Coq Require Import Reals ZArith List Bool Arith.
From Flocq Require Import Core.
From Verif Require Import Base.Prelude Base.Rounding Model.Constants Model.MicroscopeUtils Model.ImageAligner.
Import ListNotations.
Open Scope R_scope.
Open Scope res_scope.

(** * float32 numbers, by their bits *)

(** the value of a float32 that is neither negative nor infinite nor NaN.
    Used at atom_detector.py:144-147. *)
Definition bits_value (b : Z) : R :=
  let e := (b / 2 ^ 23)%Z in
  let m := (b mod 2 ^ 23)%Z in
  if (e =? 0)%Z then IZR m * bpow radix2 (-149) else IZR (2 ^ 23 + m) * bpow radix2 (e - 150).
(** the bits of 0.0 and 1.0. Used at atom_detector.py:157-162, 166-167. *)
Definition zero_bits : Z := 0.
(** used at atom_detector.py:157-162, 166-167 *)
Definition one_bits : Z := 127 * 2 ^ 23.
(** astype(np.uint8), for numbers that are not negative.
    Used at atom_detector.py:157-162, 166-167. *)
Definition to_uint8 (x : R) : Z := (trunc x mod 256)%Z.

(** * Morphology *)

(** cv2.dilate and cv2.erode with np.ones((2, 2)), external: the anchor of
    such a kernel is its last entry, so that a pixel looks at those to the
    left and above; n iterations look n pixels far.  What is outside of the
    image is ignored. Used at atom_detector.py:149-155. *)
Definition dilate (n : nat) (r : raster bool) : raster bool :=
  mkraster (rs_height r) (rs_width r) (fun i j =>
    existsb (fun a => existsb (fun b => (a <=? i)%nat && (b <=? j)%nat && rs_pixel r (i - a) (j - b)) (seq 0 (S n))) (seq 0 (S n))).
(** used at atom_detector.py:149-155 *)
Definition erode (n : nat) (r : raster bool) : raster bool :=
  mkraster (rs_height r) (rs_width r) (fun i j =>
    forallb (fun a => forallb (fun b => implb ((a <=? i)%nat && (b <=? j)%nat) (rs_pixel r (i - a) (j - b))) (seq 0 (S n))) (seq 0 (S n))).

Section Detector.
(** The loaded model with the softmax (the probabilities of background, carbon
    and silicon of every pixel, as bits), and cv2.distanceTransform,
    cv2.threshold at so many 255ths, cv2.findContours and cv2.moments:
    external *)
Variable network : frame -> res (raster (Z * Z * Z)).
Variable contours : raster bool -> nat -> list moments.

(** atom_detector.py:32-79 compute_centroids; the contours are those of
    the pixels that are 1 *)
Definition ad_centroids (image : raster Z) (threshold_value : nat) : list pt :=
  map (centroid 256 256) (contours (raster_map (fun v => (v =? 1)%Z) image) threshold_value).

(** atom_detector.py:144-147: cv2.threshold(carbon_probs, 0.025, 1.0, THRESH_BINARY) *)
Definition carbon_pixel (p : Z * Z * Z) : bool := let '(_, c, _) := p in Rltb (f32 (25 / 1000)) (bits_value c).
(** atom_detector.py:149-155 *)
Definition dilated_carbon (carbon : raster bool) : raster bool := erode 2 (dilate 4 carbon).
(** atom_detector.py:157-162, 166-167: cv2.bitwise_xor works on the bits *)
Definition masked_silicon (p : Z * Z * Z) (covered : bool) : Z :=
  let '(_, _, si) := p in to_uint8 (bits_value (Z.lxor si (if covered then one_bits else zero_bits))).

(** np.concatenate of two lists of points, as arrays: those of an empty list
    are one-dimensional. Used at atom_detector.py:123-186. *)
Definition concatenate_points (a b : list pt) : res (list pt) :=
  match a, b with
  | [], _ :: _ | _ :: _, [] => Raise ValueError
  | _, _ => Ok (a ++ b)
  end.

(** atom_detector.py:123-186 __call__ *)
Definition detect_atoms (image : raster R) : res grid :=
  image <- resize_nearest image 256 256 ;;
  probs <- network (normalize image) ;;
  let carbon := raster_map carbon_pixel probs in
  let mask := dilated_carbon carbon in
  let silicon := mkraster (rs_height probs) (rs_width probs) (fun i j => masked_silicon (rs_pixel probs i j) (rs_pixel mask i j)) in
  let carbon_centroids := ad_centroids (raster_map (fun b : bool => if b then 1%Z else 0%Z) carbon) 25 in
  let silicon_centroids := ad_centroids silicon 140 in
  let atomic_numbers := repeat CARBON (length carbon_centroids) ++ repeat SILICON (length silicon_centroids) in
  atom_positions <- concatenate_points carbon_centroids silicon_centroids ;;
  Ok (mkgrid atom_positions atomic_numbers).
End Detector.
