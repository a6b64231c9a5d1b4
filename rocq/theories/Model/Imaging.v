(** putting_dune/imaging.py: masks and images of a grid of atoms.  The sampling
    of the parameters (imaging.py:28-72) is in Model/Simulator.v. *)
From Coq Require Import Reals ZArith List Bool Arith.
From Verif Require Import Base.Prelude Base.Rounding Base.Random Model.Constants Model.MicroscopeUtils
  Model.ImageAligner Model.Simulator.
Import ListNotations.
Open Scope R_scope.
Open Scope res_scope.

(** x ** e, for x that is not negative. Used at imaging.py:109. *)
Definition power (x e : R) : R := if Reqb x 0 then (if Reqb e 0 then 1 else 0) else Rpower x e.
(** np.flipud. Used at imaging.py:75-114. *)
Definition flipud {A} (r : raster A) : raster A :=
  mkraster (rs_height r) (rs_width r) (fun i j => rs_pixel r (rs_height r - 1 - i) j).
(** np.transpose. Used at imaging.py:117-173. *)
Definition transpose {A} (r : raster A) : raster A :=
  mkraster (rs_width r) (rs_height r) (fun i j => rs_pixel r j i).

(** * The mask of a grid *)

(** imaging.py:86-95: np.linspace(lo, hi, n + 1) and the middles of neighbours *)
Definition linspace (lo hi : R) (n i : nat) : R := lo + INR i * ((hi - lo) / INR n).
Definition middle (lo hi : R) (n i : nat) : R := (linspace lo hi n i + linspace lo hi n (S i)) / 2.
(** imaging.py:109: this is compared to a squared distance *)
Definition mask_radius (intensity_exponent : R) (atomic_number : Z) : R :=
  power (IZR atomic_number / IZR CARBON) intensity_exponent * (1 / 10).
(** mask[distance < radius] = atomic_number; the array is of dtype uint8 *)
Definition draw_atom (radius : R) (xx yy : nat -> nat -> R) (mask : raster Z) (atom : pt * Z) : raster Z :=
  let '(pos, atomic_number) := atom in
  mkraster (rs_height mask) (rs_width mask) (fun i j =>
    let distance := (xx i j - px pos) ^ 2 + (yy i j - py pos) ^ 2 in
    if Rltb distance radius then (atomic_number mod 256)%Z else rs_pixel mask i j).
(** imaging.py:75-114 generate_grid_mask.  The mask is of shape
    (width, height), the distances are of shape (height, width): boolean
    indexing raises IndexError unless these agree. *)
Definition generate_grid_mask (g : grid) (f : fov) (intensity_exponent : R) (image_dimensions : nat * nat)
  : res (raster Z) :=
  let '(width, height) := image_dimensions in
  let xx := fun i j : nat => middle (px (lower_left f)) (px (upper_right f)) width j in
  let yy := fun i j : nat => middle (py (lower_left f)) (py (upper_right f)) height i in
  let material_grid := grid_to_material f g in
  let mask := mkraster width height (fun _ _ => 0%Z) in
  mask <- fold_left (fun mask atom =>
    mask <- mask ;;
    if (width =? height)%nat
    then Ok (draw_atom (mask_radius intensity_exponent (snd atom)) xx yy mask atom)
    else Raise IndexError)
    (combine (positions material_grid) (numbers material_grid)) (Ok mask) ;;
  Ok (flipud mask).
(** imaging.py:79 the default exponent and imaging.py:80 the default size *)
Definition default_intensity_exponent : R := 17 / 10.
Definition default_image_size : nat := 512.

(** * Filters *)

(** sum of the products; NaN ([None]) if one of the values is.
    Used at imaging.py:117-214. *)
Fixpoint weighted_sum (l : list (R * option R)) : option R :=
  match l with
  | [] => Some 0
  | (w, Some x) :: l => match weighted_sum l with Some y => Some (w * x + y) | None => None end
  | (w, None) :: l => None
  end.
(** scipy.ndimage's continuations of a line of n pixels: mode='constant' with
    zeros and the default, mode='reflect' (d c b a | a b c d | d c b a).
    Used at imaging.py:117-173. *)
Definition constant_mode (n : nat) (line : nat -> option R) (i : Z) : option R :=
  if (0 <=? i)%Z && (i <? Z.of_nat n)%Z then line (Z.to_nat i) else Some 0.
(** used at imaging.py:212-214 *)
Definition reflect_mode (n : nat) (line : nat -> option R) (i : Z) : option R :=
  let m := (i mod (2 * Z.of_nat n))%Z in
  line (Z.to_nat (if (m <? Z.of_nat n)%Z then m else (2 * Z.of_nat n - 1 - m)%Z)).
(** scipy.ndimage.gaussian_filter1d: the kernel of a deviation sigma extends
    to int(4 sigma + 0.5) pixels and is normalized to sum 1. Used at imaging.py:117-214. *)
Definition window (radius : nat) : list Z :=
  map (fun k => (Z.of_nat k - Z.of_nat radius)%Z) (seq 0 (2 * radius + 1)).
(** used at imaging.py:117-214 *)
Definition bell (sigma : R) (k : Z) : R := exp (- (1 / 2) / (sigma * sigma) * (IZR k * IZR k)).
(** used at imaging.py:117-214 *)
Definition kernel_radius (sigma : R) : nat := Z.to_nat (trunc (4 * sigma + 1 / 2)).
(** used at imaging.py:117-214 *)
Definition kernel (sigma : R) (k : Z) : R :=
  bell sigma k / rsum (map (bell sigma) (window (kernel_radius sigma))).
(** used at imaging.py:117-214 *)
Definition continuation := nat -> (nat -> option R) -> Z -> option R.
(** used at imaging.py:117-214 *)
Definition gaussian_line (mode : continuation) (sigma : R) (n : nat) (line : nat -> option R) (i : nat) : option R :=
  weighted_sum (map (fun k => (kernel sigma k, mode n line (Z.of_nat i + k)%Z)) (window (kernel_radius sigma))).
(** scipy.ndimage.gaussian_filter: one axis after the other, axes with a
    deviation of at most 1e-15 are skipped. Used at imaging.py:117-214. *)
Definition negligible (sigma : R) : bool := Rleb sigma (1 / 10 ^ 15).
(** used at imaging.py:117-214 *)
Definition gaussian_filter (mode : continuation) (sigma_0 sigma_1 : R) (r : frame) : frame :=
  let r := if negligible sigma_0 then r
           else mkraster (rs_height r) (rs_width r) (fun i j =>
                  gaussian_line mode sigma_0 (rs_height r) (fun i' => rs_pixel r i' j) i) in
  if negligible sigma_1 then r
  else mkraster (rs_height r) (rs_width r) (fun i j =>
         gaussian_line mode sigma_1 (rs_width r) (fun j' => rs_pixel r i j') j).

(** np.max and np.min; NaN if there is one. Used at imaging.py:199-203. *)
Fixpoint all_numbers (l : list (option R)) : option (list R) :=
  match l with
  | [] => Some []
  | Some x :: l => match all_numbers l with Some xs => Some (x :: xs) | None => None end
  | None :: l => None
  end.
(** used at imaging.py:117-173 *)
Definition np_max (r : frame) : option R := option_map maximum (all_numbers (pixels r)).
(** used at imaging.py:176-185 *)
Definition np_min (r : frame) : option R := option_map minimum (all_numbers (pixels r)).
(** image / np.max(image).  Simplification: a number other than zero divided
    by a maximum of zero is NaN instead of an infinity (no pixel is negative
    in the images made here, so all pixels are zero then). Used at imaging.py:117-173. *)
Definition divide_by_max (r : frame) : frame :=
  let m := np_max r in
  raster_map (fun x => match x, m with
                       | Some x, Some m => if Reqb m 0 then None else Some (x / m)
                       | _, _ => None
                       end) r.

(** * The clean image *)

(** np.histogram2d with equal bins: half-open intervals, the last one closed *)
Definition in_bin (lo hi : R) (n i : nat) (x : R) : bool :=
  Rleb (linspace lo hi n i) x
  && (Rltb x (linspace lo hi n (S i)) || ((S i =? n)%nat && Reqb x hi)).
Definition histogram2d (ps : list pt) (n : nat) (lo hi : R) : raster nat :=
  mkraster n n (fun i j =>
    length (filter (fun p => in_bin lo hi n i (px p) && in_bin lo hi n j (py p)) ps)).
(** imaging.py:127-145: what the atoms leave in the pixels, before blurring *)
Definition intensity_image (g : grid) (intensity_exponent : R) (n : nat) (lo hi : R) : raster R :=
  mkraster n n (fun i j => rsum (map (fun z =>
    INR (rs_pixel (histogram2d (mask_select (map (Z.eqb z) (numbers g)) (positions g)) n lo hi) i j)
    * power (IZR z) intensity_exponent)
    (nodup Z.eq_dec (numbers g)))).
(** imaging.py:117-173 generate_clean_image.  sigma is ordered (x, y), the axes
    of the image (row, column).  Simplification: an image size of zero is
    refused first. *)
Definition generate_clean_image (g : grid) (f : fov) (intensity_exponent : R) (image_size : nat) (buffer_size : R)
  : res frame :=
  let buffer_width := Z.to_nat (trunc (buffer_size * INR image_size)) in
  let buffered_image_size := (image_size + 2 * buffer_width)%nat in
  let image := intensity_image g intensity_exponent buffered_image_size (- buffer_size) (1 + buffer_size) in
  let image := flipud (transpose image) in
  let fov_width := width f in
  let fov_height := height f in
  if (image_size =? 0)%nat then Raise ValueError
  else if Reqb fov_width 0 || Reqb fov_height 0 then Raise ZeroDivisionError
  else
    let sigma_0 := INR image_size / (215 / 100 * fov_width) in
    let sigma_1 := INR image_size / (215 / 100 * fov_height) in
    let image := gaussian_filter constant_mode sigma_0 sigma_1 (raster_map Some image) in
    let image := slice image buffer_width buffer_width image_size image_size in
    Ok (divide_by_max image).

(** * Noise *)
Section Noise.
Context {G : Type}.
Variable s : sampler G.
(** rng.poisson(rate), external *)
Variable poisson : R -> G -> nat * G.

(** a draw for each element, in order. Used at imaging.py:188-196. *)
Fixpoint draw_each {A B} (draw : A -> G -> B * G) (l : list A) (g : G) : list B * G :=
  match l with
  | [] => ([], g)
  | x :: l =>
      let '(y, g) := draw x g in
      let '(ys, g) := draw_each draw l g in
      (y :: ys, g)
  end.
(** an array of this shape from its elements, row by row. Used at imaging.py:199-203. *)
Definition reshape {A} (d : A) (h w : nat) (l : list A) : raster A :=
  mkraster h w (fun i j => nth (i * w + j) l d).
(** rng.<distribution>(..., size=image.shape). Used at imaging.py:176-185. *)
Definition draw_array (draw : G -> R * G) (h w : nat) (g : G) : raster R * G :=
  let '(l, g) := draw_each (fun _ => draw) (seq 0 (h * w)) g in
  (reshape 0 h w l, g).

(** image + noise. Used at imaging.py:176-185. *)
Definition add_noise (r : frame) (noise : raster R) : frame :=
  mkraster (rs_height r) (rs_width r) (fun i j => option_map (fun x => x + rs_pixel noise i j) (rs_pixel r i j)).
(** skimage.util.random_noise: the lowest value, and the clipping to it and 1.
    Used at imaging.py:176-185. *)
Definition low_clip (r : frame) : R :=
  match np_min r with Some m => if Rltb m 0 then -1 else 0 | None => 0 end.
(** used at imaging.py:176-185 *)
Definition clip_image (low : R) (r : frame) : frame := raster_map (option_map (fun x => clip x low 1)) r.

(** imaging.py:176-185 apply_gaussian_noise; skimage.util.random_noise with
    mode='gaussian' and the default mean 0 and clip=True *)
Definition apply_gaussian_noise (r : frame) (variance : R) (g : G) : frame * G :=
  let '(noise, g) := draw_array (s_normal s (sqrt variance)) (rs_height r) (rs_width r) g in
  (clip_image (low_clip r) (add_noise r noise), g).

(** np.roll(row, shift) *)
Definition roll_index (w shift j : nat) : nat := ((j + (w - shift mod w)) mod w)%nat.
(** imaging.py:188-196 apply_jitter *)
Definition apply_jitter (r : frame) (jitter_rate : R) (g : G) : frame * G :=
  let '(roll_per_row, g) := draw_each (fun _ => poisson jitter_rate) (seq 0 (rs_height r)) g in
  (mkraster (rs_height r) (rs_width r) (fun i j =>
     rs_pixel r i (roll_index (rs_width r) (nth i roll_per_row 0%nat) j)), g).

(** imaging.py:199-203 apply_poisson_noise; numpy refuses rates that are
    negative or NaN *)
Definition apply_poisson_noise (r : frame) (poisson_rate_multiplier : R) (g : G) : res frame * G :=
  match all_numbers (pixels (raster_map (option_map (fun x => x * poisson_rate_multiplier)) r)) with
  | None => (Raise ValueError, g)
  | Some rates =>
      if existsb (fun x => Rltb x 0) rates then (Raise ValueError, g)
      else
        let '(counts, g) := draw_each poisson rates g in
        (Ok (divide_by_max (raster_map (fun n => Some (INR n)) (reshape 0%nat (rs_height r) (rs_width r) counts))), g)
  end.

(** imaging.py:206-209 apply_salt_and_pepper_noise; skimage.util.random_noise
    with mode='s&p' and the default salt_vs_pepper=0.5 *)
Definition apply_salt_and_pepper_noise (r : frame) (amount : R) (g : G) : frame * G :=
  let '(flips, g) := draw_array (s_uniform s 0 1) (rs_height r) (rs_width r) g in
  let '(salts, g) := draw_array (s_uniform s 0 1) (rs_height r) (rs_width r) g in
  let low := low_clip r in
  let out := mkraster (rs_height r) (rs_width r) (fun i j =>
    if Rleb (rs_pixel flips i j) amount
    then (if Rleb (rs_pixel salts i j) (1 / 2) then Some 1 else Some low)
    else rs_pixel r i j) in
  (clip_image low out, g).

(** imaging.py:212-214 apply_blur *)
Definition apply_blur (r : frame) (amount : R) : frame :=
  divide_by_max (gaussian_filter reflect_mode amount amount r).

(** imaging.py:217-218 apply_contrast; skimage.exposure.adjust_gamma with
    gain 1 raises ValueError for a negative gamma or a negative pixel *)
Definition apply_contrast (r : frame) (gamma : R) : res frame :=
  if existsb (fun x => match x with Some x => Rltb x 0 | None => false end) (pixels r) || Rltb gamma 0
  then Raise ValueError
  else Ok (raster_map (fun x => match x with
                                | Some x => Some (power x gamma)
                                | None => if Reqb gamma 0 then Some 1 else None
                                end) r).

(** imaging.py:221-228 apply_exponential_noise *)
Definition apply_exponential_noise (r : frame) (noise_scale : R) (g : G) : frame * G :=
  let '(noise, g) := draw_array (s_exponential s noise_scale) (rs_height r) (rs_width r) g in
  (divide_by_max (add_noise r noise), g).

(** imaging.py:231-236 apply_uniform_noise *)
Definition apply_uniform_noise (r : frame) (noise_scale : R) (g : G) : frame * G :=
  let '(noise, g) := draw_array (s_uniform s 0 noise_scale) (rs_height r) (rs_width r) g in
  (divide_by_max (add_noise r noise), g).

(** skimage.exposure.equalize_adapthist(image, clip_limit), external *)
Variable equalize_adapthist : frame -> R -> res frame.

(** imaging.py:239-265 generate_stem_image *)
Definition generate_stem_image (g : grid) (f : fov) (params : image_parameters) (rng : G) (buffer_size : R)
  : res frame * G :=
  match generate_clean_image g f (ip_intensity_exponent params) (ip_image_size params) buffer_size with
  | Raise e => (Raise e, rng)
  | OutOfFuel => (OutOfFuel, rng)
  | Ok image =>
      let image := apply_blur image (ip_blur_amount params) in
      match apply_poisson_noise image (ip_poisson_rate_multiplier params) rng with
      | (Raise e, rng) => (Raise e, rng)
      | (OutOfFuel, rng) => (OutOfFuel, rng)
      | (Ok image, rng) =>
          let '(image, rng) := apply_jitter image (ip_jitter_rate params) rng in
          let '(image, rng) := apply_salt_and_pepper_noise image (ip_salt_and_pepper_amount params) rng in
          match apply_contrast image (ip_contrast_gamma params) with
          | Raise e => (Raise e, rng)
          | OutOfFuel => (OutOfFuel, rng)
          | Ok image =>
              let '(image, rng) := apply_uniform_noise image (ip_uniform_noise_scale params) rng in
              let '(image, rng) := apply_exponential_noise image (ip_exponential_lambda params) rng in
              let '(image, rng) := apply_gaussian_noise image (ip_gaussian_variance params) rng in
              (equalize_adapthist image (1 / 100), rng)
          end
      end
  end.
End Noise.
