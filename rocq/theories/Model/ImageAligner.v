(** putting_dune/alignment.py: pad_and_crop_images_by_fov and ImageAligner *)
From Coq Require Import Reals ZArith List Bool Arith.
From Verif Require Import Base.Prelude Base.Rounding Base.Random Model.Constants Model.MicroscopeUtils Model.Alignment.
Import ListNotations.
Open Scope R_scope.
Open Scope res_scope.

(** * Images *)

(** An array of shape (height, width, channels), by row and column; what a
    pixel holds is its channels.  Only pixels within the shape matter.
    Used at alignment.py:203-287. *)
Record raster (A : Type) := mkraster { rs_height : nat; rs_width : nat; rs_pixel : nat -> nat -> A }.
Arguments mkraster {A}.
Arguments rs_height {A}.
Arguments rs_width {A}.
Arguments rs_pixel {A}.

Section PadCrop.
Context {A : Type}.
Variable zero : A.

(** tf.image.resize(image, size, method='nearest'), external: output pixel i of
    n_out takes the input pixel of n_in its centre falls into.
    Used at alignment.py:203-287. *)
Definition nearest_index (n_in n_out i : nat) : nat := ((2 * i + 1) * n_in / (2 * n_out))%nat.
(** Simplification: its error for an empty or negative size is a ValueError.
    Used at alignment.py:203-287. *)
Definition resize_nearest (image : raster A) (height width : Z) : res (raster A) :=
  if (height <=? 0)%Z || (width <=? 0)%Z || (rs_height image =? 0)%nat || (rs_width image =? 0)%nat then Raise ValueError
  else
    let h := Z.to_nat height in
    let w := Z.to_nat width in
    Ok (mkraster h w (fun i j => rs_pixel image (nearest_index (rs_height image) h i) (nearest_index (rs_width image) w j))).

(** np.pad(image, ((dh, dh), (dw, dw), (0, 0)), mode='constant').
    Used at alignment.py:203-287. *)
Definition pad (image : raster A) (dh dw : nat) : raster A :=
  mkraster (rs_height image + 2 * dh) (rs_width image + 2 * dw) (fun i j =>
    if (dh <=? i)%nat && (i <? dh + rs_height image)%nat && (dw <=? j)%nat && (j <? dw + rs_width image)%nat
    then rs_pixel image (i - dh) (j - dw) else zero).

(** image[i0 : i0 + h, j0 : j0 + w], for i0 and j0 that are not negative.
    Used at alignment.py:203-287. *)
Definition slice (image : raster A) (i0 j0 h w : nat) : raster A :=
  mkraster (Nat.min (i0 + h) (rs_height image) - i0) (Nat.min (j0 + w) (rs_width image) - j0)
    (fun i j => rs_pixel image (i0 + i) (j0 + j)).

(** alignment.py:203-287 pad_and_crop_images_by_fov.  resize_factor and
    new_scale are ordered (x, y), the shape and the shift (row, column).
    Simplification: a new field of view without extent, for which numpy
    divides by zero, fails in the resizing. *)
Definition pad_and_crop_images_by_fov (image : raster A) (original_fov new_fov : fov) : res (raster A) :=
  let original_scale := fov_scale original_fov in
  let new_scale := fov_scale new_fov in
  if Reqb (px new_scale) 0 || Reqb (py new_scale) 0 then Raise ValueError
  else
    let factor_0 := px original_scale / px new_scale in
    let factor_1 := py original_scale / py new_scale in
    let h := rs_height image in
    let w := rs_width image in
    resized <- (if negb (Reqb factor_0 1) || negb (Reqb factor_1 1)
                then resize_nearest image (round_half_even (INR h * factor_0)) (round_half_even (INR w * factor_1))
                else Ok image) ;;
    let padded := pad resized h w in
    let x_shift := px (lower_left new_fov) - px (lower_left original_fov) in
    let y_shift := py (upper_right new_fov) - py (upper_right original_fov) in
    let start_0 := - y_shift * INR h / px new_scale + INR h in
    let start_1 := x_shift * INR w / py new_scale + INR w in
    let start_0 := clip start_0 0 (INR (rs_height padded - h)) in
    let start_1 := clip start_1 0 (INR (rs_width padded - w)) in
    Ok (slice padded (Z.to_nat (round_half_even start_0)) (Z.to_nat (round_half_even start_1)) h w).
End PadCrop.

(** * Detection *)

(** cv2.moments of a contour, as far as used *)
Record moments := mkmoments { m00 : R; m10 : R; m01 : R }.
(** alignment.py:391-403: the centre of a contour in an image of this shape.
    x is divided by the number of rows, y by that of columns. *)
Definition centroid (height width : nat) (m : moments) : pt :=
  let '(c_x, c_y) := if negb (Reqb (m00 m) 0) then (trunc (m10 m / m00 m), trunc (m01 m / m00 m)) else (0%Z, 0%Z) in
  mkpt (IZR c_x / INR height) (1 - IZR c_y / INR width).

(** tf.nn.softmax of the three values of a pixel (background, carbon, silicon).
    Used at alignment.py:491-582. *)
Definition softmax3 (l : R * R * R) : R * R * R :=
  let '(a, b, c) := l in
  let s := exp a + exp b + exp c in
  (exp a / s, exp b / s, exp c / s).
(** np.argmax of them. Used at alignment.py:405-458. *)
Definition argmax3 (p : R * R * R) : nat :=
  let '(a, b, c) := p in
  if Rltb a b then (if Rltb b c then 2 else 1)%nat else (if Rltb a c then 2 else 0)%nat.

Section Detection.
(** cv2.erode with a 2 x 2 kernel, so many times, cv2.findContours and
    cv2.moments: external *)
Variable contours : raster bool -> nat -> list moments.

(** alignment.py:369-404 compute_centroids *)
Definition compute_centroids (classes : raster nat) (class_index erode_iters : nat) : list pt :=
  let mask := mkraster (rs_height classes) (rs_width classes) (fun i j => (rs_pixel classes i j =? class_index)%nat) in
  map (centroid (rs_height classes) (rs_width classes)) (contours mask erode_iters).

(** alignment.py:448-450: inside the buffer on all sides *)
Definition off_edges (buffer_width : R) (p : pt) : bool :=
  Rltb buffer_width (px p) && Rltb buffer_width (py p) && (Rltb (px p) (1 - buffer_width) && Rltb (py p) (1 - buffer_width)).
(** alignment.py:405-458 process_detection_predictions *)
Definition process_detection_predictions (probs : raster (R * R * R)) (buffer_width : R) : grid :=
  let classes := mkraster (rs_height probs) (rs_width probs) (fun i j => argmax3 (rs_pixel probs i j)) in
  let carbon := compute_centroids classes 1 1 in
  let silicon := compute_centroids classes 2 3 in
  let atom_positions := carbon ++ silicon in
  let atomic_numbers := repeat CARBON (length carbon) ++ repeat SILICON (length silicon) in
  let in_bounds := map (off_edges buffer_width) atom_positions in
  mkgrid (mask_select in_bounds atom_positions) (mask_select in_bounds atomic_numbers).
(** alignment.py:409: the default *)
Definition default_buffer_width : R := 5 / 100.
End Detection.

(** * The aligner *)

(** the pixels of an array, row by row *)
Definition pixels {A} (r : raster A) : list A :=
  flat_map (fun i => map (rs_pixel r i) (seq 0 (rs_width r))) (seq 0 (rs_height r)).
Definition raster_map {A B} (f : A -> B) (r : raster A) : raster B :=
  mkraster (rs_height r) (rs_width r) (fun i j => f (rs_pixel r i j)).
Definition minimum (l : list R) : R := match l with [] => 0 | x :: l => fold_right Rmin x l end.
Definition maximum (l : list R) : R := match l with [] => 0 | x :: l => fold_right Rmax x l end.
(** alignment.py:532-533; [None] is NaN (0 / 0) *)
Definition normalize (r : raster R) : raster (option R) :=
  let image_min := minimum (pixels r) in
  let image_max := maximum (pixels r) in
  raster_map (fun x => if Reqb (image_max - image_min) 0 then None else Some ((x - image_min) / (image_max - image_min))) r.

(** a frame of the history *)
Definition frame : Type := raster (option R).
(** np.zeros_like *)
Definition blank (height width : nat) : frame := mkraster height width (fun _ _ => Some 0).
(** alignment.py:338-343: the field of view that comes with it *)
Definition dummy_fov : fov := mkfov (mkpt 0 0) (mkpt 20 20).

(** collections.deque(maxlen).append. Used at alignment.py:323-347. *)
Definition push {A} (maxlen : nat) (x : A) (l : list A) : list A :=
  let l := l ++ [x] in skipn (length l - maxlen) l.
(** a[..., i, :]. Used at alignment.py:491-582. *)
Definition py_nth {A} (l : list A) (i : Z) : res A :=
  let i := if (i <? 0)%Z then (i + Z.of_nat (length l))%Z else i in
  if (i <? 0)%Z then Raise IndexError
  else match nth_error l (Z.to_nat i) with Some x => Ok x | None => Raise IndexError end.

Section Aligner.
(** what the post-processing aligner remembers, and its calls *)
Context {PS : Type}.
Variable post_reset : PS -> PS.
Variable post_call : grid -> PS -> res (grid * pt) * PS.
(** skimage.exposure.equalize_adapthist, the loaded model and OpenCV: external.
    The model gives logits and a drift for every frame. *)
Variable equalize : raster R -> res (raster R).
Variable network : list frame -> res (list (raster (R * R * R) * pt)).
Variable contours : raster bool -> nat -> list moments.
(** the attributes that are only set by users; [ia_hybrid] by the constructor *)
Variable adaptive_normalization : bool.
Variable hybrid : bool.
Variable default_history_length : nat.

(** alignment.py:290-321, 332-347 the attributes that change; the two deques
    are always extended together *)
Record aligner := mkaligner {
  ia_history : list (frame * fov);
  ia_maxlen : nat;
  ia_needs_reset : bool;
  ia_post : PS
}.
(** alignment.py:349-363 __init__ *)
Definition new_aligner (ps : PS) : aligner := mkaligner [] 0 true ps.

(** alignment.py:323-347 reset; a negative maxlen is a ValueError *)
Definition ia_reset (history_length height width : nat) (a : aligner) : res unit * aligner :=
  match history_length with
  | O => (Raise ValueError, a)
  | S maxlen =>
      let history := fold_left (fun l _ => push maxlen (blank height width, dummy_fov) l) (seq 0 history_length) [] in
      (Ok tt, mkaligner history maxlen false (if hybrid then post_reset (ia_post a) else ia_post a))
  end.
(** alignment.py:324: the default example image *)
Definition default_size : nat := 512.

(** alignment.py:516-533 *)
Definition preprocess (image : raster R) : res frame :=
  image <- (if adaptive_normalization then equalize image else Ok image) ;;
  image <- resize_nearest image 512 512 ;;
  Ok (normalize image).

(** np.concatenate(padded_images, -1) *)
Definition stackable (frames : list frame) : bool :=
  match frames with
  | [] => true
  | f :: fs => forallb (fun g => (rs_height g =? rs_height f)%nat && (rs_width g =? rs_width f)%nat) fs
  end.
(** alignment.py:537-543: what is fed to the model *)
Definition framestack (history : list (frame * fov)) (image : frame) (view : fov) : res (list frame) :=
  padded <- map_res (fun h => pad_and_crop_images_by_fov (Some 0) (fst h) (snd h) view) history ;;
  let frames := padded ++ [image] in
  if stackable frames then Ok frames else Raise ValueError.

(** alignment.py:562-580: post-processing.  Everything it raises is caught. *)
Definition postprocess (view : fov) (g : grid) (drift : pt) (ps : PS) : grid * pt * PS :=
  let material_grid := grid_to_material (fov_shift view (pneg drift)) g in
  match post_call material_grid ps with
  | (Ok (postprocessed_grid, postprocessed_drift), ps) =>
      let drift := padd drift postprocessed_drift in
      (grid_to_microscope (fov_shift view (pneg drift)) postprocessed_grid, drift, ps)
  | (_, ps) => (g, drift, post_reset ps)
  end.

(** alignment.py:491-582 __call__.  (A two-dimensional image gets one
    channel.)  Simplification: one channel. *)
Definition ia_call (image : raster R) (view : fov) (grid_given : option grid) (time_index : Z) (a : aligner)
  : res (grid * pt * raster (R * R * R)) * aligner :=
  match preprocess image with
  | Raise e => (Raise e, a)
  | OutOfFuel => (OutOfFuel, a)
  | Ok image =>
      let '(r, a) := if ia_needs_reset a then ia_reset default_history_length (rs_height image) (rs_width image) a else (Ok tt, a) in
      match (_ <- r ;;
             frames <- framestack (ia_history a) image view ;;
             outputs <- network frames ;;
             py_nth outputs time_index) with
      | Raise e => (Raise e, a)
      | OutOfFuel => (OutOfFuel, a)
      | Ok (logits, pred_drift) =>
          let probs := raster_map softmax3 logits in
          let g := match grid_given with
            | Some g => g
            | None => process_detection_predictions contours probs default_buffer_width
            end in
          let history := push (ia_maxlen a) (image, view) (ia_history a) in
          if hybrid then
            let '(g, pred_drift, ps) := postprocess view g pred_drift (ia_post a) in
            (Ok (g, pred_drift, probs), mkaligner history (ia_maxlen a) (ia_needs_reset a) ps)
          else (Ok (g, pred_drift, probs), mkaligner history (ia_maxlen a) (ia_needs_reset a) (ia_post a))
      end
  end.

(** As the alignment script uses it: *)
(** the image of an observation, an array *)
Definition raster_of (rows : image) : raster R :=
  mkraster (length rows) (length (hd [] rows)) (fun i j => nth j (nth i rows []) 0).
(** align_trajectories.py:68 (for a positive history length) *)
Definition script_reset (history_length : nat) (a : aligner) : aligner :=
  snd (ia_reset history_length default_size default_size a).
(** align_trajectories.py:75; None has no ndim *)
Definition script_call (im : option image) (view : fov) (a : aligner) : res (grid * pt) * aligner :=
  match im with
  | None => (Raise AttributeError, a)
  | Some rows =>
      let '(r, a) := ia_call (raster_of rows) view None (-1) a in
      (out <- r ;; Ok (fst out), a)
  end.
End Aligner.
Arguments mkaligner {PS}.
Arguments ia_history {PS}.
Arguments ia_maxlen {PS}.
Arguments ia_needs_reset {PS}.
Arguments ia_post {PS}.

(** * The post-processing of the hybrid aligner *)

(** alignment.py:354-363: its parameters *)
Definition hybrid_params : filter_params :=
  mkfilter_params 1 1 0 (CARBON_BOND_DISTANCE_ANGSTROMS / 2) (CARBON_BOND_DISTANCE_ANGSTROMS / 2) false true (1 / 2).

Section HybridPost.
Context {G : Type}.
Variable s : sampler G.
Variable asort : argsort_fn.
Variable find : cliques_fn.
Variable kmeans : list (list R) -> G -> (list R -> Z) * G.

(** its state, with the arrays it refers to and the global generator *)
Record post_state := mkpost_state { po_filter : filter_state; po_heap : heap; po_rng : G }.
(** alignment.py:345 *)
Definition filter_post_reset (p : post_state) : post_state := mkpost_state filter_reset (po_heap p) (po_rng p).
(** alignment.py:566-571: a call with a new array.  (A result with NaNs does
    not occur: merging cliques raises for them.) *)
Definition filter_post_call (g : grid) (p : post_state) : res (grid * pt) * post_state :=
  let '(r, h) := alloc (po_heap p) (map Some (positions g)) in
  let '(x, st, h, rng) := filter_call s asort find kmeans hybrid_params (mkgrid_ref r (numbers g)) (po_filter p) h (po_rng p) in
  (out <- x ;;
   match finite_rows (array h (gf_positions (fst out))), snd out with
   | Some ps, Some d => Ok (mkgrid ps (gf_numbers (fst out)), d)
   | _, _ => Raise ValueError
   end, mkpost_state st h rng).
End HybridPost.
Arguments mkpost_state {G}.
Arguments po_filter {G}.
Arguments po_heap {G}.
Arguments po_rng {G}.
