(** putting_dune/atom_detection/dataset.py and putting_dune/image_alignment/dataset.py: what the networks are
    trained on *)
From Coq Require Import Reals ZArith List Bool Arith.
From Verif Require Import Base.Prelude Base.Rounding Model.Constants Model.MicroscopeUtils Model.ImageAligner.
Import ListNotations.
Open Scope R_scope.
Open Scope res_scope.

(** * Labels *)

(** image_alignment/dataset.py:69-75 and atom_detection/dataset.py:59-65: first
    carbon, then silicon, in what came out of the first *)
Definition remap_label (l : Z) : Z :=
  let l := if (l =? CARBON)%Z then 1%Z else l in
  if (l =? SILICON)%Z then 2%Z else l.
(** tf.one_hot: zeros only if there is no such class *)
Definition one_hot (num_classes : nat) (l : Z) : list R :=
  map (fun k => if (l =? Z.of_nat k)%Z then 1 else 0) (seq 0 num_classes).
(** image_alignment/dataset.py:69-80 and atom_detection/dataset.py:59-70 RemapAndOneHotMask.map, a pixel;
    dataset.py:119 and :92: three classes *)
Definition label_target (l : Z) : list R := one_hot 3 (remap_label l).

(** * Atom detection *)

(** An example: arrays of shape (height, width, 1) *)
Record detection_example (A L : Type) := mkdetection { de_image : raster A; de_mask : raster L }.
Arguments mkdetection {A L}.
Arguments de_image {A L}.
Arguments de_mask {A L}.
(** atom_detection/dataset.py:35-50 ResizeImage.map *)
Definition detection_resize {A L} (size : nat) (e : detection_example A L) : res (detection_example A L) :=
  image <- resize_nearest (de_image e) (Z.of_nat size) (Z.of_nat size) ;;
  mask <- resize_nearest (de_mask e) (Z.of_nat size) (Z.of_nat size) ;;
  Ok (mkdetection image mask).
(** atom_detection/dataset.py:81-96 make_dataset: the transformations of an example *)
Definition detection_transform {A} (size : nat) (e : detection_example A Z) : res (detection_example A (list R)) :=
  e <- detection_resize size e ;;
  Ok (mkdetection (de_image e) (raster_map label_target (de_mask e))).

(** * Image alignment *)

(** An example: images of shape (time, height, width, channels), a mask of
    shape (time, height, width, 1) and drifts of shape (time, 2).  Here a pixel
    holds what is there at each time. Used at image_alignment/dataset.py:87-91. *)
Record alignment_example (I L : Type) := mkalignment { ae_images : raster I; ae_mask : raster L; ae_drift : list pt }.
Arguments mkalignment {I L}.
Arguments ae_images {I L}.
Arguments ae_mask {I L}.
Arguments ae_drift {I L}.
(** images are bytes or floats. Used at image_alignment/dataset.py:36-60. *)
Inductive value := Byte (b : Z) | Float (x : R).
(** tf.image.convert_image_dtype(images, tf.float32), external.  Simplification: exact.
    Used at image_alignment/dataset.py:36-60. *)
Definition convert_value (v : value) : R := match v with Byte b => IZR b / 255 | Float x => x end.

(** image_alignment/dataset.py:87-91 SelectFinalTimestep.map: [-1:] *)
Definition final_only {A} (l : list A) : list A := skipn (length l - 1) l.
Definition select_final {I L} (e : alignment_example I (list L)) : alignment_example I (list L) :=
  mkalignment (ae_images e) (raster_map final_only (ae_mask e)) (final_only (ae_drift e)).

(** image_alignment/dataset.py:41-48, 51-57: resized unless it has that size *)
Definition fit {A} (size : nat) (r : raster A) : res (raster A) :=
  if negb (rs_height r =? size)%nat || negb (rs_width r =? size)%nat
  then resize_nearest r (Z.of_nat size) (Z.of_nat size)
  else Ok r.
(** image_alignment/dataset.py:36-60 ResizeImage.map; the transposition and the
    reshaping put all that is at a pixel in a row, by time and then channel.
    All frames of the mask are resized alike *)
Definition alignment_resize {L} (size : nat) (e : alignment_example (list (list value)) L) : res (alignment_example (list R) L) :=
  let images := raster_map (map (map convert_value)) (ae_images e) in
  let images := raster_map (@concat R) images in
  images <- fit size images ;;
  mask <- fit size (ae_mask e) ;;
  Ok (mkalignment images mask (ae_drift e)).
(** image_alignment/dataset.py:103-121 make_dataset: the transformations of an example *)
Definition alignment_transform (final : bool) (size : nat) (e : alignment_example (list (list value)) (list Z))
  : res (alignment_example (list R) (list (list R))) :=
  let e := if final then select_final e else e in
  e <- alignment_resize size e ;;
  Ok (mkalignment (ae_images e) (raster_map (map label_target) (ae_mask e)) (ae_drift e)).

(** image_alignment/dataset.py:144-147: where a process starts to read *)
Definition process_start (start_index process_count process_index : nat) : nat :=
  (start_index / process_count) * process_count + process_index.
