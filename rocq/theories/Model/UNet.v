(** putting_dune/atom_detection/model.py and putting_dune/image_alignment/model.py: the U-nets *)
From Coq Require Import Reals ZArith List Bool Arith.
From Verif Require Import Base.Prelude Model.LearningSteps Model.GraphNet.
Import ListNotations.
Open Scope R_scope.
Open Scope list_scope.
Open Scope res_scope.

(** An array of rows, columns and channels.
    Used at atom_detection/model.py:26-30, 80-84. *)
Record tensor := mktensor { tn_rows : nat; tn_cols : nat; tn_pixel : nat -> nat -> vec }.
(** A convolution with its parameters: what each of its taps makes of a pixel, and the bias together with the
    normalization and activation after it, which act on each pixel (nn.LayerNorm normalizes channels).
    Used at atom_detection/model.py:26-30, 80-84. *)
Record layer := mklayer { ly_channels : nat; ly_taps : nat -> nat -> vec -> vec; ly_post : vec -> vec }.

(** flax's Conv with SAME padding for kernels of odd size (not in /repo: written from its documentation):
    atom_detection/model.py:26-30, 80-84; image_alignment/model.py:26-30, 82-86, 90-99 *)
Definition tap_source (pad limit i a : nat) : option nat :=
  if (pad <=? i + a)%nat && (i + a - pad <? limit)%nat then Some (i + a - pad)%nat else None.
Definition conv (size : nat) (l : layer) (x : tensor) : tensor :=
  let pad := (size / 2)%nat in
  mktensor (tn_rows x) (tn_cols x) (fun i j =>
    ly_post l (vsum (ly_channels l) (flat_map (fun a => flat_map (fun b =>
      match tap_source pad (tn_rows x) i a, tap_source pad (tn_cols x) j b with
      | Some u, Some v => [ly_taps l a b (tn_pixel x u v)]
      | _, _ => []
      end) (seq 0 size)) (seq 0 size)))).
(** nn.max_pool with a window and strides of (2, 2): atom_detection/model.py:59, image_alignment/model.py:60 *)
Definition vmax (a b : vec) : vec := map2 Rmax a b.
Definition max_pool (x : tensor) : tensor :=
  mktensor (tn_rows x / 2) (tn_cols x / 2) (fun i j =>
    vmax (vmax (tn_pixel x (2 * i) (2 * j)) (tn_pixel x (2 * i) (2 * j + 1)))
         (vmax (tn_pixel x (2 * i + 1) (2 * j)) (tn_pixel x (2 * i + 1) (2 * j + 1)))).
(** flax's ConvTranspose with a kernel of size 3, strides of 2 and SAME padding:
    atom_detection/model.py:31-35, 61-65; image_alignment/model.py:31-35, 62-66.  The pixels are put at even
    places and padded with 2 before and 1 behind. *)
Definition stretched_source (limit i a : nat) : option nat :=
  if (2 <=? i + a)%nat && Nat.even (i + a) && ((i + a - 2) / 2 <? limit)%nat then Some ((i + a - 2) / 2)%nat else None.
Definition conv_transpose (l : layer) (x : tensor) : tensor :=
  mktensor (2 * tn_rows x) (2 * tn_cols x) (fun i j =>
    ly_post l (vsum (ly_channels l) (flat_map (fun a => flat_map (fun b =>
      match stretched_source (tn_rows x) i a, stretched_source (tn_cols x) j b with
      | Some u, Some v => [ly_taps l a b (tn_pixel x u v)]
      | _, _ => []
      end) (seq 0 3)) (seq 0 3)))).
(** jnp.concatenate along the channels: atom_detection/model.py:67, image_alignment/model.py:68 *)
Definition concatenate (a b : tensor) : res tensor :=
  if (tn_rows a =? tn_rows b)%nat && (tn_cols a =? tn_cols b)%nat
  then Ok (mktensor (tn_rows a) (tn_cols a) (fun i j => tn_pixel a i j ++ tn_pixel b i j)) else Raise TypeError.

(** The layers of a network, by depth. Used at atom_detection/model.py:50-75. *)
Record unet_params := mkunet_params {
  un_down : nat -> layer;
  un_transpose : nat -> layer;
  un_up : nat -> layer;
  un_input : layer;
  un_output : layer;
  un_global : layer;
  un_dense : vec -> vec
}.

(** atom_detection/model.py:50-75 recurse, image_alignment/model.py:51-78 recurse: with what there is at the
    bottom; [features] are those of this depth and below *)
Fixpoint recurse (p : unet_params) (depth : nat) (features : list nat) (x : tensor) : res (tensor * tensor) :=
  match features with
  | [] => Raise IndexError
  | _ :: rest =>
      let x := conv 3 (un_down p depth) x in
      match rest with
      | [] => Ok (x, x)
      | _ :: _ =>
          r <- recurse p (S depth) rest (max_pool x) ;;
          let x_up := conv_transpose (un_transpose p depth) (fst r) in
          x <- concatenate x_up x ;;
          Ok (conv 3 (un_up p depth) x, snd r)
      end
  end.
(** atom_detection/model.py:48, image_alignment/model.py:49 *)
Definition default_features : list nat := [64; 128; 256; 512; 1024]%nat.
(** atom_detection/model.py:77-85 UNet.__call__ *)
Definition unet_call (p : unet_params) (features : list nat) (x : tensor) : res tensor :=
  r <- recurse p 0 features x ;;
  Ok (conv 1 (un_output p) (fst r)).
(** image_alignment/model.py:102: the mean over rows and columns *)
Definition pixel_mean (channels : nat) (x : tensor) : vec :=
  vmean channels (flat_map (fun i => map (fun j => tn_pixel x i j) (seq 0 (tn_cols x))) (seq 0 (tn_rows x))).
(** image_alignment/model.py:80-105 GlobalLocalUNet.__call__ *)
Definition global_local_call (p : unet_params) (features : list nat) (x : tensor) : res (tensor * vec) :=
  match features with
  | [] => Raise IndexError
  | _ =>
      let x := conv 7 (un_input p) x in
      r <- recurse p 0 features x ;;
      let segmentation_output := conv 7 (un_output p) (fst r) in
      let global_output := conv 1 (un_global p) (snd r) in
      Ok (segmentation_output, un_dense p (pixel_mean (ly_channels (un_global p)) global_output))
  end.
