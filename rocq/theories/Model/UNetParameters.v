(** The parameters that model.init makes for the U-nets of
    putting_dune/atom_detection/model.py and putting_dune/image_alignment/model.py *)
From Coq Require Import String List Arith.
From Verif Require Import Base.Prelude Model.RateTraining Model.UNet.
Import ListNotations.
Local Open Scope nat_scope.
Local Open Scope string_scope.
Local Open Scope list_scope.

(** a parameter: the module, its name in the module, its shape.
    Used at atom_detection/model.py:77-85. *)
Definition parameter : Type := string * string * list nat.

(** flax's Conv and ConvTranspose: a kernel and a bias (not in /repo: written
    from its documentation). Used at atom_detection/model.py:50-75. *)
Definition conv_parameters (name : string) (size inputs outputs : nat) : list parameter :=
  [(name, "kernel", [size; size; inputs; outputs]); (name, "bias", [outputs])].
(** flax's Dense. Used at image_alignment/model.py:80-105. *)
Definition dense_parameters (name : string) (inputs outputs : nat) : list parameter :=
  [(name, "kernel", [inputs; outputs]); (name, "bias", [outputs])].
(** flax's LayerNorm; modules without a name are numbered in the order in which
    they are made. Used at atom_detection/model.py:50-75. *)
Definition norm_parameters (number channels : nat) : list parameter :=
  let name := ("LayerNorm_" ++ decimal number)%string in
  [(name, "scale", [channels]); (name, "bias", [channels])].

(** What recurse returns, besides the parameters it makes: the channels of its
    result and of the bottom, and the number of normalizations so far.
    Used at atom_detection/model.py:50-75. *)
Record made := mkmade { md_parameters : list parameter; md_channels : nat; md_bottom : nat; md_norms : nat }.

(** atom_detection/model.py:50-75 recurse, image_alignment/model.py:51-78
    recurse: [features] are those of this depth and below; it is not called
    without any *)
Fixpoint recurse_parameters (depth : nat) (features : list nat) (inputs norms : nat) : made :=
  match features with
  | [] => mkmade [] inputs inputs norms
  | f :: rest =>
      let down := conv_parameters ("ConvDown_" ++ decimal depth)%string 3 inputs f ++ norm_parameters norms f in
      match rest with
      | [] => mkmade down f f (S norms)
      | _ :: _ =>
          let inner := recurse_parameters (S depth) rest f (S norms) in
          let transpose := conv_parameters ("ConvTranspose_" ++ decimal depth)%string 3 (md_channels inner) f in
          let up := conv_parameters ("ConvUp_" ++ decimal depth)%string 3 (f + f) f ++ norm_parameters (md_norms inner) f in
          mkmade (down ++ md_parameters inner ++ transpose ++ up) f (md_bottom inner) (S (md_norms inner))
      end
  end.

(** atom_detection/model.py:77-85 UNet.__call__ *)
Definition unet_parameters (features : list nat) (inputs num_classes : nat) : list parameter :=
  let r := recurse_parameters 0 features inputs 0 in
  md_parameters r ++ conv_parameters "ConvOutput" 1 (md_channels r) num_classes.

(** image_alignment/model.py:80-105 GlobalLocalUNet.__call__; without features
    line 83 raises *)
Definition global_local_parameters (features : list nat) (inputs local_output_size global_output_size : nat) : list parameter :=
  let f := hd 0 features in
  let r := recurse_parameters 0 features f 1 in
  conv_parameters "ConvInput" 7 inputs f ++ norm_parameters 0 f ++
  md_parameters r ++
  conv_parameters "ConvOutput" 7 (md_channels r) local_output_size ++
  conv_parameters "global_output" 1 (md_bottom r) 256 ++ norm_parameters (md_norms r) 256 ++
  dense_parameters "Dense_0" 256 global_output_size.

(** atom_detection/train.py:176-186 and atom_detection/save_model.py:81: one
    channel, three classes (atom_detection/model.py:42) *)
Definition detector_parameters : list parameter := unet_parameters default_features 1 3.

(** image_alignment/train.py:306-316, 326 and image_alignment/save_model.py:83-93;
    an image of the sequence is a channel *)
Definition aligner_parameters (final_step_only : bool) (sequence_length : nat) : list parameter :=
  let local_output_size := if final_step_only then 3 else 3 * sequence_length in
  let global_output_size := if final_step_only then 2 else 2 * (sequence_length - 1) in
  global_local_parameters default_features sequence_length local_output_size global_output_size.
