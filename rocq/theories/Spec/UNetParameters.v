(** Which parameters the U-nets have. *)
From Coq Require Import String List Arith.
From Verif Require Import Base.Prelude Model.RateTraining.
Import ListNotations.
Local Open Scope nat_scope.
Local Open Scope string_scope.
Local Open Scope list_scope.

(** a convolution with square kernels from some channels to others *)
Definition convolution (size inputs outputs : nat) (name : string) (shape : list nat) : Prop :=
  name = "kernel" /\ shape = [size; size; inputs; outputs] \/ name = "bias" /\ shape = [outputs].
Definition normalization (channels : nat) (name : string) (shape : list nat) : Prop :=
  (name = "scale" \/ name = "bias") /\ shape = [channels].

(** The levels of a net: going down, level d turns the channels of the level
    above into its own; going up, what is below is stretched to the channels of
    the level and put beside what was there.  Normalizations are numbered in
    the order they happen, from [first] on: down, then up. *)
Inductive level_parameter (features : list nat) (inputs first : nat) : string -> string -> list nat -> Prop :=
| goes_down d above f name shape :
    nth_error (inputs :: features) d = Some above -> nth_error features d = Some f -> convolution 3 above f name shape ->
    level_parameter features inputs first ("ConvDown_" ++ decimal d)%string name shape
| normed_down d f name shape :
    nth_error features d = Some f -> normalization f name shape ->
    level_parameter features inputs first ("LayerNorm_" ++ decimal (first + d))%string name shape
| stretched d f below name shape :
    nth_error features d = Some f -> nth_error features (S d) = Some below -> convolution 3 below f name shape ->
    level_parameter features inputs first ("ConvTranspose_" ++ decimal d)%string name shape
| goes_up d f name shape :
    nth_error features d = Some f -> S d < length features -> convolution 3 (2 * f) f name shape ->
    level_parameter features inputs first ("ConvUp_" ++ decimal d)%string name shape
| normed_up d f name shape :
    nth_error features d = Some f -> S d < length features -> normalization f name shape ->
    level_parameter features inputs first ("LayerNorm_" ++ decimal (first + (2 * length features - 2 - d)))%string name shape.
