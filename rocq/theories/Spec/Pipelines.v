(** Vocabulary for the processing of recorded trajectories. *)
From Coq Require Import Reals List.
From Verif Require Import Base.Prelude Model.MicroscopeUtils.
Import ListNotations.
Open Scope R_scope.

(** tr is the transition from one observation to another, under the given controls *)
Record transition_between (before after : observation) (controls : list control) (tr : transition) : Prop := {
  tb_grid_before : t_grid_before tr = o_grid before;
  tb_grid_after : t_grid_after tr = o_grid after;
  tb_fov_before : t_fov_before tr = o_fov before;
  tb_fov_after : t_fov_after tr = o_fov after;
  tb_image_before : t_image_before tr = o_image before;
  tb_image_after : t_image_after tr = o_image after;
  tb_label_before : t_label_image_before tr = o_label_image before;
  tb_label_after : t_label_image_after tr = o_label_image after;
  tb_controls : t_controls tr = controls
}.

(** the field of view g is f, moved *)
Definition moved_by (f g : fov) (v : pt) : Prop :=
  lower_left g = padd (lower_left f) v /\ upper_right g = padd (upper_right f) v.

(** o' is o seen at another place, with what was not looked for unchanged *)
Record same_elsewhere (o o' : observation) : Prop := {
  se_fov : exists v, moved_by (o_fov o) (o_fov o') v;
  se_controls : o_controls o' = o_controls o;
  se_elapsed : o_elapsed o' = o_elapsed o;
  se_image : o_image o' = o_image o;
  se_label_image : o_label_image o' = o_label_image o
}.
