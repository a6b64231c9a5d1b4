(** What survives a trip through the protocol buffers, per type. *)
From Coq Require Import Reals ZArith List.
From Flocq Require Import Core.
From Verif Require Import Base.Prelude Base.Rounding Model.MicroscopeUtils.
Import ListNotations.
Open Scope R_scope.

(** y is a binary32 number (24-bit significand, exponent at least -149) *)
Definition binary32 (y : R) : Prop :=
  exists m e : Z, (Z.abs m < 2 ^ 24)%Z /\ (-149 <= e)%Z /\ y = IZR m * powerRZ 2 e.

(** coordinates: nearest binary32 number *)
Definition stored_point (p : pt) : pt := mkpt (f32 (px p)) (f32 (py p)).
(** times: float32 seconds, read back to the nearest microsecond *)
Definition stored_time (t : timedelta) : timedelta :=
  round_half_even (f32 (IZR t / 1000000) * 1000000).

Definition stored_grid (g : grid) : grid :=
  mkgrid (map stored_point (positions g)) (numbers g).
Definition stored_fov (f : fov) : fov :=
  mkfov (stored_point (lower_left f)) (stored_point (upper_right f)).
(** an absent voltage or current is read back as 0 *)
Definition stored_optional (o : option R) : option R :=
  match o with Some x => Some (f32 x) | None => Some 0 end.
Definition stored_control (c : control) : control :=
  mkcontrol (stored_point (c_position c)) (stored_time (c_dwell c))
            (stored_optional (c_voltage_kv c)) (stored_optional (c_current_na c)).
Definition stored_observation (o : observation) : observation :=
  mkobs (stored_grid (o_grid o)) (stored_fov (o_fov o))
        (map stored_control (o_controls o)) (stored_time (o_elapsed o))
        (o_image o) (o_label_image o).

(** the label image that survives next to an image *)
Definition kept_label (im label : option image) : option image :=
  match im with Some _ => label | None => None end.
Definition stored_transition (t : transition) : transition :=
  mktransition (stored_grid (t_grid_before t)) (stored_grid (t_grid_after t))
    (stored_fov (t_fov_before t)) (stored_fov (t_fov_after t))
    (map stored_control (t_controls t))
    (t_image_before t) (t_image_after t)
    (kept_label (t_image_before t) (t_label_image_before t))
    (kept_label (t_image_after t) (t_label_image_after t)).
