(** putting_dune/action_adapters.py

    An action is a one-dimensional array of any length.  A point built from
    an array takes its first two entries; see [point_of_action]. *)
From Coq Require Import Reals ZArith List Bool Arith.
From Verif Require Import Base.Prelude Base.Rounding Base.Random Model.Constants Model.MicroscopeUtils
  Model.Graphene.
Import ListNotations.
Open Scope R_scope.
Local Open Scope res_scope.

(** action_adapters.py:29-50 ActionAdapter: the object's state is [St]; [reset]
    may draw from the generator it holds in its attribute `rng`, if it has one *)
Record action_adapter (G St : Type) := mkadapter {
  aa_has_rng : bool;
  aa_reset : St -> G -> St * G;
  aa_get_action : St -> observation -> list R -> res (list control) * St
}.
Arguments mkadapter {G St}.
Arguments aa_has_rng {G St}.
Arguments aa_reset {G St}.
Arguments aa_get_action {G St}.

(** dm_env.specs.BoundedArray: the bounds of each entry.
    Used at action_adapters.py:79-84. *)
Definition bounded_array := list (R * R).

(** shapely's Point of a one-dimensional array: two coordinates, or three of
    which the last is never read. Used at action_adapters.py:60-77. *)
Definition point_of_action (a : list R) : res pt :=
  match a with
  | [x; y] | [x; y; _] => Ok (mkpt x y)
  | _ => Raise ValueError
  end.

(** numpy broadcasting of a one-dimensional array against one of two entries.
    Used at action_adapters.py:101-121. *)
Definition broadcast2 (a : list R) : res pt :=
  match a with
  | [x] => Ok (mkpt x x)
  | [x; y] => Ok (mkpt x y)
  | _ => Raise ValueError
  end.

(** dt.timedelta(seconds=1.5). Used at action_adapters.py:60-77. *)
Definition fixed_dwell : timedelta := td_seconds (3 / 2).

(** action_adapters.py:60-77 DirectActionAdapter.get_action *)
Definition direct_get_action (action : list R) : res (list control) :=
  p <- point_of_action (map (fun x => clip x 0 1) action) ;;
  Ok [beam_control p fixed_dwell].

(** action_adapters.py:53-84 DirectActionAdapter *)
Definition direct_adapter {G} : action_adapter G unit :=
  mkadapter false (fun st g => (st, g)) (fun st _ a => (direct_get_action a, st)).

(** action_adapters.py:79-84 *)
Definition direct_action_spec : bounded_array := [(0, 1); (0, 1)].

(** action_adapters.py:97-99 DeltaPositionActionAdapter.reset: the new beam
    position; uniform of size 2 draws x, then y *)
Definition delta_reset {G} (s : sampler G) (g : G) : pt * G :=
  let '(x, g) := s_uniform s 0 1 g in
  let '(y, g) := s_uniform s 0 1 g in
  (mkpt x y, g).

(** action_adapters.py:101-121 DeltaPositionActionAdapter.get_action: the
    controls and the new beam position.  The in-place addition broadcasts an
    array of one entry and raises before anything is written otherwise. *)
Definition delta_get_action (beam_pos : pt) (action : list R) : res (list control) * pt :=
  match broadcast2 action with
  | Ok a =>
      let p := pclip (padd beam_pos a) 0 1 in
      (Ok [beam_control (mkpt (px p) (py p)) fixed_dwell], p)
  | Raise e => (Raise e, beam_pos)
  | OutOfFuel => (OutOfFuel, beam_pos)
  end.

(** action_adapters.py:87-128 DeltaPositionActionAdapter *)
Definition delta_adapter {G} (s : sampler G) : action_adapter G pt :=
  mkadapter true (fun _ g => delta_reset s g) (fun st _ a => delta_get_action st a).

(** action_adapters.py:123-128 *)
Definition delta_action_spec : bounded_array := [(- (1 / 10), 1 / 10); (- (1 / 10), 1 / 10)].

(** action_adapters.py:134-147 RelativeToSiliconActionAdapter.__init__ *)
Record relative_config := mkrelative {
  rel_fixed_dwell_time : bool;
  rel_min_dwell_seconds : R;
  rel_max_dwell_seconds : R;
  rel_max_distance : R
}.
Definition new_relative (min_dwell max_dwell : timedelta) (max_distance : R) : relative_config :=
  mkrelative (min_dwell =? max_dwell)%Z (total_seconds min_dwell) (total_seconds max_dwell) max_distance.
Definition default_relative : relative_config :=
  new_relative (td_seconds (3 / 2)) (td_seconds (3 / 2)) CARBON_BOND_DISTANCE_ANGSTROMS.

(** action_adapters.py:161-169, 236-244: exactly one silicon, or RuntimeError *)
Definition the_silicon (o : observation) : res pt :=
  match get_silicon_positions (o_grid o) with
  | [p] => Ok p
  | _ => Raise RuntimeError
  end.

(** action_adapters.py:185-193, 259-267: action[2] of a shorter array is an
    IndexError *)
Definition relative_dwell (cfg : relative_config) (action : list R) : res timedelta :=
  if rel_fixed_dwell_time cfg then Ok (td_seconds (rel_min_dwell_seconds cfg))
  else
    match nth_error action 2 with
    | None => Raise IndexError
    | Some x =>
        let dwell_time_action := clip x 0 1 in
        let dwell_range_seconds := rel_max_dwell_seconds cfg - rel_min_dwell_seconds cfg in
        Ok (td_seconds (dwell_time_action * dwell_range_seconds + rel_min_dwell_seconds cfg))
    end.

(** action_adapters.py:152-199 RelativeToSiliconActionAdapter.get_action.  The
    extents of the field of view are Python floats: ZeroDivisionError. *)
Definition relative_get_action (cfg : relative_config) (o : observation) (action : list R)
  : res (list control) :=
  let beam_position_action := map (fun x => clip x (-1) 1) (firstn 2 action) in
  si <- the_silicon o ;;
  let f := o_fov o in
  let w := px (upper_right f) - px (lower_left f) in
  let h := py (upper_right f) - py (lower_left f) in
  if (Reqb w 0 || Reqb h 0)%bool then Raise ZeroDivisionError
  else
    let cell_radius := mkpt (rel_max_distance cfg / w) (rel_max_distance cfg / h) in
    a <- broadcast2 beam_position_action ;;
    let control_position := pclip (padd si (pmul a cell_radius)) 0 1 in
    dwell_time <- relative_dwell cfg action ;;
    Ok [beam_control control_position dwell_time].

(** action_adapters.py:131-216 RelativeToSiliconActionAdapter *)
Definition relative_adapter {G} (cfg : relative_config) : action_adapter G unit :=
  mkadapter false (fun st g => (st, g)) (fun st o a => (relative_get_action cfg o a, st)).

(** action_adapters.py:202-216 *)
Definition relative_action_spec (cfg : relative_config) : bounded_array :=
  if rel_fixed_dwell_time cfg then [(-1, 1); (-1, 1)] else [(-1, 1); (-1, 1); (0, 1)].

(** action_adapters.py:227-274
    RelativeToSiliconMaterialFrameActionAdapter.get_action.  Simplification:
    a field of view of zero extent (numpy: inf or nan) is not modelled. *)
Definition material_frame_get_action (cfg : relative_config) (o : observation) (action : list R)
  : res (list control) :=
  let relative_position_angstroms := firstn 2 action in
  si <- the_silicon o ;;
  let si_material := to_material_pt (o_fov o) si in
  a <- broadcast2 relative_position_angstroms ;;
  let control_position := to_microscope_pt (o_fov o) (padd si_material a) in
  let control_position := pclip control_position 0 1 in
  dwell_time <- relative_dwell cfg action ;;
  Ok [beam_control control_position dwell_time].

(** action_adapters.py:219-274 *)
Definition material_frame_adapter {G} (cfg : relative_config) : action_adapter G unit :=
  mkadapter false (fun st g => (st, g)) (fun st o a => (material_frame_get_action cfg o a, st)).
