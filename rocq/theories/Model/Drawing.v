(** putting_dune/plotting_utils.py:43-153 and the render method of
    putting_dune/putting_dune_environment.py: what is drawn, where and in which
    axes.  Turning a drawing into pixels is matplotlib's business and is not
    modelled. *)
From Coq Require Import Reals ZArith List Bool Arith.
From Verif Require Import Base.Prelude Base.Rounding Model.Constants Model.Geometry Model.MicroscopeUtils
  Model.Graphene Model.Simulator Model.SimulatorObservers Model.PlottingUtils Model.Environment.
Import ListNotations.
Open Scope R_scope.

(** the format strings 'o', 'ro', 'gx', 'k.' and the line in red.
    Used at plotting_utils.py:43-91. *)
Inductive style := Dots | RedDots | GreenCross | BlackPoint | RedLine.
(** one call of ax.plot; RedLine has no marker size (0).
    Used at plotting_utils.py:43-91. *)
Record mark := mkmark { mk_style : style; mk_size : R; mk_points : list pt }.
(** the text of ax.text, and the place of its lower left corner.
    Used at plotting_utils.py:43-91. *)
Definition stamp := (pt * (Z * Z * Z))%type.

(** plotting_utils.py:50-53: the sizes of the markers *)
Record sizes := mksizes { sz_carbon : R; sz_silicon : R; sz_goal : R; sz_control : R }.
Definition default_sizes : sizes := mksizes 6 8 15 10.

(** grid.atom_positions[grid.atomic_numbers == n] (plotting_utils.py:56-57): a
    mask of another length than the array is an IndexError *)
Definition positions_with (n : Z) (g : grid) : res (list pt) :=
  if (length (numbers g) =? length (positions g))%nat then
    Ok (map fst (filter (fun a => (snd a =? n)%Z) (combine (positions g) (numbers g))))
  else Raise IndexError.

(** np.min and np.max of one coordinate: ValueError without atoms.
    Used at plotting_utils.py:43-91. *)
Definition least (l : list R) : res R :=
  match l with [] => Raise ValueError | x :: l => Ok (fold_left Rmin l x) end.
(** used at plotting_utils.py:110-153 *)
Definition greatest (l : list R) : res R :=
  match l with [] => Raise ValueError | x :: l => Ok (fold_left Rmax l x) end.

(** plotting_utils.py:43-91 _plot_atomic_grid *)
Definition plot_atomic_grid (sz : sizes) (g : grid) (goal control : option pt) (time : option timedelta)
  : res (list mark * option stamp) :=
  bind (positions_with CARBON g) (fun carbon =>
  bind (positions_with SILICON g) (fun silicon =>
  let marks :=
    [mkmark Dots (sz_carbon sz) carbon; mkmark RedDots (sz_silicon sz) silicon] ++
    (match goal with Some p => [mkmark GreenCross (sz_goal sz) [p]] | None => [] end) ++
    (match control with Some p => [mkmark BlackPoint (sz_control sz) [p]] | None => [] end) in
  match time with
  | None => Ok (marks, None)
  | Some t =>
      bind (least (map px (positions g))) (fun x =>
      bind (least (map py (positions g))) (fun y => Ok (marks, Some (mkpt x y, format_timedelta t))))
  end)).

(** the marks, the text and the limits of the axes. Used at plotting_utils.py:94-107. *)
Record drawing := mkdrawing {
  dr_marks : list mark;
  dr_stamp : option stamp;
  dr_xlim : R * R;
  dr_ylim : R * R
}.

(** plotting_utils.py:94-107 plot_microscope_frame *)
Definition plot_microscope_frame (g : grid) (goal control : option pt) (time : option timedelta) : res drawing :=
  bind (plot_atomic_grid default_sizes g goal control time) (fun d =>
  Ok (mkdrawing (fst d) (snd d) (0, 1) (0, 1))).

(** plotting_utils.py:133-141: the outline of the field of view *)
Definition fov_outline (f : fov) : list pt :=
  [mkpt (px (lower_left f)) (py (lower_left f)); mkpt (px (upper_right f)) (py (lower_left f));
   mkpt (px (upper_right f)) (py (upper_right f)); mkpt (px (lower_left f)) (py (upper_right f));
   mkpt (px (lower_left f)) (py (lower_left f))].

(** plotting_utils.py:110-153 plot_material_frame.  Simplification: limits that
    coincide, when all atoms share a coordinate, are widened by matplotlib. *)
Definition plot_material_frame (g : grid) (goal control : option pt) (time : option timedelta) (f : option fov)
  : res drawing :=
  bind (plot_atomic_grid (mksizes 1 2 8 2) g goal control time) (fun d =>
  let marks := fst d ++ match f with Some f => [mkmark RedLine 0 (fov_outline f)] | None => [] end in
  bind (least (map px (positions g))) (fun min_x =>
  bind (greatest (map px (positions g))) (fun max_x =>
  bind (least (map py (positions g))) (fun min_y =>
  bind (greatest (map py (positions g))) (fun max_y =>
  let width_padding := (max_x - min_x) * (5 / 100) in
  let height_padding := (max_y - min_y) * (5 / 100) in
  Ok (mkdrawing marks (snd d) (min_x - width_padding, max_x + width_padding)
        (min_y - height_padding, max_y + height_padding))))))).

(** plotting_utils.py:181-212 plot_frame: the two panels of a frame of a video,
    in the order in which they are drawn *)
Definition draw_frame (goal_position : pt) (f : frame) : res (drawing * drawing) :=
  match fr_grid f with
  | None => Raise AttributeError
  | Some g =>
      bind (plot_material_frame g (Some goal_position) (fr_control f) (Some (fr_time f)) (fr_fov f)) (fun left =>
      match fr_fov f, fr_control f with
      | None, _ => Raise AttributeError
      | Some _, None => Raise ValueError
      | Some view, Some c =>
          bind (plot_microscope_frame (grid_to_microscope view g) (Some (to_microscope_pt view goal_position))
                  (Some (to_microscope_pt view c)) None) (fun right =>
          Ok (left, right))
      end)
  end.

(** putting_dune_environment.py:166-195 render, up to the drawing.
    [reaching]: the goal position, if the goal is a SingleSiliconGoalReaching.
    A field of view of width or height 0 divides by zero, which numpy answers
    with infinities; that is not modelled.  The second component counts the
    figures pyplot keeps: the new one is never closed. *)
Definition env_render {G St Goal} (reaching : Goal -> option pt) (e : @env G St Goal) (open_figures : nat)
  : res drawing * nat :=
  let o := env_last_observation e in
  let beam_position :=
    match o_controls o with [] => None | c :: cs => Some (c_position (last cs c)) end in
  let goal_position :=
    match reaching (env_goal e) with Some p => Some (to_microscope_pt (o_fov o) p) | None => None end in
  (plot_microscope_frame (o_grid o) goal_position beam_position None, S open_figures).
