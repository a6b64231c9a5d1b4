(** putting_dune/plotting_utils.py: the data that is plotted.  Drawing itself is
    not modelled. *)
From Coq Require Import Reals ZArith List Bool.
From Verif Require Import Base.Prelude Base.Rounding Model.Geometry Model.MicroscopeUtils Model.Graphene Model.Simulator
  Model.SimulatorObservers.
Import ListNotations.
Open Scope R_scope.

(** plotting_utils.py:35-40 format_timedelta: minutes, seconds and remainder,
    before they are written with at least two digits each *)
Definition format_timedelta (delta : timedelta) : Z * Z * Z :=
  let seconds := total_seconds delta in
  ((trunc seconds / 60)%Z, (trunc seconds mod 60)%Z, round_half_even ((seconds - IZR (trunc seconds)) * 100)).

(** plotting_utils.py:234-240: the arguments of one frame; the local variables
    that are None before the first event *)
Record frame := mkframe {
  fr_grid : option grid;
  fr_fov : option fov;
  fr_control : option pt;
  fr_time : timedelta;
  fr_image : option image
}.

(** plotting_utils.py:168-173 *)
Definition events_contain_images (events : list sim_event) : bool :=
  existsb (fun e => match e with EvGeneratedImage _ => true | _ => false end) events.

(** plotting_utils.py:221-251: what an event changes and the frame it adds *)
Definition video_event (now : frame) (e : sim_event) : frame * list frame :=
  match e with
  | EvReset gr f => (mkframe (Some gr) (Some f) (fr_control now) (fr_time now) (fr_image now), [])
  | EvApplyControl dwell p =>
      let shown := mkframe (fr_grid now) (fr_fov now) (Some p) (fr_time now) (fr_image now) in
      (mkframe (fr_grid now) (fr_fov now) (Some p) (fr_time now + dwell)%Z (fr_image now), [shown])
  | EvTransition _ gr => (mkframe (Some gr) (fr_fov now) (fr_control now) (fr_time now) (fr_image now), [])
  | EvTakeImage duration f =>
      (mkframe (fr_grid now) (Some f) (fr_control now) (fr_time now + duration)%Z (fr_image now), [])
  | EvGeneratedImage i => (mkframe (fr_grid now) (fr_fov now) (fr_control now) (fr_time now) (Some i), [])
  end.
Fixpoint video_frames (now : frame) (events : list sim_event) : list frame :=
  match events with
  | [] => [now]
  | e :: events => let '(now, shown) := video_event now e in shown ++ video_frames now events
  end.

(** plotting_utils.py:156-260 generate_video_from_simulator_events: its frames *)
Definition generate_video_frames (events : list sim_event) : list frame :=
  video_frames (mkframe None None None 0%Z None) events.

(** plotting_utils.py:181-217 plot_frame: what is shown in the microscope frame,
    the atoms, the goal and the control.  Without a grid (line 57) or a field
    of view (line 197) attribute access on None fails, without a control
    np.stack of a pair and None does (line 203).  Simplification: an empty grid
    (np.min of nothing, line 87) is not modelled. *)
Definition plot_frame (goal_position : pt) (f : frame) : res (grid * pt * pt) :=
  match fr_grid f, fr_fov f, fr_control f with
  | None, _, _ => Raise AttributeError
  | Some _, None, _ => Raise AttributeError
  | Some _, Some _, None => Raise ValueError
  | Some gr, Some view, Some c =>
      Ok (grid_to_microscope view gr, to_microscope_pt view goal_position, to_microscope_pt view c)
  end.

(** plotting_utils.py:213-216: the image next to it *)
Definition plotted_image (events : list sim_event) (f : frame) : option image :=
  if events_contain_images events then fr_image f else None.

(** eval_lib.py:172-176: the frames are plotted, one after the other, when the
    animation is saved *)
Fixpoint plot_frames (goal_position : pt) (frames : list frame) : res (list (grid * pt * pt)) :=
  match frames with
  | [] => Ok []
  | f :: frames =>
      bind (plot_frame goal_position f) (fun picture => fmap_res (cons picture) (plot_frames goal_position frames))
  end.
Definition save_video (events : list sim_event) (goal_position : pt) : res (list (grid * pt * pt)) :=
  plot_frames goal_position (generate_video_frames events).

(** plotting_utils.py:263-273 _center_grid_on_single_silicon *)
Definition center_grid_on_single_silicon (g : grid) : res grid :=
  match get_single_silicon_position g with
  | Ok si => Ok (mkgrid (map (fun p => psub p si) (positions g)) (numbers g))
  | Raise SiliconNotFoundError => Raise ValueError
  | Raise x => Raise x
  | OutOfFuel => OutOfFuel
  end.
