(** putting_dune/feature_constructors.py *)
From Coq Require Import Reals ZArith List Bool Arith.
From Verif Require Import Base.Prelude Base.Rounding Model.Constants Model.Geometry Model.MicroscopeUtils
  Model.Graphene Model.Goals.
Import ListNotations.
Open Scope R_scope.
Local Open Scope res_scope.

(** A goal as seen by isinstance. Used at feature_constructors.py:88-143. *)
Inductive any_goal :=
| SingleSilicon (st : goal_state)
| OtherGoal.

(** feature_constructors.py:34-60 FeatureConstructor; the shipped ones have no
    state, their reset does nothing *)
Record feature_constructor (Goal F : Type) := mkfeature_constructor {
  fc_get_features : observation -> Goal -> res F;
  fc_requires_image : bool
}.
Arguments mkfeature_constructor {Goal F}.
Arguments fc_get_features {Goal F}.
Arguments fc_requires_image {Goal F}.

(** feature_constructors.py:63-76 _get_silicon_goal_delta; reshape(2) of
    anything but one position raises ValueError *)
Definition get_silicon_goal_delta (gr : grid) (f : fov) (goal : goal_state) : res pt :=
  match get_silicon_positions gr with
  | [si] => Ok (psub (goal_position goal) (to_material_pt f si))
  | _ => Raise ValueError
  end.

Definition flatten (ps : list pt) : list R := flat_map (fun p => [px p; py p]) ps.

(** feature_constructors.py:88-143.  Simplification: a neighbour at the same
    position as the silicon (0/0) is not modelled. *)
Definition pristine_get_features (knn : knn_fn) (o : observation) (goal : any_goal) : res (list R) :=
  match goal with
  | OtherGoal => Raise ValueError
  | SingleSilicon goal =>
      si <- get_single_silicon_position (o_grid o) ;;
      idx <- kneighbors knn 4 (positions (o_grid o)) si ;;
      neighbor_positions <- positions_at (o_grid o) (tl idx) ;;
      let normalized_deltas :=
        map (fun p => pscale (/ pdist p si) (psub p si)) neighbor_positions in
      goal_delta <- get_silicon_goal_delta (o_grid o) (o_fov o) goal ;;
      Ok (map f32 (flatten [si] ++ flatten normalized_deltas ++ flatten [goal_delta]))
  end.

(** feature_constructors.py:166-217 *)
Definition material_frame_get_features (knn : knn_fn) (o : observation) (goal : any_goal) : res (list R) :=
  match goal with
  | OtherGoal => Raise ValueError
  | SingleSilicon goal =>
      let gr := grid_to_material (o_fov o) (o_grid o) in
      si <- get_single_silicon_position gr ;;
      idx <- kneighbors knn 4 (positions gr) si ;;
      neighbor_positions <- positions_at gr (tl idx) ;;
      let neighbor_deltas := map (fun p => psub p si) neighbor_positions in
      goal_delta <- get_silicon_goal_delta (o_grid o) (o_fov o) goal ;;
      Ok (map f32 (flatten [si] ++ flatten neighbor_deltas ++ flatten [goal_delta]))
  end.

(** feature_constructors.py:237-267; [resize] is cv2.resize to 128x128 followed
    by the conversion to float32.  The dictionary is a pair. *)
Definition image_get_features (resize : image -> image) (o : observation) (goal : any_goal)
  : res (image * list R) :=
  match goal with
  | OtherGoal => Raise ValueError
  | SingleSilicon goal =>
      match o_image o with
      | None => Raise RuntimeError
      | Some i =>
          goal_delta <- get_silicon_goal_delta (o_grid o) (o_fov o) goal ;;
          Ok (resize i, map f32 (flatten [goal_delta]))
      end
  end.

(** feature_constructors.py:145-155, 219-229: both observation specs have 10
    entries *)
Definition vector_spec_length : nat := 2 + 6 + 2.

(** feature_constructors.py:152-155, 226-229, 278-281 requires_image *)
Definition pristine_features (knn : knn_fn) : feature_constructor goal_state (list R) :=
  mkfeature_constructor (fun o g => pristine_get_features knn o (SingleSilicon g)) false.
Definition material_frame_features (knn : knn_fn) : feature_constructor goal_state (list R) :=
  mkfeature_constructor (fun o g => material_frame_get_features knn o (SingleSilicon g)) false.
Definition image_features (resize : image -> image) : feature_constructor goal_state (image * list R) :=
  mkfeature_constructor (fun o g => image_get_features resize o (SingleSilicon g)) true.
