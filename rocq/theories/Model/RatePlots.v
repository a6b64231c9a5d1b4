(** What the plots of rates show: plotting_utils.py plot_rate_function3,
    plot_rate_along_neighbor_vector3 and plot_rate_along_arc3, learn_rates.py
    visualize_rates and train_rate_learner.py visualize_data.  The drawing by
    matplotlib and seaborn is external: modelled is what they are given. *)
From Coq Require Import Reals String ZArith List Bool Arith.
From Verif Require Import Base.Prelude Model.Constants Model.Geometry Model.MicroscopeUtils Model.Graphene Model.Agents
  Model.PlottingUtils.
Import ListNotations.
Local Open Scope string_scope.
Local Open Scope list_scope.
Local Open Scope R_scope.
Local Open Scope res_scope.

(** * Rate functions *)

(** plotting_utils.py:305-310, 317-323: a row of the data *)
Record rate_row := mkrow { row_x : R; row_y : R; row_rate : R; row_next : pt }.
(** plotting_utils.py:313-323: the rows of one beam position *)
Definition point_rows (rf : rate_function) (g : grid) (x y : R) : res (list rate_row) :=
  rs <- rf g (mkpt x y) ;;
  map_res (fun s => p <- get_single_silicon_position (fst s) ;; Ok (mkrow x y (snd s) p)) rs.
(** plotting_utils.py:312-323 *)
Definition rate_rows (rf : rate_function) (g : grid) (extent : R * R) (num_raster_points : nat) : res (list rate_row) :=
  let ticks := linspace (fst extent) (snd extent) num_raster_points in
  columns <- map_res (fun x =>
    cells <- map_res (fun y => point_rows rf g x y) ticks ;; Ok (concat cells)) ticks ;;
  Ok (concat columns).

Definition pt_eqb (p q : pt) : bool := Reqb (px p) (px q) && Reqb (py p) (py q).
(** plotting_utils.py:328 *)
Definition cmaps : list string := ["Blues"; "Oranges"; "Greens"].
(** the contours with their colour maps, the faint atoms, the coloured atoms and
    the limits of both axes *)
Record rate_plot := mkrateplot {
  rp_contours : list (string * list rate_row);
  rp_atoms : list pt;
  rp_dots : list (pt * string);
  rp_limits : R * R
}.
(** plotting_utils.py:276-361 plot_rate_function3.  [set_order] gives the elements
    of set(l) in the order in which Python goes through them.  A number of
    colours other than the number of points is a ValueError of ax.scatter. *)
Definition plot_rate_function3 (set_order : list pt -> list pt) (rf : rate_function) (g : grid)
    (extent : R * R) (num_raster_points : nat) : res rate_plot :=
  g <- center_grid_on_single_silicon g ;;
  rows <- rate_rows rf g extent num_raster_points ;;
  let next_si_positions := set_order (map row_next rows) in
  let contours := map (fun pc => (snd pc, filter (fun r => pt_eqb (row_next r) (fst pc)) rows))
    (combine next_si_positions cmaps) in
  if (length next_si_positions =? length cmaps)%nat then
    Ok (mkrateplot contours (positions g) (combine next_si_positions cmaps) extent)
  else Raise ValueError.

(** max(l) of Python. Used at plotting_utils.py:364-421. *)
Definition py_max (l : list R) : res R :=
  match l with [] => Raise ValueError | x :: l => Ok (fold_left Rmax l x) end.

(** plotting_utils.py:364-421 plot_rate_along_neighbor_vector3: the line, and the
    height of the dashed lines at 0 and 1 *)
Definition plot_rate_along_neighbor_vector3 (knn : knn_fn) (rf : rate_function) (g : grid)
    (extent : R * R) (num_points : nat) : res (list (R * R) * R) :=
  g <- center_grid_on_single_silicon g ;;
  neighbor_indices <- nearest_neighbors3 knn (positions g) pzero false ;;
  neighbors <- positions_at g neighbor_indices ;;
  match neighbors with
  | [] => Raise IndexError
  | neighbor_vec :: _ =>
      cells <- map_res (fun x =>
        rs <- rf g (pscale x neighbor_vec) ;;
        kept <- map_res (fun s =>
          p <- get_single_silicon_position (fst s) ;;
          Ok (if Rltb (pnorm (psub p neighbor_vec)) (1 / 100) then [(x, snd s)] else [])) rs ;;
        Ok (concat kept)) (linspace (fst extent) (snd extent) num_points) ;;
      let data := concat cells in
      top <- py_max (map snd data) ;;
      Ok (data, top * (11 / 10))
  end.

(** the label of a line: the total, or the number of a neighbour *)
Inductive arc_label := TotalRate | NextState (n : nat).
(** plotting_utils.py:464-467: a dictionary, a later entry replaces an earlier one *)
Definition label_of (neighbors : list pt) (p : pt) : option nat :=
  option_map snd (find (fun e => pt_eqb (fst e) p) (rev (combine neighbors (seq 1 (length neighbors))))).
(** np.mean *)
Definition np_mean (l : list R) : R := rsum l / INR (length l).
(** plotting_utils.py:424-488 plot_rate_along_arc3: angle, rate and label *)
Definition plot_rate_along_arc3 (knn : knn_fn) (rf : rate_function) (g : grid)
    (normalized_radius : R) (num_points : nat) : res (list (R * R * arc_label)) :=
  g <- center_grid_on_single_silicon g ;;
  neighbor_indices <- nearest_neighbors3 knn (positions g) pzero false ;;
  neighbors <- positions_at g neighbor_indices ;;
  let radius := normalized_radius * np_mean (map pnorm neighbors) in
  cells <- map_res (fun angle =>
    rs <- rf g (mkpt (sin angle * radius) (cos angle * radius)) ;;
    lines <- map_res (fun s =>
      p <- get_single_silicon_position (fst s) ;;
      match label_of neighbors p with
      | None => Raise KeyError
      | Some label => Ok (angle, snd s, NextState label)
      end) rs ;;
    Ok ((angle, total_rate rs, TotalRate) :: lines)) (linspace 0 (2 * PI) num_points) ;;
  Ok (concat cells).

(** * Rate predictors *)

(** learn_rates.py:998-1004: the points, x varying fastest.  Simplification: the
    square root is exact. *)
Definition grid_points (grid_range : R) (num_points : nat) : list pt :=
  let ticks := linspace (- grid_range) grid_range (Nat.sqrt num_points) in
  flat_map (fun y => map (fun x => mkpt x y) ticks) ticks.
(** learn_rates.py:1005-1007: the rows the predictor is given; np.concatenate needs
    equally many rows *)
Definition plot_context (points : list pt) (num_points : nat) (fixed_context : option (list R)) : res (list (list R)) :=
  let rows := map (fun p => [px p; py p]) points in
  match fixed_context with
  | None => Ok rows
  | Some c => if (num_points =? length rows)%nat then Ok (map (fun r => c ++ r) rows) else Raise ValueError
  end.
(** learn_rates.py:1009-1011: three rates for each point, or a ValueError of
    reshape.  Simplification: a prediction with the wrong shape and the right
    number of entries is a ValueError too. *)
Definition predicted (predict_rates : list (list R) -> res (list (list R))) (points : list pt) (rows : list (list R))
  : res (list (list R)) :=
  rates <- predict_rates rows ;;
  if (length rates =? length points)%nat && forallb (fun r => (length r =? 3)%nat) rates then Ok rates
  else Raise ValueError.
(** learn_rates.py:1029-1040: the place that is marked, and the greatest rate *)
Definition best_point (points : list pt) (rates : list (list R)) (i : nat) : res (pt * R) :=
  let f := map (fun r => nth i r 0) rates in
  match argmax f with
  | None => Raise ValueError
  | Some k => Ok (nth k points pzero, nth k f 0)
  end.
(** learn_rates.py:975-1047 visualize_rates *)
Definition visualize_rates (predict_rates : list (list R) -> res (list (list R))) (grid_range : R) (num_points : nat)
    (fixed_context : option (list R)) : res (list (pt * R)) :=
  let points := grid_points grid_range num_points in
  rows <- plot_context points num_points fixed_context ;;
  rates <- predicted predict_rates points rows ;;
  map_res (best_point points rates) (seq 0 3).

(** * Data *)

(** train_rate_learner.py:592-601 *)
Definition state_label (i : nat) : string :=
  match i with
  | O => "No movement"
  | 1%nat => "Moved right"
  | 2%nat => "Moved up-left"
  | 3%nat => "Moved down-left"
  | _ => ""
  end.
(** train_rate_learner.py:568-625 visualize_data: for each label the positions
    with their opacity.  A row is a state, a position and a dwell time. *)
Definition visualize_data (rows : list (Z * pt * R)) (num_states : nat) : res (list (string * list (pt * R))) :=
  let top := fold_left Rmax (map snd rows) (match rows with [] => 0 | r :: _ => snd r end) in
  groups <- map_res (fun i =>
    let local := filter (fun r => Z.eqb (fst (fst r)) (Z.of_nat i)) rows in
    match local with
    | [] => Ok []
    | _ =>
        if String.eqb (state_label i) "" then Raise AssertionError
        else Ok [(state_label i, map (fun r => (snd (fst r), snd r / top)) local)]
    end) (seq 0 (num_states + 1)) ;;
  Ok (concat groups).
