(** putting_dune/pipeline/train_rate_learner.py: from transitions to a dataset *)
From Coq Require Import Reals ZArith List Bool Arith.
From Verif Require Import Base.Prelude Base.Rounding Model.Constants Model.Geometry Model.Graphene
  Model.MicroscopeUtils Model.Alignment Model.DataUtils Model.Io Model.Pipeline.
Import ListNotations.
Open Scope R_scope.
Open Scope res_scope.

(** train_rate_learner.py:94-99 DataPoint *)
Record rate_point := mkrate_point {
  rp_next_state : nat;
  rp_beam_pos : pt;
  rp_seconds_between : R;
  rp_current : option R;
  rp_voltage : option R
}.

(** train_rate_learner.py:314-321: the reasons that are counted.
    Simplification: the counters for a wrong number of neighbours, which the
    search never returns, are omitted. *)
Inductive reason :=
| NoControls
| WrongNumberOfSilicons
| NoSiliconNeighbor
| NeighborsTooDistant
| IsFourfold
| NotThreefold.

(** np.min of a non-empty list. Used at train_rate_learner.py:329-476. *)
Definition rmin (l : list R) : R := match l with [] => 0 | x :: l => fold_right Rmin x l end.
(** mean of a list. Used at train_rate_learner.py:329-476. *)
Definition rmean (l : list R) : R := rsum l / INR (length l).

(** train_rate_learner.py:377-391: is_fourfold and is_threefold, from the
    distances of the ten atoms nearest to the silicon *)
Definition is_fourfold (d : list R) : bool := Rltb (Rabs (nth 1 d 0 - nth 4 d 0)) (1 / 2).
Definition is_threefold (d : list R) : bool :=
  forallb (fun x => Rltb x 2) (firstn 3 (skipn 1 d)) && forallb (fun x => Rltb 2 x) (skipn 4 d).

(** a[indices]. Used at train_rate_learner.py:329-476. *)
Definition at_indices {A} (l : list A) (idx : list nat) : res (list A) :=
  match take_idx l idx with Some r => Ok r | None => Raise IndexError end.

Section Convert.
Variable knn : knn_fn.
Variable asort : argsort_fn.

(** train_rate_learner.py:455-466: the label; [order] lists the neighbours
    counter-clockwise *)
Definition transition_state (order : list nat) (before : list pt) (after : pt) : res nat :=
  match argmin (map (fun p => pdist p after) before) with
  | None => Raise ValueError
  | Some O => Ok O
  | Some (S k) =>
      match nth_error (asort (map INR order)) k with
      | Some i => Ok (S i)
      | None => Raise IndexError
      end
  end.

(** train_rate_learner.py:329-476: the body of the loop, without plots.
    Simplification: as many atomic numbers as positions; np.asarray of a
    shapely point is the array of its coordinates (shapely < 2). *)
Definition process_transition (cutoff : R) (tr : transition) : res (reason + rate_point) :=
  match t_controls tr with
  | [control] =>
      let before := grid_to_material (t_fov_before tr) (t_grid_before tr) in
      let after := grid_to_material (t_fov_after tr) (t_grid_after tr) in
      let control := control_map_pos (to_material_pt (t_fov_before tr)) control in
      match get_silicon_positions before with
      | [silicon] =>
          indices <- kneighbors knn 10 (positions before) silicon ;;
          neighbors <- at_indices (positions before) indices ;;
          let distances := map (fun p => pdist silicon p) neighbors in
          if is_fourfold distances then Ok (inl IsFourfold)
          else if negb (is_threefold distances) then Ok (inl NotThreefold)
          else
            let neighbors := firstn 4 neighbors in
            indices_after <- kneighbors knn 4 (positions after) silicon ;;
            neighbors_after <- at_indices (positions after) indices_after ;;
            numbers_after <- at_indices (numbers after) indices_after ;;
            match get_silicon_positions after with
            | [silicon_after] =>
                if negb (existsb (fun z => Z.eqb z SILICON) numbers_after) then Ok (inl NoSiliconNeighbor)
                else
                  let nearest := map (fun p => rmin (map (pdist p) neighbors_after)) neighbors in
                  if Rltb cutoff (rmean nearest) then Ok (inl NeighborsTooDistant)
                  else
                    let control_delta := psub (c_position control) silicon in
                    let deltas := map (fun p => psub p silicon) neighbors in
                    st <- standardize_beam_and_neighbors asort control_delta (tl deltas) ;;
                    let '(beam, _, order) := st in
                    next_state <- transition_state order neighbors silicon_after ;;
                    Ok (inr (mkrate_point next_state beam (total_seconds (c_dwell control))
                               (c_current_na control) (c_voltage_kv control)))
            | _ => Ok (inl WrongNumberOfSilicons)
            end
      | _ => Ok (inl WrongNumberOfSilicons)
      end
  | _ => Ok (inl NoControls)
  end.

(** train_rate_learner.py:184-291 plot_transition: [imsize] is a number and is
    indexed at 266.  Simplification: nothing before that raises. *)
Definition plot_transition : res unit := Raise TypeError.

(** train_rate_learner.py:294-515 transitions_to_datapoints: the data, and the
    reasons in the order in which they were counted *)
Fixpoint transitions_to_datapoints (cutoff : R) (plot_transitions : bool) (ts : list transition)
  : res (list rate_point * list reason) :=
  match ts with
  | [] => Ok ([], [])
  | tr :: ts =>
      x <- process_transition cutoff tr ;;
      match x with
      | inl r =>
          rest <- transitions_to_datapoints cutoff plot_transitions ts ;;
          Ok (fst rest, r :: snd rest)
      | inr d =>
          _ <- (if plot_transitions then plot_transition else Ok tt) ;;
          rest <- transitions_to_datapoints cutoff plot_transitions ts ;;
          Ok (d :: fst rest, snd rest)
      end
  end.
End Convert.

(** one row of the context; a missing number makes the array unusable.
    Simplification: the TypeError is raised by the conversion to jnp that
    follows. Used at train_rate_learner.py:518-565. *)
Fixpoint numbers_of (l : list (option R)) : res (list R) :=
  match l with
  | [] => Ok []
  | Some x :: l => r <- numbers_of l ;; Ok (x :: r)
  | None :: _ => Raise TypeError
  end.

(** train_rate_learner.py:518-565 stack_data; np.stack of nothing raises
    ValueError *)
Definition stack_row (use_current use_voltage dwell_time_in_context : bool) (num_neighbors : nat) (d : rate_point)
  : res datapoint :=
  let columns := (if use_current then [rp_current d] else []) ++ (if use_voltage then [rp_voltage d] else []) ++
                 (if dwell_time_in_context then [Some (rp_seconds_between d)] else []) in
  context <- numbers_of columns ;;
  Ok (mkdatapoint (Z.of_nat (rp_next_state d)) (rp_seconds_between d) (repeat 0 num_neighbors) (rp_beam_pos d)
        (match context with [] => None | _ => Some context end)).
Definition stack_data (use_current use_voltage dwell_time_in_context : bool) (num_neighbors : nat)
  (data : list rate_point) : res (list datapoint) :=
  match data with
  | [] => Raise ValueError
  | _ => map_res (stack_row use_current use_voltage dwell_time_in_context num_neighbors) data
  end.

(** train_rate_learner.py:628-651: what load_trajectories_from_records is given *)
Inductive source :=
| Files (l : list path)        (* a sequence of paths *)
| Directory (children : list path)
| File (p : path).
Section Load.
Context {B : Type}.
Variable parse_trajectory : B -> res ptrajectory.
Definition source_files (s : source) : list path :=
  match s with Files l => l | Directory l => l | File p => [p] end.
Fixpoint load_files (fs : filesystem B) (l : list path) : res (list trajectory) :=
  match l with
  | [] => Ok []
  | p :: l =>
      ts <- read_models trajectory_from_proto parse_trajectory fs p ;;
      rest <- load_files fs l ;;
      Ok (ts ++ rest)
  end.
Definition load_trajectories_from_records (fs : filesystem B) (s : source) : res (list trajectory) :=
  load_files fs (source_files s).

(** train_rate_learner.py:654-694 main, up to the training: the augmented data
    and the data that is trained on.  A learner other than the rate network
    gets a constant dt (dt.fill(1)). *)
Definition prepare_data (knn : knn_fn) (asort : argsort_fn) (cutoff : R) (previous_controls plot_transitions use_current
  use_voltage rate_network : bool) (fs : filesystem B) (s : source) : res (list datapoint * list datapoint) :=
  trajectories <- load_trajectories_from_records fs s ;;
  let transitions := trajectories_to_transitions trajectories previous_controls in
  processed <- transitions_to_datapoints knn asort cutoff plot_transitions transitions ;;
  (* counts[next_state] += 1, for the keys 0 to 3 *)
  _ <- (if forallb (fun d => (rp_next_state d <=? 3)%nat) (fst processed) then Ok tt else Raise KeyError) ;;
  stacked <- stack_data use_current use_voltage (negb rate_network) 3 (fst processed) ;;
  let stacked := if rate_network then stacked
    else map (fun d => mkdatapoint (d_state d) 1 (d_rates d) (d_position d) (d_context d)) stacked in
  augmented <- augment_data true 3 stacked ;;
  Ok (augmented, stacked).
End Load.
