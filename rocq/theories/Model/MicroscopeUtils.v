(** putting_dune/microscope_utils.py *)
From Coq Require Import Reals ZArith List Bool Arith.
From Verif Require Import Base.Prelude Base.Rounding Model.Constants Model.Geometry.
Import ListNotations.
Open Scope R_scope.

(** An image is a matrix of intensities; nothing below looks inside.
    Used at microscope_utils.py:538-551. *)
Definition image := list (list R).

(** * AtomicGrid *)

(** microscope_utils.py:72-81: two parallel arrays *)
Record grid := mkgrid { positions : list pt; numbers : list Z }.

(** microscope_utils.py:83-87 AtomicGrid.shift *)
Definition grid_shift (g : grid) (v : pt) : grid :=
  mkgrid (map (fun p => padd p v) (positions g)) (numbers g).

(** putting_dune.proto Atom: an int32 and a Point2D of two `float`s.
    Simplification: atomic numbers are taken to be in the int32 range.
    Used at microscope_utils.py:104-120. *)
Record patom := mkpatom { pa_number : Z; pa_position : pt }.
(** used at microscope_utils.py:104-120 *)
Definition pgrid := list patom.

(** microscope_utils.py:32-35: storing into a `float` field rounds to float32 *)
Definition shapely_point_to_proto_point (p : pt) : pt := f32p p.
(** microscope_utils.py:38-41 *)
Definition proto_point_to_shapely_point (p : pt) : pt := mkpt (px p) (py p).

(** microscope_utils.py:104-120 AtomicGrid.to_proto: iterates over the number
    of positions; a missing atomic number is an IndexError *)
Definition grid_to_proto (g : grid) : res pgrid :=
  if (length (numbers g) <? length (positions g))%nat then Raise IndexError
  else Ok (map (fun pz => mkpatom (snd pz) (f32p (fst pz)))
               (combine (positions g) (numbers g))).

(** microscope_utils.py:89-102 AtomicGrid.from_proto: float32/int32 arrays *)
Definition grid_from_proto (m : pgrid) : grid :=
  mkgrid (map (fun a => f32p (pa_position a)) m) (map pa_number m).

(** microscope_utils.py:122-151 AtomicGrid.__hash__ *)
Definition hash_modifier (z : Z) : R := around2 (powerRZ (PI / 3) z).
Definition grid_hash (g : grid) : Z :=
  round_half_even
    (rsum (map (fun pz => around2 (hash_modifier (snd pz) * (psq (fst pz) + 1)) * 100)
               (combine (positions g) (numbers g)))).

(** microscope_utils.py:153-173 AtomicGrid.__eq__.
    For each atom of [other], the index of its nearest atom in [self];
    fitting on an empty array raises ValueError in sklearn. *)
Definition grid_eq (knn : knn_fn) (self other : grid) : res bool :=
  if negb (length (positions self) =? length (positions other))%nat then Ok false
  else if negb (length (numbers self) =? length (numbers other))%nat then Ok false
  else if (length (positions self) =? 0)%nat then Raise ValueError
  else
    let idx := map (fun q => hd 0%nat (knn 1%nat (positions self) q))
                   (positions other) in
    match take_idx (numbers self) idx with
    | None => Raise IndexError
    | Some ns =>
        if existsb (fun ab => negb (Z.eqb (fst ab) (snd ab)))
                   (combine (numbers other) ns)
        then Ok false
        else if existsb (fun qi => Rltb (1 / 1000)
                                     (dist_at (positions self) (fst qi) (snd qi)))
                        (combine (positions other) idx)
        then Ok false
        else Ok true
    end.

(** * BeamControl *)

(** microscope_utils.py:180-198 *)
Record control := mkcontrol {
  c_position : pt;
  c_dwell : timedelta;
  c_voltage_kv : option R;
  c_current_na : option R
}.

(** microscope_utils.py:195-198: defaults voltage_kv=60, current_na=0.1 *)
Definition beam_control (p : pt) (d : timedelta) : control :=
  mkcontrol p d (Some 60) (Some (1 / 10)).

(** microscope_utils.py:200-206 *)
Definition control_shift (c : control) (s : pt) : control :=
  mkcontrol (mkpt (px (c_position c) + px s) (py (c_position c) + py s))
            (c_dwell c) (c_voltage_kv c) (c_current_na c).

(** putting_dune.proto BeamControl; an unset optional field is [None].
    Used at microscope_utils.py:220-228. *)
Record pcontrol := mkpcontrol {
  pc_position : pt;
  pc_dwell_seconds : R;
  pc_voltage_kv : option R;
  pc_current_na : option R
}.

(** microscope_utils.py:220-228; assigning None to a proto field leaves it
    unset *)
Definition control_to_proto (c : control) : pcontrol :=
  mkpcontrol (shapely_point_to_proto_point (c_position c))
             (f32 (total_seconds (c_dwell c)))
             (option_map f32 (c_voltage_kv c))
             (option_map f32 (c_current_na c)).

(** reading an unset `float` field gives 0.0. Used at microscope_utils.py:208-218. *)
Definition proto_float (o : option R) : R :=
  match o with Some x => x | None => 0 end.

(** microscope_utils.py:208-218 *)
Definition control_from_proto (m : pcontrol) : control :=
  mkcontrol (proto_point_to_shapely_point (pc_position m))
            (td_seconds (pc_dwell_seconds m))
            (Some (proto_float (pc_voltage_kv m)))
            (Some (proto_float (pc_current_na m))).

(** * MicroscopeFieldOfView *)

(** microscope_utils.py:235-252 *)
Record fov := mkfov { lower_left : pt; upper_right : pt }.

(** microscope_utils.py:254-265 *)
Definition fov_shift (f : fov) (s : pt) : fov :=
  mkfov (mkpt (px (lower_left f) + px s) (py (lower_left f) + py s))
        (mkpt (px (upper_right f) + px s) (py (upper_right f) + py s)).

(** microscope_utils.py:267-277 *)
Definition fov_offset (f : fov) : pt :=
  mkpt ((px (lower_left f) + px (upper_right f)) / 2)
       ((py (lower_left f) + py (upper_right f)) / 2).

(** microscope_utils.py:279-285 *)
Definition width (f : fov) : R := px (upper_right f) - px (lower_left f).
Definition height (f : fov) : R := py (upper_right f) - py (lower_left f).

(** microscope_utils.py:287-314 *)
Definition fov_resize (f : fov) (w h : R) : res fov :=
  if (Rltb 0 w && Rltb 0 h)%bool then
    let half := mkpt (w / 2) (h / 2) in
    let center := mkpt ((px (lower_left f) + px (upper_right f)) / 2)
                       ((py (lower_left f) + py (upper_right f)) / 2) in
    Ok (mkfov (psub center half) (padd center half))
  else Raise AssertionError.

(** microscope_utils.py:316-320 *)
Definition fov_zoom (f : fov) (z : R) : res fov :=
  if Rltb 0 z then fov_resize f (width f / z) (height f / z)
  else Raise AssertionError.

(** microscope_utils.py:346-348, 405-407: scale = upper_right - lower_left *)
Definition fov_scale (f : fov) : pt := psub (upper_right f) (lower_left f).

(** The arguments accepted by the two conversion functions.
    [PArr1] is a 1-D array, [PArr2] an array of shape (n,2); [POther] stands
    for any other Python object.  Simplification: arrays with more than two
    dimensions or with a last axis other than 2 are not represented.
    Used at microscope_utils.py:344-379. *)
Inductive payload :=
| PGrid (g : grid)
| PArr1 (a : list R)
| PArr2 (a : list pt)
| PPoint (p : pt)
| PControl (c : control)
| POther.

(** one coordinate pair: microscope_utils.py:354,361,365-368,371-374 *)
Definition to_material_pt (f : fov) (p : pt) : pt :=
  padd (pmul p (fov_scale f)) (lower_left f).
(** one coordinate pair: microscope_utils.py:413,420,424-427,430-433 *)
Definition to_microscope_pt (f : fov) (p : pt) : pt :=
  pdiv (psub p (lower_left f)) (fov_scale f).

Definition grid_map_pos (h : pt -> pt) (g : grid) : grid :=
  mkgrid (map h (positions g)) (numbers g).
Definition control_map_pos (h : pt -> pt) (c : control) : control :=
  mkcontrol (h (c_position c)) (c_dwell c) (c_voltage_kv c) (c_current_na c).

(** A 1-D array is reshaped to (-1,2), converted and reshaped to (2,): numpy
    raises ValueError unless it has exactly two entries.
    Used at microscope_utils.py:344-379. *)
Definition arr1_map (h : pt -> pt) (a : list R) : res payload :=
  match a with
  | [x; y] => let q := h (mkpt x y) in Ok (PArr1 [px q; py q])
  | _ => Raise ValueError
  end.

(** microscope_utils.py:344-379 *)
Definition microscope_frame_to_material_frame (f : fov) (x : payload)
  : res payload :=
  match x with
  | PGrid g => Ok (PGrid (grid_map_pos (to_material_pt f) g))
  | PArr1 a => arr1_map (to_material_pt f) a
  | PArr2 a => Ok (PArr2 (map (to_material_pt f) a))
  | PPoint p => Ok (PPoint (to_material_pt f p))
  | PControl c => Ok (PControl (control_map_pos (to_material_pt f) c))
  | POther => Raise NotImplementedError
  end.

(** microscope_utils.py:403-441 *)
Definition material_frame_to_microscope_frame (f : fov) (x : payload)
  : res payload :=
  match x with
  | PGrid g => Ok (PGrid (grid_map_pos (to_microscope_pt f) g))
  | PArr1 a => arr1_map (to_microscope_pt f) a
  | PArr2 a => Ok (PArr2 (map (to_microscope_pt f) a))
  | PPoint p => Ok (PPoint (to_microscope_pt f p))
  | PControl c => Ok (PControl (control_map_pos (to_microscope_pt f) c))
  | POther => Raise NotImplementedError
  end.

(** The typed uses of the conversions elsewhere in the code.
    Used at feature_constructors.py:166-217. *)
Definition grid_to_material (f : fov) (g : grid) : grid :=
  grid_map_pos (to_material_pt f) g.
(** used at plotting_utils.py:181-212 *)
Definition grid_to_microscope (f : fov) (g : grid) : grid :=
  grid_map_pos (to_microscope_pt f) g.

(** (lower_left <= p) & (p <= upper_right), all coordinates.
    Used at microscope_utils.py:448-480. *)
Definition in_box (ll ur p : pt) : bool :=
  (Rleb (px ll) (px p) && Rleb (px p) (px ur)) &&
  (Rleb (py ll) (py p) && Rleb (py p) (py ur)).

(** microscope_utils.py:448-480 *)
Definition fov_get_atoms_in_bounds (f : fov) (g : grid) (tol : R) : grid :=
  let ll := mkpt (px (lower_left f) - tol) (py (lower_left f) - tol) in
  let ur := mkpt (px (upper_right f) + tol) (py (upper_right f) + tol) in
  let m := map (in_box ll ur) (positions g) in
  mkgrid (mask_select m (positions g)) (mask_select m (numbers g)).

Record pfov := mkpfov { pf_lower_left : pt; pf_upper_right : pt }.
(** microscope_utils.py:482-494 *)
Definition fov_from_proto (m : pfov) : fov :=
  mkfov (proto_point_to_shapely_point (pf_lower_left m))
        (proto_point_to_shapely_point (pf_upper_right m)).
(** microscope_utils.py:496-500 *)
Definition fov_to_proto (f : fov) : pfov :=
  mkpfov (shapely_point_to_proto_point (lower_left f))
         (shapely_point_to_proto_point (upper_right f)).

(** * MicroscopeObservation *)

(** microscope_utils.py:538-551 *)
Record observation := mkobs {
  o_grid : grid;
  o_fov : fov;
  o_controls : list control;
  o_elapsed : timedelta;
  o_image : option image;
  o_label_image : option image
}.

(** A TensorProto field: [None] is an unset field (dtype == 0).
    Used at microscope_utils.py:589-604. *)
Record pobservation := mkpobs {
  po_grid : pgrid;
  po_fov : pfov;
  po_controls : list pcontrol;
  po_elapsed_seconds : R;
  po_image : option image;
  po_label_image : option image
}.

(** tf.make_tensor_proto(x): exact for arrays, ValueError for None.
    Used at microscope_utils.py:589-604. *)
Definition make_tensor_proto (o : option image) : res (option image) :=
  match o with
  | Some i => Ok (Some i)
  | None => Raise ValueError
  end.

(** tf.make_tensor_proto(x) if cond is not None else None.
    Used at microscope_utils.py:589-604. *)
Definition tensor_if (cond x : option image) : res (option image) :=
  match cond with
  | Some _ => make_tensor_proto x
  | None => Ok None
  end.

(** tf.make_ndarray if dtype != 0 else None (microscope_utils.py:570-579) *)
Definition tensor_read (t : option image) : option image := t.

Local Open Scope res_scope.

(** microscope_utils.py:589-604 *)
Definition observation_to_proto (o : observation) : res pobservation :=
  image <- tensor_if (o_image o) (o_image o) ;;
  label <- tensor_if (o_label_image o) (o_label_image o) ;;
  g <- grid_to_proto (o_grid o) ;;
  Ok (mkpobs g (fov_to_proto (o_fov o)) (map control_to_proto (o_controls o))
             (f32 (total_seconds (o_elapsed o))) image label).

(** microscope_utils.py:553-587 *)
Definition observation_from_proto (m : pobservation) : observation :=
  mkobs (grid_from_proto (po_grid m)) (fov_from_proto (po_fov m))
        (map control_from_proto (po_controls m))
        (td_seconds (po_elapsed_seconds m))
        (tensor_read (po_image m)) (tensor_read (po_label_image m)).

(** * Transition *)

(** microscope_utils.py:607-635 *)
Record transition := mktransition {
  t_grid_before : grid;
  t_grid_after : grid;
  t_fov_before : fov;
  t_fov_after : fov;
  t_controls : list control;
  t_image_before : option image;
  t_image_after : option image;
  t_label_image_before : option image;
  t_label_image_after : option image
}.

Record ptransition := mkptransition {
  pt_grid_before : pgrid;
  pt_grid_after : pgrid;
  pt_fov_before : pfov;
  pt_fov_after : pfov;
  pt_controls : list pcontrol;
  pt_image_before : option image;
  pt_image_after : option image;
  pt_label_image_before : option image;
  pt_label_image_after : option image
}.

(** microscope_utils.py:688-723.  Note lines 702-711: the label images are
    converted under the condition that the *images* are present. *)
Definition transition_to_proto (t : transition) : res ptransition :=
  image_before <- tensor_if (t_image_before t) (t_image_before t) ;;
  image_after <- tensor_if (t_image_after t) (t_image_after t) ;;
  label_before <- tensor_if (t_image_before t) (t_label_image_before t) ;;
  label_after <- tensor_if (t_image_after t) (t_label_image_after t) ;;
  gb <- grid_to_proto (t_grid_before t) ;;
  ga <- grid_to_proto (t_grid_after t) ;;
  Ok (mkptransition gb ga (fov_to_proto (t_fov_before t))
        (fov_to_proto (t_fov_after t)) (map control_to_proto (t_controls t))
        image_before image_after label_before label_after).

(** microscope_utils.py:637-686 *)
Definition transition_from_proto (m : ptransition) : transition :=
  mktransition (grid_from_proto (pt_grid_before m))
    (grid_from_proto (pt_grid_after m))
    (fov_from_proto (pt_fov_before m)) (fov_from_proto (pt_fov_after m))
    (map control_from_proto (pt_controls m))
    (tensor_read (pt_image_before m)) (tensor_read (pt_image_after m))
    (tensor_read (pt_label_image_before m))
    (tensor_read (pt_label_image_after m)).

(** * Trajectory *)

(** collect results of a list comprehension, stopping at the first raise.
    Used at microscope_utils.py:753-757. *)
Fixpoint map_res {A B} (f : A -> res B) (l : list A) : res (list B) :=
  match l with
  | [] => Ok []
  | x :: l' => y <- f x ;; ys <- map_res f l' ;; Ok (y :: ys)
  end.

(** microscope_utils.py:726-738 *)
Definition trajectory := list observation.
Definition ptrajectory := list pobservation.
(** microscope_utils.py:753-757 *)
Definition trajectory_to_proto (t : trajectory) : res ptrajectory :=
  map_res observation_to_proto t.
(** microscope_utils.py:740-751 *)
Definition trajectory_from_proto (m : ptrajectory) : trajectory :=
  map observation_from_proto m.

(** * Drift *)

(** microscope_utils.py:760-772 *)
Record drift := mkdrift { d_jitter : list pt; d_drift : pt }.

(** microscope_utils.py:774-778 *)
Definition cumulate_drift (self d : drift) : drift :=
  mkdrift (d_jitter self) (padd (d_drift self) (d_drift d)).

(** positions - jitter: numpy broadcasts a single row over all atoms.
    Used at microscope_utils.py:780-807. *)
Definition sub_jitter (ps js : list pt) : res (list pt) :=
  if (length ps =? length js)%nat
  then Ok (map (fun pj => psub (fst pj) (snd pj)) (combine ps js))
  else match js with
       | [j] => Ok (map (fun p => psub p j) ps)
       | _ => match ps with
              | [p] => Ok (map (fun j => psub p j) js)
              | _ => Raise ValueError
              end
       end.

(** microscope_utils.py:780-807; label_image is not passed on, controls are
    passed on unshifted *)
Definition apply_to_observation (d : drift) (o : observation)
  : res observation :=
  ps <- sub_jitter (positions (o_grid o)) (d_jitter d) ;;
  Ok (mkobs (mkgrid ps (numbers (o_grid o)))
            (fov_shift (o_fov o) (mkpt (px (d_drift d)) (py (d_drift d))))
            (o_controls o) (o_elapsed o) (o_image o) None).

Record pdrift := mkpdrift { pd_jitter : list pt; pd_drift : pt }.
(** microscope_utils.py:825-835 *)
Definition drift_to_proto (d : drift) : pdrift :=
  mkpdrift (map f32p (d_jitter d)) (f32p (d_drift d)).
(** microscope_utils.py:809-823: the drift array has dtype int32 *)
Definition drift_from_proto (m : pdrift) : drift :=
  mkdrift (map f32p (pd_jitter m))
          (mkpt (IZR (trunc (px (pd_drift m)))) (IZR (trunc (py (pd_drift m))))).

(** microscope_utils.py:838-874 LabeledAlignmentTrajectory *)
Record labeled_trajectory := mklabeled {
  l_trajectory : trajectory; l_drifts : list drift }.
Record plabeled_trajectory := mkplabeled {
  pl_trajectory : ptrajectory; pl_drifts : list pdrift }.
(** microscope_utils.py:869-874 *)
Definition labeled_to_proto (l : labeled_trajectory) : res plabeled_trajectory :=
  t <- trajectory_to_proto (l_trajectory l) ;;
  Ok (mkplabeled t (map drift_to_proto (l_drifts l))).
(** microscope_utils.py:856-867 *)
Definition labeled_from_proto (m : plabeled_trajectory) : labeled_trajectory :=
  mklabeled (trajectory_from_proto (pl_trajectory m))
            (map drift_from_proto (pl_drifts m)).
