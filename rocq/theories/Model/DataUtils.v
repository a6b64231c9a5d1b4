(** putting_dune/rate_learning/data_utils.py *)
From Coq Require Import Reals ZArith List Bool Arith.
From Flocq Require Import Core.
From Verif Require Import Base.Prelude Base.Rounding Base.Matrix Model.Constants Model.Geometry Model.Graphene
  Model.MicroscopeUtils Model.Alignment.
Import ListNotations.
Open Scope R_scope.
Open Scope res_scope.

(** One row of a dataset: next_state (0: nothing happened, i: the silicon moved
    to neighbour i), dt, rates, position, context.  A dataset is a list of rows.
    Simplification: the arrays of a dataset have equal first dimensions; the
    context is None for the whole dataset in Python, for every row here.
    Used at data_utils.py:85-105. *)
Record datapoint := mkdatapoint {
  d_state : Z;
  d_time : R;
  d_rates : list R;
  d_position : pt;
  d_context : option (list R)
}.

(** data_utils.py:52: the n-th angle *)
Definition step_angle (num_states : nat) (n : Z) : R := 2 * IZR n * PI / INR num_states.
(** data_utils.py:49-55 get_all_position_rotations *)
Definition get_all_position_rotations (position : pt) (num_states : nat) : list pt :=
  map (fun n => rotate position (step_angle num_states (Z.of_nat n))) (seq 0 num_states).

(** data_utils.py:58-60 rotate_attributes: jnp.roll(x, n, 0) moves the entry i to i + n *)
Definition rotate_attributes {A} (x : list A) (n : Z) (d : A) : list A :=
  map (fun i => nth (Z.to_nat ((Z.of_nat i - n) mod Z.of_nat (length x))%Z) x d) (seq 0 (length x)).
(** data_utils.py:63-66 get_all_rate_rotations *)
Definition get_all_rate_rotations (rates : list R) (num_states : nat) : list (list R) :=
  map (fun n => rotate_attributes rates (Z.of_nat n) 0) (seq 0 num_states).

(** data_utils.py:69-71 rotate_index *)
Definition rotate_index (ind n : Z) (num_states : nat) : Z := ((ind + n) mod Z.of_nat num_states)%Z.
(** data_utils.py:74-82 get_all_state_rotations *)
Definition get_all_state_rotations (state : Z) (num_states : nat) : list Z :=
  map (fun n => rotate_index state (Z.of_nat n) num_states) (seq 0 num_states).

(** jnp.array(l)[i] for an integer i: negative indices count from the end,
    indices out of range are clipped. Used at data_utils.py:85-105. *)
Definition jnp_index {A} (l : list A) (i : Z) (d : A) : A :=
  let n := Z.of_nat (length l) in
  let i := if (i <? 0)%Z then (i + n)%Z else i in
  nth (Z.to_nat (Z.max 0 (Z.min i (n - 1)))) l d.

(** m @ v. Used at data_utils.py:85-105. *)
Definition matvec (m : list (list R)) (v : list R) : list R :=
  map (fun row => rsum (map (fun ab => fst ab * snd ab) (combine row v))) m.

(** data_utils.py:85-105 reflect_transition *)
Definition reflect_transition (num_states : nat) (d : datapoint) : res datapoint :=
  if negb (num_states =? 3)%nat then Raise NotImplementedError
  else if negb (length (d_rates d) =? 3)%nat then Raise TypeError    (* shapes of @ *)
  else
    let ref_rates := matvec [[1; 0; 0]; [0; 0; 1]; [0; 1; 0]] (d_rates d) in
    let position := mkpt (1 * px (d_position d) + 0 * py (d_position d))
                         (0 * px (d_position d) + -1 * py (d_position d)) in
    let ref_states := jnp_index [0; 2; 1]%Z (d_state d - 1) 0%Z in
    let ref_states := ((ref_states + 1) * Z.sgn (d_state d))%Z in
    Ok (mkdatapoint ref_states (d_time d) ref_rates position (d_context d)).
(** data_utils.py:108 reflect_dataset: num_states is always the default *)
Definition reflect_dataset (ds : list datapoint) : res (list datapoint) := map_res (reflect_transition 3) ds.

(** data_utils.py:111-128 get_transition_rotations: the n-th row of the result *)
Definition rotate_datapoint (num_states : nat) (d : datapoint) (n : nat) : datapoint :=
  mkdatapoint
    ((nth n (get_all_state_rotations (d_state d - 1) num_states) 0 + 1) * Z.sgn (d_state d))%Z
    (d_time d)
    (nth n (get_all_rate_rotations (d_rates d) num_states) [])
    (nth n (get_all_position_rotations (d_position d) num_states) pzero)
    (d_context d).
Definition get_transition_rotations (num_states : nat) (d : datapoint) : list datapoint :=
  map (rotate_datapoint num_states d) (seq 0 num_states).

(** data_utils.py:131-155 rotate_dataset: the rotations of a row are adjacent.
    Without states there is nothing to stack. *)
Definition rotate_dataset (num_states : nat) (ds : list datapoint) : res (list datapoint) :=
  match num_states with
  | O => Raise ValueError
  | _ => Ok (flat_map (get_transition_rotations num_states) ds)
  end.

(** data_utils.py:355-386 augment_data *)
Definition augment_data (reflect : bool) (num_states : nat) (ds : list datapoint) : res (list datapoint) :=
  if reflect then
    refs <- reflect_dataset ds ;;
    rotate_dataset num_states (ds ++ refs)
  else rotate_dataset num_states ds.

(** * Synthetic data *)

(** data_utils.py:251-256: the rate of a position *)
Definition prior_rate (p : pt) : R :=
  single_silicon_prior_rates p SIGR_PRIOR_RATE_MEAN SIGR_PRIOR_RATE_COV SIGR_PRIOR_MAX_RATE.

(** data_utils.py:197-201 sample_exp and 217-225 / 267-275: whether an exponential
    waiting time, made of the uniform number [u], is over before [t]; for u = 0
    it is infinite *)
Definition transitions (u rate t : R) : bool := Rltb 0 u && Rltb (- ln u / rate) t.

(** data_utils.py:236-285 sample_from_prior, given the draws: the position, the
    context, the choice of a state with given probabilities, the number of
    rotations, the uniform number behind the exponential one, the time *)
Definition sample_from_prior (num_states : nat) (position : pt) (context : list R) (choice : list R -> nat)
  (rotation_factor : nat) (u actual_time : R) : datapoint :=
  let rates := map prior_rate (get_all_position_rotations position num_states) in
  let total_rate := rsum rates in
  let p := map (fun r => r / total_rate) rates in
  let next_state := Z.of_nat (choice p) in
  let position := rotate position (step_angle num_states (Z.of_nat rotation_factor)) in
  let next_state := rotate_index next_state (Z.of_nat rotation_factor) num_states in
  let rates := rotate_attributes rates (Z.of_nat rotation_factor) 0 in
  let transitioned := transitions u total_rate actual_time in
  mkdatapoint (if transitioned then next_state + 1 else 0)%Z actual_time rates position (Some context).

(** * Splits *)

(** a[indices] along the first dimension. Used at data_utils.py:306-325. *)
Definition rows_at {A} (data : list A) (indices : list nat) : res (list A) :=
  match take_idx data indices with Some l => Ok l | None => Raise IndexError end.

(** data_utils.py:306-325 bootstrap_dataset, given the indices drawn with
    replacement and the order in which Python lists a set.  np.array([]) holds
    floats, which are no indices: IndexError. *)
Definition bootstrap_dataset {A} (indices : list nat) (set_order : list nat -> list nat) (data : list A)
  : res (list A * list A) :=
  train <- rows_at data indices ;;
  let out_of_bag := filter (fun i => negb (existsb (Nat.eqb i) indices)) (seq 0 (length data)) in
  match set_order out_of_bag with
  | [] => Raise IndexError
  | test_indices =>
      test <- rows_at data test_indices ;;
      Ok (train, test)
  end.

(** Python's float product: binary64, round to nearest even.
    Simplification: no overflow. Used at data_utils.py:328-352. *)
Definition f64 (x : R) : R := round radix2 (FLT_exp (-1074) 53) ZnearestE x.

(** where l[:k] ends and l[k:] begins. Used at data_utils.py:328-352. *)
Definition slice_at {A} (l : list A) (k : Z) : nat :=
  if (k <? 0)%Z then (length l - Z.to_nat (- k))%nat else Z.to_nat k.

(** data_utils.py:328-352 split_dataset, given the permutation drawn *)
Definition split_dataset {A} (indices : list nat) (test_fraction : R) (data : list A) : res (list A * list A) :=
  let k := trunc (f64 (INR (length data) * test_fraction)) in
  let train_indices := skipn (slice_at indices k) indices in
  let test_indices := firstn (slice_at indices k) indices in
  train <- rows_at data train_indices ;;
  test <- rows_at data test_indices ;;
  Ok (train, test).

(** * The canonical frame *)

(** x % m for reals and m > 0. Used at data_utils.py:389-432. *)
Definition rmod (x m : R) : R := x - m * IZR (Zfloor (x / m)).

(** data_utils.py:389-432 standardize_beam_and_neighbors; without neighbours
    argmin raises ValueError *)
Definition standardize_beam_and_neighbors (asort : argsort_fn) (beam : pt) (neighbors : list pt)
  : res (pt * list pt * list nat) :=
  match argmin (map (fun n => pdist n beam) neighbors) with
  | None => Raise ValueError
  | Some nearest =>
      let neighbor_angles := get_angles neighbors in
      let rotation_angle := - nth nearest neighbor_angles 0 in
      let new_neighbors := rotate_coordinates neighbors rotation_angle in
      let new_beam := rotate beam rotation_angle in
      let positive_angles := map (fun a => rmod (a + rotation_angle) (2 * PI)) neighbor_angles in
      Ok (new_beam, new_neighbors, asort positive_angles)
  end.
