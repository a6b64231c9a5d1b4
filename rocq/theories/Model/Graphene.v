(** putting_dune/graphene.py *)
From Coq Require Import Reals ZArith List Bool Arith.
From Flocq Require Import Core.
From Verif Require Import Base.Prelude Base.Matrix Base.Rounding Base.Random Model.Constants
  Model.Geometry Model.MicroscopeUtils.
Import ListNotations.
Open Scope R_scope.
Local Open Scope res_scope.

(** * Silicon lookup *)

(** atomic_numbers == SILICON. Used at graphene.py:709-710. *)
Definition silicon_mask (ns : list Z) : list bool := map (Z.eqb SILICON) ns.

(** graphene.py:709-710 get_silicon_positions *)
Definition get_silicon_positions (g : grid) : list pt :=
  mask_select (silicon_mask (numbers g)) (positions g).

(** graphene.py:713-746 get_single_silicon_position *)
Definition get_single_silicon_position (g : grid) : res pt :=
  match get_silicon_positions g with
  | [] => Raise SiliconNotFoundError
  | [p] => Ok p
  | ps =>
      match argmin (map (fun p => pnorm (psub (mkpt (1/2) (1/2)) p)) ps) with
      | Some i => match nth_error ps i with Some p => Ok p | None => Raise IndexError end
      | None => Raise ValueError
      end
  end.

(** * Rates *)

(** graphene.py:37-49: successor grids with their rates.  Simplification: the
    float32 summation inside [total_rate] is exact here. *)
Definition rates := list (grid * R).
Definition total_rate (r : rates) : R := rsum (map snd r).

(** graphene.py:52-59 RateFunction; a call may raise *)
Definition rate_function := grid -> pt -> res rates.

(** graphene.py:62-78 CanonicalRatePredictionFn: grid, beam position, silicon
    position, neighbour indices *)
Definition canonical_fn := grid -> pt -> pt -> list nat -> res (list R).

(** atom_positions[indices]. Used at graphene.py:133-166. *)
Definition positions_at (g : grid) (idx : list nat) : res (list pt) :=
  match take_idx (positions g) idx with
  | Some ps => Ok ps
  | None => Raise IndexError
  end.

(** graphene.py:121-130 single_silicon_prior_rates *)
Definition single_silicon_prior_rates (context mean : pt) (cov : mat2) (max_rate : R) : R :=
  let norm := max_rate / normal_pdf mean mean cov in
  normal_pdf context mean cov * norm.

(** graphene.py:133-166 simple_canonical_rate_function *)
Definition simple_rate (beam si nb : pt) : R :=
  let n := psub nb si in
  let b := psub beam si in
  let dist := pnorm (psub b n) / CARBON_BOND_DISTANCE_ANGSTROMS in
  1 / ((dist * 4) * (dist * 4) + 1).
Definition simple_canonical_rate_function : canonical_fn :=
  fun g beam si idx =>
    nbs <- positions_at g idx ;;
    Ok (map (simple_rate beam si) nbs).

(** graphene.py:191-229 HumanPriorRatePredictor.predict.  Line 223 rotates the
    mean by minus the angle of the neighbour. *)
Definition human_prior_rate (mean : pt) (cov : mat2) (max_rate : R) (beam si nb : pt) : R :=
  let angle := get_angle (psub nb si) in
  let context := pscale (/ CARBON_BOND_DISTANCE_ANGSTROMS) (psub beam si) in
  single_silicon_prior_rates context (rotate mean (- angle)) cov max_rate.
Definition human_prior_predict (mean : pt) (cov : mat2) (max_rate : R) : canonical_fn :=
  fun g beam si idx =>
    nbs <- positions_at g idx ;;
    Ok (map (human_prior_rate mean cov max_rate beam si) nbs).

(** graphene.py:182-189: the defaults *)
Definition human_prior_default : canonical_fn :=
  human_prior_predict SIGR_PRIOR_RATE_MEAN SIGR_PRIOR_RATE_COV SIGR_PRIOR_MAX_RATE.

(** np.full_like(numbers, CARBON) with one entry set to SILICON.
    Used at graphene.py:238-276. *)
Definition single_silicon_numbers (ns : list Z) (i : nat) : res (list Z) :=
  if (i <? length ns)%nat then Ok (upd (map (fun _ => CARBON) ns) i SILICON)
  else Raise IndexError.

(** graphene.py:238-276 PristineSingleSiGrRatePredictor.__call__ *)
Definition pristine_rate_predictor (knn : knn_fn) (fn : canonical_fn) : rate_function :=
  fun g beam =>
    si <- get_single_silicon_position g ;;
    idx <- nearest_neighbors3 knn (positions g) si false ;;
    rs <- fn g beam si idx ;;
    let rs32 := map f32 rs in
    if negb (forallb (fun r => Rleb 0 r) rs32) then Raise AssertionError
    else if negb (length rs32 =? length idx)%nat then Raise AssertionError
    else map_res (fun ir =>
           ns <- single_silicon_numbers (numbers g) (fst ir) ;;
           Ok (mkgrid (positions g) ns, snd ir)) (combine idx rs32).

(** * Gaussian mixture *)

(** graphene.py:279-286; variances are the two diagonal entries *)
Record mixture := mkmixture { mix_weight : R; mix_loc : R; mix_var : R * R }.
Record gmm := mkgmm { gmm_max_rate : R; gmm_components : list mixture }.

(** graphene.py:293-301: the weighted peak value of a component *)
Definition mode_prob (c : mixture) : R :=
  normal_pdf pzero pzero (mdiag (fst (mix_var c)) (snd (mix_var c))) * mix_weight c.
Definition max_mode_prob (cs : list mixture) : R :=
  fold_left (fun acc c => Rmax acc (mode_prob c)) cs 0.

(** graphene.py:288-302 _normalizing_factor *)
Definition normalizing_factor (m : gmm) : res R :=
  let mm := max_mode_prob (gmm_components m) in
  if Reqb mm 0 then Raise ZeroDivisionError else Ok (gmm_max_rate m / mm).

(** graphene.py:322-348: eigenvector matrix, columns are the unit vector
    towards the neighbour and its normal.
    Simplification: a neighbour at the silicon position (0/0) is not modelled. *)
Definition eigenvectors (delta : pt) : mat2 :=
  let o := mkpt (- py delta) (px delta) in
  let b1 := pscale (/ pnorm delta) delta in
  let b2 := pscale (/ pnorm o) o in
  mkmat2 (px b1) (px b2) (py b1) (py b2).

(** graphene.py:350-372; pinv of the invertible matrix is its inverse *)
Definition component_density (si delta beam : pt) (c : mixture) : R :=
  let e := eigenvectors delta in
  let loc := padd si (pscale (mix_loc c) delta) in
  let cov := mmul (mmul e (mdiag (fst (mix_var c)) (snd (mix_var c)))) (minv e) in
  normal_pdf beam loc cov.

(** graphene.py:350-377: accumulated rate of one neighbour *)
Definition gmm_rate (m : gmm) (factor : R) (si nb beam : pt) : R :=
  fold_left (fun rate c =>
      let mixture_rate := component_density si (psub nb si) beam c * factor in
      rate + mixture_rate * mix_weight c)
    (gmm_components m) 0.

(** graphene.py:304-390 GaussianMixtureRateFunction.__call__ *)
Definition gmm_rate_function (knn : knn_fn) (m : gmm) : rate_function :=
  fun g beam =>
    si <- get_single_silicon_position g ;;
    idx <- nearest_neighbors3 knn (positions g) si false ;;
    nbs <- positions_at g idx ;;
    match gmm_components m with
    | [] => (* the factor is never evaluated *)
        map_res (fun ip =>
           ns <- single_silicon_numbers (numbers g) (fst ip) ;;
           Ok (mkgrid (positions g) ns, 0)) (combine idx nbs)
    | _ =>
        factor <- normalizing_factor m ;;
        map_res (fun ip =>
           ns <- single_silicon_numbers (numbers g) (fst ip) ;;
           Ok (mkgrid (positions g) ns, gmm_rate m factor si (snd ip) beam))
          (combine idx nbs)
    end.

(** graphene.py:447-461 GaussianMixtureRateFunction.__eq__ *)
Definition far (x y : R) : bool := Rltb (1 / 1000) (Rabs (x - y)).
Definition gmm_eq (a b : gmm) : bool :=
  if negb (length (gmm_components a) =? length (gmm_components b))%nat then false
  else if far (gmm_max_rate a) (gmm_max_rate b) then false
  else negb (existsb (fun xy =>
         far (mix_weight (fst xy)) (mix_weight (snd xy)) ||
         far (mix_loc (fst xy)) (mix_loc (snd xy)) ||
         far (fst (mix_var (fst xy))) (fst (mix_var (snd xy))) ||
         far (snd (mix_var (fst xy))) (snd (mix_var (snd xy))))
       (combine (gmm_components a) (gmm_components b))).

(** * The lattice *)

(** graphene.py:480 ratio *)
Definition hex_ratio : R := sqrt 3 / 2.
(** graphene.py:481 num_rows = int(num_cols / ratio) *)
Definition hex_rows (num_cols : nat) : nat := Z.to_nat (trunc (INR num_cols / hex_ratio)).

(** graphene.py:491-495: which (row, column) positions survive *)
Definition hex_keep (r c : nat) : bool :=
  if Nat.even r then negb (c mod 3 =? 0)%nat else negb (c mod 3 =? 1)%nat.
(** graphene.py:483-490.  Simplification: float32 storage of the column
    coordinate (exact below 2^23). *)
Definition hex_point (r c : nat) : pt :=
  mkpt (INR c + (if Nat.even r then 0 else 1 / 2)) (INR r * hex_ratio).

(** graphene.py:464-501 _generate_hexagonal_grid: row-major order *)
Definition hex_indices (rows cols : nat) : list (nat * nat) :=
  filter (fun rc => hex_keep (fst rc) (snd rc))
         (list_prod (seq 0 rows) (seq 0 cols)).
Definition generate_hexagonal_grid (num_cols : nat) : list pt :=
  map (fun rc => hex_point (fst rc) (snd rc)) (hex_indices (hex_rows num_cols) num_cols).

(** positions - np.mean(positions, axis=0). Used at graphene.py:504-530. *)
Definition centered (ps : list pt) : list pt := map (fun p => psub p (pmean ps)) ps.

(** row vector times [[cos, -sin], [sin, cos]] (graphene.py:551-557) *)
Definition rotate_rhs (p : pt) (a : R) : pt :=
  mkpt (px p * cos a + py p * sin a) (px p * (- sin a) + py p * cos a).

(** graphene.py:504-530 canonical_pristine_graphene_with_centered_silicon;
    argmin of an empty array raises ValueError *)
Definition canonical_pristine_graphene (num_cols : nat) : res grid :=
  let ps := map (pscale CARBON_BOND_DISTANCE_ANGSTROMS) (generate_hexagonal_grid num_cols) in
  let ps := centered ps in
  let ps := map (fun p => rotate_rhs p 0) ps in
  match argmin (map psq ps) with
  | None => Raise ValueError
  | Some i =>
      match nth_error ps i with
      | None => Raise IndexError
      | Some c =>
          Ok (mkgrid (map (fun p => psub p c) ps)
                     (upd (map (fun _ => CARBON) ps) i SILICON))
      end
  end.

Section WithRng.
Context {G : Type}.
Variable s : sampler G.

(** graphene.py:533-559 generate_pristine_graphene: the offset is drawn as
    two uniforms (x then y), then the angle *)
Definition generate_pristine_graphene (num_cols : nat) (g : G) : list pt * G :=
  let ps := map (pscale CARBON_BOND_DISTANCE_ANGSTROMS) (generate_hexagonal_grid num_cols) in
  let ps := centered ps in
  let h := CARBON_BOND_DISTANCE_ANGSTROMS / 2 in
  let '(ox, g) := s_uniform s (- h) h g in
  let '(oy, g) := s_uniform s (- h) h g in
  let ps := map (fun p => padd p (mkpt ox oy)) ps in
  let '(a, g) := s_uniform s 0 (2 * PI) g in
  (map (fun p => rotate_rhs p a) ps, g).

(** * PristineSingleDopedGraphene *)

(** graphene.py:569-582.  [m_grid = None] with [m_reset = true] is the state
    after a reset that raised. *)
Record material := mkmaterial {
  m_columns : nat;
  m_rate_function : rate_function;
  m_reset : bool;
  m_grid : option grid
}.
Definition new_material (rf : rate_function) (cols : nat) : material :=
  mkmaterial cols rf false None.
Definition set_grid (m : material) (gr : grid) : material :=
  mkmaterial (m_columns m) (m_rate_function m) (m_reset m) (Some gr).

(** graphene.py:584-598 reset; np.argmin of an empty array is a ValueError *)
Definition material_reset (m : material) (g : G) : res unit * material * G :=
  let m := mkmaterial (m_columns m) (m_rate_function m) true (m_grid m) in
  let '(ps, g) := generate_pristine_graphene (m_columns m) g in
  match argmin (map pnorm ps) with
  | None => (Raise ValueError, m, g)
  | Some i =>
      (Ok tt, set_grid m (mkgrid ps (upd (map (fun _ => CARBON) ps) i SILICON)), g)
  end.

(** graphene.py:702-706 _assert_has_been_reset, then self.grid *)
Definition reset_grid (m : material) : res grid :=
  if m_reset m then
    match m_grid m with Some gr => Ok gr | None => Raise AttributeError end
  else Raise RuntimeError.

(** graphene.py:600-644 get_atoms_in_bounds *)
Definition grid_get_atoms_in_bounds (gr : grid) (ll ur : pt) : grid :=
  let m := map (in_box ll ur) (positions gr) in
  let ps := mask_select m (positions gr) in
  let ns := mask_select m (numbers gr) in
  let delta := psub ur ll in
  mkgrid (map (fun p => pdiv (psub p ll) delta) ps) ns.
Definition get_atoms_in_bounds (m : material) (ll ur : pt) : res grid :=
  gr <- reset_grid m ;;
  Ok (grid_get_atoms_in_bounds gr ll ur).

(** np.random.Generator.choice(n, p=p) with a float32 [p]: ValueError for a
    negative entry or a sum too far from one.  [p] is float32 because numpy's
    value-based promotion (numpy 1) keeps the type of the array when it is
    divided by a float64 scalar; numpy 2 would make it float64 there, with the
    tighter tolerance sqrt(2^-52), which is not modelled. Used at graphene.py:657-694. *)
Definition choice_tolerance : R := sqrt (/ 8388608).
(** used at graphene.py:657-694 *)
Definition rng_choice_p (p : list R) (g : G) : res nat * G :=
  if existsb (fun x => Rltb x 0) p then (Raise ValueError, g)
  else if Rltb choice_tolerance (Rabs (rsum p - 1)) then (Raise ValueError, g)
  else let '(i, g') := s_choice_p s p g in (Ok i, g').

(** rng.exponential(scale=1.0 / total): the total rate 0 gives scale inf and
    a draw of inf, which the caller clips to an hour; a negative scale is a
    ValueError.  Simplified: rates are numpy scalars, as every rate function
    that ships returns them; a mixture with no component would return Python's
    0.0, whose reciprocal raises ZeroDivisionError. Used at graphene.py:657-694. *)
Definition draw_seconds (total : R) (g : G) : res R * G :=
  if Rltb total 0 then (Raise ValueError, g)
  else if Reqb total 0 then (Ok 3600, snd (s_exponential s 0 g))
  else let '(t, g') := s_exponential s (1 / total) g in (Ok (Rmin t 3600), g').

(** outcome of the exposure loop: also the state reached and the transitions
    reported to the observers (time since the control was applied, grid).
    Used at graphene.py:657-694. *)
Record exposure := mkexposure {
  e_result : res unit;
  e_grid : grid;
  e_rng : G;
  e_transitions : list (timedelta * grid)
}.
(** used at graphene.py:657-694 *)
Definition add_transition (t : timedelta * grid) (e : exposure) : exposure :=
  mkexposure (e_result e) (e_grid e) (e_rng e) (t :: e_transitions e).

(** graphene.py:657-694: the while loop.  An empty successor list makes
    1.0 / 0 with a Python int: ZeroDivisionError.  The total rate 0 makes the
    probabilities NaN: ValueError. *)
Fixpoint exposure_loop (fuel : nat) (rf : rate_function) (pos : pt)
  (dwell elapsed : timedelta) (gr : grid) (g : G) : exposure :=
  if negb (elapsed <? dwell)%Z then mkexposure (Ok tt) gr g []
  else match fuel with
  | O => mkexposure OutOfFuel gr g []
  | S fuel =>
      match rf gr pos with
      | Raise e => mkexposure (Raise e) gr g []
      | OutOfFuel => mkexposure OutOfFuel gr g []
      | Ok [] => mkexposure (Raise ZeroDivisionError) gr g []
      | Ok rs =>
          let total := total_rate rs in
          match draw_seconds total g with
          | (Raise e, g) => mkexposure (Raise e) gr g []
          | (OutOfFuel, g) => mkexposure OutOfFuel gr g []
          | (Ok secs, g) =>
              let elapsed := (elapsed + td_seconds secs)%Z in
              if (elapsed <=? dwell)%Z then
                if Reqb total 0 then mkexposure (Raise ValueError) gr g []
                else
                match rng_choice_p (map (fun r => f32 (snd r) / total) rs) g with
                | (Raise e, g) => mkexposure (Raise e) gr g []
                | (OutOfFuel, g) => mkexposure OutOfFuel gr g []
                | (Ok i, g) =>
                    match nth_error rs i with
                    | None => mkexposure (Raise IndexError) gr g []
                    | Some (gr', _) =>
                        add_transition (elapsed, gr')
                          (exposure_loop fuel rf pos dwell elapsed gr' g)
                    end
                end
              else exposure_loop fuel rf pos dwell elapsed gr g
          end
      end
  end.

(** graphene.py:646-694 apply_control.  Only the position and the dwell time
    of the control are used. *)
Definition apply_control (fuel : nat) (m : material) (c : control) (g : G)
  : res unit * material * G * list (timedelta * grid) :=
  match reset_grid m with
  | Raise e => (Raise e, m, g, [])
  | OutOfFuel => (OutOfFuel, m, g, [])
  | Ok gr =>
      let e := exposure_loop fuel (m_rate_function m) (c_position c) (c_dwell c) 0%Z gr g in
      (e_result e, set_grid m (e_grid e), e_rng e, e_transitions e)
  end.

(** graphene.py:696-700 get_silicon_position: flattened *)
Definition get_silicon_position (m : material) : res (list R) :=
  gr <- reset_grid m ;;
  Ok (flat_map (fun p => [px p; py p]) (get_silicon_positions gr)).

End WithRng.
