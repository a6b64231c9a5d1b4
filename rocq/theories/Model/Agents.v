(** putting_dune/agents/agent_lib.py *)
From Coq Require Import Reals ZArith List Bool Arith.
From Flocq Require Import Core.
From Verif Require Import Base.Prelude Base.Rounding Base.Random Model.Geometry.
Import ListNotations.
Open Scope R_scope.
Local Open Scope res_scope.

(** agent_lib.py:54-78 UniformRandomAgent with scalar bounds and an action of
    [size] entries.  Simplification: arrays as bounds and multi-dimensional
    actions are not modelled. *)
Fixpoint uniform_actions {G} (s : sampler G) (low high : R) (size : nat) (g : G) : list R * G :=
  match size with
  | O => ([], g)
  | S n =>
      let '(x, g) := s_uniform s low high g in
      let '(xs, g) := uniform_actions s low high n g in
      (x :: xs, g)
  end.

(** agent_lib.py:99-134 GreedyAgent.__init__: the attributes *)
Record greedy := mkgreedy {
  ga_argmax : pt;
  ga_fixed_offset : pt;
  ga_position_noise_sigma : R
}.
(** agent_lib.py:103-106: the defaults *)
Definition default_greedy : greedy := mkgreedy (mkpt (142 / 100) 0) pzero 0.

(** np.linspace(low, high, n).  Simplification: the conversion to float32 is
    omitted. Used at agent_lib.py:136-161. *)
Definition linspace (low high : R) (n : nat) : list R :=
  map (fun i => low + INR i * ((high - low) / INR (n - 1))) (seq 0 n).

(** agent_lib.py:136-161 find_argmax: int((high - low) // resolution) points
    per axis, x varying fastest; np.stack of nothing raises ValueError.
    [transition_function] returns the rate to neighbour 0 (line 160 looks at
    nothing else).  A zero resolution is a ZeroDivisionError, a negative
    number of points a ValueError. *)
Definition search_points (low high resolution : R) : list pt :=
  let points_1d := linspace low high (Z.to_nat (Zfloor ((high - low) / resolution))) in
  flat_map (fun y => map (fun x => mkpt x y) points_1d) points_1d.
Definition find_argmax (low high resolution : R) (transition_function : pt -> R) : res pt :=
  if Reqb resolution 0 then Raise ZeroDivisionError
  else
    let points := search_points low high resolution in
    match argmax (map transition_function points) with
    | None => Raise ValueError
    | Some i => match nth_error points i with Some p => Ok p | None => Raise IndexError end
    end.

(** agent_lib.py:129-134: a transition function takes precedence over a manual
    argmax; one of them is needed *)
Definition new_greedy (transition_function : option (pt -> R)) (manual : option pt)
  (low high resolution sigma : R) (fixed_offset : pt) : res greedy :=
  match transition_function, manual with
  | Some t, _ => p <- find_argmax low high resolution t ;; Ok (mkgreedy p fixed_offset sigma)
  | None, Some p => Ok (mkgreedy p fixed_offset sigma)
  | None, None => Raise ValueError
  end.

(** agent_lib.py:163-183 GreedyAgent.step; the observation must have shape
    (10,) *)
Definition greedy_step {G} (s : sampler G) (a : greedy) (observation : list R) (g : G)
  : res (list R) * G :=
  match observation with
  | [_; _; x0; y0; x1; y1; x2; y2; gx; gy] =>
      let neighbor_deltas := [mkpt x0 y0; mkpt x1 y1; mkpt x2 y2] in
      let goal_delta := mkpt gx gy in
      let scores := map (fun d => pnorm (psub d goal_delta)) neighbor_deltas in
      match argmin scores with
      | None => (Raise ValueError, g)
      | Some best =>
          match nth_error (get_angles neighbor_deltas) best with
          | None => (Raise IndexError, g)
          | Some angle =>
              let beam_position := padd (ga_argmax a) (ga_fixed_offset a) in
              let '(nx, g) := s_normal s (ga_position_noise_sigma a) g in
              let '(ny, g) := s_normal s (ga_position_noise_sigma a) g in
              let p := rotate (padd beam_position (mkpt nx ny)) angle in
              (Ok [px p; py p], g)
          end
      end
  | _ => (Raise AssertionError, g)
  end.
