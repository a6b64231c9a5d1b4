(** putting_dune/goals.py *)
From Coq Require Import Reals ZArith List Bool Arith.
From Verif Require Import Base.Prelude Base.Rounding Base.Random Model.Constants Model.MicroscopeUtils
  Model.Graphene.
Import ListNotations.
Open Scope R_scope.
Local Open Scope res_scope.

(** goals.py:27-31 GoalReturn *)
Record goal_return := mkgoal_return {
  gr_reward : R;
  gr_terminal : bool;
  gr_truncated : bool
}.

(** goals.py:34-50 Goal: an object with state [St].  [reset] and the reward
    may raise and change the state. *)
Record goal_methods (G St : Type) := mkgoal_methods {
  gm_reset : St -> observation -> G -> res unit * St * G;
  gm_calculate : St -> observation -> res goal_return * St
}.
Arguments mkgoal_methods {G St}.
Arguments gm_reset {G St}.
Arguments gm_calculate {G St}.

(** goals.py:57-68 SingleSiliconGoalReaching: the mutable attributes *)
Record goal_state := mkgoal_state {
  goal_position : pt;
  goal_consecutive_steps : nat
}.
Definition new_goal : goal_state := mkgoal_state pzero 0.
(** goals.py:61 *)
Definition required_consecutive_goal_steps : nat := 1.
(** goals.py:64 goal_range_angstroms *)
Definition goal_range : R * R := (1 / 10, 50).

(** goals.py:89-106: distances in angstroms from the silicon, and the atoms in
    the desired range *)
Definition goal_distance (f : fov) (si p : pt) : R :=
  pnorm (pmul (mkpt (width f) (height f)) (psub p si)).
Definition valid_goal (f : fov) (si p : pt) : bool :=
  Rltb (goal_distance f si p) (snd goal_range) && Rltb (fst goal_range) (goal_distance f si p).
Definition valid_goals (o : observation) (si : pt) : list pt :=
  mask_select (map (valid_goal (o_fov o) si) (positions (o_grid o))) (positions (o_grid o)).

(** goals.py:69-121 reset *)
Definition goal_reset {G} (s : sampler G) (st : goal_state) (o : observation) (g : G)
  : res unit * goal_state * G :=
  match get_single_silicon_position (o_grid o) with
  | Raise e => (Raise e, st, g)
  | OutOfFuel => (OutOfFuel, st, g)
  | Ok si =>
      let goals := valid_goals o si in
      if (length goals =? 0)%nat then (Raise RuntimeError, st, g)
      else
        let '(i, g) := s_choice s (length goals) g in
        match nth_error goals i with
        | None => (Raise IndexError, st, g)
        | Some p => (Ok tt, mkgoal_state (to_material_pt (o_fov o) p) 0, g)
        end
  end.

(** goals.py:123-128 current_goal *)
Definition current_goal (st : goal_state) : pt := mkpt (px (goal_position st)) (py (goal_position st)).

(** constants.GAMMA_PER_SECOND ** elapsed_time.total_seconds().
    Used at goals.py:130-185. *)
Definition discount_of (t : timedelta) : R := Rpower GAMMA_PER_SECOND (total_seconds t).

(** goals.py:130-185 calculate_reward_and_terminal *)
Definition goal_calculate (st : goal_state) (o : observation) : res goal_return * goal_state :=
  match get_single_silicon_position (o_grid o) with
  | Raise e => (Raise e, st)
  | OutOfFuel => (OutOfFuel, st)
  | Ok si =>
      let si_material := to_material_pt (o_fov o) si in
      let goal_radius := CARBON_BOND_DISTANCE_ANGSTROMS * (1 / 2) in
      let distance := pnorm (psub si_material (goal_position st)) in
      let steps := if Rltb distance goal_radius then S (goal_consecutive_steps st) else O in
      let is_terminal := (required_consecutive_goal_steps <=? steps)%nat in
      let reward := if is_terminal then discount_of (o_elapsed o) else 0 in
      (Ok (mkgoal_return reward is_terminal false), mkgoal_state (goal_position st) steps)
  end.

Definition single_silicon_goal {G} (s : sampler G) : goal_methods G goal_state :=
  mkgoal_methods (goal_reset s) goal_calculate.
