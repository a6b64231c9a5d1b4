(** The registered experiments, as a user knows them: the name, who acts, how
    long and how far from the silicon atom. *)
From Coq Require Import Reals ZArith List Bool String.
From Verif Require Import Base.Prelude Base.Rounding Base.Random Model.MicroscopeUtils Model.Registry Spec.Grids Spec.Material Spec.Acting.
Import ListNotations.
Local Open Scope string_scope.
Local Open Scope list_scope.
Open Scope R_scope.

(** an action drawn entry by entry, each uniformly from its bounds *)
Inductive drawn_from {G} (s : sampler G) : list (R * R) -> G -> list R -> G -> Prop :=
| drawn_none g : drawn_from s [] g [] g
| drawn_entry lo hi spec g x g1 xs g2 :
    s_uniform s lo hi g = (x, g1) -> drawn_from s spec g1 xs g2 -> drawn_from s ((lo, hi) :: spec) g (x :: xs) g2.

(** the bounds of actions relative to the silicon atom: both offsets, and the
    dwell time if there is a choice *)
Definition relative_bounds (lo hi : Z) : list (R * R) :=
  if Z.eq_dec lo hi then [(-1, 1); (-1, 1)] else [(-1, 1); (-1, 1); (0, 1)].

(** the control for an action relative to the silicon atom at [si]: offsets in
    multiples of [dist] angstroms, dwell times in microseconds *)
Definition relative_aimed (o : observation) (si : pt) (lo hi : Z) (dist : R) (a : list R) (c : control) : Prop :=
  exists dx dy ex ey q t,
    offsets a dx dy /\ limited_to (-1) 1 dx ex /\ limited_to (-1) 1 dy ey /\
    point_limited_to 0 1 (relative_to (o_fov o) (padd (at_relative (o_fov o) si) (mkpt (ex * dist) (ey * dist)))) q /\
    dwell_of lo hi a t /\ c = aimed_for q t.

(** dwell times from, to (microseconds) and distance (angstroms) *)
Definition random_rows : list (string * (Z * Z * R)) := [
  ("relative_random", (1500000%Z, 1500000%Z, 142 / 100));
  ("relative_random_long", (1000000%Z, 5000000%Z, 284 / 100));
  ("relative_random_extra_long", (1000000%Z, 5000000%Z, 426 / 100))].
(** where the beam goes for a neighbour in the direction of the x axis *)
Definition greedy_rows : list (string * pt) := [
  ("greedy_on_neighbor", mkpt (142 / 100) 0);
  ("greedy_short_of_neighbor", mkpt (58 / 100) 0);
  ("greedy_on_neighbor_offset_horizontally", mkpt (142 / 100) (42 / 100));
  ("greedy_from_learned_rates_v3", mkpt (18686869 / 10000000) 0);
  ("greedy_from_learned_rates_v5", mkpt (21717172 / 10000000) (- 15151516 / 100000000))].
(** the model, whether it is shown the picture, dwell times and distance *)
Definition learned_rows : list (string * (string * bool * Z * Z * R)) := [
  ("ppo_simple_images_tf", ("ppo_simple_images_tf", true, 1500000%Z, 1500000%Z, 142 / 100));
  ("ppo_learned_tf_2s", ("230127_from_state_2s", false, 1000000%Z, 10000000%Z, 142 / 100));
  ("ppo_learned_tf_3s", ("230127_from_state_3s", false, 1000000%Z, 10000000%Z, 142 / 100));
  ("ppo_learned_tf_4s", ("230127_from_state_4s", false, 1000000%Z, 10000000%Z, 142 / 100));
  ("ppo_v3_2s", ("230422_ppo_v3_2s", false, 1500000%Z, 20000000%Z, 426 / 100));
  ("ppo_v3_3s", ("230422_ppo_v3_3s", false, 1500000%Z, 20000000%Z, 426 / 100));
  ("ppo_v3_4s", ("230422_ppo_v3_4s", false, 1500000%Z, 20000000%Z, 426 / 100))].

(** training and evaluation: is the human prior used, are pictures shown, and
    the dwell times; [None]: actions are positions in the field of view *)
Definition train_rows : list (string * (bool * bool * option (Z * Z))) := [
  ("relative_simple_rates", (false, false, Some (1500000, 1500000)%Z));
  ("relative_prior_rates", (true, false, Some (1500000, 1500000)%Z));
  ("relative_simple_rates_from_images", (false, true, Some (1500000, 1500000)%Z));
  ("relative_simple_rates_from_images_variable_time", (false, true, Some (1000000, 10000000)%Z));
  ("direct_simple_rates_from_images", (false, true, None))].
Definition random_eval_rows : list (string * bool) := [
  ("relative_random_simple", false); ("relative_random_prior_rates", true)].

(** a point of float32 coordinates *)
Definition rounded (p : pt) : pt := mkpt (f32 (px p)) (f32 (py p)).

(** the first of several pairs with a key *)
Definition first_of {E} (name : string) (l : list (string * E)) (e : E) : Prop :=
  exists l1 l2, l = l1 ++ (name, e) :: l2 /\ ~ In name (map fst l1).

(** registrations one after the other *)
Definition registered (regs : list (string * eval_experiment)) : list (string * eval_experiment) :=
  fold_left (fun table r => register_eval_experiment (fst r) (snd r) table) regs eval_experiments.
