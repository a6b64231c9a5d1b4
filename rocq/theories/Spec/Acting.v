(** Vocabulary for action adapters, goals, features and agents. *)
From Coq Require Import Reals ZArith List Bool.
From Verif Require Import Base.Prelude Base.Rounding Base.Random Model.MicroscopeUtils Spec.Grids
  Spec.Material.
Import ListNotations.
Open Scope R_scope.

(** y is x, moved to the nearest end of [lo, hi] if it lies outside *)
Definition limited_to (lo hi x y : R) : Prop :=
  (x < lo /\ y = lo) \/ (lo <= x <= hi /\ y = x) \/ (hi < x /\ y = hi).

(** a point of the unit square *)
Definition in_view (p : pt) : Prop := 0 <= px p <= 1 /\ 0 <= py p <= 1.

(** both coordinates of q are those of p limited to [lo, hi] *)
Definition point_limited_to (lo hi : R) (p q : pt) : Prop :=
  limited_to lo hi (px p) (px q) /\ limited_to lo hi (py p) (py q).

(** the grid shows exactly one silicon atom, at p *)
Definition lone_silicon (gr : grid) (p : pt) : Prop :=
  count_number 14 gr = 1%nat /\ In (p, 14%Z) (atoms gr).

(** the control the adapters build: default voltage and current *)
Definition aimed_for (p : pt) (t : timedelta) : control := mkcontrol p t (Some 60) (Some (1 / 10)).
Arguments aimed_for p t%Z.

(** the two offsets of an action: its first two entries, or its only entry
    twice *)
Definition offsets (action : list R) (dx dy : R) : Prop :=
  (action = [dx] /\ dy = dx) \/ exists rest, action = dx :: dy :: rest.

(** dwell time of an action for the configured range [lo, hi], in
    microseconds *)
Definition dwell_of (lo hi : timedelta) (action : list R) (t : timedelta) : Prop :=
  (lo = hi /\ t = lo) \/
  (lo <> hi /\ exists x y, nth_error action 2 = Some x /\ limited_to 0 1 x y /\
     t = round_half_even (y * (IZR hi - IZR lo) + IZR lo)).

(** the distance of two points of an observation, in angstroms *)
Definition angstroms (f : fov) (p q : pt) : R := pdist (at_relative f p) (at_relative f q).

(** an entry of a dm_env BoundedArray *)
Definition fits (spec : list (R * R)) (action : list R) : Prop :=
  Forall2 (fun b x => fst b <= x <= snd b) spec action.

(** the silicon atom used when a single position is needed: the first of the
    silicon atoms nearest to the centre (1/2, 1/2) of the frame *)
Definition central_silicon (gr : grid) (p : pt) : Prop :=
  exists l i, selects (fun a => snd a = 14%Z) (atoms gr) l /\ nth_error (map fst l) i = Some p /\
    forall j q, nth_error (map fst l) j = Some q ->
      pdist (mkpt (1/2) (1/2)) p <= pdist (mkpt (1/2) (1/2)) q /\
      ((j < i)%nat -> pdist (mkpt (1/2) (1/2)) p < pdist (mkpt (1/2) (1/2)) q).

(** the atoms that can become the goal: strictly between 0.1 and 50 angstroms
    from the silicon *)
Definition goal_candidates (o : observation) (si : pt) (l : list (pt * Z)) : Prop :=
  selects (fun a => 1 / 10 < angstroms (o_fov o) (fst a) si < 50) (atoms (o_grid o)) l.

(** 0.9967 to the power of the elapsed seconds *)
Definition discounted (t : timedelta) : R := Rpower (9967 / 10000) (IZR t / 1000000).

(** v rotated to the direction of d: the rotation that takes the positive x
    axis to d *)
Definition towards (d v : pt) : pt :=
  mkpt ((px v * px d - py v * py d) / pnorm d) ((px v * py d + py v * px d) / pnorm d).
