(** Vocabulary for the selection of recorded transitions. *)
From Coq Require Import Reals ZArith List Permutation.
From Verif Require Import Base.Prelude Base.Rounding Model.Geometry Model.MicroscopeUtils Model.DataUtils Model.RateData Spec.Grids Spec.Orienting.
Import ListNotations.
Open Scope R_scope.

(** the atoms of a grid seen in a field of view, at their place in the material *)
Definition seen_atoms (f : fov) (g : grid) : list (pt * Z) :=
  map (fun a => (at_relative f (fst a), snd a)) (atoms g).

(** p is the place of the one and only silicon *)
Definition only_silicon (l : list (pt * Z)) (p : pt) : Prop :=
  selects (fun a => snd a = 14%Z) l [(p, 14%Z)].

(** n are k atoms of l nearest to c, nearest first *)
Definition nearest_atoms (k : nat) (l : list (pt * Z)) (c : pt) (n : list (pt * Z)) : Prop :=
  length n = k /\ exists rest, Permutation l (n ++ rest) /\
    (forall i j a b, (i < j)%nat -> nth_error n i = Some a -> nth_error n j = Some b -> pdist (fst a) c <= pdist (fst b) c) /\
    (forall a b, In a n -> In b rest -> pdist (fst a) c <= pdist (fst b) c).

(** of the atoms l, four (one at c itself, three neighbours) are less than 2
    angstroms from c, all others more *)
Definition threefold (l : list (pt * Z)) (c : pt) : Prop :=
  exists near far, Permutation l (near ++ far) /\ length near = 4%nat /\
    (forall a, In a near -> pdist (fst a) c < 2) /\ (forall a, In a far -> 2 < pdist (fst a) c).

(** the nearest neighbour of the atom at c and the fourth one are less than
    half an angstrom apart in their distances *)
Definition fourfold (l : list (pt * Z)) (c : pt) : Prop :=
  exists n a b, nearest_atoms 5 l c n /\ nth_error n 1 = Some a /\ nth_error n 4 = Some b /\
    pdist (fst b) c - pdist (fst a) c < 1 / 2.

(** d is the distance from p to the nearest of the atoms *)
Definition distance_to (n : list (pt * Z)) (p : pt) (d : R) : Prop :=
  (exists a, In a n /\ pdist p (fst a) = d) /\ forall a, In a n -> d <= pdist p (fst a).
(** on average, the atoms near have an atom of near' within the cutoff *)
Definition matched (near near' : list (pt * Z)) (cutoff : R) : Prop :=
  exists ds, Forall2 (fun a d => distance_to near' (fst a) d) near ds /\ rsum ds <= cutoff * INR (length near).

(** the data point d describes what the exposure c to the beam did to the
    silicon at si, which has the neighbours nbs and is at si' afterwards: in a
    frame centred at si and turned so that the neighbour nearest the beam is on
    the positive x axis, the beam is at d's position; the label is 0 if the
    silicon is still nearest to where it was, and i if it is nearest to the
    i-th neighbour counter-clockwise from the x axis *)
Record describes (f : fov) (c : control) (si si' : pt) (nbs : list pt) (d : rate_point) : Prop := {
  ds_seconds : rp_seconds_between d = IZR (c_dwell c) / 1000000;
  ds_current : rp_current d = c_current_na c;
  ds_voltage : rp_voltage d = c_voltage_kv c;
  ds_frame : exists angle nb listed,
    let turn := fun p => rotate (psub p si) angle in
    In nb nbs /\ (forall q, In q nbs -> pdist nb (at_relative f (c_position c)) <= pdist q (at_relative f (c_position c))) /\
    turn nb = mkpt (pdist nb si) 0 /\
    rp_beam_pos d = turn (at_relative f (c_position c)) /\
    Permutation listed nbs /\ counter_clockwise (map turn listed) /\
    (NoDup nbs -> (forall q, In q nbs -> q <> nb -> ~ direction (turn q) 0) -> nth_error listed 0 = Some nb) /\
    (rp_next_state d = 0%nat /\ (forall q, In q nbs -> pdist si si' <= pdist q si') \/
     exists i q, rp_next_state d = S i /\ nth_error listed i = Some q /\ pdist q si' < pdist si si' /\
       forall q', In q' nbs -> pdist q si' <= pdist q' si')
}.

(** r is the training row of d, with n neighbours: the chosen numbers in the
    order current, voltage, dwell time, and no context if none is chosen *)
Record row (use_current use_voltage use_dwell : bool) (n : nat) (d : rate_point) (r : datapoint) : Prop := {
  row_state : d_state r = Z.of_nat (rp_next_state d);
  row_time : d_time r = rp_seconds_between d;
  row_position : d_position r = rp_beam_pos d;
  row_rates : length (d_rates r) = n /\ forall x, In x (d_rates r) -> x = 0;
  row_context : exists current voltage : list R,
    (if use_current then exists i, rp_current d = Some i /\ current = [i] else current = []) /\
    (if use_voltage then exists v, rp_voltage d = Some v /\ voltage = [v] else voltage = []) /\
    d_context r = match use_current, use_voltage, use_dwell with
                  | false, false, false => None
                  | _, _, true => Some (current ++ voltage ++ [rp_seconds_between d])
                  | _, _, false => Some (current ++ voltage)
                  end
}.
(** a number that was chosen is missing *)
Definition lacks (use_current use_voltage : bool) (d : rate_point) : Prop :=
  (use_current = true /\ rp_current d = None) \/ (use_voltage = true /\ rp_voltage d = None).
(** the same row with another time *)
Definition same_but_time (t : R) (r r' : datapoint) : Prop :=
  d_state r' = d_state r /\ d_time r' = t /\ d_rates r' = d_rates r /\ d_position r' = d_position r /\ d_context r' = d_context r.
