(** Vocabulary for synthetic transitions *)
From Coq Require Import Reals ZArith List.
From Verif Require Import Base.Prelude Model.Geometry Model.LearnRates Model.SyntheticData Spec.Augmenting.
Import ListNotations.
Local Open Scope R_scope.

(** what jax.random promises *)
Record lawful (D : draws) : Prop := {
  uniform_range : forall k, 0 <= uniform D k < 1;
  normal_length : forall k n, length (normal D k n) = n;
  randint_range : forall k n, (0 < n)%nat -> (randint D k n < n)%nat
}.

(** [u], uniform in [0, 1), picks the i-th of some weights: so much of the
    unit interval does as is the weight's share of the sum *)
Definition picks (weights : list R) (u : R) (i : nat) : Prop :=
  exists before w after, weights = before ++ w :: after /\ length before = i /\
    rsum before < (1 - u) * rsum weights <= rsum before + w.

(** the informed prior: a bell around 0.85 bonds in the direction of the neighbour *)
Definition bell (p : pt) : R := ln 2 / 3 * exp (- 5 * pdist p (mkpt (85 / 100) 0) ^ 2).

(** whether the exponential waiting time with a rate, made from a uniform
    number, is over before dt *)
Definition waits_less (u rate dt : R) : Prop := 0 < u /\ - ln u / rate < dt.

(** a row of the prior's data: first the beam is drawn, with the rate of every
    neighbour for it, and the neighbour the silicon moves to; then the beam and
    the neighbours are numbered [turn] further *)
Record prior_row (N : nat) (lo hi : R) (beam : pt) (context : list R) (turn : nat) (u_state u_wait u_time : R) (r : row) : Prop := {
  prior_time : r_dt r = lo + u_time * (hi - lo);
  prior_context : r_context r = context;
  prior_position : r_position r = [px (rotate beam (neighbour_angle N turn)); py (rotate beam (neighbour_angle N turn))];
  prior_rates_length : length (r_rates r) = N;
  prior_rates : forall i j, comes_from N turn i j -> nth_error (r_rates r) j = Some (bell (rotate beam (neighbour_angle N i)));
  prior_moves : waits_less u_wait (rsum (map (fun i => bell (rotate beam (neighbour_angle N i))) (seq 0 N))) (r_dt r) ->
    exists i j, picks (map (fun i => bell (rotate beam (neighbour_angle N i))) (seq 0 N)) u_state i /\
      comes_from N turn i j /\ r_next_state r = Z.of_nat (S j);
  prior_stays : ~ waits_less u_wait (rsum (map (fun i => bell (rotate beam (neighbour_angle N i))) (seq 0 N))) (r_dt r) ->
    r_next_state r = 0%Z
}.

(** a row of the network's data: the rates are the network's for the row's own
    context and position, without its last output *)
Record network_row (N context_dim : nat) (lo hi : R) (net : list R -> list R) (input : list R) (u_state u_wait u_time : R)
  (r : row) : Prop := {
  network_time : r_dt r = lo + u_time * (hi - lo);
  network_input : r_context r ++ r_position r = input;
  network_context : length (r_context r) = context_dim;
  network_rates : r_rates r = map (fun x => ln (1 + exp x)) (firstn N (net input));
  network_moves : waits_less u_wait (rsum (r_rates r)) (r_dt r) ->
    exists i, picks (r_rates r) u_state i /\ r_next_state r = Z.of_nat (S i);
  network_stays : ~ waits_less u_wait (rsum (r_rates r)) (r_dt r) -> r_next_state r = 0%Z
}.

(** the networks are functions: with nothing dropped the output for an input of
    the right length has the right length, and no key matters *)
Definition functional {P ST} (nets : list nat -> nat -> layers P ST key) (net : list nat -> nat -> key -> nat -> list R -> list R) :=
  forall hidden n init d k x, length x = d ->
    ly_mlp _ _ _ (nets hidden n) (fst (ly_init _ _ _ (nets hidden n) init d)) 0 k [x] = Ok [net hidden n init d x] /\
    length (net hidden n init d x) = n.

(** a numbering of the draws of both datasets: no two have the same key *)
Definition separate (keys : bool -> nat -> nat -> key) : Prop :=
  forall b i j b' i' j', keys b i j = keys b' i' j' -> b = b' /\ i = i' /\ j = j'.
