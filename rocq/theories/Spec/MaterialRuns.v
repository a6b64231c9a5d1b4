(** Vocabulary for statements about rate functions and exposures: the shape of
    a Gaussian mixture component, what a rate function may return, and
    sequences of exposures. *)
From Coq Require Import Reals ZArith List.
From Verif Require Import Base.Prelude Base.Rounding Base.Random Model.MicroscopeUtils Model.Graphene
  Spec.Grids Spec.Material.
Import ListNotations.
Open Scope R_scope.

(** coordinates of a displacement along and across a direction *)
Definition along (dir v : pt) : R := (px dir * px v + py dir * py v) / pnorm dir.
Definition across (dir v : pt) : R := (px dir * py v - py dir * px v) / pnorm dir.

(** the height of a weighted component at its centre, and its shape *)
Definition peak (c : mixture) : R :=
  mix_weight c / (2 * PI * sqrt (fst (mix_var c) * snd (mix_var c))).
Definition centre (si delta : pt) (c : mixture) : pt := padd si (pscale (mix_loc c) delta).
Definition bell (si delta beam : pt) (c : mixture) : R :=
  exp (- (1 / 2) * ((along delta (psub beam (centre si delta c))) ^ 2 / fst (mix_var c) +
                    (across delta (psub beam (centre si delta c))) ^ 2 / snd (mix_var c))).

(** non-negative weight, positive variances *)
Definition valid_component (c : mixture) : Prop :=
  0 <= mix_weight c /\ 0 < fst (mix_var c) /\ 0 < snd (mix_var c).

(** what the predictor returns, in terms of the neighbours and the predictions *)
Definition rates_for (g : grid) (idx : list nat) (preds : list R) (rs : rates) : Prop :=
  length rs = length idx /\
  forall k g' r, nth_error rs k = Some (g', r) ->
    exists i pred, nth_error idx k = Some i /\ nth_error preds k = Some pred /\
      r = f32 pred /\ positions g' = positions g /\ single_doped g' i.

(** rate functions whose successors are hops *)
Definition hopping (rf : rate_function) : Prop :=
  forall g s beam rs, single_doped g s -> NoDup (positions g) -> rf g beam = Ok rs ->
    rs <> [] /\ forall g' r, In (g', r) rs -> hop g g'.

(** what the mixture returns; top is a component of largest height *)
Definition gmm_rates_for (m : gmm) (g : grid) (beam si : pt) (idx : list nat) (top : mixture) (rs : rates) : Prop :=
  length rs = length idx /\
  forall k g' r, nth_error rs k = Some (g', r) ->
    exists i nb, nth_error idx k = Some i /\ nth_error (positions g) i = Some nb /\ nb <> si /\
      positions g' = positions g /\ single_doped g' i /\
      r = gmm_max_rate m * rsum (map (fun c => peak c / peak top * bell si (psub nb si) beam c) (gmm_components m)).

(** rate functions that cannot make the loop raise, on a set of materials *)
Definition well_behaved (rf : rate_function) (pos : pt) (I : grid -> Prop) : Prop :=
  forall g, I g -> exists rs, rf g pos = Ok rs /\ rs <> [] /\
    forall g' r, In (g', r) rs -> I g' /\ 0 <= r /\ f32 r = r.

(** a single-doped sheet with the given positions *)
Definition doped_sheet (ps : list pt) (g : grid) : Prop :=
  positions g = ps /\ exists s, single_doped g s.

(** sequences of exposures, with any generator state, fuel and control each time *)
Inductive exposed {G} (s : sampler G) : material -> material -> Prop :=
| exposed_none m : exposed s m m
| exposed_more m m1 m2 fuel c g r g' ts : exposed s m m1 ->
    apply_control s fuel m1 c g = (r, m2, g', ts) -> exposed s m m2.


(** equal up to 1e-3 *)
Definition near (x y : R) : Prop := Rabs (x - y) <= 1 / 1000.
Definition near_component (a b : mixture) : Prop :=
  near (mix_weight a) (mix_weight b) /\ near (mix_loc a) (mix_loc b) /\
  near (fst (mix_var a)) (fst (mix_var b)) /\ near (snd (mix_var a)) (snd (mix_var b)).
