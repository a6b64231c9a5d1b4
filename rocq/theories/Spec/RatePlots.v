(** Vocabulary for the plots of rates. *)
From Coq Require Import Reals String ZArith List.
From Verif Require Import Base.Prelude Model.MicroscopeUtils Model.Graphene Model.RatePlots Spec.Grids Spec.Material.
Import ListNotations.
Local Open Scope R_scope.

(** the sheet seen from its silicon atom *)
Definition centred (g : grid) (si : pt) : grid := mkgrid (map (fun p => psub p si) (positions g)) (numbers g).

(** wherever the beam is, the rate function lets the silicon of [g] hop to the
    atoms [idx], in this order, with the rates [rate] *)
Definition hops_to (rf : rate_function) (g : grid) (idx : list nat) (rate : pt -> nat -> R) : Prop :=
  forall beam, exists rs, rf g beam = Ok rs /\
    Forall2 (fun i s => positions (fst s) = positions g /\ single_doped (fst s) i /\ snd s = rate beam i) idx rs.

(** an iteration over a set: every element once, in any order *)
Definition goes_through_set (order : list pt -> list pt) : Prop :=
  forall l, NoDup (order l) /\ forall p, In p (order l) <-> In p l.

(** [n] equally spaced numbers from [low] to [high] *)
Definition tick (low high : R) (n i : nat) : R := low + INR i * ((high - low) / INR (n - 1)).
Definition ticks (low high : R) (n : nat) : list R := map (tick low high n) (seq 0 n).

(** all rows for one neighbour, at [q] from the silicon *)
Definition rows_towards (low high : R) (n : nat) (rate : pt -> R) (q : pt) : list rate_row :=
  flat_map (fun x => map (fun y => mkrow x y (rate (mkpt x y)) q) (ticks low high n)) (ticks low high n).

(** a number is the greatest of a list *)
Definition greatest (l : list R) (x : R) : Prop := In x l /\ forall y, In y l -> y <= x.

(** the point in column [a] and row [b] of a square of k by k points *)
Definition square_point (range : R) (k a b : nat) : pt := mkpt (tick (- range) range k a) (tick (- range) range k b).
(** what a predictor is told about a point *)
Definition told (context : option (list R)) (p : pt) : list R :=
  match context with None => [px p; py p] | Some c => c ++ [px p; py p] end.
(** in a plot of the data: the name of a state *)
Definition named (i : nat) (label : string) : Prop :=
  nth_error ["No movement"; "Moved right"; "Moved up-left"; "Moved down-left"]%string i = Some label.
