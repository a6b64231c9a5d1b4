(** Vocabulary for directions around the silicon. *)
From Coq Require Import Reals List.
From Verif Require Import Base.Prelude.
Import ListNotations.
Open Scope R_scope.

(** p lies in direction t, measured counter-clockwise from the positive x axis *)
Definition direction (p : pt) (t : R) : Prop :=
  0 <= t < 2 * PI /\ p = mkpt (pnorm p * cos t) (pnorm p * sin t).

(** the points are listed counter-clockwise from the positive x axis *)
Definition counter_clockwise (l : list pt) : Prop :=
  forall i j p q s t, (i < j)%nat -> nth_error l i = Some p -> nth_error l j = Some q ->
    p <> pzero -> q <> pzero -> direction p s -> direction q t -> s <= t.

(** listing l in the given order *)
Definition reordered {A} (l : list A) (order : list nat) (l' : list A) : Prop :=
  Forall2 (fun i x => nth_error l i = Some x) order l'.
