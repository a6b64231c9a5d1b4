(** What is expected of a learning rate. *)
From Coq Require Import Reals ZArith List Arith.
From Verif Require Import Base.Prelude.
Import ListNotations.
Open Scope R_scope.

(** the rate rises from zero to the peak in the first steps and falls to zero afterwards *)
Record warms_up_and_decays (rate : nat -> R) (peak : R) (top bottom : nat) : Prop := {
  wd_range : forall t, 0 <= rate t <= peak;
  wd_rises : forall t u, (t < u <= top)%nat -> rate t < rate u;
  wd_start : (0 < top)%nat -> rate 0%nat = 0;
  wd_top : rate top = peak;
  wd_falls : forall t u, (top <= t < u)%nat -> (u <= bottom)%nat -> rate u < rate t;
  wd_bottom : forall t, (bottom <= t)%nat -> rate t = 0
}.
