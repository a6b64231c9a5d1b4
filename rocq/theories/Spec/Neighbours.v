(** What "the three nearest other points" means, independently of the search. *)
From Coq Require Import Reals List.
From Verif Require Import Base.Prelude.
Import ListNotations.
Open Scope R_scope.

(** [three_nearest pts s idx]: idx are three different indices other than s,
    in order of distance from the s-th point, and no remaining point is closer
    to the s-th point than one of them *)
Record three_nearest (pts : list pt) (s : nat) (idx : list nat) : Prop := {
  tn_length : length idx = 3%nat;
  tn_nodup : NoDup idx;
  tn_other : ~ In s idx;
  tn_in : forall i, In i idx -> exists p, nth_error pts i = Some p;
  tn_ordered : forall a b i j p q c, (a < b)%nat -> nth_error pts s = Some c ->
    nth_error idx a = Some i -> nth_error idx b = Some j ->
    nth_error pts i = Some p -> nth_error pts j = Some q ->
    pdist p c <= pdist q c;
  tn_nearest : forall i j p q c, nth_error pts s = Some c -> In i idx -> ~ In j idx -> j <> s ->
    nth_error pts i = Some p -> nth_error pts j = Some q ->
    pdist p c <= pdist q c
}.
