(** Gaussian mixture rate functions that can be drawn, and what their files hold. *)
From Coq Require Import Reals List String.
From Verif Require Import Base.Prelude Model.Graphene Model.Downloads Model.RateFunctionFiles.
Import ListNotations.
Local Open Scope R_scope.

(** draws of a generator of numbers in [0, 1) *)
Definition uniform_draws (draws : nat -> R) : Prop := forall k, 0 <= draws k < 1.

(** the rate functions that can come out of the sampler *)
Record drawable (m : gmm) : Prop := {
  dr_some : gmm_components m <> [];
  dr_rate : 1 / 100 <= gmm_max_rate m < 1;
  dr_weights : forall c, In c (gmm_components m) -> 0 <= mix_weight c;
  dr_total : rsum (map mix_weight (gmm_components m)) = 1;
  dr_locs : forall c, In c (gmm_components m) -> -2 <= mix_loc c < 3;
  dr_variances : forall c, In c (gmm_components m) ->
    1 / 10 <= fst (mix_var c) < 5 /\ 1 / 10 <= snd (mix_var c) < 5
}.

(** [p] is the file of the parameters in the directory [dir] *)
Definition file_of (dir : name_path) : name_path := dir ++ ["gmm_parameters.mpk"%string].

(** the bundle holds the value under the key *)
Definition holds (b : bundle) (key : string) (v : value) : Prop :=
  exists before after, b = before ++ (key, v) :: after /\ ~ In key (map fst before).

(** [c] is a first part of [whole] *)
Definition first_part {A} (c whole : list A) : Prop := exists rest, whole = c ++ rest.
