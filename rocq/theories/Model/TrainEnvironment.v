(** putting_dune/test_utils.py:31-41 and putting_dune/run_helpers.py:27-56: the
    environments of the registered training experiments *)
From Coq Require Import String Reals ZArith List Bool Arith.
From Verif Require Import Base.Prelude Base.Rounding Base.Random Model.Geometry Model.MicroscopeUtils Model.Graphene
  Model.Simulator Model.ActionAdapters Model.Goals Model.FeatureConstructors Model.Environment Model.Registry.
Import ListNotations.
Open Scope res_scope.

Section TrainEnvironment.
Context {G : Type}.
Variable s : sampler G.
Variable knn : knn_fn.

(** run_helpers.py:27-56 create_putting_dune_env with the constructors of an
    experiment (test_utils.py:36-41).  [rng] and [adapter_rng] are the
    generators that exist before the environment is seeded. *)
Definition train_environment (e : train_experiment) (seed : Z) (observers : list observer) (step_limit : option Z)
    (rng : G) (adapter_rng : option G) : limited (E := @env G unit goal_state) :=
  create_putting_dune_env s (adapter_of (te_adapters e)) seed (material_of knn (te_rates e)) config_image_duration tt new_goal
    rng adapter_rng observers step_limit.

(** its reset and step: run_helpers.py:120-153 around
    putting_dune_environment.py:87-158 *)
Definition train_methods (render : @renderer G) (resize : image -> image) (fuel : nat) (e : train_experiment)
    : environment (limited (E := @env G unit goal_state)) features :=
  limited_environment (dune_environment s render (adapter_of (te_adapters e)) (features_of knn resize (te_adapters e))
    (single_silicon_goal s) fuel).

(** test_utils.py:31-41 create_simple_environment; the keyword arguments are
    those of create_putting_dune_env *)
Definition create_simple_environment (seed : Z) (observers : list observer) (step_limit : option Z)
    (rng : G) (adapter_rng : option G) : res (limited (E := @env G unit goal_state)) :=
  e <- create_train_experiment "relative_simple_rates" ;;
  Ok (train_environment e seed observers step_limit rng adapter_rng).
End TrainEnvironment.
