(** The specs an environment advertises: putting_dune_environment.py:160-164,
    feature_constructors.py:145-149, 219-223, 269-276, run_helpers.py:99-106 *)
From Coq Require Import String Reals ZArith List Bool Arith.
From Verif Require Import Base.Prelude Model.ActionAdapters Model.FeatureConstructors Model.Registry.
Import ListNotations.
Local Open Scope list_scope.
Local Open Scope string_scope.

(** dm_env specs.Array of float32 with the given shape, or a dictionary of these.
    Used at feature_constructors.py:269-276. *)
Inductive observation_spec :=
| ArraySpec (shape : list nat)
| DictSpec (entries : list (string * list nat)).

(** feature_constructors.py:269-276 ImageFeatureConstructor.observation_spec *)
Definition image_spec : observation_spec :=
  DictSpec [("image", [128; 128; 1]%nat); ("goal_delta_angstroms", [2%nat])].

(** feature_constructors.py:145-149, 219-223, 269-276: observation_spec of the
    feature constructor of a configuration, registry.py:180-235 *)
Definition observation_spec_of (c : adapters_config) : observation_spec :=
  match c with
  | Relative _ _ _ | MaterialFrame _ _ _ => ArraySpec [vector_spec_length]
  | FromPixels _ _ | DirectFromPixels => image_spec
  end.

(** An environment as far as its specs go: PuttingDuneEnvironment with the
    adapter and the feature constructor of a configuration, an
    EnvironmentWrapper around one, run_helpers.py:64-112, a StepLimitWrapper,
    run_helpers.py:115-163, which inherits from it *)
Inductive wrapped_config :=
| Bare (c : adapters_config)
| Wrap (w : wrapped_config)
| LimitSteps (limit : option nat) (w : wrapped_config).

(** putting_dune_environment.py:160-161, run_helpers.py:99-100 *)
Fixpoint env_action_spec (w : wrapped_config) : bounded_array :=
  match w with
  | Bare c => adapter_spec_of c
  | Wrap w | LimitSteps _ w => env_action_spec w
  end.

(** putting_dune_environment.py:163-164, run_helpers.py:105-106 *)
Fixpoint env_observation_spec (w : wrapped_config) : observation_spec :=
  match w with
  | Bare c => observation_spec_of c
  | Wrap w | LimitSteps _ w => env_observation_spec w
  end.
