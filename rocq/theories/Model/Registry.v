(** putting_dune/experiments/registry.py, experiments/experiments.py,
    agents/tf_eval_agent.py and the constructor of microscope_agent.py.

    The objects with which the registry describes agents, adapters and
    simulators are callables; here they are data, and [agent_step_of],
    [adapter_of], [features_of] and [rates_of] are what they return. *)
From Coq Require Import Reals ZArith List Bool Arith String.
From Verif Require Import Base.Prelude Base.Rounding Base.Random Model.Constants Model.Geometry Model.MicroscopeUtils
  Model.Graphene Model.ActionAdapters Model.Goals Model.FeatureConstructors Model.Agents Model.Environment
  Model.MicroscopeAgent.
Import ListNotations.
Local Open Scope string_scope.
Local Open Scope list_scope.
Open Scope R_scope.
Local Open Scope res_scope.

(** registry.py:41-113: the agents *)
Inductive agent_config :=
| RandomAgent
| GreedyOf (argmax : pt)
| TfAgent (model_name download_url : string).

(** registry.py:172-232: adapters and goal *)
Inductive adapters_config :=
| Relative (lo hi : timedelta) (max_distance : R)
| MaterialFrame (lo hi : timedelta) (max_distance : R)
| FromPixels (lo hi : timedelta)
| DirectFromPixels.
(** registry.py:174-177, 193-196, 212-215: the default range of dwell times *)
Definition default_lo : timedelta := td_seconds (3 / 2).
Definition default_hi : timedelta := td_seconds (3 / 2).

(** registry.py:238-258: rate functions *)
Inductive rates_config := SimpleRates | HumanPriorRates.

(** experiments.py:49-65 *)
Record microscope_experiment := mkmicroscope_experiment {
  me_agent : agent_config;
  me_adapters : adapters_config
}.
Record train_experiment := mktrain_experiment {
  te_adapters : adapters_config;
  te_rates : rates_config
}.
Record eval_experiment := mkeval_experiment {
  ee_agent : agent_config;
  ee_adapters : adapters_config;
  ee_rates : rates_config
}.

(** registry.py:115-164: the trained agents *)
Definition public_url (file : string) : string :=
  String.append "https://storage.googleapis.com/spr_data_bucket_public/" file.
Definition ppo_simple_images : agent_config :=
  TfAgent "ppo_simple_images_tf" (public_url "ppo_simple_images_tf.zip").
Definition ppo_learned_2s : agent_config :=
  TfAgent "230127_from_state_2s" (public_url "230127_from_state_2s.zip").
Definition ppo_learned_3s : agent_config :=
  TfAgent "230127_from_state_3s" (public_url "230127_from_state_3s.zip").
Definition ppo_learned_4s : agent_config :=
  TfAgent "230127_from_state_4s" (public_url "230127_from_state_4s.zip").
Definition ppo_v3_2s : agent_config :=
  TfAgent "230422_ppo_v3_2s" (public_url "230422_ppo_v3_2s.zip").
Definition ppo_v3_3s : agent_config :=
  TfAgent "230422_ppo_v3_3s" (public_url "230422_ppo_v3_3s.zip").
Definition ppo_v3_4s : agent_config :=
  TfAgent "230422_ppo_v3_4s" (public_url "230422_ppo_v3_4s.zip").

(** registry.py:178, 197: the default distances *)
Definition plain_relative : adapters_config := Relative default_lo default_hi CARBON_BOND_DISTANCE_ANGSTROMS.
Definition greedy_frame : adapters_config :=
  MaterialFrame (td_seconds 5) (td_seconds 5) (2 * CARBON_BOND_DISTANCE_ANGSTROMS).

(** registry.py:262-416 _MICROSCOPE_EXPERIMENTS *)
Definition microscope_experiments : list (string * microscope_experiment) := [
  ("relative_random", mkmicroscope_experiment RandomAgent plain_relative);
  ("relative_random_long", mkmicroscope_experiment RandomAgent
     (Relative (td_seconds 1) (td_seconds 5) (2 * CARBON_BOND_DISTANCE_ANGSTROMS)));
  ("relative_random_extra_long", mkmicroscope_experiment RandomAgent
     (Relative (td_seconds 1) (td_seconds 5) (3 * CARBON_BOND_DISTANCE_ANGSTROMS)));
  ("greedy_on_neighbor", mkmicroscope_experiment (GreedyOf (mkpt (142 / 100) 0)) greedy_frame);
  ("greedy_short_of_neighbor", mkmicroscope_experiment (GreedyOf (mkpt (58 / 100) 0)) greedy_frame);
  ("greedy_on_neighbor_offset_horizontally",
     mkmicroscope_experiment (GreedyOf (mkpt (142 / 100) (42 / 100))) greedy_frame);
  ("greedy_from_learned_rates_v3", mkmicroscope_experiment (GreedyOf (mkpt (18686869 / 10000000) 0)) greedy_frame);
  ("greedy_from_learned_rates_v5",
     mkmicroscope_experiment (GreedyOf (mkpt (21717172 / 10000000) (- (15151516 / 100000000)))) greedy_frame);
  ("ppo_simple_images_tf", mkmicroscope_experiment ppo_simple_images (FromPixels default_lo default_hi));
  ("ppo_learned_tf_2s", mkmicroscope_experiment ppo_learned_2s
     (Relative (td_seconds 1) (td_seconds 10) CARBON_BOND_DISTANCE_ANGSTROMS));
  ("ppo_learned_tf_3s", mkmicroscope_experiment ppo_learned_3s
     (Relative (td_seconds 1) (td_seconds 10) CARBON_BOND_DISTANCE_ANGSTROMS));
  ("ppo_learned_tf_4s", mkmicroscope_experiment ppo_learned_4s
     (Relative (td_seconds 1) (td_seconds 10) CARBON_BOND_DISTANCE_ANGSTROMS));
  ("ppo_v3_2s", mkmicroscope_experiment ppo_v3_2s
     (Relative (td_seconds (3 / 2)) (td_seconds 20) (CARBON_BOND_DISTANCE_ANGSTROMS * 3)));
  ("ppo_v3_3s", mkmicroscope_experiment ppo_v3_3s
     (Relative (td_seconds (3 / 2)) (td_seconds 20) (CARBON_BOND_DISTANCE_ANGSTROMS * 3)));
  ("ppo_v3_4s", mkmicroscope_experiment ppo_v3_4s
     (Relative (td_seconds (3 / 2)) (td_seconds 20) (CARBON_BOND_DISTANCE_ANGSTROMS * 3)))].

(** registry.py:418-448 _TRAIN_EXPERIMENTS *)
Definition train_experiments : list (string * train_experiment) := [
  ("relative_simple_rates", mktrain_experiment plain_relative SimpleRates);
  ("relative_prior_rates", mktrain_experiment plain_relative HumanPriorRates);
  ("relative_simple_rates_from_images", mktrain_experiment (FromPixels default_lo default_hi) SimpleRates);
  ("relative_simple_rates_from_images_variable_time",
     mktrain_experiment (FromPixels (td_seconds 1) (td_seconds 10)) SimpleRates);
  ("direct_simple_rates_from_images", mktrain_experiment DirectFromPixels SimpleRates)].

(** registry.py:450-468: _EVAL_EXPERIMENTS when the module is loaded *)
Definition eval_experiments : list (string * eval_experiment) := [
  ("relative_random_simple", mkeval_experiment RandomAgent plain_relative SimpleRates);
  ("relative_random_prior_rates", mkeval_experiment RandomAgent plain_relative HumanPriorRates);
  ("ppo_simple_images_tf", mkeval_experiment ppo_simple_images (FromPixels default_lo default_hi) SimpleRates)].

(** dictionaries with string keys. Used at registry.py:471-478. *)
Fixpoint dict_get {E} (name : string) (d : list (string * E)) : option E :=
  match d with
  | [] => None
  | (k, e) :: d => if String.eqb name k then Some e else dict_get name d
  end.

(** registry.py:471-478 register_eval_experiment: the new _EVAL_EXPERIMENTS *)
Definition register_eval_experiment (name : string) (e : eval_experiment)
    (table : list (string * eval_experiment)) : list (string * eval_experiment) :=
  match dict_get name table with
  | Some _ => table
  | None => (name, e) :: table
  end.

(** registry.py:481-496 *)
Definition create_microscope_experiment (name : string) : res microscope_experiment :=
  match dict_get name microscope_experiments with Some e => Ok e | None => Raise ValueError end.
Definition create_train_experiment (name : string) : res train_experiment :=
  match dict_get name train_experiments with Some e => Ok e | None => Raise ValueError end.
Definition create_eval_experiment (table : list (string * eval_experiment)) (name : string) : res eval_experiment :=
  match dict_get name table with Some e => Ok e | None => Raise ValueError end.

(** What the callables return *)

(** registry.py:180-188, 199-207, 217-232: the action adapter and its spec *)
Definition adapter_of {G} (c : adapters_config) : action_adapter G unit :=
  match c with
  | Relative lo hi dist => relative_adapter (new_relative lo hi dist)
  | MaterialFrame lo hi dist => material_frame_adapter (new_relative lo hi dist)
  | FromPixels lo hi => relative_adapter (new_relative lo hi CARBON_BOND_DISTANCE_ANGSTROMS)
  | DirectFromPixels => direct_adapter
  end.
(** action_adapters.py:219-225: the material frame adapter inherits the spec *)
Definition adapter_spec_of (c : adapters_config) : bounded_array :=
  match c with
  | Relative lo hi dist | MaterialFrame lo hi dist => relative_action_spec (new_relative lo hi dist)
  | FromPixels lo hi => relative_action_spec (new_relative lo hi CARBON_BOND_DISTANCE_ANGSTROMS)
  | DirectFromPixels => direct_action_spec
  end.

(** what the feature constructors return: an array, or a dictionary of a
    picture and the way to the goal. Used at registry.py:41-49. *)
Inductive features :=
| Vector (x : list R)
| Picture (i : image) (goal_delta : list R).
(** used at microscope_agent.py:40-50 *)
Definition map_features {Goal F F'} (f : F -> F') (c : feature_constructor Goal F) : feature_constructor Goal F' :=
  mkfeature_constructor (fun o g => x <- fc_get_features c o g ;; Ok (f x)) (fc_requires_image c).
(** used at microscope_agent.py:40-50 *)
Definition features_of (knn : knn_fn) (resize : image -> image) (c : adapters_config)
  : feature_constructor goal_state features :=
  match c with
  | Relative _ _ _ => map_features Vector (pristine_features knn)
  | MaterialFrame _ _ _ => map_features Vector (material_frame_features knn)
  | FromPixels _ _ | DirectFromPixels => map_features (fun x => Picture (fst x) (snd x)) (image_features resize)
  end.

(** registry.py:238-258: PristineSingleDopedGraphene with its default number of
    columns (graphene.py:575), and the duration of an image *)
Definition rates_of (knn : knn_fn) (c : rates_config) : rate_function :=
  match c with
  | SimpleRates => pristine_rate_predictor knn simple_canonical_rate_function
  | HumanPriorRates => pristine_rate_predictor knn human_prior_default
  end.
Definition default_columns : nat := 50.
Definition material_of (knn : knn_fn) (c : rates_config) : material := new_material (rates_of knn c) default_columns.
Definition config_image_duration : timedelta := td_seconds 2.

(** agent_lib.py:54-78 UniformRandomAgent with arrays as bounds: numpy draws the
    entries in their order *)
Fixpoint uniform_in_spec {G} (s : sampler G) (spec : bounded_array) (g : G) : list R * G :=
  match spec with
  | [] => ([], g)
  | (low, high) :: spec =>
      let '(x, g) := s_uniform s low high g in
      let '(xs, g) := uniform_in_spec s spec g in
      (x :: xs, g)
  end.

(** The step of the agent an experiment makes; its state is the generator.
    registry.py:41-49 random, registry.py:52-68 greedy without offset and noise,
    tf_eval_agent.py:23-33: [model] is what the loaded models answer (the
    loading is in Downloads.v).  A dictionary has no attribute `shape`. *)
Definition agent_step_of {G} (s : sampler G) (model : string -> features -> res (list R))
    (agent : agent_config) (adapters : adapters_config) (input : agent_input features) (g : G)
  : res (list R) * G :=
  match agent with
  | RandomAgent => let '(a, g) := uniform_in_spec s (adapter_spec_of adapters) g in (Ok a, g)
  | GreedyOf argmax =>
      match ai_observation input with
      | Vector x => greedy_step s (mkgreedy argmax pzero 0) x g
      | Picture _ _ => (Raise AttributeError, g)
      end
  | TfAgent name _ => (model name (ai_observation input), g)
  end.

(** microscope_agent.py:40-50 __init__: MicroscopeAgent(rng, experiment), and its step *)
Definition experiment_agent {G} (rng adapter_rng : G) : @magent G G unit goal_state :=
  new_magent rng tt adapter_rng new_goal.
Definition experiment_step {G} (s : sampler G) (knn : knn_fn) (resize : image -> image)
    (model : string -> features -> res (list R)) (e : microscope_experiment)
    (o : observation) (ma : @magent G G unit goal_state) : res (list control) * @magent G G unit goal_state :=
  ma_step (agent_step_of s model (me_agent e) (me_adapters e)) (adapter_of (me_adapters e))
    (features_of knn resize (me_adapters e)) (single_silicon_goal s) o ma.
