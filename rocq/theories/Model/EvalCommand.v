(** putting_dune/eval.py, with the clock and the agents it evaluates *)
From Coq Require Import String Reals ZArith List Bool Arith.
From Verif Require Import Base.Prelude Base.Rounding Base.Random Model.Constants Model.Geometry Model.MicroscopeUtils Model.Graphene
  Model.Simulator Model.SimulatorObservers Model.ActionAdapters Model.Goals Model.FeatureConstructors Model.Environment
  Model.EvalLib Model.MicroscopeAgent Model.Registry.
Import ListNotations.
Local Open Scope list_scope.
Local Open Scope string_scope.
Open Scope R_scope.
Local Open Scope res_scope.

(** eval_lib.py:39-44 EVAL_SUITES *)
Definition eval_suites : list (string * eval_suite) := [
  ("tiny_eval", tiny_eval); ("small_eval", small_eval); ("medium_eval", medium_eval); ("big_eval", big_eval)].

(** A message of the log.  eval.py:65-87: the name of the experiment, and
    numbers written with '%.2f': in hundredths, [None] is 'nan'.
    Simplification: the messages of eval_lib.py:111 are left out. *)
Inductive log_line :=
| Finished (name : string)
| Logged (label : string) (hundredths : option Z).
Definition two_decimals (x : nan_float) : option Z := option_map (fun x => round_half_even (x * 100)) x.

(** eval.py:65-87: what is logged of the results *)
Definition log_of (name : string) (a : aggregate) : list log_line := [
  Finished name;
  Logged "Proportion successful runs" (two_decimals (Some (ag_times_reached_goal a)));
  Logged "Average number of actions taken" (two_decimals (Some (ag_num_actions_taken a)));
  Logged "Average seconds to goal" (two_decimals (ag_seconds_to_goal a));
  Logged "Average agent seconds to goal" (two_decimals (ag_agent_seconds_to_goal a));
  Logged "Average environment seconds to goal" (two_decimals (ag_environment_seconds_to_goal a));
  Logged "Average total reward" (two_decimals (Some (ag_total_reward a)))].

Section Command.
Context {G C V : Type}.
Variable s : sampler G.
Variable render : @renderer G.
Variable knn : knn_fn.
Variable resize : image -> image.
(** what loaded models answer, and whether they load (Downloads.v) *)
Variable model : string -> features -> res (list R).
Variable load : agent_config -> res unit.
Variable movie : list sim_event -> pt -> res V.
(** time.perf_counter *)
Variable tick : C -> R * C.
(** bounds on the passes of each exposure loop and on the steps of an episode *)
Variable passes steps : nat.
(** the identity of the EventObserver *)
Variable watcher : observer.

(** eval.py:41-46: the agent, whose set_mode does nothing (agent_lib.py:77-78,
    185-186, tf_eval_agent.py:32-33), with its generator and the clock *)
Definition command_agent (e : eval_experiment) : agent (G * C) features :=
  mkagent (fun a => a)
    (fun ts a =>
       let '(r, g) := agent_step_of s model (ee_agent e) (ee_adapters e) (with_reward ts) (fst a) in (r, (g, snd a)))
    (fun a => let '(t, c) := tick (snd a) in (t, (fst a, c))).

(** eval.py:48-55: the environment as evaluate sees it; the adapters and the
    goal are not those that the agent was made with (eval.py:45,
    run_helpers.py:38) *)
Definition command_env (e : eval_experiment) : eval_env (limited (E := @watched G unit)) features V :=
  limited_eval_env (dune_eval_env s render (adapter_of (ee_adapters e)) (features_of knn resize (ee_adapters e))
    (single_silicon_goal s) passes movie watcher).
Definition fresh_env (e : eval_experiment) (rng : G) (adapter_rng : option G) : limited (E := @watched G unit) :=
  let w := create_putting_dune_env s (adapter_of (ee_adapters e)) 0 (material_of knn (ee_rates e))
             config_image_duration tt new_goal rng adapter_rng [] (Some default_step_limit) in
  mklimited (sl_limit w) (sl_elapsed w) (mkwatched (sl_env w) new_event_observer).

(** eval.py:40-87 main: the log and the videos written.  [table] are the
    registered experiments, [rng] and [adapter_rng] the generators that the
    environment is made with, [video]: video_save_dir is given. *)
Definition main (table : list (string * eval_experiment)) (name suite : string) (video : bool)
    (rng : G) (adapter_rng : option G) (clock : C) : res (list log_line) * list (Z * V) :=
  match create_eval_experiment table name with
  | Raise x => (Raise x, [])
  | OutOfFuel => (OutOfFuel, [])
  | Ok e =>
      match load (ee_agent e) with
      | Raise x => (Raise x, [])
      | OutOfFuel => (OutOfFuel, [])
      | Ok tt =>
          match dict_get suite eval_suites with
          | None => (Raise KeyError, [])
          | Some seeds =>
              let '(r, vs, _, _) := evaluate (command_agent e) (command_env e) steps default_timeout video watcher seeds
                                      (s_seed s 0, clock) (fresh_env e rng adapter_rng) in
              (rs <- r ;; a <- aggregate_results rs ;; Ok (log_of name a), vs)
          end
      end
  end.
End Command.
