(** putting_dune/eval_lib.py *)
From Coq Require Import Reals ZArith List Bool Arith.
From Verif Require Import Base.Prelude Base.Rounding Base.Random Model.MicroscopeUtils Model.Graphene Model.Simulator
  Model.SimulatorObservers Model.ActionAdapters Model.Goals Model.FeatureConstructors Model.Environment.
Import ListNotations.
Open Scope R_scope.

(** A float that may be NaN: [None].  Additions and divisions propagate it.
    Used at eval_lib.py:47-58. *)
Definition nan_float := option R.
(** used at eval_lib.py:146-164 *)
Definition nan : nan_float := None.
(** used at eval_lib.py:47-58 *)
Definition nan_add (x y : nan_float) : nan_float :=
  match x, y with Some x, Some y => Some (x + y) | _, _ => None end.
(** used at eval_lib.py:187-214 *)
Definition nan_div (x : nan_float) (y : R) : nan_float := option_map (fun x => x / y) x.

(** eval_lib.py:34-44 EvalSuite (its seeds) and EVAL_SUITES *)
Definition eval_suite := list Z.
Definition range (n : nat) : list Z := map Z.of_nat (seq 0 n).
Definition tiny_eval : eval_suite := range 10.
Definition small_eval : eval_suite := range 100.
Definition medium_eval : eval_suite := range 1000.
Definition big_eval : eval_suite := range (100 * 100).

(** eval_lib.py:47-58 EvalResult *)
Record eval_result := mkeval_result {
  er_seed : Z;
  er_reached_goal : bool;
  er_num_actions_taken : nat;
  er_agent_seconds_to_goal : nan_float;
  er_environment_seconds_to_goal : nan_float;
  er_total_reward : R
}.
Definition er_seconds_to_goal (r : eval_result) : nan_float :=
  nan_add (er_agent_seconds_to_goal r) (er_environment_seconds_to_goal r).

(** eval_lib.py:61-74 AggregateEvalResults *)
Record aggregate := mkaggregate {
  ag_times_reached_goal : R;
  ag_num_actions_taken : R;
  ag_agent_seconds_to_goal : nan_float;
  ag_environment_seconds_to_goal : nan_float;
  ag_total_reward : R
}.
Definition ag_seconds_to_goal (a : aggregate) : nan_float :=
  nan_add (ag_agent_seconds_to_goal a) (ag_environment_seconds_to_goal a).

(** What evaluate uses of the agent and of the rest of the world: its mode, its
    step and the clock time.perf_counter.  [A] is the state of all of them.
    Used at eval_lib.py:77-184. *)
Record agent (A F : Type) := mkagent {
  agent_set_eval_mode : A -> A;
  agent_step : time_step F -> A -> res (list R) * A;
  perf_counter : A -> R * A
}.
Arguments mkagent {A F}.
Arguments agent_set_eval_mode {A F}.
Arguments agent_step {A F}.
Arguments perf_counter {A F}.

(** What evaluate uses of the environment: reset and step, seed, the elapsed
    time of last_microscope_observation, the observers of its simulator and
    the video made of the registered EventObserver's events. Used at eval_lib.py:77-184. *)
Record eval_env (E F V : Type) := mkeval_env {
  ee_env : environment E F;
  ee_seed : Z -> E -> E;
  ee_elapsed : E -> timedelta;
  ee_add_observer : observer -> E -> E;
  ee_remove_observer : observer -> E -> res unit * E;
  ee_video : E -> res V
}.
Arguments mkeval_env {E F V}.
Arguments ee_env {E F V}.
Arguments ee_seed {E F V}.
Arguments ee_elapsed {E F V}.
Arguments ee_add_observer {E F V}.
Arguments ee_remove_observer {E F V}.
Arguments ee_video {E F V}.

Section Evaluate.
Context {A E F V : Type}.
Variable ag : agent A F.
Variable en : eval_env E F V.
(** bound on the number of steps of one episode: the loop ends only if time
    passes or the episode ends *)
Variable fuel : nat.

(** eval_lib.py:112-119: the counters of one seed *)
Record metrics := mkmetrics {
  me_num_actions : nat;
  me_total_reward : R;
  me_agent_elapsed : timedelta;
  me_environment_elapsed : timedelta
}.

(** dm_env.TimeStep.last(). Used at eval_lib.py:128-144. *)
Definition is_last (ts : time_step F) : bool := match ts_type ts with LAST => true | _ => false end.

(** eval_lib.py:128-144: the loop *)
Fixpoint eval_loop (fuel : nat) (timeout : timedelta) (ts : time_step F) (m : metrics) (a : A) (e : E)
  : res (time_step F * metrics) * A * E :=
  if negb (me_agent_elapsed m + me_environment_elapsed m <? timeout)%Z then (Ok (ts, m), a, e)
  else
    match fuel with
    | O => (OutOfFuel, a, e)
    | S fuel =>
        let '(agent_start_time, a) := perf_counter ag a in
        let '(ra, a) := agent_step ag ts a in
        match ra with
        | Raise x => (Raise x, a, e)
        | OutOfFuel => (OutOfFuel, a, e)
        | Ok action =>
            let '(now, a) := perf_counter ag a in
            let '(re, e) := e_step (ee_env en) action e in
            match re with
            | Raise x => (Raise x, a, e)
            | OutOfFuel => (OutOfFuel, a, e)
            | Ok ts =>
                let m := mkmetrics (S (me_num_actions m)) (me_total_reward m + ts_reward ts)
                           (me_agent_elapsed m + td_seconds (now - agent_start_time))%Z
                           (me_environment_elapsed m + ee_elapsed en e)%Z in
                if is_last ts then (Ok (ts, m), a, e) else eval_loop fuel timeout ts m a e
            end
        end
    end.

(** eval_lib.py:146-164: the result of one seed *)
Definition result_of (seed : Z) (ts : time_step F) (m : metrics) : eval_result :=
  let reached_goal := is_last ts && Reqb (ts_discount ts) 0 in
  mkeval_result seed reached_goal (me_num_actions m)
    (if reached_goal then Some (total_seconds (me_agent_elapsed m)) else nan)
    (if reached_goal then Some (total_seconds (me_environment_elapsed m)) else nan)
    (me_total_reward m).

(** eval_lib.py:112-164: one seed, without the video *)
Definition eval_seed (timeout : timedelta) (seed : Z) (a : A) (e : E) : res eval_result * A * E :=
  let e := ee_seed en seed e in
  let '(r, e) := e_reset (ee_env en) e in
  match r with
  | Raise x => (Raise x, a, e)
  | OutOfFuel => (OutOfFuel, a, e)
  | Ok ts =>
      let m := mkmetrics 0 0 0%Z (ee_elapsed en e) in
      let '(r, a, e) := eval_loop fuel timeout ts m a e in
      match r with
      | Raise x => (Raise x, a, e)
      | OutOfFuel => (OutOfFuel, a, e)
      | Ok (ts, m) => (Ok (result_of seed ts m), a, e)
      end
  end.

(** eval_lib.py:110-179: all seeds.  The written videos, oldest first, with the
    seed that names the file.  Simplification: creating the directory and
    writing the files do not fail. *)
Fixpoint eval_seeds (timeout : timedelta) (video : bool) (seeds : list Z) (a : A) (e : E)
  : res (list eval_result) * list (Z * V) * A * E :=
  match seeds with
  | [] => (Ok [], [], a, e)
  | seed :: seeds =>
      let '(r, a, e) := eval_seed timeout seed a e in
      match r with
      | Raise x => (Raise x, [], a, e)
      | OutOfFuel => (OutOfFuel, [], a, e)
      | Ok result =>
          match (if video then fmap_res (fun v => [(seed, v)]) (ee_video en e) else Ok []) with
          | Raise x => (Raise x, [], a, e)
          | OutOfFuel => (OutOfFuel, [], a, e)
          | Ok vs =>
              let '(r, ws, a, e) := eval_seeds timeout video seeds a e in
              (fmap_res (cons result) r, vs ++ ws, a, e)
          end
      end
  end.

(** eval_lib.py:77-184 evaluate; [new_observer] is the identity of the
    EventObserver created when videos are wanted *)
Definition evaluate (timeout : timedelta) (video : bool) (new_observer : observer) (suite : eval_suite)
  (a : A) (e : E) : res (list eval_result) * list (Z * V) * A * E :=
  let a := agent_set_eval_mode ag a in
  let e := if video then ee_add_observer en new_observer e else e in
  let '(r, vs, a, e) := eval_seeds timeout video suite a e in
  match r with
  | Raise x => (Raise x, vs, a, e)
  | OutOfFuel => (OutOfFuel, vs, a, e)
  | Ok results =>
      if video then
        let '(r, e) := ee_remove_observer en new_observer e in
        (fmap_res (fun _ => results) r, vs, a, e)
      else (Ok results, vs, a, e)
  end.

End Evaluate.

(** eval_lib.py:82: the default timeout *)
Definition default_timeout : timedelta := td_seconds (10 * 60).

(** eval_lib.py:187-214 aggregate_results *)
Record totals := mktotals {
  tt_reached : nat;
  tt_actions : nat;
  tt_agent_seconds : nan_float;
  tt_environment_seconds : nan_float;
  tt_reward : R
}.
Definition add_result (t : totals) (r : eval_result) : totals :=
  let n := (tt_reached t + if er_reached_goal r then 1 else 0)%nat in
  if er_reached_goal r then
    mktotals n (tt_actions t + er_num_actions_taken r) (nan_add (tt_agent_seconds t) (er_agent_seconds_to_goal r))
      (nan_add (tt_environment_seconds t) (er_environment_seconds_to_goal r)) (tt_reward t + er_total_reward r)
  else mktotals n (tt_actions t) (tt_agent_seconds t) (tt_environment_seconds t) (tt_reward t).
Definition aggregate_results (results : list eval_result) : res aggregate :=
  let t := fold_left add_result results (mktotals 0 0 (Some 0) (Some 0) 0) in
  let denominator := INR (Nat.max (tt_reached t) 1) in
  if (length results =? 0)%nat then Raise ZeroDivisionError
  else Ok (mkaggregate (INR (tt_reached t) / INR (length results)) (INR (tt_actions t) / denominator)
             (nan_div (tt_agent_seconds t) denominator) (nan_div (tt_environment_seconds t) denominator)
             (tt_reward t / denominator)).

(** * The environments of this repository as seen by evaluate *)

(** A PuttingDuneEnvironment together with the events of the EventObserver
    registered under [watcher], if it is registered; [movie] is
    plotting_utils.generate_video_from_simulator_events and the conversion of
    the animation to a file.  With the shipped goal, as line 174 reads its
    position. *)
Section Watched.
Context {G St F V : Type}.
Variable s : sampler G.
Variable render : @renderer G.
Variable adapter : action_adapter G St.
Variable features : feature_constructor goal_state F.
Variable goal_m : goal_methods G goal_state.
Variable fuel : nat.
Variable movie : list sim_event -> pt -> res V.
Variable watcher : observer.

(** used at eval_lib.py:77-184 *)
Record watched := mkwatched {
  w_env : @env G St goal_state;
  w_events : list sim_event
}.

(** the callbacks the watcher received, one by one. Used at eval_lib.py:77-184. *)
Definition received (t : trace) : list callback :=
  map snd (filter (fun x => Nat.eqb (fst x) watcher) t).
(** used at eval_lib.py:77-184 *)
Definition watch (o : @env_outcome G St goal_state F) (w : watched) : res (time_step F) * watched :=
  (eo_result o, mkwatched (eo_env o) (event_log (w_events w) (received (eo_trace o)))).
(** used at eval_lib.py:77-184 *)
Definition with_sim (e : @env G St goal_state) (sim : simulator) : @env G St goal_state :=
  mkenv (env_rng e) (env_adapter_rng e) sim (env_adapter e) (env_goal e) (env_last_observation e) (env_requires_reset e).

(** used at eval_lib.py:77-184 *)
Definition dune_eval_env : eval_env watched F V :=
  mkeval_env
    (mkenvironment (fun w => watch (env_reset s render adapter features goal_m (w_env w)) w)
       (fun a w => watch (env_step s render adapter features goal_m fuel a (w_env w)) w))
    (fun z w => mkwatched (env_seed s adapter z (w_env w)) (w_events w))
    (fun w => o_elapsed (env_last_observation (w_env w)))
    (fun o w => mkwatched (with_sim (w_env w) (out_sim (add_observer o (env_sim (w_env w)) (env_rng (w_env w))))) (w_events w))
    (fun o w => let out := remove_observer o (env_sim (w_env w)) (env_rng (w_env w)) in
       (out_result out, mkwatched (with_sim (w_env w) (out_sim out)) (w_events w)))
    (fun w => movie (w_events w) (goal_position (env_goal (w_env w)))).
End Watched.
Arguments mkwatched {G St}.
Arguments w_env {G St}.
Arguments w_events {G St}.

(** run_helpers.py:77-82, 120-153: any environment behind a StepLimitWrapper;
    attributes other than reset and step are those of the wrapped environment *)
Definition limited_eval_env {E F V} (inner : eval_env E F V) : eval_env (limited (E := E)) F V :=
  let lift f (w : limited) := mklimited (sl_limit w) (sl_elapsed w) (f (sl_env w)) in
  mkeval_env (limited_environment (ee_env inner))
    (fun z => lift (ee_seed inner z))
    (fun w => ee_elapsed inner (sl_env w))
    (fun o => lift (ee_add_observer inner o))
    (fun o w => let '(r, e) := ee_remove_observer inner o (sl_env w) in (r, mklimited (sl_limit w) (sl_elapsed w) e))
    (fun w => ee_video inner (sl_env w)).
