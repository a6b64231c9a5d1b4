(** putting_dune/putting_dune_environment.py and the wrappers of
    putting_dune/run_helpers.py *)
From Coq Require Import Reals ZArith List Bool Arith.
From Verif Require Import Base.Prelude Base.Rounding Base.Random Model.Constants Model.MicroscopeUtils
  Model.Graphene Model.Simulator Model.ActionAdapters Model.Goals Model.FeatureConstructors.
Import ListNotations.
Open Scope R_scope.

(** dm_env.StepType and dm_env.TimeStep. Used at putting_dune_environment.py:87-158. *)
Inductive step_type := FIRST | MID | LAST.
(** used at putting_dune_environment.py:87-158 *)
Record time_step (F : Type) := mktime_step {
  ts_type : step_type;
  ts_reward : R;
  ts_discount : R;
  ts_observation : F
}.
Arguments mktime_step {F}.
Arguments ts_type {F}.
Arguments ts_reward {F}.
Arguments ts_discount {F}.
Arguments ts_observation {F}.

(** dm_env.termination, dm_env.truncation, dm_env.transition.
    Used at putting_dune_environment.py:113-158. *)
Definition termination {F} (reward : R) (o : F) : time_step F := mktime_step LAST reward 0 o.
(** used at putting_dune_environment.py:113-158 *)
Definition truncation {F} (reward : R) (o : F) (discount : R) : time_step F := mktime_step LAST reward discount o.
(** used at putting_dune_environment.py:113-158 *)
Definition transition_step {F} (reward : R) (o : F) (discount : R) : time_step F := mktime_step MID reward discount o.

Section Environment.
Context {G St Goal F : Type}.
Variable s : sampler G.
Variable render : @renderer G.
Variable adapter : action_adapter G St.
Variable features : feature_constructor Goal F.
Variable goal_m : goal_methods G Goal.
(** bound on the passes of each exposure loop *)
Variable fuel : nat.

(** putting_dune_environment.py:39-77.  [env_adapter_rng = Some g]: the action
    adapter holds a generator of its own, in state [g]; [None]: it holds the
    environment's generator, or none at all. *)
Record env := mkenv {
  env_rng : G;
  env_adapter_rng : option G;
  env_sim : simulator;
  env_adapter : St;
  env_goal : Goal;
  env_last_observation : observation;
  env_requires_reset : bool
}.

(** putting_dune_environment.py:60-69: the placeholder observation *)
Definition placeholder_observation : observation :=
  mkobs (mkgrid [pzero] [14%Z]) (mkfov (mkpt 0 0) (mkpt 1 1)) [] 0%Z None None.

Definition new_env (m : material) (image_duration : timedelta) (st : St) (goal : Goal)
  (rng : G) (adapter_rng : option G) : env :=
  mkenv rng adapter_rng (new_simulator m image_duration []) st goal placeholder_observation true.

(** putting_dune_environment.py:79-85 seed *)
Definition env_seed (seed : Z) (e : env) : env :=
  mkenv (s_seed s seed) (if aa_has_rng adapter then None else env_adapter_rng e) (env_sim e)
    (env_adapter e) (env_goal e) (env_last_observation e) (env_requires_reset e).

(** Result, new state and callbacks of a call on the environment.
    Used at putting_dune_environment.py:87-111. *)
Record env_outcome := mkenv_outcome {
  eo_result : res (time_step F);
  eo_env : env;
  eo_trace : trace
}.

(** self._action_adapter.reset(): draws from the generator the adapter holds.
    Used at putting_dune_environment.py:87-111. *)
Definition reset_adapter (e : env) : env :=
  match env_adapter_rng e with
  | Some ga =>
      let '(st, ga) := aa_reset adapter (env_adapter e) ga in
      mkenv (env_rng e) (Some ga) (env_sim e) st (env_goal e) (env_last_observation e) (env_requires_reset e)
  | None =>
      let '(st, g) := aa_reset adapter (env_adapter e) (env_rng e) in
      mkenv g None (env_sim e) st (env_goal e) (env_last_observation e) (env_requires_reset e)
  end.

(** putting_dune_environment.py:87-111 reset *)
Definition env_reset (e : env) : env_outcome :=
  let o := sim_do_reset s render (fc_requires_image features) (env_sim e) (env_rng e) in
  let e1 := mkenv (out_rng o) (env_adapter_rng e) (out_sim o) (env_adapter e) (env_goal e)
              (env_last_observation e) false in
  match out_result o with
  | Raise x => mkenv_outcome (Raise x) e1 (out_trace o)
  | OutOfFuel => mkenv_outcome OutOfFuel e1 (out_trace o)
  | Ok obs =>
      let e2 := reset_adapter (mkenv (env_rng e1) (env_adapter_rng e1) (env_sim e1) (env_adapter e1)
                                (env_goal e1) obs false) in
      let '(r, goal, g) := gm_reset goal_m (env_goal e2) obs (env_rng e2) in
      let e3 := mkenv g (env_adapter_rng e2) (env_sim e2) (env_adapter e2) goal obs false in
      match r with
      | Raise x => mkenv_outcome (Raise x) e3 (out_trace o)
      | OutOfFuel => mkenv_outcome OutOfFuel e3 (out_trace o)
      | Ok tt =>
          match fc_get_features features obs goal with
          | Raise x => mkenv_outcome (Raise x) e3 (out_trace o)
          | OutOfFuel => mkenv_outcome OutOfFuel e3 (out_trace o)
          | Ok x => mkenv_outcome (Ok (mktime_step FIRST 0 (discount_of (o_elapsed obs)) x)) e3 (out_trace o)
          end
      end
  end.

(** putting_dune_environment.py:113-158 step *)
Definition env_step (action : list R) (e : env) : env_outcome :=
  if env_requires_reset e then env_reset e
  else
    let '(rc, st) := aa_get_action adapter (env_adapter e) (env_last_observation e) action in
    let e1 := mkenv (env_rng e) (env_adapter_rng e) (env_sim e) st (env_goal e) (env_last_observation e) false in
    match rc with
    | Raise x => mkenv_outcome (Raise x) e1 []
    | OutOfFuel => mkenv_outcome OutOfFuel e1 []
    | Ok controls =>
        let o := step_and_image s render fuel controls (fc_requires_image features) (env_sim e) (env_rng e) in
        let e2 := mkenv (out_rng o) (env_adapter_rng e) (out_sim o) st (env_goal e) (env_last_observation e) false in
        match out_result o with
        | Raise x => mkenv_outcome (Raise x) e2 (out_trace o)
        | OutOfFuel => mkenv_outcome OutOfFuel e2 (out_trace o)
        | Ok obs =>
            let e3 := mkenv (out_rng o) (env_adapter_rng e) (out_sim o) st (env_goal e) obs false in
            match fc_get_features features obs (env_goal e) with
            | Raise x => mkenv_outcome (Raise x) e3 (out_trace o)
            | OutOfFuel => mkenv_outcome OutOfFuel e3 (out_trace o)
            | Ok x =>
                let '(rg, goal) := gm_calculate goal_m (env_goal e) obs in
                let with_flag b := mkenv (out_rng o) (env_adapter_rng e) (out_sim o) st goal obs b in
                match rg with
                | Raise y => mkenv_outcome (Raise y) (with_flag false) (out_trace o)
                | OutOfFuel => mkenv_outcome OutOfFuel (with_flag false) (out_trace o)
                | Ok gr =>
                    let discount := discount_of (o_elapsed obs) in
                    if gr_terminal gr then
                      mkenv_outcome (Ok (termination (gr_reward gr) x)) (with_flag true) (out_trace o)
                    else if gr_truncated gr then
                      mkenv_outcome (Ok (truncation (gr_reward gr) x discount)) (with_flag true) (out_trace o)
                    else mkenv_outcome (Ok (transition_step (gr_reward gr) x discount)) (with_flag false) (out_trace o)
                end
            end
        end
    end.

End Environment.
Arguments mkenv {G St Goal}.
Arguments env_rng {G St Goal}.
Arguments env_adapter_rng {G St Goal}.
Arguments env_sim {G St Goal}.
Arguments env_adapter {G St Goal}.
Arguments env_goal {G St Goal}.
Arguments env_last_observation {G St Goal}.
Arguments env_requires_reset {G St Goal}.
Arguments mkenv_outcome {G St Goal F}.
Arguments eo_result {G St Goal F}.
Arguments eo_env {G St Goal F}.
Arguments eo_trace {G St Goal F}.

(** * run_helpers.py *)

(** A dm_env environment: what a wrapper sees of it. Used at run_helpers.py:134-153. *)
Record environment (E F : Type) := mkenvironment {
  e_reset : E -> res (time_step F) * E;
  e_step : list R -> E -> res (time_step F) * E
}.
Arguments mkenvironment {E F}.
Arguments e_reset {E F}.
Arguments e_step {E F}.

(** A PuttingDuneEnvironment seen that way. Used at putting_dune_environment.py:87-158. *)
Definition dune_environment {G St Goal F} (s : sampler G) (render : @renderer G)
  (adapter : action_adapter G St) (features : feature_constructor Goal F)
  (goal_m : goal_methods G Goal) (fuel : nat) : environment (@env G St Goal) F :=
  mkenvironment
    (fun e => let o := env_reset s render adapter features goal_m e in (eo_result o, eo_env o))
    (fun a e => let o := env_step s render adapter features goal_m fuel a e in (eo_result o, eo_env o)).

Section StepLimit.
Context {E F : Type}.
Variable inner : environment E F.

(** run_helpers.py:120-129: _step_limit, _elapsed_steps and the wrapped
    environment *)
Record limited := mklimited {
  sl_limit : option Z;
  sl_elapsed : Z;
  sl_env : E
}.
Definition new_limited (e : E) (limit : option Z) : limited := mklimited limit 0 e.

(** run_helpers.py:130-132 reset *)
Definition sl_reset (w : limited) : res (time_step F) * limited :=
  let '(r, e) := e_reset inner (sl_env w) in
  (r, mklimited (sl_limit w) 0 e).

(** run_helpers.py:134-153 step *)
Definition sl_step (action : list R) (w : limited) : res (time_step F) * limited :=
  let '(r, e) := if (sl_elapsed w =? -1)%Z then e_reset inner (sl_env w) else e_step inner action (sl_env w) in
  match r with
  | Raise x => (Raise x, mklimited (sl_limit w) (sl_elapsed w) e)
  | OutOfFuel => (OutOfFuel, mklimited (sl_limit w) (sl_elapsed w) e)
  | Ok ts =>
      match ts_type ts with
      | FIRST => (Ok ts, mklimited (sl_limit w) 0 e)
      | _ =>
          let elapsed := (sl_elapsed w + 1)%Z in
          match sl_limit w with
          | Some n =>
              if (n <=? elapsed)%Z then
                (Ok (truncation (ts_reward ts) (ts_observation ts) (ts_discount ts)), mklimited (sl_limit w) (-1) e)
              else (Ok ts, mklimited (sl_limit w) elapsed e)
          | None => (Ok ts, mklimited (sl_limit w) elapsed e)
          end
      end
  end.

Definition limited_environment : environment limited F := mkenvironment sl_reset sl_step.
End StepLimit.
Arguments mklimited {E}.
Arguments sl_limit {E}.
Arguments sl_elapsed {E}.
Arguments sl_env {E}.

(** run_helpers.py:27-56 create_putting_dune_env.  [rng] and [adapter_rng]: the
    generators that exist before the environment is seeded.  seed and sim are
    reached through EnvironmentWrapper.__getattr__ (run_helpers.py:77-82). *)
Definition create_putting_dune_env {G St Goal} (s : sampler G) (adapter : action_adapter G St)
  (seed : Z) (m : material) (image_duration : timedelta) (st : St) (goal : Goal)
  (rng : G) (adapter_rng : option G) (observers : list observer) (step_limit : option Z)
  : limited (E := @env G St Goal) :=
  let w := new_limited (new_env m image_duration st goal rng adapter_rng) step_limit in
  let e := env_seed s adapter seed (sl_env w) in
  let sim := fold_left (fun sim o => out_sim (add_observer o sim (env_rng e))) observers (env_sim e) in
  mklimited (sl_limit w) (sl_elapsed w)
    (mkenv (env_rng e) (env_adapter_rng e) sim (env_adapter e) (env_goal e) (env_last_observation e)
       (env_requires_reset e)).

(** run_helpers.py:34: the default step limit *)
Definition default_step_limit : Z := 600.
