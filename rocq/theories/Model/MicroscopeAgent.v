(** putting_dune/microscope_agent.py *)
From Coq Require Import Reals ZArith List Bool Arith String.
From Verif Require Import Base.Prelude Base.Rounding Base.Random Model.Constants Model.MicroscopeUtils
  Model.Graphene Model.ActionAdapters Model.Goals Model.FeatureConstructors Model.Environment Model.Io.
Import ListNotations.
Open Scope R_scope.

(** dm_env.TimeStep as the inner agent gets it: the reward and the discount of
    dm_env.restart are None. Used at microscope_agent.py:85-95. *)
Record agent_input (F : Type) := mkagent_input {
  ai_type : step_type;
  ai_reward : option R;
  ai_discount : option R;
  ai_observation : F
}.
Arguments mkagent_input {F}.
Arguments ai_type {F}.
Arguments ai_reward {F}.
Arguments ai_discount {F}.
Arguments ai_observation {F}.
(** dm_env.restart, and a time step with reward and discount.
    Used at microscope_agent.py:85-95. *)
Definition restart {F} (o : F) : agent_input F := mkagent_input FIRST None None o.
(** used at microscope_agent.py:85-95 *)
Definition with_reward {F} (ts : time_step F) : agent_input F :=
  mkagent_input (ts_type ts) (Some (ts_reward ts)) (Some (ts_discount ts)) (ts_observation ts).

(** microscope_agent.py:107-121 StepRecord and EpisodeRecord *)
Record step_record := mkstep_record {
  sr_episode : nat;
  sr_episode_step : nat;
  sr_reward : R;
  sr_elapsed_seconds : R;
  sr_terminal : bool
}.
Record episode_record := mkepisode_record {
  pr_episode : nat;
  pr_episode_steps : nat;
  pr_episode_return : R;
  pr_episode_goal : option (R * R)
}.

(** The three files of the log directory; [None]: not written yet.
    Simplification: the text of the two csv files (a header and one line per
    record) is represented by the records. Used at microscope_agent.py:199-202. *)
Record log_files := mklog_files {
  lf_trajectories : option (list ptrajectory);
  lf_steps : option (list step_record);
  lf_episodes : option (list episode_record)
}.

Section MicroscopeAgent.
Context {G A St Goal F : Type}.
(** the agent that the experiment made: its step may raise and change its state *)
Variable inner_step : agent_input F -> A -> res (list R) * A.
Variable adapter : action_adapter G St.
Variable features : feature_constructor Goal F.
Variable goal_m : goal_methods G Goal.
(** isinstance(goal, SingleSiliconGoalReaching) *)
Variable single_silicon : Goal -> option goal_state.

(** microscope_agent.py:40-50 __init__: the mutable attributes.
    [ma_adapter_rng] is the generator the action adapter holds.
    Simplification: it is not the one passed to reset. *)
Record magent := mkmagent {
  ma_agent : A;
  ma_adapter : St;
  ma_adapter_rng : G;
  ma_goal : Goal;
  ma_is_first_step : bool
}.
Definition new_magent (a : A) (st : St) (ga : G) (goal : Goal) : magent := mkmagent a st ga goal true.

(** microscope_agent.py:52-62 reset.  The reset of the shipped feature
    constructors does nothing. *)
Definition ma_reset (o : observation) (ma : magent) (g : G) : res unit * magent * G :=
  let '(r, goal, g) := gm_reset goal_m (ma_goal ma) o g in
  match r with
  | Ok tt =>
      let '(st, ga) := aa_reset adapter (ma_adapter ma) (ma_adapter_rng ma) in
      (Ok tt, mkmagent (ma_agent ma) st ga goal true, g)
  | Raise x => (Raise x, mkmagent (ma_agent ma) (ma_adapter ma) (ma_adapter_rng ma) goal (ma_is_first_step ma), g)
  | OutOfFuel => (OutOfFuel, mkmagent (ma_agent ma) (ma_adapter ma) (ma_adapter_rng ma) goal (ma_is_first_step ma), g)
  end.

(** microscope_agent.py:72-83: the rescan *)
Definition rescan : list control := [beam_control (mkpt 0 0) (td_seconds 0)].

(** microscope_agent.py:85-95: the time step *)
Definition ma_time_step (first : bool) (x : F) (gr : goal_return) (elapsed : timedelta) : agent_input F :=
  let discount := discount_of elapsed in
  if gr_terminal gr then with_reward (termination (gr_reward gr) x)
  else if gr_truncated gr then with_reward (truncation (gr_reward gr) x discount)
  else if first then restart x
  else with_reward (transition_step (gr_reward gr) x discount).

(** microscope_agent.py:64-104 step *)
Definition ma_step (o : observation) (ma : magent) : res (list control) * magent :=
  match fc_get_features features o (ma_goal ma) with
  | Raise SiliconNotFoundError => (Ok rescan, ma)
  | Raise x => (Raise x, ma)
  | OutOfFuel => (OutOfFuel, ma)
  | Ok x =>
      let '(rg, goal) := gm_calculate goal_m (ma_goal ma) o in
      let ma1 := mkmagent (ma_agent ma) (ma_adapter ma) (ma_adapter_rng ma) goal (ma_is_first_step ma) in
      match rg with
      | Raise SiliconNotFoundError => (Ok rescan, ma1)
      | Raise x => (Raise x, ma1)
      | OutOfFuel => (OutOfFuel, ma1)
      | Ok gr =>
          let '(ra, a) := inner_step (ma_time_step (ma_is_first_step ma) x gr (o_elapsed o)) (ma_agent ma) in
          let ma2 := mkmagent a (ma_adapter ma) (ma_adapter_rng ma) goal (ma_is_first_step ma) in
          match ra with
          | Raise x => (Raise x, ma2)
          | OutOfFuel => (OutOfFuel, ma2)
          | Ok action =>
              let '(rc, st) := aa_get_action adapter (ma_adapter ma) o action in
              match rc with
              | Raise x => (Raise x, mkmagent a st (ma_adapter_rng ma) goal (ma_is_first_step ma))
              | OutOfFuel => (OutOfFuel, mkmagent a st (ma_adapter_rng ma) goal (ma_is_first_step ma))
              | Ok cs => (Ok cs, mkmagent a st (ma_adapter_rng ma) goal false)
              end
          end
      end
  end.

(** * MicroscopeAgentLogger *)

(** An element of _trajectories.  Trajectory keeps a reference to the list it
    is made of (microscope_utils.py:738): one made by flush is [Shared], it
    still is the list _current_trajectory and grows with it. *)
Inductive kept_trajectory :=
| Kept (t : trajectory)
| Shared.
Definition resolve (current : trajectory) (k : kept_trajectory) : trajectory :=
  match k with Kept t => t | Shared => current end.

(** microscope_agent.py:129-144 __init__: the mutable attributes.  (A wrapt
    proxy stores them on the wrapped agent.  Simplification: no two loggers
    wrap the same agent.) *)
Record logger := mklogger {
  lg_agent : magent;
  lg_episode : nat;
  lg_episode_return : R;
  lg_episode_step : nat;
  lg_current : trajectory;
  lg_trajectories : list kept_trajectory;
  lg_step_records : list step_record;
  lg_episode_records : list episode_record
}.
Definition new_logger (ma : magent) : logger := mklogger ma 0 0 0 [] [] [] [].

(** microscope_agent.py:146-161 _make_episode_record *)
Definition make_episode_record (goal : Goal) (episode step : nat) (return_ : R) : episode_record :=
  mkepisode_record episode step return_
    (option_map (fun st => (px (current_goal st), py (current_goal st))) (single_silicon goal)).

(** microscope_agent.py:163-174 _make_step_record *)
Definition make_step_record (episode step : nat) (o : observation) (gr : goal_return) : step_record :=
  mkstep_record episode step (gr_reward gr) (total_seconds (o_elapsed o)) (gr_terminal gr).

(** microscope_agent.py:192, 230: truth of a list *)
Definition nonempty {X} (l : list X) : bool := match l with [] => false | _ => true end.

(** microscope_agent.py:191-196: what flush appends *)
Definition flush_append (lg : logger) : logger :=
  mklogger (lg_agent lg) (lg_episode lg) (lg_episode_return lg) (lg_episode_step lg) (lg_current lg)
    (lg_trajectories lg ++ (if nonempty (lg_current lg) then [Shared] else []))
    (lg_step_records lg)
    (lg_episode_records lg ++
     (if (lg_episode_step lg =? 0)%nat then []
      else [make_episode_record (ma_goal (lg_agent lg)) (lg_episode lg) (lg_episode_step lg) (lg_episode_return lg)])).

(** microscope_agent.py:199-202: write_records of the trajectories to
    logdir / 'trajectories.tfrecords'.  Serialised messages are represented by
    the messages. *)
Definition trajectories_file : path := path_of "trajectories.tfrecords".
Definition write_trajectories (f : log_files) (ts : list trajectory) : res unit * log_files :=
  let '(r, fs) := write_records trajectory_to_proto (fun m => m) (fun _ => lf_trajectories f)
                    trajectories_file (map ModelRecord ts) in
  (r, mklog_files (fs trajectories_file) (lf_steps f) (lf_episodes f)).

(** microscope_agent.py:190-220 flush.  Simplification: opening and writing
    the csv files does not raise. *)
Definition logger_flush (lg : logger) (f : log_files) : res unit * logger * log_files :=
  let lg := flush_append lg in
  let '(r, f) := write_trajectories f (map (resolve (lg_current lg)) (lg_trajectories lg)) in
  match r with
  | Ok tt => (Ok tt, lg, mklog_files (lf_trajectories f) (Some (lg_step_records lg)) (Some (lg_episode_records lg)))
  | Raise x => (Raise x, lg, f)
  | OutOfFuel => (OutOfFuel, lg, f)
  end.

(** microscope_agent.py:179-188 __exit__: [raised] tells whether the body of
    the with statement raised *)
Definition logger_exit (raised : bool) (lg : logger) (f : log_files) : res unit * logger * log_files :=
  if raised then (Ok tt, lg, f) else logger_flush lg f.

(** microscope_agent.py:222-239 reset *)
Definition logger_reset (o : observation) (lg : logger) (g : G) : res unit * logger * G :=
  let '(episode, records) :=
    if (0 <? lg_episode_step lg)%nat then
      let episode := S (lg_episode lg) in
      (episode, lg_episode_records lg ++
        [make_episode_record (ma_goal (lg_agent lg)) episode (lg_episode_step lg) (lg_episode_return lg)])
    else (lg_episode lg, lg_episode_records lg) in
  let trajectories :=
    lg_trajectories lg ++ (if nonempty (lg_current lg) then [Shared] else []) in
  (* line 237 replaces the list: those that shared it keep what it was *)
  let trajectories := map (fun k => Kept (resolve (lg_current lg) k)) trajectories in
  let '(r, ma, g) := ma_reset o (lg_agent lg) g in
  (r, mklogger ma episode 0 0 [] trajectories (lg_step_records lg) records, g).

(** microscope_agent.py:241-256 step *)
Definition logger_step (o : observation) (lg : logger) : res (list control) * logger :=
  let with_agent ma := mklogger ma (lg_episode lg) (lg_episode_return lg) (lg_episode_step lg)
                         (lg_current lg) (lg_trajectories lg) (lg_step_records lg) (lg_episode_records lg) in
  let '(rc, ma) := ma_step o (lg_agent lg) in
  match rc with
  | Raise x => (Raise x, with_agent ma)
  | OutOfFuel => (OutOfFuel, with_agent ma)
  | Ok cs =>
      let '(rg, goal) := gm_calculate goal_m (ma_goal ma) o in
      let ma := mkmagent (ma_agent ma) (ma_adapter ma) (ma_adapter_rng ma) goal (ma_is_first_step ma) in
      match rg with
      | Raise x => (Raise x, with_agent ma)
      | OutOfFuel => (OutOfFuel, with_agent ma)
      | Ok gr =>
          let step := S (lg_episode_step lg) in
          (Ok cs,
           mklogger ma (lg_episode lg) (lg_episode_return lg + gr_reward gr) step (lg_current lg ++ [o])
             (lg_trajectories lg) (lg_step_records lg ++ [make_step_record (lg_episode lg) step o gr])
             (lg_episode_records lg))
      end
  end.

End MicroscopeAgent.
Arguments mkmagent {G A St Goal}.
Arguments ma_agent {G A St Goal}.
Arguments ma_adapter {G A St Goal}.
Arguments ma_adapter_rng {G A St Goal}.
Arguments ma_goal {G A St Goal}.
Arguments ma_is_first_step {G A St Goal}.
Arguments mklogger {G A St Goal}.
Arguments lg_agent {G A St Goal}.
Arguments lg_episode {G A St Goal}.
Arguments lg_episode_return {G A St Goal}.
Arguments lg_episode_step {G A St Goal}.
Arguments lg_current {G A St Goal}.
Arguments lg_trajectories {G A St Goal}.
Arguments lg_step_records {G A St Goal}.
Arguments lg_episode_records {G A St Goal}.
