(** Vocabulary for the microscope agent and its logger. *)
From Coq Require Import Reals ZArith List Bool Arith.
From Verif Require Import Base.Prelude Base.Rounding Base.Random Model.MicroscopeUtils Model.ActionAdapters
  Model.Goals Model.FeatureConstructors Model.Environment Model.MicroscopeAgent Spec.Acting.
Import ListNotations.
Open Scope R_scope.

(** * What the inner agent is shown *)

(** an agent that also writes down every time step it is given *)
Definition writing_down {A F} (step : agent_input F -> A -> res (list R) * A)
  (ts : agent_input F) (a : A * list (agent_input F)) : res (list R) * (A * list (agent_input F)) :=
  let '(r, a') := step ts (fst a) in (r, (a', snd a ++ [ts])).

(** what happened in a call: a reset that succeeded; a step in which features
    [x] and goal outcome [gr] could be computed, and whether it returned
    controls; anything else *)
Inductive agent_event (F : Type) :=
| Restarted
| Decided (x : F) (gr : goal_return) (elapsed : timedelta) (completed : bool)
| Nothing.
Arguments Restarted {F}.
Arguments Decided {F}.
Arguments Nothing {F}.

Definition is_ok {X} (r : res X) : bool := match r with Ok _ => true | _ => false end.

(** the time step that belongs to a decision.  [fresh]: no step has returned
    controls of the adapter since the last reset *)
Definition shown {F : Type} (fresh : bool) (x : F) (gr : goal_return) (elapsed : timedelta) (ts : agent_input F) : Prop :=
  ai_observation ts = x /\
  (gr_terminal gr = true ->
     ai_type ts = LAST /\ ai_reward ts = Some (gr_reward gr) /\ ai_discount ts = Some 0) /\
  (gr_terminal gr = false -> gr_truncated gr = true ->
     ai_type ts = LAST /\ ai_reward ts = Some (gr_reward gr) /\ ai_discount ts = Some (discounted elapsed)) /\
  (gr_terminal gr = false -> gr_truncated gr = false -> fresh = true ->
     ai_type ts = FIRST /\ ai_reward ts = None /\ ai_discount ts = None) /\
  (gr_terminal gr = false -> gr_truncated gr = false -> fresh = false ->
     ai_type ts = MID /\ ai_reward ts = Some (gr_reward gr) /\ ai_discount ts = Some (discounted elapsed)).

(** the time steps shown during some events *)
Inductive shown_during {F : Type} : bool -> list (agent_event F) -> list (agent_input F) -> Prop :=
| shown_nil (fresh : bool) : shown_during fresh [] []
| shown_restarted (fresh : bool) h l : shown_during true h l -> shown_during fresh (Restarted :: h) l
| shown_decided (fresh completed : bool) x gr t h ts l :
    shown fresh x gr t ts -> shown_during (if completed then false else fresh) h l ->
    shown_during fresh (Decided x gr t completed :: h) (ts :: l)
| shown_nothing (fresh : bool) h l : shown_during fresh h l -> shown_during fresh (Nothing :: h) l.

Section AgentHistory.
Context {G A St Goal F : Type}.
Variable inner_step : agent_input F -> A -> res (list R) * A.
Variable adapter : action_adapter G St.
Variable features : feature_constructor Goal F.
Variable goal_m : goal_methods G Goal.

Definition step_event (o : observation) (ma : @magent G A St Goal) (r : res (list control)) : agent_event F :=
  match fc_get_features features o (ma_goal ma), fst (gm_calculate goal_m (ma_goal ma) o) with
  | Ok x, Ok gr => Decided x gr (o_elapsed o) (is_ok r)
  | _, _ => Nothing
  end.

(** a new agent after any calls, whether they raise or not *)
Inductive agent_history : @magent G A St Goal -> list (agent_event F) -> @magent G A St Goal -> Prop :=
| history_nil ma : agent_history ma [] ma
| history_reset ma h ma1 o g r ma2 g' :
    agent_history ma h ma1 -> ma_reset adapter goal_m o ma1 g = (r, ma2, g') ->
    agent_history ma (h ++ [if is_ok r then Restarted else Nothing]) ma2
| history_step ma h ma1 o r ma2 :
    agent_history ma h ma1 -> ma_step inner_step adapter features goal_m o ma1 = (r, ma2) ->
    agent_history ma (h ++ [step_event o ma1 r]) ma2.
End AgentHistory.

(** * What the logger writes *)

(** what happened to a logger: a step that returned (with the goal outcome the
    logger asked for), a call to reset or to flush (with the goal at that
    time); a step that raises is no event *)
Inductive log_event :=
| Stepped (o : observation) (gr : goal_return)
| Cleared (goal : option (R * R))
| Flushed (goal : option (R * R)).

(** the steps of some events *)
Fixpoint steps_of (h : list log_event) : list (observation * goal_return) :=
  match h with
  | [] => []
  | Stepped o gr :: h => (o, gr) :: steps_of h
  | _ :: h => steps_of h
  end.

(** the episodes that a reset ended, with the goal at their end, and the events
    since the last reset *)
Fixpoint episodes_from (current : list log_event) (h : list log_event)
  : list (list log_event * option (R * R)) * list log_event :=
  match h with
  | [] => ([], current)
  | Cleared goal :: h => let '(ended, last) := episodes_from [] h in ((current, goal) :: ended, last)
  | e :: h => episodes_from (current ++ [e]) h
  end.
Definition ended_episodes (h : list log_event) := fst (episodes_from [] h).
Definition last_episode (h : list log_event) := snd (episodes_from [] h).

(** the steps before each flush of an episode that has steps before it, and
    the goal then *)
Fixpoint flushes_from (before : list (observation * goal_return)) (h : list log_event)
  : list (list (observation * goal_return) * option (R * R)) :=
  match h with
  | [] => []
  | Stepped o gr :: h => flushes_from (before ++ [(o, gr)]) h
  | Flushed goal :: h =>
      (match before with [] => [] | _ => [(before, goal)] end) ++ flushes_from before h
  | Cleared _ :: h => flushes_from before h
  end.
Definition flushes (h : list log_event) := flushes_from [] h.

(** all observations of an episode, once per flush, even those made after the
    flush, and once more for the reset that ended it *)
Definition copies_ended (episode : list log_event) : list trajectory :=
  match steps_of episode with
  | [] => []
  | l => repeat (map fst l) (S (length (flushes episode)))
  end.
Definition copies_last (episode : list log_event) : list trajectory :=
  repeat (map fst (steps_of episode)) (length (flushes episode)).
Definition trajectories_after (h : list log_event) : list trajectory :=
  flat_map (fun ep => copies_ended (fst ep)) (ended_episodes h) ++ copies_last (last_episode h).

(** episodes with steps are numbered from zero, their steps from one *)
Definition step_records_of (number : nat) (l : list (observation * goal_return)) : list step_record :=
  map (fun '(i, (o, gr)) => mkstep_record number i (gr_reward gr) (IZR (o_elapsed o) / 1000000) (gr_terminal gr))
    (combine (seq 1 (length l)) l).
Fixpoint numbered (number : nat) (ls : list (list (observation * goal_return))) : list step_record :=
  match ls with
  | [] => []
  | [] :: ls => numbered number ls
  | l :: ls => step_records_of number l ++ numbered (S number) ls
  end.
Definition step_records_after (h : list log_event) : list step_record :=
  numbered 0 (map (fun ep => steps_of (fst ep)) (ended_episodes h) ++ [steps_of (last_episode h)]).

(** the number of steps and the sum of their rewards *)
Definition episode_record_of (number : nat) (l : list (observation * goal_return)) (goal : option (R * R)) : episode_record :=
  mkepisode_record number (length l) (rsum (map (fun s => gr_reward (snd s)) l)) goal.
(** one record per flush with the number of the episode, and one for the reset
    with the next number *)
Definition flush_records (number : nat) (episode : list log_event) : list episode_record :=
  map (fun f => episode_record_of number (fst f) (snd f)) (flushes episode).
Fixpoint ended_records (number : nat) (ended : list (list log_event * option (R * R))) : list episode_record * nat :=
  match ended with
  | [] => ([], number)
  | (episode, goal) :: ended =>
      match steps_of episode with
      | [] => ended_records number ended
      | l =>
          let '(rs, n) := ended_records (S number) ended in
          (flush_records number episode ++ episode_record_of (S number) l goal :: rs, n)
      end
  end.
Definition episode_records_after (h : list log_event) : list episode_record :=
  let '(rs, n) := ended_records 0 (ended_episodes h) in rs ++ flush_records n (last_episode h).

(** the observations between resets, without the empty runs *)
Fixpoint runs_from (current : trajectory) (h : list log_event) : list trajectory :=
  match h with
  | [] => match current with [] => [] | _ => [current] end
  | Stepped o _ :: h => runs_from (current ++ [o]) h
  | Cleared _ :: h => match current with [] => runs_from [] h | _ => current :: runs_from [] h end
  | Flushed _ :: h => runs_from current h
  end.
Definition runs (h : list log_event) : list trajectory := runs_from [] h.

Definition never_flushed (h : list log_event) : Prop := forall goal, ~ In (Flushed goal) h.

(** without the flushes *)
Fixpoint drop_flushes (h : list log_event) : list log_event :=
  match h with
  | [] => []
  | Flushed _ :: h => drop_flushes h
  | e :: h => e :: drop_flushes h
  end.

Section LogHistory.
Context {G A St Goal F : Type}.
Variable inner_step : agent_input F -> A -> res (list R) * A.
Variable adapter : action_adapter G St.
Variable features : feature_constructor Goal F.
Variable goal_m : goal_methods G Goal.
Variable single_silicon : Goal -> option goal_state.

Definition goal_point (goal : Goal) : option (R * R) :=
  option_map (fun st => (px (goal_position st), py (goal_position st))) (single_silicon goal).
Definition logged_goal (lg : @logger G A St Goal) : option (R * R) := goal_point (ma_goal (lg_agent lg)).

(** the goal outcome the logger asks for after the wrapped agent's step *)
Definition outcome_after_step (o : observation) (lg : @logger G A St Goal) : res goal_return :=
  fst (gm_calculate goal_m (ma_goal (snd (ma_step inner_step adapter features goal_m o (lg_agent lg)))) o).

(** a new logger after any calls, whether they raise or not *)
Inductive log_history (ma : @magent G A St Goal) : list log_event -> @logger G A St Goal -> Prop :=
| log_nil : log_history ma [] (new_logger ma)
| log_stepped h lg o cs gr lg' :
    log_history ma h lg -> logger_step inner_step adapter features goal_m o lg = (Ok cs, lg') ->
    outcome_after_step o lg = Ok gr ->
    log_history ma (h ++ [Stepped o gr]) lg'
| log_step_failed h lg o r lg' :
    log_history ma h lg -> logger_step inner_step adapter features goal_m o lg = (r, lg') -> is_ok r = false ->
    log_history ma h lg'
| log_reset h lg o g r lg' g' :
    log_history ma h lg -> logger_reset adapter goal_m single_silicon o lg g = (r, lg', g') ->
    log_history ma (h ++ [Cleared (logged_goal lg)]) lg'
| log_flush h lg f r lg' f' :
    log_history ma h lg -> logger_flush single_silicon lg f = (r, lg', f') ->
    log_history ma (h ++ [Flushed (logged_goal lg)]) lg'.
End LogHistory.

(** * Calls and their answers, with and without the logger *)

Inductive agent_call (G : Type) :=
| CallReset (o : observation) (g : G)
| CallStep (o : observation).
Arguments CallReset {G}.
Arguments CallStep {G}.
(** what a call returns or raises; a reset leaves its generator in state [g] *)
Inductive agent_answer (G : Type) :=
| AnsweredReset (r : res unit) (g : G)
| AnsweredStep (r : res (list control)).
Arguments AnsweredReset {G}.
Arguments AnsweredStep {G}.

Section Answers.
Context {G A St Goal F : Type}.
Variable inner_step : agent_input F -> A -> res (list R) * A.
Variable adapter : action_adapter G St.
Variable features : feature_constructor Goal F.
Variable goal_m : goal_methods G Goal.
Variable single_silicon : Goal -> option goal_state.

Fixpoint agent_answers (calls : list (agent_call G)) (ma : @magent G A St Goal) : list (agent_answer G) :=
  match calls with
  | [] => []
  | CallReset o g :: calls =>
      let '(r, ma, g) := ma_reset adapter goal_m o ma g in AnsweredReset r g :: agent_answers calls ma
  | CallStep o :: calls =>
      let '(r, ma) := ma_step inner_step adapter features goal_m o ma in AnsweredStep r :: agent_answers calls ma
  end.
Fixpoint logger_answers (calls : list (agent_call G)) (lg : @logger G A St Goal) : list (agent_answer G) :=
  match calls with
  | [] => []
  | CallReset o g :: calls =>
      let '(r, lg, g) := logger_reset adapter goal_m single_silicon o lg g in AnsweredReset r g :: logger_answers calls lg
  | CallStep o :: calls =>
      let '(r, lg) := logger_step inner_step adapter features goal_m o lg in AnsweredStep r :: logger_answers calls lg
  end.
End Answers.

(** features that depend on the goal's position only, not on its counter *)
Definition position_only {F} (features : feature_constructor goal_state F) : Prop :=
  forall o g g', goal_position g = goal_position g' ->
    fc_get_features features o g = fc_get_features features o g'.
