(** Vocabulary for statements about evaluations: what agent and environment
    exchange during one episode. *)
From Coq Require Import Reals ZArith List Bool Arith.
From Verif Require Import Base.Prelude Base.Rounding Model.Simulator Model.Environment Model.EvalLib.
Import ListNotations.
Open Scope R_scope.

(** one step of the agent and one of the environment: how long the agent took
    by the clock, what the environment returned and how long it took *)
Record exchange (F : Type) := mkexchange {
  x_agent_seconds : R;
  x_result : time_step F;
  x_elapsed : timedelta
}.
Arguments mkexchange {F}.
Arguments x_agent_seconds {F}.
Arguments x_result {F}.
Arguments x_elapsed {F}.

Section Evaluation.
Context {A E F V : Type}.
Variable ag : agent A F.
Variable en : eval_env E F V.

(** a sequence of exchanges that did not raise: the agent sees the last time
    step, the environment gets its action *)
Inductive exchanges : time_step F -> A -> E -> list (exchange F) -> time_step F -> A -> E -> Prop :=
| exchanges_nil ts a e : exchanges ts a e [] ts a e
| exchanges_cons ts a e t0 a0 act a1 t1 a2 ts1 e1 h ts' a' e' :
    perf_counter ag a = (t0, a0) -> agent_step ag ts a0 = (Ok act, a1) -> perf_counter ag a1 = (t1, a2) ->
    e_step (ee_env en) act e = (Ok ts1, e1) ->
    exchanges ts1 a2 e1 h ts' a' e' ->
    exchanges ts a e (mkexchange (t1 - t0) ts1 (ee_elapsed en e1) :: h) ts' a' e'.

(** the time of agent and environment, to the microsecond, when the reset took
    [start] *)
Definition time_spent (start : timedelta) (h : list (exchange F)) : timedelta :=
  (start + zsum (map (fun x => td_seconds (x_agent_seconds x) + x_elapsed x) h))%Z.

(** the episode has not ended and there is time left *)
Definition goes_on (timeout start : timedelta) (h : list (exchange F)) : Prop :=
  (forall h' x, h = h' ++ [x] -> ts_type (x_result x) <> LAST) /\ (time_spent start h < timeout)%Z.

(** an attempt at one seed: the environment is seeded and reset, then the two
    exchange as long as the episode goes on and no longer *)
Definition attempt (timeout : timedelta) (seed : Z) (a : A) (e : E)
  (start : timedelta) (h : list (exchange F)) (ts : time_step F) (a' : A) (e' : E) : Prop :=
  exists ts0 e1, e_reset (ee_env en) (ee_seed en seed e) = (Ok ts0, e1) /\ start = ee_elapsed en e1 /\
    exchanges ts0 a e1 h ts a' e' /\
    (forall h1 x h2, h = h1 ++ x :: h2 -> goes_on timeout start h1) /\ ~ goes_on timeout start h.

(** an attempt that raises: at the reset, or in the agent or the environment
    after less than [fuel] steps *)
Definition attempt_raises (fuel : nat) (timeout : timedelta) (seed : Z) (a : A) (e : E) (x : exn) (a' : A) (e' : E) : Prop :=
  (e_reset (ee_env en) (ee_seed en seed e) = (Raise x, e') /\ a' = a) \/
  exists ts0 e1 h ts a1 e2 t0 a2, e_reset (ee_env en) (ee_seed en seed e) = (Ok ts0, e1) /\ (length h < fuel)%nat /\
    exchanges ts0 a e1 h ts a1 e2 /\
    (forall h1 y h2, h = h1 ++ y :: h2 -> goes_on timeout (ee_elapsed en e1) h1) /\
    goes_on timeout (ee_elapsed en e1) h /\
    perf_counter ag a1 = (t0, a2) /\
    ((agent_step ag ts a2 = (Raise x, a') /\ e' = e2) \/
     exists act a3 t1, agent_step ag ts a2 = (Ok act, a3) /\ perf_counter ag a3 = (t1, a') /\
       e_step (ee_env en) act e2 = (Raise x, e')).

(** the result reports the attempt: the number of steps, the sum of their
    rewards, whether the goal was reached and, if so, how long it took *)
Definition reports (r : eval_result) (seed : Z) (start : timedelta) (h : list (exchange F)) (ts : time_step F) : Prop :=
  er_seed r = seed /\
  er_num_actions_taken r = length h /\
  er_total_reward r = rsum (map (fun x => ts_reward (x_result x)) h) /\
  (er_reached_goal r = true <-> ts_type ts = LAST /\ ts_discount ts = 0) /\
  (er_reached_goal r = false -> er_agent_seconds_to_goal r = nan /\ er_environment_seconds_to_goal r = nan) /\
  (er_reached_goal r = true ->
     er_agent_seconds_to_goal r = Some (IZR (zsum (map (fun x => td_seconds (x_agent_seconds x)) h)) / 1000000) /\
     er_environment_seconds_to_goal r = Some (IZR (start + zsum (map x_elapsed h)) / 1000000)).

(** an agent whose actions, and the time it takes for them, depend only on the
    time step *)
Definition without_past : Prop := exists (policy : time_step F -> res (list R)) (duration : time_step F -> R),
  forall ts a t0 a0 r a1 t1 a2, perf_counter ag a = (t0, a0) -> agent_step ag ts a0 = (r, a1) -> perf_counter ag a1 = (t1, a2) ->
  r = policy ts /\ t1 - t0 = duration ts.

(** the attempts at a list of seeds, one after the other, with the results and,
    if wanted, the videos *)
Inductive attempts (fuel : nat) (timeout : timedelta) (video : bool)
  : list Z -> A -> E -> list eval_result -> list (Z * V) -> A -> E -> Prop :=
| attempts_nil a e : attempts fuel timeout video [] a e [] [] a e
| attempts_cons seed seeds a e start h ts a1 e1 r rs v vs a' e' :
    attempt timeout seed a e start h ts a1 e1 -> (length h <= fuel)%nat -> reports r seed start h ts ->
    (if video then exists w, ee_video en e1 = Ok w /\ v = [(seed, w)] else v = []) ->
    attempts fuel timeout video seeds a1 e1 rs vs a' e' ->
    attempts fuel timeout video (seed :: seeds) a e (r :: rs) (v ++ vs) a' e'.

End Evaluation.

(** the results of the runs that reached the goal *)
Definition successes (l : list eval_result) : list eval_result := filter er_reached_goal l.

(** the average of some numbers, 0 if there are none *)
Definition average (l : list R) : R := match l with [] => 0 | _ => rsum l / INR (length l) end.

(** the numbers in a list without NaN *)
Definition all_numbers (l : list nan_float) (xs : list R) : Prop := l = map Some xs.
