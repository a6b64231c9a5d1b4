(** Vocabulary for statements about the evaluation command. *)
From Coq Require Import String Reals ZArith List Bool Arith.
From Verif Require Import Base.Prelude Base.Rounding Model.Simulator Model.Environment Model.EvalLib Model.EvalCommand
  Spec.Evaluation.
Import ListNotations.
Local Open Scope list_scope.
Local Open Scope string_scope.
Open Scope R_scope.

(** the suites: their names and how many seeds they have, from 0 on *)
Definition suite_rows : list (string * nat) := [
  ("tiny_eval", 10%nat); ("small_eval", 100%nat); ("medium_eval", 1000%nat); ("big_eval", (100 * 100)%nat)].
Definition first_seeds (seeds : list Z) (n : nat) : Prop :=
  length seeds = n /\ forall i, (i < n)%nat -> nth_error seeds i = Some (Z.of_nat i).

(** a number written with two decimals, in hundredths *)
Definition written (x : R) (hundredths : Z) : Prop := Rabs (x - IZR hundredths / 100) <= / 200.

(** the log of an evaluation: of all its results, or of those that reached the
    goal; their times are numbers *)
Definition logs (name : string) (rs : list eval_result) (log : list log_line) : Prop :=
  exists p n t a e r agent_times env_times,
    log = [Finished name;
           Logged "Proportion successful runs" (Some p);
           Logged "Average number of actions taken" (Some n);
           Logged "Average seconds to goal" (Some t);
           Logged "Average agent seconds to goal" (Some a);
           Logged "Average environment seconds to goal" (Some e);
           Logged "Average total reward" (Some r)] /\
    map er_agent_seconds_to_goal (successes rs) = map Some agent_times /\
    map er_environment_seconds_to_goal (successes rs) = map Some env_times /\
    written (INR (length (successes rs)) / INR (length rs)) p /\
    written (average (map (fun r => INR (er_num_actions_taken r)) (successes rs))) n /\
    written (average agent_times + average env_times) t /\
    written (average agent_times) a /\
    written (average env_times) e /\
    written (average (map er_total_reward (successes rs))) r.
