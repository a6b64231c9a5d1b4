(** putting_dune/simulator_observers.py *)
From Coq Require Import Reals ZArith List.
From Verif Require Import Base.Prelude Base.Rounding Model.MicroscopeUtils Model.Simulator.
Import ListNotations.

(** simulator_observers.py:26-37 SimulatorEventType and SimulatorEvent, with
    the dictionary of each event type as arguments *)
Inductive sim_event :=
| EvReset (gr : grid) (f : fov)
| EvTransition (time_since_control_was_applied : timedelta) (gr : grid)
| EvApplyControl (dwell_time : timedelta) (position : pt)
| EvTakeImage (duration : timedelta) (f : fov)
| EvGeneratedImage (i : image).

(** simulator_observers.py:51-105 EventObserver: its list of events after one
    callback; observe_fov_change is inherited and does nothing
    (microscope_utils.py:521-522) *)
Definition event_observe (events : list sim_event) (cb : callback) : list sim_event :=
  match cb with
  | ObserveReset gr f => [EvReset gr f]
  | ObserveTransition t gr => events ++ [EvTransition t gr]
  | ObserveApplyControl c => events ++ [EvApplyControl (c_dwell c) (c_position c)]
  | ObserveTakeImage d f => events ++ [EvTakeImage d f]
  | ObserveGeneratedImage i => events ++ [EvGeneratedImage i]
  | ObserveFovChange _ => events
  end.

(** simulator_observers.py:51-53 __init__ *)
Definition new_event_observer : list sim_event := [].

(** the events of an EventObserver that received some callbacks.
    Used at simulator_observers.py:40-105. *)
Definition event_log (events : list sim_event) (cbs : list callback) : list sim_event :=
  fold_left event_observe cbs events.
