(** Vocabulary for statements about videos of the event log. *)
From Coq Require Import Reals ZArith List Bool.
From Verif Require Import Base.Prelude Base.Rounding Model.Geometry Model.MicroscopeUtils Model.Graphene Model.Simulator
  Model.SimulatorObservers Model.PlottingUtils Model.ActionAdapters Spec.Grids Spec.Simulation.
Import ListNotations.
Open Scope R_scope.

(** the last element, if there is one *)
Fixpoint latest {A} (l : list A) : option A :=
  match l with [] => None | [x] => Some x | _ :: l => latest l end.

(** the fields of view and images of a log *)
Definition logged_fovs (log : list sim_event) : list fov :=
  flat_map (fun e => match e with EvReset _ f => [f] | EvTakeImage _ f => [f] | _ => [] end) log.
Definition logged_images (log : list sim_event) : list image :=
  flat_map (fun e => match e with EvGeneratedImage i => [i] | _ => [] end) log.

(** the state of affairs after a log, with a given control *)
Definition snapshot (log : list sim_event) (control : option pt) : frame :=
  mkframe (replay log None) (latest (logged_fovs log)) control (logged_time log) (latest (logged_images log)).

(** a frame in the microscope frame *)
Definition pictured_frame (goal : pt) (f : frame) (picture : grid * pt * pt) : Prop :=
  exists gr view c, fr_grid f = Some gr /\ fr_fov f = Some view /\ fr_control f = Some c /\
    numbers (fst (fst picture)) = numbers gr /\
    positions (fst (fst picture)) = map (relative_to view) (positions gr) /\
    snd (fst picture) = relative_to view goal /\ snd picture = relative_to view c.

(** minutes, seconds and hundredths of a second *)
Definition clock_time (delta : timedelta) (minutes seconds hundredths : Z) : Prop :=
  (0 <= seconds < 60)%Z /\ (0 <= hundredths <= 100)%Z /\
  (Z.abs (delta - ((minutes * 60 + seconds) * 1000000 + hundredths * 10000)) <= 5000)%Z.

(** an adapter that returns one control per action *)
Definition one_control {G St} (adapter : action_adapter G St) : Prop := forall st o a cs st',
  aa_get_action adapter st o a = (Ok cs, st') -> length cs = 1%nat.
