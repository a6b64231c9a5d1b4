(** Vocabulary for statements about the simulator: fields of view, histories
    of calls, what an observer sees, and what a step has to do. *)
From Coq Require Import Reals ZArith List Bool Sorting.Permutation.
From Verif Require Import Base.Prelude Base.Rounding Base.Random Model.MicroscopeUtils Model.Graphene
  Model.Simulator Model.SimulatorObservers Spec.Grids Spec.Material Spec.MaterialRuns.
Import ListNotations.
Open Scope R_scope.

(** the square field of view of side a around c *)
Definition square_around (c : pt) (a : R) : fov :=
  mkfov (mkpt (px c - a / 2) (py c - a / 2)) (mkpt (px c + a / 2) (py c + a / 2)).

(** a square of side a *)
Definition square (f : fov) (a : R) : Prop :=
  px (upper_right f) - px (lower_left f) = a /\ py (upper_right f) - py (lower_left f) = a.

(** the middle half of the unit square, in each direction *)
Definition safe (q : pt) : Prop := 1 / 4 <= px q <= 3 / 4 /\ 1 / 4 <= py q <= 3 / 4.

(** the position of the silicon of a single-doped sheet *)
Definition silicon_at (gr : grid) (p : pt) : Prop :=
  exists k, single_doped gr k /\ nth_error (positions gr) k = Some p.

(** the callbacks an observer received, in order *)
Definition seen (o : observer) (tr : trace) : list callback :=
  map snd (filter (fun x => Nat.eqb (fst x) o) tr).

(** every observer saw the same callbacks, once per registration *)
Definition all_saw (os : list observer) (tr : trace) (cbs : list callback) : Prop :=
  (forall o, Permutation (seen o tr) (concat (repeat cbs (count_occ Nat.eq_dec os o)))) /\
  (forall o, count_occ Nat.eq_dec os o = 1%nat -> seen o tr = cbs) /\
  (forall o, ~ In o os -> seen o tr = []).

Section WithRng.
Context {G : Type}.
Variable s : sampler G.
Variable render : @renderer G.

(** * Histories *)
Inductive request :=
| Reset (return_image : bool)
| Step (fuel : nat) (controls : list control) (return_image : bool)
| AddObserver (o : observer)
| RemoveObserver (o : observer).

(** what a request returns: an observation, or nothing for the requests about
    observers *)
Definition perform (r : request) : simulator -> G -> @outcome G (option observation) :=
  match r with
  | Reset i => then_ (sim_do_reset s render i) (fun o => ret (Some o))
  | Step n cs i => then_ (step_and_image s render n cs i) (fun o => ret (Some o))
  | AddObserver o => then_ (add_observer o) (fun _ => ret None)
  | RemoveObserver o => then_ (remove_observer o) (fun _ => ret None)
  end.

(** any sequence of requests, each with any generator; what follows a request
    that raised is included *)
Inductive history (sim : simulator) : list (request * @outcome G (option observation)) -> simulator -> Prop :=
| history_nil : history sim [] sim
| history_snoc h sim1 r g : history sim h sim1 ->
    history sim (h ++ [(r, perform r sim1 g)]) (out_sim (perform r sim1 g)).

(** the states a simulator of a sheet with the given rate function, number of
    columns and image duration can be in *)
Definition reachable (rf : rate_function) (cols : nat) (d : timedelta) (sim : simulator) : Prop :=
  exists os h, history (new_simulator (new_material rf cols) d os) h sim.

Definition is_step (r : request) : Prop :=
  match r with Step _ _ _ => True | _ => False end.

Definition is_reset (r : request) : Prop :=
  match r with Reset _ => True | _ => False end.

(** the observations returned in a history, in order *)
Definition returned (h : list (request * @outcome G (option observation))) : list observation :=
  flat_map (fun ro => match out_result (snd ro) with Ok (Some o) => [o] | _ => [] end) h.
(** the callbacks delivered in a history, in order *)
Definition delivered (h : list (request * @outcome G (option observation))) : trace :=
  flat_map (fun ro => out_trace (snd ro)) h.

(** * What a step does *)

(** [beamed n f m g cs cbs m' g']: applying the controls cs one after another
    to the material m, each at its position in the field of view f, for its
    dwell time, at 60 kV and 0.1 nA, all of them successful, announces the
    callbacks cbs and leads to the material m' *)
Inductive beamed (fuel : nat) (f : fov) :
  material -> G -> list control -> list callback -> material -> G -> Prop :=
| beamed_nil m g : beamed fuel f m g [] [] m g
| beamed_cons m g c ts m1 g1 cs cbs m' g' :
    apply_control s fuel m
      (mkcontrol (at_relative f (c_position c)) (c_dwell c) (Some 60) (Some (1 / 10))) g
      = (Ok tt, m1, g1, ts) ->
    beamed fuel f m1 g1 cs cbs m' g' ->
    beamed fuel f m g (c :: cs)
      (ObserveApplyControl
         (mkcontrol (at_relative f (c_position c)) (c_dwell c) (Some 60) (Some (1 / 10)))
       :: map (fun t => ObserveTransition (fst t) (snd t)) ts ++ cbs) m' g'.

(** the image of an observation, if one was asked for *)
Definition pictured (return_image : bool) (prm : image_parameters) (obs : observation)
  (g g' : G) (cbs : list callback) : Prop :=
  if return_image
  then exists i, render (o_grid obs) (o_fov obs) prm g = (Ok i, g') /\
       o_image obs = Some i /\ cbs = [ObserveGeneratedImage i]
  else o_image obs = None /\ g' = g /\ cbs = [].

(** a simulator that is ready for steps: the material is the single-doped
    sheet gr over the positions ps, the field of view is the square f of side
    a, 15 <= a <= 30 *)
Record ready (sim : simulator) (ps : list pt) (gr : grid) (f : fov) (a : R)
  (prm : image_parameters) : Prop := {
  ready_reset : sim_reset sim = true;
  ready_material : m_reset (sim_material sim) = true;
  ready_grid : m_grid (sim_material sim) = Some gr;
  ready_sheet : doped_sheet ps gr;
  ready_distinct : NoDup ps;
  ready_fov : sim_fov sim = Some f;
  ready_scale : sim_fov_scale sim = Some a;
  ready_square : square f a;
  ready_size : 15 <= a <= 30;
  ready_parameters : sim_image_parameters sim = Some prm
}.

(** [stepped n cs i sim f a prm g obs sim' g' cbs]: what a successful step
    returns and does *)
Inductive stepped (fuel : nat) (cs : list control) (return_image : bool)
  (sim : simulator) (f : fov) (a : R) (prm : image_parameters) (g : G)
  : observation -> simulator -> G -> list callback -> Prop :=
| stepped_stay m' g1 gr' si obs g' cbs icbs :
    beamed fuel f (sim_material sim) g cs cbs m' g1 ->
    m_grid m' = Some gr' -> silicon_at gr' si ->
    safe (relative_to f si) ->
    o_fov obs = f -> shows f gr' (o_grid obs) ->
    o_controls obs = cs -> o_label_image obs = None ->
    o_elapsed obs = (zsum (map c_dwell cs) + sim_image_duration sim)%Z ->
    pictured return_image prm obs g1 g' icbs ->
    stepped fuel cs return_image sim f a prm g obs
      (mksimulator m' (sim_observers sim) (sim_image_duration sim) true (Some a) (Some f) (Some prm)) g'
      (cbs ++ [ObserveTakeImage (sim_image_duration sim) f] ++ icbs)
| stepped_recentre m' g1 gr' si f' obs g' cbs icbs :
    beamed fuel f (sim_material sim) g cs cbs m' g1 ->
    m_grid m' = Some gr' -> silicon_at gr' si ->
    ~ safe (relative_to f si) ->
    f' = square_around si a ->
    o_fov obs = f' -> shows f' gr' (o_grid obs) ->
    o_controls obs = cs -> o_label_image obs = None ->
    o_elapsed obs = (zsum (map c_dwell cs) + sim_image_duration sim + sim_image_duration sim)%Z ->
    pictured return_image prm obs g1 g' icbs ->
    stepped fuel cs return_image sim f a prm g obs
      (mksimulator m' (sim_observers sim) (sim_image_duration sim) true (Some a) (Some f') (Some prm)) g'
      (cbs ++ [ObserveTakeImage (sim_image_duration sim) f; ObserveFovChange f';
               ObserveTakeImage (sim_image_duration sim) f'] ++ icbs).

End WithRng.

(** * Reading the event log *)

Definition is_reset_event (e : sim_event) : Prop :=
  match e with EvReset _ _ => True | _ => False end.

(** the material after the last RESET or TRANSITION event *)
Fixpoint replay (log : list sim_event) (now : option grid) : option grid :=
  match log with
  | [] => now
  | EvReset gr _ :: log => replay log (Some gr)
  | EvTransition _ gr :: log => replay log (Some gr)
  | _ :: log => replay log now
  end.

(** the controls of a log, in order *)
Definition logged_controls (log : list sim_event) : list (timedelta * pt) :=
  flat_map (fun e => match e with EvApplyControl d p => [(d, p)] | _ => [] end) log.

(** the time a log accounts for *)
Definition logged_time (log : list sim_event) : Z :=
  zsum (map (fun e => match e with
                      | EvApplyControl d _ => d
                      | EvTakeImage d _ => d
                      | _ => 0%Z
                      end) log).

(** dwell times and image durations announced by callbacks *)
Definition announced_time (cbs : list callback) : Z :=
  zsum (map (fun cb => match cb with
                       | ObserveApplyControl c => c_dwell c
                       | ObserveTakeImage d _ => d
                       | _ => 0%Z
                       end) cbs).

(** the controls of consecutive observations, in material coordinates: each
    step used the field of view of the observation before it *)
Fixpoint aimed (before : observation) (obss : list observation) : list (timedelta * pt) :=
  match obss with
  | [] => []
  | o :: obss =>
      map (fun c => (c_dwell c, at_relative (o_fov before) (c_position c))) (o_controls o)
      ++ aimed o obss
  end.
