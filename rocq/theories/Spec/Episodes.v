(** Vocabulary for statements about environments: sequences of calls, the
    dm_env protocol and episodes. *)
From Coq Require Import Reals ZArith List Bool Arith.
From Verif Require Import Base.Prelude Base.Rounding Base.Random Model.MicroscopeUtils Model.Graphene Model.Simulator
  Model.ActionAdapters Model.Goals Model.FeatureConstructors Model.Environment
  Spec.Grids Spec.Lattice Spec.Material Spec.MaterialRuns Spec.Simulation Spec.Acting.
Import ListNotations.
Open Scope R_scope.

Inductive env_call := CallReset | CallStep (action : list R).

Section Sessions.
Context {E F : Type}.
Variable en : environment E F.

Definition answer (c : env_call) (e : E) : res (time_step F) * E :=
  match c with CallReset => e_reset en e | CallStep a => e_step en a e end.

(** a sequence of calls none of which raised, with what they returned *)
Inductive session (e : E) : list (env_call * time_step F) -> E -> Prop :=
| session_nil : session e [] e
| session_snoc h e1 c ts e2 : session e h e1 -> answer c e1 = (Ok ts, e2) ->
    session e (h ++ [(c, ts)]) e2.

(** the results of a sequence of calls, some of which may raise *)
Fixpoint answers (cs : list env_call) (e : E) : list (res (time_step F)) :=
  match cs with
  | [] => []
  | c :: cs => fst (answer c e) :: answers cs (snd (answer c e))
  end.

End Sessions.

Section Results.
Context {F : Type}.

(** the results that start an episode: those of reset, those after the end of
    an episode and, for an environment that waits for a reset, the first one *)
Definition protocol (waiting : bool) (h : list (env_call * time_step F)) : Prop :=
  forall i c ts, nth_error h i = Some (c, ts) ->
    (ts_type ts = FIRST <->
     c = CallReset \/ (i = 0%nat /\ waiting = true) \/
     exists j c' ts', i = S j /\ nth_error h j = Some (c', ts') /\ ts_type ts' = LAST).

(** (part of) an episode: a FIRST result and results that are not FIRST *)
Definition episode (l : list (time_step F)) : Prop :=
  exists ts rest, l = ts :: rest /\ ts_type ts = FIRST /\ Forall (fun t => ts_type t <> FIRST) rest.

(** the number of steps taken since the last FIRST result *)
Definition steps_into (h : list (env_call * time_step F)) : nat :=
  fold_left (fun n x => match ts_type (snd x) with FIRST => 0 | _ => S n end)%nat h 0%nat.

(** the last result is (at least) the limit-th step of its episode *)
Definition reached (limit : option Z) (h : list (env_call * time_step F)) : Prop :=
  exists n h0 c ts, limit = Some n /\ h = h0 ++ [(c, ts)] /\ ts_type ts <> FIRST /\ (n <= Z.of_nat (steps_into h))%Z.

(** the sum of the rewards *)
Definition total_reward (l : list (time_step F)) : R := fold_right Rplus 0 (map ts_reward l).

(** the two time steps agree in reward, discount and observation *)
Definition same_payload (a b : time_step F) : Prop :=
  ts_reward a = ts_reward b /\ ts_discount a = ts_discount b /\ ts_observation a = ts_observation b.

End Results.

Section Lives.
Context {G St Goal F : Type}.
Variable s : sampler G.
Variable render : @renderer G.
Variable adapter : action_adapter G St.
Variable features : feature_constructor Goal F.
Variable goal_m : goal_methods G Goal.
Variable fuel : nat.

(** what can happen to an environment: it is seeded, reset and stepped, any of
    which may raise, and observers come and go *)
Inductive lived (e0 : @env G St Goal) : @env G St Goal -> Prop :=
| lived_start : lived e0 e0
| lived_seed z e : lived e0 e -> lived e0 (env_seed s adapter z e)
| lived_reset e : lived e0 e -> lived e0 (eo_env (env_reset s render adapter features goal_m e))
| lived_step a e : lived e0 e -> lived e0 (eo_env (env_step s render adapter features goal_m fuel a e))
| lived_observers w o e : lived e0 e -> w = AddObserver o \/ w = RemoveObserver o ->
    lived e0 (mkenv (env_rng e) (env_adapter_rng e)
      (out_sim (perform s render w (env_sim e) (env_rng e)))
      (env_adapter e) (env_goal e) (env_last_observation e) (env_requires_reset e)).

(** the states of an environment around a sheet with the given rate function,
    number of columns and image duration *)
Definition lives (rf : rate_function) (cols : nat) (d : timedelta) (e : @env G St Goal) : Prop :=
  exists st goal g ga, lived (new_env (new_material rf cols) d st goal g ga) e.

(** controls never ask for negative dwell times *)
Definition never_negative : Prop := forall st o a cs st', wf_grid (o_grid o) ->
  aa_get_action adapter st o a = (Ok cs, st') -> Forall (fun c => 0 <= c_dwell c)%Z cs.

(** the action adapter is reset, with its own generator or the environment's, g *)
Definition adapter_restarts (e : @env G St Goal) (g : G) (st : St) (ga : option G) (g' : G) : Prop :=
  match env_adapter_rng e with
  | None => aa_reset adapter (env_adapter e) g = (st, g') /\ ga = None
  | Some own => exists own', aa_reset adapter (env_adapter e) own = (st, own') /\ ga = Some own' /\ g' = g
  end.

(** rate functions that never make an exposure of the sheet raise *)
Definition steady (rf : rate_function) (cols : nat) : Prop :=
  hopping rf /\
  (forall ps, graphene_sheet cols ps -> forall beam, well_behaved rf beam (doped_sheet ps)) /\
  (forall gr beam, rf gr beam <> OutOfFuel).

(** an observation of one silicon atom *)
Definition clear_view (o : observation) : Prop :=
  wf_grid (o_grid o) /\ proper (o_fov o) /\ exists si, lone_silicon (o_grid o) si.

(** the adapter turns such actions into exposures shorter than an hour (and
    than the bound on the passes of the loop) *)
Definition accepts (actions : list R -> Prop) : Prop := forall st o a, clear_view o -> actions a ->
  exists cs st', aa_get_action adapter st o a = (Ok cs, st') /\
    Forall (fun c => c_dwell c < 3600000000 /\ c_dwell c <= Z.of_nat fuel)%Z cs.

(** the feature constructor can describe every view of one silicon atom and
    three others, with an image if it asks for images *)
Definition describes : Prop := forall o goal, clear_view o -> (4 <= length (positions (o_grid o)))%nat ->
  (fc_requires_image features = true -> o_image o <> None) ->
  exists x, fc_get_features features o goal = Ok x.

(** an adapter without a generator is not affected by one *)
Definition unaffected : Prop := aa_has_rng adapter = false ->
  forall st g g', snd (aa_reset adapter st g) = g /\ fst (aa_reset adapter st g) = fst (aa_reset adapter st g').
(** a reset of the adapter forgets its state *)
Definition forgets : Prop := forall st st' g, aa_reset adapter st g = aa_reset adapter st' g.
(** a reset of the goal that does not raise forgets its state *)
Definition forgets_goal : Prop := forall goal goal' o g new g',
  gm_reset goal_m goal o g = (Ok tt, new, g') -> gm_reset goal_m goal' o g = (Ok tt, new, g').

End Lives.
