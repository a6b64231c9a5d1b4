(** putting_dune/simulator.py, with the parts of imaging.py and of the
    observer interface (microscope_utils.py:503-535) that it uses.

    A call on the simulator takes the generator passed by the caller and
    returns, in every case: its result, the new state of the simulator, the
    new state of the generator and the callbacks delivered to the observers,
    in order. *)
From Coq Require Import Reals ZArith List Bool Arith.
From Verif Require Import Base.Prelude Base.Rounding Base.Random Model.Constants Model.Geometry
  Model.MicroscopeUtils Model.Graphene.
Import ListNotations.
Open Scope R_scope.

(** microscope_utils.py:503-535 SimulatorObserver: one constructor per method *)
Inductive callback :=
| ObserveReset (gr : grid) (f : fov)
| ObserveApplyControl (c : control)
| ObserveTransition (time_since_control_was_applied : timedelta) (gr : grid)
| ObserveFovChange (f : fov)
| ObserveTakeImage (duration : timedelta) (f : fov)
| ObserveGeneratedImage (i : image).

(** An observer is an object; only its identity matters here.
    Used at simulator.py:54-63. *)
Definition observer := nat.
(** used at simulator.py:65-222 *)
Definition trace := list (observer * callback).

(** imaging.py:28-39 ImageGenerationParameters *)
Record image_parameters := mkimage_parameters {
  ip_intensity_exponent : R;
  ip_gaussian_variance : R;
  ip_jitter_rate : R;
  ip_poisson_rate_multiplier : R;
  ip_salt_and_pepper_amount : R;
  ip_blur_amount : R;
  ip_contrast_gamma : R;
  ip_exponential_lambda : R;
  ip_uniform_noise_scale : R;
  ip_image_size : nat
}.

Section WithRng.
Context {G : Type}.
Variable s : sampler G.

(** imaging.py:42-54 sample_image_parameters; keyword arguments are evaluated
    in order *)
Definition sample_image_parameters (image_size : nat) (g : G) : image_parameters * G :=
  let '(intensity_exponent, g) := s_uniform s (14 / 10) 2 g in
  let '(gaussian_variance, g) := s_uniform s 0 (5 / 1000) g in
  let '(jitter_rate, g) := s_uniform s 0 5 g in
  let '(e, g) := s_exponential s 15 g in
  let '(salt_and_pepper_amount, g) := s_uniform s 0 (1 / 1000) g in
  let '(blur_amount, g) := s_uniform s 0 1 g in
  let '(contrast_gamma, g) := s_uniform s (7 / 10) (13 / 10) g in
  let '(exponential_lambda, g) := s_uniform s 0 (2 / 10) g in
  let '(uniform_noise_scale, g) := s_uniform s 0 (2 / 10) g in
  (mkimage_parameters intensity_exponent gaussian_variance jitter_rate (e + 1)
     salt_and_pepper_amount blur_amount contrast_gamma exponential_lambda
     uniform_noise_scale image_size, g).

(** imaging.py:57-72 sample_noisy_image_parameters *)
Definition sample_noisy_image_parameters (image_size : nat) (g : G) : image_parameters * G :=
  let '(intensity_exponent, g) := s_uniform s (14 / 10) 2 g in
  let '(gaussian_variance, g) := s_uniform s 0 (3 / 10) g in
  let '(jitter_rate, g) := s_uniform s 0 5 g in
  let '(e, g) := s_exponential s 15 g in
  let '(salt_and_pepper_amount, g) := s_uniform s 0 (1 / 100) g in
  let '(blur_amount, g) := s_uniform s 0 (1 / 4) g in
  let '(contrast_gamma, g) := s_uniform s (1 / 2) (15 / 10) g in
  let '(exponential_lambda, g) := s_uniform s 0 (1 / 4) g in
  let '(uniform_noise_scale, g) := s_uniform s 0 (1 / 4) g in
  (mkimage_parameters intensity_exponent gaussian_variance jitter_rate (e + 1)
     salt_and_pepper_amount blur_amount contrast_gamma exponential_lambda
     uniform_noise_scale image_size, g).

(** imaging.py:239-265 generate_stem_image, as an oracle: it may use the
    generator and may raise.  Nothing else is known about it. *)
Definition renderer := grid -> fov -> image_parameters -> G -> res image * G.
Variable render : renderer.

(** * The state of a PuttingDuneSimulator; [None]: attribute not set yet *)
(** used at simulator.py:54-63 *)
Record simulator := mksimulator {
  sim_material : material;
  sim_observers : list observer;
  sim_image_duration : timedelta;
  sim_reset : bool;
  sim_fov_scale : option R;
  sim_fov : option fov;
  sim_image_parameters : option image_parameters
}.

(** simulator.py:54-63 __init__ *)
Definition new_simulator (m : material) (image_duration : timedelta) (observers : list observer)
  : simulator :=
  mksimulator m observers image_duration false None None None.

(** simulator.py:34: the default image duration, two seconds *)
Definition default_image_duration : timedelta := 2000000%Z.

Definition with_material (sim : simulator) (m : material) : simulator :=
  mksimulator m (sim_observers sim) (sim_image_duration sim) (sim_reset sim)
    (sim_fov_scale sim) (sim_fov sim) (sim_image_parameters sim).
Definition with_observers (sim : simulator) (os : list observer) : simulator :=
  mksimulator (sim_material sim) os (sim_image_duration sim) (sim_reset sim)
    (sim_fov_scale sim) (sim_fov sim) (sim_image_parameters sim).
Definition with_reset (sim : simulator) : simulator :=
  mksimulator (sim_material sim) (sim_observers sim) (sim_image_duration sim) true
    (sim_fov_scale sim) (sim_fov sim) (sim_image_parameters sim).
Definition with_fov_scale (sim : simulator) (x : R) : simulator :=
  mksimulator (sim_material sim) (sim_observers sim) (sim_image_duration sim) (sim_reset sim)
    (Some x) (sim_fov sim) (sim_image_parameters sim).
Definition with_fov (sim : simulator) (f : fov) : simulator :=
  mksimulator (sim_material sim) (sim_observers sim) (sim_image_duration sim) (sim_reset sim)
    (sim_fov_scale sim) (Some f) (sim_image_parameters sim).
Definition with_parameters (sim : simulator) (p : image_parameters) : simulator :=
  mksimulator (sim_material sim) (sim_observers sim) (sim_image_duration sim) (sim_reset sim)
    (sim_fov_scale sim) (sim_fov sim) (Some p).

(** * Calls that read and write the simulator, draw, notify and may raise *)
(** used at simulator.py:65-222 *)
Record outcome (A : Type) := mkoutcome {
  out_result : res A;
  out_sim : simulator;
  out_rng : G;
  out_trace : trace
}.
Arguments mkoutcome {A}.
Arguments out_result {A}.
Arguments out_sim {A}.
Arguments out_rng {A}.
Arguments out_trace {A}.

(** used at simulator.py:65-222 *)
Definition call (A : Type) := simulator -> G -> outcome A.

(** used at simulator.py:65-222 *)
Definition ret {A} (a : A) : call A := fun sim g => mkoutcome (Ok a) sim g [].
(** used at simulator.py:65-222 *)
Definition raise {A} (e : exn) : call A := fun sim g => mkoutcome (Raise e) sim g [].
(** used at simulator.py:65-222 *)
Definition then_ {A B} (x : call A) (k : A -> call B) : call B :=
  fun sim g =>
    let o := x sim g in
    match out_result o with
    | Ok a =>
        let o' := k a (out_sim o) (out_rng o) in
        mkoutcome (out_result o') (out_sim o') (out_rng o') (out_trace o ++ out_trace o')
    | Raise e => mkoutcome (Raise e) (out_sim o) (out_rng o) (out_trace o)
    | OutOfFuel => mkoutcome OutOfFuel (out_sim o) (out_rng o) (out_trace o)
    end.
Notation "x <~ c ;; k" := (then_ c (fun x => k))
  (at level 61, c at next level, right associativity).
Notation "c ;;; k" := (then_ c (fun _ => k)) (at level 61, right associativity).

(** used at simulator.py:65-222 *)
Definition get_self : call simulator := fun sim g => mkoutcome (Ok sim) sim g [].
(** used at simulator.py:65-222 *)
Definition set_self (h : simulator -> simulator) : call unit :=
  fun sim g => mkoutcome (Ok tt) (h sim) g [].
(** used at simulator.py:65-222 *)
Definition lift {A} (r : res A) : call A := fun sim g => mkoutcome r sim g [].
(** used at simulator.py:65-222 *)
Definition draws {A} (h : G -> res A * G) : call A :=
  fun sim g => let '(r, g) := h g in mkoutcome r sim g [].
(** self.<attribute>: AttributeError when it was never set.
    Used at simulator.py:192-210. *)
Definition attribute {A} (field : simulator -> option A) : call A :=
  fun sim g => mkoutcome (match field sim with Some a => Ok a | None => Raise AttributeError end) sim g [].
(** for observer in self._observers: <the given callbacks, in order>.
    Used at simulator.py:192-210. *)
Definition notify (cbs : list callback) : call unit :=
  fun sim g => mkoutcome (Ok tt) sim g
    (flat_map (fun o => map (fun cb => (o, cb)) cbs) (sim_observers sim)).

(** self.material.reset(rng). Used at simulator.py:65-105. *)
Definition reset_material : call unit :=
  fun sim g =>
    let '(r, m, g) := material_reset s (sim_material sim) g in
    mkoutcome r (with_material sim m) g [].
(** self.material.apply_control(rng, control, self._observers): graphene.py
    687-691 notifies every observer of every transition. Used at simulator.py:130-149. *)
Definition expose_material (fuel : nat) (c : control) : call unit :=
  fun sim g =>
    let '(r, m, g, ts) := apply_control s fuel (sim_material sim) c g in
    mkoutcome r (with_material sim m) g
      (flat_map (fun t => map (fun o => (o, ObserveTransition (fst t) (snd t))) (sim_observers sim)) ts).

(** geometry.Point of a flat array: two coordinates.  (One or no silicon gives
    two or no entries; the other lengths do not occur after a reset.).
    Used at simulator.py:79-82, 154-158. *)
Definition point_of_array (a : list R) : res pt :=
  match a with [x; y] => Ok (mkpt x y) | _ => Raise ValueError end.

(** simulator.py:79-82, 154-158: the field of view of the given size centred
    on the silicon *)
Definition centered_fov (scale : R) : call fov :=
  sim <~ get_self ;;
  a <~ lift (get_silicon_position (sim_material sim)) ;;
  ll <~ lift (point_of_array (map (fun x => x - scale / 2) a)) ;;
  ur <~ lift (point_of_array (map (fun x => x + scale / 2) a)) ;;
  ret (mkfov ll ur).

(** simulator.py:192-210 _get_observed_grid_and_elapsed_time *)
Definition get_observed_grid_and_elapsed_time : call (grid * timedelta) :=
  f <~ attribute sim_fov ;;
  sim <~ get_self ;;
  observation <~ lift (get_atoms_in_bounds (sim_material sim) (lower_left f) (upper_right f)) ;;
  notify [ObserveTakeImage (sim_image_duration sim) f] ;;;
  ret (observation, sim_image_duration sim).

(** simulator.py:212-222 _generate_image *)
Definition generate_image (observed_grid : grid) : call image :=
  f <~ attribute sim_fov ;;
  p <~ attribute sim_image_parameters ;;
  observed_image <~ draws (render observed_grid f p) ;;
  notify [ObserveGeneratedImage observed_image] ;;;
  ret observed_image.

(** simulator.py:230-250 _silicon_outside_of_safe_area *)
Definition outside_quarter (x : R) : bool := Rltb x (1 / 4) || Rltb (3 / 4) x.
Definition silicon_outside_of_safe_area (observed_grid : grid) : res bool :=
  match get_silicon_positions observed_grid with
  | [] => Ok true
  | [p] => Ok (outside_quarter (px p) || outside_quarter (py p))
  | _ => Raise AssertionError
  end.

Definition maybe_image (return_image : bool) (observed_grid : grid) : call (option image) :=
  if return_image then (i <~ generate_image observed_grid ;; ret (Some i)) else ret None.

(** simulator.py:65-105 reset *)
Definition sim_do_reset (return_image : bool) : call observation :=
  set_self with_reset ;;;
  reset_material ;;;
  scale <~ draws (fun g => let '(x, g) := s_uniform s 15 30 g in (Ok x, g)) ;;
  set_self (fun sim => with_fov_scale sim scale) ;;;
  f <~ centered_fov scale ;;
  set_self (fun sim => with_fov sim f) ;;;
  (* Line 86 reads material.grid once per observer; it is set at this point. *)
  gr <~ attribute (fun sim => m_grid (sim_material sim)) ;;
  notify [ObserveReset gr f; ObserveFovChange f] ;;;
  og <~ get_observed_grid_and_elapsed_time ;;
  p <~ draws (fun g => let '(p, g) := sample_image_parameters 512 g in (Ok p, g)) ;;
  set_self (fun sim => with_parameters sim p) ;;;
  i <~ maybe_image return_image (fst og) ;;
  ret (mkobs (fst og) f [] (snd og) i None).

(** simulator.py:130-149: one pass of the loop over the controls *)
Definition apply_one (fuel : nat) (c : control) : call unit :=
  f <~ attribute sim_fov ;;
  p <~ lift (microscope_frame_to_material_frame f (PPoint (c_position c))) ;;
  match p with
  | PPoint q =>
      let c' := beam_control q (c_dwell c) in
      notify [ObserveApplyControl c'] ;;;
      expose_material fuel c'
  | _ => raise TypeError
  end.

(** simulator.py:128-149: the loop; [elapsed] is the local elapsed_time *)
Fixpoint apply_all (fuel : nat) (elapsed : timedelta) (cs : list control) : call timedelta :=
  match cs with
  | [] => ret elapsed
  | c :: cs => apply_one fuel c ;;; apply_all fuel (elapsed + c_dwell c)%Z cs
  end.

(** simulator.py:224-228 _assert_has_been_reset *)
Definition assert_has_been_reset : call unit :=
  sim <~ get_self ;;
  if sim_reset sim then ret tt else raise RuntimeError.

(** simulator.py:151-169: taking the image, re-centring if necessary *)
Definition image_and_recentre (elapsed : timedelta) : call (grid * timedelta) :=
  og <~ get_observed_grid_and_elapsed_time ;;
  let elapsed := (elapsed + snd og)%Z in
  outside <~ lift (silicon_outside_of_safe_area (fst og)) ;;
  if outside : bool then
    scale <~ attribute sim_fov_scale ;;
    f <~ centered_fov scale ;;
    set_self (fun sim => with_fov sim f) ;;;
    notify [ObserveFovChange f] ;;;
    og <~ get_observed_grid_and_elapsed_time ;;
    ret (fst og, (elapsed + snd og)%Z)
  else ret (fst og, elapsed).

(** simulator.py:107-182 step_and_image.  [fuel] bounds the exposure loop of
    each control. *)
Definition step_and_image (fuel : nat) (controls : list control) (return_image : bool)
  : call observation :=
  assert_has_been_reset ;;;
  elapsed <~ apply_all fuel 0%Z controls ;;
  og <~ image_and_recentre elapsed ;;
  i <~ maybe_image return_image (fst og) ;;
  f <~ attribute sim_fov ;;
  ret (mkobs (fst og) f controls (snd og) i None).

(** simulator.py:184-185 add_observer *)
Definition add_observer (o : observer) : call unit :=
  set_self (fun sim => with_observers sim (sim_observers sim ++ [o])).

(** list.remove: the first equal element, None if there is none.
    Used at simulator.py:187-190. *)
Fixpoint list_remove (o : observer) (l : list observer) : option (list observer) :=
  match l with
  | [] => None
  | x :: l => if Nat.eqb x o then Some l else option_map (cons x) (list_remove o l)
  end.

(** simulator.py:187-190 remove_observer; ValueError if it is not in the list *)
Definition remove_observer (o : observer) : call unit :=
  sim <~ get_self ;;
  match list_remove o (sim_observers sim) with
  | Some os => set_self (fun sim => with_observers sim os)
  | None => raise ValueError
  end.

End WithRng.
Arguments mkoutcome {G A}.
Arguments out_result {G A}.
Arguments out_sim {G A}.
Arguments out_rng {G A}.
Arguments out_trace {G A}.
