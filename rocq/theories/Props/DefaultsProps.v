(** Edges of C97, C100, C104 and C105: built-in names and default settings. *)
From Coq Require Import Reals ZArith List Bool Arith Lia Lra Ascii String.
From Verif Require Import Base.Prelude Base.Rounding Base.Random Model.Constants Model.MicroscopeUtils Model.Agents Model.MicroscopeAgent
  Model.Alignment Model.ImageAligner Model.Imaging Model.Goals Model.Registry
  Spec.Grids Spec.Views Spec.Imaging Spec.Registry Props.RegistryProps Props.MaskProps.
Import ListNotations.
Open Scope R_scope.

(** ** C104: the built-in evaluations *)
Theorem eval_names : forall name,
  (create_eval_experiment (registered []) name = Raise ValueError <->
     ~ In name ["relative_random_simple"; "relative_random_prior_rates"; "ppo_simple_images_tf"]%string) /\
  (forall regs, create_eval_experiment (registered regs) "ppo_simple_images_tf" =
     Ok (mkeval_experiment
       (TfAgent "ppo_simple_images_tf" "https://storage.googleapis.com/spr_data_bucket_public/ppo_simple_images_tf.zip")
       (FromPixels 1500000%Z 1500000%Z) SimpleRates)).
Proof.
  intros name. split.
  - destruct (eval_registration [] name) as (A & B & C). rewrite B. cbn [map fst eval_experiments].
    split; [intros (_ & N & _); exact N|]. intros N. split; [reflexivity|]. split; [exact N|intros []].
  - intros regs. apply (proj1 (eval_registration regs _)). unfold eval_experiments.
    rewrite default_lo_value, default_hi_value. eexists [_; _], _. split; [reflexivity|].
    intros [E|[E|[]]]; discriminate E.
Qed.
Print Assumptions eval_names.

(** ** C105: a greedy agent needs a vector; given a picture it raises and draws nothing *)
Theorem greedy_given_picture : forall G (s : sampler G) model argmax ad input image delta (g : G),
  ai_observation input = Picture image delta ->
  agent_step_of s model (GreedyOf argmax) ad input g = (Raise AttributeError, g).
Proof. intros G s model argmax ad input image delta g E. cbn [agent_step_of]. rewrite E. reflexivity. Qed.
Print Assumptions greedy_given_picture.

(** ** C100: masks of the default size and exponent *)
Theorem default_mask : forall (g : grid) (f : fov),
  Forall (fun z => 0 < z < 256)%Z (numbers g) ->
  exists mask, generate_grid_mask g f default_intensity_exponent (default_image_size, default_image_size) = Ok mask /\
    rs_height mask = 512%nat /\ rs_width mask = 512%nat /\
    forall i j, (i < 512)%nat -> (j < 512)%nat ->
      exists o, last_such (covers (17 / 10) f (pixel_centre f 512 512 i j)) (atoms_of g) o /\
        rs_pixel mask i j = match o with Some a => snd a | None => 0%Z end.
Proof. intros g f Hz. exact (mask_pixels g f (17 / 10) 512 Hz). Qed.
Print Assumptions default_mask.

(** ** C97: the filter behind the hybrid aligner remembers one observation, aligns
    once, without noise, moves and merges over at most half a bond, merges
    cliques, does not accumulate and drops the outer half *)
Theorem hybrid_settings : forall G (s : sampler G) asort find kmeans g p,
  exists r h, alloc (po_heap p) (map Some (positions g)) = (r, h) /\
  let '(x, st, h', rng) := filter_call s asort find kmeans
     {| fp_history_length := 1; fp_alignment_iterations := 1; fp_noise_scale := 0;
        fp_max_shift := 71 / 100; fp_merge_cutoff := 71 / 100;
        fp_accumulate_merged := false; fp_clique_merging := true; fp_trim := 1 / 2 |}
     (mkgrid_ref r (numbers g)) (po_filter p) h (po_rng p) in
  snd (filter_post_call s asort find kmeans g p) = mkpost_state st h' rng /\
  (forall out ps d, x = Ok out -> finite_rows (array h' (gf_positions (fst out))) = Some ps -> snd out = Some d ->
     fst (filter_post_call s asort find kmeans g p) = Ok (mkgrid ps (gf_numbers (fst out)), d)) /\
  (forall e, x = Raise e -> fst (filter_post_call s asort find kmeans g p) = Raise e).
Proof.
  intros G s asort find kmeans g p. eexists _, _. split; [reflexivity|].
  assert (E : hybrid_params = {| fp_history_length := 1; fp_alignment_iterations := 1; fp_noise_scale := 0;
        fp_max_shift := 71 / 100; fp_merge_cutoff := 71 / 100;
        fp_accumulate_merged := false; fp_clique_merging := true; fp_trim := 1 / 2 |}).
  { unfold hybrid_params, CARBON_BOND_DISTANCE_ANGSTROMS. f_equal; lra. }
  unfold filter_post_call. rewrite E. unfold alloc. cbv beta iota.
  match goal with |- context[filter_call s asort find kmeans ?q ?o ?f ?h ?g0] =>
    destruct (filter_call s asort find kmeans q o f h g0) as [[[x st] h'] rng] end.
  cbn [fst snd]. split; [reflexivity|]. split.
  - intros out ps d -> F S. cbn [bind]. rewrite F, S. reflexivity.
  - intros e ->. reflexivity.
Qed.
Print Assumptions hybrid_settings.

(** ** C34: a goal before its first reset *)
Theorem fresh_goal : goal_position new_goal = mkpt 0 0 /\ goal_consecutive_steps new_goal = 0%nat.
Proof. split; reflexivity. Qed.
Print Assumptions fresh_goal.

(** a silicon and a carbon atom have atomic numbers that fit *)
Example default_mask_nonvacuous :
  let g := mkgrid [mkpt 0 0; mkpt 10 10] [14; 6]%Z in
  Forall (fun z => 0 < z < 256)%Z (numbers g).
Proof. repeat constructor; lia. Qed.
