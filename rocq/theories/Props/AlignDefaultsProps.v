(** C68, C73: the aligner with its default parameters, and alignment runs that fail *)
From Coq Require Import Reals ZArith List Bool Arith Lia Lra.
From Verif Require Import Base.Prelude Base.Random Model.Geometry Model.MicroscopeUtils Model.Alignment Model.Io Model.Pipeline
  Spec.Aligning Spec.Merging Spec.Protos Proofs.BaseFacts Props.FilterCallProps Props.TrajectoryAlignProps.
Import ListNotations.
Open Scope R_scope.

Section Defaults.
Context {G : Type}.
Variable s : sampler G.
Variable asort : argsort_fn.
Variable find : cliques_fn.
Variable kmeans : list (list R) -> G -> (list R -> Z) * G.

(** C68: without other parameters, an observation is aligned with the last ten: in twenty steps, without
    noise, by at most two; the ten are then without the oldest and with the new one *)
Theorem default_observation o st h g grid drift st' h' g' :
  fs_observations st <> [] -> filter_call s asort find kmeans default_filter_params o st h g = (Ok (grid, drift), st', h', g') ->
  exists ps labels d,
    array h (gf_positions o) = points ps /\
    al_result (align_latest s asort ps (flat_map (array h) (fs_observations st)) labels (concat (fs_classes st)) 20 0 2 (Some 2) 0 (Some (Some pzero)) g) = Ok d /\
    drift = negated d /\
    snd (naive_merge (11 / 10) (fs_observations st ++ [length h]) (h ++ [map (fun p => vadd (Some p) d) ps])) = h' /\
    (length (fs_observations st) < 10 -> fs_observations st' = fs_observations st ++ [length h])%nat /\
    (length (fs_observations st) = 10 -> fs_observations st' = tl (fs_observations st) ++ [length h])%nat.
Proof.
  intros N. unfold filter_call. destruct (fs_observations st) as [|r rs] eqn:Eo; [congruence|]. rewrite <- Eo. intros H.
  apply later_ok in H. destruct H as (c & ps & labels & d & kept & kl & _ & E1 & _ & _ & E2 & _ & E3 & E4 & _ & E5 & E6 & _).
  exists ps, labels, d. split; [exact E1|]. split; [exact E2|]. split; [exact E3|]. destruct (E5 eq_refl) as [-> _].
  split; [|split].
  - unfold filter_merge in E4. cbn [fp_clique_merging default_filter_params fp_merge_cutoff] in E4.
    destruct (naive_merge (11 / 10) _ _) as [r0 h0]. injection E4 as _ <-. reflexivity.
  - intros L. rewrite E6. cbn [fp_history_length default_filter_params]. replace (S _ - 10)%nat with 0%nat by lia. reflexivity.
  - intros L. rewrite E6. cbn [fp_history_length default_filter_params]. rewrite L. cbn [Nat.sub].
    rewrite Eo in *. reflexivity.
Qed.
End Defaults.
Print Assumptions default_observation.

Section Script.
Context {A B : Type}.
Variable reset : nat -> A -> A.
Variable call : option image -> fov -> A -> res (grid * pt) * A.
Variable parse : B -> res ptrajectory.
Variable serialize : ptrajectory -> B.

(** C73: without other arguments a trajectory is aligned in one pass with full steps, by an aligner that
    was reset to a history of five, and keeps its grids *)
Theorem default_alignment t a : do_alignment reset call t default_align_args a = align_loop call false 1 t pzero (reset 5%nat a).
Proof.
  unfold do_alignment. cbn [aa_iterations default_align_args seq align_iterations aa_relabel aa_history_length].
  replace (step_size_at _ 1) with 1 by (unfold step_size_at; cbn; field).
  destruct (align_loop call false 1 t pzero (reset 5%nat a)) as [[t'|e|] a']; reflexivity.
Qed.

(** C73: with more passes, and no other arguments, each pass still makes full steps *)
Theorem default_steps n i : (0 < n)%nat ->
  step_size_at (mkalign_args (aa_history_length default_align_args) n (aa_base_step_size default_align_args)
    (aa_relabel default_align_args)) i = 1.
Proof. intros H. unfold step_size_at. cbn. apply lt_0_INR in H. field. lra. Qed.

(** C73: a run whose source cannot be read, or whose trajectories cannot be aligned, writes nothing *)
Theorem align_script_raises source target dir args fs a :
  (forall e, map_res (read_models trajectory_from_proto parse fs) (match dir with Some files => files | None => [source] end) = Raise e ->
     align_main reset call parse serialize source target dir args fs a = (Raise e, fs, a)) /\
  (forall tss e a', map_res (read_models trajectory_from_proto parse fs) (match dir with Some files => files | None => [source] end) = Ok tss ->
     align_all reset call args (concat tss) a = (Raise e, a') ->
     align_main reset call parse serialize source target dir args fs a = (Raise e, fs, a')).
Proof.
  unfold align_main. split.
  - intros e ->. reflexivity.
  - intros tss e a' -> ->. reflexivity.
Qed.
End Script.
Print Assumptions default_alignment.
Print Assumptions default_steps.
Print Assumptions align_script_raises.

(** an aligner that raises at the second image; a trajectory of three *)
Example align_raises_nonvacuous :
  let call (im : option image) (f : fov) (a : nat) : res (grid * pt) * nat :=
    match a with 1%nat => (Raise RuntimeError, 2%nat) | _ => (Ok (mkgrid [] [], pzero), S a) end in
  let o := mkobs (mkgrid [] []) (mkfov pzero (mkpt 20 20)) [] 0%Z None None in
  align_all (fun _ _ => 0%nat) call default_align_args [[o; o; o]] 7%nat = (Raise RuntimeError, 2%nat).
Proof. reflexivity. Qed.
