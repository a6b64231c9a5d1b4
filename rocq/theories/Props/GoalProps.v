(** Properties C34-C36: the single silicon goal. *)
From Coq Require Import Reals ZArith List Bool Lia Lra Arith.
From Verif Require Import Base.Prelude Base.Rounding Base.Random Model.Constants Model.MicroscopeUtils
  Model.Graphene Model.Goals Spec.Grids Spec.Material Spec.Acting Spec.Simulation
  Proofs.BaseFacts Proofs.RoundingFacts Proofs.FovFacts Proofs.MaterialFacts Proofs.ViewFacts Proofs.ExampleSampler
  Proofs.ActingFacts Proofs.SimulatorFacts.
Import ListNotations.
Open Scope R_scope.

(** ** C34 *)

(** with a silicon si and a non-empty list of candidates the goal becomes the
    material position of the candidate the generator chooses, and the count
    of consecutive steps restarts *)
Theorem goal_reset_chooses : forall G (s : sampler G) st o g si l, sampler_ok s -> wf_grid (o_grid o) ->
  central_silicon (o_grid o) si -> goal_candidates o si l -> l <> [] ->
  exists i a, fst (s_choice s (length l) g) = i /\ nth_error l i = Some a /\
    gm_reset (single_silicon_goal s) st o g =
      (Ok tt, mkgoal_state (at_relative (o_fov o) (fst a)) 0, snd (s_choice s (length l) g)).
Proof.
  intros G s st o g si l Hs W C Hl Nl. cbn [single_silicon_goal gm_reset]. unfold goal_reset.
  apply central_iff in C as E; auto. rewrite E.
  destruct (valid_goals_spec o si W) as (l' & Hl' & Ev). rewrite (selects_fun _ _ _ _ Hl' Hl) in Ev. rewrite Ev, map_length.
  assert (L : (0 < length l)%nat) by (destruct l; [congruence|simpl; lia]).
  rewrite (proj2 (Nat.eqb_neq _ _)) by lia.
  pose proof (choice_range s Hs (length l) g L) as R. destruct (s_choice s (length l) g) as [i g']. cbn [fst snd] in *.
  destruct (nth_error l i) as [a|] eqn:Ei; [|apply nth_error_None in Ei; lia].
  exists i, a. split; auto. split; auto. rewrite nth_error_map, Ei. cbn [option_map]. rewrite to_material_pt_eq. reflexivity.
Qed.
Print Assumptions goal_reset_chooses.

(** the two ways to fail; nothing changes then *)
Theorem goal_reset_errors : forall G (s : sampler G) st o g e st' g', sampler_ok s -> wf_grid (o_grid o) ->
  gm_reset (single_silicon_goal s) st o g = (Raise e, st', g') <->
  st' = st /\ g' = g /\
  ((e = SiliconNotFoundError /\ count_number 14 (o_grid o) = 0%nat) \/
   (e = RuntimeError /\ exists si, central_silicon (o_grid o) si /\ goal_candidates o si [])).
Proof.
  intros G s st o g e st' g' Hs W.
  destruct (single_silicon_cases _ W) as [(si & E & C & Ct)|(E & C)].
  - destruct (valid_goals_spec o si W) as (l & Hl & Ev).
    destruct l as [|a l].
    + cbn [single_silicon_goal gm_reset]. unfold goal_reset. rewrite E, Ev. cbn. split.
      * intros K. injection K as <- <- <-. split; auto. split; auto. right. eauto.
      * intros (-> & -> & [(-> & K)|(-> & _)]); [lia|reflexivity].
    + destruct (goal_reset_chooses G s st o g si (a :: l) Hs W C Hl) as (i & b & _ & _ & Er); [discriminate|].
      rewrite Er. split; [discriminate|].
      intros (_ & _ & [(_ & K)|(_ & si' & C' & Hl')]); [lia|].
      rewrite (central_unique _ _ _ C' C) in Hl'. pose proof (selects_fun _ _ _ _ Hl' Hl). discriminate.
  - cbn [single_silicon_goal gm_reset]. unfold goal_reset. rewrite E. split.
    + intros K. injection K as <- <- <-. auto.
    + intros (-> & -> & [(-> & K)|(-> & si & K & _)]); [reflexivity|]. apply central_count in K. lia.
Qed.
Print Assumptions goal_reset_errors.

(** the goal is an atom of the observation strictly between 0.1 and 50 A from
    the silicon, and it is not the silicon *)
Theorem goal_is_an_atom : forall G (s : sampler G) st o g st' g', sampler_ok s -> wf_grid (o_grid o) ->
  gm_reset (single_silicon_goal s) st o g = (Ok tt, st', g') ->
  exists si a, central_silicon (o_grid o) si /\ In a (atoms (o_grid o)) /\
    goal_position st' = at_relative (o_fov o) (fst a) /\
    1 / 10 < pdist (goal_position st') (at_relative (o_fov o) si) < 50 /\ fst a <> si.
Proof.
  intros G s st o g st' g' Hs W E.
  destruct (single_silicon_cases _ W) as [(si & E1 & C & Ct)|(E1 & C)].
  - destruct (valid_goals_spec o si W) as (l & Hl & Ev). destruct l as [|a l].
    + exfalso. assert (K : gm_reset (single_silicon_goal s) st o g = (Raise RuntimeError, st, g)).
      { apply goal_reset_errors; auto. split; auto. split; auto. right. eauto. }
      rewrite K in E. discriminate.
    + destruct (goal_reset_chooses G s st o g si (a :: l) Hs W C Hl) as (i & b & _ & Hb & Er); [discriminate|].
      rewrite Er in E. injection E as <- <-. exists si, b. apply nth_error_In in Hb.
      apply (selects_In _ _ _ Hl) in Hb as [Hb Hd]. repeat (split; auto).
      intros Heq. unfold angstroms in Hd. rewrite Heq, pdist_self in Hd. lra.
  - exfalso. assert (K : gm_reset (single_silicon_goal s) st o g = (Raise SiliconNotFoundError, st, g)).
    { apply goal_reset_errors; auto. }
    rewrite K in E. discriminate.
Qed.
Print Assumptions goal_is_an_atom.

Definition ex_scene (f : fov) : observation :=
  mkobs (mkgrid [relative_to f (mkpt 0 0); relative_to f (mkpt 1 0); relative_to f (mkpt 2 0)] [6; 14; 6]%Z) f [] 2000000%Z None None.

Example goal_is_an_atom_nonvacuous : exists st g',
  gm_reset (single_silicon_goal (ex_sampler 0)) new_goal (ex_scene (mkfov (mkpt 0 0) (mkpt 1 1))) 0%nat = (Ok tt, st, g') /\
  goal_position st <> mkpt 1 0.
Proof.
  set (o := ex_scene (mkfov (mkpt 0 0) (mkpt 1 1))).
  assert (W : wf_grid (o_grid o)) by reflexivity.
  assert (R : forall x y, relative_to (mkfov (mkpt 0 0) (mkpt 1 1)) (mkpt x y) = mkpt x y).
  { intros. unfold relative_to; cbn. f_equal; field. }
  assert (A : forall p, at_relative (mkfov (mkpt 0 0) (mkpt 1 1)) p = p).
  { intros [x y]. unfold at_relative; cbn. f_equal; field. }
  assert (C : central_silicon (o_grid o) (mkpt 1 0)).
  { apply lone_central; auto. split; [reflexivity|]. right; left. cbn [o ex_scene o_grid]. rewrite R. reflexivity. }
  assert (Hl : goal_candidates o (mkpt 1 0) [(mkpt 0 0, 6%Z); (mkpt 2 0, 6%Z)]).
  { unfold goal_candidates, o, ex_scene, atoms. cbn [o_grid positions numbers combine o_fov]. rewrite !R.
    unfold angstroms. constructor.
    - cbn [fst]. rewrite !A. replace (pdist (mkpt 0 0) (mkpt 1 0)) with 1; [lra|].
      unfold pdist, pnorm, psq, psub; cbn. replace ((0-1)*(0-1) + (0-0)*(0-0)) with 1 by ring. symmetry. apply sqrt_1.
    - apply selects_drop.
      + cbn [fst]. rewrite pdist_self. lra.
      + constructor; [|constructor]. cbn [fst]. rewrite !A. replace (pdist (mkpt 2 0) (mkpt 1 0)) with 1; [lra|].
        unfold pdist, pnorm, psq, psub; cbn. replace ((2-1)*(2-1) + (0-0)*(0-0)) with 1 by ring. symmetry. apply sqrt_1. }
  destruct (goal_reset_chooses nat (ex_sampler 0) new_goal o 0%nat _ _ (ex_sampler_ok 0 ltac:(lra)) W C Hl) as (i & a & _ & Ha & E); [discriminate|].
  eexists. eexists. split; [exact E|]. cbn [goal_position]. change (o_fov o) with (mkfov (mkpt 0 0) (mkpt 1 1)). rewrite A.
  apply nth_error_In in Ha. intros K. destruct Ha as [<-|[<-|[]]]; injection K; intros; lra.
Qed.

(** ** C35 *)

(** terminal exactly when the silicon is closer than 0.71 A, whatever the
    state of the goal; the goal position never changes *)
Theorem goal_outcome : forall G (s : sampler G) st o si, wf_grid (o_grid o) -> central_silicon (o_grid o) si ->
  exists ret st', gm_calculate (single_silicon_goal s) st o = (Ok ret, st') /\
    goal_position st' = goal_position st /\
    gr_truncated ret = false /\
    (gr_terminal ret = true <-> pdist (at_relative (o_fov o) si) (goal_position st) < 71 / 100) /\
    (gr_terminal ret = true -> gr_reward ret = discounted (o_elapsed o)) /\
    (gr_terminal ret = false -> gr_reward ret = 0) /\
    (gr_terminal ret = true -> goal_consecutive_steps st' = S (goal_consecutive_steps st)) /\
    (gr_terminal ret = false -> goal_consecutive_steps st' = 0%nat).
Proof.
  intros G s st o si W C. cbn [single_silicon_goal gm_calculate]. unfold goal_calculate.
  apply central_iff in C; auto. rewrite C. eexists. eexists. split; [reflexivity|].
  cbn [goal_position gr_truncated gr_terminal gr_reward goal_consecutive_steps]. rewrite to_material_pt_eq.
  replace (CARBON_BOND_DISTANCE_ANGSTROMS * (1 / 2)) with (71 / 100) by (unfold CARBON_BOND_DISTANCE_ANGSTROMS; lra).
  fold (pdist (at_relative (o_fov o) si) (goal_position st)).
  destruct (Rltb (pdist (at_relative (o_fov o) si) (goal_position st)) (71 / 100)) eqn:E.
  - apply Rltb_true in E. cbn. repeat (split; auto; try discriminate).
  - apply Rltb_false in E. cbn. repeat (split; auto; try discriminate). intros K. lra.
Qed.
Print Assumptions goal_outcome.

Theorem goal_outcome_errors : forall G (s : sampler G) st o e st', wf_grid (o_grid o) ->
  gm_calculate (single_silicon_goal s) st o = (Raise e, st') <->
  e = SiliconNotFoundError /\ st' = st /\ count_number 14 (o_grid o) = 0%nat.
Proof.
  intros G s st o e st' W. destruct (single_silicon_cases _ W) as [(si & E & C & Ct)|(E & C)].
  - destruct (goal_outcome G s st o si W C) as (ret & st1 & E1 & _). rewrite E1. split; [discriminate|].
    intros (_ & _ & K). lia.
  - cbn [single_silicon_goal gm_calculate]. unfold goal_calculate. rewrite E. split.
    + intros K. injection K as <- <-. auto.
    + intros (-> & -> & _). reflexivity.
Qed.
Print Assumptions goal_outcome_errors.

(** rewards lie in [0, 1] and are positive exactly when terminal *)
Theorem goal_reward_range : forall G (s : sampler G) st o ret st', wf_grid (o_grid o) -> (0 <= o_elapsed o)%Z ->
  gm_calculate (single_silicon_goal s) st o = (Ok ret, st') ->
  0 <= gr_reward ret <= 1 /\ (0 < gr_reward ret <-> gr_terminal ret = true).
Proof.
  intros G s st o ret st' W T E. destruct (single_silicon_cases _ W) as [(si & E1 & C & Ct)|(E1 & C)].
  - destruct (goal_outcome G s st o si W C) as (ret1 & st1 & E2 & _ & _ & _ & H1 & H2 & _).
    rewrite E2 in E. injection E as <- <-. pose proof (discounted_range _ T).
    destruct (gr_terminal ret1); [rewrite (H1 eq_refl)|rewrite (H2 eq_refl)].
    + split; [lra|]. split; auto. intros _. lra.
    + split; [lra|]. split; [lra|discriminate].
  - assert (K : gm_calculate (single_silicon_goal s) st o = (Raise SiliconNotFoundError, st)).
    { apply goal_outcome_errors; auto. }
    rewrite K in E. discriminate.
Qed.
Print Assumptions goal_reward_range.

(** the position exposed to callers is the goal position *)
Theorem current_goal_position : forall st, current_goal st = goal_position st.
Proof. intros [[x y] n]. reflexivity. Qed.
Print Assumptions current_goal_position.

Lemma ex_scene_lone f : proper f -> lone_silicon (o_grid (ex_scene f)) (relative_to f (mkpt 1 0)).
Proof. intros P. split; [reflexivity|]. right; left. reflexivity. Qed.

Example goal_outcome_nonvacuous : exists ret st',
  gm_calculate (single_silicon_goal (ex_sampler 0)) (mkgoal_state (mkpt (3/2) 0) 7)
    (ex_scene (mkfov (mkpt (-1) (-1)) (mkpt 4 1))) = (Ok ret, st') /\ gr_terminal ret = true.
Proof.
  set (f := mkfov (mkpt (-1) (-1)) (mkpt 4 1)).
  assert (P : proper f) by (unfold proper; cbn; lra).
  destruct (goal_outcome nat (ex_sampler 0) (mkgoal_state (mkpt (3/2) 0) 7) (ex_scene f) (relative_to f (mkpt 1 0))) as
    (ret & st' & E & _ & _ & T & _).
  - reflexivity.
  - apply lone_central; [reflexivity|apply ex_scene_lone; auto].
  - exists ret, st'. split; auto. apply T. cbn [o_fov ex_scene goal_position].
    rewrite at_relative_relative by (cbn; lra).
    apply pdist_lt_sq; [lra|]. unfold psq, psub; cbn. lra.
Qed.

(** ** C36 *)

(** two observations of the same sheet through different fields of view that
    both show its single silicon *)
Theorem goal_framing_independent : forall G (s : sampler G) st gr si f f' o o' ret st1 ret' st1',
  proper f -> proper f' ->
  silicon_at gr si -> inside (lower_left f) (upper_right f) 0 si -> inside (lower_left f') (upper_right f') 0 si ->
  o_fov o = f -> shows f gr (o_grid o) -> o_fov o' = f' -> shows f' gr (o_grid o') ->
  gm_calculate (single_silicon_goal s) st o = (Ok ret, st1) ->
  gm_calculate (single_silicon_goal s) st o' = (Ok ret', st1') ->
  gr_terminal ret = gr_terminal ret' /\ gr_truncated ret = gr_truncated ret' /\ st1 = st1' /\
  (o_elapsed o = o_elapsed o' -> ret = ret').
Proof.
  intros G s st gr si f f' o o' ret st1 ret' st1' P P' Hsi I I' Ef Sh Ef' Sh' E E'.
  assert (Aux : forall fv ob, proper fv -> inside (lower_left fv) (upper_right fv) 0 si -> o_fov ob = fv -> shows fv gr (o_grid ob) ->
     get_single_silicon_position (o_grid ob) = Ok (relative_to fv si) /\ to_material_pt (o_fov ob) (relative_to fv si) = si).
  { intros fv ob Pf Iv Efv Shv. split.
    - destruct (shows_silicon fv gr (o_grid ob) si Shv Hsi) as [K _]. unfold get_single_silicon_position. rewrite (K Iv). reflexivity.
    - rewrite Efv, to_material_pt_eq. apply at_relative_relative; unfold proper in Pf; lra. }
  destruct (Aux f o P I Ef Sh) as [A1 A2]. destruct (Aux f' o' P' I' Ef' Sh') as [B1 B2].
  cbn [single_silicon_goal gm_calculate] in E, E'. unfold goal_calculate in E, E'.
  rewrite A1, A2 in E. rewrite B1, B2 in E'. injection E as <- <-. injection E' as <- <-.
  repeat split. intros ->. reflexivity.
Qed.
Print Assumptions goal_framing_independent.

Example goal_framing_nonvacuous :
  let gr := mkgrid [mkpt 0 0; mkpt 1 0; mkpt 2 0] [6; 14; 6]%Z in
  let f := mkfov (mkpt (-1) (-1)) (mkpt 4 1) in let f' := mkfov (mkpt (-2) (-3)) (mkpt 7 1) in
  silicon_at gr (mkpt 1 0) /\ proper f /\ proper f' /\ shows f gr (o_grid (ex_scene f)) /\ shows f' gr (o_grid (ex_scene f')).
Proof.
  cbn zeta. split; [|split; [|split; [|split]]].
  - exists 1%nat. split; [|reflexivity]. split; [reflexivity|]. split; [cbn; lia|].
    intros [|[|[|[|k]]]] z E; cbn in E; try discriminate; injection E as <-; auto.
  - unfold proper; cbn; lra.
  - unfold proper; cbn; lra.
  - split; [reflexivity|]. eexists. split; [|].
    + repeat (apply selects_keep; [unfold inside; cbn; lra|]). apply selects_nil.
    + repeat constructor.
  - split; [reflexivity|]. eexists. split; [|].
    + repeat (apply selects_keep; [unfold inside; cbn; lra|]). apply selects_nil.
    + repeat constructor.
Qed.
