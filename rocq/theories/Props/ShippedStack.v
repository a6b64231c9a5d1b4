(** Property C44: the shipped stack does not raise. *)
From Coq Require Import Reals ZArith List Bool Lia Lra Arith.
From Verif Require Import Base.Prelude Base.Rounding Base.Random Model.Constants Model.Geometry Model.MicroscopeUtils
  Model.Graphene Model.Simulator Model.ActionAdapters Model.Goals Model.FeatureConstructors Model.Environment
  Spec.Grids Spec.Neighbours Spec.Lattice Spec.Material Spec.MaterialRuns Spec.Simulation Spec.Acting Spec.Episodes
  Proofs.BaseFacts Proofs.LatticeFacts Proofs.FovFacts Proofs.GeometryFacts Proofs.RateFacts Proofs.SheetFacts Proofs.CanonicalFacts Proofs.ExampleSampler
  Proofs.SimulatorFacts Proofs.SimulatorRuns Proofs.SimulatorHistories
  Proofs.ActingFacts Proofs.EnvironmentFacts Proofs.EpisodeFacts Proofs.SeedFacts
  Props.AdapterProps Props.GoalProps Props.FeatureProps.
Import ListNotations.
Open Scope R_scope.

Lemma Forall2_In_l {A B} (P : A -> B -> Prop) l l' x : Forall2 P l l' -> In x l -> exists y, In y l' /\ P x y.
Proof.
  induction 1 as [|a b l l' H F IH]; intros K; [inversion K|]. destruct K as [->|K].
  - exists b. split; [left|]; auto.
  - destruct (IH K) as (y & Hy & Py). exists y. split; [right|]; auto.
Qed.

Lemma selects_length {A} (P : A -> Prop) l l' : selects P l l' -> (length l' <= length l)%nat.
Proof. induction 1; simpl; lia. Qed.

Lemma neighbour_shown n ps gr si a obs b : graphene_sheet n ps -> doped_sheet ps gr ->
  pictures gr si a obs -> In b ps -> b <> si -> pdist si b <= 15 / 4 ->
  exists x, In x (atoms (o_grid obs)) /\ 1 / 10 < angstroms (o_fov obs) (fst x) (relative_to (o_fov obs) si) < 50.
Proof.
  intros Gs (Ep & _) P Hb N D1. pose proof (pictures_proper _ _ _ _ P) as Pr.
  destruct P as [(k & D & Ek) Sq S Sf (W & sel & Hsel & F2)].
  rewrite Ep in Ek. pose proof (nth_error_In _ _ Ek) as Hp.
  assert (Wg : wf_grid gr) by apply D.
  assert (Hz : exists z, In (b, z) (atoms gr)).
  { pose proof Hb as Hb'. rewrite <- Ep in Hb'. apply In_nth_error in Hb' as (i & Hi).
    destruct (nth_error (numbers gr) i) as [z|] eqn:Ez.
    - exists z. apply (nth_error_In _ i). unfold atoms. apply nth_error_combine. auto.
    - exfalso. apply nth_error_None in Ez. unfold wf_grid in Wg. assert (i < length (positions gr))%nat by (apply nth_error_Some; congruence). lia. }
  destruct Hz as (z & Hz).
  assert (Hs : In (b, z) sel).
  { apply (selects_In _ _ _ Hsel). split; auto. simpl. eapply safe_margin; eauto. lra. }
  destruct (Forall2_In_l _ _ _ _ F2 Hs) as (x & Hx & E1 & E2). cbn [fst snd] in *.
  exists x. split; auto. rewrite E1. unfold angstroms.
  rewrite !at_relative_relative by (unfold proper in Pr; lra).
  rewrite pdist_sym. assert (142 / 100 <= pdist si b) by (apply (graphene_spacing n ps); auto).
  lra.
Qed.

Lemma candidate_exists n ps gr si a obs : (3 <= n)%nat -> graphene_sheet n ps -> doped_sheet ps gr ->
  pictures gr si a obs -> exists b, In b (atoms (o_grid obs)) /\ 1 / 10 < angstroms (o_fov obs) (fst b) (relative_to (o_fov obs) si) < 50.
Proof.
  intros Hn Gs Dp P.
  assert (Hp : In si ps).
  { destruct P as [(k & D & Ek) _ _ _ _]. destruct Dp as (Ep & _). rewrite Ep in Ek. eapply nth_error_In; eauto. }
  destruct (graphene_three n ps si Hn Gs Hp) as (b & c & d & Hb & Hc & Hd & N & D1 & D2 & D3).
  apply (neighbour_shown n ps gr si a obs b); auto. inversion N as [|? ? N1 _]; subst. intros ->. apply N1. left; auto.
Qed.

Section Stack.
Context {G St F : Type}.
Variable s : sampler G.
Variable render : @renderer G.
Variable adapter : action_adapter G St.
Variable features : feature_constructor goal_state F.
Variable fuel : nat.

Lemma stack_reset rf cols d e : sampler_ok s -> (3 <= cols)%nat -> hopping rf ->
  describes features ->
  (fc_requires_image features = true -> forall og f prm g, exists i g', render og f prm g = (Ok i, g')) ->
  lives s render adapter features (single_silicon_goal s) fuel rf cols d e ->
  exists ts, eo_result (env_reset s render adapter features (single_silicon_goal s) e) = Ok ts.
Proof.
  intros O C H Ds Rn L. assert (C2 : (2 <= cols)%nat) by lia.
  destruct (lives_inv s render adapter features _ fuel rf cols d O C2 H e L) as [I1 _ _].
  destruct (sim_reset_total s render rf cols d _ (fc_requires_image features) (env_rng e) O C2 H I1 Rn) as (obs & Eo).
  destruct (sim_reset_pictures s render rf cols d _ _ _ _ O C2 H I1 Eo) as (ps & gr & si & a & Em & Gs & Dp & Pi & _ & _).
  destruct (reset_adapter_restarts adapter (mkenv (out_rng (sim_do_reset s render (fc_requires_image features) (env_sim e) (env_rng e)))
     (env_adapter_rng e) (env_sim e) (env_adapter e) (env_goal e) obs false) obs) as (st & ga & g1 & Ar & _).
  pose proof (pictures_wf _ _ _ _ Pi) as W. pose proof (pictures_lone _ _ _ _ Pi) as Lo.
  destruct (valid_goals_spec obs (relative_to (o_fov obs) si) W) as (l & Hl & _).
  assert (Nl : l <> []).
  { destruct (candidate_exists cols ps gr si a obs C Gs Dp Pi) as (b & Hb & Kb). intros ->.
    assert (K : In b []) by (apply (selects_In _ _ _ Hl); auto). inversion K. }
  destruct (goal_reset_chooses G s (env_goal e) obs g1 _ l O W (lone_central _ _ W Lo) Hl Nl) as (i & x & _ & _ & Eg).
  destruct (Ds obs (mkgoal_state (at_relative (o_fov obs) (fst x)) 0)) as (y & Ey).
  - split; auto. split; [eapply pictures_proper; eauto|eauto].
  - eapply four_in_view; eauto.
  - apply (sim_reset_image s render rf cols d _ _ _ obs O C2 H I1 Eo).
  - eexists. destruct (env_reset s render adapter features (single_silicon_goal s) e) as [r e' tr] eqn:Er. cbn [eo_result].
    assert (K : env_reset s render adapter features (single_silicon_goal s) e = mkenv_outcome
       (Ok (mktime_step FIRST 0 (discounted (o_elapsed obs)) y))
       (mkenv (snd (s_choice s (length l) g1)) ga (out_sim (sim_do_reset s render (fc_requires_image features) (env_sim e) (env_rng e))) st
         (mkgoal_state (at_relative (o_fov obs) (fst x)) 0) obs false)
       (out_trace (sim_do_reset s render (fc_requires_image features) (env_sim e) (env_rng e)))).
    { apply reset_returns. do 8 eexists. split; [reflexivity|]. split; [exact Eo|]. split; [exact Ar|]. split; [exact Eg|].
      split; [exact Ey|]. auto. }
    rewrite Er in K. injection K as -> _ _. reflexivity.
Qed.

Lemma stack_step actions rf cols d e act : sampler_ok s -> (forall sc g, / 2000000 < fst (s_exponential s sc g)) ->
  (3 <= cols)%nat -> steady rf cols -> describes features -> accepts adapter fuel actions ->
  (fc_requires_image features = true -> forall og f prm g, exists i g', render og f prm g = (Ok i, g')) ->
  lives s render adapter features (single_silicon_goal s) fuel rf cols d e -> actions act ->
  exists ts, eo_result (env_step s render adapter features (single_silicon_goal s) fuel act e) = Ok ts.
Proof.
  intros O X C (H & Hw & Hf) Ds Ac Rn L Ha. assert (C2 : (2 <= cols)%nat) by lia.
  destruct (env_requires_reset e) eqn:Ef; [rewrite step_auto by auto; eapply stack_reset; eauto|].
  destruct (lives_inv s render adapter features _ fuel rf cols d O C2 H e L) as [I1 (si0 & W0 & P0 & L0) I3].
  specialize (I3 Ef).
  destruct (Ac (env_adapter e) (env_last_observation e) act) as (cs & st & Ea & Dw); auto.
  { split; auto. split; eauto. }
  destruct (reachable_ready s render rf cols d _ O C2 H I1 I3) as (ps0 & gr0 & f0 & a0 & prm0 & Rd & Gs0).
  destruct (reachable_config s render rf cols d _ O C2 H I1) as (Er & _ & _).
  destruct (step_ok s render fuel cs (fc_requires_image features) (env_sim e) (env_rng e) ps0 gr0 f0 a0 prm0) as (obs & Eo); auto.
  - rewrite Er. auto.
  - rewrite Er. auto.
  - rewrite Er. auto.
  - eapply Forall_impl; [|exact Dw]. intros c Hc. apply Hc.
  - eapply Forall_impl; [|exact Dw]. intros c Hc. apply Hc.
  - destruct (sim_step_pictures s render rf cols d _ _ _ _ _ _ O C2 H I1 Eo) as (ps & gr & si & a & Em & Gs & Dp & Pi & _ & _).
    pose proof (pictures_wf _ _ _ _ Pi) as W. pose proof (pictures_lone _ _ _ _ Pi) as Lo.
    destruct (Ds obs (env_goal e)) as (y & Ey).
    { split; auto. split; [eapply pictures_proper; eauto|eauto]. }
    { eapply four_in_view; eauto. }
    { apply (sim_step_image s render rf cols d _ _ _ _ _ obs O C2 H I1 Eo). }
    destruct (goal_outcome G s (env_goal e) obs _ W (lone_central _ _ W Lo)) as (ret & goal & Eg & _).
    unfold env_step. rewrite Ef, Ea, Eo, Ey. cbn [single_silicon_goal gm_calculate] in Eg |- *. rewrite Eg.
    destruct (gr_terminal ret), (gr_truncated ret); cbn [eo_result]; eauto.
Qed.

(** ** C44: whatever happened before, every reset and every step with an
    accepted action returns a time step *)
Theorem stack_never_raises : forall actions rf cols d e c, sampler_ok s -> (forall sc g, / 2000000 < fst (s_exponential s sc g)) ->
  (3 <= cols)%nat -> steady rf cols -> describes features -> accepts adapter fuel actions ->
  (fc_requires_image features = true -> forall og f prm g, exists i g', render og f prm g = (Ok i, g')) ->
  lives s render adapter features (single_silicon_goal s) fuel rf cols d e ->
  (forall act, c = CallStep act -> actions act) ->
  exists ts e', answer (dune_environment s render adapter features (single_silicon_goal s) fuel) c e = (Ok ts, e').
Proof.
  intros actions rf cols d e c O X C H Ds Ac Rn L Hc. destruct c as [|act]; cbn [answer dune_environment e_reset e_step].
  - destruct (stack_reset rf cols d e O C (proj1 H) Ds Rn L) as (ts & ->). eauto.
  - destruct (stack_step actions rf cols d e act O X C H Ds Ac Rn L (Hc _ eq_refl)) as (ts & ->). eauto.
Qed.

End Stack.
Print Assumptions stack_never_raises.

(** what the repository ships meets the hypotheses: rate functions, *)
Theorem shipped_rates_steady : forall knn cols, knn_ok knn -> (3 <= cols)%nat ->
  steady (pristine_rate_predictor knn simple_canonical_rate_function) cols /\
  steady (pristine_rate_predictor knn human_prior_default) cols.
Proof.
  intros knn cols K C. split; (split; [apply pristine_hopping; auto|split]).
  - intros ps Gs beam. apply pristine_well_behaved; auto.
    + eapply graphene_NoDup; eauto.
    + eapply graphene_four; eauto.
    + intros g si idx L. eapply simple_nonneg; eauto.
  - intros. apply pristine_not_fuel, simple_not_fuel.
  - intros ps Gs beam. apply pristine_well_behaved; auto.
    + eapply graphene_NoDup; eauto.
    + eapply graphene_four; eauto.
    + intros g si idx L. eapply human_prior_nonneg; eauto.
  - intros. apply pristine_not_fuel. intros. unfold human_prior_default. apply human_prior_not_fuel.
Qed.
Print Assumptions shipped_rates_steady.

(** feature constructors *)
Theorem shipped_features_describe : forall knn resize, knn_ok knn ->
  describes (pristine_features knn) /\ describes (material_frame_features knn) /\ describes (image_features resize).
Proof.
  intros knn resize K.
  repeat split; intros o goal (W & Pr & si & Lo) Ln Im.
  - cbn [pristine_features fc_get_features]. unfold pristine_get_features.
    rewrite (lone_single _ _ W Lo). cbn [bind].
    destruct (four_knn knn (positions (o_grid o)) si K Ln) as (idx & -> & Ri & Li). cbn [bind]. unfold positions_at.
    destruct (three_taken _ _ Li Ri) as (n1 & n2 & n3 & ->). cbn [bind].
    rewrite (goal_delta_lone _ _ _ _ W Lo). cbn [bind]. eauto.
  - cbn [material_frame_features fc_get_features]. unfold material_frame_get_features. rewrite grid_to_material_eq.
    rewrite (lone_single _ _ (material_wf _ _ W) (material_lone (o_fov o) _ _ W Lo)). cbn [bind].
    assert (Ln' : (4 <= length (positions (mkgrid (map (at_relative (o_fov o)) (positions (o_grid o))) (numbers (o_grid o)))))%nat)
      by (cbn [positions]; rewrite map_length; auto).
    destruct (four_knn knn _ (at_relative (o_fov o) si) K Ln') as (idx & -> & Ri & Li). cbn [bind]. unfold positions_at.
    destruct (three_taken _ _ Li Ri) as (n1 & n2 & n3 & ->). cbn [bind].
    rewrite (goal_delta_lone _ _ _ _ W Lo). cbn [bind]. eauto.
  - destruct (o_image o) as [i|] eqn:Ei; [|exfalso; apply Im; reflexivity].
    eexists. apply image_features_spec; auto. exists i, si. auto.
Qed.
Print Assumptions shipped_features_describe.

(** and action adapters *)
Theorem shipped_adapters_accept : forall G (s : sampler G) lo hi dist fuel,
  (1500000 <= Z.of_nat fuel)%Z -> (lo <= hi < 3600000000)%Z -> (hi <= Z.of_nat fuel)%Z ->
  accepts (@direct_adapter G) fuel (fun a => length a = 2%nat \/ length a = 3%nat) /\
  accepts (delta_adapter s) fuel (fun a => length a = 1%nat \/ length a = 2%nat) /\
  accepts (@relative_adapter G (new_relative lo hi dist)) fuel (fun a => a <> [] /\ (lo <> hi -> (3 <= length a)%nat)) /\
  accepts (@material_frame_adapter G (new_relative lo hi dist)) fuel (fun a => a <> [] /\ (lo <> hi -> (3 <= length a)%nat)).
Proof.
  intros G s lo hi dist fuel F15 L Hf.
  split; [|split; [|split]]; intros st o a (W & Pr & si & Lo) Ha.
  - destruct (aa_get_action (@direct_adapter G) st o a) as [r st'] eqn:E.
    assert (Er : r = fst (aa_get_action (@direct_adapter G) st o a)) by (rewrite E; auto).
    destruct a as [|x [|y [|z [|w a]]]]; cbn in Ha; try (exfalso; lia).
    + assert (K : exists q, fst (aa_get_action (@direct_adapter G) st o [x; y]) = Ok [aimed_for q 1500000]).
      { eexists. apply direct_adapter_result. exists x, y. eexists. split; auto. split; [apply pclip_limited; reflexivity|reflexivity]. }
      destruct K as (q & K). rewrite K in Er. subst r. do 2 eexists. split; [reflexivity|]. constructor; [cbn; lia|constructor].
    + assert (K : exists q, fst (aa_get_action (@direct_adapter G) st o [x; y; z]) = Ok [aimed_for q 1500000]).
      { eexists. apply direct_adapter_result. exists x, y. eexists. split; eauto. split; [apply pclip_limited; reflexivity|reflexivity]. }
      destruct K as (q & K). rewrite K in Er. subst r. do 2 eexists. split; [reflexivity|]. constructor; [cbn; lia|constructor].
  - assert (K : exists dx dy, a = [dx; dy] \/ a = [dx] /\ dy = dx).
    { destruct a as [|x [|y [|z a]]]; cbn in Ha; try (exfalso; lia); [exists x, x|exists x, y]; auto. }
    destruct K as (dx & dy & K). do 2 eexists. split.
    + apply delta_adapter_result. exists dx, dy. split; eauto. split; [apply pclip_limited; reflexivity|reflexivity].
    + constructor; [cbn; lia|constructor].
  - destruct (aa_get_action (@relative_adapter G (new_relative lo hi dist)) st o a) as [r st'] eqn:E.
    assert (Er : r = fst (aa_get_action (@relative_adapter G (new_relative lo hi dist)) st o a)) by (rewrite E; auto).
    destruct r as [cs|e|].
    + exists cs, st'. split; auto. symmetry in Er. pose proof Er as Er'.
      apply relative_adapter_result in Er' as (? & ? & ? & ? & ? & q & t & _ & _ & _ & _ & _ & _ & _ & _ & ->); auto.
      destruct (relative_dwell_times G lo hi dist st o a _ W ltac:(lia) (or_introl Er)) as (B & _).
      constructor; [lia|constructor].
    + exfalso. symmetry in Er. apply relative_adapter_errors in Er; auto. destruct Lo as (C1 & _), Ha as (Ha1 & Ha2). unfold proper, width, height in *.
      destruct Er as [(_ & K)|[(_ & _ & K)|[(_ & _ & _ & _ & K)|(_ & _ & _ & _ & K)]]]; [lia|lra|auto|]. destruct K as [K1 K2]. specialize (Ha2 K1). lia.
    + exfalso. revert Er. destruct (relative_spec lo hi dist o a W) as (_ & _ & K). intros Er. symmetry in Er. exact (K Er).
  - destruct (aa_get_action (@material_frame_adapter G (new_relative lo hi dist)) st o a) as [r st'] eqn:E.
    assert (Er : r = fst (aa_get_action (@material_frame_adapter G (new_relative lo hi dist)) st o a)) by (rewrite E; auto).
    destruct r as [cs|e|].
    + exists cs, st'. split; auto. symmetry in Er. pose proof Er as Er'.
      apply material_frame_adapter_result in Er' as (? & ? & ? & q & t & _ & _ & _ & _ & ->); auto.
      destruct (relative_dwell_times G lo hi dist st o a _ W ltac:(lia) (or_intror Er)) as (B & _).
      constructor; [lia|constructor].
    + exfalso. symmetry in Er. apply material_frame_adapter_errors in Er; auto. destruct Lo as (C1 & _), Ha as (Ha1 & Ha2).
      destruct Er as [(_ & K)|[(_ & _ & K)|(_ & _ & K)]]; [lia|auto|]. destruct K as [K1 K2]. specialize (Ha2 K1). lia.
    + exfalso. revert Er. destruct (material_frame_spec lo hi dist o a W) as (_ & _ & K). intros Er. symmetry in Er. exact (K Er).
Qed.
Print Assumptions shipped_adapters_accept.

(** the stack of the experiments: relative actions, vector features *)
Theorem shipped_stack_never_raises : forall {G} (s : sampler G) render knn lo hi dist fuel cols d e c,
  sampler_ok s -> (forall sc g, / 2000000 < fst (s_exponential s sc g)) -> knn_ok knn ->
  (3 <= cols)%nat -> (1500000 <= Z.of_nat fuel)%Z -> (lo <= hi < 3600000000)%Z -> (hi <= Z.of_nat fuel)%Z ->
  let rf := pristine_rate_predictor knn simple_canonical_rate_function in
  let adapter := relative_adapter (new_relative lo hi dist) in
  lives s render adapter (pristine_features knn) (single_silicon_goal s) fuel rf cols d e ->
  (forall act, c = CallStep act -> act <> [] /\ (lo <> hi -> (3 <= length act)%nat)) ->
  exists ts e', answer (dune_environment s render adapter (pristine_features knn) (single_silicon_goal s) fuel) c e = (Ok ts, e').
Proof.
  intros G s render knn lo hi dist fuel cols d e c O X K C F15 L Hf rf adapter Lv Hc.
  eapply (stack_never_raises s render adapter (pristine_features knn) fuel); eauto.
  - apply shipped_rates_steady; auto.
  - apply (shipped_features_describe knn (fun i => i)); auto.
  - apply (shipped_adapters_accept G s lo hi dist fuel F15 L Hf).
  - discriminate.
  - exact Hc.
Qed.
Print Assumptions shipped_stack_never_raises.

(** any list of calls, then, is answered *)
Theorem shipped_stack_sessions : forall {G} (s : sampler G) render knn lo hi dist fuel cols d e calls,
  sampler_ok s -> (forall sc g, / 2000000 < fst (s_exponential s sc g)) -> knn_ok knn ->
  (3 <= cols)%nat -> (1500000 <= Z.of_nat fuel)%Z -> (lo <= hi < 3600000000)%Z -> (hi <= Z.of_nat fuel)%Z ->
  let rf := pristine_rate_predictor knn simple_canonical_rate_function in
  let adapter := relative_adapter (new_relative lo hi dist) in
  lives s render adapter (pristine_features knn) (single_silicon_goal s) fuel rf cols d e ->
  (forall act, In (CallStep act) calls -> act <> [] /\ (lo <> hi -> (3 <= length act)%nat)) ->
  exists h e', session (dune_environment s render adapter (pristine_features knn) (single_silicon_goal s) fuel) e h e' /\
    map fst h = calls.
Proof.
  intros G s render knn lo hi dist fuel cols d e calls O X K C F15 L Hf rf adapter Lv.
  induction calls as [|c calls IH] using rev_ind; intros Hc; [exists [], e; split; [constructor|reflexivity]|].
  destruct IH as (h & e1 & Hs & Eh).
  { intros act Ha. apply Hc, in_or_app. auto. }
  destruct (shipped_stack_never_raises s render knn lo hi dist fuel cols d e1 c) as (ts & e2 & E); auto.
  { eapply lives_lived; [exact Lv|]. eapply session_lived; eauto. }
  { intros act ->. apply Hc, in_or_app. right. left. reflexivity. }
  exists (h ++ [(c, ts)]), e2. split; [econstructor; eauto|]. rewrite map_app, Eh. reflexivity.
Qed.
Print Assumptions shipped_stack_sessions.

Lemma two_sites ps : graphene_sheet 2 ps -> exists p q, (forall r, In r ps <-> r = p \/ r = q) /\ p <> q /\ pdist p q <= 15 / 4 /\ length ps = 2%nat.
Proof.
  intros (sites & t & o & a & N & I & -> & _).
  pose proof sqrt3_pos as P3. pose proof sqrt3_sq as S3.
  assert (Is : forall p, In p sites <-> p = site 2 0 \/ p = site 1 1).
  { intros p. rewrite I. split.
    - intros (x & y & -> & (H1 & H2) & H3 & H4 & H5). change (INR 2) with (1 + 1) in H5.
      assert (IZR y < 2) by nra. assert (y < 2)%Z by (apply lt_IZR; auto).
      assert (Y : (y = 0 \/ y = 1)%Z) by lia. assert (Xx : (x = 1 \/ x = 2)%Z).
      { assert (Q : (x = 0 \/ x = 1 \/ x = 2 \/ x = 3)%Z) by (simpl in H3; lia). destruct Q as [->|[->|[->| ->]]]; auto; exfalso; apply H2; reflexivity. }
      destruct Y as [-> | ->], Xx as [-> | ->]; try discriminate H1; auto.
    - intros [-> | ->]; do 2 eexists; (split; [reflexivity|]); (split; [split; [reflexivity|discriminate]|]);
        (split; [simpl; lia|]); (split; [lia|]); change (INR 2) with (1 + 1); nra. }
  assert (Ne : site 2 0 <> site 1 1) by (intros K; apply site_inj in K; lia).
  assert (Ls : length sites = 2%nat).
  { apply Nat.le_antisymm.
    - change 2%nat with (length [site 2 0; site 1 1]). apply NoDup_incl_length; auto.
      intros p Hp. apply Is in Hp as [-> | ->]; simpl; auto.
    - change 2%nat with (length [site 2 0; site 1 1]). apply NoDup_incl_length.
      + repeat constructor; simpl; intuition.
      + intros p [<-|[<-|[]]]; apply Is; auto. }
  set (f := fun p => turned a (padd (pscale (142 / 100) p) t)).
  assert (Dx : pdist (f (site 2 0)) (f (site 1 1)) = 142 / 100).
  { unfold f. rewrite graphene_scaled. unfold pdist, pnorm. rewrite site_dist. simpl.
    match goal with |- 142 / 100 * sqrt ?u = _ => replace u with (1 * 1) by (simpl; lra) end. rewrite sqrt_square; lra. }
  exists (f (site 2 0)), (f (site 1 1)). split; [|split; [|split]].
  - intros r. rewrite in_map_iff. split.
    + intros (p & <- & Hp). apply Is in Hp as [-> | ->]; auto.
    + intros [-> | ->]; eexists; (split; [reflexivity|]); apply Is; auto.
  - intros E. rewrite E, pdist_self in Dx. lra.
  - lra.
  - rewrite map_length. auto.
Qed.

(** two columns of the lattice are two atoms, too few for the vector features:
    every reset raises, after the simulator, the adapter and the goal have been
    reset *)
Theorem two_columns_raise : forall {G St} (s : sampler G) render (adapter : action_adapter G St) knn fuel rf d e features,
  sampler_ok s -> knn_ok knn -> hopping rf ->
  features = pristine_features knn \/ features = material_frame_features knn ->
  lives s render adapter features (single_silicon_goal s) fuel rf 2 d e ->
  eo_result (env_reset s render adapter features (single_silicon_goal s) e) = Raise ValueError.
Proof.
  intros G St s render adapter knn fuel rf d e features O K H Hf L.
  assert (Ri : fc_requires_image features = false) by (destruct Hf as [-> | ->]; reflexivity).
  destruct (lives_inv s render adapter features _ fuel rf 2 d O ltac:(lia) H e L) as [I1 _ _].
  destruct (sim_reset_total s render rf 2 d _ (fc_requires_image features) (env_rng e) O ltac:(lia) H I1) as (obs & Eo).
  { rewrite Ri. discriminate. }
  destruct (sim_reset_pictures s render rf 2 d _ _ _ _ O ltac:(lia) H I1 Eo) as (ps & gr & si & a & Em & Gs & Dp & Pi & _ & _).
  destruct (reset_adapter_restarts adapter (mkenv (out_rng (sim_do_reset s render (fc_requires_image features) (env_sim e) (env_rng e)))
     (env_adapter_rng e) (env_sim e) (env_adapter e) (env_goal e) obs false) obs) as (st & ga & g1 & Ar & _).
  pose proof (pictures_wf _ _ _ _ Pi) as W. pose proof (pictures_lone _ _ _ _ Pi) as Lo.
  destruct (two_sites ps Gs) as (p & q & Hpq & Npq & Dpq & Lp).
  assert (Hs : si = p \/ si = q).
  { apply Hpq. destruct Pi as [(k & D & Ek) _ _ _ _]. destruct Dp as (Ep & _). rewrite Ep in Ek. eapply nth_error_In; eauto. }
  assert (Ex : exists b, In b (atoms (o_grid obs)) /\ 1 / 10 < angstroms (o_fov obs) (fst b) (relative_to (o_fov obs) si) < 50).
  { destruct Hs as [-> | ->].
    - apply (neighbour_shown 2 ps gr p a obs q); auto. apply Hpq; auto.
    - apply (neighbour_shown 2 ps gr q a obs p); auto; [apply Hpq; auto|rewrite pdist_sym; auto]. }
  destruct (valid_goals_spec obs (relative_to (o_fov obs) si) W) as (l & Hl & _).
  assert (Nl : l <> []).
  { destruct Ex as (b & Hb & Kb). intros ->.
    assert (Q : In b []) by (apply (selects_In _ _ _ Hl); auto). inversion Q. }
  destruct (goal_reset_chooses G s (env_goal e) obs g1 _ l O W (lone_central _ _ W Lo) Hl Nl) as (i & x & _ & _ & Eg).
  apply reset_raises. right. do 4 eexists. split; [exact Eo|]. split; [exact Ar|]. right. do 2 eexists. split; [exact Eg|].
  assert (Few : (length (positions (o_grid obs)) < 4)%nat).
  { destruct Pi as [_ _ _ _ (_ & sel & Hsel & F2)]. apply Forall2_len in F2. apply selects_length in Hsel.
    unfold atoms in F2, Hsel. rewrite !combine_length in *. unfold wf_grid in W. destruct Dp as (Ep & _). rewrite Ep, Lp in Hsel. lia. }
  assert (One : (1 <= count_number 14 (o_grid obs))%nat) by (destruct Lo as (C1 & _); lia).
  destruct (vector_feature_errors knn obs (mkgoal_state (at_relative (o_fov obs) (fst x)) 0) ValueError K W) as (V1 & V2).
  destruct Hf as [-> | ->]; [apply V1|apply V2]; right; auto.
Qed.
Print Assumptions two_columns_raise.

(** the hypotheses are met: fifteen columns, one-second exposures *)
Example shipped_stack_nonvacuous : let s := ex_sampler 1 in
  sampler_ok s /\ (forall sc g, / 2000000 < fst (s_exponential s sc g)) /\ knn_ok knn_sort /\
  (forall render adapter features fuel, lives (St := unit) (F := list R) s render adapter features (single_silicon_goal s) fuel
     (pristine_rate_predictor knn_sort simple_canonical_rate_function) 15 2000000%Z
     (new_env (new_material (pristine_rate_predictor knn_sort simple_canonical_rate_function) 15) 2000000%Z tt (mkgoal_state pzero 0) 0%nat None)) /\
  (forall render adapter features fuel, lives (St := unit) (F := list R) s render adapter features (single_silicon_goal s) fuel
     (pristine_rate_predictor knn_sort simple_canonical_rate_function) 2 2000000%Z
     (new_env (new_material (pristine_rate_predictor knn_sort simple_canonical_rate_function) 2) 2000000%Z tt (mkgoal_state pzero 0) 0%nat None)).
Proof.
  split; [apply ex_sampler_ok; lra|]. split; [intros; simpl; lra|]. split; [apply knn_sort_ok|].
  split; intros; do 4 eexists; constructor.
Qed.
