(** Properties C39-C44: the environment. *)
From Coq Require Import Reals ZArith List Bool Lia Lra Arith.
From Verif Require Import Base.Prelude Base.Rounding Base.Random Model.Constants Model.MicroscopeUtils
  Model.Graphene Model.Simulator Model.ActionAdapters Model.Goals Model.FeatureConstructors Model.Environment
  Spec.Grids Spec.Neighbours Spec.Lattice Spec.Material Spec.MaterialRuns Spec.Simulation Spec.Acting Spec.Episodes
  Proofs.BaseFacts Proofs.FovFacts Proofs.GeometryFacts Proofs.RateFacts Proofs.ExampleSampler Proofs.ActingFacts
  Proofs.EnvironmentFacts Proofs.EpisodeFacts Proofs.SeedFacts
  Props.AdapterProps Props.GoalProps Props.ShippedStack.
Import ListNotations.
Open Scope R_scope.

(** ** C39: what the calls return *)

(** a step that does not start an episode asks the adapter for controls,
    steps the simulator with them, builds the features with the goal and asks
    the goal for the reward *)
Theorem env_step_returns : forall {G St Goal F} (s : sampler G) render (adapter : action_adapter G St)
  (features : feature_constructor Goal F) goal_m fuel a e ts e' tr, env_requires_reset e = false ->
  env_step s render adapter features goal_m fuel a e = mkenv_outcome (Ok ts) e' tr <->
  exists cs st obs x ret goal o,
    aa_get_action adapter (env_adapter e) (env_last_observation e) a = (Ok cs, st) /\
    o = step_and_image s render fuel cs (fc_requires_image features) (env_sim e) (env_rng e) /\
    out_result o = Ok obs /\
    fc_get_features features obs (env_goal e) = Ok x /\
    gm_calculate goal_m (env_goal e) obs = (Ok ret, goal) /\
    ts = mktime_step (if gr_terminal ret || gr_truncated ret then LAST else MID) (gr_reward ret)
           (if gr_terminal ret then 0 else discounted (o_elapsed obs)) x /\
    e' = mkenv (out_rng o) (env_adapter_rng e) (out_sim o) st goal obs (gr_terminal ret || gr_truncated ret) /\
    tr = out_trace o.
Proof. intros. apply step_returns; auto. Qed.
Print Assumptions env_step_returns.

Theorem env_step_starts : forall {G St Goal F} (s : sampler G) render (adapter : action_adapter G St)
  (features : feature_constructor Goal F) goal_m fuel a e, env_requires_reset e = true ->
  env_step s render adapter features goal_m fuel a e = env_reset s render adapter features goal_m e.
Proof. intros. apply step_auto; auto. Qed.
Print Assumptions env_step_starts.

Theorem env_reset_returns : forall {G St Goal F} (s : sampler G) render (adapter : action_adapter G St)
  (features : feature_constructor Goal F) goal_m e ts e' tr,
  env_reset s render adapter features goal_m e = mkenv_outcome (Ok ts) e' tr <->
  exists obs st ga g1 goal g2 x o,
    o = sim_do_reset s render (fc_requires_image features) (env_sim e) (env_rng e) /\
    out_result o = Ok obs /\
    adapter_restarts adapter e (out_rng o) st ga g1 /\
    gm_reset goal_m (env_goal e) obs g1 = (Ok tt, goal, g2) /\
    fc_get_features features obs goal = Ok x /\
    ts = mktime_step FIRST 0 (discounted (o_elapsed obs)) x /\
    e' = mkenv g2 ga (out_sim o) st goal obs false /\
    tr = out_trace o.
Proof. intros. apply reset_returns. Qed.
Print Assumptions env_reset_returns.

Theorem env_step_raises : forall {G St Goal F} (s : sampler G) render (adapter : action_adapter G St)
  (features : feature_constructor Goal F) goal_m fuel a e x, env_requires_reset e = false ->
  eo_result (env_step s render adapter features goal_m fuel a e) = Raise x <->
  (exists st, aa_get_action adapter (env_adapter e) (env_last_observation e) a = (Raise x, st)) \/
  exists cs st, aa_get_action adapter (env_adapter e) (env_last_observation e) a = (Ok cs, st) /\
    let r := out_result (step_and_image s render fuel cs (fc_requires_image features) (env_sim e) (env_rng e)) in
    (r = Raise x \/
     exists obs, r = Ok obs /\
       (fc_get_features features obs (env_goal e) = Raise x \/
        exists y goal, fc_get_features features obs (env_goal e) = Ok y /\
          gm_calculate goal_m (env_goal e) obs = (Raise x, goal))).
Proof. intros. apply step_raises; auto. Qed.
Print Assumptions env_step_raises.

Theorem env_reset_raises : forall {G St Goal F} (s : sampler G) render (adapter : action_adapter G St)
  (features : feature_constructor Goal F) goal_m e x,
  eo_result (env_reset s render adapter features goal_m e) = Raise x <->
  let o := sim_do_reset s render (fc_requires_image features) (env_sim e) (env_rng e) in
  (out_result o = Raise x \/
   exists obs st ga g1, out_result o = Ok obs /\ adapter_restarts adapter e (out_rng o) st ga g1 /\
     ((exists goal g2, gm_reset goal_m (env_goal e) obs g1 = (Raise x, goal, g2)) \/
      exists goal g2, gm_reset goal_m (env_goal e) obs g1 = (Ok tt, goal, g2) /\
        fc_get_features features obs goal = Raise x)).
Proof. intros. apply reset_raises. Qed.
Print Assumptions env_reset_raises.

(** ** C39: the protocol *)
Theorem env_protocol : forall {G St Goal F} (s : sampler G) render (adapter : action_adapter G St)
  (features : feature_constructor Goal F) goal_m fuel e h e',
  session (dune_environment s render adapter features goal_m fuel) e h e' ->
  protocol (env_requires_reset e) h.
Proof.
  intros G St Goal F s render adapter features goal_m fuel e h e' Hs.
  enough (K : protocol (env_requires_reset e) h /\ (env_requires_reset e' = true <-> awaits (env_requires_reset e) h)) by tauto.
  induction Hs as [|h e1 c ts e2 Hs (IH1 & IH2) E].
  - split; [apply protocol_nil|]. rewrite awaits_nil. tauto.
  - rewrite protocol_snoc, awaits_snoc. destruct c as [|a]; cbn [answer dune_environment e_reset e_step] in E; injection E as Er <-.
    + split; [split; auto|].
      * apply reset_type in Er. tauto.
      * apply reset_type in Er. rewrite reset_flag, Er. split; discriminate.
    + split; [split; auto|].
      * rewrite (step_type_first _ _ _ _ _ _ _ _ _ Er), IH2. intuition discriminate.
      * rewrite step_flag. split.
        -- intros (_ & ts' & E' & T). congruence.
        -- intros T. split; [|eauto]. destruct (env_requires_reset e1) eqn:Ef; auto. exfalso.
           apply (step_type_first _ _ _ _ _ _ _ _ _ Er) in Ef. congruence.
Qed.
Print Assumptions env_protocol.

(** what a step that does not start an episode says about the goal *)
Theorem env_step_ends : forall {G St Goal F} (s : sampler G) render (adapter : action_adapter G St)
  (features : feature_constructor Goal F) goal_m fuel a e ts, 
  eo_result (env_step s render adapter features goal_m fuel a e) = Ok ts -> ts_type ts <> FIRST ->
  let e' := eo_env (env_step s render adapter features goal_m fuel a e) in
  exists ret, gm_calculate goal_m (env_goal e) (env_last_observation e') = (Ok ret, env_goal e') /\
    (ts_type ts = LAST <-> gr_terminal ret = true \/ gr_truncated ret = true) /\
    (ts_discount ts = 0 <-> gr_terminal ret = true) /\
    ts_reward ts = gr_reward ret.
Proof.
  intros G St Goal F s render adapter features goal_m fuel a e ts E N.
  assert (Hf : env_requires_reset e = false).
  { destruct (env_requires_reset e) eqn:Ef; auto. exfalso. apply N. eapply step_type_first; eauto. }
  destruct (env_step s render adapter features goal_m fuel a e) as [r e' tr] eqn:Es. cbn [eo_result] in E. subst r.
  apply step_returns in Es; auto. destruct Es as (cs & st & obs & x & ret & goal & o & _ & _ & _ & _ & Eg & -> & -> & _).
  exists ret. split; auto. cbn [ts_type ts_discount ts_reward].
  pose proof (exp_pos (IZR (o_elapsed obs) / 1000000 * ln (9967 / 10000))) as Hp.
  change (0 < discounted (o_elapsed obs)) in Hp.
  destruct (gr_terminal ret), (gr_truncated ret); cbn [orb]; repeat split; intros; auto; try discriminate; try tauto; try lra; try (exfalso; lra).
Qed.
Print Assumptions env_step_ends.

(** ** C40: rewards, discounts and returns with the shipped goal *)

(** what a step that does not start an episode pays: the goal is reached when
    the silicon atom of the material is within 0.71 angstroms of it *)
Theorem env_step_pays : forall {G St F} (s : sampler G) render (adapter : action_adapter G St)
  (features : feature_constructor goal_state F) fuel rf cols d e a ts,
  sampler_ok s -> (2 <= cols)%nat -> hopping rf -> (0 <= d)%Z -> never_negative adapter ->
  lives s render adapter features (single_silicon_goal s) fuel rf cols d e ->
  let o := env_step s render adapter features (single_silicon_goal s) fuel a e in
  eo_result o = Ok ts -> ts_type ts <> FIRST ->
  exists gr si t, m_grid (sim_material (env_sim (eo_env o))) = Some gr /\ silicon_at gr si /\
    (0 <= t)%Z /\ t = o_elapsed (env_last_observation (eo_env o)) /\
    goal_position (env_goal (eo_env o)) = goal_position (env_goal e) /\
    (ts_type ts = LAST <-> pdist si (goal_position (env_goal e)) < 71 / 100) /\
    (ts_type ts = LAST -> ts_reward ts = discounted t /\ ts_discount ts = 0) /\
    (ts_type ts = MID -> ts_reward ts = 0 /\ ts_discount ts = discounted t).
Proof.
  intros G St F s render adapter features fuel rf cols d e a ts O C H D NN L o E N.
  assert (Hf : env_requires_reset e = false).
  { destruct (env_requires_reset e) eqn:Ef; auto. exfalso. apply N. eapply step_type_first; eauto. }
  destruct o as [r e' tr] eqn:Es. cbn [eo_result] in E. subst r. unfold o in Es. clear o. cbn [eo_env].
  apply step_returns in Es; auto. destruct Es as (cs & st & obs & x & ret & goal & o & Ea & -> & Eo & _ & Eg & -> & -> & _).
  destruct (lives_inv s render adapter features _ fuel rf cols d O C H e L) as [I1 (si0 & W0 & P0 & _) _].
  destruct (sim_step_pictures s render rf cols d (env_sim e) fuel cs (fc_requires_image features) (env_rng e) obs O C H I1 Eo)
    as (ps & gr & si & b & Em & _ & _ & Pi & Et & _).
  exists gr, si, (o_elapsed obs). cbn [env_sim env_last_observation env_goal].
  pose proof (pictures_lone _ _ _ _ Pi) as Lo. pose proof (pictures_wf _ _ _ _ Pi) as W. pose proof (pictures_proper _ _ _ _ Pi) as Pr.
  pose proof (zsum_nonneg cs (NN _ _ _ _ _ W0 Ea)) as Zn.
  destruct (goal_outcome G s (env_goal e) obs _ W (lone_central _ _ W Lo)) as (ret' & st' & Eg' & H1 & H2 & H3 & H4 & H5 & _).
  rewrite Eg in Eg'. injection Eg' as <- <-.
  rewrite at_relative_relative in H3 by (unfold proper, width, height in *; lra).
  split; [auto|]. split; [apply Pi|]. split; [lia|]. split; [auto|]. split; [auto|].
  cbn [ts_type ts_reward ts_discount]. rewrite H2. rewrite orb_false_r.
  destruct (gr_terminal ret).
  - split; [tauto|]. split; [intros _; rewrite H4; auto|discriminate].
  - split; [|split; [discriminate|intros _; rewrite H5; auto]]. split; [discriminate|]. intros K. apply H3 in K. discriminate.
Qed.
Print Assumptions env_step_pays.

Theorem env_start_pays : forall {G St F} (s : sampler G) render (adapter : action_adapter G St)
  (features : feature_constructor goal_state F) fuel rf cols d e c ts e',
  sampler_ok s -> (2 <= cols)%nat -> hopping rf ->
  lives s render adapter features (single_silicon_goal s) fuel rf cols d e ->
  answer (dune_environment s render adapter features (single_silicon_goal s) fuel) c e = (Ok ts, e') -> ts_type ts = FIRST ->
  ts_reward ts = 0 /\ ts_discount ts = discounted d.
Proof.
  intros G St F s render adapter features fuel rf cols d e c ts e' O C H L E T.
  assert (Er : eo_result (env_reset s render adapter features (single_silicon_goal s) e) = Ok ts).
  { destruct c as [|a]; cbn in E; injection E as Er _; auto. apply (step_type_first _ _ _ _ _ _ _ _ _ Er) in T as Hf.
    rewrite step_auto in Er; auto. }
  destruct (env_reset s render adapter features (single_silicon_goal s) e) as [r e1 tr] eqn:Es. cbn in Er; subst r.
  apply reset_returns in Es. destruct Es as (obs & st & ga & g1 & goal & g2 & x & o & -> & Eo & _ & _ & _ & -> & _ & _).
  destruct (lives_inv s render adapter features _ fuel rf cols d O C H e L) as [I1 _ _].
  destruct (sim_reset_pictures s render rf cols d _ _ _ _ O C H I1 Eo) as (ps & gr & si & b & _ & _ & _ & _ & Ed & _).
  cbn. rewrite Ed. auto.
Qed.
Print Assumptions env_start_pays.

(** every result of a session *)
Theorem env_rewards : forall {G St F} (s : sampler G) render (adapter : action_adapter G St)
  (features : feature_constructor goal_state F) fuel rf cols d e h e' i c ts,
  sampler_ok s -> (2 <= cols)%nat -> hopping rf -> (0 <= d)%Z -> never_negative adapter ->
  lives s render adapter features (single_silicon_goal s) fuel rf cols d e ->
  session (dune_environment s render adapter features (single_silicon_goal s) fuel) e h e' ->
  nth_error h i = Some (c, ts) ->
  0 <= ts_reward ts <= 1 /\ 0 <= ts_discount ts <= 1 /\
  (ts_type ts = LAST <-> 0 < ts_reward ts) /\ (ts_type ts = LAST <-> ts_discount ts = 0) /\
  (ts_type ts <> LAST -> ts_reward ts = 0 /\ exists t, (0 <= t)%Z /\ ts_discount ts = discounted t).
Proof.
  intros G St F s render adapter features fuel rf cols d e h e' i c ts O C H D NN L Hs Nh.
  destruct (session_entry _ _ _ _ _ _ _ Hs Nh) as (e1 & e2 & h1 & Hs1 & Ea).
  pose proof (lives_lived _ _ _ _ _ _ _ _ _ _ _ L (session_lived _ _ _ _ _ _ _ _ _ Hs1)) as L1.
  destruct (ts_type ts) eqn:T.
  - destruct (env_start_pays _ _ _ _ _ _ _ _ _ _ _ _ O C H L1 Ea T) as (E1 & E2).
    pose proof (discounted_range d D). rewrite E1, E2. repeat split; try lra; try discriminate; intros; eauto; lra.
  - destruct c as [|a]; cbn in Ea; injection Ea as Er _; [apply reset_type in Er; congruence|].
    destruct (env_step_pays _ _ _ _ _ _ _ _ _ _ _ O C H D NN L1 Er ltac:(congruence)) as (gr & si & t & _ & _ & Ht & _ & _ & _ & _ & P).
    destruct (P T) as (E1 & E2). pose proof (discounted_range t Ht).
    rewrite E1, E2. repeat split; try lra; try discriminate; intros; eauto; lra.
  - destruct c as [|a]; cbn in Ea; injection Ea as Er _; [apply reset_type in Er; congruence|].
    destruct (env_step_pays _ _ _ _ _ _ _ _ _ _ _ O C H D NN L1 Er ltac:(congruence)) as (gr & si & t & _ & _ & Ht & _ & _ & _ & P & _).
    destruct (P T) as (E1 & E2). pose proof (discounted_range t Ht).
    rewrite E1, E2. repeat split; try lra; try congruence; intros; try tauto; lra.
Qed.
Print Assumptions env_rewards.

(** the return of (any beginning of) an episode *)
Theorem env_return : forall {G St F} (s : sampler G) render (adapter : action_adapter G St)
  (features : feature_constructor goal_state F) fuel rf cols d e h e' before l after,
  sampler_ok s -> (2 <= cols)%nat -> hopping rf -> (0 <= d)%Z -> never_negative adapter ->
  lives s render adapter features (single_silicon_goal s) fuel rf cols d e ->
  session (dune_environment s render adapter features (single_silicon_goal s) fuel) e h e' ->
  map snd h = before ++ l ++ after -> episode l ->
  0 <= total_reward l <= 1 /\
  (0 < total_reward l <-> exists ts l', l = l' ++ [ts] /\ ts_type ts = LAST) /\
  (forall ts l', l = l' ++ [ts] -> total_reward l = ts_reward ts).
Proof.
  intros G St F s render adapter features fuel rf cols d e h e' before l after O C H D NN L Hs Eh Ep.
  pose proof (env_protocol _ _ _ _ _ _ _ _ _ Hs) as Pr.
  assert (At : forall j ts, nth_error l j = Some ts -> exists c, nth_error h (length before + j) = Some (c, ts)).
  { intros j ts N. assert (K : nth_error (map snd h) (length before + j) = Some ts).
    { rewrite Eh, nth_error_app2, Nat.add_comm, Nat.add_sub, nth_error_app1; auto; try lia. apply nth_error_Some; congruence. }
    rewrite nth_error_map in K. destruct (nth_error h (length before + j)) as [[c t]|]; cbn in K; [|discriminate].
    injection K as ->. eauto. }
  assert (Pay : forall j ts, nth_error l j = Some ts -> 0 <= ts_reward ts <= 1 /\ (ts_type ts = LAST <-> 0 < ts_reward ts) /\
     (ts_type ts <> LAST -> ts_reward ts = 0)).
  { intros j ts N. destruct (At j ts N) as (c & K).
    destruct (env_rewards _ _ _ _ _ _ _ _ _ _ _ _ _ _ O C H D NN L Hs K) as (A1 & _ & A2 & _ & A3).
    split; auto. split; auto. intros X. apply A3; auto. }
  assert (Mid : forall j ts, nth_error l j = Some ts -> (S j < length l)%nat -> ts_type ts <> LAST).
  { intros j ts N Lt T. destruct (nth_error l (S j)) as [t2|] eqn:N2; [|apply nth_error_None in N2; lia].
    destruct (At _ _ N) as (c1 & K1), (At _ _ N2) as (c2 & K2).
    assert (F2 : ts_type t2 = FIRST).
    { apply (Pr _ _ _ K2). right; right. exists (length before + j)%nat, c1, ts. split; [lia|auto]. }
    destruct Ep as (t0 & rest & -> & _ & Fa). rewrite Forall_forall in Fa.
    apply (Fa t2); auto. eapply nth_error_In. exact N2. }
  assert (Sum : forall ts l', l = l' ++ [ts] -> total_reward l = ts_reward ts).
  { intros ts l' El. subst l. unfold total_reward. rewrite map_app, fold_right_app. cbn [map fold_right]. rewrite Rplus_0_r.
    assert (Z : forall k, In k l' -> ts_reward k = 0).
    { intros k Hk. apply In_nth_error in Hk as (j & Hj).
      assert (Lj : (j < length l')%nat) by (apply nth_error_Some; congruence).
      assert (Nj : nth_error (l' ++ [ts]) j = Some k) by (rewrite nth_error_app1; auto).
      apply (Pay j k Nj). apply (Mid j k Nj). rewrite app_length; simpl; lia. }
    clear - Z. induction l' as [|k l' IH]; [reflexivity|]. cbn [map fold_right]. rewrite IH by (intros; apply Z; right; auto).
    rewrite (Z k) by (left; auto). lra. }
  destruct l as [|t0 rest] using rev_ind; [destruct Ep as (? & ? & ? & _); discriminate|]. clear IHrest.
  rewrite (Sum t0 rest eq_refl).
  destruct (Pay (length rest) t0) as (A1 & A2 & A3). { rewrite nth_error_app2, Nat.sub_diag; auto. }
  split; [auto|]. split.
  - rewrite <- A2. split; [eauto|]. intros (ts & l' & El & T). apply app_inj_tail in El as [_ ->]. auto.
  - intros ts l' El. apply app_inj_tail in El as [_ ->]. auto.
Qed.
Print Assumptions env_return.

(** the shipped adapters never ask for negative dwell times *)
Theorem adapters_never_negative : forall G (s : sampler G) lo hi dist, (0 <= lo <= hi)%Z ->
  never_negative (@direct_adapter G) /\ never_negative (delta_adapter s) /\
  never_negative (@relative_adapter G (new_relative lo hi dist)) /\
  never_negative (@material_frame_adapter G (new_relative lo hi dist)).
Proof.
  intros G s lo hi dist L. repeat split; intros st o a cs st' W E.
  - assert (K : fst (aa_get_action (@direct_adapter G) st o a) = Ok cs) by (rewrite E; reflexivity).
    apply direct_adapter_result in K as (x & y & q & _ & _ & ->). constructor; [simpl; lia|constructor].
  - apply delta_adapter_result in E as (x & y & _ & _ & ->). constructor; [simpl; lia|constructor].
  - assert (K : fst (aa_get_action (@relative_adapter G (new_relative lo hi dist)) st o a) = Ok cs) by (rewrite E; reflexivity).
    pose proof K as K'. apply relative_adapter_result in K' as (si & dx & dy & ex & ey & q & t & _ & _ & _ & _ & _ & _ & _ & _ & ->); auto.
    constructor; [|constructor].
    destruct (relative_dwell_times G lo hi dist st o a _ W ltac:(lia) (or_introl K)) as (B & _). lia.
  - assert (K : fst (aa_get_action (@material_frame_adapter G (new_relative lo hi dist)) st o a) = Ok cs) by (rewrite E; reflexivity).
    pose proof K as K'. apply material_frame_adapter_result in K' as (si & dx & dy & q & t & _ & _ & _ & _ & ->); auto.
    constructor; [|constructor].
    destruct (relative_dwell_times G lo hi dist st o a _ W ltac:(lia) (or_intror K)) as (B & _). lia.
Qed.
Print Assumptions adapters_never_negative.

(** ** C42: a reset that raised *)

(** what a call that raised leaves behind *)
Theorem failed_reset_state : forall {G St Goal F} (s : sampler G) render (adapter : action_adapter G St)
  (features : feature_constructor Goal F) goal_m e x,
  eo_result (env_reset s render adapter features goal_m e) = Raise x ->
  let o := sim_do_reset s render (fc_requires_image features) (env_sim e) (env_rng e) in
  let e' := eo_env (env_reset s render adapter features goal_m e) in
  (out_result o = Raise x /\
     e' = mkenv (out_rng o) (env_adapter_rng e) (out_sim o) (env_adapter e) (env_goal e) (env_last_observation e) false) \/
  exists obs st ga g1 goal g2, out_result o = Ok obs /\ adapter_restarts adapter e (out_rng o) st ga g1 /\
     e' = mkenv g2 ga (out_sim o) st goal obs false /\
     (gm_reset goal_m (env_goal e) obs g1 = (Raise x, goal, g2) \/
      (gm_reset goal_m (env_goal e) obs g1 = (Ok tt, goal, g2) /\ fc_get_features features obs goal = Raise x)).
Proof.
  intros G St Goal F s render adapter features goal_m e x. cbv zeta. unfold env_reset.
  set (o := sim_do_reset s render (fc_requires_image features) (env_sim e) (env_rng e)). clearbody o.
  destruct (out_result o) as [obs|y|]; cbn [eo_result eo_env]; [|intros K; injection K as ->; auto|discriminate].
  cbn [env_rng env_adapter_rng env_sim env_adapter env_goal].
  destruct (reset_adapter_restarts adapter (mkenv (out_rng o) (env_adapter_rng e) (out_sim o) (env_adapter e) (env_goal e)
     (env_last_observation e) false) obs) as (st & ga & g & A1 & A2).
  cbn [env_rng env_adapter_rng env_sim env_adapter env_goal] in A1, A2. rewrite A2.
  cbn [env_rng env_adapter_rng env_sim env_adapter env_goal].
  assert (A3 : adapter_restarts adapter e (out_rng o) st ga g) by exact A1.
  destruct (gm_reset goal_m (env_goal e) obs g) as [[[[]|y|] goal] g2] eqn:Eg; cbn [eo_result eo_env].
  - destruct (fc_get_features features obs goal) as [y|y|] eqn:Ef; cbn [eo_result eo_env]; try discriminate.
    intros K. injection K as ->. right. exists obs, st, ga, g, goal, g2. auto 10.
  - intros K. injection K as ->. right. exists obs, st, ga, g, goal, g2. auto 10.
  - discriminate.
Qed.
Print Assumptions failed_reset_state.

Theorem failed_step_state : forall {G St Goal F} (s : sampler G) render (adapter : action_adapter G St)
  (features : feature_constructor Goal F) goal_m fuel a e x, env_requires_reset e = false ->
  eo_result (env_step s render adapter features goal_m fuel a e) = Raise x ->
  let e' := eo_env (env_step s render adapter features goal_m fuel a e) in
  env_requires_reset e' = false /\ env_adapter_rng e' = env_adapter_rng e /\
  env_adapter e' = snd (aa_get_action adapter (env_adapter e) (env_last_observation e) a) /\
  ((exists st, aa_get_action adapter (env_adapter e) (env_last_observation e) a = (Raise x, st) /\
      env_sim e' = env_sim e /\ env_rng e' = env_rng e /\ env_goal e' = env_goal e /\
      env_last_observation e' = env_last_observation e) \/
   exists cs st o, aa_get_action adapter (env_adapter e) (env_last_observation e) a = (Ok cs, st) /\
     o = step_and_image s render fuel cs (fc_requires_image features) (env_sim e) (env_rng e) /\
     env_sim e' = out_sim o /\ env_rng e' = out_rng o /\
     ((out_result o = Raise x /\ env_goal e' = env_goal e /\ env_last_observation e' = env_last_observation e) \/
      exists obs, out_result o = Ok obs /\ env_last_observation e' = obs /\
        ((fc_get_features features obs (env_goal e) = Raise x /\ env_goal e' = env_goal e) \/
         gm_calculate goal_m (env_goal e) obs = (Raise x, env_goal e')))).
Proof.
  intros G St Goal F s render adapter features goal_m fuel a e x H. cbv zeta. unfold env_step. rewrite H.
  destruct (aa_get_action adapter (env_adapter e) (env_last_observation e) a) as [[cs|y|] st] eqn:Ea; cbn [eo_result eo_env snd].
  - set (o := step_and_image s render fuel cs (fc_requires_image features) (env_sim e) (env_rng e)).
    destruct (out_result o) as [obs|y|] eqn:Eo; cbn [eo_result eo_env].
    + destruct (fc_get_features features obs (env_goal e)) as [y|y|] eqn:Ef; cbn [eo_result eo_env].
      * destruct (gm_calculate goal_m (env_goal e) obs) as [[ret|z|] goal] eqn:Eg; cbn [eo_result eo_env].
        -- destruct (gr_terminal ret), (gr_truncated ret); discriminate.
        -- intros K. injection K as ->. cbn. repeat split. right. exists cs, st, o. repeat split. right. exists obs. auto.
        -- discriminate.
      * intros K. injection K as ->. cbn. repeat split. right. exists cs, st, o. repeat split. right. exists obs. auto 10.
      * discriminate.
    + intros K. injection K as ->. cbn. repeat split. right. exists cs, st, o. repeat split. left. auto.
    + discriminate.
  - intros K. injection K as ->. cbn. repeat split. left. exists st. auto.
  - discriminate.
Qed.
Print Assumptions failed_step_state.

(** the environment takes a failed reset for a successful one: the next step
    does not start an episode *)
Theorem failed_reset_not_retried : forall {G St Goal F} (s : sampler G) render (adapter : action_adapter G St)
  (features : feature_constructor Goal F) goal_m fuel e x,
  eo_result (env_reset s render adapter features goal_m e) = Raise x ->
  let e' := eo_env (env_reset s render adapter features goal_m e) in
  env_requires_reset e' = false /\
  forall a ts, eo_result (env_step s render adapter features goal_m fuel a e') = Ok ts -> ts_type ts <> FIRST.
Proof.
  intros G St Goal F s render adapter features goal_m fuel e x E e'. unfold e'. rewrite reset_flag. split; auto.
  intros a ts Et K. apply (step_type_first _ _ _ _ _ _ _ _ _ Et) in K. rewrite reset_flag in K. discriminate.
Qed.
Print Assumptions failed_reset_not_retried.

(** with the shipped goal: when its reset raised, the goal of the episode
    before remains, and the steps that follow pay for reaching that *)
Theorem failed_goal_reset_keeps_goal : forall {G St F} (s : sampler G) render (adapter : action_adapter G St)
  (features : feature_constructor goal_state F) e obs st ga g x goal g',
  sampler_ok s -> wf_grid (o_grid obs) ->
  let o := sim_do_reset s render (fc_requires_image features) (env_sim e) (env_rng e) in
  out_result o = Ok obs -> adapter_restarts adapter e (out_rng o) st ga g ->
  gm_reset (single_silicon_goal s) (env_goal e) obs g = (Raise x, goal, g') ->
  eo_result (env_reset s render adapter features (single_silicon_goal s) e) = Raise x /\
  env_goal (eo_env (env_reset s render adapter features (single_silicon_goal s) e)) = env_goal e.
Proof.
  intros G St F s render adapter features e obs st ga g x goal g' O W o Eo Ar Eg.
  assert (Er : eo_result (env_reset s render adapter features (single_silicon_goal s) e) = Raise x).
  { apply reset_raises. right. exists obs, st, ga, g. split; auto. split; auto. left. eauto. }
  split; auto.
  destruct (failed_reset_state _ _ _ _ _ _ _ Er) as [(K & _)|(obs1 & st1 & ga1 & g1 & goal1 & g2 & K & Ar1 & -> & K2)].
  - fold o in K. congruence.
  - fold o in K, Ar1. assert (obs1 = obs) by congruence. subst obs1.
    assert (g1 = g).
    { unfold adapter_restarts in Ar, Ar1. destruct (env_adapter_rng e).
      - destruct Ar as (? & _ & _ & ->), Ar1 as (? & _ & _ & ->). auto.
      - destruct Ar, Ar1. congruence. }
    subst g1. rewrite Eg in K2. destruct K2 as [K2|(K2 & _)]; [|discriminate]. injection K2 as <- <-.
    cbn [env_goal]. apply goal_reset_errors in Eg; auto. tauto.
Qed.
Print Assumptions failed_goal_reset_keeps_goal.

(** ** C41: seeding *)
Theorem seeding_reproduces : forall {G St Goal F} (s : sampler G) render (adapter : action_adapter G St)
  (features : feature_constructor Goal F) goal_m fuel rf cols d e e' z ts calls,
  unaffected adapter -> forgets adapter -> forgets_goal goal_m ->
  lives s render adapter features goal_m fuel rf cols d e ->
  lives s render adapter features goal_m fuel rf cols d e' ->
  let en := dune_environment s render adapter features goal_m fuel in
  eo_result (env_reset s render adapter features goal_m (env_seed s adapter z e)) = Ok ts ->
  answers en (CallReset :: calls) (env_seed s adapter z e) = answers en (CallReset :: calls) (env_seed s adapter z e').
Proof.
  intros G St Goal F s render adapter features goal_m fuel rf cols d e e' z ts calls U Fa Fg
    (st & goal & g & ga & L) (st' & goal' & g' & ga' & L') en E.
  assert (Cfg : same_config (env_sim e) (env_sim e')).
  { apply lived_config in L, L'. eapply config_trans; [apply config_sym; exact L|]. exact L'. }
  destruct (seeded_reset s render adapter features goal_m z e e' ts U Fa Fg Cfg E) as (E' & S).
  assert (Ar : forall cs x, answers en (CallReset :: cs) x =
     eo_result (env_reset s render adapter features goal_m x) :: answers en cs (eo_env (env_reset s render adapter features goal_m x)))
    by reflexivity.
  assert (As : forall cs a x, answers en (CallStep a :: cs) x =
     eo_result (env_step s render adapter features goal_m fuel a x) :: answers en cs (eo_env (env_step s render adapter features goal_m fuel a x)))
    by reflexivity.
  rewrite !Ar, E, E'. f_equal. clear E E'.
  revert S. generalize (eo_env (env_reset s render adapter features goal_m (env_seed s adapter z e))).
  generalize (eo_env (env_reset s render adapter features goal_m (env_seed s adapter z e'))).
  induction calls as [|c calls IH]; intros b a S; [reflexivity|]. destruct c as [|act].
  - destruct (reset_same s render adapter features goal_m a b U S) as (K1 & K2).
    rewrite !Ar, K1. f_equal. apply IH. exact K2.
  - destruct (step_same s render adapter features goal_m fuel act a b U S) as (K1 & K2).
    rewrite !As, K1. f_equal. apply IH. exact K2.
Qed.
Print Assumptions seeding_reproduces.

(** the shipped adapters and the shipped goal start afresh *)
Theorem shipped_start_afresh : forall G (s : sampler G) cfg,
  (unaffected (@direct_adapter G) /\ forgets (@direct_adapter G)) /\
  (unaffected (delta_adapter s) /\ forgets (delta_adapter s)) /\
  (unaffected (@relative_adapter G cfg) /\ forgets (@relative_adapter G cfg)) /\
  (unaffected (@material_frame_adapter G cfg) /\ forgets (@material_frame_adapter G cfg)) /\
  forgets_goal (single_silicon_goal s).
Proof.
  intros G s cfg.
  repeat split; try (intros [] [] g; reflexivity); try (intros st st' g; reflexivity); try discriminate.
  intros goal goal' o g new g'. cbn [single_silicon_goal gm_reset]. unfold goal_reset.
  destruct (get_single_silicon_position (o_grid o)) as [si|x|]; try discriminate.
  destruct (length (valid_goals o si) =? 0)%nat; [discriminate|].
  destruct (s_choice s (length (valid_goals o si)) g) as [i g1].
  destruct (nth_error (valid_goals o si) i) as [p|]; [auto|discriminate].
Qed.
Print Assumptions shipped_start_afresh.

(** seeding an environment gives its new generator to the adapter of position
    changes, which then shares it; the other adapters are given none *)
Theorem seeding_adapters : forall {G Goal} (s : sampler G) cfg seed,
  (forall e : env (Goal := Goal), env_adapter_rng (env_seed s (@direct_adapter G) seed e) = env_adapter_rng e) /\
  (forall e : env (Goal := Goal), env_adapter_rng (env_seed s (@relative_adapter G cfg) seed e) = env_adapter_rng e) /\
  (forall e : env (Goal := Goal), env_adapter_rng (env_seed s (@material_frame_adapter G cfg) seed e) = env_adapter_rng e) /\
  (forall e : env (Goal := Goal), env_adapter_rng (env_seed s (delta_adapter s) seed e) = None).
Proof. intros. repeat split; reflexivity. Qed.
Print Assumptions seeding_adapters.

(** ** create_putting_dune_env *)
Theorem created_environment : forall {G St Goal} (s : sampler G) (adapter : action_adapter G St)
  seed m d st (goal : Goal) rng adapter_rng os limit,
  create_putting_dune_env s adapter seed m d st goal rng adapter_rng os limit =
  mklimited limit 0 (mkenv (s_seed s seed) (if aa_has_rng adapter then None else adapter_rng)
    (new_simulator m d os) st goal placeholder_observation true).
Proof.
  intros G St Goal s adapter seed m d st goal rng adapter_rng os limit. unfold create_putting_dune_env.
  cbn [new_limited sl_env sl_limit sl_elapsed new_env env_seed env_rng env_adapter_rng env_sim env_adapter env_goal env_last_observation env_requires_reset].
  assert (K : forall os' g, fold_left (fun sim o => out_sim (@add_observer G o sim g)) os (new_simulator m d os') = new_simulator m d (os' ++ os)).
  { clear. intros os' g. revert os'. induction os as [|o os IH]; intros os'; cbn [fold_left]; [rewrite app_nil_r; reflexivity|].
    change (out_sim (add_observer o (new_simulator m d os') g)) with (new_simulator m d (os' ++ [o])).
    rewrite IH, <- app_assoc. reflexivity. }
  rewrite K. reflexivity.
Qed.
Print Assumptions created_environment.

(** before its first reset, a created environment shows a single silicon atom
    at the origin of a field of view of one Angstrom, that took no time and no
    control to see *)
Theorem created_shows : forall {G St Goal} (s : sampler G) (adapter : action_adapter G St)
  seed m d st (goal : Goal) rng adapter_rng os limit,
  let o := env_last_observation (sl_env (create_putting_dune_env s adapter seed m d st goal rng adapter_rng os limit)) in
  positions (o_grid o) = [mkpt 0 0] /\ numbers (o_grid o) = [14%Z] /\ o_fov o = mkfov (mkpt 0 0) (mkpt 1 1) /\
  o_controls o = [] /\ o_elapsed o = 0%Z /\ o_image o = None /\ o_label_image o = None.
Proof. intros. unfold o. rewrite created_environment. repeat split; reflexivity. Qed.
Print Assumptions created_shows.

Theorem created_environment_lives : forall {G St Goal F} (s : sampler G) render (adapter : action_adapter G St)
  (features : feature_constructor Goal F) goal_m fuel seed rf cols d st goal rng adapter_rng os limit,
  lives s render adapter features goal_m fuel rf cols d
    (sl_env (create_putting_dune_env s adapter seed (new_material rf cols) d st goal rng adapter_rng os limit)).
Proof.
  intros. rewrite created_environment. cbn [sl_env].
  exists st, goal, rng, adapter_rng. induction os as [|o os IH] using rev_ind.
  - set (e0 := new_env (new_material rf cols) d st goal rng adapter_rng).
    change (lived s render adapter features goal_m fuel e0 (env_seed s adapter seed e0)). apply lived_seed, lived_start.
  - eapply (lived_observers s render adapter features goal_m fuel) with (w := AddObserver o) in IH; [|left; reflexivity].
    cbn in IH. exact IH.
Qed.
Print Assumptions created_environment_lives.

(** ** The hypotheses are met *)

(** an environment around a sheet of 15 columns, with relative actions of 1.5
    seconds, vector features and the shipped goal *)
Definition ex_rf : rate_function := pristine_rate_predictor knn_sort simple_canonical_rate_function.
Definition ex_adapter : action_adapter nat unit := relative_adapter (new_relative 1500000%Z 1500000%Z (5 / 2)).
Definition ex_env : @env nat unit goal_state := new_env (new_material ex_rf 15) 2000000%Z tt (mkgoal_state pzero 0) 0%nat None.
Definition ex_draw_image : @renderer nat := fun og f prm g => (Ok [], g).
Definition ex_dune fuel := dune_environment (ex_sampler 1) ex_draw_image ex_adapter (pristine_features knn_sort)
  (single_silicon_goal (ex_sampler 1)) fuel.

Lemma ex_env_lives fuel : lives (ex_sampler 1) ex_draw_image ex_adapter (pristine_features knn_sort)
  (single_silicon_goal (ex_sampler 1)) fuel ex_rf 15 2000000%Z ex_env.
Proof. do 4 eexists. constructor. Qed.

(** calls are answered, by a first time step and by one that is not *)
Example env_protocol_nonvacuous : forall fuel, (1500000 <= Z.of_nat fuel)%Z -> exists a b e',
  session (ex_dune fuel) ex_env [(CallReset, a); (CallStep [1; 0], b)] e' /\ ts_type a = FIRST /\ ts_type b <> FIRST /\
  episode [a; b].
Proof.
  intros fuel Hf.
  destruct (shipped_stack_sessions (ex_sampler 1) ex_draw_image knn_sort 1500000%Z 1500000%Z (5 / 2) fuel 15 2000000%Z ex_env
    [CallReset; CallStep [1; 0]]) as (h & e' & Hs & Eh); try lia.
  - apply ex_sampler_ok; lra.
  - intros; simpl; lra.
  - apply knn_sort_ok.
  - apply ex_env_lives.
  - intros act [K|[K|[]]]; [discriminate|]. injection K as <-. split; [discriminate|lia].
  - destruct h as [|[c1 a] [|[c2 b] [|x h]]]; try discriminate Eh. injection Eh as -> ->.
    exists a, b, e'. split; [exact Hs|].
    pose proof (env_protocol _ _ _ _ _ _ _ _ _ Hs) as P.
    assert (A : ts_type a = FIRST) by (apply (P 0%nat CallReset a eq_refl); auto).
    assert (B : ts_type b <> FIRST).
    { intros K. apply (P 1%nat (CallStep [1; 0]) b eq_refl) in K as [K|[(K & _)|(j & c' & ts' & Ej & N & K)]]; try discriminate.
      injection Ej as <-. injection N as <- <-. congruence. }
    split; auto. split; auto. exists a, [b]. auto.
Qed.

Example env_return_nonvacuous :
  sampler_ok (ex_sampler 1) /\ (2 <= 15)%nat /\ hopping ex_rf /\ (0 <= 2000000)%Z /\ never_negative ex_adapter.
Proof.
  split; [apply ex_sampler_ok; lra|]. split; [lia|]. split; [apply pristine_hopping, knn_sort_ok|]. split; [lia|].
  apply (adapters_never_negative nat (ex_sampler 1)). lia.
Qed.

(** a reset that fails in the shipped stack, with two columns *)
Example failed_reset_nonvacuous : exists e : @env nat unit goal_state,
  eo_result (env_reset (ex_sampler 1) ex_draw_image ex_adapter (pristine_features knn_sort)
    (single_silicon_goal (ex_sampler 1)) e) = Raise ValueError.
Proof.
  exists (new_env (new_material ex_rf 2) 2000000%Z tt (mkgoal_state pzero 0) 0%nat None).
  eapply (two_columns_raise _ _ _ knn_sort 0%nat ex_rf 2000000%Z); auto.
  - apply ex_sampler_ok; lra.
  - apply knn_sort_ok.
  - apply pristine_hopping, knn_sort_ok.
  - do 4 eexists. constructor.
Qed.

(** a step that fails: an action without components *)
Example failed_step_nonvacuous : exists e : @env nat unit goal_state, env_requires_reset e = false /\
  eo_result (env_step (ex_sampler 1) ex_draw_image (@direct_adapter nat) (pristine_features knn_sort)
    (single_silicon_goal (ex_sampler 1)) 5 [] e) = Raise ValueError.
Proof.
  exists (mkenv 0%nat None (new_simulator (new_material ex_rf 15) 2000000%Z []) tt (mkgoal_state pzero 0) placeholder_observation false).
  split; reflexivity.
Qed.

(** two environments with different pasts *)
Example seeding_nonvacuous : forall fuel,
  lives (ex_sampler 1) ex_draw_image ex_adapter (pristine_features knn_sort) (single_silicon_goal (ex_sampler 1)) fuel ex_rf 15 2000000%Z ex_env /\
  lives (ex_sampler 1) ex_draw_image ex_adapter (pristine_features knn_sort) (single_silicon_goal (ex_sampler 1)) fuel ex_rf 15 2000000%Z
    (snd (answer (ex_dune fuel) CallReset ex_env)) /\
  exists ts, eo_result (env_reset (ex_sampler 1) ex_draw_image ex_adapter (pristine_features knn_sort)
    (single_silicon_goal (ex_sampler 1)) (env_seed (ex_sampler 1) ex_adapter 7 ex_env)) = Ok ts.
Proof.
  intros fuel. split; [apply ex_env_lives|]. split.
  - destruct (ex_env_lives fuel) as (st & goal & g & ga & L). exists st, goal, g, ga. apply lived_reset. exact L.
  - eapply (stack_reset _ _ _ _ fuel ex_rf 15 2000000%Z); try lia.
    + apply ex_sampler_ok; lra.
    + apply pristine_hopping, knn_sort_ok.
    + apply (shipped_features_describe knn_sort (fun i => i)), knn_sort_ok.
    + discriminate.
    + destruct (ex_env_lives fuel) as (st & goal & g & ga & L). exists st, goal, g, ga. apply lived_seed. exact L.
Qed.
