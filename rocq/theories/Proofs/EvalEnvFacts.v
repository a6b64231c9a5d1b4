(** Lemmas about evaluations: their environments, their ends and averages. *)
From Coq Require Import Reals ZArith List Bool Lia Lra Arith Permutation.
From Verif Require Import Base.Prelude Base.Rounding Base.Random Model.MicroscopeUtils Model.Graphene Model.Simulator
  Model.SimulatorObservers Model.ActionAdapters Model.Goals Model.FeatureConstructors Model.Environment Model.EvalLib
  Spec.Evaluation Spec.Episodes Spec.Simulation Proofs.BaseFacts Proofs.RoundingFacts Proofs.SimulatorFacts Proofs.EnvironmentFacts
  Proofs.SeedFacts Proofs.EvalFacts.
Import ListNotations.
Open Scope R_scope.

Section Evaluate.
Context {A E F V : Type}.
Variable ag : agent A F.
Variable en : eval_env E F V.

(** what resets, steps and seeds preserve, an evaluation preserves *)
Section Preserved.
Variable I : E -> Prop.
Hypothesis I_seed : forall z e, I e -> I (ee_seed en z e).
Hypothesis I_reset : forall e, I e -> I (snd (e_reset (ee_env en) e)).
Hypothesis I_step : forall a e, I e -> I (snd (e_step (ee_env en) a e)).

Lemma loop_preserves fuel timeout : forall ts m a e, I e -> I (snd (eval_loop ag en fuel timeout ts m a e)).
Proof.
  induction fuel as [|fuel IH]; intros ts m a e Ie; cbn [eval_loop].
  - destruct (negb _); exact Ie.
  - destruct (negb _); [exact Ie|]. destruct (perf_counter ag a) as [t0 a0]. destruct (agent_step ag ts a0) as [[act|x|] a1]; try exact Ie.
    destruct (perf_counter ag a1) as [t1 a2]. pose proof (I_step act e Ie) as K.
    destruct (e_step (ee_env en) act e) as [[ts1|x|] e1]; cbn [snd] in K |- *; try exact K.
    destruct (is_last ts1); [exact K|]. apply IH. exact K.
Qed.
Lemma seed_preserves fuel timeout seed a e : I e -> I (snd (eval_seed ag en fuel timeout seed a e)).
Proof.
  intros Ie. unfold eval_seed. pose proof (I_reset _ (I_seed seed e Ie)) as K.
  destruct (e_reset (ee_env en) (ee_seed en seed e)) as [[ts|x|] e1]; cbn [snd] in K |- *; try exact K.
  pose proof (loop_preserves fuel timeout ts (mkmetrics 0 0 0%Z (ee_elapsed en e1)) a e1 K) as L.
  destruct (eval_loop _ _ _ _ _ _ _ _) as [[[[ts1 m]|x|] a1] e2]; exact L.
Qed.
Lemma seeds_preserve fuel timeout video seeds : forall a e, I e -> I (snd (eval_seeds ag en fuel timeout video seeds a e)).
Proof.
  induction seeds as [|seed seeds IH]; intros a e Ie; cbn [eval_seeds]; [exact Ie|].
  pose proof (seed_preserves fuel timeout seed a e Ie) as K.
  destruct (eval_seed ag en fuel timeout seed a e) as [[[r|x|] a1] e1]; cbn [snd] in K |- *; try exact K.
  destruct (if video then _ else _) as [vs|x|]; try exact K. specialize (IH a1 e1 K).
  destruct (eval_seeds ag en fuel timeout video seeds a1 e1) as [[[r2 ws] a2] e2]. exact IH.
Qed.

(** every result is that of an evaluation of its seed *)
Lemma seeds_members fuel timeout video seeds : forall a e rs vs a' e' r, I e ->
  eval_seeds ag en fuel timeout video seeds a e = (Ok rs, vs, a', e') -> In r rs ->
  exists a0 e0 a1 e1, I e0 /\ eval_seed ag en fuel timeout (er_seed r) a0 e0 = (Ok r, a1, e1).
Proof.
  induction seeds as [|seed seeds IH]; intros a e rs vs a' e' r Ie Es Hr; cbn [eval_seeds] in Es.
  - injection Es as <- _ _ _. inversion Hr.
  - pose proof (seed_preserves fuel timeout seed a e Ie) as K.
    destruct (eval_seed ag en fuel timeout seed a e) as [[[r1|x|] a1] e1] eqn:E1; cbn [snd] in K; try discriminate.
    destruct (if video then _ else _) as [vs1|x|]; try discriminate.
    destruct (eval_seeds ag en fuel timeout video seeds a1 e1) as [[[r2 ws] a2] e2] eqn:E2.
    destruct r2 as [rs2|x|]; cbn [fmap_res] in Es; try discriminate. injection Es as <- _ _ _. destruct Hr as [->|Hr].
    + exists a, e, a1, e1. split; auto.
      assert (Sd : er_seed r = seed) by (apply seed_Ok in E1 as (? & ? & ? & _ & _ & Rp); apply Rp). rewrite Sd. exact E1.
    + eapply IH; eauto.
Qed.
End Preserved.

(** environments that cannot be told apart give the same results, with an agent
    whose steps do not depend on its past *)
Section Same.
Variable Rel : E -> E -> Prop.
Hypothesis Rel_elapsed : forall e e', Rel e e' -> ee_elapsed en e = ee_elapsed en e'.
Hypothesis Rel_step : forall act e e', Rel e e' ->
  fst (e_step (ee_env en) act e) = fst (e_step (ee_env en) act e') /\
  Rel (snd (e_step (ee_env en) act e)) (snd (e_step (ee_env en) act e')).
Hypothesis uniform : without_past ag.

Lemma loop_same fuel timeout : forall ts m a b e e', Rel e e' ->
  fst (fst (eval_loop ag en fuel timeout ts m a e)) = fst (fst (eval_loop ag en fuel timeout ts m b e')).
Proof.
  destruct uniform as (policy & duration & U).
  induction fuel as [|fuel IH]; intros ts m a b e e' H; cbn [eval_loop].
  - destruct (negb _); reflexivity.
  - destruct (negb _); [reflexivity|].
    destruct (perf_counter ag a) as [t0 a0] eqn:A0. destruct (agent_step ag ts a0) as [ra a1] eqn:A1.
    destruct (perf_counter ag b) as [s0 b0] eqn:B0. destruct (agent_step ag ts b0) as [rb b1] eqn:B1.
    destruct (perf_counter ag a1) as [t1 a2] eqn:A2. destruct (perf_counter ag b1) as [s1 b2] eqn:B2.
    destruct (U ts a t0 a0 ra a1 t1 a2 A0 A1 A2) as (-> & Da). destruct (U ts b s0 b0 rb b1 s1 b2 B0 B1 B2) as (-> & Db).
    destruct (policy ts) as [act|x|]; try reflexivity.
    destruct (Rel_step act e e' H) as (K1 & K2).
    destruct (e_step (ee_env en) act e) as [r e1], (e_step (ee_env en) act e') as [r' e1']. cbn [fst snd] in K1, K2. subst r'.
    destruct r as [ts1|x|]; try reflexivity. rewrite Da, Db, (Rel_elapsed _ _ K2). destruct (is_last ts1); [reflexivity|]. apply IH. exact K2.
Qed.

Lemma seed_same fuel timeout seed a b e e' ts e1 e1' :
  e_reset (ee_env en) (ee_seed en seed e) = (Ok ts, e1) -> e_reset (ee_env en) (ee_seed en seed e') = (Ok ts, e1') -> Rel e1 e1' ->
  fst (fst (eval_seed ag en fuel timeout seed a e)) = fst (fst (eval_seed ag en fuel timeout seed b e')).
Proof.
  intros E1 E2 H. unfold eval_seed. rewrite E1, E2, (Rel_elapsed _ _ H).
  pose proof (loop_same fuel timeout ts (mkmetrics 0 0 0%Z (ee_elapsed en e1')) a b e1 e1' H) as K.
  destruct (eval_loop ag en fuel timeout ts _ a e1) as [[r a1] e2]. destruct (eval_loop ag en fuel timeout ts _ b e1') as [[r' b1] e2'].
  cbn [fst] in K. subst r'. destruct r as [[ts1 m]|x|]; reflexivity.
Qed.
End Same.

(** evaluations that return: nothing raises, time passes and does not run back *)
Section Returns.
Variable I : E -> Prop.
Variable actions : list R -> Prop.
Variable d : timedelta.
Hypothesis I_seed : forall z e, I e -> I (ee_seed en z e).
Hypothesis I_reset : forall e, I e -> exists ts e', e_reset (ee_env en) e = (Ok ts, e') /\ I e' /\ (0 <= ee_elapsed en e')%Z.
Hypothesis I_step : forall act e, I e -> actions act ->
  exists ts e', e_step (ee_env en) act e = (Ok ts, e') /\ I e' /\ (d <= ee_elapsed en e')%Z.
Hypothesis acts : forall ts a, exists act a', agent_step ag ts a = (Ok act, a') /\ actions act.
Hypothesis clock : forall ts a t0 a0 r a1 t1 a2, perf_counter ag a = (t0, a0) -> agent_step ag ts a0 = (r, a1) ->
  perf_counter ag a1 = (t1, a2) -> t0 <= t1.

Lemma loop_returns fuel timeout : forall ts m a e, I e -> (timeout - spent m <= d * Z.of_nat fuel)%Z ->
  exists ts' m' a' e', eval_loop ag en fuel timeout ts m a e = (Ok (ts', m'), a', e') /\ I e'.
Proof.
  induction fuel as [|fuel IH]; intros ts m a e Ie T; cbn [eval_loop]; fold (spent m).
  - assert (K : (spent m <? timeout)%Z = false) by (apply Z.ltb_ge; lia). rewrite K. cbn. eauto 10.
  - destruct (spent m <? timeout)%Z; cbn [negb]; [|eauto 10].
    destruct (perf_counter ag a) as [t0 a0] eqn:E0. destruct (acts ts a0) as (act & a1 & E1 & Ha). rewrite E1.
    destruct (perf_counter ag a1) as [t1 a2] eqn:E2. pose proof (clock _ _ _ _ _ _ _ _ E0 E1 E2) as Le.
    destruct (I_step act e Ie Ha) as (ts1 & e1 & E3 & I1 & De). rewrite E3.
    destruct (is_last ts1); [eauto 10|]. apply IH; auto. unfold spent in *. cbn [me_agent_elapsed me_environment_elapsed].
    assert (0 <= td_seconds (t1 - t0))%Z by (apply td_nonneg; lra). unfold timedelta in *. nia.
Qed.

Lemma seeds_return fuel timeout video seeds : (timeout <= d * Z.of_nat fuel)%Z ->
  (video = true -> forall e, I e -> exists v, ee_video en e = Ok v) ->
  forall a e, I e -> exists rs vs a' e', eval_seeds ag en fuel timeout video seeds a e = (Ok rs, vs, a', e') /\ I e'.
Proof.
  intros T Hv. induction seeds as [|seed seeds IH]; intros a e Ie; cbn [eval_seeds]; [eauto 10|].
  unfold eval_seed. destruct (I_reset _ (I_seed seed e Ie)) as (ts & e1 & E1 & I1 & P1). rewrite E1.
  destruct (loop_returns fuel timeout ts (mkmetrics 0 0 0%Z (ee_elapsed en e1)) a e1 I1) as (ts' & m' & a' & e' & E2 & I2).
  { unfold spent. cbn. unfold timedelta in *. lia. }
  rewrite E2. destruct (IH a' e' I2) as (rs & vs & a2 & e2 & E3 & I3). rewrite E3.
  destruct video; [destruct (Hv eq_refl e' I2) as (v & ->)|]; cbn; eauto 10.
Qed.
End Returns.

End Evaluate.

(** the observers of the simulator *)
Section Observers.
Context {G : Type}.
Variable s : sampler G.
Variable render : @renderer G.

Definition watched_by {A} (x : @call G A) : Prop := forall sim g, sim_observers (out_sim (x sim g)) = sim_observers sim.
Lemma watched_then {A B} (x : @call G A) (k : A -> @call G B) : watched_by x -> (forall a, watched_by (k a)) -> watched_by (then_ x k).
Proof.
  intros Hx Hk sim g. specialize (Hx sim g). destruct (out_result (x sim g)) as [a|e|] eqn:E0.
  - rewrite (then_Ok _ _ _ _ a E0). cbn. rewrite Hk. exact Hx.
  - rewrite (then_Raise _ _ _ _ e E0). exact Hx.
  - rewrite (then_Fuel _ _ _ _ E0). exact Hx.
Qed.
Ltac watching := repeat (first
  [ apply watched_then; [|intros ?]
  | match goal with |- watched_by (if ?b then _ else _) => destruct b end
  | match goal with |- watched_by (match ?b with PPoint _ => _ | _ => _ end) => destruct b end
  | match goal with |- watched_by (match ?b with Some _ => _ | None => _ end) => destruct b end
  | (intros ? ?; unfold draws; match goal with |- context [let '(_, _) := ?x in _] => destruct x end; cbn; auto; fail)
  | (intros ? ?; cbn; auto; fail) ]).

Lemma watched_reset_material : watched_by (reset_material s).
Proof.
  intros sim g. unfold reset_material, material_reset. destruct (generate_pristine_graphene _ _ _) as [ps g1].
  destruct (argmin _); cbn; auto.
Qed.
Lemma watched_expose fuel c : watched_by (expose_material s fuel c).
Proof. intros sim g. unfold expose_material, apply_control. destruct (reset_grid _); cbn; auto. Qed.
Lemma watched_draws {A} (h : G -> res A * G) : watched_by (draws h).
Proof. intros sim g. unfold draws. destruct (h g). cbn; auto. Qed.
Lemma watched_centered scale : watched_by (@centered_fov G scale).
Proof. unfold centered_fov. watching. Qed.
Lemma watched_observed : watched_by (@get_observed_grid_and_elapsed_time G).
Proof. unfold get_observed_grid_and_elapsed_time. watching. Qed.
Lemma watched_image b og : watched_by (maybe_image render b og).
Proof. destruct b; cbn [maybe_image]; unfold generate_image; watching; auto using watched_draws. Qed.
Lemma watched_reset b : watched_by (sim_do_reset s render b).
Proof.
  unfold sim_do_reset. watching; auto using watched_reset_material, watched_centered, watched_observed, watched_image, watched_draws.
Qed.
Lemma watched_all fuel cs : forall t, watched_by (apply_all s fuel t cs).
Proof.
  induction cs as [|c cs IH]; intros t; cbn [apply_all]; [watching|]. apply watched_then; auto.
  unfold apply_one. watching. apply watched_expose.
Qed.
Lemma watched_step fuel cs b : watched_by (step_and_image s render fuel cs b).
Proof.
  unfold step_and_image, assert_has_been_reset, image_and_recentre.
  repeat (apply watched_then; [|intros ?]); auto using watched_all, watched_observed, watched_image; watching;
    auto using watched_centered, watched_observed.
Qed.
End Observers.

Section Env.
Context {G St Goal F : Type}.
Variable s : sampler G.
Variable render : @renderer G.
Variable adapter : action_adapter G St.
Variable features : feature_constructor Goal F.
Variable goal_m : goal_methods G Goal.
Variable fuel : nat.
Notation the_reset := (env_reset s render adapter features goal_m).
Notation the_step := (env_step s render adapter features goal_m fuel).

Lemma env_reset_observers e : sim_observers (env_sim (eo_env (the_reset e))) = sim_observers (env_sim e).
Proof.
  unfold env_reset. pose proof (watched_reset s render (fc_requires_image features) (env_sim e) (env_rng e)) as K.
  set (o := sim_do_reset _ _ _ _ _) in *. clearbody o.
  destruct (out_result o) as [obs|x|]; cbn [eo_env env_sim]; auto. cbn [env_rng env_adapter_rng env_sim env_adapter env_goal].
  match goal with |- context [reset_adapter adapter ?x] =>
    destruct (reset_adapter_restarts adapter x obs) as (st & ga & g & _ & A2) end.
  cbn [env_rng env_adapter_rng env_sim env_adapter env_goal] in A2. rewrite A2.
  cbn [env_rng env_adapter_rng env_sim env_adapter env_goal].
  destruct (gm_reset _ _ _ _) as [[[[]|?|] ?] ?]; cbn [eo_env env_sim]; auto.
  destruct (fc_get_features _ _ _); cbn [eo_env env_sim]; auto.
Qed.
Lemma env_step_observers a e : sim_observers (env_sim (eo_env (the_step a e))) = sim_observers (env_sim e).
Proof.
  destruct (env_requires_reset e) eqn:Ef; [rewrite step_auto by auto; apply env_reset_observers|].
  unfold env_step. rewrite Ef. destruct (aa_get_action _ _ _ _) as [[cs|?|] st]; cbn [eo_env env_sim]; auto.
  pose proof (watched_step s render fuel cs (fc_requires_image features) (env_sim e) (env_rng e)) as K.
  set (o := step_and_image _ _ _ _ _ _ _) in *. clearbody o.
  destruct (out_result o) as [obs|?|]; cbn [eo_env env_sim]; auto.
  destruct (fc_get_features _ _ _); cbn [eo_env env_sim]; auto.
  destruct (gm_calculate _ _ _) as [[ret|?|] goal]; cbn [eo_env env_sim]; auto.
  destruct (gr_terminal ret), (gr_truncated ret); auto.
Qed.
End Env.

(** averages *)
Definition nan_sum (l : list nan_float) : nan_float := fold_right nan_add (Some 0) l.
Lemma nan_add_assoc x y z : nan_add x (nan_add y z) = nan_add (nan_add x y) z.
Proof. destruct x, y, z; simpl; auto. f_equal. ring. Qed.
Lemma nan_add_comm x y : nan_add x y = nan_add y x.
Proof. destruct x, y; simpl; auto. f_equal. ring. Qed.
Lemma nan_add_0 x : nan_add x (Some 0) = x.
Proof. destruct x; simpl; auto. f_equal. ring. Qed.
Lemma nan_sum_numbers xs : nan_sum (map Some xs) = Some (rsum xs).
Proof. unfold rsum. induction xs as [|x xs IH]; simpl; auto. change (fold_right nan_add (Some 0) (map Some xs)) with (nan_sum (map Some xs)). rewrite IH. reflexivity. Qed.
Lemma nan_sum_nan l : In nan l -> nan_sum l = nan.
Proof. induction l as [|x l IH]; simpl; [tauto|]. intros [->|K]; auto. fold (nan_sum l). rewrite IH by auto. destruct x; reflexivity. Qed.

Definition totals_of (l : list eval_result) : totals :=
  mktotals (length (successes l)) (list_sum (map er_num_actions_taken (successes l)))
    (nan_sum (map er_agent_seconds_to_goal (successes l))) (nan_sum (map er_environment_seconds_to_goal (successes l)))
    (rsum (map er_total_reward (successes l))).

Lemma add_totals l : forall t, fold_left add_result l t =
  mktotals (tt_reached t + tt_reached (totals_of l)) (tt_actions t + tt_actions (totals_of l))
    (nan_add (tt_agent_seconds t) (tt_agent_seconds (totals_of l)))
    (nan_add (tt_environment_seconds t) (tt_environment_seconds (totals_of l))) (tt_reward t + tt_reward (totals_of l)).
Proof.
  induction l as [|r l IH]; intros t; cbn [fold_left].
  - destruct t as [n m x y z]. unfold totals_of, rsum; simpl. rewrite !nan_add_0, !Nat.add_0_r. f_equal. ring.
  - rewrite IH. unfold totals_of, add_result, successes. cbn [filter].
    destruct (er_reached_goal r); cbn [tt_reached tt_actions tt_agent_seconds tt_environment_seconds tt_reward map length list_sum fold_right].
    + unfold nan_sum, rsum, list_sum; cbn [fold_right]. rewrite <- !nan_add_assoc. f_equal; try ring; lia.
    + rewrite Nat.add_0_r. reflexivity.
Qed.

Lemma INR_sum l : INR (list_sum l) = rsum (map INR l).
Proof.
  unfold list_sum, rsum. induction l as [|x l IH]; cbn [fold_right map]; [reflexivity|]. rewrite plus_INR, IH. reflexivity.
Qed.

Lemma average_den xs : average xs = rsum xs / INR (Nat.max (length xs) 1).
Proof.
  unfold average. destruct xs as [|x xs]; [unfold rsum; cbn [fold_right length Nat.max INR]; lra|].
  rewrite Nat.max_l by (simpl; lia). reflexivity.
Qed.

Lemma aggregate_eq l : l <> [] -> aggregate_results l = Ok (mkaggregate
  (INR (length (successes l)) / INR (length l))
  (average (map (fun r => INR (er_num_actions_taken r)) (successes l)))
  (nan_div (nan_sum (map er_agent_seconds_to_goal (successes l))) (INR (Nat.max (length (successes l)) 1)))
  (nan_div (nan_sum (map er_environment_seconds_to_goal (successes l))) (INR (Nat.max (length (successes l)) 1)))
  (average (map er_total_reward (successes l)))).
Proof.
  intros N. unfold aggregate_results. rewrite add_totals.
  cbn [tt_reached tt_actions tt_agent_seconds tt_environment_seconds tt_reward totals_of plus].
  replace (length l =? 0)%nat with false by (symmetry; apply Nat.eqb_neq; destruct l; [congruence|discriminate]).
  rewrite !average_den, !map_length, INR_sum, map_map. rewrite !(nan_add_comm (Some 0)), !nan_add_0, Rplus_0_l. reflexivity.
Qed.
