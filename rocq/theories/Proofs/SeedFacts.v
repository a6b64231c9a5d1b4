(** Calls on simulators and environments that differ only in their past. *)
From Coq Require Import Reals ZArith List Bool Lia Arith.
From Verif Require Import Base.Prelude Base.Rounding Base.Random Model.Constants Model.MicroscopeUtils
  Model.Graphene Model.Simulator Model.ActionAdapters Model.Goals Model.FeatureConstructors Model.Environment
  Spec.Grids Spec.Simulation Spec.Episodes Proofs.SimulatorFacts Proofs.SimulatorHistories Proofs.EnvironmentFacts.
Import ListNotations.
Open Scope R_scope.

Section Rel.
Context {G : Type}.
Variable s : sampler G.
Variable render : @renderer G.

Notation srel := (simulator -> simulator -> Prop).

(** related calls: from related simulators and the same generator they give the
    same result and generator; the simulators are related by R2 afterwards, by
    Rb if the call raised *)
Definition related (R1 R2 Rb : srel) {A} (x x' : @call G A) : Prop :=
  forall sim sim' g, R1 sim sim' ->
    out_result (x sim g) = out_result (x' sim' g) /\ out_rng (x sim g) = out_rng (x' sim' g) /\
    match out_result (x sim g) with Ok _ => R2 | _ => Rb end (out_sim (x sim g)) (out_sim (x' sim' g)).

Lemma related_then (R1 R2 R3 Rb : srel) A B (x x' : @call G A) (k k' : A -> @call G B) :
  related R1 R2 Rb x x' -> (forall a, related R2 R3 Rb (k a) (k' a)) -> related R1 R3 Rb (then_ x k) (then_ x' k').
Proof.
  intros Hx Hk sim sim' g R. destruct (Hx sim sim' g R) as (E1 & E2 & E3).
  destruct (out_result (x sim g)) as [a|e|] eqn:Eo.
  - rewrite (then_Ok x k sim g a) by auto. rewrite (then_Ok x' k' sim' g a) by auto. cbn [out_result out_sim out_rng].
    rewrite <- E2. apply Hk. exact E3.
  - rewrite (then_Raise x k sim g e) by auto. rewrite (then_Raise x' k' sim' g e) by auto. cbn. auto.
  - rewrite (then_Fuel x k sim g) by auto. rewrite (then_Fuel x' k' sim' g) by auto. cbn. auto.
Qed.

Lemma related_self (R1 R2 Rb : srel) B (k k' : simulator -> @call G B) :
  (forall a a', R1 a a' -> related R1 R2 Rb (k a) (k' a')) -> related R1 R2 Rb (then_ get_self k) (then_ get_self k').
Proof.
  intros Hk sim sim' g R. rewrite (then_Ok get_self k sim g sim) by reflexivity.
  rewrite (then_Ok get_self k' sim' g sim') by reflexivity. cbn [out_result out_sim out_rng]. apply (Hk sim sim' R sim sim' g R).
Qed.

Lemma related_ret (R Rb : srel) A (a : A) : related R R Rb (ret a) (ret a).
Proof. intros sim sim' g H. cbn. auto. Qed.
Lemma related_raise (R R2 : srel) A e : related R R2 R (@raise G A e) (raise e).
Proof. intros sim sim' g H. cbn. auto. Qed.
Lemma related_raise_any (R R2 : srel) (Rb : srel) A e : (forall a b, Rb a b) -> related R R2 Rb (@raise G A e) (raise e).
Proof. intros K sim sim' g H. cbn. auto. Qed.
Lemma related_lift (R Rb : srel) A (r r' : res A) : r = r' -> (forall a b, R a b -> Rb a b) -> related R R Rb (lift r) (lift r').
Proof. intros <- K sim sim' g H. cbn. destruct r; auto. Qed.
Lemma related_draws (R Rb : srel) A (h : G -> res A * G) : (forall a b, R a b -> Rb a b) -> related R R Rb (draws h) (draws h).
Proof. intros K sim sim' g H. unfold draws. destruct (h g) as [[a|e|] g']; cbn; auto. Qed.
Lemma related_attribute (R Rb : srel) A (fld : simulator -> option A) : (forall a b, R a b -> fld a = fld b) -> (forall a b, R a b -> Rb a b) ->
  related R R Rb (attribute fld) (attribute fld).
Proof. intros F K sim sim' g H. cbn. rewrite (F sim sim' H). destruct (fld sim'); auto. Qed.
Lemma related_notify (R Rb : srel) cbs : related R R Rb (notify cbs) (notify cbs).
Proof. intros sim sim' g H. cbn. auto. Qed.
Lemma related_set (R1 R2 Rb : srel) h : (forall a b, R1 a b -> R2 (h a) (h b)) -> related R1 R2 Rb (set_self h) (set_self h).
Proof. intros K sim sim' g H. cbn. auto. Qed.

(** equal but for the observers, and what the phases of a reset make equal *)
Definition same_config : srel := fun a b =>
  m_columns (sim_material a) = m_columns (sim_material b) /\
  m_rate_function (sim_material a) = m_rate_function (sim_material b) /\
  sim_image_duration a = sim_image_duration b.
Definition same1 : srel := fun a b => same_config a b /\ sim_reset a = sim_reset b.
Definition same2 : srel := fun a b => sim_material a = sim_material b /\ sim_image_duration a = sim_image_duration b /\
  sim_reset a = sim_reset b.
Definition same3 : srel := fun a b => same2 a b /\ sim_fov_scale a = sim_fov_scale b.
Definition same4 : srel := fun a b => same3 a b /\ sim_fov a = sim_fov b.
Definition same : srel := fun a b => same4 a b /\ sim_image_parameters a = sim_image_parameters b.
Definition anything : srel := fun _ _ => True.

Lemma related_centered (R Rb : srel) scale : (forall a b, R a b -> sim_material a = sim_material b) -> (forall a b, R a b -> Rb a b) ->
  related R R Rb (centered_fov scale) (centered_fov scale).
Proof.
  intros M K. unfold centered_fov. apply related_self. intros a a' H.
  eapply related_then; [apply related_lift; [rewrite (M a a' H); reflexivity|exact K]|]. intros.
  eapply related_then; [apply related_lift; [reflexivity|exact K]|]. intros.
  eapply related_then; [apply related_lift; [reflexivity|exact K]|]. intros. apply related_ret.
Qed.

Lemma related_observed (R Rb : srel) : (forall a b, R a b -> same4 a b) -> (forall a b, R a b -> Rb a b) ->
  related R R Rb get_observed_grid_and_elapsed_time get_observed_grid_and_elapsed_time.
Proof.
  intros S4 K. unfold get_observed_grid_and_elapsed_time.
  eapply related_then; [apply related_attribute; auto; intros a b H; apply (S4 a b H)|]. intros f.
  apply related_self. intros a a' H.
  assert (M : sim_material a = sim_material a') by apply (S4 a a' H).
  assert (Dd : sim_image_duration a = sim_image_duration a') by apply (S4 a a' H).
  rewrite M, Dd.
  eapply related_then; [apply related_lift; auto|]. intros.
  eapply related_then; [apply related_notify|]. intros. apply related_ret.
Qed.

Lemma related_image (R Rb : srel) b og : (forall a b, R a b -> same a b) -> (forall a b, R a b -> Rb a b) ->
  related R R Rb (maybe_image render b og) (maybe_image render b og).
Proof.
  intros S K. destruct b; cbn [maybe_image]; [|apply related_ret].
  eapply related_then; [|intros; apply related_ret]. unfold generate_image.
  eapply related_then; [apply related_attribute; auto; intros a b H; apply (S a b H)|]. intros f.
  eapply related_then; [apply related_attribute; auto; intros a b H; apply (S a b H)|]. intros p.
  eapply related_then; [apply related_draws; auto|]. intros i.
  eapply related_then; [apply related_notify|]. intros. apply related_ret.
Qed.

(** a reset from simulators with the same configuration *)
Lemma related_reset b : related same_config same anything (sim_do_reset s render b) (sim_do_reset s render b).
Proof.
  assert (Any : forall (R : srel) a b, R a b -> anything a b) by (intros; exact I).
  unfold sim_do_reset.
  eapply related_then; [apply (related_set _ same1); intros x y (A1 & A2 & A3); unfold same1, same_config; cbn; auto|]. intros _.
  eapply (related_then same1 same2).
  { intros sim sim' g ((A1 & A2 & A3) & A4). unfold reset_material, material_reset. rewrite <- A1, <- A2.
    destruct (generate_pristine_graphene s _ g) as [ps g1]. destruct (argmin (map pnorm ps)) as [i|]; cbn.
    - repeat split; auto.
    - repeat split. }
  intros _.
  eapply related_then; [apply related_draws; apply Any|]. intros scale.
  eapply related_then; [apply (related_set _ same3); intros x y H; unfold same3, same2 in *; cbn; tauto|]. intros _.
  eapply related_then; [apply related_centered; [intros a c H; apply H|apply Any]|]. intros f.
  eapply related_then; [apply (related_set _ same4); intros x y H; unfold same4, same3, same2 in *; cbn; tauto|]. intros _.
  eapply related_then; [apply related_attribute; [intros a c H; rewrite (proj1 (proj1 (proj1 H))); reflexivity|apply Any]|]. intros gr.
  eapply related_then; [apply related_notify|]. intros _.
  eapply related_then; [apply related_observed; [auto|apply Any]|]. intros og.
  eapply related_then; [apply related_draws; apply Any|]. intros p.
  eapply related_then; [apply (related_set _ same); intros x y H; unfold same, same4, same3, same2 in *; cbn; tauto|]. intros _.
  eapply related_then; [apply related_image; [auto|apply Any]|]. intros i. apply related_ret.
Qed.

Lemma same_same4 a b : same a b -> same4 a b. Proof. intros H; apply H. Qed.

(** calls on simulators equal but for the observers *)
Lemma related_reset_same b : related same same same (sim_do_reset s render b) (sim_do_reset s render b).
Proof.
  unfold sim_do_reset.
  eapply related_then; [apply (related_set _ same); intros x y H; unfold same, same4, same3, same2 in *; cbn; tauto|]. intros _.
  eapply (related_then same same).
  { intros sim sim' g H. unfold reset_material, material_reset. rewrite (proj1 (proj1 (proj1 (proj1 H)))).
    destruct (generate_pristine_graphene s _ g) as [ps g1]. destruct (argmin (map pnorm ps)) as [i|]; cbn;
      unfold same, same4, same3, same2 in *; cbn; tauto. }
  intros _.
  eapply related_then; [apply related_draws; auto|]. intros scale.
  eapply related_then; [apply (related_set _ same); intros x y H; unfold same, same4, same3, same2 in *; cbn; tauto|]. intros _.
  eapply related_then; [apply related_centered; [intros a c H; apply H|auto]|]. intros f.
  eapply related_then; [apply (related_set _ same); intros x y H; unfold same, same4, same3, same2 in *; cbn; tauto|]. intros _.
  eapply related_then; [apply related_attribute; [intros a c H; rewrite (proj1 (proj1 (proj1 (proj1 H)))); reflexivity|auto]|]. intros gr.
  eapply related_then; [apply related_notify|]. intros _.
  eapply related_then; [apply related_observed; auto using same_same4|]. intros og.
  eapply related_then; [apply related_draws; auto|]. intros p.
  eapply related_then; [apply (related_set _ same); intros x y H; unfold same, same4, same3, same2 in *; cbn; tauto|]. intros _.
  eapply related_then; [apply related_image; auto|]. intros i. apply related_ret.
Qed.

Lemma related_one fuel c : related same same same (apply_one s fuel c) (apply_one s fuel c).
Proof.
  unfold apply_one.
  eapply related_then; [apply related_attribute; auto; intros a b H; apply H|]. intros f.
  eapply related_then; [apply related_lift; auto|]. intros p. destruct p; try apply related_raise.
  eapply related_then; [apply related_notify|]. intros _.
  intros sim sim' g H. unfold expose_material. rewrite (proj1 (proj1 (proj1 (proj1 H)))).
  destruct (apply_control s fuel (sim_material sim') _ g) as [[[r m] g1] ts]. cbn.
  destruct r; unfold same, same4, same3, same2 in *; cbn; tauto.
Qed.
Lemma related_all fuel cs : forall t, related same same same (apply_all s fuel t cs) (apply_all s fuel t cs).
Proof.
  induction cs as [|c cs IH]; intros t; cbn [apply_all]; [apply related_ret|].
  eapply related_then; [apply related_one|]. intros _. apply IH.
Qed.
Lemma related_step fuel cs b : related same same same (step_and_image s render fuel cs b) (step_and_image s render fuel cs b).
Proof.
  unfold step_and_image. eapply related_then.
  { unfold assert_has_been_reset. apply related_self. intros a a' H.
    replace (sim_reset a') with (sim_reset a) by apply H. destruct (sim_reset a); [apply related_ret|apply related_raise]. }
  intros _. eapply related_then; [apply related_all|]. intros t.
  eapply related_then.
  { unfold image_and_recentre. eapply related_then; [apply related_observed; auto using same_same4|]. intros og.
    eapply related_then; [apply related_lift; auto|]. intros [].
    - eapply related_then; [apply related_attribute; auto; intros a c H; apply H|]. intros scale.
      eapply related_then; [apply related_centered; auto; intros a c H; apply H|]. intros f.
      eapply related_then; [apply (related_set _ same); intros x y H; unfold same, same4, same3, same2 in *; cbn; tauto|]. intros _.
      eapply related_then; [apply related_notify|]. intros _.
      eapply related_then; [apply related_observed; auto using same_same4|]. intros og'. apply related_ret.
    - apply related_ret. }
  intros og. eapply related_then; [apply related_image; auto|]. intros i.
  eapply related_then; [apply related_attribute; auto; intros a c H; apply H|]. intros f. apply related_ret.
Qed.

(** no call changes the configuration *)
Definition keeps {A} (x : @call G A) : Prop := forall sim g, same_config sim (out_sim (x sim g)).
Lemma config_trans a b c : same_config a b -> same_config b c -> same_config a c.
Proof. unfold same_config. intuition congruence. Qed.
Lemma config_sym a b : same_config a b -> same_config b a.
Proof. unfold same_config. intuition congruence. Qed.
Lemma keeps_then {A B} (x : @call G A) (k : A -> @call G B) : keeps x -> (forall a, keeps (k a)) -> keeps (then_ x k).
Proof.
  intros Hx Hk sim g. specialize (Hx sim g). destruct (out_result (x sim g)) as [a|e|] eqn:E.
  - rewrite (then_Ok _ _ _ _ a E). cbn. eapply config_trans; [exact Hx|apply Hk].
  - rewrite (then_Raise _ _ _ _ e E). exact Hx.
  - rewrite (then_Fuel _ _ _ _ E). exact Hx.
Qed.
Ltac keeping := repeat (first
  [ apply keeps_then; [|intros ?]
  | match goal with |- keeps (if ?b then _ else _) => destruct b end
  | match goal with |- keeps (match ?b with PPoint _ => _ | _ => _ end) => destruct b end
  | match goal with |- keeps (match ?b with Some _ => _ | None => _ end) => destruct b end
  | (intros ? ?; unfold draws; match goal with |- context [let '(_, _) := ?x in _] => destruct x end; unfold same_config; cbn; auto; fail)
  | (intros ? ?; unfold same_config; cbn; auto; fail) ]).

Lemma keeps_reset_material : keeps (reset_material s).
Proof.
  intros sim g. unfold reset_material, material_reset. destruct (generate_pristine_graphene _ _ _) as [ps g1].
  destruct (argmin _); unfold same_config; cbn; auto.
Qed.
Lemma keeps_expose fuel c : keeps (expose_material s fuel c).
Proof.
  intros sim g. unfold expose_material, apply_control. destruct (reset_grid _); unfold same_config; cbn; auto.
Qed.
Lemma keeps_draws {A} (h : G -> res A * G) : keeps (draws h).
Proof. intros sim g. unfold draws. destruct (h g). unfold same_config; cbn; auto. Qed.
Lemma keeps_centered scale : keeps (@centered_fov G scale).
Proof. unfold centered_fov. keeping. Qed.
Lemma keeps_observed : keeps (@get_observed_grid_and_elapsed_time G).
Proof. unfold get_observed_grid_and_elapsed_time. keeping. Qed.
Lemma keeps_image b og : keeps (maybe_image render b og).
Proof. destruct b; cbn [maybe_image]; unfold generate_image; keeping; auto using keeps_draws. Qed.
Lemma keeps_reset b : keeps (sim_do_reset s render b).
Proof.
  unfold sim_do_reset. keeping; auto using keeps_reset_material, keeps_centered, keeps_observed, keeps_image, keeps_draws.
Qed.
Lemma keeps_all fuel cs : forall t, keeps (apply_all s fuel t cs).
Proof.
  induction cs as [|c cs IH]; intros t; cbn [apply_all]; [keeping|]. apply keeps_then; auto.
  unfold apply_one. keeping. apply keeps_expose.
Qed.
Lemma keeps_step fuel cs b : keeps (step_and_image s render fuel cs b).
Proof.
  unfold step_and_image, assert_has_been_reset, image_and_recentre.
  repeat (apply keeps_then; [|intros ?]); auto using keeps_all, keeps_observed, keeps_image; keeping;
    auto using keeps_centered, keeps_observed.
Qed.
Lemma keeps_add o : keeps (@add_observer G o).
Proof. unfold add_observer. keeping. Qed.
Lemma keeps_remove o : keeps (@remove_observer G o).
Proof. unfold remove_observer. keeping. Qed.
Lemma same_config_of a b : same a b -> same_config a b.
Proof. intros ((((A & B & _) & _) & _) & _). unfold same_config. rewrite A. auto. Qed.

End Rel.

Section Envs.
Context {G St Goal F : Type}.
Variable s : sampler G.
Variable render : @renderer G.
Variable adapter : action_adapter G St.
Variable features : feature_constructor Goal F.
Variable goal_m : goal_methods G Goal.
Variable fuel : nat.
Notation the_reset := (env_reset s render adapter features goal_m).
Notation the_step := (env_step s render adapter features goal_m fuel).
Notation env := (@env G St Goal).

Definition env_same (a b : env) : Prop :=
  env_rng a = env_rng b /\ (aa_has_rng adapter = true -> env_adapter_rng a = env_adapter_rng b) /\
  same (env_sim a) (env_sim b) /\ env_adapter a = env_adapter b /\ env_goal a = env_goal b /\
  env_last_observation a = env_last_observation b /\ env_requires_reset a = env_requires_reset b.

Lemma adapter_restarts_same (a b : env) g : unaffected adapter -> env_adapter a = env_adapter b ->
  (aa_has_rng adapter = true -> env_adapter_rng a = env_adapter_rng b) ->
  forall st ga g' stb gb gb', adapter_restarts adapter a g st ga g' -> adapter_restarts adapter b g stb gb gb' ->
  st = stb /\ g' = gb' /\ (aa_has_rng adapter = true -> ga = gb).
Proof.
  intros U Es Er st ga g' stb gb gb'. unfold adapter_restarts. rewrite <- Es. destruct (aa_has_rng adapter) eqn:Hr.
  - rewrite Er by auto. destruct (env_adapter_rng b).
    + intros (o1 & A1 & -> & ->) (o2 & A2 & -> & ->). rewrite A1 in A2. injection A2 as -> ->. auto.
    + intros (A1 & ->) (A2 & ->). rewrite A1 in A2. injection A2 as -> ->. auto.
  - specialize (U Hr).
    assert (K : forall (e : env) g0 st0 ga0 g1, match env_adapter_rng e with
       | Some own => exists own', aa_reset adapter (env_adapter a) own = (st0, own') /\ ga0 = Some own' /\ g1 = g0
       | None => aa_reset adapter (env_adapter a) g0 = (st0, g1) /\ ga0 = None end ->
       g1 = g0 /\ forall g, fst (aa_reset adapter (env_adapter a) g) = st0).
    { intros e g0 st0 ga0 g1. destruct (env_adapter_rng e) as [own|].
      - intros (own' & A & _ & ->). split; auto. intros g2. rewrite (proj2 (U (env_adapter a) g2 own)), A. reflexivity.
      - intros (A & _). split; [pose proof (proj1 (U (env_adapter a) g0 g0)) as B; rewrite A in B; auto|].
        intros g2. rewrite (proj2 (U (env_adapter a) g2 g0)), A. reflexivity. }
    intros H1 H2. destruct (K a _ _ _ _ H1) as (-> & K1), (K b _ _ _ _ H2) as (-> & K2).
    rewrite <- (K1 g), (K2 g). repeat split; discriminate.
Qed.

Lemma reset_adapter_restarts (e : env) obs : exists st ga g,
  adapter_restarts adapter e (env_rng e) st ga g /\
  reset_adapter adapter (mkenv (env_rng e) (env_adapter_rng e) (env_sim e) (env_adapter e) (env_goal e) obs false) =
    mkenv g ga (env_sim e) st (env_goal e) obs false.
Proof.
  unfold reset_adapter, adapter_restarts. cbn. destruct (env_adapter_rng e) as [own|].
  - destruct (aa_reset adapter (env_adapter e) own) as [st own']. exists st, (Some own'), (env_rng e). split; eauto.
  - destruct (aa_reset adapter (env_adapter e) (env_rng e)) as [st g]. exists st, None, g. auto.
Qed.

(** the rest of a reset, once the simulator has been reset *)
Lemma reset_same a b : unaffected adapter -> env_same a b ->
  eo_result (the_reset a) = eo_result (the_reset b) /\ env_same (eo_env (the_reset a)) (eo_env (the_reset b)).
Proof.
  intros U (H1 & H2 & H3 & H4 & H5 & H6 & H7).
  pose proof (related_reset_same s render (fc_requires_image features) _ _ (env_rng a) H3) as (K1 & K2 & K3).
  unfold env_reset. rewrite <- H1.
  set (oa := sim_do_reset s render (fc_requires_image features) (env_sim a) (env_rng a)) in *.
  set (ob := sim_do_reset s render (fc_requires_image features) (env_sim b) (env_rng a)) in *.
  rewrite <- K1, <- K2. clearbody oa ob.
  destruct (out_result oa) as [obs|x|]; [|split; [reflexivity|unfold env_same; cbn; auto 10]|split; [reflexivity|unfold env_same; cbn; auto 10]].
  cbn [env_rng env_adapter_rng env_sim env_adapter env_goal].
  set (ea := mkenv (out_rng oa) (env_adapter_rng a) (out_sim oa) (env_adapter a) (env_goal a) obs false).
  set (eb := mkenv (out_rng oa) (env_adapter_rng b) (out_sim ob) (env_adapter b) (env_goal b) obs false).
  destruct (reset_adapter_restarts ea obs) as (st & ga & g & A1 & A2).
  destruct (reset_adapter_restarts eb obs) as (st' & ga' & g' & B1 & B2).
  destruct (adapter_restarts_same ea eb (out_rng oa) U H4 H2 _ _ _ _ _ _ A1 B1) as (<- & <- & Eg).
  subst ea eb. cbn [env_rng env_adapter_rng env_sim env_adapter env_goal] in A2, B2. rewrite A2, B2.
  cbn [env_rng env_adapter_rng env_sim env_adapter env_goal]. rewrite <- H5.
  destruct (gm_reset goal_m (env_goal a) obs g) as [[[[]|x|] goal] g2]; cbn [eo_result eo_env];
    [|split; [reflexivity|unfold env_same; cbn; auto 10]|split; [reflexivity|unfold env_same; cbn; auto 10]].
  destruct (fc_get_features features obs goal); cbn [eo_result eo_env]; split; auto; unfold env_same; cbn; auto 10.
Qed.

Lemma step_same act a b : unaffected adapter -> env_same a b ->
  eo_result (the_step act a) = eo_result (the_step act b) /\ env_same (eo_env (the_step act a)) (eo_env (the_step act b)).
Proof.
  intros U H. pose proof H as (H1 & H2 & H3 & H4 & H5 & H6 & H7). destruct (env_requires_reset a) eqn:Ef.
  { rewrite !step_auto by congruence. apply reset_same; auto. }
  unfold env_step. rewrite <- H7, Ef, <- H4, <- H6, <- H1, <- H5.
  destruct (aa_get_action adapter (env_adapter a) (env_last_observation a) act) as [[cs|x|] st]; cbn [eo_result eo_env];
    [|split; [reflexivity|unfold env_same; cbn; auto 10]|split; [reflexivity|unfold env_same; cbn; auto 10]].
  pose proof (related_step s render fuel cs (fc_requires_image features) _ _ (env_rng a) H3) as (K1 & K2 & K3).
  set (oa := step_and_image s render fuel cs (fc_requires_image features) (env_sim a) (env_rng a)) in *.
  set (ob := step_and_image s render fuel cs (fc_requires_image features) (env_sim b) (env_rng a)) in *.
  rewrite <- K1, <- K2. clearbody oa ob.
  destruct (out_result oa) as [obs|x|]; cbn [eo_result eo_env];
    [|split; [reflexivity|unfold env_same; cbn; auto 10]|split; [reflexivity|unfold env_same; cbn; auto 10]].
  destruct (fc_get_features features obs (env_goal a)); cbn [eo_result eo_env];
    [|split; [reflexivity|unfold env_same; cbn; auto 10]|split; [reflexivity|unfold env_same; cbn; auto 10]].
  destruct (gm_calculate goal_m (env_goal a) obs) as [[ret|x|] goal]; cbn [eo_result eo_env];
    [|split; [reflexivity|unfold env_same; cbn; auto 10]|split; [reflexivity|unfold env_same; cbn; auto 10]].
  destruct (gr_terminal ret); [split; [reflexivity|unfold env_same; cbn; auto 10]|].
  destruct (gr_truncated ret); split; try reflexivity; unfold env_same; cbn; auto 10.
Qed.

(** seeding, then resetting *)
Lemma seeded_reset z a b ts : unaffected adapter -> forgets adapter -> forgets_goal goal_m ->
  same_config (env_sim a) (env_sim b) ->
  eo_result (the_reset (env_seed s adapter z a)) = Ok ts ->
  eo_result (the_reset (env_seed s adapter z b)) = Ok ts /\
  env_same (eo_env (the_reset (env_seed s adapter z a))) (eo_env (the_reset (env_seed s adapter z b))).
Proof.
  intros U Fa Fg Hc E.
  destruct (the_reset (env_seed s adapter z a)) as [r ea tra] eqn:Ea. cbn [eo_result] in E. subst r. cbn [eo_env].
  pose proof (related_reset s render (fc_requires_image features) _ _ (s_seed s z) Hc) as (K1 & K2 & K3).
  apply reset_returns in Ea. destruct Ea as (obs & st & ga & g1 & goal & g2 & x & o & -> & Eo & Ar & Eg & Ex & -> & -> & _).
  cbn [env_seed env_sim env_rng env_goal] in *.
  set (oa := sim_do_reset s render (fc_requires_image features) (env_sim a) (s_seed s z)) in *.
  set (ob := sim_do_reset s render (fc_requires_image features) (env_sim b) (s_seed s z)) in *.
  rewrite Eo in K1, K3.
  assert (Ab : exists ga', adapter_restarts adapter (env_seed s adapter z b) (out_rng oa) st ga' g1 /\
     (aa_has_rng adapter = true -> ga = ga')).
  { unfold adapter_restarts, env_seed in *. cbn [env_adapter_rng env_adapter] in *.
    destruct (aa_has_rng adapter) eqn:Hr.
    - destruct Ar as (Ar & ->). exists None. rewrite <- (Fa (env_adapter a)). auto.
    - specialize (U Hr).
      assert (K : g1 = out_rng oa /\ forall g', aa_reset adapter (env_adapter b) g' = (st, g')).
      { assert (Ks : forall g', fst (aa_reset adapter (env_adapter a) g') = st -> aa_reset adapter (env_adapter b) g' = (st, g')).
        { intros g' Eg'. rewrite (Fa (env_adapter b) (env_adapter a)).
          pose proof (proj1 (U (env_adapter a) g' g')). destruct (aa_reset adapter (env_adapter a) g'). cbn in *. congruence. }
        destruct (env_adapter_rng a) as [own|].
        - destruct Ar as (own' & Ar & _ & ->). split; auto. intros g'. apply Ks.
          rewrite (proj2 (U (env_adapter a) g' own)), Ar. reflexivity.
        - destruct Ar as (Ar & _). split; [pose proof (proj1 (U (env_adapter a) (out_rng oa) (out_rng oa))) as B; rewrite Ar in B; auto|].
          intros g'. apply Ks. rewrite (proj2 (U (env_adapter a) g' (out_rng oa))), Ar. reflexivity. }
      destruct K as (-> & K). destruct (env_adapter_rng b) as [own|].
      + exists (Some own). split; [|discriminate]. exists own. auto.
      + exists None. split; [|discriminate]. auto. }
  destruct Ab as (ga' & Ab & Eqg).
  assert (Eb : the_reset (env_seed s adapter z b) = mkenv_outcome (Ok (mktime_step FIRST 0 (Acting.discounted (o_elapsed obs)) x))
     (mkenv g2 ga' (out_sim ob) st goal obs false) (out_trace ob)).
  { apply reset_returns. exists obs, st, ga', g1, goal, g2, x, ob. split; [reflexivity|]. split; [auto|].
    rewrite <- K2. split; [exact Ab|]. split; [apply (Fg _ _ _ _ _ _ Eg)|]. auto. }
  rewrite Eb. cbn [eo_result eo_env]. split; auto. unfold env_same; cbn. auto 10.
Qed.

Lemma lived_config e0 e : lived s render adapter features goal_m fuel e0 e -> same_config (env_sim e0) (env_sim e).
Proof.
  induction 1 as [|z e L IH|e L IH|a e L IH|w o e L IH Hw].
  - unfold same_config; auto.
  - exact IH.
  - eapply config_trans; [exact IH|]. unfold env_reset.
    pose proof (keeps_reset s render (fc_requires_image features) (env_sim e) (env_rng e)) as K.
    set (o := sim_do_reset _ _ _ _ _) in *. clearbody o.
    destruct (out_result o); cbn [eo_env env_sim]; auto. cbn [env_rng env_adapter_rng env_sim env_adapter env_goal].
    match goal with |- context [reset_adapter adapter ?x] =>
      destruct (reset_adapter_restarts x a) as (st & ga & g & _ & A2) end.
    cbn [env_rng env_adapter_rng env_sim env_adapter env_goal] in A2. rewrite A2.
    cbn [env_rng env_adapter_rng env_sim env_adapter env_goal].
    destruct (gm_reset _ _ _ _) as [[[[]|?|] ?] ?]; cbn [eo_env env_sim]; auto.
    destruct (fc_get_features _ _ _); cbn [eo_env env_sim]; auto.
  - eapply config_trans; [exact IH|]. destruct (env_requires_reset e) eqn:Ef.
    { rewrite step_auto by auto. unfold env_reset.
      pose proof (keeps_reset s render (fc_requires_image features) (env_sim e) (env_rng e)) as K.
      set (o := sim_do_reset _ _ _ _ _) in *. clearbody o.
      destruct (out_result o) as [obs|?|]; cbn [eo_env env_sim]; auto. cbn [env_rng env_adapter_rng env_sim env_adapter env_goal].
      match goal with |- context [reset_adapter adapter ?x] =>
        destruct (reset_adapter_restarts x obs) as (st & ga & g & _ & A2) end.
      cbn [env_rng env_adapter_rng env_sim env_adapter env_goal] in A2. rewrite A2.
      cbn [env_rng env_adapter_rng env_sim env_adapter env_goal].
      destruct (gm_reset _ _ _ _) as [[[[]|?|] ?] ?]; cbn [eo_env env_sim]; auto.
      destruct (fc_get_features _ _ _); cbn [eo_env env_sim]; auto. }
    unfold env_step. rewrite Ef. destruct (aa_get_action _ _ _ _) as [[cs|?|] st]; cbn [eo_env env_sim]; try (unfold same_config; auto; fail).
    pose proof (keeps_step s render fuel cs (fc_requires_image features) (env_sim e) (env_rng e)) as K.
    set (o := step_and_image _ _ _ _ _ _ _) in *. clearbody o.
    destruct (out_result o); cbn [eo_env env_sim]; auto.
    destruct (fc_get_features _ _ _); cbn [eo_env env_sim]; auto.
    destruct (gm_calculate _ _ _) as [[ret|?|] goal]; cbn [eo_env env_sim]; auto.
    destruct (gr_terminal ret), (gr_truncated ret); auto.
  - eapply config_trans; [exact IH|]. cbn [env_sim]. destruct Hw as [-> | ->]; cbn [perform]; rewrite then_ret; cbn [out_sim].
    + apply keeps_add.
    + apply keeps_remove.
Qed.

End Envs.
