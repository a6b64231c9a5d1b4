(** Property C123: the specs an environment advertises. *)
From Coq Require Import String Reals ZArith List Bool Lia Lra Arith.
From Verif Require Import Base.Prelude Base.Rounding Base.Random Model.Constants Model.Geometry Model.MicroscopeUtils
  Model.Graphene Model.Simulator Model.ActionAdapters Model.Goals Model.FeatureConstructors Model.Environment Model.Registry
  Model.EnvSpecs
  Spec.Grids Spec.Neighbours Spec.Lattice Spec.Material Spec.MaterialRuns Spec.Simulation Spec.Acting Spec.Episodes Spec.Registry
  Spec.Conformance
  Proofs.BaseFacts Proofs.RoundingFacts Proofs.GeometryFacts Proofs.ExampleSampler Proofs.EnvironmentFacts Proofs.EpisodeFacts
  Props.AdapterProps Props.FeatureProps Props.EnvironmentProps Props.RegistryProps.
Import ListNotations.
Local Open Scope list_scope.
Local Open Scope string_scope.
Open Scope R_scope.

(** Wrappers relay both specs of the environment they wrap. *)
Theorem specs_relayed : forall c w, made_of c w ->
  env_action_spec w = (match c with
    | Relative lo hi _ | MaterialFrame lo hi _ | FromPixels lo hi => relative_bounds lo hi
    | DirectFromPixels => [(0, 1); (0, 1)]
    end) /\
  env_observation_spec w = (match c with
    | Relative _ _ _ | MaterialFrame _ _ _ => ArraySpec [10%nat]
    | FromPixels _ _ | DirectFromPixels => DictSpec [("image", [128; 128; 1]%nat); ("goal_delta_angstroms", [2%nat])]
    end).
Proof.
  intros c w H. induction H as [|w H IH|n w H IH]; auto. cbn [env_action_spec env_observation_spec].
  destruct c; cbn [adapter_spec_of observation_spec_of]; rewrite ?relative_spec_bounds; split; reflexivity.
Qed.
Print Assumptions specs_relayed.

(** what a call returns shows the features of some observation *)
Lemma answer_shows {G St Goal F} (s : sampler G) render (adapter : action_adapter G St) (features : feature_constructor Goal F)
  goal_m fuel e c ts e' : answer (dune_environment s render adapter features goal_m fuel) c e = (Ok ts, e') ->
  exists o goal, fc_get_features features o goal = Ok (ts_observation ts).
Proof.
  assert (Re : forall e, eo_result (env_reset s render adapter features goal_m e) = Ok ts ->
    exists o goal, fc_get_features features o goal = Ok (ts_observation ts)).
  { intros e0 E. destruct (env_reset s render adapter features goal_m e0) as [r e1 tr] eqn:Es. cbn in E; subst r.
    apply reset_returns in Es. destruct Es as (obs & st & ga & g1 & goal & g2 & x & o & _ & _ & _ & _ & Hx & -> & _).
    exists obs, goal. exact Hx. }
  intros E. destruct c as [|a]; cbn in E; injection E as E _; [eauto|].
  destruct (env_requires_reset e) eqn:Er; [rewrite step_auto in E by exact Er; eauto|].
  destruct (env_step s render adapter features goal_m fuel a e) as [r e1 tr] eqn:Es. cbn in E; subst r.
  apply step_returns in Es; auto. destruct Es as (cs & st & obs & x & ret & goal & o & _ & _ & _ & Hx & _ & -> & _).
  exists obs, (env_goal e). exact Hx.
Qed.

Lemma features_conform knn resize c o goal x : knn_ok knn -> resizes resize ->
  fc_get_features (features_of knn resize c) o goal = Ok x -> conforms (observation_spec_of c) x.
Proof.
  intros K Z H.
  assert (Ve : forall v, fc_get_features (pristine_features knn) o goal = Ok v \/ fc_get_features (material_frame_features knn) o goal = Ok v ->
    conforms (ArraySpec [vector_spec_length]) (Vector v)).
  { intros v Hv. destruct (features_length knn o goal v K Hv) as (_ & L & F). cbn. rewrite L. auto. }
  assert (Pi : fc_get_features (map_features (fun x => Picture (fst x) (snd x)) (image_features resize)) o goal = Ok x ->
    conforms image_spec x).
  { unfold map_features. cbn [fc_get_features image_features image_get_features].
    destruct (o_image o) as [i|]; cbn [bind]; [|discriminate].
    destruct (get_silicon_goal_delta (o_grid o) (o_fov o) goal) as [d| |]; cbn [bind]; try discriminate.
    intros E. injection E as <-. exists 128%nat, 128%nat. split; [reflexivity|]. split; [apply Z|].
    intros y [<-|[<-|[]]]; apply f32_idem. }
  destruct c; cbn [features_of observation_spec_of] in *; auto; unfold map_features in H; cbn [fc_get_features] in H;
    destruct (fc_get_features _ o goal) as [v| |] eqn:E in H; try discriminate; injection H as <-; auto.
Qed.

(** Whatever reset and step return conforms to the observation spec, for every
    environment of a configuration in every state, and every action. *)
Theorem observations_conform : forall {G} (s : sampler G) render knn resize ad w fuel e c ts e',
  made_of ad w -> knn_ok knn -> resizes resize ->
  answer (dune_environment s render (adapter_of ad) (features_of knn resize ad) (single_silicon_goal s) fuel) c e = (Ok ts, e') ->
  conforms (env_observation_spec w) (ts_observation ts).
Proof.
  intros G s render knn resize ad w fuel e c ts e' M K Z E.
  assert (Sw : env_observation_spec w = observation_spec_of ad) by (induction M; auto). rewrite Sw.
  apply answer_shows in E as (o & goal & H). eapply features_conform; eauto.
Qed.
Print Assumptions observations_conform.

(** From any history of an environment, an action within the action spec is
    answered, by an observation within the observation spec, a reward and a
    discount within [0, 1]. *)
Theorem specs_kept : forall {G} (s : sampler G) render knn resize ad w rc fuel e c,
  made_of ad w -> sampler_ok s -> (forall sc g, / 2000000 < fst (s_exponential s sc g)) -> knn_ok knn -> resizes resize ->
  (10000000 <= Z.of_nat fuel)%Z -> dwells_within 0 10000000 ad ->
  (pictures_shown ad -> forall og f prm g, exists i g', render og f prm g = (Ok i, g')) ->
  lives s render (adapter_of ad) (features_of knn resize ad) (single_silicon_goal s) fuel (rates_of knn rc) 50 2000000%Z e ->
  (forall act, c = CallStep act -> fits (env_action_spec w) act) ->
  exists ts e',
    answer (dune_environment s render (adapter_of ad) (features_of knn resize ad) (single_silicon_goal s) fuel) c e = (Ok ts, e') /\
    conforms (env_observation_spec w) (ts_observation ts) /\ 0 <= ts_reward ts <= 1 /\ 0 <= ts_discount ts <= 1.
Proof.
  intros G s render knn resize ad w rc fuel e c M O X K Z Hf Hd Hr L Hc.
  assert (Sa : env_action_spec w = adapter_spec_of ad) by (induction M; auto). rewrite Sa in Hc.
  destruct (configured_never_raises s render knn resize ad rc fuel e c) as (ts & e' & E); auto.
  { destruct ad; cbn in *; lia. }
  { intros Hi. apply Hr. destruct ad; cbn in *; congruence || exact I. }
  exists ts, e'. split; [exact E|]. split; [eapply observations_conform; eauto|].
  assert (NN : never_negative (@adapter_of G ad)).
  { destruct ad as [lo hi dist|lo hi dist|lo hi|]; cbn [adapter_of dwells_within] in *;
      [apply (adapters_never_negative G s lo hi)|apply (adapters_never_negative G s lo hi)
      |apply (adapters_never_negative G s lo hi)|apply (adapters_never_negative G s 0%Z 0%Z 0)]; lia. }
  pose proof (session_snoc _ e [] e c ts e' (session_nil _ e) E) as Hs. cbn [app] in Hs.
  destruct (rates_of_steady knn rc K) as (Hop & _).
  destruct (env_rewards s render (adapter_of ad) (features_of knn resize ad) fuel (rates_of knn rc) 50%nat 2000000%Z e _ e' 0%nat c ts
     O ltac:(lia) Hop ltac:(lia) NN L Hs eq_refl) as (A & B & _). auto.
Qed.
Print Assumptions specs_kept.

(** A resize that meets the contract, with which the environment of every
    configuration starts. *)
Definition ex_resize : image -> image := fun _ => repeat (repeat 0 128) 128.
Example conformance_nonvacuous :
  resizes ex_resize /\ made_of DirectFromPixels (LimitSteps (Some 5%nat) (Wrap (Bare DirectFromPixels))) /\
  forall fuel, (10000000 <= Z.of_nat fuel)%Z -> exists ts e', answer (dune_environment (ex_sampler 1) ex_draw_image (adapter_of DirectFromPixels)
      (features_of knn_sort ex_resize DirectFromPixels) (single_silicon_goal (ex_sampler 1)) fuel) CallReset
      (new_env (new_material (rates_of knn_sort SimpleRates) 50) 2000000%Z tt (mkgoal_state (mkpt 0 0) 0%nat) 0%nat None) = (Ok ts, e') /\
    exists i d, ts_observation ts = Picture i d /\ length i = 128%nat /\ length d = 2%nat.
Proof.
  assert (Z : resizes ex_resize).
  { intros i. split; [apply repeat_length|]. apply Forall_forall. intros r Hr. apply repeat_spec in Hr as ->.
    split; [apply repeat_length|]. intros y Hy. apply repeat_spec in Hy as ->. apply f32_0. }
  split; [exact Z|]. split; [repeat constructor|]. intros fuel Hf.
  destruct (specs_kept (ex_sampler 1) ex_draw_image knn_sort ex_resize DirectFromPixels (Bare DirectFromPixels) SimpleRates
    fuel (new_env (new_material (rates_of knn_sort SimpleRates) 50) 2000000%Z tt (mkgoal_state (mkpt 0 0) 0%nat) 0%nat None) CallReset)
    as (ts & e' & E & C & _); try exact Z; try exact knn_sort_ok; try discriminate.
  - constructor.
  - apply ex_sampler_ok; lra.
  - intros; cbn; lra.
  - exact Hf.
  - exact I.
  - intros. eexists _, _. reflexivity.
  - eexists _, _, _, _. constructor.
  - exists ts, e'. split; [exact E|]. destruct (ts_observation ts) as [v|i d]; [destruct C; discriminate|].
    exists i, d. split; [reflexivity|]. destruct C as (r & c & C & (L & _) & _). injection C as -> -> Hd. cbn in Hd. auto.
Qed.
