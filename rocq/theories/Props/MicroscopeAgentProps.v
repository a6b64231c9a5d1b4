(** Properties C49-C53, C85: the microscope agent and its logger. *)
From Coq Require Import Reals ZArith List Bool Lia Lra Arith.
From Verif Require Import Base.Prelude Base.Rounding Base.Random Model.Constants Model.Geometry Model.MicroscopeUtils
  Model.Graphene Model.ActionAdapters Model.Goals Model.FeatureConstructors Model.Environment Model.Io
  Model.MicroscopeAgent Spec.Grids Spec.Protos Spec.Neighbours Spec.Material Spec.Acting Spec.AgentLog Spec.Records
  Proofs.BaseFacts Proofs.RoundingFacts Proofs.ProtoFacts Proofs.ActingFacts Proofs.NeighbourFacts Proofs.ExampleSampler Proofs.AgentLogFacts
  Props.GoalProps Props.FeatureProps Props.IoProps.
Import ListNotations.
Open Scope R_scope.

(** ** C49 *)

Section Agent.
Context {G A St Goal F : Type}.
Variable inner_step : agent_input F -> A -> res (list R) * A.
Variable adapter : action_adapter G St.
Variable features : feature_constructor Goal F.
Variable goal_m : goal_methods G Goal.

(** the time steps a new agent shows to the inner agent, after any calls *)
Theorem agent_shows : forall a st ga goal h ma,
  agent_history (writing_down inner_step) adapter features goal_m (new_magent (a, []) st ga goal) h ma ->
  shown_during true h (snd (ma_agent ma)).
Proof.
  intros a st ga goal h ma K. destruct (history_shown _ _ _ _ _ _ _ K) as (l & E & D & _).
  cbn in E, D. rewrite E. exact D.
Qed.

(** an agent that writes down its time steps otherwise does the same *)
Theorem writing_down_is_harmless : forall o ma g,
  (forall r ma', ma_step (writing_down inner_step) adapter features goal_m o ma = (r, ma') ->
     ma_step inner_step adapter features goal_m o (forget ma) = (r, forget ma')) /\
  (forall r ma' g', ma_reset adapter goal_m o ma g = (r, ma', g') ->
     ma_reset adapter goal_m o (forget (L:=list (agent_input F)) ma) g = (r, forget ma', g')).
Proof.
  intros o ma g. split.
  - intros r ma' E. pose proof (writing_down_step inner_step adapter features goal_m o ma) as K. rewrite E in K. exact K.
  - intros r ma' g'. unfold ma_reset, forget. cbn.
    destruct (gm_reset goal_m (ma_goal ma) o g) as [[r0 goal] g0]. destruct r0 as [[]|e|].
    + destruct (aa_reset adapter (ma_adapter ma) (ma_adapter_rng ma)) as [st ga]. intro E. injection E as <- <- <-. reflexivity.
    + intro E. injection E as <- <- <-. reflexivity.
    + intro E. injection E as <- <- <-. reflexivity.
Qed.

(** a step without silicon: one control at (0, 0) of no duration; nobody is
    asked and the first step is not used up *)
Theorem rescan_step : forall o ma,
  fc_get_features features o (ma_goal ma) = Raise SiliconNotFoundError \/
  (exists x, fc_get_features features o (ma_goal ma) = Ok x) /\
  fst (gm_calculate goal_m (ma_goal ma) o) = Raise SiliconNotFoundError ->
  exists ma', ma_step inner_step adapter features goal_m o ma = (Ok [aimed_for (mkpt 0 0) 0], ma') /\
    ma_agent ma' = ma_agent ma /\ ma_adapter ma' = ma_adapter ma /\ ma_adapter_rng ma' = ma_adapter_rng ma /\
    ma_is_first_step ma' = ma_is_first_step ma /\
    (ma_goal ma' = ma_goal ma \/ ma_goal ma' = snd (gm_calculate goal_m (ma_goal ma) o)).
Proof.
  intros o ma K. unfold ma_step.
  assert (E : rescan = [aimed_for (mkpt 0 0) 0]).
  { unfold rescan, beam_control, aimed_for. rewrite td_0. reflexivity. }
  rewrite <- E. destruct K as [->|((x & ->) & E2)].
  - exists ma. repeat split; auto.
  - destruct (gm_calculate goal_m (ma_goal ma) o) as [rg goal]. cbn in E2. subst rg.
    eexists. split; [reflexivity|]. cbn. repeat split; auto.
Qed.

(** any other step: the inner agent's action, turned into controls by the
    adapter *)
Theorem decided_step : forall o ma x gr,
  fc_get_features features o (ma_goal ma) = Ok x -> fst (gm_calculate goal_m (ma_goal ma) o) = Ok gr ->
  exists ts ra a, shown (ma_is_first_step ma) x gr (o_elapsed o) ts /\ inner_step ts (ma_agent ma) = (ra, a) /\
  exists rc ma', ma_step inner_step adapter features goal_m o ma = (rc, ma') /\
    ma_agent ma' = a /\ ma_goal ma' = snd (gm_calculate goal_m (ma_goal ma) o) /\ ma_adapter_rng ma' = ma_adapter_rng ma /\
    (forall action, ra = Ok action ->
       rc = fst (aa_get_action adapter (ma_adapter ma) o action) /\
       ma_adapter ma' = snd (aa_get_action adapter (ma_adapter ma) o action)) /\
    (forall e, ra = Raise e -> rc = Raise e /\ ma_adapter ma' = ma_adapter ma) /\
    (ma_is_first_step ma' = if is_ok rc then false else ma_is_first_step ma).
Proof.
  intros o ma x gr E1 E2. unfold ma_step. rewrite E1.
  destruct (gm_calculate goal_m (ma_goal ma) o) as [rg goal]. cbn in E2. subst rg.
  exists (ma_time_step (ma_is_first_step ma) x gr (o_elapsed o)).
  destruct (inner_step _ (ma_agent ma)) as [ra a] eqn:Ei. exists ra, a.
  split; [apply ma_time_step_shown|]. split; [reflexivity|].
  destruct ra as [action|e|].
  - destruct (aa_get_action adapter (ma_adapter ma) o action) as [rc st] eqn:Ea.
    destruct rc as [cs|e|]; eexists; eexists; (split; [reflexivity|]); cbn; repeat split; auto; intros; try discriminate;
      match goal with [ Q : Ok action = Ok _ |- _ ] => injection Q as <-; rewrite Ea; reflexivity end.
  - eexists. eexists. split; [reflexivity|]. cbn. repeat split; auto; intros; try discriminate. congruence.
  - eexists. eexists. split; [reflexivity|]. cbn. repeat split; auto; intros; discriminate.
Qed.

(** other exceptions are passed on, without asking the inner agent *)
Theorem step_passes_on : forall o ma e, e <> SiliconNotFoundError ->
  fc_get_features features o (ma_goal ma) = Raise e \/
  (exists x, fc_get_features features o (ma_goal ma) = Ok x) /\ fst (gm_calculate goal_m (ma_goal ma) o) = Raise e ->
  exists ma', ma_step inner_step adapter features goal_m o ma = (Raise e, ma') /\
    ma_agent ma' = ma_agent ma /\ ma_adapter ma' = ma_adapter ma /\ ma_is_first_step ma' = ma_is_first_step ma.
Proof.
  intros o ma e N K. unfold ma_step. destruct K as [->|((x & ->) & E2)].
  - exists ma. destruct e; [congruence|..]; auto.
  - destruct (gm_calculate goal_m (ma_goal ma) o) as [rg goal]. cbn in E2. subst rg.
    eexists. destruct e; [congruence|..]; (split; [reflexivity|]); auto.
Qed.

(** reset: the goal with the given generator, then the adapter with its own;
    the next step is a first step.  If the goal raises, neither the adapter
    nor the flag changes. *)
Theorem reset_agent : forall o (ma : @magent G A St Goal) g rg goal g', gm_reset goal_m (ma_goal ma) o g = (rg, goal, g') ->
  (rg = Ok tt -> exists ma', ma_reset adapter goal_m o ma g = (Ok tt, ma', g') /\
     ma_agent ma' = ma_agent ma /\ ma_goal ma' = goal /\ ma_is_first_step ma' = true /\
     (ma_adapter ma', ma_adapter_rng ma') = aa_reset adapter (ma_adapter ma) (ma_adapter_rng ma)) /\
  (forall e, rg = Raise e -> exists ma', ma_reset adapter goal_m o ma g = (Raise e, ma', g') /\
     ma_agent ma' = ma_agent ma /\ ma_goal ma' = goal /\ ma_is_first_step ma' = ma_is_first_step ma /\
     ma_adapter ma' = ma_adapter ma /\ ma_adapter_rng ma' = ma_adapter_rng ma).
Proof.
  intros o ma g rg goal g' E. unfold ma_reset. rewrite E. split.
  - intros ->. destruct (aa_reset adapter (ma_adapter ma) (ma_adapter_rng ma)) as [st ga].
    eexists. split; [reflexivity|]. auto.
  - intros e ->. eexists. split; [reflexivity|]. cbn. auto.
Qed.
End Agent.
Print Assumptions agent_shows.
Print Assumptions writing_down_is_harmless.
Print Assumptions rescan_step.
Print Assumptions decided_step.
Print Assumptions step_passes_on.
Print Assumptions reset_agent.

(** a time step is FIRST exactly when the goal is neither reached nor
    truncated and no earlier step since the last reset returned controls of
    the adapter *)
Theorem first_exactly_once : forall F (h1 h2 : list (agent_event F)) x gr t completed l,
  shown_during true (h1 ++ Decided x gr t completed :: h2) l ->
  exists l1 ts l2, l = l1 ++ ts :: l2 /\ shown_during true h1 l1 /\
    (ai_type ts = FIRST <->
       gr_terminal gr = false /\ gr_truncated gr = false /\
       forall h3 x' gr' t' h4, h1 = h3 ++ Decided x' gr' t' true :: h4 -> In Restarted h4).
Proof.
  intros F h1 h2 x gr t completed l K. apply shown_during_split in K as (l1 & l2 & -> & K1 & K2).
  inversion K2 as [| |? ? ? ? ? ? ts l3 Sh K3 E1 E2|]; subst. exists l1, ts, l3. split; auto. split; auto.
  assert (Fr : fresh_after true h1 = true <->
    forall h3 x' gr' t' h4, h1 = h3 ++ Decided x' gr' t' true :: h4 -> In Restarted h4).
  { clear. assert (Gen : forall fresh, fresh_after fresh h1 = true <->
      (fresh = true \/ In Restarted h1) /\ forall h3 x' gr' t' h4, h1 = h3 ++ Decided x' gr' t' true :: h4 -> In Restarted h4).
    { induction h1 as [|e h1 IH]; intro fresh; cbn.
      - split.
        + intros ->. split; auto. intros h3 ? ? ? ? Q. destruct h3; discriminate.
        + intros [[->|[]] _]. reflexivity.
      - destruct e as [|y gy ty c|].
        + rewrite IH. split.
          * intros [_ H]. split; auto. intros h3 x' gr' t' h4 Q. destruct h3 as [|e h3]; [discriminate|].
            injection Q as _ Q. eapply H; exact Q.
          * intros [_ H]. split; auto. intros h3 x' gr' t' h4 Q. subst h1. apply (H (Restarted :: h3) x' gr' t' h4). reflexivity.
        + rewrite IH. split.
          * intros [Hf H]. split.
            { destruct Hf as [Hf|Hf]; auto. destruct c; [discriminate|auto]. }
            intros h3 x' gr' t' h4 Q. destruct h3 as [|e h3].
            { injection Q as -> -> -> -> ->. destruct Hf as [Hf|Hf]; [discriminate|auto]. }
            injection Q as _ Q. eapply H; exact Q.
          * intros [Hf H]. split.
            { destruct c; [|destruct Hf as [Hf|[Hf|Hf]]; auto; discriminate].
              right. apply (H [] y gy ty h1). reflexivity. }
            intros h3 x' gr' t' h4 Q. subst h1. apply (H (Decided y gy ty c :: h3) x' gr' t' h4). reflexivity.
        + rewrite IH. split.
          * intros [Hf H]. split; [destruct Hf; auto|]. intros h3 x' gr' t' h4 Q. destruct h3 as [|e h3]; [discriminate|].
            injection Q as _ Q. eapply H; exact Q.
          * intros [Hf H]. split; [destruct Hf as [Hf|[Hf|Hf]]; auto; discriminate|].
            intros h3 x' gr' t' h4 Q. subst h1. apply (H (Nothing :: h3) x' gr' t' h4). reflexivity. }
    rewrite (Gen true). split; [intros [_ H]; exact H|]. intro H; split; auto. }
  rewrite <- Fr. destruct Sh as (_ & A1 & A2 & A3 & A4).
  destruct (gr_terminal gr).
  { destruct (A1 eq_refl) as (-> & _). split; [discriminate|]. intros (Q & _). discriminate. }
  destruct (gr_truncated gr).
  { destruct (A2 eq_refl eq_refl) as (-> & _). split; [discriminate|]. intros (_ & Q & _). discriminate. }
  destruct (fresh_after true h1).
  - destruct (A3 eq_refl eq_refl eq_refl) as (-> & _). tauto.
  - destruct (A4 eq_refl eq_refl eq_refl) as (-> & _). split; [discriminate|]. intros (_ & _ & Q). discriminate.
Qed.
Print Assumptions first_exactly_once.

(** ** C53: without silicon in view, the shipped components *)

Section NoSilicon.
Context {G A St : Type}.
Variable s : sampler G.
Variable adapter : action_adapter G St.

Lemma no_silicon_goal st o : wf_grid (o_grid o) -> count_number 14 (o_grid o) = 0%nat ->
  gm_calculate (single_silicon_goal s) st o = (Raise SiliconNotFoundError, st).
Proof.
  intros W C. apply goal_outcome_errors; auto.
Qed.

(** the agent rescans, but the logging wrapper raises and logs nothing *)
Theorem rescan_raises_through_logger : forall knn (features : feature_constructor goal_state (list R)) inner_step o (ma : @magent G A St goal_state) lg,
  knn_ok knn -> features = pristine_features knn \/ features = material_frame_features knn ->
  wf_grid (o_grid o) -> count_number 14 (o_grid o) = 0%nat -> lg_agent lg = ma ->
  ma_step inner_step adapter features (single_silicon_goal s) o ma = (Ok [aimed_for (mkpt 0 0) 0], ma) /\
  logger_step inner_step adapter features (single_silicon_goal s) o lg = (Raise SiliconNotFoundError, lg).
Proof.
  intros knn features inner_step o ma lg K Hf W C El.
  assert (Ef : fc_get_features features o (ma_goal ma) = Raise SiliconNotFoundError).
  { destruct Hf as [-> | ->]; apply vector_feature_errors; auto. }
  assert (E : ma_step inner_step adapter features (single_silicon_goal s) o ma = (Ok [aimed_for (mkpt 0 0) 0], ma)).
  { unfold ma_step. rewrite Ef. unfold rescan, beam_control, aimed_for. rewrite td_0. reflexivity. }
  split; [exact E|]. unfold logger_step. rewrite El, E.
  pose proof (no_silicon_goal (ma_goal ma) o W C) as Q. rewrite Q. subst ma. destruct lg as [m ? ? ? ? ? ? ?], m. reflexivity.
Qed.

(** an agent that looks at images raises instead of rescanning *)
Theorem images_do_not_rescan : forall resize inner_step o (ma : @magent G A St goal_state) i,
  wf_grid (o_grid o) -> count_number 14 (o_grid o) = 0%nat -> o_image o = Some i ->
  ma_step inner_step adapter (image_features resize) (single_silicon_goal s) o ma = (Raise ValueError, ma).
Proof.
  intros resize inner_step o ma i W C Ei. unfold ma_step.
  assert (E : fc_get_features (image_features resize) o (ma_goal ma) = Raise ValueError).
  { apply image_features_spec; auto. right. rewrite C, Ei. repeat split; auto; discriminate. }
  rewrite E. reflexivity.
Qed.
End NoSilicon.
Print Assumptions rescan_raises_through_logger.
Print Assumptions images_do_not_rescan.

(** the logger returns exactly the wrapped agent's controls, and raises what
    it raises *)
Theorem logger_returns_controls : forall G A St Goal F inner_step (adapter : action_adapter G St)
  (features : feature_constructor Goal F) (goal_m : goal_methods G Goal) o (lg : @logger G A St Goal),
  (forall cs, fst (logger_step inner_step adapter features goal_m o lg) = Ok cs <->
     fst (ma_step inner_step adapter features goal_m o (lg_agent lg)) = Ok cs /\
     exists gr, outcome_after_step inner_step adapter features goal_m o lg = Ok gr) /\
  (forall e, fst (logger_step inner_step adapter features goal_m o lg) = Raise e <->
     fst (ma_step inner_step adapter features goal_m o (lg_agent lg)) = Raise e \/
     (exists cs, fst (ma_step inner_step adapter features goal_m o (lg_agent lg)) = Ok cs) /\
     outcome_after_step inner_step adapter features goal_m o lg = Raise e).
Proof.
  intros. unfold logger_step, outcome_after_step.
  destruct (ma_step inner_step adapter features goal_m o (lg_agent lg)) as [rc ma]. cbn [fst snd].
  destruct rc as [cs|x|]; cbn [fst].
  - destruct (gm_calculate goal_m (ma_goal ma) o) as [rg goal]. cbn [fst snd]. destruct rg as [gr|x|]; cbn [fst].
    + split; intros.
      * split; [intro Q; split; eauto|intros (Q & _); exact Q].
      * split; [discriminate|]. intros [Q|(_ & Q1)]; discriminate.
    + split; intros.
      * split; [discriminate|]. intros (_ & gr & Q). discriminate.
      * split; [intro Q; right; split; [eauto|congruence]|]. intros [Q|(_ & Q1)]; [discriminate|congruence].
    + split; intros.
      * split; [discriminate|]. intros (_ & gr & Q). discriminate.
      * split; [discriminate|]. intros [Q|(_ & Q1)]; discriminate.
  - split; intros.
    + split; [discriminate|]. intros (Q & _). discriminate.
    + split; [intro Q; left; exact Q|]. intros [Q|((cs & Q1) & _)]; [exact Q|discriminate].
  - split; intros.
    + split; [discriminate|]. intros (Q & _). discriminate.
    + split; [discriminate|]. intros [Q|((cs & Q1) & _)]; discriminate.
Qed.
Print Assumptions logger_returns_controls.

(** ** C85: logging does not change what the agent does *)

Theorem shipped_features_position_only : forall knn resize,
  position_only (pristine_features knn) /\ position_only (material_frame_features knn) /\ position_only (image_features resize).
Proof.
  intros knn resize. split; [|split]; intros o g g' E; cbn.
  - unfold get_silicon_goal_delta. rewrite E. reflexivity.
  - unfold get_silicon_goal_delta. rewrite E. reflexivity.
  - unfold get_silicon_goal_delta. rewrite E. reflexivity.
Qed.
Print Assumptions shipped_features_position_only.

Section Transparent.
Context {G A St F : Type}.
Variable s : sampler G.
Variable inner_step : agent_input F -> A -> res (list R) * A.
Variable adapter : action_adapter G St.
Variable features : feature_constructor goal_state F.
Variable single_silicon : goal_state -> option goal_state.

Definition alike (ma ma' : @magent G A St goal_state) : Prop :=
  ma_agent ma = ma_agent ma' /\ ma_adapter ma = ma_adapter ma' /\ ma_adapter_rng ma = ma_adapter_rng ma' /\
  ma_is_first_step ma = ma_is_first_step ma' /\ goal_position (ma_goal ma) = goal_position (ma_goal ma').

Lemma calculate_alike g g' o : goal_position g = goal_position g' ->
  fst (goal_calculate g o) = fst (goal_calculate g' o) /\
  goal_position (snd (goal_calculate g o)) = goal_position (snd (goal_calculate g' o)).
Proof.
  intros E. unfold goal_calculate. destruct (get_single_silicon_position (o_grid o)); cbn; auto.
  rewrite E. split; auto. destruct (Rltb _ _); reflexivity.
Qed.
Lemma calculate_position g o : goal_position (snd (goal_calculate g o)) = goal_position g.
Proof. unfold goal_calculate. destruct (get_single_silicon_position (o_grid o)); cbn; auto. Qed.
Lemma calculate_visible g o : wf_grid (o_grid o) -> (1 <= count_number 14 (o_grid o))%nat ->
  exists gr, fst (goal_calculate g o) = Ok gr.
Proof.
  intros W C. unfold goal_calculate. destruct (single_silicon_cases _ W) as [(si & E & _)|(_ & C0)]; [|lia].
  rewrite E. cbn. eauto.
Qed.

Lemma step_alike ma ma' o : position_only features -> alike ma ma' ->
  fst (ma_step inner_step adapter features (single_silicon_goal s) o ma) =
  fst (ma_step inner_step adapter features (single_silicon_goal s) o ma') /\
  alike (snd (ma_step inner_step adapter features (single_silicon_goal s) o ma))
        (snd (ma_step inner_step adapter features (single_silicon_goal s) o ma')).
Proof.
  intros P (E1 & E2 & E3 & E4 & E5). unfold ma_step. rewrite (P o _ _ E5).
  destruct (fc_get_features features o (ma_goal ma')) as [x|e|].
  - cbn [single_silicon_goal gm_calculate]. destruct (calculate_alike _ _ o E5) as [C1 C2].
    destruct (goal_calculate (ma_goal ma) o) as [rg g], (goal_calculate (ma_goal ma') o) as [rg' g']. cbn in C1, C2. subst rg'.
    destruct rg as [gr|e|].
    + rewrite E1, E4, E2. destruct (inner_step _ (ma_agent ma')) as [ra a].
      destruct ra as [action|e|]; [|cbn; repeat split; auto|cbn; repeat split; auto].
      destruct (aa_get_action adapter (ma_adapter ma') o action) as [rc st]. destruct rc; cbn; repeat split; auto.
    + destruct e; cbn; repeat split; auto.
    + cbn; repeat split; auto.
  - destruct e; cbn; repeat split; auto.
  - cbn; repeat split; auto.
Qed.

Lemma reset_alike ma ma' o g : alike ma ma' ->
  fst (fst (ma_reset adapter (single_silicon_goal s) o ma g)) = fst (fst (ma_reset adapter (single_silicon_goal s) o ma' g)) /\
  snd (ma_reset adapter (single_silicon_goal s) o ma g) = snd (ma_reset adapter (single_silicon_goal s) o ma' g) /\
  alike (snd (fst (ma_reset adapter (single_silicon_goal s) o ma g)))
        (snd (fst (ma_reset adapter (single_silicon_goal s) o ma' g))).
Proof.
  intros (E1 & E2 & E3 & E4 & E5). unfold ma_reset. cbn [single_silicon_goal gm_reset]. unfold goal_reset.
  rewrite E2, E3, E4, E1.
  destruct (get_single_silicon_position (o_grid o)) as [si|e|]; [|cbn; repeat split; auto|cbn; repeat split; auto].
  destruct (_ =? 0)%nat; [cbn; repeat split; auto|].
  destruct (s_choice s _ g) as [i g1]. destruct (nth_error _ i); [|cbn; repeat split; auto].
  destruct (aa_reset adapter (ma_adapter ma') (ma_adapter_rng ma')) as [st ga]. cbn. repeat split; auto.
Qed.

(** the same calls, with and without the logger: the same answers, as long as
    some silicon is in view *)
Theorem logging_is_transparent : forall calls ma, position_only features ->
  (forall o, In (CallStep o) calls -> wf_grid (o_grid o) /\ (1 <= count_number 14 (o_grid o))%nat) ->
  logger_answers inner_step adapter features (single_silicon_goal s) single_silicon calls (new_logger ma) =
  agent_answers inner_step adapter features (single_silicon_goal s) calls ma.
Proof.
  intros calls ma0 P.
  assert (Gen : forall calls lg ma, alike (lg_agent lg) ma ->
    (forall o, In (CallStep o) calls -> wf_grid (o_grid o) /\ (1 <= count_number 14 (o_grid o))%nat) ->
    logger_answers inner_step adapter features (single_silicon_goal s) single_silicon calls lg =
    agent_answers inner_step adapter features (single_silicon_goal s) calls ma).
  { clear calls ma0. induction calls as [|c calls IH]; intros lg ma Al V; [reflexivity|].
    assert (V' : forall o, In (CallStep o) calls -> wf_grid (o_grid o) /\ (1 <= count_number 14 (o_grid o))%nat)
      by (intros; apply V; right; auto).
    destruct c as [o g|o]; cbn [logger_answers agent_answers].
    - rewrite logger_reset_eq. destruct (reset_alike _ _ o g Al) as (R1 & R2 & R3).
      destruct (ma_reset adapter (single_silicon_goal s) o (lg_agent lg) g) as [[r m] g1].
      destruct (ma_reset adapter (single_silicon_goal s) o ma g) as [[r' m'] g1']. cbn in R1, R2, R3. subst.
      f_equal. apply IH; auto.
    - destruct (step_alike _ _ o P Al) as (R1 & R3). destruct (V o (or_introl eq_refl)) as [W C].
      unfold logger_step.
      destruct (ma_step inner_step adapter features (single_silicon_goal s) o (lg_agent lg)) as [r m].
      destruct (ma_step inner_step adapter features (single_silicon_goal s) o ma) as [r' m']. cbn in R1, R3. subst r'.
      destruct r as [cs|e|]; [|f_equal; apply IH; auto|f_equal; apply IH; auto].
      cbn [single_silicon_goal gm_calculate]. destruct (calculate_visible (ma_goal m) o W C) as (gr & Eg).
      pose proof (calculate_position (ma_goal m) o) as Ep.
      destruct (goal_calculate (ma_goal m) o) as [rg goal]. cbn in Eg, Ep. subst rg.
      f_equal. apply IH; auto. destruct R3 as (A1 & A2 & A3 & A4 & A5). cbn.
      unfold alike; cbn. repeat split; auto. congruence. }
  intros V. apply Gen; auto. unfold alike, new_logger; cbn. auto 6.
Qed.

(** the outcome that is logged is the one the inner agent was shown *)
Theorem logged_outcome_is_shown : forall o (lg : @logger G A St goal_state) x gr,
  fc_get_features features o (ma_goal (lg_agent lg)) = Ok x ->
  fst (gm_calculate (single_silicon_goal s) (ma_goal (lg_agent lg)) o) = Ok gr ->
  outcome_after_step inner_step adapter features (single_silicon_goal s) o lg = Ok gr.
Proof.
  intros o lg x gr E1 E2. unfold outcome_after_step.
  destruct (decided_step inner_step adapter features (single_silicon_goal s) o (lg_agent lg) x gr E1 E2)
    as (ts & ra & a & _ & _ & rc & ma' & Es & _ & Eg & _).
  rewrite Es. cbn [snd]. rewrite Eg. cbn [single_silicon_goal gm_calculate] in *.
  rewrite <- E2. apply calculate_alike. apply calculate_position.
Qed.
End Transparent.
Print Assumptions logging_is_transparent.
Print Assumptions logged_outcome_is_shown.

(** ** C50, C51, C52: what the logger writes *)

Section Log.
Context {G A St Goal F : Type}.
Variable inner_step : agent_input F -> A -> res (list R) * A.
Variable adapter : action_adapter G St.
Variable features : feature_constructor Goal F.
Variable goal_m : goal_methods G Goal.
Variable single_silicon : Goal -> option goal_state.
Notation log_history := (log_history inner_step adapter features goal_m single_silicon).

(** every call leads on to a history *)
Theorem every_call_is_history : forall ma h lg, log_history ma h lg ->
  (forall o r lg', logger_step inner_step adapter features goal_m o lg = (r, lg') ->
     (is_ok r = false /\ log_history ma h lg') \/
     exists gr, outcome_after_step inner_step adapter features goal_m o lg = Ok gr /\ log_history ma (h ++ [Stepped o gr]) lg') /\
  (forall o g r lg' g', logger_reset adapter goal_m single_silicon o lg g = (r, lg', g') ->
     log_history ma (h ++ [Cleared (logged_goal single_silicon lg)]) lg') /\
  (forall f r lg' f', logger_flush single_silicon lg f = (r, lg', f') ->
     log_history ma (h ++ [Flushed (logged_goal single_silicon lg)]) lg').
Proof.
  intros ma h lg K. split; [|split].
  - intros o r lg' E. destruct (logger_step_cases _ _ _ _ _ _ _ _ E) as [(cs & gr & -> & Eo & _)|(B & _)].
    + right. exists gr. split; auto. eapply log_stepped; eauto.
    + left. split; auto. eapply log_step_failed; eauto.
  - intros. eapply log_reset; eauto.
  - intros. eapply log_flush; eauto.
Qed.

Lemma map_res_raise {X Y} (f : X -> res Y) l e : map_res f l = Raise e <->
  exists l1 x l2 ys, l = l1 ++ x :: l2 /\ f x = Raise e /\ Forall2 (fun x y => f x = Ok y) l1 ys.
Proof.
  induction l as [|a l IH]; cbn.
  - split; [discriminate|]. intros (l1 & x & l2 & ys & Q & _). destruct l1; discriminate.
  - destruct (f a) as [y|e'|] eqn:Ea; cbn.
    + split.
      * intro K. assert (Q : map_res f l = Raise e) by (destruct (map_res f l); cbn in K; congruence).
        apply IH in Q as (l1 & x & l2 & ys & -> & Ex & F2). exists (a :: l1), x, l2, (y :: ys).
        repeat split; auto.
      * intros (l1 & x & l2 & ys & Q & Ex & F2). destruct l1 as [|b l1].
        { injection Q as -> ->. congruence. }
        injection Q as -> ->. inversion F2; subst.
        replace (map_res f (l1 ++ x :: l2)) with (@Raise (list Y) e); [reflexivity|].
        symmetry. apply IH. eauto 8.
    + split.
      * intro K. exists [], a, l, []. repeat split; auto. congruence.
      * intros (l1 & x & l2 & ys & Q & Ex & F2). destruct l1 as [|b l1].
        { injection Q as -> ->. congruence. }
        injection Q as -> ->. inversion F2; subst. congruence.
    + split; [discriminate|].
      intros (l1 & x & l2 & ys & Q & Ex & F2). destruct l1 as [|b l1].
      { injection Q as -> ->. congruence. }
      injection Q as -> ->. inversion F2; subst. congruence.
Qed.

(** flush: the three files, provided every observation logged so far can be
    stored *)
Theorem flush_writes : forall ma h lg f, log_history ma h lg ->
  (forall o gr, In (Stepped o gr) h -> wf_grid (o_grid o)) ->
  let h' := h ++ [Flushed (logged_goal single_silicon lg)] in
  exists lg' f' ms, logger_flush single_silicon lg f = (Ok tt, lg', f') /\
    lf_trajectories f' = Some ms /\
    map trajectory_from_proto ms = map (map stored_observation) (trajectories_after h') /\
    lf_steps f' = Some (step_records_after h') /\
    lf_episodes f' = Some (episode_records_after h').
Proof.
  intros ma h lg f K W h'. pose proof (log_history_state _ _ _ _ _ _ _ _ K) as Sh.
  pose proof (log_state_flush single_silicon h lg Sh) as Sf. fold h' in Sf.
  pose proof (log_state_trajectories _ _ Sf) as Et.
  destruct Sf as (_ & _ & _ & _ & _ & Es & Ee).
  assert (Wt : forall t o, In t (trajectories_after h') -> In o t -> wf_grid (o_grid o)).
  { assert (In1 : forall l o gr, In (o, gr) (steps_of l) -> In (Stepped o gr) l).
    { clear. induction l as [|[] l IH]; cbn; intros; auto. destruct H as [H|H]; auto. left. congruence. }
    assert (In2 : forall h0 cur ep g, In (ep, g) (fst (episodes_from cur h0)) -> forall e, In e ep -> In e cur \/ In e h0).
    { clear. induction h0 as [|e0 h0 IH]; cbn; intros cur ep g K e He; [destruct K|].
      destruct e0; try (destruct (IH _ _ _ K e He) as [Q|Q]; [apply in_app_or in Q as [Q|[Q|[]]]|]; auto).
      destruct (episodes_from [] h0) as [ended last] eqn:Q. cbn in K. destruct K as [K|K].
      - injection K as -> ->. auto.
      - destruct (IH [] ep g) with (e := e) as [Z|Z]; auto; [|destruct Z]. rewrite Q. exact K. }
    assert (In3 : forall h0 cur e, In e (snd (episodes_from cur h0)) -> In e cur \/ In e h0).
    { clear. induction h0 as [|e0 h0 IH]; cbn; intros cur e He; auto.
      destruct e0; try (destruct (IH _ _ He) as [Q|Q]; [apply in_app_or in Q as [Q|[Q|[]]]|]; auto).
      destruct (episodes_from [] h0) as [ended last] eqn:Q. cbn in He.
      destruct (IH [] e) as [Z|Z]; auto; [|destruct Z]. rewrite Q. exact He. }
    assert (Ws : forall o gr, In (Stepped o gr) h' -> wf_grid (o_grid o)).
    { intros o gr Q. apply in_app_or in Q as [Q|[Q|[]]]; [eauto|discriminate]. }
    intros t o Ht Ho. unfold trajectories_after in Ht. apply in_app_or in Ht as [Ht|Ht].
    - apply in_flat_map in Ht as ([ep g] & He & Ht). cbn in Ht. unfold copies_ended in Ht.
      destruct (steps_of ep) as [|st l] eqn:Q; [destruct Ht|]. apply repeat_spec in Ht. subst t. rewrite <- Q in Ho.
      apply in_map_iff in Ho as ([o' gr] & <- & Ho). apply In1 in Ho.
      destruct (In2 _ _ _ _ He _ Ho) as [[]|Z]. cbn. eauto.
    - unfold copies_last in Ht. apply repeat_spec in Ht. subst t.
      apply in_map_iff in Ho as ([o' gr] & <- & Ho). apply In1 in Ho.
      destruct (In3 _ _ _ Ho) as [[]|Z]. cbn. eauto. }
  assert (Q : exists ms, Forall2 (fun t m => trajectory_to_proto t = Ok m) (trajectories_after h') ms /\
                         map trajectory_from_proto ms = map (map stored_observation) (trajectories_after h')).
  { revert Wt. generalize (trajectories_after h'). clear. intros ts Wt. induction ts as [|t ts IH].
    - exists []. split; auto.
    - destruct IH as (ms & F2 & Em). { intros; eapply Wt; eauto. right; auto. }
      destruct (trajectory_round_trip t) as (m & E1 & E2). { intros; eapply Wt; [left; reflexivity|auto]. }
      exists (m :: ms). split; [constructor; auto|]. cbn [map]. rewrite E2, Em. reflexivity. }
  destruct Q as (ms & F2 & Em).
  unfold logger_flush, write_trajectories. rewrite Et.
  assert (Rf : record_file trajectories_file) by (apply record_file_names; vm_compute; reflexivity).
  assert (Fb : Forall2 (bytes_of trajectory_to_proto (fun m : ptrajectory => m)) (map ModelRecord (trajectories_after h')) ms).
  { clear -F2. induction F2; cbn; constructor; auto. cbn. eauto. }
  destruct (write_records_ok trajectory_to_proto (fun m : ptrajectory => m) (fun _ => lf_trajectories f) trajectories_file _ _ Rf Fb)
    as (fs' & Ew & Ep & _).
  rewrite Ew. eexists. eexists. exists ms. split; [reflexivity|]. cbn [lf_trajectories lf_steps lf_episodes].
  rewrite Ep, Es, Ee. auto.
Qed.

(** if an observation cannot be stored, flush raises after the trajectories
    before it, and leaves the other two files as they were *)
Theorem flush_raises : forall ma h lg f e lg' f', log_history ma h lg ->
  logger_flush single_silicon lg f = (Raise e, lg', f') ->
  let h' := h ++ [Flushed (logged_goal single_silicon lg)] in
  exists ts1 t ts2 ms o, trajectories_after h' = ts1 ++ t :: ts2 /\
    Forall2 (fun t m => trajectory_to_proto t = Ok m) ts1 ms /\
    e = IndexError /\ In o t /\ (length (numbers (o_grid o)) < length (positions (o_grid o)))%nat /\
    f' = mklog_files (Some ms) (lf_steps f) (lf_episodes f).
Proof.
  intros ma h lg f e lg' f' K E h'. pose proof (log_history_state _ _ _ _ _ _ _ _ K) as Sh.
  pose proof (log_state_flush single_silicon h lg Sh) as Sf. fold h' in Sf.
  pose proof (log_state_trajectories _ _ Sf) as Et.
  unfold logger_flush, write_trajectories in E. rewrite Et in E.
  assert (Rf : record_file trajectories_file) by (apply record_file_names; vm_compute; reflexivity).
  destruct (write_records trajectory_to_proto (fun m : ptrajectory => m) (fun _ => lf_trajectories f) trajectories_file
    (map ModelRecord (trajectories_after h'))) as [x fs] eqn:Ew.
  destruct x as [[]|e'|]; [discriminate| |discriminate].
  injection E as -> <- <-.
  destruct (proj1 (write_records_raises trajectory_to_proto (fun m : ptrajectory => m) (fun _ => lf_trajectories f) trajectories_file
    (map ModelRecord (trajectories_after h')) e Rf)) as (rs1 & t & rs2 & bs & E1 & F2 & Ep & Ef).
  { eauto. }
  destruct (Ef _ Ew) as [Ef1 _].
  apply map_eq_app in E1. destruct E1 as (ts1 & ts2' & E1 & M1 & M2).
  destruct ts2' as [|t' ts2]; [discriminate|]. cbn in M2. injection M2 as -> M2.
  unfold trajectory_to_proto in Ep. apply map_res_raise in Ep as (l1 & o & l2 & ys & Eo & Ex & _).
  apply observation_to_proto_raise in Ex as [-> Lt].
  exists ts1, t, ts2, bs, o. split; [exact E1|]. split.
  { subst rs1. clear -F2. revert bs F2. induction ts1 as [|a ts1 IH]; intros bs F2; inversion F2; subst; constructor; auto.
    match goal with [ Kb : bytes_of _ _ _ _ |- _ ] => destruct Kb as (m & Em & ->); exact Em end. }
  split; auto. split; [subst t; apply in_or_app; right; left; auto|]. split; [exact Lt|]. rewrite Ef1. reflexivity.
Qed.

(** leaving a with block: flush if its body did not raise, nothing otherwise *)
Theorem exit_flushes : forall (lg : @logger G A St Goal) f,
  logger_exit single_silicon false lg f = logger_flush single_silicon lg f /\
  logger_exit single_silicon true lg f = (Ok tt, lg, f).
Proof. intros. split; reflexivity. Qed.
End Log.
Print Assumptions every_call_is_history.
Print Assumptions flush_writes.
Print Assumptions flush_raises.
Print Assumptions exit_flushes.

Lemma flushes_never h b : never_flushed h -> flushes_from b h = [].
Proof.
  revert b; induction h as [|[] h IH]; intros b N; cbn; auto.
  - apply IH. intros g' K. apply (N g'). right; auto.
  - apply IH. intros g' K. apply (N g'). right; auto.
  - exfalso. apply (N goal). left; auto.
Qed.
Lemma episodes_from_no_clear ep : (forall g, ~ In (Cleared g) ep) -> forall cur, episodes_from cur ep = ([], cur ++ ep).
Proof.
  induction ep as [|[] ep IH]; intros N cur; cbn.
  - rewrite app_nil_r; auto.
  - rewrite IH by (intros g K; apply (N g); right; auto). rewrite <- app_assoc. reflexivity.
  - exfalso. apply (N goal). left; auto.
  - rewrite IH by (intros g K; apply (N g); right; auto). rewrite <- app_assoc. reflexivity.
Qed.

(** flushing once, at the end: the non-empty runs between resets, each once *)
Theorem one_flush_trajectories : forall h goal, never_flushed h -> trajectories_after (h ++ [Flushed goal]) = runs h.
Proof.
  intros h goal N. unfold trajectories_after, ended_episodes, last_episode. rewrite episodes_from_snoc. cbn [fst snd].
  assert (Gen : forall h cur, never_flushed (cur ++ h) -> (forall g, ~ In (Cleared g) cur) ->
    flat_map (fun ep => copies_ended (fst ep)) (fst (episodes_from cur h)) ++
    copies_last (snd (episodes_from cur h) ++ [Flushed goal]) = runs_from (map fst (steps_of cur)) h).
  { clear. induction h as [|e h IH]; intros cur N C.
    - cbn. unfold copies_last, flushes. rewrite steps_of_app, flushes_from_app. cbn. rewrite app_nil_r.
      rewrite (flushes_never cur) by (intros g K; apply (N g); rewrite app_nil_r; auto). cbn.
      destruct (steps_of cur) as [|[o gr] l]; reflexivity.
    - destruct e as [o gr|g|g].
      + cbn [episodes_from runs_from]. rewrite IH.
        * rewrite steps_of_app, map_app. reflexivity.
        * intros g K. apply (N g). rewrite <- app_assoc in K. exact K.
        * intros g K. apply in_app_or in K as [K|[K|[]]]; [apply (C g); auto|discriminate].
      + cbn [episodes_from runs_from]. specialize (IH []).
        destruct (episodes_from [] h) as [ended last] eqn:Q. cbn [fst snd] in *. cbn [flat_map fst].
        rewrite <- app_assoc, IH.
        2:{ intros g' K. apply (N g'). apply in_or_app. right. right. exact K. }
        2:{ intros g' []. }
        cbn [steps_of map]. unfold copies_ended, flushes.
        rewrite (flushes_never cur) by (intros g' K; apply (N g'); apply in_or_app; auto).
        destruct (steps_of cur) as [|[o gr] l]; reflexivity.
      + exfalso. apply (N g). apply in_or_app. right. left. auto. }
  refine (Gen h [] N _). intros g [].
Qed.
Print Assumptions one_flush_trajectories.

(** steps are logged once, whatever the flushes *)
Lemma drop_flushes_app h h' : drop_flushes (h ++ h') = drop_flushes h ++ drop_flushes h'.
Proof. induction h as [|[] h IH]; cbn; rewrite ?IH; auto. Qed.
Theorem step_records_once : forall h,
  step_records_after h = step_records_after (drop_flushes h) /\
  length (step_records_after h) = length (steps_of h).
Proof.
  assert (Sd : forall l, steps_of (drop_flushes l) = steps_of l).
  { induction l as [|[] l IH]; cbn; auto. rewrite IH; auto. }
  assert (Gen : forall h cur, map (fun ep => steps_of (fst ep)) (fst (episodes_from cur h)) ++ [steps_of (snd (episodes_from cur h))] =
     map (fun ep => steps_of (fst ep)) (fst (episodes_from (drop_flushes cur) (drop_flushes h))) ++
     [steps_of (snd (episodes_from (drop_flushes cur) (drop_flushes h)))]).
  { induction h as [|e h IH]; intro cur; cbn.
    - rewrite Sd. reflexivity.
    - destruct e as [o gr|g|g]; cbn.
      + rewrite IH, drop_flushes_app. reflexivity.
      + specialize (IH []). destruct (episodes_from [] h) as [ended last].
        change (drop_flushes []) with (@nil log_event) in IH.
        destruct (episodes_from [] (drop_flushes h)) as [ended' last']. cbn in *. rewrite Sd, IH. reflexivity.
      + rewrite IH, drop_flushes_app. cbn. rewrite app_nil_r. reflexivity. }
  intro h. split.
  - unfold step_records_after, ended_episodes, last_episode. rewrite (Gen h []). reflexivity.
  - unfold step_records_after, ended_episodes, last_episode.
    assert (Ln : forall ls n, length (numbered n ls) = length (concat ls)).
    { induction ls as [|l ls IH]; intro n; cbn -[step_records_of]; auto. destruct l as [|x l]; [apply IH|].
      rewrite !app_length, IH. f_equal. unfold step_records_of. rewrite map_length, combine_length, seq_length. lia. }
    rewrite Ln.
    assert (Lc : forall h cur, concat (map (fun ep => steps_of (fst ep)) (fst (episodes_from cur h)) ++ [steps_of (snd (episodes_from cur h))]) = steps_of cur ++ steps_of h).
    { clear. induction h as [|e h IH]; intro cur; cbn.
      - rewrite !app_nil_r. reflexivity.
      - destruct e; cbn; try (rewrite IH, steps_of_app; cbn; rewrite <- app_assoc; reflexivity).
        specialize (IH []). destruct (episodes_from [] h) as [ended last]. cbn in *. rewrite IH. reflexivity. }
    rewrite Lc. reflexivity.
Qed.
Print Assumptions step_records_once.

(** the ids of the episode records after one flush: the ended episodes are
    numbered from one, and the flush repeats the last of these numbers; the
    step records number the same episodes from zero *)
Theorem one_flush_episode_ids : forall h goal, never_flushed h ->
  let ended := filter nonempty (map (fun ep => steps_of (fst ep)) (ended_episodes h)) in
  let last := filter nonempty [steps_of (last_episode h)] in
  map pr_episode (episode_records_after (h ++ [Flushed goal])) =
    seq 1 (length ended) ++ map (fun _ => length ended) last /\
  map sr_episode (step_records_after (h ++ [Flushed goal])) =
    concat (map (fun '(i, l) => repeat i (length l)) (combine (seq 0 (length ended + length last)) (ended ++ last))) /\
  map pr_episode_steps (episode_records_after (h ++ [Flushed goal])) = map (@length _) (ended ++ last) /\
  map pr_episode_return (episode_records_after (h ++ [Flushed goal])) =
    map (fun l => rsum (map (fun s => gr_reward (snd s)) l)) (ended ++ last).
Proof.
  intros h goal N ended last.
  assert (Nl : never_flushed (last_episode h)).
  { assert (In3 : forall h0 cur e, In e (snd (episodes_from cur h0)) -> In e cur \/ In e h0).
    { clear. induction h0 as [|e0 h0 IH]; cbn; intros cur e He; auto.
      destruct e0; try (destruct (IH _ _ He) as [Q|Q]; [apply in_app_or in Q as [Q|[Q|[]]]|]; auto).
      destruct (episodes_from [] h0) as [ended last] eqn:Q. cbn in He.
      destruct (IH [] e) as [Z|Z]; auto; [|destruct Z]. rewrite Q. exact He. }
    intros g K. destruct (In3 _ _ _ K) as [[]|Z]. apply (N g Z). }
  assert (Ne : Forall (fun ep => never_flushed (fst ep)) (ended_episodes h)).
  { apply Forall_forall. intros [ep g0] K g Kg. cbn in *.
    assert (In2 : forall h0 cur ep g, In (ep, g) (fst (episodes_from cur h0)) -> forall e, In e ep -> In e cur \/ In e h0).
    { clear. induction h0 as [|e0 h0 IH]; cbn; intros cur ep g K e He; [destruct K|].
      destruct e0; try (destruct (IH _ _ _ K e He) as [Q|Q]; [apply in_app_or in Q as [Q|[Q|[]]]|]; auto).
      destruct (episodes_from [] h0) as [ended last] eqn:Q. cbn in K. destruct K as [K|K].
      - injection K as -> ->. auto.
      - destruct (IH [] ep g) with (e := e) as [Z|Z]; auto; [|destruct Z]. rewrite Q. exact K. }
    destruct (In2 _ _ _ _ K _ Kg) as [[]|Z]. apply (N g Z). }
  assert (Er : exists gs, length gs = length ended /\
    fst (ended_records 0 (ended_episodes h)) = map (fun '(i, (l, g)) => episode_record_of i l g)
      (combine (seq 1 (length ended)) (combine ended gs))).
  { subst ended. revert Ne. generalize (ended_episodes h). clear. intros eps Ne.
    assert (Gen : forall n, exists gs, length gs = length (filter nonempty (map (fun ep => steps_of (fst ep)) eps)) /\
      fst (ended_records n eps) = map (fun '(i, (l, g)) => episode_record_of i l g)
      (combine (seq (S n) (length (filter nonempty (map (fun ep => steps_of (fst ep)) eps))))
         (combine (filter nonempty (map (fun ep => steps_of (fst ep)) eps)) gs))).
    { induction eps as [|[ep g] eps IH]; intro n.
      - exists []. auto.
      - inversion Ne; subst. cbn [ended_records map filter fst]. destruct (steps_of ep) as [|x l] eqn:Q; cbn [nonempty].
        + apply IH; auto.
        + destruct (IH H2 (S n)) as (gs & Lg & Eg). exists (g :: gs). cbn [length]. split; [congruence|].
          destruct (ended_records (S n) eps) as [rs m]. cbn [fst] in *. rewrite Eg. cbn [seq combine map].
          unfold flush_records, flushes. rewrite flushes_never by auto. reflexivity. }
    apply (Gen 0%nat). }
  assert (El : flush_records (length ended) (last_episode h ++ [Flushed goal]) =
               map (fun l => episode_record_of (length ended) l goal) last).
  { unfold flush_records, flushes, last. rewrite flushes_from_app, flushes_never by auto. cbn.
    destruct (steps_of (last_episode h)); reflexivity. }
  assert (Ea : episode_records_after (h ++ [Flushed goal]) =
               fst (ended_records 0 (ended_episodes h)) ++ map (fun l => episode_record_of (length ended) l goal) last).
  { unfold episode_records_after, ended_episodes, last_episode in *. rewrite episodes_from_snoc. cbn [fst snd].
    pose proof (ended_records_number 0 (fst (episodes_from [] h))) as En. unfold occupied in En. fold ended in En.
    destruct (ended_records 0 (fst (episodes_from [] h))) as [rs n]. cbn [fst snd] in *.
    rewrite En, Nat.add_0_l, El. reflexivity. }
  assert (Es : step_records_after (h ++ [Flushed goal]) = numbered 0 (map (fun ep => steps_of (fst ep)) (ended_episodes h) ++ [steps_of (last_episode h)])).
  { unfold step_records_after, ended_episodes, last_episode. rewrite episodes_from_snoc. cbn [fst snd].
    rewrite steps_of_app. cbn. rewrite app_nil_r. reflexivity. }
  destruct Er as (gs & Lg & Er). rewrite Ea, Es, Er. rewrite !map_app, !map_map.
  assert (C3 : forall (ls : list (list (observation * goal_return))) gs n, length gs = length ls ->
    map (fun x => pr_episode (let '(i, (l, g)) := x in episode_record_of i l g)) (combine (seq n (length ls)) (combine ls gs)) = seq n (length ls) /\
    map (fun x => pr_episode_steps (let '(i, (l, g)) := x in episode_record_of i l g)) (combine (seq n (length ls)) (combine ls gs)) = map (@length _) ls /\
    map (fun x => pr_episode_return (let '(i, (l, g)) := x in episode_record_of i l g)) (combine (seq n (length ls)) (combine ls gs)) =
      map (fun l => rsum (map (fun s => gr_reward (snd s)) l)) ls).
  { clear. induction ls as [|l ls IH]; intros gs n Lg; destruct gs as [|g gs]; try discriminate; cbn; auto.
    destruct (IH gs (S n)) as (A1 & A2 & A3); [cbn in Lg; lia|]. rewrite A1, A2, A3. auto. }
  destruct (C3 ended gs 1%nat Lg) as (A1 & A2 & A3). rewrite A1, A2, A3.
  split; [reflexivity|]. split; [|split; reflexivity].
  clear. unfold ended, last. rewrite <- app_length. rewrite <- !filter_app.
  generalize (map (fun ep => steps_of (fst ep)) (ended_episodes h) ++ [steps_of (last_episode h)]). clear. intro ls.
  generalize 0%nat. induction ls as [|l ls IH]; intro n; [reflexivity|].
  destruct l as [|x l]; [apply IH|].
  cbn [numbered filter nonempty]. rewrite map_app, IH. cbn [length seq combine map concat]. f_equal.
  unfold step_records_of. rewrite map_map.
  assert (Lc : length (combine (seq 1 (length (x :: l))) (x :: l)) = length (x :: l)) by (rewrite combine_length, seq_length; lia).
  transitivity (repeat n (length (combine (seq 1 (length (x :: l))) (x :: l)))); [|rewrite Lc; reflexivity].
  generalize (combine (seq 1 (length (x :: l))) (x :: l)). clear. intro c.
  induction c as [|[i [o gr]] c IH]; cbn; congruence.
Qed.
Print Assumptions one_flush_episode_ids.

(** the ids of episode records are those of their step records exactly when no
    reset ended an episode *)
Theorem episode_ids_agree_iff : forall h goal, never_flushed h ->
  (map pr_episode (episode_records_after (h ++ [Flushed goal])) =
     seq 0 (length (episode_records_after (h ++ [Flushed goal])))) <->
  (forall ep, In ep (ended_episodes h) -> steps_of (fst ep) = []).
Proof.
  intros h goal N. destruct (one_flush_episode_ids h goal N) as (E1 & _ & _ & _).
  set (ended := filter nonempty (map (fun ep => steps_of (fst ep)) (ended_episodes h))) in *.
  assert (Q : ended = [] <-> forall ep, In ep (ended_episodes h) -> steps_of (fst ep) = []).
  { unfold ended. split.
    - intros Z ep K. destruct (steps_of (fst ep)) as [|x l] eqn:Es; auto. exfalso.
      assert (In (x :: l) (filter nonempty (map (fun ep => steps_of (fst ep)) (ended_episodes h)))).
      { apply filter_In. split; auto. apply in_map_iff. eauto. }
      rewrite Z in H. destruct H.
    - intros K. clear -K. induction (ended_episodes h) as [|ep eps IH]; [reflexivity|]. cbn [map filter].
      rewrite (K ep) by (left; auto). cbn [nonempty]. apply IH. intros ep' K'. apply K. right; auto. }
  rewrite <- Q, E1.
  rewrite <- (map_length pr_episode), E1, app_length, seq_length, map_length. split.
  - intros Z. destruct ended as [|l ls]; auto. exfalso. cbn [length seq app] in Z. discriminate.
  - intros ->. cbn. destruct (steps_of (last_episode h)); reflexivity.
Qed.
Print Assumptions episode_ids_agree_iff.

(** flushing again: the current trajectory and its episode record once more
    each time, the step records as before *)
Theorem flush_again : forall h goal k, steps_of (last_episode h) <> [] ->
  trajectories_after (h ++ repeat (Flushed goal) (S k)) =
    trajectories_after (h ++ [Flushed goal]) ++ repeat (map fst (steps_of (last_episode h))) k /\
  (exists r, episode_records_after (h ++ repeat (Flushed goal) (S k)) =
               episode_records_after (h ++ [Flushed goal]) ++ repeat r k /\
             exists rs, episode_records_after (h ++ [Flushed goal]) = rs ++ [r]) /\
  step_records_after (h ++ repeat (Flushed goal) (S k)) = step_records_after h.
Proof.
  intros h goal k Ns.
  assert (Ef : forall j cur, episodes_from cur (h ++ repeat (Flushed goal) j) =
    (fst (episodes_from cur h), snd (episodes_from cur h) ++ repeat (Flushed goal) j)).
  { clear. intros j. induction j as [|j IH]; intro cur; cbn.
    - rewrite !app_nil_r. destruct (episodes_from cur h); reflexivity.
    - replace (h ++ Flushed goal :: repeat (Flushed goal) j) with ((h ++ repeat (Flushed goal) j) ++ [Flushed goal]).
      2:{ rewrite <- app_assoc. f_equal. change [Flushed goal] with (repeat (Flushed goal) 1). rewrite <- repeat_app.
          replace (j + 1)%nat with (S j) by lia. reflexivity. }
      rewrite episodes_from_snoc, IH. cbn [fst snd]. rewrite <- app_assoc. do 2 f_equal.
      change [Flushed goal] with (repeat (Flushed goal) 1). rewrite <- repeat_app.
      replace (j + 1)%nat with (S j) by lia. reflexivity. }
  assert (Sr : forall j, steps_of (repeat (Flushed goal) j) = []) by (induction j; cbn; auto).
  assert (Fl : forall j b, b <> [] -> flushes_from b (repeat (Flushed goal) j) = repeat (b, goal) j).
  { induction j as [|j IH]; intros b Nb; cbn; auto. rewrite IH by auto. destruct b; [congruence|reflexivity]. }
  change [Flushed goal] with (repeat (Flushed goal) 1).
  unfold trajectories_after, episode_records_after, step_records_after, ended_episodes, last_episode in *.
  rewrite !Ef. cbn [fst snd]. set (last := snd (episodes_from [] h)) in *. set (ended := fst (episodes_from [] h)) in *.
  unfold copies_last, flush_records, flushes. rewrite !flushes_from_app, !steps_of_app, !Sr, !app_nil_r. cbn [app].
  rewrite !Fl by auto. rewrite !app_length, !repeat_length.
  split; [|split].
  - rewrite <- app_assoc. f_equal. rewrite <- repeat_app. f_equal. lia.
  - destruct (ended_records 0 ended) as [rs n]. exists (episode_record_of n (steps_of last) goal).
    rewrite !map_app. assert (MR : forall X Y (f : X -> Y) x a, map f (repeat x a) = repeat (f x) a).
    { intros X Y f x a; induction a; cbn; congruence. }
    rewrite !MR. cbn [fst snd]. split.
    + rewrite <- !app_assoc. do 2 f_equal.
    + rewrite app_assoc. eexists. reflexivity.
  - reflexivity.
Qed.
Print Assumptions flush_again.

(** ** A concrete history: two episodes, the second one not ended *)

Section Example_.
Definition ex_seen (x : R) (t : timedelta) : observation :=
  mkobs (mkgrid [mkpt x (1/2); mkpt (1/4) (1/4)] [14%Z; 6%Z]) (mkfov (mkpt 0 0) (mkpt 20 20)) [] t None None.
Definition ex_events : list log_event :=
  [Stepped (ex_seen (1/2) 2000000%Z) (mkgoal_return 0 false false);
   Stepped (ex_seen (1/3) 3000000%Z) (mkgoal_return (1/2) true false);
   Cleared (Some (1, 2));
   Stepped (ex_seen (1/4) 2000000%Z) (mkgoal_return 0 false false)].

Example logger_files_nonvacuous : forall goal,
  trajectories_after (ex_events ++ [Flushed goal]) =
    [[ex_seen (1/2) 2000000%Z; ex_seen (1/3) 3000000%Z]; [ex_seen (1/4) 2000000%Z]] /\
  map pr_episode (episode_records_after (ex_events ++ [Flushed goal])) = [1; 1]%nat /\
  map sr_episode (step_records_after (ex_events ++ [Flushed goal])) = [0; 0; 1]%nat /\
  map sr_episode_step (step_records_after (ex_events ++ [Flushed goal])) = [1; 2; 1]%nat /\
  never_flushed ex_events.
Proof.
  intro goal. repeat split.
  intros g K. cbn in K. repeat destruct K as [K|K]; try discriminate. destruct K.
Qed.

(** a step after a flush ends up in the trajectory that was flushed before *)
Example flushed_trajectory_grows : forall goal o1 o2 g1 g2,
  trajectories_after [Stepped o1 g1; Flushed goal; Stepped o2 g2; Flushed goal] = [[o1; o2]; [o1; o2]].
Proof. reflexivity. Qed.
End Example_.

(** the claim that the two csv files agree on the episode ids *)
Theorem episode_ids_refuted : exists h goal, never_flushed h /\
  ~ incl (map pr_episode (filter (fun r => (pr_episode_steps r =? 2)%nat) (episode_records_after (h ++ [Flushed goal]))))
         (map sr_episode (filter (fun r => (sr_episode_step r =? 2)%nat) (step_records_after (h ++ [Flushed goal])))).
Proof.
  exists ex_events, None. split; [apply (logger_files_nonvacuous None)|].
  cbn. intros K. specialize (K 1%nat (or_introl eq_refl)). destruct K as [K|[]]. discriminate.
Qed.
Print Assumptions episode_ids_refuted.

(** ** Concrete agents *)

(** counts its calls; the features are the number of atoms; the action is the
    control *)
Definition ex_inner (ts : agent_input nat) (n : nat) : res (list R) * nat := (Ok [1; 2], S n).
Definition ex_adapter : action_adapter nat unit :=
  mkadapter false (fun st g => (st, g)) (fun st o a =>
    match a with [x; y] => (Ok [aimed_for (mkpt x y) 5], st) | _ => (Raise ValueError, st) end).
Definition ex_features : feature_constructor goal_state nat :=
  mkfeature_constructor (fun o _ => Ok (length (positions (o_grid o)))) false.
Definition ex_goal_state : goal_state := mkgoal_state (mkpt 100 100) 0.
Definition ex_unseen : observation :=
  mkobs (mkgrid [mkpt (1/4) (1/4)] [6%Z]) (mkfov (mkpt 0 0) (mkpt 20 20)) [] 1000000%Z None None.

Lemma ex_seen_ok x t : wf_grid (o_grid (ex_seen x t)) /\ count_number 14 (o_grid (ex_seen x t)) = 1%nat.
Proof. split; reflexivity. Qed.
Lemma ex_unseen_ok : wf_grid (o_grid ex_unseen) /\ count_number 14 (o_grid ex_unseen) = 0%nat.
Proof. split; reflexivity. Qed.

(** a step without silicon, then one with *)
Example agent_shows_nonvacuous : forall e, exists ts ma,
  agent_history (writing_down ex_inner) ex_adapter ex_features (single_silicon_goal (ex_sampler e))
    (new_magent (0%nat, []) tt 0%nat ex_goal_state)
    [Nothing; Decided 2%nat (mkgoal_return 0 false false) 2000000%Z true] ma /\
  snd (ma_agent ma) = [ts] /\ ai_type ts = FIRST /\ fst (ma_agent ma) = 1%nat.
Proof.
  intro e.
  assert (N : gm_calculate (single_silicon_goal (ex_sampler e)) ex_goal_state ex_unseen = (Raise SiliconNotFoundError, ex_goal_state)).
  { apply no_silicon_goal; apply ex_unseen_ok. }
  assert (V : exists st, gm_calculate (single_silicon_goal (ex_sampler e)) ex_goal_state (ex_seen (1/2) 2000000%Z) = (Ok (mkgoal_return 0 false false), st)).
  { destruct (goal_outcome nat (ex_sampler e) ex_goal_state (ex_seen (1/2) 2000000%Z) (mkpt (1/2) (1/2))) as (ret & st & Eq & _ & T1 & T2 & _ & T4 & _).
    - reflexivity.
    - apply lone_central; [reflexivity|]. split; [reflexivity|]. left. reflexivity.
    - assert (F : gr_terminal ret = false).
      { destruct (gr_terminal ret) eqn:Q; auto. exfalso. destruct T2 as [T2 _]. specialize (T2 eq_refl).
        unfold pdist, at_relative, ex_goal_state, ex_seen in T2. cbn in T2.
        unfold pnorm, psub in T2; cbn in T2. match type of T2 with sqrt ?x < _ => assert (K : 71/100 <= sqrt x) end; [|lra].
        rewrite <- (sqrt_square (71/100)) by lra. apply sqrt_le_1_alt. unfold psq; cbn; lra. }
      exists st. rewrite Eq. destruct ret; cbn in *. rewrite (T4 F), F, T1. reflexivity. }
  destruct V as (st & V).
  eexists. eexists. split.
  - change [Nothing; Decided 2%nat (mkgoal_return 0 false false) 2000000%Z true] with
      (([] ++ [Nothing]) ++ [Decided (F:=nat) 2%nat (mkgoal_return 0 false false) 2000000%Z true]).
    replace (Decided (F:=nat) 2%nat (mkgoal_return 0 false false) 2000000%Z true) with
      (step_event ex_features (single_silicon_goal (ex_sampler e)) (ex_seen (1/2) 2000000%Z)
         (mkmagent (G:=nat) (0%nat, @nil (agent_input nat)) tt 0%nat ex_goal_state true) (Ok [aimed_for (mkpt 1 2) 5])).
    2:{ unfold step_event. cbn [ma_goal ex_features fc_get_features]. rewrite V. reflexivity. }
    eapply history_step.
    2:{ unfold ma_step. cbn [ma_goal ex_features fc_get_features ma_agent ma_adapter ma_adapter_rng ma_is_first_step].
        rewrite V. cbn [writing_down ex_inner fst snd]. reflexivity. }
    replace (@Nothing nat) with (step_event ex_features (single_silicon_goal (ex_sampler e)) ex_unseen
       (mkmagent (G:=nat) (0%nat, @nil (agent_input nat)) tt 0%nat ex_goal_state true) (Ok rescan)).
    2:{ unfold step_event. cbn [ma_goal ex_features fc_get_features]. rewrite N. reflexivity. }
    eapply history_step; [apply history_nil|]. unfold ma_step.
    cbn [ma_goal ex_features fc_get_features ma_agent ma_adapter ma_adapter_rng ma_is_first_step new_magent].
    rewrite N. reflexivity.
  - cbn. split; [reflexivity|]. split; reflexivity.
Qed.

Example logging_is_transparent_nonvacuous :
  position_only ex_features /\
  forall o, In (CallStep o) [CallReset (ex_seen (1/2) 1%Z) 7%nat; CallStep (ex_seen (1/3) 2%Z); CallStep (ex_seen (1/4) 3%Z)] ->
    wf_grid (o_grid o) /\ (1 <= count_number 14 (o_grid o))%nat.
Proof.
  split; [intros o g g' _; reflexivity|].
  intros o [K|[K|[K|[]]]]; try discriminate; injection K as <-; (split; [reflexivity|exact (le_n 1)]).
Qed.
