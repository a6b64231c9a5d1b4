(** Facts about the environment, used by Props/EnvironmentProps.v. *)
From Coq Require Import Reals ZArith List Bool Lia Lra Arith.
From Verif Require Import Base.Prelude Base.Rounding Base.Random Model.Constants Model.MicroscopeUtils
  Model.Graphene Model.Simulator Model.ActionAdapters Model.Goals Model.FeatureConstructors Model.Environment
  Spec.Grids Spec.Neighbours Spec.Material Spec.MaterialRuns Spec.Simulation Spec.Acting Spec.Episodes
  Proofs.BaseFacts Proofs.ActingFacts.
Import ListNotations.
Open Scope R_scope.

Section Facts.
Context {G St Goal F : Type}.
Variable s : sampler G.
Variable render : @renderer G.
Variable adapter : action_adapter G St.
Variable features : feature_constructor Goal F.
Variable goal_m : goal_methods G Goal.
Variable fuel : nat.

Notation the_step := (env_step s render adapter features goal_m fuel).
Notation the_reset := (env_reset s render adapter features goal_m).

Lemma step_auto a e : env_requires_reset e = true -> the_step a e = the_reset e.
Proof. intros H. unfold env_step. rewrite H. reflexivity. Qed.

(** what a step that is not a reset returns *)
Lemma step_returns a e ts e' tr : env_requires_reset e = false ->
  the_step a e = mkenv_outcome (Ok ts) e' tr <->
  exists cs st obs x ret goal o,
    aa_get_action adapter (env_adapter e) (env_last_observation e) a = (Ok cs, st) /\
    o = step_and_image s render fuel cs (fc_requires_image features) (env_sim e) (env_rng e) /\
    out_result o = Ok obs /\
    fc_get_features features obs (env_goal e) = Ok x /\
    gm_calculate goal_m (env_goal e) obs = (Ok ret, goal) /\
    ts = mktime_step (if gr_terminal ret || gr_truncated ret then LAST else MID) (gr_reward ret)
           (if gr_terminal ret then 0 else discounted (o_elapsed obs)) x /\
    e' = mkenv (out_rng o) (env_adapter_rng e) (out_sim o) st goal obs (gr_terminal ret || gr_truncated ret) /\
    tr = out_trace o.
Proof.
  intros H. unfold env_step. rewrite H. split.
  - intros E.
    destruct (aa_get_action adapter (env_adapter e) (env_last_observation e) a) as [[cs|x|] st]; try discriminate.
    destruct (out_result (step_and_image s render fuel cs (fc_requires_image features) (env_sim e) (env_rng e)))
      as [obs|x|] eqn:Eo; try discriminate.
    destruct (fc_get_features features obs (env_goal e)) as [x|x|] eqn:Ef; try discriminate.
    destruct (gm_calculate goal_m (env_goal e) obs) as [[ret|y|] goal] eqn:Eg; try discriminate.
    exists cs, st, obs, x, ret, goal, (step_and_image s render fuel cs (fc_requires_image features) (env_sim e) (env_rng e)).
    split; [reflexivity|]. split; [reflexivity|]. split; [exact Eo|]. split; [exact Ef|]. split; [exact Eg|].
    destruct (gr_terminal ret), (gr_truncated ret); injection E as <- <- <-; auto.
  - intros (cs & st & obs & x & ret & goal & o & Ea & Eo & Er & Ef & Eg & -> & -> & ->). subst o.
    rewrite Ea, Er, Ef, Eg. destruct (gr_terminal ret), (gr_truncated ret); reflexivity.
Qed.

Lemma reset_returns e ts e' tr :
  the_reset e = mkenv_outcome (Ok ts) e' tr <->
  exists obs st ga g1 goal g2 x o,
    o = sim_do_reset s render (fc_requires_image features) (env_sim e) (env_rng e) /\
    out_result o = Ok obs /\
    adapter_restarts adapter e (out_rng o) st ga g1 /\
    gm_reset goal_m (env_goal e) obs g1 = (Ok tt, goal, g2) /\
    fc_get_features features obs goal = Ok x /\
    ts = mktime_step FIRST 0 (discounted (o_elapsed obs)) x /\
    e' = mkenv g2 ga (out_sim o) st goal obs false /\
    tr = out_trace o.
Proof.
  unfold env_reset. split.
  - intros E. exists (match out_result (sim_do_reset s render (fc_requires_image features) (env_sim e) (env_rng e)) with Ok obs => obs | _ => env_last_observation e end).
    destruct (out_result (sim_do_reset s render (fc_requires_image features) (env_sim e) (env_rng e))) as [obs|x|] eqn:Eo; try discriminate.
    unfold reset_adapter, adapter_restarts in *. cbn [env_rng env_adapter_rng env_sim env_adapter env_goal env_last_observation] in *.
    destruct (env_adapter_rng e) as [ga|].
    + destruct (aa_reset adapter (env_adapter e) ga) as [st ga'] eqn:Ea. cbn [env_rng env_adapter_rng env_sim env_adapter env_goal] in *.
      destruct (gm_reset goal_m (env_goal e) obs _) as [[[[]|y|] goal] g2] eqn:Eg; try discriminate.
      destruct (fc_get_features features obs goal) as [x|x|] eqn:Ef; try discriminate.
      injection E as <- <- <-. do 7 eexists. repeat (split; [reflexivity || eassumption || eauto|]). auto.
    + destruct (aa_reset adapter (env_adapter e) _) as [st g1] eqn:Ea. cbn [env_rng env_adapter_rng env_sim env_adapter env_goal] in *.
      destruct (gm_reset goal_m (env_goal e) obs g1) as [[[[]|y|] goal] g2] eqn:Eg; try discriminate.
      destruct (fc_get_features features obs goal) as [x|x|] eqn:Ef; try discriminate.
      injection E as <- <- <-. do 7 eexists. repeat (split; [reflexivity || eassumption || eauto|]). auto.
  - intros (obs & st & ga & g1 & goal & g2 & x & o & -> & Eo & Ha & Eg & Ef & -> & -> & ->).
    rewrite Eo. unfold reset_adapter, adapter_restarts in *. cbn [env_rng env_adapter_rng env_sim env_adapter env_goal].
    destruct (env_adapter_rng e) as [own|].
    + destruct Ha as (own' & -> & -> & ->). cbn [env_rng env_adapter_rng env_sim env_adapter env_goal]. rewrite Eg, Ef. reflexivity.
    + destruct Ha as (-> & ->). cbn [env_rng env_adapter_rng env_sim env_adapter env_goal]. rewrite Eg, Ef. reflexivity.
Qed.

(** what makes a step raise, in order *)
Lemma step_raises a e x : env_requires_reset e = false ->
  eo_result (the_step a e) = Raise x <->
  (exists st, aa_get_action adapter (env_adapter e) (env_last_observation e) a = (Raise x, st)) \/
  exists cs st, aa_get_action adapter (env_adapter e) (env_last_observation e) a = (Ok cs, st) /\
    let r := out_result (step_and_image s render fuel cs (fc_requires_image features) (env_sim e) (env_rng e)) in
    (r = Raise x \/
     exists obs, r = Ok obs /\
       (fc_get_features features obs (env_goal e) = Raise x \/
        exists y goal, fc_get_features features obs (env_goal e) = Ok y /\
          gm_calculate goal_m (env_goal e) obs = (Raise x, goal))).
Proof.
  intros H. unfold env_step. rewrite H.
  destruct (aa_get_action adapter (env_adapter e) (env_last_observation e) a) as [[cs|y|] st]; cbn [eo_result].
  - destruct (out_result (step_and_image s render fuel cs (fc_requires_image features) (env_sim e) (env_rng e)))
      as [obs|y|] eqn:Eo; cbn [eo_result].
    + destruct (fc_get_features features obs (env_goal e)) as [y|y|] eqn:Ef; cbn [eo_result].
      * destruct (gm_calculate goal_m (env_goal e) obs) as [[ret|z|] goal] eqn:Eg; cbn [eo_result].
        -- split.
           ++ destruct (gr_terminal ret), (gr_truncated ret); discriminate.
           ++ intros [(st' & K)|(cs' & st' & K & [K2|(o & K2 & [K3|(y' & g' & K3 & K4)])])]; try discriminate; injection K as <- <-; cbv zeta in *; try congruence.
        -- split.
           ++ intros K. injection K as ->. right. exists cs, st. split; auto. cbv zeta. right. exists obs. split; auto. right. eauto.
           ++ intros [(st' & K)|(cs' & st' & K & [K2|(o & K2 & [K3|(y' & g' & K3 & K4)])])]; try discriminate; injection K as <- <-; cbv zeta in *; try congruence.
        -- split; [discriminate|].
           intros [(st' & K)|(cs' & st' & K & [K2|(o & K2 & [K3|(y' & g' & K3 & K4)])])]; try discriminate; injection K as <- <-; cbv zeta in *; try congruence.
      * split.
        -- intros K. injection K as ->. right. exists cs, st. split; auto. cbv zeta. right. exists obs. auto.
        -- intros [(st' & K)|(cs' & st' & K & [K2|(o & K2 & [K3|(y' & g' & K3 & K4)])])]; try discriminate; injection K as <- <-; cbv zeta in *; congruence.
      * split; [discriminate|].
        intros [(st' & K)|(cs' & st' & K & [K2|(o & K2 & [K3|(y' & g' & K3 & K4)])])]; try discriminate; injection K as <- <-; cbv zeta in *; congruence.
    + split.
      * intros K. injection K as ->. right. exists cs, st. split; auto.
      * intros [(st' & K)|(cs' & st' & K & [K2|(o & K2 & _)])]; try discriminate; injection K as <- <-; cbv zeta in *; congruence.
    + split; [discriminate|].
      intros [(st' & K)|(cs' & st' & K & [K2|(o & K2 & _)])]; try discriminate; injection K as <- <-; cbv zeta in *; congruence.
  - split.
    + intros K. injection K as ->. left. eauto.
    + intros [(st' & K)|(cs' & st' & K & _)]; congruence.
  - split; [discriminate|].
    intros [(st' & K)|(cs' & st' & K & _)]; congruence.
Qed.

(** what makes a reset raise, in order *)
Lemma reset_raises e x :
  eo_result (the_reset e) = Raise x <->
  let o := sim_do_reset s render (fc_requires_image features) (env_sim e) (env_rng e) in
  (out_result o = Raise x \/
   exists obs st ga g1, out_result o = Ok obs /\ adapter_restarts adapter e (out_rng o) st ga g1 /\
     ((exists goal g2, gm_reset goal_m (env_goal e) obs g1 = (Raise x, goal, g2)) \/
      exists goal g2, gm_reset goal_m (env_goal e) obs g1 = (Ok tt, goal, g2) /\
        fc_get_features features obs goal = Raise x)).
Proof.
  cbv zeta. unfold env_reset.
  destruct (out_result (sim_do_reset s render (fc_requires_image features) (env_sim e) (env_rng e))) as [obs|y|] eqn:Eo; cbn [eo_result].
  - unfold reset_adapter, adapter_restarts. cbn [env_rng env_adapter_rng env_sim env_adapter env_goal].
    assert (Gen : exists st ga g1,
      reset_adapter adapter (mkenv (out_rng (sim_do_reset s render (fc_requires_image features) (env_sim e) (env_rng e))) (env_adapter_rng e)
        (out_sim (sim_do_reset s render (fc_requires_image features) (env_sim e) (env_rng e))) (env_adapter e) (env_goal e) obs false)
      = mkenv g1 ga (out_sim (sim_do_reset s render (fc_requires_image features) (env_sim e) (env_rng e))) st (env_goal e) obs false /\
      adapter_restarts adapter e (out_rng (sim_do_reset s render (fc_requires_image features) (env_sim e) (env_rng e))) st ga g1 /\
      forall st' ga' g1', adapter_restarts adapter e (out_rng (sim_do_reset s render (fc_requires_image features) (env_sim e) (env_rng e))) st' ga' g1' ->
        g1' = g1).
    { unfold reset_adapter, adapter_restarts. cbn [env_rng env_adapter_rng env_sim env_adapter env_goal env_last_observation env_requires_reset].
      destruct (env_adapter_rng e) as [own|].
      - destruct (aa_reset adapter (env_adapter e) own) as [st own'] eqn:Ea. exists st, (Some own'). eexists. split; [reflexivity|].
        split; [eauto|]. intros ? ? ? (? & _ & _ & ->). reflexivity.
      - destruct (aa_reset adapter (env_adapter e) _) as [st g1] eqn:Ea. exists st, None, g1. split; [reflexivity|].
        split; [auto|]. intros ? ? ? (K & _). congruence. }
    destruct Gen as (st & ga & g1 & Er & Ha & Hu).
    unfold reset_adapter in Er. cbn [env_rng env_adapter_rng env_sim env_adapter env_goal env_last_observation env_requires_reset] in Er.
    cbn [env_last_observation env_requires_reset].
    rewrite Er. cbn [env_rng env_adapter_rng env_sim env_adapter env_goal]. clear Er.
    fold (adapter_restarts adapter e (out_rng (sim_do_reset s render (fc_requires_image features) (env_sim e) (env_rng e)))).
    destruct (gm_reset goal_m (env_goal e) obs g1) as [[[[]|y|] goal] g2] eqn:Eg; cbn [eo_result].
    + destruct (fc_get_features features obs goal) as [y|y|] eqn:Ef; cbn [eo_result]; split; try discriminate.
      * intros [K|(o & st' & ga' & g1' & K & Ha' & K')]; [discriminate|]. injection K as <-. rewrite (Hu _ _ _ Ha') in K'.
        destruct K' as [(? & ? & K')|(? & ? & K' & K2)]; rewrite Eg in K'; [discriminate|]. injection K' as <- <-. congruence.
      * intros K. injection K as ->. right. exists obs, st, ga, g1. split; auto. split; auto. right. eauto.
      * intros [K|(o & st' & ga' & g1' & K & Ha' & K')]; [discriminate|]. injection K as <-. rewrite (Hu _ _ _ Ha') in K'.
        destruct K' as [(? & ? & K')|(? & ? & K' & K2)]; rewrite Eg in K'; [discriminate|]. injection K' as <- <-. congruence.
      * intros [K|(o & st' & ga' & g1' & K & Ha' & K')]; [discriminate|]. injection K as <-. rewrite (Hu _ _ _ Ha') in K'.
        destruct K' as [(? & ? & K')|(? & ? & K' & K2)]; rewrite Eg in K'; [discriminate|]. injection K' as <- <-. congruence.
    + split.
      * intros K. injection K as ->. right. exists obs, st, ga, g1. split; auto. split; auto. left. eauto.
      * intros [K|(o & st' & ga' & g1' & K & Ha' & K')]; [discriminate|]. injection K as <-. rewrite (Hu _ _ _ Ha') in K'.
        destruct K' as [(? & ? & K')|(? & ? & K' & K2)]; rewrite Eg in K'; congruence.
    + split; [discriminate|].
      intros [K|(o & st' & ga' & g1' & K & Ha' & K')]; [discriminate|]. injection K as <-. rewrite (Hu _ _ _ Ha') in K'.
      destruct K' as [(? & ? & K')|(? & ? & K' & K2)]; rewrite Eg in K'; discriminate.
  - split.
    + intros K. injection K as ->. auto.
    + intros [K|(? & ? & ? & ? & K & _)]; congruence.
  - split; [discriminate|]. intros [K|(? & ? & ? & ? & K & _)]; congruence.
Qed.

(** after a reset, however it ended, the environment does not wait for one *)
Lemma reset_flag e : env_requires_reset (eo_env (the_reset e)) = false.
Proof.
  unfold env_reset. destruct (out_result _); cbn [eo_env env_requires_reset]; auto.
  destruct (gm_reset _ _ _ _) as [[[[]|?|] ?] ?]; cbn [eo_env env_requires_reset]; auto.
  destruct (fc_get_features _ _ _); reflexivity.
Qed.

Lemma step_flag a e : env_requires_reset (eo_env (the_step a e)) = true <->
  env_requires_reset e = false /\ exists ts, eo_result (the_step a e) = Ok ts /\ ts_type ts = LAST.
Proof.
  destruct (env_requires_reset e) eqn:H.
  - rewrite step_auto by auto. rewrite reset_flag. split; [discriminate|intros (K & _); discriminate].
  - unfold env_step. rewrite H.
    destruct (aa_get_action _ _ _ _) as [[cs|y|] st]; cbn [eo_env eo_result env_requires_reset];
      try (split; [discriminate|intros (_ & ts & K & _); discriminate]).
    destruct (out_result _) as [o|?|]; cbn [eo_env eo_result env_requires_reset];
      try (split; [discriminate|intros (_ & ts & K & _); discriminate]).
    destruct (fc_get_features _ _ _) as [a0|?|]; cbn [eo_env eo_result env_requires_reset];
      try (split; [discriminate|intros (_ & ts & K & _); discriminate]).
    destruct (gm_calculate _ _ _) as [[ret|y|] goal]; cbn [eo_env eo_result env_requires_reset];
      try (split; [discriminate|intros (_ & ts & K & _); discriminate]).
    destruct (gr_terminal ret), (gr_truncated ret); cbn [eo_env eo_result env_requires_reset]; split; try discriminate;
      try (intros _; split; auto; eexists; split; [reflexivity|reflexivity]).
    all: intros (_ & ts & K & K2); try reflexivity. assert (ts = transition_step (gr_reward ret) a0 (discount_of (o_elapsed o))) by congruence. subst ts. discriminate K2.
Qed.

Lemma reset_type e ts : eo_result (the_reset e) = Ok ts -> ts_type ts = FIRST.
Proof.
  intros K. destruct (the_reset e) as [r e' tr] eqn:E. cbn [eo_result] in K. subst r. apply reset_returns in E.
  destruct E as (obs & st & ga & g1 & goal & g2 & x & o & _ & _ & _ & _ & _ & -> & _). reflexivity.
Qed.

Lemma step_type_first a e ts : eo_result (the_step a e) = Ok ts -> (ts_type ts = FIRST <-> env_requires_reset e = true).
Proof.
  intros K. destruct (env_requires_reset e) eqn:H.
  - rewrite step_auto in K by auto. apply reset_type in K. tauto.
  - destruct (the_step a e) as [r e' tr] eqn:E. cbn [eo_result] in K. subst r. apply step_returns in E; auto.
    destruct E as (cs & st & obs & x & ret & goal & o & _ & _ & _ & _ & _ & -> & _). cbn [ts_type].
    destruct (gr_terminal ret || gr_truncated ret); split; discriminate.
Qed.

End Facts.

(** * Sessions *)
Section Protocols.
Context {F : Type}.

(** whether a session that ended with the results h waits for a reset *)
Definition awaits (waiting : bool) (h : list (env_call * time_step F)) : Prop :=
  (h = [] /\ waiting = true) \/ exists h0 c ts, h = h0 ++ [(c, ts)] /\ ts_type ts = LAST.

Lemma protocol_snoc waiting h c ts : protocol waiting (h ++ [(c, ts)]) <->
  protocol waiting h /\ (ts_type ts = FIRST <-> c = CallReset \/ awaits waiting h).
Proof.
  assert (Aw : awaits waiting h <-> (length h = 0%nat /\ waiting = true) \/
     exists j c' ts', length h = S j /\ nth_error h j = Some (c', ts') /\ ts_type ts' = LAST).
  { unfold awaits. destruct h as [|x h] using rev_ind.
    - simpl. split; [intros [(_ & K)|(h0 & c0 & t0 & K & _)]; [auto|destruct h0; discriminate]|].
      intros [(_ & K)|(j & _ & _ & K & _)]; [auto|discriminate].
    - clear IHh. rewrite app_length. simpl. split.
      + intros [(K & _)|(h0 & c0 & t0 & K & T)]; [destruct h; discriminate|]. apply app_inj_tail in K as [-> ->].
        right. exists (length h0), c0, t0. split; [lia|]. split; auto. rewrite nth_error_app2, Nat.sub_diag by lia. reflexivity.
      + intros [(K & _)|(j & c0 & t0 & L & E & T)]; [lia|]. right. exists h, c0, t0. split; auto.
        assert (j = length h) by lia. subst j. rewrite nth_error_app2, Nat.sub_diag in E by lia. injection E as ->. reflexivity. }
  split.
  - intros P. split.
    + intros i c0 t0 E. specialize (P i c0 t0). assert (L : (i < length h)%nat) by (apply nth_error_Some; congruence).
      rewrite nth_error_app1 in P by auto. rewrite (P E). split; (intros [K|[K|(j & c' & ts' & -> & Ej & K)]]; [auto|auto|]);
        right; right; exists j, c', ts'; (split; [auto|]); (split; [|auto]); [rewrite nth_error_app1 in Ej by lia|rewrite nth_error_app1 by lia]; auto.
    + specialize (P (length h) c ts). rewrite nth_error_app2, Nat.sub_diag in P by lia. rewrite (P eq_refl), Aw.
      split.
      * intros [K|[K|(j & c' & ts' & E & Ej & K)]]; auto. right. right. exists j, c', ts'.
        rewrite nth_error_app1 in Ej by lia. auto.
      * intros [K|[K|(j & c' & ts' & E & Ej & K)]]; auto. right. right. exists j, c', ts'.
        rewrite nth_error_app1 by lia. auto.
  - intros (P & Q) i c0 t0 E. destruct (Nat.lt_ge_cases i (length h)) as [L|L].
    + rewrite nth_error_app1 in E by auto. rewrite (P i c0 t0 E).
      split; (intros [K|[K|(j & c' & ts' & -> & Ej & K)]]; [auto|auto|]);
        right; right; exists j, c', ts'; (split; [auto|]); (split; [|auto]); [rewrite nth_error_app1 by lia|rewrite nth_error_app1 in Ej by lia]; auto.
    + rewrite nth_error_app2 in E by auto. destruct (i - length h)%nat as [|k] eqn:Ek; [|destruct k; discriminate].
      injection E as <- <-. assert (i = length h) by lia. subst i. rewrite Q, Aw. split.
      * intros [K|[K|(j & c' & ts' & E & Ej & K)]]; auto. right. right. exists j, c', ts'.
        rewrite nth_error_app1 by lia. auto.
      * intros [K|[K|(j & c' & ts' & E & Ej & K)]]; auto. right. right. exists j, c', ts'.
        rewrite nth_error_app1 in Ej by lia. auto.
Qed.

Lemma awaits_snoc waiting h c ts : awaits waiting (h ++ [(c, ts)]) <-> ts_type ts = LAST.
Proof.
  unfold awaits. split.
  - intros [(K & _)|(h0 & c0 & t0 & K & T)]; [destruct h; discriminate|]. apply app_inj_tail in K as [_ K]. congruence.
  - intros T. right. eauto.
Qed.
Lemma awaits_nil waiting : awaits waiting [] <-> waiting = true.
Proof.
  unfold awaits. split; [|auto]. intros [(_ & K)|(h0 & c0 & t0 & K & _)]; auto. destruct h0; discriminate.
Qed.
Lemma protocol_nil waiting : @protocol F waiting [].
Proof. intros i c ts E. destruct i; discriminate. Qed.

End Protocols.
