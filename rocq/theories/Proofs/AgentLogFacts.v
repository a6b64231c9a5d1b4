(** Lemmas about the microscope agent and its logger. *)
From Coq Require Import Reals ZArith List Bool Lia Lra Arith.
From Verif Require Import Base.Prelude Base.Rounding Base.Random Model.Constants Model.MicroscopeUtils
  Model.Graphene Model.ActionAdapters Model.Goals Model.FeatureConstructors Model.Environment Model.Io
  Model.MicroscopeAgent Spec.Grids Spec.Protos Spec.Acting Spec.AgentLog Proofs.BaseFacts Proofs.ProtoFacts
  Proofs.ActingFacts.
Import ListNotations.
Open Scope R_scope.

(** * What the inner agent is shown *)

Lemma ma_time_step_shown {F} first (x : F) gr t : shown first x gr t (ma_time_step first x gr t).
Proof.
  unfold shown, ma_time_step, with_reward, restart. rewrite discounted_eq.
  destruct (gr_terminal gr), (gr_truncated gr), first; cbn; repeat split; intros; congruence.
Qed.

Lemma shown_unique {F} first (x : F) gr t ts ts' : shown first x gr t ts -> shown first x gr t ts' -> ts = ts'.
Proof.
  intros (A0 & A1 & A2 & A3 & A4) (B0 & B1 & B2 & B3 & B4). destruct ts as [a b c d], ts' as [a' b' c' d']. cbn in *.
  destruct (gr_terminal gr) eqn:E1.
  - destruct (A1 eq_refl) as (?&?&?), (B1 eq_refl) as (?&?&?). subst. reflexivity.
  - destruct (gr_truncated gr) eqn:E2.
    + destruct (A2 eq_refl eq_refl) as (?&?&?), (B2 eq_refl eq_refl) as (?&?&?). subst. reflexivity.
    + destruct first.
      * destruct (A3 eq_refl eq_refl eq_refl) as (?&?&?), (B3 eq_refl eq_refl eq_refl) as (?&?&?). subst. reflexivity.
      * destruct (A4 eq_refl eq_refl eq_refl) as (?&?&?), (B4 eq_refl eq_refl eq_refl) as (?&?&?). subst. reflexivity.
Qed.

(** whether a step is still fresh after some events *)
Fixpoint fresh_after {F} (fresh : bool) (h : list (agent_event F)) : bool :=
  match h with
  | [] => fresh
  | Restarted :: h => fresh_after true h
  | Decided _ _ _ completed :: h => fresh_after (if completed then false else fresh) h
  | Nothing :: h => fresh_after fresh h
  end.

Lemma fresh_after_app {F} fresh (h h' : list (agent_event F)) :
  fresh_after fresh (h ++ h') = fresh_after (fresh_after fresh h) h'.
Proof. revert fresh; induction h as [|[|x gr t c|] h IH]; intros; cbn; auto. Qed.

Lemma shown_during_app {F} fresh (h h' : list (agent_event F)) l l' :
  shown_during fresh h l -> shown_during (fresh_after fresh h) h' l' -> shown_during fresh (h ++ h') (l ++ l').
Proof. induction 1; cbn; intros; auto; constructor; auto. Qed.

Lemma shown_during_split {F} fresh (h h' : list (agent_event F)) l :
  shown_during fresh (h ++ h') l ->
  exists l1 l2, l = l1 ++ l2 /\ shown_during fresh h l1 /\ shown_during (fresh_after fresh h) h' l2.
Proof.
  revert fresh l; induction h as [|e h IH]; intros fresh l K.
  - exists [], l. repeat split; auto. constructor.
  - cbn in K. inversion K; subst; cbn.
    + match goal with [ K1 : shown_during _ (h ++ h') _ |- _ ] => destruct (IH _ _ K1) as (l1 & l2 & Eq & P & Q) end. exists l1, l2. repeat split; auto. constructor; auto.
    + match goal with [ K1 : shown_during _ (h ++ h') _ |- _ ] => destruct (IH _ _ K1) as (l1 & l2 & Eq & P & Q) end. exists (ts :: l1), l2. subst. repeat split; auto. constructor; auto.
    + match goal with [ K1 : shown_during _ (h ++ h') _ |- _ ] => destruct (IH _ _ K1) as (l1 & l2 & Eq & P & Q) end. exists l1, l2. repeat split; auto. constructor; auto.
Qed.

Section AgentHistory.
Context {G A St Goal F : Type}.
Variable inner_step : agent_input F -> A -> res (list R) * A.
Variable adapter : action_adapter G St.
Variable features : feature_constructor Goal F.
Variable goal_m : goal_methods G Goal.

Lemma history_shown ma h ma' :
  agent_history (writing_down inner_step) adapter features goal_m ma h ma' ->
  exists l, snd (ma_agent ma') = snd (ma_agent ma) ++ l /\ shown_during (ma_is_first_step ma) h l /\
            ma_is_first_step ma' = fresh_after (ma_is_first_step ma) h.
Proof.
  induction 1 as [ma|ma h ma1 o g r ma2 g' _ IH E|ma h ma1 o r ma2 _ IH E].
  - exists []. rewrite app_nil_r. repeat split; auto. constructor.
  - destruct IH as (l & L & D & FF). exists l.
    unfold ma_reset in E. destruct (gm_reset goal_m (ma_goal ma1) o g) as [[r0 goal] g1].
    rewrite fresh_after_app.
    destruct r0 as [[]|x|]; [destruct (aa_reset adapter (ma_adapter ma1) (ma_adapter_rng ma1)) as [st ga]| |];
      inversion E; subst; cbn; repeat split; auto;
      rewrite <- (app_nil_r l); (apply shown_during_app; [exact D|]); repeat constructor.
  - destruct IH as (l & L & D & FF). unfold ma_step, step_event in *. rewrite fresh_after_app.
    assert (N : forall ma2 : @magent G (A * list (agent_input F)) St Goal, ma_agent ma2 = ma_agent ma1 -> ma_is_first_step ma2 = ma_is_first_step ma1 ->
      exists l0, snd (ma_agent ma2) = snd (ma_agent ma) ++ l0 /\ shown_during (ma_is_first_step ma) (h ++ [Nothing]) l0 /\
        ma_is_first_step ma2 = fresh_after (fresh_after (ma_is_first_step ma) h) [@Nothing F]).
    { intros m P Q. exists l. rewrite P, Q. repeat split; auto.
      rewrite <- (app_nil_r l). apply shown_during_app; [exact D|]. repeat constructor. }
    destruct (fc_get_features features o (ma_goal ma1)) as [x|e|].
    + destruct (gm_calculate goal_m (ma_goal ma1) o) as [rg goal]. cbn [fst].
      destruct rg as [gr|e|].
      * unfold writing_down at 1 in E.
        destruct (inner_step _ (fst (ma_agent ma1))) as [ra a].
        exists (l ++ [ma_time_step (ma_is_first_step ma1) x gr (o_elapsed o)]).
        rewrite app_assoc, <- L.
        assert (K : shown_during (ma_is_first_step ma) (h ++ [Decided x gr (o_elapsed o) (is_ok r)])
                      (l ++ [ma_time_step (ma_is_first_step ma1) x gr (o_elapsed o)])).
        { apply shown_during_app; [exact D|]. constructor; [|constructor].
          rewrite FF. apply ma_time_step_shown. }
        destruct ra as [action|e|].
        { destruct (aa_get_action adapter (ma_adapter ma1) o action) as [rc st].
          destruct rc as [cs|e|]; inversion E; subst; cbn; repeat split; auto. }
        { inversion E; subst; cbn; repeat split; auto. }
        { inversion E; subst; cbn; repeat split; auto. }
      * apply N; destruct e; inversion E; subst; reflexivity.
      * apply N; inversion E; subst; reflexivity.
    + apply N; destruct e; inversion E; subst; reflexivity.
    + apply N; inversion E; subst; reflexivity.
Qed.

(** the recorder does not change anything else *)
Definition forget {L} (ma : @magent G (A * L) St Goal) : @magent G A St Goal :=
  mkmagent (fst (ma_agent ma)) (ma_adapter ma) (ma_adapter_rng ma) (ma_goal ma) (ma_is_first_step ma).
Lemma writing_down_step o ma :
  let '(r, ma') := ma_step (writing_down inner_step) adapter features goal_m o ma in
  ma_step inner_step adapter features goal_m o (forget ma) = (r, forget ma').
Proof.
  unfold ma_step, forget; cbn. destruct (fc_get_features features o (ma_goal ma)) as [x|e|]; [|destruct e; reflexivity|reflexivity].
  destruct (gm_calculate goal_m (ma_goal ma) o) as [rg goal]. destruct rg as [gr|e|]; [|destruct e; reflexivity|reflexivity].
  unfold writing_down at 1. destruct (inner_step _ (fst (ma_agent ma))) as [ra a].
  destruct ra as [action|e|]; try reflexivity.
  destruct (aa_get_action adapter (ma_adapter ma) o action) as [rc st]. destruct rc; reflexivity.
Qed.
End AgentHistory.

(** * The logger *)

Lemma episodes_from_snoc cur h e : episodes_from cur (h ++ [e]) =
  match e with
  | Cleared g => (fst (episodes_from cur h) ++ [(snd (episodes_from cur h), g)], [])
  | _ => (fst (episodes_from cur h), snd (episodes_from cur h) ++ [e])
  end.
Proof.
  revert cur; induction h as [|e0 h IH]; intro cur.
  - destruct e; reflexivity.
  - cbn [app episodes_from]. destruct e0; cbn [episodes_from].
    + rewrite IH. destruct e; reflexivity.
    + rewrite IH. destruct e; destruct (episodes_from [] h); reflexivity.
    + rewrite IH. destruct e; reflexivity.
Qed.

Lemma steps_of_app h h' : steps_of (h ++ h') = steps_of h ++ steps_of h'.
Proof. induction h as [|[]]; cbn; auto. rewrite IHh; auto. Qed.

Lemma flushes_from_app b h h' :
  flushes_from b (h ++ h') = flushes_from b h ++ flushes_from (b ++ steps_of h) h'.
Proof.
  revert b; induction h as [|[] h IH]; intros b; cbn.
  - rewrite app_nil_r; auto.
  - rewrite IH, <- app_assoc. reflexivity.
  - apply IH.
  - rewrite IH, app_assoc. reflexivity.
Qed.

Definition occupied (ls : list (list (observation * goal_return))) : nat := length (filter nonempty ls).
Lemma numbered_app n ls ls' : numbered n (ls ++ ls') = numbered n ls ++ numbered (n + occupied ls) ls'.
Proof.
  revert n; induction ls as [|l ls IH]; intro n; cbn -[step_records_of].
  - f_equal. unfold occupied; cbn; lia.
  - unfold occupied in *. destruct l as [|s l]; cbn -[step_records_of].
    + apply IH.
    + rewrite IH, <- app_assoc. do 3 f_equal. lia.
Qed.
Lemma step_records_of_snoc n l o gr : step_records_of n (l ++ [(o, gr)]) =
  step_records_of n l ++ [mkstep_record n (S (length l)) (gr_reward gr) (IZR (o_elapsed o) / 1000000) (gr_terminal gr)].
Proof.
  unfold step_records_of. rewrite app_length. cbn [length]. rewrite seq_app. cbn [seq Nat.add].
  assert (K : forall X Y (a c : list X) (b d : list Y), length a = length b -> combine (a ++ c) (b ++ d) = combine a b ++ combine c d).
  { intros X Y a; induction a as [|x a IH]; intros c b d L; destruct b; cbn in *; try discriminate; auto. f_equal; auto. }
  rewrite K by (rewrite seq_length; auto). rewrite map_app. cbn. reflexivity.
Qed.
Lemma step_records_of_nil n : step_records_of n [] = [].
Proof. reflexivity. Qed.
Lemma numbered_last n ls l : numbered n (ls ++ [l]) = numbered n ls ++ step_records_of (n + occupied ls) l.
Proof. rewrite numbered_app. destruct l; cbn -[step_records_of]; rewrite ?app_nil_r; auto. Qed.

Lemma ended_records_app n ended ended' : ended_records n (ended ++ ended') =
  (fst (ended_records n ended) ++ fst (ended_records (snd (ended_records n ended)) ended'),
   snd (ended_records (snd (ended_records n ended)) ended')).
Proof.
  revert n; induction ended as [|[ep g] ended IH]; intro n.
  - cbn. destruct (ended_records n ended'); reflexivity.
  - cbn [app ended_records]. destruct (steps_of ep) as [|s l]; [apply IH|].
    rewrite IH. destruct (ended_records (S n) ended) as [rs m]. cbn.
    rewrite <- app_assoc. reflexivity.
Qed.
Lemma ended_records_number n ended :
  snd (ended_records n ended) = (n + occupied (map (fun ep => steps_of (fst ep)) ended))%nat.
Proof.
  revert n; induction ended as [|[ep g] ended IH]; intro n; cbn [ended_records].
  - unfold occupied; cbn; lia.
  - unfold occupied in *. cbn -[Nat.add]. destruct (steps_of ep) as [|s l] eqn:Eq; cbn -[Nat.add].
    + apply IH.
    + specialize (IH (S n)). destruct (ended_records (S n) ended) as [rs m]. cbn in *. lia.
Qed.
Lemma flushes_no_steps ep : steps_of ep = [] -> flushes ep = [].
Proof.
  unfold flushes. induction ep as [|[] ep IH]; cbn; intros Q; auto; discriminate.
Qed.

Section LogHistory.
Context {G A St Goal F : Type}.
Variable inner_step : agent_input F -> A -> res (list R) * A.
Variable adapter : action_adapter G St.
Variable features : feature_constructor Goal F.
Variable goal_m : goal_methods G Goal.
Variable single_silicon : Goal -> option goal_state.

(** the state of a logger after some events *)
Definition log_state (h : list log_event) (lg : @logger G A St Goal) : Prop :=
  lg_trajectories lg = map Kept (flat_map (fun ep => copies_ended (fst ep)) (ended_episodes h)) ++
                       repeat Shared (length (flushes (last_episode h))) /\
  lg_current lg = map fst (steps_of (last_episode h)) /\
  lg_episode_step lg = length (steps_of (last_episode h)) /\
  lg_episode_return lg = rsum (map (fun s => gr_reward (snd s)) (steps_of (last_episode h))) /\
  lg_episode lg = snd (ended_records 0 (ended_episodes h)) /\
  lg_step_records lg = step_records_after h /\
  lg_episode_records lg = episode_records_after h.

Lemma rsum_snoc l x : rsum (l ++ [x]) = rsum l + x.
Proof. induction l; cbn; [lra|]. unfold rsum in *. cbn. rewrite IHl. lra. Qed.

Lemma make_episode_record_eq goal n k r :
  make_episode_record single_silicon goal n k r = mkepisode_record n k r (goal_point single_silicon goal).
Proof. reflexivity. Qed.

Lemma log_state_step h lg lg' o gr :
  log_state h lg ->
  lg_trajectories lg' = lg_trajectories lg ->
  lg_current lg' = lg_current lg ++ [o] ->
  lg_episode_step lg' = S (lg_episode_step lg) ->
  lg_episode_return lg' = lg_episode_return lg + gr_reward gr ->
  lg_episode lg' = lg_episode lg ->
  lg_step_records lg' = lg_step_records lg ++ [make_step_record (lg_episode lg) (S (lg_episode_step lg)) o gr] ->
  lg_episode_records lg' = lg_episode_records lg ->
  log_state (h ++ [Stepped o gr]) lg'.
Proof.
  intros (S1 & S2 & S3 & S4 & S5 & S6 & S7) T1 T2 T3 T4 T5 T6 T7.
  unfold log_state. rewrite T1, T2, T3, T4, T5, T6, T7. clear T1 T2 T3 T4 T5 T6 T7.
  unfold ended_episodes, last_episode, step_records_after, episode_records_after in *.
  unfold ended_episodes, last_episode in *.
  rewrite episodes_from_snoc. cbn [fst snd]. rewrite steps_of_app. cbn [steps_of].
  unfold flushes, flush_records in *. unfold flushes in *. rewrite flushes_from_app. cbn [flushes_from]. rewrite app_nil_r.
  repeat split; auto.
  - rewrite map_app, S2. reflexivity.
  - rewrite app_length. cbn. lia.
  - rewrite map_app. cbn. rewrite rsum_snoc, S4. reflexivity.
  - rewrite numbered_last, step_records_of_snoc, app_assoc, <- numbered_last, <- S6.
    f_equal. rewrite S5, S3, ended_records_number. reflexivity.
Qed.

Lemma log_state_flush h lg : log_state h lg ->
  log_state (h ++ [Flushed (logged_goal single_silicon lg)]) (flush_append single_silicon lg).
Proof.
  intros (S1 & S2 & S3 & S4 & S5 & S6 & S7). unfold flush_append.
  unfold log_state, ended_episodes, last_episode, step_records_after, episode_records_after in *.
  unfold ended_episodes, last_episode in *. cbn.
  rewrite episodes_from_snoc. cbn [fst snd]. rewrite steps_of_app. cbn [steps_of]. rewrite app_nil_r.
  unfold flushes, flush_records in *. unfold flushes in *. rewrite flushes_from_app. cbn [flushes_from]. rewrite app_nil_r.
  cbn [app].
  destruct (episodes_from [] h) as [ended last]. cbn [fst snd] in *.
  rewrite S2, S3, S4, S5.
  assert (RP : forall X (x : X) a b, repeat x (a + b) = repeat x a ++ repeat x b).
  { intros X x a b; induction a; cbn; congruence. }
  repeat split; auto.
  - rewrite S1, app_length, <- app_assoc, RP. do 2 f_equal.
    destruct (steps_of last); reflexivity.
  - rewrite S7. destruct (ended_records 0 ended) as [rs n]. cbn.
    rewrite map_app, <- app_assoc. do 2 f_equal.
    destruct (steps_of last) as [|s l] eqn:Q; cbn; [reflexivity|].
    rewrite make_episode_record_eq. reflexivity.
Qed.

Lemma log_state_reset h lg ma' : log_state h lg ->
  log_state (h ++ [Cleared (logged_goal single_silicon lg)])
    (mklogger ma' (if (0 <? lg_episode_step lg)%nat then S (lg_episode lg) else lg_episode lg) 0 0 []
       (map (fun k => Kept (resolve (lg_current lg) k))
          (lg_trajectories lg ++ (if nonempty (lg_current lg) then [Shared] else [])))
       (lg_step_records lg)
       (if (0 <? lg_episode_step lg)%nat then
          lg_episode_records lg ++
          [make_episode_record single_silicon (ma_goal (lg_agent lg)) (S (lg_episode lg)) (lg_episode_step lg) (lg_episode_return lg)]
        else lg_episode_records lg)).
Proof.
  intros (S1 & S2 & S3 & S4 & S5 & S6 & S7).
  unfold log_state, ended_episodes, last_episode, step_records_after, episode_records_after in *.
  unfold ended_episodes, last_episode in *. cbn.
  rewrite episodes_from_snoc. cbn [fst snd].
  destruct (episodes_from [] h) as [ended last]. cbn [fst snd] in *.
  rewrite S1, S2, S3, S4, S5, S6, S7. cbn [flushes flushes_from steps_of map length repeat].
  rewrite app_nil_r. rewrite flat_map_app. cbn [flat_map]. rewrite app_nil_r.
  assert (RP : forall X (x : X) a b, repeat x (a + b) = repeat x a ++ repeat x b).
  { intros X x a b; induction a; cbn; congruence. }
  assert (MR : forall X Y (f : X -> Y) x a, map f (repeat x a) = repeat (f x) a).
  { intros X Y f x a; induction a; cbn; congruence. }
  repeat split; auto.
  - rewrite !map_app, map_map. cbn [resolve]. rewrite MR. cbn [resolve].
    rewrite <- app_assoc. f_equal. unfold copies_ended.
    cbn [fst].
    destruct (steps_of last) as [|s l] eqn:Q.
    + rewrite (flushes_no_steps _ Q). reflexivity.
    + cbn [map nonempty]. rewrite MR. replace (S (length (flushes last))) with (length (flushes last) + 1)%nat by lia.
      rewrite RP. reflexivity.
  - rewrite ended_records_app. cbn. destruct (steps_of last) as [|s l]; cbn; auto.
  - rewrite map_app. cbn. rewrite (numbered_last _ (_ ++ _)). rewrite step_records_of_nil, app_nil_r. reflexivity.
  - rewrite ended_records_app. cbn [ended_records]. unfold flush_records.
    destruct (ended_records 0 ended) as [rs n]. cbn [fst snd].
    destruct (steps_of last) as [|s l] eqn:Q.
    + rewrite (flushes_no_steps _ Q). cbn. rewrite !app_nil_r. reflexivity.
    + cbn [length Nat.ltb Nat.leb fst snd flushes flushes_from map]. rewrite app_nil_r, <- app_assoc. cbn [app].
      rewrite make_episode_record_eq. reflexivity.
Qed.

Lemma logger_step_cases o lg r lg' :
  logger_step inner_step adapter features goal_m o lg = (r, lg') ->
  (exists cs gr, r = Ok cs /\ outcome_after_step inner_step adapter features goal_m o lg = Ok gr /\
     fst (ma_step inner_step adapter features goal_m o (lg_agent lg)) = Ok cs /\
     lg_trajectories lg' = lg_trajectories lg /\
     lg_current lg' = lg_current lg ++ [o] /\
     lg_episode_step lg' = S (lg_episode_step lg) /\
     lg_episode_return lg' = lg_episode_return lg + gr_reward gr /\
     lg_episode lg' = lg_episode lg /\
     lg_step_records lg' = lg_step_records lg ++ [make_step_record (lg_episode lg) (S (lg_episode_step lg)) o gr] /\
     lg_episode_records lg' = lg_episode_records lg) \/
  (is_ok r = false /\ exists ma, lg' = mklogger ma (lg_episode lg) (lg_episode_return lg) (lg_episode_step lg)
     (lg_current lg) (lg_trajectories lg) (lg_step_records lg) (lg_episode_records lg)).
Proof.
  unfold logger_step, outcome_after_step.
  destruct (ma_step inner_step adapter features goal_m o (lg_agent lg)) as [rc ma]. cbn [fst snd].
  destruct rc as [cs|e|]; [|intro K; inversion K; right; eauto|intro K; inversion K; right; eauto].
  destruct (gm_calculate goal_m (ma_goal ma) o) as [rg goal]. cbn [fst].
  destruct rg as [gr|e|]; [|intro K; inversion K; right; eauto|intro K; inversion K; right; eauto].
  intro K; inversion K; subst. left. exists cs, gr. repeat split; auto.
Qed.

Lemma logger_reset_eq o (lg : @logger G A St Goal) g :
  logger_reset adapter goal_m single_silicon o lg g =
  let '(r, ma, g') := ma_reset adapter goal_m o (lg_agent lg) g in
  (r, mklogger ma (if (0 <? lg_episode_step lg)%nat then S (lg_episode lg) else lg_episode lg) 0 0 []
       (map (fun k => Kept (resolve (lg_current lg) k))
          (lg_trajectories lg ++ (if nonempty (lg_current lg) then [Shared] else [])))
       (lg_step_records lg)
       (if (0 <? lg_episode_step lg)%nat then
          lg_episode_records lg ++
          [make_episode_record single_silicon (ma_goal (lg_agent lg)) (S (lg_episode lg)) (lg_episode_step lg) (lg_episode_return lg)]
        else lg_episode_records lg), g').
Proof.
  unfold logger_reset. destruct (0 <? lg_episode_step lg)%nat; destruct (ma_reset adapter goal_m o (lg_agent lg) g) as [[r ma] g']; reflexivity.
Qed.

Lemma logger_flush_eq (lg : @logger G A St Goal) f r lg' f' : logger_flush single_silicon lg f = (r, lg', f') -> lg' = flush_append single_silicon lg.
Proof.
  unfold logger_flush. destruct (write_trajectories _ _) as [r0 f0].
  destruct r0 as [[]|e|]; intro K; inversion K; reflexivity.
Qed.

Lemma log_history_state ma h lg :
  log_history inner_step adapter features goal_m single_silicon ma h lg -> log_state h lg.
Proof.
  induction 1 as [|h lg o cs gr lg' _ IH Es Eo|h lg o r lg' _ IH Es Ef|h lg o g r lg' g' _ IH Er|h lg f r lg' f' _ IH Ef].
  - cbn. unfold log_state; cbn. repeat split; auto.
  - apply logger_step_cases in Es.
    destruct Es as [(cs' & gr' & E1 & E2 & _ & T1 & T2 & T3 & T4 & T5 & T6 & T7)|(B & _)]; [|discriminate].
    assert (gr' = gr) by congruence. subst gr'. apply (log_state_step h lg lg' o gr); auto.
  - apply logger_step_cases in Es.
    destruct Es as [(cs' & gr' & E1 & _)|(_ & ma' & ->)]; [subst; discriminate|]. exact IH.
  - rewrite logger_reset_eq in Er. destruct (ma_reset adapter goal_m o (lg_agent lg) g) as [[r0 ma0] g0].
    inversion Er; subst. apply log_state_reset; exact IH.
  - apply logger_flush_eq in Ef. subst. apply log_state_flush; exact IH.
Qed.

Lemma log_state_trajectories h lg : log_state h lg ->
  map (resolve (lg_current lg)) (lg_trajectories lg) = trajectories_after h.
Proof.
  intros (S1 & S2 & _). rewrite S1, map_app, map_map. cbn. rewrite map_id. unfold trajectories_after, copies_last. f_equal.
  assert (MR : forall X Y (f : X -> Y) x a, map f (repeat x a) = repeat (f x) a).
  { intros X Y f x a; induction a; cbn; congruence. }
  rewrite MR. cbn. rewrite S2. reflexivity.
Qed.
End LogHistory.
