(** Properties C45 to C48, C81, C82: evaluations. *)
From Coq Require Import Reals ZArith List Bool Lia Lra Arith Permutation.
From Verif Require Import Base.Prelude Base.Rounding Base.Random Model.Constants Model.Geometry Model.MicroscopeUtils
  Model.Graphene Model.Simulator Model.SimulatorObservers Model.ActionAdapters Model.Goals Model.FeatureConstructors
  Model.Environment Model.EvalLib
  Spec.Grids Spec.Neighbours Spec.Lattice Spec.Material Spec.MaterialRuns Spec.Simulation Spec.Acting Spec.Episodes Spec.Evaluation
  Proofs.BaseFacts Proofs.RoundingFacts Proofs.GeometryFacts Proofs.RateFacts Proofs.CanonicalFacts Proofs.ActingFacts Proofs.ExampleSampler Proofs.SimulatorFacts
  Proofs.EnvironmentFacts Proofs.EpisodeFacts Proofs.SeedFacts Proofs.EvalFacts Proofs.EvalEnvFacts
  Props.SimulatorProps Props.EnvironmentProps Props.ShippedStack.
Import ListNotations.
Open Scope R_scope.

(** ** C45: one faithful result per seed, in order *)

(** an evaluation returns results exactly if the agent, now in evaluation mode,
    attempted every seed in order; the results report the attempts and the
    videos are those after each attempt *)
Theorem evaluate_returns : forall {A E F V} (ag : agent A F) (en : eval_env E F V) fuel timeout video w suite a e rs vs a' e',
  evaluate ag en fuel timeout video w suite a e = (Ok rs, vs, a', e') <->
  exists e1, attempts ag en fuel timeout video suite (agent_set_eval_mode ag a) (if video then ee_add_observer en w e else e) rs vs a' e1 /\
    (if video then ee_remove_observer en w e1 = (Ok tt, e') else e' = e1).
Proof.
  intros. unfold evaluate.
  destruct (eval_seeds _ _ _ _ _ _ _ _) as [[[r vs1] a1] e1] eqn:Es. destruct r as [rs1|x|].
  - apply seeds_Ok in Es. split.
    + intros K. destruct video.
      * destruct (ee_remove_observer en w e1) as [[[]|x|] e2] eqn:Er; cbn in K; try discriminate. injection K as -> -> -> ->.
        exists e1. auto.
      * injection K as -> -> -> ->. exists e'. auto.
    + intros (e2 & At & K). apply seeds_Ok in At. apply seeds_Ok in Es. rewrite Es in At. injection At as -> -> -> ->.
      destruct video; [rewrite K|rewrite <- K]; reflexivity.
  - split; [discriminate|]. intros (e2 & At & _). apply seeds_Ok in At. congruence.
  - split; [discriminate|]. intros (e2 & At & _). apply seeds_Ok in At. congruence.
Qed.
Print Assumptions evaluate_returns.

(** an exception is that of the first attempt (or video) that raised, or that
    of the removal of the observer *)
Theorem evaluate_raises : forall {A E F V} (ag : agent A F) (en : eval_env E F V) fuel timeout video w suite a e x vs a' e',
  evaluate ag en fuel timeout video w suite a e = (Raise x, vs, a', e') <->
  let start := agent_set_eval_mode ag a in
  let begin := if video then ee_add_observer en w e else e in
  (exists done seed rest rs a1 e1, suite = done ++ seed :: rest /\
    attempts ag en fuel timeout video done start begin rs vs a1 e1 /\
    (attempt_raises ag en fuel timeout seed a1 e1 x a' e' \/
     exists t h ts, attempt ag en timeout seed a1 e1 t h ts a' e' /\ (length h <= fuel)%nat /\
       video = true /\ ee_video en e' = Raise x)) \/
  (exists rs e1, video = true /\ attempts ag en fuel timeout video suite start begin rs vs a' e1 /\
    ee_remove_observer en w e1 = (Raise x, e')).
Proof.
  intros. cbv zeta. rewrite <- seeds_Raise. unfold evaluate.
  destruct (eval_seeds _ _ _ _ _ _ _ _) as [[[r vs1] a1] e1] eqn:Es. destruct r as [rs1|y|].
  - split.
    + intros K. destruct video; [|discriminate]. destruct (ee_remove_observer en w e1) as [[[]|z|] e2] eqn:Er; cbn in K; try discriminate.
      injection K as -> -> -> ->. right. exists rs1, e1. split; auto. split; auto. apply seeds_Ok. exact Es.
    + intros [K|(rs & e2 & -> & At & K)]; [discriminate|]. apply seeds_Ok in At. rewrite Es in At. injection At as -> -> -> ->.
      rewrite K. reflexivity.
  - split; [auto|]. intros [K|(rs & e2 & -> & At & K)]; [exact K|]. apply seeds_Ok in At. congruence.
  - split; [discriminate|]. intros [K|(rs & e2 & -> & At & K)]; [discriminate|]. apply seeds_Ok in At. congruence.
Qed.
Print Assumptions evaluate_raises.

(** the results and the videos are in the order of the suite *)
Theorem evaluate_in_order : forall {A E F V} (ag : agent A F) (en : eval_env E F V) fuel timeout video w suite a e rs vs a' e',
  evaluate ag en fuel timeout video w suite a e = (Ok rs, vs, a', e') ->
  map er_seed rs = suite /\ map fst vs = (if video then suite else []).
Proof.
  intros A E F V ag en fuel timeout video w suite a e rs vs a' e' H.
  apply evaluate_returns in H as (e2 & At & _). revert At.
  generalize (agent_set_eval_mode ag a) (if video then ee_add_observer en w e else e). clear. intros b e0 At.
  induction At as [|seed seeds b0 e0 start h ts a1 e1 r rs v vs a2 e2 At Lh Rp Hv Ats (IH1 & IH2)].
  - destruct video; auto.
  - cbn [map]. rewrite map_app, IH1, IH2. destruct Rp as (-> & _). split; auto. destruct video.
    + destruct Hv as (x & _ & ->). reflexivity.
    + subst v. reflexivity.
Qed.
Print Assumptions evaluate_in_order.

(** each result, then, has an attempt it reports *)
Theorem evaluate_faithful : forall {A E F V} (ag : agent A F) (en : eval_env E F V) fuel timeout video w suite a e rs vs a' e' r,
  evaluate ag en fuel timeout video w suite a e = (Ok rs, vs, a', e') -> In r rs ->
  exists a0 e0 start h ts a1 e1, attempt ag en timeout (er_seed r) a0 e0 start h ts a1 e1 /\
    er_num_actions_taken r = length h /\
    er_total_reward r = rsum (map (fun x => ts_reward (x_result x)) h) /\
    (er_reached_goal r = true <-> ts_type ts = LAST /\ ts_discount ts = 0) /\
    (er_reached_goal r = false <-> er_agent_seconds_to_goal r = nan) /\
    (er_reached_goal r = false <-> er_environment_seconds_to_goal r = nan) /\
    (er_reached_goal r = false <-> er_seconds_to_goal r = nan) /\
    (er_reached_goal r = true -> er_seconds_to_goal r = Some (IZR (time_spent start h) / 1000000)).
Proof.
  intros A E F V ag en fuel timeout video w suite a e rs vs a' e' r H.
  apply evaluate_returns in H as (e2 & At & _). revert At.
  generalize (agent_set_eval_mode ag a) (if video then ee_add_observer en w e else e). clear. intros b e0 At.
  induction At as [|seed seeds b0 e0 start h ts a1 e1 r0 rs v vs a2 e2 At Lh Rp Hv Ats IH]; [intros []|].
  intros [->|K]; [|apply IH; exact K]. clear IH.
  exists b0, e0, start, h, ts, a1, e1. destruct Rp as (-> & En & Er & Eg & N & Y). split; [exact At|]. split; [exact En|]. split; [exact Er|]. split; [exact Eg|].
  unfold er_seconds_to_goal.
  assert (Z : zsum (map (fun x : exchange F => td_seconds (x_agent_seconds x) + x_elapsed x)%Z h) =
    (zsum (map (fun x => td_seconds (x_agent_seconds x)) h) + zsum (map x_elapsed h))%Z) by apply zsum_plus.
  destruct (er_reached_goal r).
  - destruct (Y eq_refl) as (-> & ->). unfold nan, nan_add. repeat split; try discriminate.
    intros _. f_equal. unfold time_spent. rewrite Z, !plus_IZR. lra.
  - destruct (N eq_refl) as (-> & ->). repeat split; auto; discriminate.
Qed.
Print Assumptions evaluate_faithful.

(** evaluations end if nothing raises, every step takes time d or more (and the
    bound on the steps is timeout / d or more), and the clock does not run backwards *)
Theorem evaluation_ends : forall {A E F V} (ag : agent A F) (en : eval_env E F V) (I : E -> Prop) (actions : list R -> Prop) d
  fuel timeout video w suite a e,
  (forall z e, I e -> I (ee_seed en z e)) ->
  (forall e, I e -> exists ts e', e_reset (ee_env en) e = (Ok ts, e') /\ I e' /\ (0 <= ee_elapsed en e')%Z) ->
  (forall act e, I e -> actions act ->
    exists ts e', e_step (ee_env en) act e = (Ok ts, e') /\ I e' /\ (d <= ee_elapsed en e')%Z) ->
  (forall ts a, exists act a', agent_step ag ts a = (Ok act, a') /\ actions act) ->
  (forall ts a t0 a0 r a1 t1 a2, perf_counter ag a = (t0, a0) -> agent_step ag ts a0 = (r, a1) ->
    perf_counter ag a1 = (t1, a2) -> t0 <= t1) ->
  (timeout <= d * Z.of_nat fuel)%Z -> I e ->
  (video = true -> (forall e, I e -> I (ee_add_observer en w e)) /\ (forall e, I e -> exists v, ee_video en e = Ok v)) ->
  exists rs vs a' e', eval_seeds ag en fuel timeout video suite (agent_set_eval_mode ag a)
    (if video then ee_add_observer en w e else e) = (Ok rs, vs, a', e') /\ map er_seed rs = suite.
Proof.
  intros A E F V ag en I actions d fuel timeout video w suite a e H1 H2 H3 H4 H5 H7 Ie Hv.
  destruct (seeds_return ag en I actions d H1 H2 H3 H4 H5 fuel timeout video suite H7) with
    (a := agent_set_eval_mode ag a) (e := if video then ee_add_observer en w e else e) as (rs & vs & a' & e' & Es & _).
  - intros K. apply Hv, K.
  - destruct video; [apply Hv|]; auto.
  - exists rs, vs, a', e'. split; auto.
    assert (K : evaluate ag (mkeval_env (ee_env en) (ee_seed en) (ee_elapsed en) (ee_add_observer en) (fun _ e => (Ok tt, e)) (ee_video en))
      fuel timeout video w suite a e = (Ok rs, vs, a', e')).
    { unfold evaluate. cbn [ee_add_observer ee_remove_observer]. revert Es. set (e0 := if video then _ else _).
      assert (Same : forall l a0 x, eval_seeds ag (mkeval_env (ee_env en) (ee_seed en) (ee_elapsed en) (ee_add_observer en) (fun _ e => (Ok tt, e)) (ee_video en))
         fuel timeout video l a0 x = eval_seeds ag en fuel timeout video l a0 x) by reflexivity.
      rewrite Same. intros ->. destruct video; reflexivity. }
    eapply evaluate_in_order. exact K.
Qed.
Print Assumptions evaluation_ends.

(** and may not end otherwise: an environment in which no time passes and no
    episode ends *)
Theorem evaluation_may_not_end : exists (ag : agent unit unit) (en : eval_env unit unit unit),
  (forall act e, exists ts e', e_step (ee_env en) act e = (Ok ts, e')) /\
  (forall ts a, exists act a', agent_step ag ts a = (Ok act, a')) /\
  forall fuel, evaluate ag en fuel default_timeout false 0%nat [0%Z] tt tt = (OutOfFuel, [], tt, tt).
Proof.
  pose (ag := mkagent (fun a => a) (fun _ a => (Ok [], a)) (fun a => (0, a)) : agent unit unit).
  pose (ts := mktime_step MID 0 1 tt).
  pose (en := mkeval_env (mkenvironment (fun e => (Ok ts, e)) (fun _ e => (Ok ts, e))) (fun _ e => e) (fun _ => 0%Z)
    (fun _ e => e) (fun _ e => (Ok tt, e)) (fun _ => Ok tt) : eval_env unit unit unit).
  exists ag, en. split; [intros; exists ts, e; reflexivity|]. split; [intros; exists [], a; reflexivity|].
  intros fuel. unfold evaluate, eval_seeds, eval_seed. cbn [ee_env en e_reset agent_set_eval_mode ag ee_seed ee_elapsed].
  fold ag. fold en.
  assert (L : forall f m, spent m = 0%Z -> eval_loop ag en f default_timeout ts m tt tt = (OutOfFuel, tt, tt)).
  { assert (D : (0 <? default_timeout)%Z = true).
    { unfold default_timeout. apply Z.ltb_lt. apply Z.lt_le_trans with (td_seconds 1); [|apply td_mono; lra].
      unfold td_seconds. rewrite Rmult_1_l. rewrite rhe_IZR. lia. }
    induction f as [|f IH]; intros m Hm; cbn [eval_loop]; fold (spent m); rewrite Hm, D; cbn [negb]; auto.
    cbn [perf_counter agent_step ag]. fold ag. cbn [ee_env en e_step]. fold en. cbn [is_last ts ts_type]. fold ts. apply IH.
    unfold spent in *. cbn [me_agent_elapsed me_environment_elapsed ee_elapsed en].
    replace (td_seconds (0 - 0)) with 0%Z; [unfold timedelta in *; lia|]. rewrite Rminus_0_r. symmetry. apply td_0. }
  rewrite L by reflexivity. reflexivity.
Qed.
Print Assumptions evaluation_may_not_end.

(** ** C46: the timeout *)
Theorem timeout_respected : forall {A E F V} (ag : agent A F) (en : eval_env E F V) timeout seed a e start h ts a' e',
  attempt ag en timeout seed a e start h ts a' e' ->
  (forall h1 x h2, h = h1 ++ x :: h2 -> (time_spent start h1 < timeout)%Z) /\
  (forall h1 x, h = h1 ++ [x] -> (time_spent start h < timeout + (td_seconds (x_agent_seconds x) + x_elapsed x))%Z) /\
  ((timeout <= start)%Z -> h = []) /\
  ((start < timeout)%Z -> h <> []) /\
  ((forall h1 x, h = h1 ++ [x] -> ts_type (x_result x) <> LAST) -> (timeout <= time_spent start h)%Z).
Proof.
  intros A E F V ag en timeout seed a e start h ts a' e' (ts0 & e1 & Er & -> & Ex & Pp & N).
  split; [|split; [|split; [|split]]].
  - intros h1 x h2 Eh. apply (Pp h1 x h2 Eh).
  - intros h1 x Eh. destruct (Pp h1 x [] Eh) as (_ & L). rewrite Eh. unfold time_spent in *. rewrite map_app, zsum_app.
    unfold zsum at 2; cbn [map fold_right]. unfold timedelta in *. lia.
  - intros Lt. destruct h as [|x h]; auto. destruct (Pp [] x h eq_refl) as (_ & K). unfold time_spent, zsum in K. cbn in K.
    unfold timedelta in *. lia.
  - intros Lt ->. apply N. apply goes_on_nil. exact Lt.
  - intros Nl. destruct (Z_lt_le_dec (time_spent (ee_elapsed en e1) h) timeout) as [K|K]; auto.
    exfalso. apply N. split; auto.
Qed.
Print Assumptions timeout_respected.

(** in terms of the results *)
Theorem late_reset_means_no_action : forall {A E F V} (ag : agent A F) (en : eval_env E F V) fuel timeout seed a e r a' e' ts0 e1,
  eval_seed ag en fuel timeout seed a e = (Ok r, a', e') ->
  e_reset (ee_env en) (ee_seed en seed e) = (Ok ts0, e1) -> (timeout <= ee_elapsed en e1)%Z ->
  er_num_actions_taken r = 0%nat /\ er_total_reward r = 0 /\ a' = a /\ e' = e1.
Proof.
  intros A E F V ag en fuel timeout seed a e r a' e' ts0 e1 H Er Lt.
  apply seed_Ok in H as (start & h & ts & At & Lh & (_ & En & Ew & _)).
  pose proof At as (ts1 & e2 & Er' & -> & Ex & _). rewrite Er in Er'. injection Er' as <- <-.
  destruct (timeout_respected _ _ _ _ _ _ _ _ _ _ _ At) as (_ & _ & K & _). specialize (K Lt). subst h.
  inversion Ex; subst. rewrite En, Ew. repeat split; auto.
Qed.
Print Assumptions late_reset_means_no_action.

(** ** C47: aggregation *)
Theorem aggregation_raises_on_nothing : forall l x, aggregate_results l = Raise x <-> l = [] /\ x = ZeroDivisionError.
Proof.
  intros l x. split.
  - destruct l as [|r l]; [intros K; injection K as <-; auto|]. rewrite aggregate_eq by discriminate. discriminate.
  - intros (-> & ->). reflexivity.
Qed.
Print Assumptions aggregation_raises_on_nothing.

Theorem aggregation_averages : forall l g, aggregate_results l = Ok g <->
  l <> [] /\
  ag_times_reached_goal g = INR (length (successes l)) / INR (length l) /\
  ag_num_actions_taken g = average (map (fun r => INR (er_num_actions_taken r)) (successes l)) /\
  ag_total_reward g = average (map er_total_reward (successes l)) /\
  (forall xs, map er_agent_seconds_to_goal (successes l) = map Some xs -> ag_agent_seconds_to_goal g = Some (average xs)) /\
  (In nan (map er_agent_seconds_to_goal (successes l)) -> ag_agent_seconds_to_goal g = nan) /\
  (forall xs, map er_environment_seconds_to_goal (successes l) = map Some xs -> ag_environment_seconds_to_goal g = Some (average xs)) /\
  (In nan (map er_environment_seconds_to_goal (successes l)) -> ag_environment_seconds_to_goal g = nan).
Proof.
  assert (Split : forall l : list nan_float, (exists xs, l = map Some xs) \/ In nan l).
  { induction l as [|[x|] l [(xs & ->)|IH]]; [left; exists []; auto|left; exists (x :: xs); auto| | |]; right; simpl; auto. }
  assert (Num : forall (l : list eval_result) f xs, map f l = map Some xs ->
    nan_div (nan_sum (map f l)) (INR (Nat.max (length l) 1)) = Some (average xs)).
  { intros l f xs K. rewrite K, nan_sum_numbers, average_den. cbn [nan_div option_map].
    rewrite <- (map_length f l), K, map_length. reflexivity. }
  assert (Not : forall (l : list eval_result) f y, In nan (map f l) -> nan_div (nan_sum (map f l)) y = nan).
  { intros l f y K. rewrite nan_sum_nan by exact K. reflexivity. }
  intros l g. split.
  - intros H. destruct l as [|r l]; [discriminate|]. rewrite aggregate_eq in H by discriminate. injection H as <-.
    cbn [ag_times_reached_goal ag_num_actions_taken ag_total_reward ag_agent_seconds_to_goal ag_environment_seconds_to_goal].
    split; [discriminate|]. repeat (split; [reflexivity|]). auto.
  - destruct g as [g1 g2 g3 g4 g5].
    cbn [ag_times_reached_goal ag_num_actions_taken ag_total_reward ag_agent_seconds_to_goal ag_environment_seconds_to_goal].
    intros (N & -> & -> & -> & A1 & A2 & E1 & E2). rewrite aggregate_eq by exact N. do 2 f_equal.
    + destruct (Split (map er_agent_seconds_to_goal (successes l))) as [(xs & K)|K]; [rewrite (A1 xs K); auto|rewrite A2; auto].
    + destruct (Split (map er_environment_seconds_to_goal (successes l))) as [(xs & K)|K]; [rewrite (E1 xs K); auto|rewrite E2; auto].
Qed.
Print Assumptions aggregation_averages.

(** the average of the total time is the total of the average times *)
Theorem aggregation_of_times : forall l g xs, aggregate_results l = Ok g ->
  map er_seconds_to_goal (successes l) = map Some xs -> ag_seconds_to_goal g = Some (average xs).
Proof.
  intros l g xs H K. apply aggregation_averages in H as (_ & _ & _ & _ & A1 & _ & E1 & _).
  assert (Q : exists ys zs, map er_agent_seconds_to_goal (successes l) = map Some ys /\
    map er_environment_seconds_to_goal (successes l) = map Some zs /\ rsum xs = rsum ys + rsum zs /\ length ys = length xs /\ length zs = length xs).
  { clear - K. revert xs K. induction (successes l) as [|r rs IH]; intros [|x xs] K; try discriminate.
    - exists [], []. unfold rsum; simpl. repeat split; auto. ring.
    - injection K as Kr K. destruct (IH xs K) as (ys & zs & Y & Z & Su & L1 & L2). unfold er_seconds_to_goal in Kr.
      destruct (er_agent_seconds_to_goal r) as [y|] eqn:Ey; [|discriminate].
      destruct (er_environment_seconds_to_goal r) as [z|] eqn:Ez; [|discriminate]. injection Kr as <-.
      exists (y :: ys), (z :: zs). cbn [map]. rewrite Y, Z, Ey, Ez. unfold rsum in *; cbn [fold_right length]. repeat split; auto. lra. }
  destruct Q as (ys & zs & Y & Z & Su & L1 & L2). unfold ag_seconds_to_goal. rewrite (A1 ys Y), (E1 zs Z). cbn [nan_add].
  f_equal. rewrite !average_den, L1, L2, Su. lra.
Qed.
Print Assumptions aggregation_of_times.

Lemma successes_permuted l l' : Permutation l l' -> Permutation (successes l) (successes l').
Proof.
  unfold successes. induction 1 as [|x l l' P IH|x y l|l l1 l2 P1 IH1 P2 IH2]; simpl; auto.
  - destruct (er_reached_goal x); auto.
  - destruct (er_reached_goal x), (er_reached_goal y); auto. apply perm_swap.
  - eapply perm_trans; eauto.
Qed.
Lemma rsum_permuted l l' : Permutation l l' -> rsum l = rsum l'.
Proof. unfold rsum. induction 1; simpl; try lra. Qed.
Lemma average_permuted l l' : Permutation l l' -> average l = average l'.
Proof. intros P. rewrite !average_den, (rsum_permuted _ _ P), (Permutation_length P). reflexivity. Qed.
Lemma nan_sum_permuted l l' : Permutation l l' -> nan_sum l = nan_sum l'.
Proof.
  unfold nan_sum. induction 1 as [|x l l' P IH|x y l|l l1 l2 P1 IH1 P2 IH2]; simpl; auto; try congruence.
  rewrite !nan_add_assoc, (nan_add_comm y x). reflexivity.
Qed.

Theorem aggregation_ignores_order : forall l l', Permutation l l' -> aggregate_results l = aggregate_results l'.
Proof.
  intros l l' P. destruct l as [|r l].
  - apply Permutation_nil in P. subst. reflexivity.
  - assert (N : l' <> []) by (intros ->; apply Permutation_sym, Permutation_nil in P; discriminate).
    rewrite !aggregate_eq by (auto; discriminate). pose proof (successes_permuted _ _ P) as Q.
    rewrite (Permutation_length P), (Permutation_length Q).
    rewrite (average_permuted _ _ (Permutation_map (fun r => INR (er_num_actions_taken r)) Q)).
    rewrite (average_permuted _ _ (Permutation_map er_total_reward Q)).
    rewrite (nan_sum_permuted _ _ (Permutation_map er_agent_seconds_to_goal Q)).
    rewrite (nan_sum_permuted _ _ (Permutation_map er_environment_seconds_to_goal Q)). reflexivity.
Qed.
Print Assumptions aggregation_ignores_order.

Theorem aggregation_ignores_failures : forall l l', successes l = successes l' -> length l = length l' ->
  aggregate_results l = aggregate_results l'.
Proof.
  intros l l' Es El. destruct l as [|r l], l' as [|r' l']; try discriminate; [reflexivity|].
  rewrite !aggregate_eq by discriminate. rewrite Es, El. reflexivity.
Qed.
Print Assumptions aggregation_ignores_failures.

(** results of an evaluation never average to NaN *)
Theorem evaluated_averages_are_numbers : forall {A E F V} (ag : agent A F) (en : eval_env E F V) fuel timeout video w suite a e rs vs a' e',
  evaluate ag en fuel timeout video w suite a e = (Ok rs, vs, a', e') -> suite <> [] ->
  exists g t, aggregate_results rs = Ok g /\ ag_seconds_to_goal g = Some t /\
    ag_times_reached_goal g = INR (length (successes rs)) / INR (length suite).
Proof.
  intros A E F V ag en fuel timeout video w suite a e rs vs a' e' H N.
  destruct (evaluate_in_order _ _ _ _ _ _ _ _ _ _ _ _ _ H) as (Es & _).
  assert (Nr : rs <> []) by (intros ->; apply N; rewrite <- Es; reflexivity).
  destruct (aggregate_results rs) as [g|x|] eqn:Eg.
  - assert (Q : exists xs, map er_seconds_to_goal (successes rs) = map Some xs).
    { assert (Al : forall r, In r (successes rs) -> er_seconds_to_goal r <> nan).
      { intros r Hr. unfold successes in Hr. apply filter_In in Hr as (Ir & Gr).
        destruct (evaluate_faithful _ _ _ _ _ _ _ _ _ _ _ _ _ r H Ir) as (? & ? & ? & ? & ? & ? & ? & _ & _ & _ & _ & _ & _ & _ & K).
        rewrite (K Gr). discriminate. }
      clear - Al. induction (successes rs) as [|r l IH]; [exists []; auto|].
      destruct IH as (xs & K); [intros r' Hr; apply Al; right; auto|].
      destruct (er_seconds_to_goal r) as [x|] eqn:Ex; [|exfalso; apply (Al r); [left|]; auto].
      exists (x :: xs). cbn [map]. rewrite Ex, K. reflexivity. }
    destruct Q as (xs & Q). exists g, (average xs). split; auto. split; [eapply aggregation_of_times; eauto|].
    apply aggregation_averages in Eg as (_ & -> & _). rewrite <- Es, map_length. reflexivity.
  - apply aggregation_raises_on_nothing in Eg as (K & _). congruence.
  - rewrite aggregate_eq in Eg by exact Nr. discriminate.
Qed.
Print Assumptions evaluated_averages_are_numbers.

(** the shipped suites: 0, 1, 2, ... *)
Theorem shipped_suites : forall n i, nth_error (range n) i = (if (i <? n)%nat then Some (Z.of_nat i) else None).
Proof.
  intros n i. unfold range. destruct (Nat.ltb_spec i n) as [L|L].
  - rewrite nth_error_map. rewrite (nth_error_nth' _ 0%nat) by (rewrite seq_length; auto). rewrite seq_nth by auto. reflexivity.
  - apply nth_error_None. rewrite map_length, seq_length. auto.
Qed.
Print Assumptions shipped_suites.
Theorem shipped_suite_sizes : length tiny_eval = 10%nat /\ length small_eval = 100%nat /\ length medium_eval = 1000%nat /\
  Z.of_nat (length big_eval) = 10000%Z.
Proof.
  unfold tiny_eval, small_eval, medium_eval, big_eval, range. rewrite !map_length, !seq_length. repeat split; auto.
Qed.
Print Assumptions shipped_suite_sizes.

(** ** C48: observers *)
Section Dune.
Context {G St F V : Type}.
Variable s : sampler G.
Variable render : @renderer G.
Variable adapter : action_adapter G St.
Variable features : feature_constructor goal_state F.
Variable goal_m : goal_methods G goal_state.
Variable fuel : nat.
Variable movie : list sim_event -> pt -> res V.
Variable watcher : observer.
Notation dune := (dune_eval_env s render adapter features goal_m fuel movie watcher).
Definition registered (w : watched) : list observer := sim_observers (env_sim (@w_env G St w)).

Lemma dune_seeds_keep {A} (ag : agent A F) n timeout video suite a w :
  registered (snd (eval_seeds ag dune n timeout video suite a w)) = registered w.
Proof.
  apply (seeds_preserve ag dune (fun w' => registered w' = registered w)); auto.
  - intros e <-. cbn. unfold watch, registered. cbn. apply env_reset_observers.
  - intros act e <-. cbn. unfold watch, registered. cbn. apply env_step_observers.
Qed.

(** without videos nothing is registered; with videos the new observer is
    removed on return and stays if something raises *)
Theorem evaluate_observers : forall {A} (ag : agent A F) n timeout video suite a w r vs a' w',
  ~ In watcher (registered w) ->
  evaluate ag dune n timeout video watcher suite a w = (r, vs, a', w') ->
  ((exists rs, r = Ok rs) -> registered w' = registered w) /\
  (video = false -> registered w' = registered w) /\
  (video = true -> (forall rs, r <> Ok rs) -> registered w' = registered w ++ [watcher]).
Proof.
  intros A ag n timeout video suite a w r vs a' w' Fresh. unfold evaluate.
  set (w1 := if video then _ else w).
  assert (R1 : registered w1 = if video then registered w ++ [watcher] else registered w) by (unfold w1; destruct video; reflexivity).
  pose proof (dune_seeds_keep ag n timeout video suite (agent_set_eval_mode ag a) w1) as K.
  destruct (eval_seeds _ _ _ _ _ _ _ _) as [[[r1 vs1] a1] w2]. cbn [snd] in K. rewrite R1 in K. clearbody w1.
  destruct r1 as [rs|x|].
  - destruct video.
    + cbn [dune_eval_env ee_remove_observer]. intros Q.
      destruct (add_and_remove_counts watcher (env_sim (w_env w2)) (env_rng (w_env w2))) as (_ & Rm).
      assert (I : In watcher (sim_observers (env_sim (w_env w2)))) by (change (In watcher (registered w2)); rewrite K; apply in_or_app; right; left; auto).
      destruct (Rm I) as (Er & l1 & l2 & E1 & N1 & E2). rewrite Er in Q. cbn [fmap_res] in Q.
      assert (Er' : r = Ok rs) by (apply (f_equal (fun x => fst (fst (fst x)))) in Q; symmetry; exact Q). assert (Ew' : w' = mkwatched (with_sim (w_env w2) (out_sim (remove_observer watcher (env_sim (w_env w2)) (env_rng (w_env w2))))) (w_events w2)) by (apply (f_equal snd) in Q; symmetry; exact Q). clear Q. subst r w'.
      assert (E3 : registered w = l1 ++ l2).
      { change (sim_observers (env_sim (w_env w2))) with (registered w2) in E1. rewrite K in E1.
        clear - E1 Fresh N1. revert l1 E1 N1. generalize (registered w) Fresh. clear Fresh.
        induction l as [|x l IH]; intros Fr [|y l1] E1 N1; cbn [app] in *.
        - injection E1 as <-. reflexivity.
        - injection E1 as <- E1. destruct l1; discriminate.
        - injection E1 as -> E1. exfalso. apply Fr. left; auto.
        - injection E1 as -> E1. f_equal. apply IH; auto; [intros I; apply Fr; right; auto|intros I; apply N1; right; auto]. }
      change (sim_observers (out_sim (remove_observer watcher (env_sim (w_env w2)) (env_rng (w_env w2))))) with
        (registered (mkwatched (with_sim (w_env w2) (out_sim (remove_observer watcher (env_sim (w_env w2)) (env_rng (w_env w2))))) (w_events w2))) in E2.
      cbn [sl_env]. rewrite E2, <- E3. split; [auto|]. split; [auto|]. intros _ N. exfalso. apply (N rs). reflexivity.
    + intros Q. injection Q as <- <- <- <-. split; [auto|]. split; auto. discriminate.
  - intros Q. injection Q as <- <- <- <-. split; [intros (rs & Q); discriminate|]. split; [intros ->; exact K|]. intros -> _. exact K.
  - intros Q. injection Q as <- <- <- <-. split; [intros (rs & Q); discriminate|]. split; [intros ->; exact K|]. intros -> _. exact K.
Qed.

(** also behind the step limit *)
Theorem evaluate_observers_limited : forall {A} (ag : agent A F) n timeout video suite a w r vs a' w',
  ~ In watcher (registered (sl_env w)) ->
  evaluate ag (limited_eval_env dune) n timeout video watcher suite a w = (r, vs, a', w') ->
  ((exists rs, r = Ok rs) -> registered (sl_env w') = registered (sl_env w)) /\
  (video = false -> registered (sl_env w') = registered (sl_env w)) /\
  (video = true -> (forall rs, r <> Ok rs) -> registered (sl_env w') = registered (sl_env w) ++ [watcher]).
Proof.
  intros A ag n timeout video suite a w r vs a' w' Fresh. unfold evaluate.
  set (w1 := if video then _ else w).
  assert (R1 : registered (sl_env w1) = if video then registered (sl_env w) ++ [watcher] else registered (sl_env w)) by (unfold w1; destruct video; reflexivity).
  assert (K : registered (sl_env (snd (eval_seeds ag (limited_eval_env dune) n timeout video suite (agent_set_eval_mode ag a) w1))) = registered (sl_env w1)).
  { apply (seeds_preserve ag (limited_eval_env dune) (fun w' => registered (sl_env w') = registered (sl_env w1))); auto.
    - intros e <-. cbn [limited_eval_env ee_env limited_environment e_reset]. unfold sl_reset.
      cbn [dune_eval_env ee_env e_reset]. unfold watch. cbn. apply env_reset_observers.
    - intros act e <-. cbn [limited_eval_env ee_env limited_environment e_step]. unfold sl_step.
      cbn [dune_eval_env ee_env e_step e_reset]. unfold watch.
      pose proof (env_step_observers s render adapter features goal_m fuel act (w_env (sl_env e))) as Q.
      pose proof (env_reset_observers s render adapter features goal_m (w_env (sl_env e))) as Q'.
      destruct (sl_elapsed e =? -1)%Z; destruct (eo_result _) as [ts|x|]; try exact Q; try exact Q';
        destruct (ts_type ts); try exact Q; try exact Q';
        destruct (sl_limit e) as [k|]; try exact Q; try exact Q'; destruct (k <=? _)%Z; try exact Q; exact Q'. }
  destruct (eval_seeds _ _ _ _ _ _ _ _) as [[[r1 vs1] a1] w2]. cbn [snd] in K. rewrite R1 in K. clearbody w1.
  destruct r1 as [rs|x|].
  - destruct video.
    + cbn [limited_eval_env dune_eval_env ee_remove_observer]. intros Q.
      destruct (add_and_remove_counts watcher (env_sim (w_env (sl_env w2))) (env_rng (w_env (sl_env w2)))) as (_ & Rm).
      assert (I : In watcher (sim_observers (env_sim (w_env (sl_env w2))))) by (change (In watcher (registered (sl_env w2))); rewrite K; apply in_or_app; right; left; auto).
      destruct (Rm I) as (Er & l1 & l2 & E1 & N1 & E2). rewrite Er in Q. cbn [fmap_res] in Q.
      assert (Er' : r = Ok rs) by (apply (f_equal (fun x => fst (fst (fst x)))) in Q; symmetry; exact Q). assert (Ew' : w' = mklimited (sl_limit w2) (sl_elapsed w2) (mkwatched (with_sim (w_env (sl_env w2)) (out_sim (remove_observer watcher (env_sim (w_env (sl_env w2))) (env_rng (w_env (sl_env w2)))))) (w_events (sl_env w2)))) by (apply (f_equal snd) in Q; symmetry; exact Q). clear Q. subst r w'.
      assert (E3 : registered (sl_env w) = l1 ++ l2).
      { change (sim_observers (env_sim (w_env (sl_env w2)))) with (registered (sl_env w2)) in E1. rewrite K in E1.
        clear - E1 Fresh N1. revert l1 E1 N1. generalize (registered (sl_env w)) Fresh. clear Fresh.
        induction l as [|x l IH]; intros Fr [|y l1] E1 N1; cbn [app] in *.
        - injection E1 as <-. reflexivity.
        - injection E1 as <- E1. destruct l1; discriminate.
        - injection E1 as -> E1. exfalso. apply Fr. left; auto.
        - injection E1 as -> E1. f_equal. apply IH; auto; [intros I; apply Fr; right; auto|intros I; apply N1; right; auto]. }
      change (sim_observers (out_sim (remove_observer watcher (env_sim (w_env (sl_env w2))) (env_rng (w_env (sl_env w2)))))) with
        (registered (mkwatched (with_sim (w_env (sl_env w2)) (out_sim (remove_observer watcher (env_sim (w_env (sl_env w2))) (env_rng (w_env (sl_env w2)))))) (w_events (sl_env w2)))) in E2.
      cbn [sl_env]. rewrite E2, <- E3. split; [auto|]. split; [auto|]. intros _ N. exfalso. apply (N rs). reflexivity.
    + intros Q. injection Q as <- <- <- <-. split; [auto|]. split; auto. discriminate.
  - intros Q. injection Q as <- <- <- <-. split; [intros (rs & Q); discriminate|]. split; [intros ->; exact K|]. intros -> _. exact K.
  - intros Q. injection Q as <- <- <- <-. split; [intros (rs & Q); discriminate|]. split; [intros ->; exact K|]. intros -> _. exact K.
Qed.
End Dune.
Print Assumptions evaluate_observers.
Print Assumptions evaluate_observers_limited.

(** ** C81: evaluations of the shipped stack *)
Section Stack.
Context {G St F V A : Type}.
Variable s : sampler G.
Variable render : @renderer G.
Variable adapter : action_adapter G St.
Variable features : feature_constructor goal_state F.
Variable fuel : nat.
Variable movie : list sim_event -> pt -> res V.
Variable watcher : observer.
Notation goal := (single_silicon_goal s).
Notation dune := (dune_eval_env s render adapter features goal fuel movie watcher).
Notation alive rf cols d := (fun w : watched => lives s render adapter features goal fuel rf cols d (w_env w)).

Lemma alive_add rf cols d o w : lives s render adapter features goal fuel rf cols d (w_env w) ->
  lives s render adapter features goal fuel rf cols d (w_env (ee_add_observer dune o w)).
Proof.
  intros (st & gl & g & ga & L). exists st, gl, g, ga. cbn [dune_eval_env ee_add_observer w_env with_sim].
  exact (lived_observers s render adapter features goal fuel _ (AddObserver o) o (w_env w) L (or_introl eq_refl)).
Qed.

Lemma reset_elapsed rf cols d e : sampler_ok s -> (2 <= cols)%nat -> hopping rf ->
  lives s render adapter features goal fuel rf cols d e ->
  forall ts, eo_result (env_reset s render adapter features goal e) = Ok ts ->
  o_elapsed (env_last_observation (eo_env (env_reset s render adapter features goal e))) = d.
Proof.
  intros O C H L ts E. destruct (lives_inv s render adapter features _ fuel rf cols d O C H e L) as [I1 _ _].
  destruct (env_reset s render adapter features goal e) as [r e' tr] eqn:Er. cbn [eo_result eo_env] in *. subst r.
  apply reset_returns in Er as (obs & st & ga & g1 & gl & g2 & x & o & -> & Eo & _ & _ & _ & _ & -> & _). cbn [env_last_observation].
  eapply sim_reset_pictures in Eo as (ps & gr & si & a & _ & _ & _ & _ & Ed & _); eauto.
Qed.

Lemma step_elapsed rf cols d e act : sampler_ok s -> (2 <= cols)%nat -> hopping rf -> (0 <= d)%Z -> never_negative adapter ->
  lives s render adapter features goal fuel rf cols d e ->
  forall ts, eo_result (env_step s render adapter features goal fuel act e) = Ok ts ->
  (d <= o_elapsed (env_last_observation (eo_env (env_step s render adapter features goal fuel act e))))%Z.
Proof.
  intros O C H D NN L ts E. destruct (env_requires_reset e) eqn:Ef.
  { rewrite step_auto in * by auto. rewrite (reset_elapsed rf cols d e O C H L ts E). lia. }
  destruct (lives_inv s render adapter features _ fuel rf cols d O C H e L) as [I1 (si0 & W0 & _) _].
  destruct (env_step s render adapter features goal fuel act e) as [r e' tr] eqn:Es. cbn [eo_result eo_env] in *. subst r.
  apply step_returns in Es as (cs & st & obs & x & ret & gl & o & Ea & -> & Eo & _ & _ & _ & -> & _); auto. cbn [env_last_observation].
  pose proof (zsum_nonneg cs (NN _ _ _ _ _ W0 Ea)) as Zn.
  eapply sim_step_pictures in Eo as (ps & gr & si & a & _ & _ & _ & _ & Et & _); eauto. lia.
Qed.

(** the stack evaluates every agent that does not raise and whose clock does
    not run backwards, with one result per seed *)
Theorem stack_evaluates : forall (ag : agent A F) actions rf cols d n timeout video suite a w,
  sampler_ok s -> (forall sc g, / 2000000 < fst (s_exponential s sc g)) ->
  (3 <= cols)%nat -> steady rf cols -> describes features -> accepts adapter fuel actions -> never_negative adapter ->
  (fc_requires_image features = true -> forall og f prm g, exists i g', render og f prm g = (Ok i, g')) ->
  (0 <= d)%Z -> (timeout <= d * Z.of_nat n)%Z ->
  lives s render adapter features goal fuel rf cols d (w_env w) ->
  ~ In watcher (registered w) ->
  (video = true -> forall l p, exists v, movie l p = Ok v) ->
  (forall ts a, exists act a', agent_step ag ts a = (Ok act, a') /\ actions act) ->
  (forall ts a t0 a0 r a1 t1 a2, perf_counter ag a = (t0, a0) -> agent_step ag ts a0 = (r, a1) ->
    perf_counter ag a1 = (t1, a2) -> t0 <= t1) ->
  exists rs vs a' w', evaluate ag dune n timeout video watcher suite a w = (Ok rs, vs, a', w') /\
    map er_seed rs = suite /\ map fst vs = (if video then suite else []) /\
    Forall (fun r => d * (Z.of_nat (er_num_actions_taken r) - 1) < timeout - d \/ er_num_actions_taken r = 0%nat)%Z rs.
Proof.
  intros ag actions rf cols d n timeout video suite a w O X C H Ds Ac NN Rn D T L Fresh Mv Act Clk.
  assert (C2 : (2 <= cols)%nat) by lia.
  assert (Ireset : forall e : watched, alive rf cols d e -> exists ts e', e_reset (ee_env dune) e = (Ok ts, e') /\
     alive rf cols d e' /\ (0 <= ee_elapsed dune e')%Z /\ ee_elapsed dune e' = d).
  { intros e Le. destruct (stack_reset s render adapter features fuel rf cols d (w_env e) O C (proj1 H) Ds Rn Le) as (ts & Er).
    exists ts. eexists. cbn [dune_eval_env ee_env e_reset]. unfold watch. rewrite Er. split; [reflexivity|].
    cbn [dune_eval_env w_env ee_elapsed]. rewrite (reset_elapsed rf cols d (w_env e) O C2 (proj1 H) Le ts Er). split; [|split; [exact D|reflexivity]].
    destruct Le as (st & gl & g & ga & Le). exists st, gl, g, ga. apply lived_reset. exact Le. }
  assert (Istep : forall act (e : watched), alive rf cols d e -> actions act ->
     exists ts e', e_step (ee_env dune) act e = (Ok ts, e') /\ alive rf cols d e' /\ (d <= ee_elapsed dune e')%Z).
  { intros act e Le Ha. destruct (stack_step s render adapter features fuel actions rf cols d (w_env e) act O X C H Ds Ac Rn Le Ha) as (ts & Er).
    exists ts. eexists. cbn [dune_eval_env ee_env e_step]. unfold watch. rewrite Er. split; [reflexivity|].
    cbn [dune_eval_env w_env ee_elapsed]. split; [|apply (step_elapsed rf cols d (w_env e) act O C2 (proj1 H) D NN Le ts Er)].
    destruct Le as (st & gl & g & ga & Le). exists st, gl, g, ga. apply lived_step. exact Le. }
  assert (Iseed : forall z (e : watched), alive rf cols d e -> alive rf cols d (ee_seed dune z e)).
  { intros z e (st & gl & g & ga & Le). exists st, gl, g, ga. apply lived_seed. exact Le. }
  assert (Ex : exists rs vs a' w', evaluate ag dune n timeout video watcher suite a w = (Ok rs, vs, a', w')).
  { destruct (evaluation_ends ag dune (alive rf cols d) actions d n timeout video watcher suite a w) as (rs & vs & a' & w' & Es & _); auto.
    - intros e Le. destruct (Ireset e Le) as (ts & e' & K1 & K2 & K3 & _). eauto.
    - intros V1. split; [intros; apply alive_add; auto|]. intros e _. apply Mv, V1.
    - unfold evaluate. rewrite Es. destruct video; [|eauto 10].
      pose proof (dune_seeds_keep s render adapter features goal fuel movie watcher ag n timeout true suite (agent_set_eval_mode ag a)
        (ee_add_observer dune watcher w)) as K. rewrite Es in K. cbn [snd] in K.
      destruct (add_and_remove_counts watcher (env_sim (w_env w')) (env_rng (w_env w'))) as (_ & Rm).
      assert (Iw : In watcher (sim_observers (env_sim (w_env w')))).
      { change (In watcher (registered w')). rewrite K. unfold registered. cbn. apply in_or_app. right. left. reflexivity. }
      destruct (Rm Iw) as (Er & _).
      cbn [dune_eval_env ee_remove_observer]. rewrite Er. cbn [fmap_res]. do 4 eexists. reflexivity. }
  destruct Ex as (rs & vs & a' & w' & Ex). exists rs, vs, a', w'. split; auto.
  destruct (evaluate_in_order _ _ _ _ _ _ _ _ _ _ _ _ _ Ex) as (K1 & K2). split; auto. split; auto.
  apply Forall_forall. intros r Hr.
  assert (Mem : exists a0 e0 a1 e1, alive rf cols d e0 /\ eval_seed ag dune n timeout (er_seed r) a0 e0 = (Ok r, a1, e1)).
  { unfold evaluate in Ex. destruct (eval_seeds _ _ _ _ _ _ _ _) as [[[r1 vs1] a1] w1] eqn:Es.
    destruct r1 as [rs1|x|]; try discriminate.
    assert (rs1 = rs).
    { destruct video; [destruct (ee_remove_observer _ _ _) as [[[]|?|] ?]; cbn [fmap_res] in Ex|];
        try discriminate Ex; apply (f_equal (fun x => fst (fst (fst x)))) in Ex; injection Ex; auto. } subst rs1.
    assert (Pr : forall e, alive rf cols d e -> alive rf cols d (snd (e_reset (ee_env dune) e))).
    { intros e Le. destruct (Ireset e Le) as (ts & e' & -> & K & _). exact K. }
    assert (Ps : forall act (e : watched), alive rf cols d e -> alive rf cols d (snd (e_step (ee_env dune) act e))).
    { intros act e (st & gl & g & ga & Le). exists st, gl, g, ga. cbn. apply lived_step. exact Le. }
    refine (seeds_members ag dune (alive rf cols d) Iseed Pr Ps n timeout video suite _ _ _ _ _ _ r _ Es Hr).
    destruct video; [apply alive_add|]; auto. }
  destruct Mem as (a0 & e0 & a1 & e1 & Le & Es).
  apply seed_Ok in Es as (start & h & ts & At & Lh & (_ & -> & _)).
  pose proof (timeout_respected _ _ _ _ _ _ _ _ _ _ _ At) as (Tp & _).
  destruct h as [|y h]; [right; reflexivity|left].
  destruct (exists_last (l := y :: h)) as (h1 & x & Eh); [discriminate|]. rewrite Eh in *.
  specialize (Tp h1 x [] eq_refl). rewrite app_length; cbn [length].
  destruct At as (ts0 & e2 & Er & -> & Exs & _).
  destruct (Ireset (ee_seed dune (er_seed r) e0) (Iseed _ _ Le)) as (ts1 & e3 & Er' & L3 & _ & Ed). rewrite Er in Er'. injection Er' as <- <-.
  assert (Nn : forall hh ts0 a e, alive rf cols d e -> forall ts1 a2 e4, exchanges ag dune ts0 a e hh ts1 a2 e4 ->
     Forall (fun x => d <= td_seconds (x_agent_seconds x) + x_elapsed x)%Z hh).
  { clear - Istep Act Clk. induction hh as [|z hh IH]; intros ts0 a e Le ts1 a2 e4 Ex; [constructor|].
    inversion Ex as [|? ? ? t0 b0 act b1 t1 b2 ts2 e5 ? ? ? ? Q0 Q1 Q2 Q3 Q4]; subst.
    destruct (Act ts0 b0) as (act' & b1' & Q1' & Ha). rewrite Q1 in Q1'. injection Q1' as <- <-.
    destruct (Istep act e Le Ha) as (ts3 & e6 & Q3' & L6 & D6). rewrite Q3 in Q3'. injection Q3' as <- <-.
    constructor; [|eapply IH; eauto]. cbn [x_agent_seconds x_elapsed].
    assert (0 <= td_seconds (t1 - t0))%Z by (apply td_nonneg; specialize (Clk _ _ _ _ _ _ _ _ Q0 Q1 Q2); lra).
    cbn [dune_eval_env ee_elapsed] in D6. unfold timedelta in *. lia. }
  pose proof (Nn _ _ _ _ L3 _ _ _ Exs) as Fa. apply Forall_app in Fa as (Fa & _).
  assert (Ge : (d * Z.of_nat (length h1) <= zsum (map (fun x : exchange F => td_seconds (x_agent_seconds x) + x_elapsed x) h1))%Z).
  { clear - Fa. induction Fa as [|z l Hz _ IH]; [unfold zsum; simpl; lia|]. unfold zsum in *. cbn [map fold_right length]. rewrite Nat2Z.inj_succ. lia. }
  unfold time_spent in Tp. rewrite Ed in Tp. unfold timedelta in *. nia.
Qed.

(** ** C82: the result of a seed does not depend on what came before *)
Theorem results_reproduce : forall (ag : agent A F) rf cols d n timeout video video' suite suite' a a' w w' rs rs' vs vs' b b' v v' r r',
  without_past ag -> unaffected adapter -> forgets adapter ->
  lives s render adapter features goal fuel rf cols d (w_env w) ->
  lives s render adapter features goal fuel rf cols d (w_env w') ->
  evaluate ag dune n timeout video watcher suite a w = (Ok rs, vs, b, v) ->
  evaluate ag dune n timeout video' watcher suite' a' w' = (Ok rs', vs', b', v') ->
  In r rs -> In r' rs' -> er_seed r = er_seed r' -> r = r'.
Proof.
  intros ag rf cols d n timeout video video' suite suite' a a' w w' rs rs' vs vs' b b' v v' r r' Wp U Fa L L' Ev Ev' Hr Hr' Es.
  assert (Mem : forall video suite a w rs vs b v r, alive rf cols d w ->
     evaluate ag dune n timeout video watcher suite a w = (Ok rs, vs, b, v) -> In r rs ->
     exists a0 e0 a1 e1, alive rf cols d e0 /\ eval_seed ag dune n timeout (er_seed r) a0 e0 = (Ok r, a1, e1)).
  { clear. intros video suite a w rs vs b v r Le Ex Hr.
    unfold evaluate in Ex. destruct (eval_seeds _ _ _ _ _ _ _ _) as [[[r1 vs1] a1] w1] eqn:Es.
    destruct r1 as [rs1|x|]; try discriminate.
    assert (rs1 = rs).
    { destruct video; [destruct (ee_remove_observer _ _ _) as [[[]|?|] ?]; cbn [fmap_res] in Ex|];
        try discriminate Ex; apply (f_equal (fun x => fst (fst (fst x)))) in Ex; injection Ex; auto. } subst rs1.
    assert (Iseed : forall z (e : watched), alive rf cols d e -> alive rf cols d (ee_seed dune z e)).
    { intros z e (st & gl & g & ga & K). exists st, gl, g, ga. apply lived_seed. exact K. }
    assert (Pr : forall e, alive rf cols d e -> alive rf cols d (snd (e_reset (ee_env dune) e))).
    { intros e (st & gl & g & ga & K). exists st, gl, g, ga. cbn. apply lived_reset. exact K. }
    assert (Ps : forall act (e : watched), alive rf cols d e -> alive rf cols d (snd (e_step (ee_env dune) act e))).
    { intros act e (st & gl & g & ga & K). exists st, gl, g, ga. cbn. apply lived_step. exact K. }
    refine (seeds_members ag dune (alive rf cols d) Iseed Pr Ps n timeout video suite _ _ _ _ _ _ r _ Es Hr).
    destruct video; [apply alive_add|]; exact Le. }
  destruct (Mem _ _ _ _ _ _ _ _ r L Ev Hr) as (a0 & e0 & a1 & e1 & L0 & E0).
  destruct (Mem _ _ _ _ _ _ _ _ r' L' Ev' Hr') as (b0 & f0 & b1 & f1 & L1 & E1). rewrite <- Es in E1.
  assert (Cfg : same_config (env_sim (w_env e0)) (env_sim (w_env f0))).
  { destruct L0 as (? & ? & ? & ? & L0), L1 as (? & ? & ? & ? & L1).
    apply lived_config in L0, L1. eapply config_trans; [apply config_sym; exact L0|]. exact L1. }
  assert (R0 : exists ts, eo_result (env_reset s render adapter features goal (env_seed s adapter (er_seed r) (w_env e0))) = Ok ts).
  { unfold eval_seed in E0. cbn [dune_eval_env ee_env e_reset ee_seed] in E0. unfold watch in E0. cbn [w_env] in E0.
    destruct (eo_result _) as [ts|x|]; try discriminate. eauto. }
  destruct R0 as (ts & R0).
  assert (Fg : forgets_goal goal).
  { apply (shipped_start_afresh G s (new_relative 0%Z 0%Z 0)). }
  destruct (seeded_reset s render adapter features goal (er_seed r) (w_env e0) (w_env f0) ts U Fa Fg Cfg R0) as (R1 & Sm).
  pose proof (seed_same ag dune (fun x y => env_same adapter (w_env x) (w_env y))) as Seed.
  assert (K : fst (fst (eval_seed ag dune n timeout (er_seed r) a0 e0)) = fst (fst (eval_seed ag dune n timeout (er_seed r) b0 f0))).
  { eapply Seed.
    - intros x y (_ & _ & _ & _ & _ & K & _). cbn [dune_eval_env ee_elapsed]. rewrite K. reflexivity.
    - intros act x y K. cbn [dune_eval_env ee_env e_step]. unfold watch. cbn [fst snd w_env].
      apply (step_same s render adapter features goal fuel act _ _ U K).
    - exact Wp.
    - cbn [dune_eval_env ee_env e_reset ee_seed]. unfold watch. cbn [w_env]. rewrite R0. reflexivity.
    - cbn [dune_eval_env ee_env e_reset ee_seed]. unfold watch. cbn [w_env]. rewrite R1. reflexivity.
    - exact Sm. }
  rewrite E0, E1 in K. cbn [fst] in K. congruence.
Qed.
End Stack.
Print Assumptions stack_evaluates.
Print Assumptions results_reproduce.

(** ** The hypotheses are met *)
Definition ex_eval fuel : eval_env watched (list R) unit :=
  dune_eval_env (ex_sampler 1) ex_draw_image ex_adapter (pristine_features knn_sort) (single_silicon_goal (ex_sampler 1)) fuel
    (fun _ _ => Ok tt) 7%nat.
(** an agent that always acts the same, on a stopped clock, and one that raises *)
Definition ex_agent {F} : agent bool F := mkagent (fun _ => true) (fun _ a => (Ok [1; 0], a)) (fun a => (0, a)).
Definition ex_bad_agent {F} : agent bool F := mkagent (fun _ => true) (fun _ a => (Raise KeyError, a)) (fun a => (0, a)).

Lemma ten_minutes : default_timeout = 600000000%Z.
Proof.
  unfold default_timeout, td_seconds. replace (10 * 60 * 1000000) with (IZR 600000000) by lra. apply rhe_IZR.
Qed.

(** ten seeds, with videos *)
Example stack_evaluates_nonvacuous : forall fuel, (1500000 <= Z.of_nat fuel)%Z -> exists rs vs a' w',
  evaluate ex_agent (ex_eval fuel) 300 default_timeout true 7%nat tiny_eval false (mkwatched ex_env []) = (Ok rs, vs, a', w') /\
  map er_seed rs = tiny_eval /\ map fst vs = tiny_eval /\ without_past (@ex_agent (list R)) /\
  unaffected ex_adapter /\ forgets ex_adapter.
Proof.
  intros fuel Hf.
  destruct (stack_evaluates (ex_sampler 1) ex_draw_image ex_adapter (pristine_features knn_sort) fuel (fun _ _ => Ok tt) 7%nat
    ex_agent (fun a => a <> [] /\ (1500000%Z <> 1500000%Z -> (3 <= length a)%nat)) ex_rf 15 2000000%Z 300 default_timeout true tiny_eval false
    (mkwatched ex_env [])) as (rs & vs & a' & w' & Ev & K1 & K2 & _).
  - apply ex_sampler_ok; lra.
  - intros; simpl; lra.
  - lia.
  - apply (shipped_rates_steady knn_sort 15); [apply knn_sort_ok|lia].
  - apply (shipped_features_describe knn_sort (fun i => i)), knn_sort_ok.
  - apply (shipped_adapters_accept nat (ex_sampler 1) 1500000%Z 1500000%Z (5 / 2) fuel); lia.
  - apply (adapters_never_negative nat (ex_sampler 1)). lia.
  - discriminate.
  - lia.
  - rewrite ten_minutes. lia.
  - apply ex_env_lives.
  - intros [].
  - intros _ l p. exists tt. reflexivity.
  - intros ts a. exists [1; 0], a. split; [reflexivity|]. split; [discriminate|lia].
  - intros ts a t0 a0 r a1 t1 a2 A0 A1 A2. cbn in A0, A2. injection A0 as <- _. injection A2 as <- _. lra.
  - exists rs, vs, a', w'. split; [exact Ev|]. split; [exact K1|]. split; [exact K2|].
    split; [|apply (shipped_start_afresh nat (ex_sampler 1) (new_relative 1500000%Z 1500000%Z (5 / 2)))].
    exists (fun _ => Ok [1; 0]), (fun _ => 0). intros ts a t0 a0 r a1 t1 a2 A0 A1 A2. cbn in A0, A1, A2.
    injection A0 as <- <-. injection A1 as <- <-. injection A2 as <- <-. split; auto. lra.
Qed.

(** an exception leaves the observer behind *)
Example evaluate_observers_nonvacuous : forall fuel, exists a' w',
  evaluate ex_bad_agent (ex_eval fuel) 300 default_timeout true 7%nat tiny_eval false (mkwatched ex_env []) = (Raise KeyError, [], a', w') /\
  ~ In 7%nat (registered (mkwatched ex_env [])) /\ registered w' = [7%nat].
Proof.
  intros fuel.
  assert (Ex : exists a' w', evaluate ex_bad_agent (ex_eval fuel) 300 default_timeout true 7%nat tiny_eval false (mkwatched ex_env []) =
    (Raise KeyError, [], a', w')).
  { set (w0 := ee_add_observer (ex_eval fuel) 7%nat (mkwatched ex_env [])).
    assert (L : lives (ex_sampler 1) ex_draw_image ex_adapter (pristine_features knn_sort) (single_silicon_goal (ex_sampler 1)) fuel ex_rf 15
      2000000%Z (env_seed (ex_sampler 1) ex_adapter 0 (w_env w0))).
    { destruct (alive_add (ex_sampler 1) ex_draw_image ex_adapter (pristine_features knn_sort) fuel (fun _ _ => Ok tt) 7%nat ex_rf 15 2000000%Z
        7%nat (mkwatched ex_env []) (ex_env_lives fuel)) as (st & gl & g & ga & L). exists st, gl, g, ga. apply lived_seed. exact L. }
    destruct (stack_reset (ex_sampler 1) ex_draw_image ex_adapter (pristine_features knn_sort) fuel ex_rf 15 2000000%Z _
      (ex_sampler_ok 1 ltac:(lra)) ltac:(lia) (pristine_hopping _ _ knn_sort_ok) (proj1 (shipped_features_describe knn_sort (fun i => i) knn_sort_ok))
      ltac:(discriminate) L) as (ts & Er).
    pose proof (reset_elapsed (ex_sampler 1) ex_draw_image ex_adapter (pristine_features knn_sort) fuel ex_rf 15 2000000%Z _
      (ex_sampler_ok 1 ltac:(lra)) ltac:(lia) (pristine_hopping _ _ knn_sort_ok) L ts Er) as Ed.
    do 2 eexists. apply evaluate_raises. left.
    exists [], 0%Z, (tl tiny_eval), [], true, w0. split; [reflexivity|]. split; [constructor|]. left. right.
    eexists ts, _, [], ts, true, _, 0, true. split.
    { cbn [ex_eval dune_eval_env ee_env e_reset ee_seed]. unfold watch. cbn [w_env]. rewrite Er. reflexivity. }
    split; [cbn [length]; lia|]. split; [constructor|]. split; [intros [|? ?] ? ? K; discriminate|]. split.
    { apply goes_on_nil. rewrite ten_minutes. cbn [ex_eval dune_eval_env ee_elapsed w_env]. rewrite Ed. lia. }
    split; [reflexivity|]. left. split; reflexivity. }
  destruct Ex as (a' & w' & Ex). exists a', w'. split; [exact Ex|]. split; [intros []|].
  destruct (evaluate_observers _ _ _ _ _ _ _ _ ex_bad_agent 300 default_timeout true tiny_eval false (mkwatched ex_env []) _ _ _ _ ltac:(intros []) Ex) as (_ & _ & K).
  rewrite K; auto. discriminate.
Qed.

(** a success in two actions and a failure in five *)
Example aggregate_nonvacuous : let l := [mkeval_result 0 true 2 (Some 1) (Some 3) (1 / 2); mkeval_result 1 false 5 nan nan 0] in
  aggregate_results l = Ok (mkaggregate (1 / 2) 2 (Some 1) (Some 3) (1 / 2)) /\ Permutation l (rev l) /\ l <> rev l.
Proof.
  cbv zeta. split; [|split; [constructor|discriminate]].
  rewrite aggregate_eq by discriminate. unfold successes, average, rsum; cbn. f_equal. f_equal; try lra; f_equal; lra.
Qed.
