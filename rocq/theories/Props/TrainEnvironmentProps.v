(** Property C130: the environments of the registered training experiments. *)
From Coq Require Import String Reals ZArith List Bool Lia Lra Arith.
From Verif Require Import Base.Prelude Base.Rounding Base.Random Model.Constants Model.Geometry Model.MicroscopeUtils
  Model.Graphene Model.Simulator Model.ActionAdapters Model.Goals Model.FeatureConstructors Model.Environment Model.Registry
  Model.TrainEnvironment
  Spec.Grids Spec.Neighbours Spec.Lattice Spec.Material Spec.MaterialRuns Spec.Simulation Spec.Acting Spec.Episodes Spec.Registry
  Proofs.BaseFacts Proofs.RoundingFacts Proofs.GeometryFacts Proofs.ExampleSampler Proofs.EnvironmentFacts
  Props.EnvironmentProps Props.AdapterProps Props.ShippedStack Props.StepLimitProps Props.RegistryProps.
Import ListNotations.
Local Open Scope list_scope.
Open Scope R_scope.

(** calls on the wrapper, none of which raises while the wrapped environment
    answers *)
Lemma limited_session {E F} (inner : environment E F) (P : E -> Prop) (ok : list R -> Prop) limit e calls :
  (forall x c, P x -> (forall a, c = CallStep a -> ok a) -> exists ts x', answer inner c x = (Ok ts, x') /\ P x') ->
  P e -> (forall a, In (CallStep a) calls -> ok a) ->
  exists h w, session (limited_environment inner) (new_limited e limit) h w /\ map fst h = calls /\ P (sl_env w).
Proof.
  intros St Pe. induction calls as [|c calls IH] using rev_ind; intros Hok.
  { exists [], (new_limited e limit). split; [constructor|]. auto. }
  destruct IH as (h & w & Hs & Hm & Pw); [intros a Ha; apply Hok, in_or_app; auto|].
  assert (A : exists ts w', answer (limited_environment inner) c w = (Ok ts, w') /\ P (sl_env w')).
  { destruct (St (sl_env w) CallReset Pw) as (tr & er & Er & Pr); [discriminate|]. cbn [answer] in Er.
    destruct c as [|a]; cbn [answer limited_environment e_reset e_step].
    - unfold sl_reset. rewrite Er. eexists _, _. split; [reflexivity|exact Pr].
    - destruct (St (sl_env w) (CallStep a) Pw) as (ta & ea & Ea & Pa).
      { intros b Eb. injection Eb as <-. apply Hok, in_or_app. right. left. reflexivity. } cbn [answer] in Ea.
      unfold sl_step. destruct (sl_elapsed w =? -1)%Z; [rewrite Er; destruct (ts_type tr)|rewrite Ea; destruct (ts_type ta)]; cbv zeta;
        repeat match goal with |- context [match sl_limit w with _ => _ end] => destruct (sl_limit w) | |- context [if ?b then _ else _] => destruct b end;
        eexists _, _; (split; [reflexivity|assumption]). }
  destruct A as (ts & w' & Ea & Pw'). exists (h ++ [(c, ts)]), w'. split; [econstructor; eauto|].
  split; [rewrite map_app, Hm; reflexivity|exact Pw'].
Qed.

(** two environments that answer alike do so behind wrappers with one limit *)
Lemma limited_alike {E F} (inner : environment E F) calls : forall limit elapsed e e',
  (forall cs, answers inner cs e = answers inner cs e') ->
  answers (limited_environment inner) calls (mklimited limit elapsed e) =
  answers (limited_environment inner) calls (mklimited limit elapsed e').
Proof.
  induction calls as [|c calls IH]; intros limit elapsed e e' H; [reflexivity|].
  assert (S1 : forall d, fst (answer inner d e) = fst (answer inner d e') /\
    forall cs, answers inner cs (snd (answer inner d e)) = answers inner cs (snd (answer inner d e'))).
  { intros d. split; [exact (f_equal (fun l => hd (Raise ValueError) l) (H [d]))|]. intros cs. exact (f_equal (@tl _) (H (d :: cs))). }
  cbn [answers]. destruct c as [|a]; cbn [answer limited_environment e_reset e_step].
  - unfold sl_reset. cbn [sl_env sl_limit]. destruct (S1 CallReset) as (E1 & E2). cbn [answer] in E1, E2.
    destruct (e_reset inner e) as [r x], (e_reset inner e') as [r' x']. cbn [fst snd] in *. subst r'. f_equal. apply IH. exact E2.
  - unfold sl_step. cbn [sl_env sl_limit sl_elapsed]. destruct (S1 CallReset) as (E1 & E2). destruct (S1 (CallStep a)) as (E3 & E4).
    cbn [answer] in E1, E2, E3, E4. destruct (elapsed =? -1)%Z.
    + destruct (e_reset inner e) as [r x], (e_reset inner e') as [r' x']. cbn [fst snd] in *. subst r'.
      destruct r as [ts|y|]; [|cbn [fst snd]; f_equal; apply IH; exact E2..].
      destruct (ts_type ts); cbv zeta;
        repeat match goal with |- context [match limit with _ => _ end] => destruct limit | |- context [if ?b then _ else _] => destruct b end;
        cbn [fst snd]; f_equal; apply IH; exact E2.
    + destruct (e_step inner a e) as [r x], (e_step inner a e') as [r' x']. cbn [fst snd] in *. subst r'.
      destruct r as [ts|y|]; [|cbn [fst snd]; f_equal; apply IH; exact E4..].
      destruct (ts_type ts); cbv zeta;
        repeat match goal with |- context [match limit with _ => _ end] => destruct limit | |- context [if ?b then _ else _] => destruct b end;
        cbn [fst snd]; f_equal; apply IH; exact E4.
Qed.

Section Environments.
Context {G : Type}.
Variable s : sampler G.
Variable render : @renderer G.
Variable knn : knn_fn.
Variable resize : image -> image.
Variable fuel : nat.
Hypothesis O : sampler_ok s.
Hypothesis X : forall sc g, / 2000000 < fst (s_exponential s sc g).
Hypothesis K : knn_ok knn.
Hypothesis Hf : (10000000 <= Z.of_nat fuel)%Z.

(** the bounds of the actions of a row *)
Let bounds (range : option (Z * Z)) := match range with Some (lo, hi) => relative_bounds lo hi | None => [(0, 1); (0, 1)] end.

(** Whatever the seed, the observers and the limit: as long as the actions are
    within the bounds (and pictures can be drawn, if they are shown) no call
    raises, the results follow the protocol of episodes, the first one starts
    an episode, and no episode has more steps than the limit. *)
Theorem train_environment_runs : forall name prior pictures range, In (name, (prior, pictures, range)) train_rows ->
  (pictures = true -> forall og f prm g, exists i g', render og f prm g = (Ok i, g')) ->
  exists e, create_train_experiment name = Ok e /\
  forall seed os limit rng ga calls, (forall a, In (CallStep a) calls -> fits (bounds range) a) ->
  exists h w, session (train_methods s knn render resize fuel e) (train_environment s knn e seed os limit rng ga) h w /\
    map fst h = calls /\ protocol true h /\
    forall n before l after, limit = Some n -> (1 <= n)%Z -> h = before ++ l ++ after ->
      Forall (fun x => ts_type (snd x) <> FIRST) l -> (Z.of_nat (length l) <= n)%Z.
Proof.
  intros name prior pictures range H Hr. destruct (train_experiments_run name prior pictures range H) as (e & E & Sp & Run).
  exists e. split; [exact E|]. intros seed os limit rng ga calls Hc.
  destruct (Run G s render knn resize fuel) as (_ & _ & _ & Never). specialize (Never O X K Hf Hr). cbv zeta in Never.
  set (ad := te_adapters e) in *.
  set (inner := dune_environment s render (adapter_of ad) (features_of knn resize ad) (single_silicon_goal s) fuel).
  set (P := fun x => exists goal g ga0, lived s render (adapter_of ad) (features_of knn resize ad) (single_silicon_goal s) fuel
    (new_env (material_of knn (te_rates e)) config_image_duration tt goal g ga0) x).
  set (e0 := sl_env (train_environment s knn e seed os limit rng ga)).
  assert (W0 : train_environment s knn e seed os limit rng ga = new_limited e0 limit).
  { unfold e0, train_environment. rewrite created_environment. reflexivity. }
  assert (P0 : P e0).
  { destruct (created_environment_lives s render (@adapter_of G ad) (features_of knn resize ad) (single_silicon_goal s) fuel seed
      (rates_of knn (te_rates e)) default_columns config_image_duration tt new_goal rng ga os limit) as ([] & goal & g & ga0 & L).
    exists goal, g, ga0. exact L. }
  destruct (limited_session inner P (fits (bounds range)) limit e0 calls) as (h & w & Hs & Hm & _); auto.
  { intros x c Px Hx. destruct (Never x c Px Hx) as (ts & x' & Ex). exists ts, x'. split; [exact Ex|].
    destruct Px as (goal & g & ga0 & L). exists goal, g, ga0.
    destruct c as [|a]; cbn [answer inner dune_environment e_reset e_step] in Ex; injection Ex as _ <-; constructor; exact L. }
  exists h, w. rewrite W0. split; [exact Hs|]. split; [exact Hm|].
  assert (Rf : resets_first inner) by apply dune_resets_first. split.
  - apply (step_limit_protocol inner limit e0 true h w Rf); [|exact Hs]. intros hi e' Hi.
    assert (Q : env_requires_reset e0 = true) by (unfold e0, train_environment; rewrite created_environment; reflexivity).
    rewrite <- Q. exact (env_protocol s render (adapter_of ad) (features_of knn resize ad) (single_silicon_goal s) fuel e0 hi e' Hi).
  - intros n before l after -> Hn Eh Fl. exact (proj1 (step_limit_bounds inner n e0 h w before l after Rf Hn Hs Eh Fl)).
Qed.

(** The seed decides what the environment answers, with whatever generators and
    observers it was made, to all calls: those that raise too. *)
Theorem train_environment_repeats : forall name prior pictures range, In (name, (prior, pictures, range)) train_rows ->
  (pictures = true -> forall og f prm g, exists i g', render og f prm g = (Ok i, g')) ->
  exists e, create_train_experiment name = Ok e /\
  forall seed os os' limit rng rng' ga ga' calls,
  answers (train_methods s knn render resize fuel e) calls (train_environment s knn e seed os limit rng ga) =
  answers (train_methods s knn render resize fuel e) calls (train_environment s knn e seed os' limit rng' ga').
Proof.
  intros name prior pictures range H Hr. destruct (train_experiments_run name prior pictures range H) as (e & E & Sp & Run).
  exists e. split; [exact E|]. intros seed os os' limit rng rng' ga ga' calls.
  destruct (Run G s render knn resize fuel) as (Ea & _ & _ & Never). specialize (Never O X K Hf Hr). cbv zeta in Never.
  set (ad := te_adapters e) in *.
  set (inner := dune_environment s render (adapter_of ad) (features_of knn resize ad) (single_silicon_goal s) fuel).
  assert (Af : unaffected (@adapter_of G ad) /\ forgets (@adapter_of G ad) /\ forgets_goal (single_silicon_goal s)).
  { rewrite Ea. destruct range as [[lo hi]|].
    - destruct (shipped_start_afresh G s (new_relative lo hi (142 / 100))) as (_ & _ & (A1 & A2) & _ & A3). auto.
    - destruct (shipped_start_afresh G s (new_relative 0%Z 0%Z 0)) as ((A1 & A2) & _ & _ & _ & A3). auto. }
  destruct Af as (Af1 & Af2 & Af3).
  set (made := fun os rng ga => sl_env (train_environment s knn e seed os limit rng ga)).
  assert (Lv : forall os rng ga, lives s render (adapter_of ad) (features_of knn resize ad) (single_silicon_goal s) fuel
    (rates_of knn (te_rates e)) default_columns config_image_duration (made os rng ga)).
  { intros. apply created_environment_lives. }
  assert (Sd : forall os rng ga, env_seed s (adapter_of ad) seed (made os rng ga) = made os rng ga).
  { intros. unfold made, train_environment. rewrite created_environment. unfold env_seed. cbn. fold ad.
    destruct (aa_has_rng (adapter_of ad)); reflexivity. }
  assert (Wm : forall os rng ga, train_environment s knn e seed os limit rng ga = mklimited limit 0 (made os rng ga)).
  { intros. unfold made, train_environment. rewrite created_environment. reflexivity. }
  assert (Wait : forall os rng ga, env_requires_reset (made os rng ga) = true).
  { intros. unfold made, train_environment. rewrite created_environment. reflexivity. }
  rewrite (Wm os rng ga), (Wm os' rng' ga'). apply limited_alike. intros cs. fold ad. fold inner.
  assert (R : forall cs, answers inner (CallReset :: cs) (made os rng ga) = answers inner (CallReset :: cs) (made os' rng' ga')).
  { intros cs'. destruct (Never (made os rng ga) CallReset) as (ts & e' & Et); [|discriminate|].
    - destruct (Lv os rng ga) as ([] & goal & g & ga0 & L). exists goal, g, ga0. exact L.
    - pose proof (seeding_reproduces s render (adapter_of ad) (features_of knn resize ad) (single_silicon_goal s) fuel
        _ _ _ (made os rng ga) (made os' rng' ga') seed ts cs' Af1 Af2 Af3 (Lv os rng ga) (Lv os' rng' ga')) as Q.
      rewrite !Sd in Q. apply Q. cbn [answer dune_environment e_reset] in Et. injection Et as Et _. exact Et. }
  destruct cs as [|[|a] cs]; [reflexivity|apply R|].
  assert (St : forall os rng ga, answers inner (CallStep a :: cs) (made os rng ga) = answers inner (CallReset :: cs) (made os rng ga)).
  { intros. cbn [answers answer inner dune_environment e_step e_reset]. rewrite (step_auto s render) by apply Wait. reflexivity. }
  rewrite !St. apply R.
Qed.

(** The environment of the tests is that of relative_simple_rates: it is always
    made, takes two numbers between -1 and 1, and never raises for them. *)
Theorem simple_environment_runs : forall seed os limit rng ga calls,
  (forall a, In (CallStep a) calls -> fits [(-1, 1); (-1, 1)] a) ->
  exists e w0 h w, create_train_experiment "relative_simple_rates" = Ok e /\
    create_simple_environment s knn seed os limit rng ga = Ok w0 /\
    session (train_methods s knn render resize fuel e) w0 h w /\ map fst h = calls /\ protocol true h /\
    forall n before l after, limit = Some n -> (1 <= n)%Z -> h = before ++ l ++ after ->
      Forall (fun x => ts_type (snd x) <> FIRST) l -> (Z.of_nat (length l) <= n)%Z.
Proof.
  intros seed os limit rng ga calls Hc.
  destruct (train_environment_runs "relative_simple_rates" false false (Some (1500000, 1500000)%Z)) as (e & E & Run);
    [left; reflexivity|discriminate|].
  destruct (Run seed os limit rng ga calls) as (h & w & R1 & R2).
  { intros a Ha. specialize (Hc a Ha). unfold bounds, relative_bounds. destruct (Z.eq_dec _ _) as [_|N]; [exact Hc|contradiction]. }
  exists e, (train_environment s knn e seed os limit rng ga), h, w. split; [exact E|]. split; [|split; [exact R1|exact R2]].
  unfold create_simple_environment. rewrite E. reflexivity.
Qed.
End Environments.
Print Assumptions train_environment_runs.
Print Assumptions train_environment_repeats.
Print Assumptions simple_environment_runs.

(** A sampler, a neighbour search and a bound as required; four steps with a
    limit of two: an episode of two steps and the start of another. *)
Example train_environment_nonvacuous : sampler_ok (ex_sampler 1) /\ (forall sc g, / 2000000 < fst (s_exponential (ex_sampler 1) sc g)) /\
  knn_ok knn_sort /\ (10000000 <= Z.of_nat (Z.to_nat 10000000))%Z /\ fits [(-1, 1); (-1, 1)] [1 / 2; -1] /\
  exists w0 h, create_simple_environment (ex_sampler 1) knn_sort 3%Z [5%nat] (Some 2%Z) 0%nat None = Ok w0 /\ length h = 5%nat /\
    protocol true h /\ (forall x, nth_error h 0 = Some x -> ts_type (snd x) = FIRST) /\
    exists e w, session (train_methods (ex_sampler 1) knn_sort (fun _ _ _ g => (Raise ValueError, g)) (fun i => i) (Z.to_nat 10000000) e) w0 h w.
Proof.
  assert (O : sampler_ok (ex_sampler 1)) by (apply ex_sampler_ok; lra).
  assert (X : forall sc g, / 2000000 < fst (s_exponential (ex_sampler 1) sc g)) by (intros sc g; cbn; lra).
  assert (Hf : (10000000 <= Z.of_nat (Z.to_nat 10000000))%Z) by (rewrite Z2Nat.id by lia; lia).
  assert (Ft : fits [(-1, 1); (-1, 1)] [1 / 2; -1]) by (repeat constructor; cbn; lra).
  split; [exact O|]. split; [exact X|]. split; [apply knn_sort_ok|]. split; [exact Hf|]. split; [exact Ft|].
  destruct (simple_environment_runs (ex_sampler 1) (fun _ _ _ g => (Raise ValueError, g)) knn_sort (fun i => i) (Z.to_nat 10000000)
    O X (knn_sort_ok) Hf 3%Z [5%nat] (Some 2%Z) 0%nat None (repeat (CallStep [1 / 2; -1]) 5)) as (e & w0 & h & w & _ & E & Hs & Hm & Pr & _).
  { intros a Ha. apply repeat_spec in Ha. injection Ha as ->. exact Ft. }
  exists w0, h. split; [exact E|]. split; [rewrite <- (map_length fst), Hm; apply repeat_length|]. split; [exact Pr|]. split.
  - intros [c ts] Hx. apply (Pr 0%nat c ts Hx). right. left. auto.
  - exists e, w. exact Hs.
Qed.
