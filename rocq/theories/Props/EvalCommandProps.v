(** Property C122: the evaluation command. *)
From Coq Require Import String Reals ZArith List Bool Lia Lra Arith Permutation.
From Verif Require Import Base.Prelude Base.Rounding Base.Random Model.Constants Model.Geometry Model.MicroscopeUtils
  Model.Graphene Model.Simulator Model.SimulatorObservers Model.ActionAdapters Model.Goals Model.FeatureConstructors
  Model.Environment Model.EvalLib Model.MicroscopeAgent Model.Registry Model.EvalCommand
  Spec.Grids Spec.Neighbours Spec.Lattice Spec.Material Spec.MaterialRuns Spec.Simulation Spec.Acting Spec.Episodes Spec.Evaluation
  Spec.Registry Spec.EvalCommand
  Proofs.BaseFacts Proofs.RoundingFacts Proofs.GeometryFacts Proofs.ActingFacts Proofs.ExampleSampler Proofs.SimulatorFacts
  Proofs.EnvironmentFacts Proofs.EpisodeFacts Proofs.SeedFacts Proofs.EvalFacts Proofs.EvalEnvFacts
  Props.SimulatorProps Props.EnvironmentProps Props.AdapterProps Props.ShippedStack Props.EvalProps Props.RegistryProps.
Import ListNotations.
Local Open Scope list_scope.
Open Scope R_scope.

Lemma range_first n : first_seeds (range n) n.
Proof.
  split; [unfold range; rewrite map_length, seq_length; reflexivity|]. intros i L.
  rewrite shipped_suites. destruct (Nat.ltb_spec i n); [reflexivity|lia].
Qed.
Lemma first_seeds_unique l l' n : first_seeds l n -> first_seeds l' n -> l = l'.
Proof.
  intros (L & H) (L' & H'). apply nth_ext with (d := 0%Z) (d' := 0%Z); [congruence|]. intros i Hi.
  rewrite L in Hi. rewrite (nth_error_nth l i 0%Z (H i Hi)), (nth_error_nth l' i 0%Z (H' i Hi)). reflexivity.
Qed.
Lemma suite_get suite seeds : dict_get suite eval_suites = Some seeds <->
  exists n, In (suite, n) suite_rows /\ first_seeds seeds n.
Proof.
  assert (F : forall n, In (suite, n) suite_rows -> dict_get suite eval_suites = Some (range n)).
  { intros n H. cbn [In suite_rows] in H.
    destruct H as [H|[H|[H|[H|[]]]]]; apply pair_equal_spec in H as (<- & <-); reflexivity. }
  split.
  - intros H. assert (M : In suite (map fst eval_suites)).
    { destruct (in_dec string_dec suite (map fst eval_suites)) as [I|N]; [exact I|]. apply dict_get_none in N. congruence. }
    assert (M' : exists n, In (suite, n) suite_rows).
    { cbn [map fst eval_suites In] in M. unfold suite_rows. cbn [In].
      destruct M as [<-|[<-|[<-|[<-|[]]]]]; eexists; intuition reflexivity. }
    destruct M' as (n & Hn). exists n. split; [exact Hn|]. rewrite (F n Hn) in H. injection H as <-. apply range_first.
  - intros (n & Hn & Fs). rewrite (F n Hn). f_equal. eapply first_seeds_unique; [apply range_first|exact Fs].
Qed.
Lemma suite_none suite : dict_get suite eval_suites = None <-> ~ In suite (map fst suite_rows).
Proof. rewrite dict_get_none. reflexivity. Qed.

Section Alike.
Context {A E F V : Type}.
Variable ag : agent A F.
Variable en : eval_env E F V.
Variable like : E -> E -> Prop.
Hypothesis like_seed : forall z e e', like e e' -> like (ee_seed en z e) (ee_seed en z e').
Hypothesis like_reset : forall e e', like e e' -> fst (e_reset (ee_env en) e) = fst (e_reset (ee_env en) e') /\
  like (snd (e_reset (ee_env en) e)) (snd (e_reset (ee_env en) e')).
Hypothesis like_step : forall act e e', like e e' -> fst (e_step (ee_env en) act e) = fst (e_step (ee_env en) act e') /\
  like (snd (e_step (ee_env en) act e)) (snd (e_step (ee_env en) act e')).
Hypothesis like_elapsed : forall e e', like e e' -> ee_elapsed en e = ee_elapsed en e'.

Lemma loop_alike timeout n : forall ts m a e e', like e e' ->
  fst (eval_loop ag en n timeout ts m a e) = fst (eval_loop ag en n timeout ts m a e') /\
  like (snd (eval_loop ag en n timeout ts m a e)) (snd (eval_loop ag en n timeout ts m a e')).
Proof.
  induction n as [|n IH]; intros ts m a e e' L; cbn [eval_loop].
  - destruct (negb _); auto.
  - destruct (negb _); [auto|]. destruct (perf_counter ag a) as [t0 a0]. destruct (agent_step ag ts a0) as [[act|x|] a1]; auto.
    destruct (perf_counter ag a1) as [t1 a2]. destruct (like_step act e e' L) as (Q1 & Q2).
    destruct (e_step (ee_env en) act e) as [r e1]. destruct (e_step (ee_env en) act e') as [r' e1']. cbn [fst snd] in Q1, Q2. subst r'.
    rewrite (like_elapsed e1 e1' Q2). destruct r as [ts1|x|]; auto. destruct (is_last ts1); auto.
Qed.
Lemma seed_alike timeout n seed a e e' : like e e' ->
  fst (eval_seed ag en n timeout seed a e) = fst (eval_seed ag en n timeout seed a e') /\
  like (snd (eval_seed ag en n timeout seed a e)) (snd (eval_seed ag en n timeout seed a e')).
Proof.
  intros L. unfold eval_seed. destruct (like_reset _ _ (like_seed seed e e' L)) as (Q1 & Q2).
  destruct (e_reset (ee_env en) (ee_seed en seed e)) as [r e1]. destruct (e_reset (ee_env en) (ee_seed en seed e')) as [r' e1'].
  cbn [fst snd] in Q1, Q2. subst r'. destruct r as [ts|x|]; auto. rewrite (like_elapsed e1 e1' Q2).
  destruct (loop_alike timeout n ts (mkmetrics 0 0 0%Z (ee_elapsed en e1')) a e1 e1' Q2) as (K1 & K2).
  destruct (eval_loop ag en n timeout ts _ a e1) as [[r a1] e2]. destruct (eval_loop ag en n timeout ts _ a e1') as [[r' a1'] e2'].
  cbn [fst snd] in K1, K2. injection K1 as <- <-. destruct r as [[ts1 m]|x|]; auto.
Qed.
(** with videos the results are those without, if no video fails *)
Lemma seeds_alike timeout n seeds : forall a e e', like e e' ->
  let x := eval_seeds ag en n timeout true seeds a e in
  let y := eval_seeds ag en n timeout false seeds a e' in
  (((forall e, exists v, ee_video en e = Ok v) \/ exists rs, fst (fst (fst x)) = Ok rs) -> fst (fst (fst x)) = fst (fst (fst y))) /\
  snd (fst (fst y)) = [].
Proof.
  induction seeds as [|seed seeds IH]; intros a e e' L; cbn [eval_seeds]; cbv zeta; [auto|].
  destruct (seed_alike timeout n seed a e e' L) as (K1 & K2).
  destruct (eval_seed ag en n timeout seed a e) as [[r a1] e1]. destruct (eval_seed ag en n timeout seed a e') as [[r' a1'] e1'].
  cbn [fst snd] in K1, K2. injection K1 as <- <-. destruct r as [r|x|]; auto.
  destruct (IH a1 e1 e1' K2) as (J1 & J2). 
  destruct (eval_seeds ag en n timeout true seeds a1 e1) as [[[r1 ws] a2] e2].
  destruct (eval_seeds ag en n timeout false seeds a1 e1') as [[[r1' ws'] a2'] e2']. cbn [fst snd] in *.
  cbn [app]. split; [|exact J2]. intros H. destruct (ee_video en e1) as [v|x|] eqn:Ev; cbn [fmap_res fst].
  - rewrite J1; [reflexivity|]. destruct H as [H|(rs & H)]; [left; exact H|right]. cbn [fmap_res fst] in H.
    destruct r1; cbn in H; [eauto|discriminate|discriminate].
  - destruct H as [H|(rs & H)]; [destruct (H e1) as (v & Hv); congruence|cbn in H; discriminate].
  - destruct H as [H|(rs & H)]; [destruct (H e1) as (v & Hv); congruence|cbn in H; discriminate].
Qed.
End Alike.

(** if every step takes time d, few actions are taken *)
Lemma few_actions {A E F V} (ag : agent A F) (en : eval_env E F V) (I : E -> Prop) (actions : list R -> Prop) d n timeout seed a e r a' e' :
  (forall z e, I e -> I (ee_seed en z e)) ->
  (forall e, I e -> exists ts e', e_reset (ee_env en) e = (Ok ts, e') /\ I e' /\ (d <= ee_elapsed en e')%Z) ->
  (forall act e, I e -> actions act ->
    exists ts e', e_step (ee_env en) act e = (Ok ts, e') /\ I e' /\ (d <= ee_elapsed en e')%Z) ->
  (forall ts a, exists act a', agent_step ag ts a = (Ok act, a') /\ actions act) ->
  (forall ts a t0 a0 r a1 t1 a2, perf_counter ag a = (t0, a0) -> agent_step ag ts a0 = (r, a1) ->
    perf_counter ag a1 = (t1, a2) -> t0 <= t1) ->
  I e -> eval_seed ag en n timeout seed a e = (Ok r, a', e') ->
  (d * Z.of_nat (er_num_actions_taken r) < timeout \/ er_num_actions_taken r = 0%nat)%Z.
Proof.
  intros Iseed Ireset Istep Act Clk Ie Es.
  apply seed_Ok in Es as (start & h & ts & At & Lh & (_ & -> & _)).
  pose proof (timeout_respected _ _ _ _ _ _ _ _ _ _ _ At) as (Tp & _).
  destruct h as [|y h]; [right; reflexivity|left].
  destruct (exists_last (l := y :: h)) as (h1 & x & Eh); [discriminate|]. rewrite Eh in *.
  specialize (Tp h1 x [] eq_refl). rewrite app_length; cbn [length].
  destruct At as (ts0 & e2 & Er & -> & Exs & _).
  destruct (Ireset (ee_seed en seed e) (Iseed _ _ Ie)) as (ts1 & e3 & Er' & L3 & Ed). rewrite Er in Er'. injection Er' as <- <-.
  assert (Nn : forall hh ts0 a e, I e -> forall ts1 a2 e4, exchanges ag en ts0 a e hh ts1 a2 e4 ->
     Forall (fun x => d <= td_seconds (x_agent_seconds x) + x_elapsed x)%Z hh).
  { clear - Istep Act Clk. induction hh as [|z hh IH]; intros ts0 a e Le ts1 a2 e4 Ex; [constructor|].
    inversion Ex as [|? ? ? t0 b0 act b1 t1 b2 ts2 e5 ? ? ? ? Q0 Q1 Q2 Q3 Q4]; subst.
    destruct (Act ts0 b0) as (act' & b1' & Q1' & Ha). rewrite Q1 in Q1'. injection Q1' as <- <-.
    destruct (Istep act e Le Ha) as (ts3 & e6 & Q3' & L6 & D6). rewrite Q3 in Q3'. injection Q3' as <- <-.
    constructor; [|eapply IH; eauto]. cbn [x_agent_seconds x_elapsed].
    assert (0 <= td_seconds (t1 - t0))%Z by (apply td_nonneg; specialize (Clk _ _ _ _ _ _ _ _ Q0 Q1 Q2); lra).
    unfold timedelta in *. lia. }
  pose proof (Nn _ _ _ _ L3 _ _ _ Exs) as Fa. apply Forall_app in Fa as (Fa & _).
  assert (Ge : (d * Z.of_nat (length h1) <= zsum (map (fun x : exchange F => td_seconds (x_agent_seconds x) + x_elapsed x) h1))%Z).
  { clear - Fa. induction Fa as [|z l Hz _ IH]; [unfold zsum; simpl; lia|]. unfold zsum in *. cbn [map fold_right length]. rewrite Nat2Z.inj_succ. lia. }
  unfold time_spent in Tp. unfold timedelta in *. nia.
Qed.

Lemma written_between x lo hi h : lo <= x <= hi -> written x h -> forall a b, IZR a = lo * 100 -> IZR b = hi * 100 -> (a <= h <= b)%Z.
Proof.
  intros B W a b Ea Eb. unfold written in W. revert W. unfold Rabs. destruct (Rcase_abs _); intros W;
    (split; [assert (H : IZR a < IZR (h + 1)) by (rewrite plus_IZR; lra)|assert (H : IZR h < IZR (b + 1)) by (rewrite plus_IZR; lra)];
     apply lt_IZR in H; lia).
Qed.
Lemma average_between l lo hi : lo <= 0 <= hi -> (forall x, In x l -> lo <= x <= hi) -> lo <= average l <= hi.
Proof.
  intros B H. unfold average. destruct l as [|y l]; [exact B|]. set (m := y :: l) in *.
  assert (L : 0 < INR (length m)) by (apply lt_0_INR; cbn; lia).
  assert (K : lo * INR (length m) <= rsum m <= hi * INR (length m)).
  { clear - H. clearbody m. induction m as [|x m IH]; [unfold rsum; cbn; lra|]. cbn [length]. rewrite S_INR.
    assert (J : lo <= x <= hi) by (apply H; left; reflexivity). specialize (IH (fun z Hz => H z (or_intror Hz))).
    unfold rsum in *. cbn [fold_right]. lra. }
  split; apply (Rmult_le_reg_r (INR (length m))); try exact L; unfold Rdiv; rewrite Rmult_assoc, Rinv_l by lra; lra.
Qed.

Section Command.
Context {G C V : Type}.
Variable s : sampler G.
Variable render : @renderer G.
Variable knn : knn_fn.
Variable resize : image -> image.
Variable model : string -> features -> res (list R).
Variable load : agent_config -> res unit.
Variable movie : list sim_event -> pt -> res V.
Variable tick : C -> R * C.
Variable passes steps : nat.
Variable watcher : observer.
Notation command := (main s render knn resize model load movie tick passes steps watcher).
Notation agent_of := (command_agent s model tick).
Notation env_of := (command_env s render knn resize movie passes watcher).
Notation fresh := (fresh_env s knn).

(** Unknown names raise before anything is evaluated: ValueError for an
    experiment, KeyError for a suite; so does a model that does not load. *)
Theorem eval_command_unknown : forall regs name suite video rng ga clock,
  let run := command (Spec.Registry.registered regs) name suite video rng ga clock in
  (~ In name (map fst eval_experiments) -> ~ In name (map fst regs) -> run = (Raise ValueError, [])) /\
  (forall e, first_of name (eval_experiments ++ regs) e ->
     (forall x, load (ee_agent e) = Raise x -> run = (Raise x, [])) /\
     (load (ee_agent e) = Ok tt -> ~ In suite (map fst suite_rows) -> run = (Raise KeyError, []))).
Proof.
  intros regs name suite video rng ga clock run. unfold run, main. destruct (eval_registration regs name) as (Hok & Hr & _). split.
  - intros N1 N2. rewrite (proj2 (Hr ValueError)); auto.
  - intros e He. rewrite (proj2 (Hok e) He). split.
    + intros x ->. reflexivity.
    + intros -> Ns. rewrite (proj2 (suite_none suite) Ns). reflexivity.
Qed.

Lemma written_rounded x : written x (round_half_even (x * 100)).
Proof.
  unfold written. pose proof (rhe_error (x * 100)) as H. revert H. unfold Rabs. destruct (Rcase_abs _), (Rcase_abs _); lra.
Qed.

(** the times of the results of an evaluation that reached the goal *)
Lemma times_are_numbers {A E F} (ag : agent A F) (en : eval_env E F V) n timeout video w seeds a e rs vs a' e' :
  evaluate ag en n timeout video w seeds a e = (Ok rs, vs, a', e') ->
  exists xs ys, map er_agent_seconds_to_goal (successes rs) = map Some xs /\
    map er_environment_seconds_to_goal (successes rs) = map Some ys.
Proof.
  intros H.
  assert (K : forall l, incl l (successes rs) -> exists xs ys, map er_agent_seconds_to_goal l = map Some xs /\
    map er_environment_seconds_to_goal l = map Some ys).
  { induction l as [|r l IH]; intros Hl; [exists [], []; auto|].
    destruct IH as (xs & ys & X & Y); [intros z Hz; apply Hl; right; exact Hz|].
    assert (Hr : In r (successes rs)) by (apply Hl; left; reflexivity). unfold successes in Hr. apply filter_In in Hr as (Hr & Hg).
    destruct (evaluate_faithful _ _ _ _ _ _ _ _ _ _ _ _ _ r H Hr) as (b0 & w0 & st0 & h0 & t0 & b1 & w1 & _ & _ & _ & _ & Fa & Fe & _).
    destruct (er_agent_seconds_to_goal r) as [x|] eqn:Ex; [|rewrite (proj2 Fa eq_refl) in Hg; discriminate].
    destruct (er_environment_seconds_to_goal r) as [y|] eqn:Ey; [|rewrite (proj2 Fe eq_refl) in Hg; discriminate].
    exists (x :: xs), (y :: ys). cbn [map]. rewrite Ex, Ey, X, Y. auto. }
  apply K. intros z; auto.
Qed.

(** The command returns exactly if the experiment and the suite are known, its
    model loads, and every seed of the suite was attempted, in order, with a
    fresh environment and a timeout of ten minutes; it logs the averages. *)
Theorem eval_command_returns : forall regs name suite video rng ga clock log vs,
  command (Spec.Registry.registered regs) name suite video rng ga clock = (Ok log, vs) ->
  exists e n seeds rs a' w', first_of name (eval_experiments ++ regs) e /\ load (ee_agent e) = Ok tt /\
    In (suite, n) suite_rows /\ first_seeds seeds n /\
    attempts (agent_of e) (env_of e) steps 600000000%Z video seeds (s_seed s 0, clock)
      (if video then ee_add_observer (env_of e) watcher (fresh e rng ga) else fresh e rng ga) rs vs a' w' /\
    map er_seed rs = seeds /\ map fst vs = (if video then seeds else []) /\
    logs name rs log.
Proof.
  intros regs name suite video rng ga clock log vs H. unfold main in H. destruct (eval_registration regs name) as (Hok & _ & _).
  destruct (create_eval_experiment (Spec.Registry.registered regs) name) as [e|x|] eqn:Ee; try discriminate.
  destruct (load (ee_agent e)) as [[]|x|] eqn:El; try discriminate.
  destruct (dict_get suite eval_suites) as [seeds|] eqn:Es; try discriminate.
  apply suite_get in Es as (n & Hn & Fs).
  destruct (evaluate _ _ _ _ _ _ _ _ _) as [[[r vs1] a'] w'] eqn:Ev.
  assert (Tm : default_timeout = 600000000%Z) by (unfold default_timeout; apply td_whole; lra). rewrite Tm in Ev.
  injection H as H <-. destruct r as [rs|x|]; cbn [bind] in H; try discriminate.
  destruct (aggregate_results rs) as [g|x|] eqn:Eg; cbn [bind] in H; try discriminate. injection H as <-.
  destruct (times_are_numbers _ _ _ _ _ _ _ _ _ _ _ _ _ Ev) as (xs & ys & X & Y).
  pose proof (evaluate_in_order _ _ _ _ _ _ _ _ _ _ _ _ _ Ev) as (Or & Ov).
  apply evaluate_returns in Ev as (w1 & At & _).
  exists e, n, seeds, rs, a', w1. split; [apply Hok; reflexivity|]. split; [exact El|]. split; [exact Hn|]. split; [exact Fs|].
  split; [exact At|]. split; [exact Or|]. split; [exact Ov|].
  pose proof Eg as Eg'. apply aggregation_averages in Eg' as (_ & G1 & G2 & G3 & G4 & _ & G5 & _).
  specialize (G4 _ X). specialize (G5 _ Y).
  unfold logs, log_of, ag_seconds_to_goal. rewrite G4, G5, G1, G2, G3. cbn [nan_add two_decimals option_map].
  do 6 eexists. exists xs, ys. split; [reflexivity|]. repeat split; auto using written_rounded.
Qed.

(** the observers after an evaluation of all seeds are those before *)
Lemma command_seeds_keep {A} (ag : agent A features) e n timeout video seeds a w :
  registered (sl_env (snd (eval_seeds ag (env_of e) n timeout video seeds a w))) = registered (sl_env w).
Proof.
  unfold command_env. set (ad := adapter_of (ee_adapters e)). set (fe := features_of knn resize (ee_adapters e)).
  apply (seeds_preserve ag (limited_eval_env (dune_eval_env s render ad fe (single_silicon_goal s) passes movie watcher))
    (fun w' => registered (sl_env w') = registered (sl_env w))); auto.
  - intros x <-. cbn [limited_eval_env ee_env limited_environment e_reset]. unfold sl_reset.
    cbn [dune_eval_env ee_env e_reset]. unfold watch. cbn. apply env_reset_observers.
  - intros act x <-. cbn [limited_eval_env ee_env limited_environment e_step]. unfold sl_step.
    cbn [dune_eval_env ee_env e_step e_reset]. unfold watch.
    pose proof (env_step_observers s render ad fe (single_silicon_goal s) passes act (w_env (sl_env x))) as Q.
    pose proof (env_reset_observers s render ad fe (single_silicon_goal s) (w_env (sl_env x))) as Q'.
    destruct (sl_elapsed x =? -1)%Z; destruct (eo_result _) as [ts|y|]; try exact Q; try exact Q';
      destruct (ts_type ts); try exact Q; try exact Q';
      destruct (sl_limit x) as [k|]; try exact Q; try exact Q'; destruct (k <=? _)%Z; try exact Q; exact Q'.
Qed.
(** so that the evaluation returns if they do *)
Lemma command_evaluates {A} (ag : agent A features) e timeout (video : bool) seeds a w :
  let start := if video then ee_add_observer (env_of e) watcher w else w in
  fst (fst (evaluate ag (env_of e) steps timeout video watcher seeds a w)) =
  fst (fst (eval_seeds ag (env_of e) steps timeout video seeds (agent_set_eval_mode ag a) start)).
Proof.
  cbv zeta. unfold evaluate. pose proof (command_seeds_keep ag e steps timeout video seeds (agent_set_eval_mode ag a)
    (if video then ee_add_observer (env_of e) watcher w else w)) as K.
  destruct (eval_seeds _ _ _ _ _ _ _ _) as [[[r vs] a'] w']. cbn [snd] in K. destruct r as [rs|x|]; [|reflexivity|reflexivity].
  destruct video; [|reflexivity].
  destruct (add_and_remove_counts watcher (env_sim (w_env (sl_env w'))) (env_rng (w_env (sl_env w')))) as (_ & Rm).
  assert (Iw : In watcher (sim_observers (env_sim (w_env (sl_env w'))))).
  { change (In watcher (registered (sl_env w'))). rewrite K. unfold registered. cbn. apply in_or_app. right. left. reflexivity. }
  destruct (Rm Iw) as (Er & _). unfold command_env. cbn [limited_eval_env dune_eval_env ee_remove_observer]. rewrite Er. reflexivity.
Qed.

Theorem eval_command_complete : forall regs name suite video rng ga clock e n seeds rs vs a' w',
  first_of name (eval_experiments ++ regs) e -> load (ee_agent e) = Ok tt ->
  In (suite, n) suite_rows -> first_seeds seeds n ->
  attempts (agent_of e) (env_of e) steps 600000000%Z video seeds (s_seed s 0, clock)
    (if video then ee_add_observer (env_of e) watcher (fresh e rng ga) else fresh e rng ga) rs vs a' w' ->
  exists log, command (Spec.Registry.registered regs) name suite video rng ga clock = (Ok log, vs).
Proof.
  intros regs name suite video rng ga clock e n seeds rs vs a' w' He Hl Hn Fs At. unfold main.
  rewrite (proj2 (proj1 (eval_registration regs name) e) He), Hl, (proj2 (suite_get suite seeds)) by eauto.
  assert (Tm : default_timeout = 600000000%Z) by (unfold default_timeout; apply td_whole; lra). rewrite Tm.
  pose proof (command_evaluates (agent_of e) e 600000000%Z video seeds (s_seed s 0, clock) (fresh e rng ga)) as K. cbv zeta in K.
  apply seeds_Ok in At.
  change (agent_set_eval_mode (agent_of e) (s_seed s 0, clock)) with (s_seed s 0, clock) in K. rewrite At in K. cbn [fst] in K.
  destruct (evaluate _ _ _ _ _ _ _ _ _) as [[[r vs1] a1] w1] eqn:Ev. cbn [fst] in K. injection K as -> ->.
  cbn [bind]. destruct (evaluate_in_order _ _ _ _ _ _ _ _ _ _ _ _ _ Ev) as (Or & _).
  destruct (aggregate_results rs) as [g|x|] eqn:Eg; cbn [bind]; [eauto| |].
  - exfalso. apply aggregation_raises_on_nothing in Eg as (-> & _). cbn in Or. subst seeds. destruct Fs as (L & _). cbn in L. subst n.
    cbn [In suite_rows] in Hn. destruct Hn as [H|[H|[H|[H|[]]]]]; apply pair_equal_spec in H as (_ & H); discriminate H.
  - exfalso. unfold aggregate_results in Eg. destruct (length rs =? 0)%nat; discriminate.
Qed.

(** Saving videos does not change what is logged. *)
Theorem videos_change_nothing : forall table name suite rng ga clock,
  let filmed := command table name suite true rng ga clock in
  let unfilmed := command table name suite false rng ga clock in
  snd unfilmed = [] /\
  (forall log vs, filmed = (Ok log, vs) -> unfilmed = (Ok log, [])) /\
  ((forall l p, exists v, movie l p = Ok v) -> fst filmed = fst unfilmed).
Proof.
  intros table name suite rng ga clock. cbv zeta.
  assert (K : snd (command table name suite false rng ga clock) = [] /\
    (((forall l p, exists v, movie l p = Ok v) \/ exists log, fst (command table name suite true rng ga clock) = Ok log) ->
     fst (command table name suite true rng ga clock) = fst (command table name suite false rng ga clock))).
  { unfold main. destruct (create_eval_experiment table name) as [e|x|]; [|split; reflexivity|split; reflexivity].
    destruct (load (ee_agent e)) as [[]|x|]; [|split; reflexivity|split; reflexivity].
    destruct (dict_get suite eval_suites) as [seeds|]; [|split; reflexivity].
    pose proof (command_evaluates (agent_of e) e default_timeout true seeds (s_seed s 0, clock) (fresh e rng ga)) as K1.
    pose proof (command_evaluates (agent_of e) e default_timeout false seeds (s_seed s 0, clock) (fresh e rng ga)) as K2.
    cbv zeta in K1, K2.
    set (ad := @adapter_of G (ee_adapters e)). set (fe := features_of knn resize (ee_adapters e)).
    assert (U : unaffected ad) by (intros _ st g g'; unfold ad; destruct (ee_adapters e); split; reflexivity).
    set (like := fun w w' : limited (E := @watched G unit) => sl_limit w = sl_limit w' /\ sl_elapsed w = sl_elapsed w' /\
      env_same ad (w_env (sl_env w)) (w_env (sl_env w'))).
    assert (L1 : forall z w w', like w w' -> like (ee_seed (env_of e) z w) (ee_seed (env_of e) z w')).
    { intros z w w' (A1 & A2 & B1 & B2 & B3 & B4 & B5 & B6 & B7). split; [exact A1|]. split; [exact A2|].
      unfold env_same. cbn. fold ad. split; [reflexivity|]. split; [intros ->; reflexivity|]. auto 10. }
    assert (L2 : forall w w', like w w' -> fst (e_reset (ee_env (env_of e)) w) = fst (e_reset (ee_env (env_of e)) w') /\
      like (snd (e_reset (ee_env (env_of e)) w)) (snd (e_reset (ee_env (env_of e)) w'))).
    { intros w w' (A1 & A2 & B). destruct (reset_same s render ad fe (single_silicon_goal s) _ _ U B) as (R1 & R2).
      unfold command_env. cbn [limited_eval_env ee_env limited_environment e_reset]. unfold sl_reset. fold ad fe.
      cbn [dune_eval_env ee_env e_reset]. unfold watch. cbn [fst snd]. split; [exact R1|].
      split; [exact A1|]. split; [reflexivity|exact R2]. }
    assert (L3 : forall act w w', like w w' -> fst (e_step (ee_env (env_of e)) act w) = fst (e_step (ee_env (env_of e)) act w') /\
      like (snd (e_step (ee_env (env_of e)) act w)) (snd (e_step (ee_env (env_of e)) act w'))).
    { intros act w w' (A1 & A2 & B). destruct (reset_same s render ad fe (single_silicon_goal s) _ _ U B) as (R1 & R2).
      destruct (step_same s render ad fe (single_silicon_goal s) passes act _ _ U B) as (S1 & S2).
      unfold command_env. cbn [limited_eval_env ee_env limited_environment e_step]. unfold sl_step. fold ad fe.
      cbn [dune_eval_env ee_env e_reset e_step]. unfold watch. rewrite <- A1, <- A2.
      destruct (sl_elapsed w =? -1)%Z.
      - rewrite <- R1. destruct (eo_result (env_reset _ _ _ _ _ (w_env (sl_env w)))) as [ts|x|]; cbn [fst snd];
          [|split; [reflexivity|split; [reflexivity|split; [reflexivity|exact R2]]]|split; [reflexivity|split; [reflexivity|split; [reflexivity|exact R2]]]].
        destruct (ts_type ts); [|destruct (sl_limit w) as [k|]; [destruct (k <=? _)%Z|]|destruct (sl_limit w) as [k|]; [destruct (k <=? _)%Z|]];
          cbn [fst snd]; (split; [reflexivity|split; [reflexivity|split; [reflexivity|exact R2]]]).
      - rewrite <- S1. destruct (eo_result (env_step _ _ _ _ _ _ _ (w_env (sl_env w)))) as [ts|x|]; cbn [fst snd];
          [|split; [reflexivity|split; [reflexivity|split; [reflexivity|exact S2]]]|split; [reflexivity|split; [reflexivity|split; [reflexivity|exact S2]]]].
        destruct (ts_type ts); [|destruct (sl_limit w) as [k|]; [destruct (k <=? _)%Z|]|destruct (sl_limit w) as [k|]; [destruct (k <=? _)%Z|]];
          cbn [fst snd]; (split; [reflexivity|split; [reflexivity|split; [reflexivity|exact S2]]]). }
    assert (L4 : forall w w', like w w' -> ee_elapsed (env_of e) w = ee_elapsed (env_of e) w').
    { intros w w' (A1 & A2 & B1 & B2 & B3 & B4 & B5 & B6 & B7). cbn. rewrite B6. reflexivity. }
    assert (L0 : like (ee_add_observer (env_of e) watcher (fresh e rng ga)) (fresh e rng ga)).
    { split; [reflexivity|]. split; [reflexivity|]. repeat split. }
    pose proof (seeds_alike (agent_of e) (env_of e) like L1 L2 L3 L4 default_timeout steps seeds (s_seed s 0, clock) _ _ L0) as (Q1 & Q2).
    change (agent_set_eval_mode (agent_of e) (s_seed s 0, clock)) with (s_seed s 0, clock) in K1, K2.
    destruct (eval_seeds (agent_of e) (env_of e) steps default_timeout true seeds _ _) as [[[r1 v1] a1] w1].
    destruct (eval_seeds (agent_of e) (env_of e) steps default_timeout false seeds _ _) as [[[r2 v2] a2] w2]. cbn [fst snd] in *.
    destruct (evaluate (agent_of e) (env_of e) steps default_timeout true watcher seeds _ _) as [[[r3 v3] a3] w3].
    destruct (evaluate (agent_of e) (env_of e) steps default_timeout false watcher seeds _ _) as [[[r4 v4] a4] w4]. cbn [fst snd] in *.
    injection K1 as -> ->. injection K2 as -> ->. split; [exact Q2|]. intros H. rewrite Q1; [reflexivity|].
    destruct H as [H|(log & H)]; [left; intros w; cbn; apply H|right]. destruct r1 as [rs|x|]; cbn in H; [eauto|discriminate|discriminate]. }
  destruct K as (K1 & K2). split; [exact K1|]. split; [|intros H; apply K2; auto].
  intros log vs H. destruct (command table name suite false rng ga clock) as [r v]. cbn [fst snd] in *. rewrite H in K2. cbn [fst] in K2.
  rewrite <- K2 by eauto. rewrite K1. reflexivity.
Qed.

(** The built-in random experiments can be evaluated with every suite: nothing
    raises, and no episode takes 300 steps, so that the limit of 600 steps is
    never reached. *)
Theorem random_eval_command : forall regs name prior suite n (video : bool) rng ga clock,
  In (name, prior) random_eval_rows -> In (suite, n) suite_rows ->
  sampler_ok s -> (forall sc g, / 2000000 < fst (s_exponential s sc g)) -> knn_ok knn ->
  (10000000 <= Z.of_nat passes)%Z -> (300 <= steps)%nat -> load RandomAgent = Ok tt ->
  (forall c, fst (tick c) <= fst (tick (snd (tick c)))) ->
  (video = true -> forall l p, exists v, movie l p = Ok v) ->
  exists log vs p k, command (Spec.Registry.registered regs) name suite video rng ga clock = (Ok log, vs) /\
    (if video then first_seeds (map fst vs) n else vs = []) /\
    In (Logged "Proportion successful runs" (Some p)) log /\ (0 <= p <= 100)%Z /\
    In (Logged "Average number of actions taken" (Some k)) log /\ (0 <= k <= 29900)%Z.
Proof.
  intros regs name prior suite n video rng ga clock Hn Hs O X Kn Hp Hst Hl Hc Hm.
  destruct (random_evaluations_run name prior Hn regs) as (e & Ee & _).
  assert (Ee' : e = mkeval_experiment RandomAgent (Relative 1500000%Z 1500000%Z (142 / 100)) (if prior then HumanPriorRates else SimpleRates)).
  { cbn [In random_eval_rows] in Hn. pose proof (proj1 (eval_registration regs name) e) as K. apply K in Ee. clear K.
    assert (Fu : forall x y, first_of name (eval_experiments ++ regs) x -> first_of name (eval_experiments ++ regs) y -> x = y).
    { intros x y Hx Hy. apply dict_get_first in Hx, Hy. congruence. }
    apply Fu; [exact Ee|]. apply dict_get_first.
    destruct Hn as [H|[H|[]]]; injection H as <- <-; unfold eval_experiments, plain_relative;
      rewrite default_lo_value, default_hi_value; reflexivity. }
  set (w0 := fresh e rng ga). set (ad := ee_adapters e).
  assert (Sp : adapter_spec_of ad = [(-1, 1); (-1, 1)]).
  { unfold ad. rewrite Ee'. cbn [ee_adapters adapter_spec_of]. rewrite relative_spec_bounds. unfold relative_bounds.
    destruct (Z.eq_dec _ _) as [_|N]; [reflexivity|]. contradiction. }
  assert (Ac : accepts (@adapter_of G ad) passes (fits (adapter_spec_of ad))).
  { apply (adapter_of_accepts s); [exact Hp|]. unfold ad. rewrite Ee'. cbn. lia. }
  assert (NN : never_negative (@adapter_of G ad)).
  { unfold ad. rewrite Ee'. cbn [ee_adapters adapter_of]. apply (adapters_never_negative G s). lia. }
  pose proof (rates_of_steady knn (ee_rates e) Kn) as St. pose proof (features_of_describe knn resize ad Kn) as Ds.
  assert (Rn : fc_requires_image (features_of knn resize ad) = true -> forall og f prm g, exists i g', render og f prm g = (Ok i, g')).
  { unfold ad. rewrite Ee'. discriminate. }
  set (al := fun w : limited (E := @watched G unit) => lives s render (adapter_of ad) (features_of knn resize ad) (single_silicon_goal s) passes
    (rates_of knn (ee_rates e)) 50 2000000%Z (w_env (sl_env w))).
  assert (A0 : al w0).
  { unfold al, w0, fresh_env. cbn [sl_env w_env].
    pose proof (created_environment_lives s render (@adapter_of G ad) (features_of knn resize ad) (single_silicon_goal s) passes 0%Z
      (rates_of knn (ee_rates e)) default_columns config_image_duration tt new_goal rng ga [] (Some default_step_limit)) as K.
    unfold config_image_duration in K at 1. rewrite (td_whole 2 2000000%Z) in K by lra. exact K. }
  assert (Ad : forall w, al w -> al (ee_add_observer (env_of e) watcher w)).
  { intros w L. exact (alive_add s render (adapter_of ad) (features_of knn resize ad) passes movie watcher _ _ _ watcher (sl_env w) L). }
  assert (Iseed : forall z w, al w -> al (ee_seed (env_of e) z w)).
  { intros z w (st & gl & g & ga0 & L). exists st, gl, g, ga0. cbn. apply lived_seed. exact L. }
  assert (Ireset : forall w, al w -> exists ts w', e_reset (ee_env (env_of e)) w = (Ok ts, w') /\ al w' /\ (2000000 <= ee_elapsed (env_of e) w')%Z).
  { intros w L. destruct (stack_reset s render (adapter_of ad) (features_of knn resize ad) passes _ 50%nat _ _ O ltac:(lia) (proj1 St) Ds Rn L) as (ts & Er).
    pose proof (reset_elapsed s render (adapter_of ad) (features_of knn resize ad) passes _ 50%nat _ _ O ltac:(lia) (proj1 St) L ts Er) as Ed.
    eexists ts, _. unfold command_env. cbn [limited_eval_env ee_env limited_environment e_reset]. unfold sl_reset.
    cbn [dune_eval_env ee_env e_reset]. unfold watch. fold ad. rewrite Er. split; [reflexivity|]. split.
    - destruct L as (st & gl & g & ga0 & L). exists st, gl, g, ga0. cbn. apply lived_reset. exact L.
    - cbn. rewrite Ed. lia. }
  assert (Istep : forall act w, al w -> fits (adapter_spec_of ad) act ->
    exists ts w', e_step (ee_env (env_of e)) act w = (Ok ts, w') /\ al w' /\ (2000000 <= ee_elapsed (env_of e) w')%Z).
  { intros act w L Ha. unfold command_env. cbn [limited_eval_env ee_env limited_environment e_step]. unfold sl_step.
    cbn [dune_eval_env ee_env e_step e_reset]. unfold watch. fold ad.
    destruct (stack_reset s render (adapter_of ad) (features_of knn resize ad) passes _ 50%nat _ _ O ltac:(lia) (proj1 St) Ds Rn L) as (tr & Er).
    pose proof (reset_elapsed s render (adapter_of ad) (features_of knn resize ad) passes _ 50%nat _ _ O ltac:(lia) (proj1 St) L tr Er) as Dr.
    destruct (stack_step s render (adapter_of ad) (features_of knn resize ad) passes _ _ 50%nat _ _ act O X ltac:(lia) St Ds Ac Rn L Ha) as (ts & Es).
    pose proof (step_elapsed s render (adapter_of ad) (features_of knn resize ad) passes _ 50%nat 2000000%Z _ act O ltac:(lia) (proj1 St) ltac:(lia) NN L ts Es) as Dt.
    assert (Lr : al (mklimited None 0 (mkwatched (eo_env (env_reset s render (adapter_of ad) (features_of knn resize ad) (single_silicon_goal s) (w_env (sl_env w)))) []))).
    { destruct L as (st & gl & g & ga0 & L). exists st, gl, g, ga0. cbn. apply lived_reset. exact L. }
    assert (Ls : al (mklimited None 0 (mkwatched (eo_env (env_step s render (adapter_of ad) (features_of knn resize ad) (single_silicon_goal s) passes act (w_env (sl_env w)))) []))).
    { destruct L as (st & gl & g & ga0 & L). exists st, gl, g, ga0. cbn. apply lived_step. exact L. }
    destruct (sl_elapsed w =? -1)%Z.
    - rewrite Er. destruct (ts_type tr); [|destruct (sl_limit w) as [k|]; [destruct (k <=? _)%Z|]|destruct (sl_limit w) as [k|]; [destruct (k <=? _)%Z|]];
        (eexists _, _; split; [reflexivity|]; split; [exact Lr|cbn; rewrite Dr; lia]).
    - rewrite Es. destruct (ts_type ts); [|destruct (sl_limit w) as [k|]; [destruct (k <=? _)%Z|]|destruct (sl_limit w) as [k|]; [destruct (k <=? _)%Z|]];
        (eexists _, _; split; [reflexivity|]; split; [exact Ls|cbn; exact Dt]). }
  assert (Act : forall ts a, exists act a', agent_step (agent_of e) ts a = (Ok act, a') /\ fits (adapter_spec_of ad) act).
  { intros ts [g c]. cbn [command_agent agent_step fst snd]. fold ad.
    replace (ee_agent e) with RandomAgent by (rewrite Ee'; reflexivity). cbn [agent_step_of].
    destruct (uniform_in_spec s (adapter_spec_of ad) g) as [act g'] eqn:Ea. exists act, (g', c). split; [reflexivity|].
    apply (drawn_fits s O (adapter_spec_of ad) g act g'); [rewrite Sp; repeat constructor; cbn; lra|]. apply uniform_in_spec_drawn. exact Ea. }
  assert (Clk : forall ts a t0 a0 r a1 t1 a2, perf_counter (agent_of e) a = (t0, a0) -> agent_step (agent_of e) ts a0 = (r, a1) ->
    perf_counter (agent_of e) a1 = (t1, a2) -> t0 <= t1).
  { intros ts [g c] t0 a0 r a1 t1 a2. cbn [command_agent agent_step perf_counter fst snd]. pose proof (Hc c) as K.
    destruct (tick c) as [t c1]. intros E1. injection E1 as <- <-. cbn [fst snd] in *.
    destruct (agent_step_of _ _ _ _ _ g) as [r1 g1]. intros E2. injection E2 as <- <-. cbn [fst snd].
    destruct (tick c1) as [t' c2]. intros E3. injection E3 as <- _. exact K. }
  destruct (suite_get suite (range n)) as (_ & Sg). specialize (Sg (ex_intro _ n (conj Hs (range_first n)))).
  destruct (evaluation_ends (agent_of e) (env_of e) al (fits (adapter_spec_of ad)) 2000000%Z steps 600000000%Z video watcher (range n)
    (s_seed s 0, clock) w0) as (rs & vs & a' & w' & Ev & Or); auto.
  { intros w L. destruct (Ireset w L) as (ts & w' & K1 & K2 & K3). exists ts, w'. split; [exact K1|]. split; [exact K2|]. lia. }
  { lia. }
  { intros Hv. split; [exact Ad|]. intros w _. cbn. apply Hm. exact Hv. }
  assert (At : attempts (agent_of e) (env_of e) steps 600000000%Z video (range n) (s_seed s 0, clock)
    (if video then ee_add_observer (env_of e) watcher w0 else w0) rs vs a' w') by (apply seeds_Ok; exact Ev).
  destruct (eval_command_complete regs name suite video rng ga clock e n (range n) rs vs a' w') as (log & Er); auto.
  { apply (proj1 (eval_registration regs name)). exact Ee. }
  { rewrite Ee'. exact Hl. }
  { apply range_first. }
  destruct (eval_command_returns _ _ _ _ _ _ _ _ _ Er) as (e1 & n1 & seeds1 & rs1 & a1 & w1 & F1 & _ & S1 & Fs1 & At1 & _ & Vs1 & Lg).
  assert (e1 = e).
  { apply (proj1 (eval_registration regs name)) in F1. congruence. } subst e1.
  assert (Es1 : seeds1 = range n).
  { assert (dict_get suite eval_suites = Some seeds1) by (apply suite_get; eauto). congruence. } subst seeds1.
  apply seeds_Ok in At1. fold w0 in At1. change (agent_set_eval_mode (agent_of e) (s_seed s 0, clock)) with (s_seed s 0, clock) in Ev.
  rewrite Ev in At1. injection At1 as <- _ _.
  assert (Nz : rs <> []).
  { intros ->. cbn in Or. cbn [In suite_rows] in Hs.
    destruct Hs as [H|[H|[H|[H|[]]]]]; apply pair_equal_spec in H as (_ & <-); discriminate Or. }
  assert (Pr : forall w, al w -> al (snd (e_reset (ee_env (env_of e)) w))).
  { intros w L. destruct (Ireset w L) as (ts & w1' & -> & K & _). exact K. }
  assert (Ps : forall act w, al w -> al (snd (e_step (ee_env (env_of e)) act w))).
  { intros act w (st & gl & g & ga0 & L). unfold command_env. cbn [limited_eval_env ee_env limited_environment e_step]. unfold sl_step.
    cbn [dune_eval_env ee_env e_step e_reset]. unfold watch. fold ad.
    assert (Q : forall lim el ev, al (mklimited lim el (mkwatched (eo_env (env_step s render (adapter_of ad) (features_of knn resize ad)
      (single_silicon_goal s) passes act (w_env (sl_env w)))) ev))).
    { intros. exists st, gl, g, ga0. cbn. apply lived_step. exact L. }
    assert (Q' : forall lim el ev, al (mklimited lim el (mkwatched (eo_env (env_reset s render (adapter_of ad) (features_of knn resize ad)
      (single_silicon_goal s) (w_env (sl_env w)))) ev))).
    { intros. exists st, gl, g, ga0. cbn. apply lived_reset. exact L. }
    destruct (sl_elapsed w =? -1)%Z; destruct (eo_result _) as [ts|x|]; try apply Q; try apply Q';
      (destruct (ts_type ts); [|destruct (sl_limit w) as [k|]; [destruct (k <=? _)%Z|]|destruct (sl_limit w) as [k|]; [destruct (k <=? _)%Z|]]);
      try apply Q; apply Q'. }
  assert (Ai : al (if video then ee_add_observer (env_of e) watcher w0 else w0)) by (destruct video; [apply Ad|]; exact A0).
  assert (Few : forall r, In r rs -> (er_num_actions_taken r <= 299)%nat).
  { intros r Hr.
    destruct (seeds_members (agent_of e) (env_of e) al Iseed Pr Ps steps 600000000%Z video (range n) _ _ rs vs a' w' r
      Ai Ev Hr) as (a0 & e0 & a2 & e2 & L0 & Es).
    destruct (few_actions (agent_of e) (env_of e) al (fits (adapter_spec_of ad)) 2000000%Z steps 600000000%Z (er_seed r) a0 e0 r a2 e2); auto; lia. }
  destruct Lg as (p & k & t & at_ & et & rw & xs & ys & -> & _ & _ & Wp & Wk & _).
  exists [Finished name; Logged "Proportion successful runs" (Some p); Logged "Average number of actions taken" (Some k);
    Logged "Average seconds to goal" (Some t); Logged "Average agent seconds to goal" (Some at_);
    Logged "Average environment seconds to goal" (Some et); Logged "Average total reward" (Some rw)], vs, p, k.
  split; [exact Er|]. split.
  { destruct video; [rewrite Vs1; apply range_first|]. destruct vs; [reflexivity|discriminate Vs1]. }
  split; [cbn; tauto|]. split.
  - assert (B : 0 <= INR (length (successes rs)) / INR (length rs) <= 1).
    { assert (L : 0 < INR (length rs)) by (apply lt_0_INR; destruct rs; [contradiction|cbn; lia]).
      assert (M : INR (length (successes rs)) <= INR (length rs)).
      { apply le_INR. unfold successes. clear. induction rs as [|r rs IH]; [auto|]. cbn [filter]. destruct (er_reached_goal r); cbn [length]; lia. }
      pose proof (pos_INR (length (successes rs))). split; [apply Rmult_le_pos; [lra|left; apply Rinv_0_lt_compat; exact L]|].
      apply (Rmult_le_reg_r (INR (length rs))); [exact L|]. unfold Rdiv. rewrite Rmult_assoc, Rinv_l by lra. lra. }
    apply (written_between _ 0 1 p B Wp 0%Z 100%Z); lra.
  - split; [cbn; tauto|].
    assert (B : 0 <= average (map (fun r => INR (er_num_actions_taken r)) (successes rs)) <= 299).
    { apply average_between; [lra|]. intros x Hx. apply in_map_iff in Hx as (r & <- & Hr). unfold successes in Hr. apply filter_In in Hr as (Hr & _).
      split; [apply pos_INR|]. replace 299 with (INR 299) by (rewrite INR_IZR_INZ; reflexivity). apply le_INR, Few, Hr. }
    apply (written_between _ 0 299 k B Wk 0%Z 29900%Z); lra.
Qed.
(** Whatever the agent, the experiment and the timeout: no attempt has more
    than 600 steps. *)
Lemma limit_kept {E F} (inner : environment E F) act w r w' : sl_step inner act w = (r, w') -> sl_limit w' = sl_limit w.
Proof.
  unfold sl_step. destruct (if (sl_elapsed w =? -1)%Z then _ else _) as [[ts|x|] e1]; intros H; try (injection H as _ <-; reflexivity).
  destruct (ts_type ts); [injection H as _ <-; reflexivity| |];
    (destruct (sl_limit w) as [k|]; [destruct (k <=? _)%Z|]; injection H as _ <-; reflexivity).
Qed.
Lemma few_exchanges e n ts a w h ts' a' w' :
  exchanges (agent_of e) (env_of e) ts a w h ts' a' w' ->
  sl_limit w = Some n -> sl_limit w' = Some n /\
  ((0 <= sl_elapsed w < n)%Z -> env_requires_reset (w_env (sl_env w)) = false ->
   (forall h1 x y h2, h = h1 ++ x :: y :: h2 -> ts_type (x_result x) <> LAST) ->
   (sl_elapsed w + Z.of_nat (length h) <= n)%Z).
Proof.
  intros X. induction X as [ts a w|ts a w t0 a0 act a1 t1 a2 ts1 w1 h ts' a' w' H1 H2 H3 Es X IH]; intros Hl.
  { split; [exact Hl|]. cbn. lia. }
  cbn [command_env limited_eval_env ee_env limited_environment e_step] in Es.
  pose proof (limit_kept _ _ _ _ _ Es) as Hl1. rewrite Hl in Hl1. destruct (IH Hl1) as (Hl' & IH2).
  split; [exact Hl'|]. intros He Hr Hn. cbn [length].
  unfold sl_step in Es. destruct (Z.eqb_spec (sl_elapsed w) (-1)) as [K|_]; [lia|].
  cbn [dune_eval_env ee_env e_step e_reset] in Es. unfold watch in Es.
  pose proof (step_flag s render (adapter_of (ee_adapters e)) (features_of knn resize (ee_adapters e)) (single_silicon_goal s) passes act
    (w_env (sl_env w))) as Fl.
  destruct (eo_result _) as [t|x|] eqn:Er in Es, Fl; try discriminate.
  assert (Nf : ts_type t <> FIRST).
  { destruct (env_step s render (adapter_of (ee_adapters e)) (features_of knn resize (ee_adapters e)) (single_silicon_goal s) passes act
      (w_env (sl_env w))) as [r e1 tr] eqn:Eo. cbn [eo_result] in Er. subst r.
    apply step_returns in Eo as (cs & st & obs & x & ret & goal & o & _ & _ & _ & _ & _ & -> & _); [|exact Hr].
    cbn [ts_type]. destruct (_ || _); discriminate. }
  assert (Last : ts_type ts1 = LAST -> h = []).
  { intros L. destruct h as [|y h]; [reflexivity|]. exfalso. eapply (Hn [] _ y h eq_refl). exact L. }
  rewrite Hl in Es. destruct (ts_type t) eqn:Et; [contradiction| |].
  - destruct (Z.leb_spec n (sl_elapsed w + 1)) as [L|L]; injection Es as <- <-.
    + rewrite Last by reflexivity. cbn. lia.
    + assert (K : (sl_elapsed w + 1 + Z.of_nat (length h) <= n)%Z); [|lia].
      apply IH2; cbn [sl_elapsed sl_env w_env]; [lia| |].
      * destruct (env_requires_reset (eo_env _)); [|reflexivity]. destruct (proj1 Fl eq_refl) as (_ & t' & E1 & E2). congruence.
      * intros h1 x y h2 ->. exact (Hn (_ :: h1) x y h2 eq_refl).
  - assert (L : ts_type ts1 = LAST).
    { destruct (n <=? sl_elapsed w + 1)%Z; injection Es as <- _; [reflexivity|exact Et]. }
    rewrite (Last L). cbn. lia.
Qed.
Theorem eval_command_limit : forall e timeout video seeds a rng ga rs vs a' w' r,
  attempts (agent_of e) (env_of e) steps timeout video seeds a
    (if video then ee_add_observer (env_of e) watcher (fresh e rng ga) else fresh e rng ga) rs vs a' w' ->
  In r rs -> (er_num_actions_taken r <= 600)%nat.
Proof.
  intros e timeout video seeds a rng ga rs vs a' w' r At.
  assert (H0 : sl_limit (if video then ee_add_observer (env_of e) watcher (fresh e rng ga) else fresh e rng ga) = Some 600%Z)
    by (destruct video; reflexivity).
  revert H0 At. generalize (if video then ee_add_observer (env_of e) watcher (fresh e rng ga) else fresh e rng ga).
  intros w0 H0 At. induction At as [a w|seed seeds a w start h ts a1 w1 r1 rs v vs a' w' Ha _ Rp _ At IH]; [contradiction|].
  destruct Ha as (ts0 & w2 & Er & _ & X & Go & _). destruct Rp as (_ & Rp & _).
  cbn [command_env limited_eval_env ee_env ee_seed limited_environment e_reset] in Er. unfold sl_reset in Er.
  cbn [sl_env sl_limit dune_eval_env ee_env ee_seed e_reset w_env w_events watch] in Er. injection Er as _ E2.
  assert (Hl : sl_limit w2 = Some 600%Z) by (rewrite <- E2; exact H0).
  destruct (few_exchanges e 600%Z _ _ _ _ _ _ _ X Hl) as (Hl1 & Few).
  intros [<-|Hr]; [|exact (IH Hl1 Hr)].
  rewrite Rp. rewrite <- E2 in Few. cbn [sl_elapsed sl_env w_env] in Few.
  assert (K : (0 + Z.of_nat (length h) <= 600)%Z); [|lia]. apply Few; [lia|apply reset_flag|].
  intros h1 x y h2 ->. destruct (Go (h1 ++ [x]) y h2) as (G1 & _); [rewrite <- app_assoc; reflexivity|].
  exact (G1 h1 x eq_refl).
Qed.
End Command.
Print Assumptions eval_command_limit.
Print Assumptions eval_command_unknown.
Print Assumptions eval_command_returns.
Print Assumptions eval_command_complete.
Print Assumptions videos_change_nothing.
Print Assumptions random_eval_command.

(** A sampler, a neighbour search, a clock and bounds as required. *)
Example eval_command_nonvacuous : exists log vs p k,
  main (ex_sampler 1) (fun _ _ _ g => (Raise ValueError, g)) knn_sort (fun i => i) (fun _ _ => Raise ValueError) (fun _ => Ok tt)
    (fun _ _ => Ok tt) (fun c => (INR c, S c)) (Z.to_nat 10000000) 300 7%nat eval_experiments
    "relative_random_simple" "tiny_eval" true 0%nat None 0%nat = (Ok log, vs) /\
  first_seeds (map fst vs) 10 /\ In (Logged "Proportion successful runs" (Some p)) log /\
  In (Logged "Average number of actions taken" (Some k)) log.
Proof.
  destruct (random_eval_command (ex_sampler 1) (fun _ _ _ g => (Raise ValueError, g)) knn_sort (fun i => i) (fun _ _ => Raise ValueError) (fun _ => Ok tt)
    (fun _ _ => Ok tt) (fun c => (INR c, S c)) (Z.to_nat 10000000) 300 7%nat [] "relative_random_simple" false "tiny_eval" 10 true 0%nat None 0%nat)
    as (log & vs & p & k & H1 & H2 & H3 & _ & H4 & _).
  - left. reflexivity.
  - left. reflexivity.
  - apply ex_sampler_ok. lra.
  - intros sc g. cbn. lra.
  - apply knn_sort_ok.
  - rewrite Z2Nat.id by lia. lia.
  - lia.
  - reflexivity.
  - intros c. cbn [fst snd]. rewrite S_INR. lra.
  - eauto.
  - exists log, vs, p, k. auto.
Qed.

(** Such a command makes attempts, as [eval_command_limit] requires. *)
Example eval_limit_nonvacuous : exists e seeds rs vs a' w' r,
  attempts (command_agent (ex_sampler 1) (fun _ _ => Raise ValueError) (fun c => (INR c, S c)) e)
    (command_env (ex_sampler 1) (fun _ _ _ g => (Raise ValueError, g)) knn_sort (fun i => i) (fun _ _ => Ok tt) (Z.to_nat 10000000) 7%nat e)
    300 600000000%Z true seeds (s_seed (ex_sampler 1) 0, 0%nat)
    (ee_add_observer (command_env (ex_sampler 1) (fun _ _ _ g => (Raise ValueError, g)) knn_sort (fun i => i) (fun _ _ => Ok tt) (Z.to_nat 10000000) 7%nat e)
       7%nat (fresh_env (ex_sampler 1) knn_sort e 0%nat None)) rs vs a' w' /\ In r rs.
Proof.
  destruct eval_command_nonvacuous as (log & vs & p & k & H & (F & _) & _).
  destruct (eval_command_returns (ex_sampler 1) (fun _ _ _ g => (Raise ValueError, g)) knn_sort (fun i => i) (fun _ _ => Raise ValueError) (fun _ => Ok tt)
    (fun _ _ => Ok tt) (fun c => (INR c, S c)) (Z.to_nat 10000000) 300 7%nat [] _ _ _ _ _ _ _ _ H)
    as (e & n & seeds & rs & a' & w' & _ & _ & _ & _ & At & S1 & S2 & _).
  destruct rs as [|r rs]; [|exists e, seeds, (r :: rs), vs, a', w', r; split; [exact At|left; reflexivity]].
  rewrite <- S1 in S2. rewrite S2 in F. discriminate F.
Qed.
