(** Properties C83, C84: videos of evaluations. *)
From Flocq Require Import Core.
From Coq Require Import Reals ZArith List Bool Lia Lra Arith.
From Verif Require Import Base.Prelude Base.Rounding Base.Random Model.Constants Model.Geometry Model.MicroscopeUtils
  Model.Graphene Model.Simulator Model.SimulatorObservers Model.ActionAdapters Model.Goals Model.FeatureConstructors
  Model.Environment Model.EvalLib Model.PlottingUtils
  Spec.Grids Spec.Neighbours Spec.Lattice Spec.Material Spec.MaterialRuns Spec.Simulation Spec.Acting Spec.Episodes Spec.Evaluation Spec.Video
  Proofs.BaseFacts Proofs.RoundingFacts Proofs.GeometryFacts Proofs.RateFacts Proofs.CanonicalFacts Proofs.ActingFacts Proofs.ExampleSampler
  Proofs.FovFacts Proofs.SimulatorFacts Proofs.SimulatorHistories Proofs.EnvironmentFacts Proofs.EpisodeFacts Proofs.EvalFacts Proofs.EvalEnvFacts Proofs.VideoFacts
  Props.RateProps Props.SimulatorProps Props.EnvironmentProps Props.AdapterProps Props.ShippedStack Props.EvalProps.
Import ListNotations.
Open Scope R_scope.

(** ** C83: the frames of a video *)

(** one frame per control, showing what had happened before it, and one more
    for the end *)
Theorem video_frames_show : forall log,
  length (generate_video_frames log) = S (length (logged_controls log)) /\
  (forall before d p after, log = before ++ EvApplyControl d p :: after ->
     nth_error (generate_video_frames log) (length (logged_controls before)) = Some (snapshot before (Some p))) /\
  nth_error (generate_video_frames log) (length (logged_controls log)) = Some (snapshot log (latest (map snd (logged_controls log)))).
Proof.
  intros log. rewrite generated. split; [apply frames_length|]. split.
  - intros before d p after ->. apply (frames_nth before []).
  - apply (frames_last log []).
Qed.
Print Assumptions video_frames_show.

(** the time stamps never go back, if no dwell time or image duration is
    negative *)
Theorem video_time_stamps : forall log i j f g,
  Forall (fun e => match e with EvApplyControl d _ => 0 <= d | EvTakeImage d _ => 0 <= d | _ => True end)%Z log ->
  nth_error (generate_video_frames log) i = Some f -> nth_error (generate_video_frames log) j = Some g ->
  (i <= j)%nat -> (0 <= fr_time f <= fr_time g)%Z.
Proof.
  intros log i j f g Nn. rewrite generated.
  assert (K : forall log pre, Forall (fun e => match e with EvApplyControl d _ => 0 <= d | EvTakeImage d _ => 0 <= d | _ => True end)%Z log ->
    Forall (fun fr => logged_time pre <= fr_time fr)%Z (video_frames (merged pre) log) /\
    forall i j f g, nth_error (video_frames (merged pre) log) i = Some f -> nth_error (video_frames (merged pre) log) j = Some g ->
    (i <= j)%nat -> (fr_time f <= fr_time g)%Z).
  { clear. induction log as [|e log IH]; intros pre N.
    - rewrite frames_spec. split; [repeat constructor; cbn; lia|]. intros [|i] [|j] f g Ef Eg L.
      + injection Ef as <-. injection Eg as <-. lia.
      + cbn in Eg; destruct j; discriminate.
      + lia.
      + cbn in Eg; destruct j; discriminate.
    - inversion N as [|? ? N1 N2]; subst. rewrite frames_spec.
      destruct (IH (pre ++ [e]) N2) as (A & B).
      assert (Le : (logged_time pre <= logged_time (pre ++ [e]))%Z).
      { rewrite logged_time_app. unfold logged_time at 3, zsum. destruct e; cbn [map fold_right]; lia. }
      assert (A' : Forall (fun fr => logged_time pre <= fr_time fr)%Z (video_frames (merged (pre ++ [e])) log)).
      { eapply Forall_impl; [|exact A]. cbn. intros; lia. }
      destruct e; cbn [app]; auto. split; [constructor; auto; cbn; lia|].
      intros [|i] [|j] f g Ef Eg L; cbn [nth_error] in *.
      + injection Ef as <-. injection Eg as <-. lia.
      + injection Ef as <-. apply nth_error_In in Eg. rewrite Forall_forall in A'. apply (A' _ Eg).
      + lia.
      + apply (B i j); auto. lia. }
  intros Ef Eg L. destruct (K log [] Nn) as (A & B). split; [|eapply B; eauto].
  apply nth_error_In in Ef. rewrite Forall_forall in A. apply (A _ Ef).
Qed.
Print Assumptions video_time_stamps.

(** the image of a frame is the latest one *)
Theorem video_images : forall log f, In f (generate_video_frames log) -> plotted_image log f = fr_image f.
Proof.
  intros log f I. unfold plotted_image. destruct (events_contain_images log) eqn:E; auto.
  assert (N : forall a b, log = a ++ b -> logged_images a = []).
  { intros a b ->. clear I. unfold events_contain_images in E. rewrite existsb_app in E. apply orb_false_elim in E as (E & _).
    induction a as [|e a IH]; [reflexivity|]. cbn [existsb] in E. apply orb_false_elim in E as (E1 & E2).
    destruct e; try discriminate; cbn [logged_images flat_map app]; apply IH; auto. }
  rewrite generated in I. apply frames_in in I as [->|(mid & d & p & post & -> & ->)]; cbn [app merged snapshot fr_image].
  - rewrite (N log []); [reflexivity|]. symmetry. apply app_nil_r.
  - rewrite (N mid (EvApplyControl d p :: post)); reflexivity.
Qed.
Print Assumptions video_images.

(** a video can be saved exactly if something was done; every frame shows
    atoms, goal and control in the microscope frame *)
Theorem video_saved : forall goal gr f rest pics, save_video (EvReset gr f :: rest) goal = Ok pics <->
  logged_controls rest <> [] /\ Forall2 (pictured_frame goal) (generate_video_frames (EvReset gr f :: rest)) pics.
Proof.
  intros goal gr f rest pics. rewrite <- plots_Ok. change (plot_frames goal (generate_video_frames ?l)) with (save_video l goal).
  split; [|tauto]. intros E. split; auto. intros N. rewrite save_raises_after_reset in E by auto. discriminate.
Qed.
Print Assumptions video_saved.

Theorem video_not_saved : forall goal gr f rest,
  (logged_controls rest <> [] -> exists pics, save_video (EvReset gr f :: rest) goal = Ok pics) /\
  (logged_controls rest = [] -> save_video (EvReset gr f :: rest) goal = Raise ValueError) /\
  save_video [] goal = Raise AttributeError.
Proof.
  intros. split; [apply save_Ok_after_reset|]. split; [apply save_raises_after_reset|reflexivity].
Qed.
Print Assumptions video_not_saved.

(** there is a panel for images exactly if one was generated *)
Theorem image_panel : forall log, events_contain_images log = true <-> exists i, In (EvGeneratedImage i) log.
Proof.
  intros log. unfold events_contain_images. rewrite existsb_exists. split.
  - intros (e & I & E). destruct e as [| | | |i]; try discriminate. exists i. exact I.
  - intros (i & I). exists (EvGeneratedImage i). auto.
Qed.
Print Assumptions image_panel.

(** a frame is not drawn without a grid, a field of view or a control *)
Theorem frame_not_drawn : forall goal f x, plot_frame goal f = Raise x <->
  x = AttributeError /\ (fr_grid f = None \/ fr_fov f = None) \/
  x = ValueError /\ fr_grid f <> None /\ fr_fov f <> None /\ fr_control f = None.
Proof.
  intros goal [gr v c t i] x. unfold plot_frame. cbn [fr_grid fr_fov fr_control].
  destruct gr, v, c; split; intros H;
    try discriminate;
    try (injection H as <-; first [left; split; [reflexivity|]; auto; fail | right; repeat split; discriminate || reflexivity]);
    destruct H as [(-> & [H|H])|(-> & H1 & H2 & H3)]; try discriminate; try congruence; reflexivity.
Qed.
Print Assumptions frame_not_drawn.

(** ** Time stamps as text *)
Theorem timedelta_format : forall t, (0 <= t)%Z -> exists m sec h, format_timedelta t = (m, sec, h) /\
  clock_time t m sec h /\ m = (t / 60000000)%Z /\ (h = 100%Z <-> (995000 <= t mod 1000000)%Z).
Proof.
  intros t T. pose proof (format_facts t T) as K. destruct (format_timedelta t) as [[m sec] h]. destruct K as (-> & -> & Eh).
  exists (t / 60000000)%Z, (t / 1000000 mod 60)%Z, h. split; auto.
  pose proof (Z.mod_pos_bound t 1000000 ltac:(lia)) as B.
  pose proof (rhe_error (IZR (t mod 1000000) / 10000)) as Er. rewrite <- Eh in Er.
  assert (Er' : - (1 / 2) <= IZR (t mod 1000000) / 10000 - IZR h <= 1 / 2).
  { split; [|pose proof (Rle_abs (IZR (t mod 1000000) / 10000 - IZR h)); lra].
    pose proof (Rle_abs (- (IZR (t mod 1000000) / 10000 - IZR h))) as Q. rewrite Rabs_Ropp in Q. lra. }
  assert (Ez : (- 5000 <= t mod 1000000 - h * 10000 <= 5000)%Z).
  { split; apply le_IZR; rewrite minus_IZR, mult_IZR; lra. }
  split; [|split; auto].
  - unfold clock_time. split; [apply Z.mod_pos_bound; lia|]. split; [lia|].
    replace (t / 60000000)%Z with (t / 1000000 / 60)%Z by (rewrite Z.div_div by lia; reflexivity).
    pose proof (Z.div_mod (t / 1000000) 60 ltac:(lia)) as D1. pose proof (Z.div_mod t 1000000 ltac:(lia)) as D2. lia.
  - split; [lia|]. intros L. destruct (Z.eq_dec h 100) as [|N]; auto. exfalso.
    assert (h = 99)%Z by lia. assert (t mod 1000000 = 995000)%Z as E5 by lia. rewrite E5 in Eh.
    assert (R1 : round_half_even (995000 / 10000) = 100%Z).
    { unfold round_half_even, ZnearestE. assert (Fl : Zfloor (995000 / 10000) = 99%Z) by (apply Zfloor_imp; simpl; lra).
      unfold Znearest. rewrite Fl. rewrite Rcompare_Eq by (simpl; lra). simpl.
      apply Zceil_imp; simpl; lra. }
    lia.
Qed.
Print Assumptions timedelta_format.

(** ** C84: the videos of an evaluation *)
Theorem shipped_adapters_one_control : forall G (s : sampler G) lo hi dist,
  one_control (@direct_adapter G) /\ one_control (delta_adapter s) /\
  one_control (@relative_adapter G (new_relative lo hi dist)) /\
  one_control (@material_frame_adapter G (new_relative lo hi dist)).
Proof.
  intros G s lo hi dist. unfold one_control.
  split; [|split; [|split]]; intros st o a cs st' E.
  - assert (E' : fst (aa_get_action (@direct_adapter G) st o a) = Ok cs) by (rewrite E; reflexivity).
    apply direct_adapter_result in E' as (? & ? & ? & _ & _ & ->). reflexivity.
  - apply delta_adapter_result in E as (? & ? & _ & _ & ->). reflexivity.
  - cbn [relative_adapter aa_get_action] in E. apply (f_equal fst) in E. cbn [fst] in E. unfold relative_get_action in E.
    repeat match type of E with bind ?x _ = _ => destruct x eqn:?; cbn [bind] in E; try discriminate | (if ?x then _ else _) = _ => destruct x; try discriminate end.
    injection E as <-. reflexivity.
  - cbn [material_frame_adapter aa_get_action] in E. apply (f_equal fst) in E. cbn [fst] in E. unfold material_frame_get_action in E.
    repeat match type of E with bind ?x _ = _ => destruct x eqn:?; cbn [bind] in E; try discriminate | (if ?x then _ else _) = _ => destruct x; try discriminate end.
    injection E as <-. reflexivity.
Qed.
Print Assumptions shipped_adapters_one_control.

Section Films.
Context {G St F A : Type}.
Variable s : sampler G.
Variable render : @renderer G.
Variable adapter : action_adapter G St.
Variable features : feature_constructor goal_state F.
Variable fuel : nat.
Variable watcher : observer.
Notation goal := (single_silicon_goal s).
Notation dune := (dune_eval_env s render adapter features goal fuel save_video watcher).
Notation dune_with movie := (dune_eval_env s render adapter features goal fuel movie watcher).
Notation watching w := (count_occ Nat.eq_dec (sim_observers (env_sim (w_env w))) watcher = 1%nat).

Lemma add_watching {V} (movie : list sim_event -> pt -> res V) w : ~ In watcher (registered w) -> watching (ee_add_observer (dune_with movie) watcher w).
Proof.
  intros N. change (count_occ Nat.eq_dec (registered w ++ [watcher]) watcher = 1%nat).
  pose proof (proj1 (count_occ_not_In Nat.eq_dec (registered w) watcher) N) as K. rewrite count_occ_app.
  transitivity (0 + 1)%nat; [f_equal; [exact K|]|reflexivity]. cbn. destruct (Nat.eq_dec watcher watcher); [reflexivity|congruence].
Qed.

Lemma films rf cols d (ag : agent A F) n timeout suite a w rs vs a' w' : sampler_ok s -> (2 <= cols)%nat -> hopping rf ->
  attempts ag dune n timeout true suite a w rs vs a' w' ->
  lives s render adapter features goal fuel rf cols d (w_env w) -> watching w ->
  Forall2 (fun r v => exists log si start (h : list (exchange F)) ts, fst v = er_seed r /\ save_video log si = Ok (snd v) /\
      reports r (er_seed r) start h ts /\ (exists gr f rest, log = EvReset gr f :: rest /\ Forall (fun e => ~ is_reset_event e) rest) /\
      logged_time log = (start + zsum (map x_elapsed h))%Z /\
      (one_control adapter -> length (snd v) = S (er_num_actions_taken r))) rs vs.
Proof.
  intros O C H At. induction At as [|seed seeds a w start h ts a1 w1 r rs v vs a' w' At Lh Rp Vd Rest IH]; intros L W; [constructor|].
  destruct (attempt_log s render adapter features goal fuel save_video watcher rf cols d O C H ag timeout seed a w start h ts a1 w1 L W At) as
    (L1 & W1 & gr & f & rest & E1 & E2 & E3 & E4 & E5 & E6 & E7).
  destruct Vd as (pics & Vd & ->). constructor; [|apply IH; auto].
  cbn [dune_eval_env ee_video] in Vd. exists (w_events w1), (goal_position (env_goal (w_env w1))), start, h, ts. cbn [fst snd].
  destruct Rp as (Rs & Rn & Rp). rewrite Rs. split; auto. split; auto. split; [split; auto; split; auto|].
  split; [exists gr, f, rest; auto|]. split; auto.
  intros One. rewrite E1 in Vd. apply video_saved in Vd as (_ & F2).
  assert (Ln : forall (l : list frame) (k : list (grid * pt * pt)) P, Forall2 P l k -> length l = length k).
  { intros l k P Q; induction Q; cbn; auto. }
  rewrite <- (Ln _ _ _ F2). rewrite (proj1 (video_frames_show _)). rewrite <- E1, (E3 One), Rn. reflexivity.
Qed.

(** every video of an evaluation shows the attempt at its seed: it starts with
    the reset, ends at the time the environment took and, for adapters with one
    control per action, has one frame per action and one for the end *)
Theorem evaluation_videos : forall rf cols d (ag : agent A F) n timeout suite a w rs vs a' w', sampler_ok s -> (2 <= cols)%nat -> hopping rf ->
  lives s render adapter features goal fuel rf cols d (w_env w) -> ~ In watcher (registered w) ->
  evaluate ag dune n timeout true watcher suite a w = (Ok rs, vs, a', w') ->
  Forall2 (fun r v => exists log si start (h : list (exchange F)) ts, fst v = er_seed r /\ save_video log si = Ok (snd v) /\
      reports r (er_seed r) start h ts /\ (exists gr f rest, log = EvReset gr f :: rest /\ Forall (fun e => ~ is_reset_event e) rest) /\
      logged_time log = (start + zsum (map x_elapsed h))%Z /\
      (one_control adapter -> length (snd v) = S (er_num_actions_taken r))) rs vs.
Proof.
  intros rf cols d ag n timeout suite a w rs vs a' w' O C H L Fr E.
  apply evaluate_returns in E as (w1 & At & _). refine (films rf cols d ag n timeout suite _ _ rs vs a' w1 O C H At _ _).
  - apply alive_add; auto.
  - apply add_watching; auto.
Qed.

(** the environment is the same whatever films it *)
Lemma exchanges_movie (m1 m2 : list sim_event -> pt -> res (list (grid * pt * pt))) (ag : agent A F) ts a w h ts' a' w' :
  exchanges ag (dune_with m1) ts a w h ts' a' w' -> exchanges ag (dune_with m2) ts a w h ts' a' w'.
Proof.
  intros Ex. induction Ex as [|ts a w t0 a0 act a1 t1 a2 ts1 w1 h ts' a' w' Q0 Q1 Q2 Q3 Q4 IH]; [constructor|].
  exact (exchanges_cons ag (dune_with m2) ts a w t0 a0 act a1 t1 a2 ts1 w1 h ts' a' w' Q0 Q1 Q2 Q3 IH).
Qed.
Lemma attempt_movie (m1 m2 : list sim_event -> pt -> res (list (grid * pt * pt))) (ag : agent A F) timeout seed a w start h ts a' w' :
  attempt ag (dune_with m1) timeout seed a w start h ts a' w' -> attempt ag (dune_with m2) timeout seed a w start h ts a' w'.
Proof.
  intros (ts0 & e1 & E & Es & Ex & P & N). exists ts0, e1. split; [exact E|]. split; [exact Es|]. split; [|auto].
  eapply exchanges_movie; exact Ex.
Qed.

(** if every attempt has time for an action, evaluations of the stack with
    videos return too, with one video per seed *)
Theorem stack_films : forall (ag : agent A F) actions rf cols d n timeout suite a w,
  sampler_ok s -> (forall sc g, / 2000000 < fst (s_exponential s sc g)) ->
  (3 <= cols)%nat -> steady rf cols -> describes features -> accepts adapter fuel actions -> never_negative adapter -> one_control adapter ->
  (fc_requires_image features = true -> forall og f prm g, exists i g', render og f prm g = (Ok i, g')) ->
  (0 <= d)%Z -> (d < timeout <= d * Z.of_nat n)%Z ->
  lives s render adapter features goal fuel rf cols d (w_env w) ->
  ~ In watcher (registered w) ->
  (forall ts a, exists act a', agent_step ag ts a = (Ok act, a') /\ actions act) ->
  (forall ts a t0 a0 r a1 t1 a2, perf_counter ag a = (t0, a0) -> agent_step ag ts a0 = (r, a1) ->
    perf_counter ag a1 = (t1, a2) -> t0 <= t1) ->
  exists rs vs a' w', evaluate ag dune n timeout true watcher suite a w = (Ok rs, vs, a', w') /\
    map er_seed rs = suite /\ map fst vs = suite /\ Forall (fun r => er_num_actions_taken r <> 0%nat) rs.
Proof.
  intros ag actions rf cols d n timeout suite a w O X C H Ds Ac NN One Rn D (T1 & T2) L Fresh Act Clk.
  set (total := fun l p => match save_video l p with Ok v => Ok v | _ => Ok [] end).
  destruct (stack_evaluates s render adapter features fuel total watcher ag actions rf cols d n timeout true suite a w) as
    (rs & vs & a' & w' & Ev & Es & Ef & _); auto.
  { intros _ l p. unfold total. destruct (save_video l p); eauto. }
  apply evaluate_returns in Ev as (w1 & At & Rm).
  assert (C2 : (2 <= cols)%nat) by lia.
  assert (K : forall suite a w rs vs a' w', attempts ag (dune_with total) n timeout true suite a w rs vs a' w' ->
    lives s render adapter features goal fuel rf cols d (w_env w) -> watching w ->
    attempts ag dune n timeout true suite a w rs vs a' w' /\ Forall (fun r => er_num_actions_taken r <> 0%nat) rs).
  { clear - O C2 H T1 One. intros suite a w rs vs a' w' At.
    induction At as [|seed seeds a w start h ts a1 w1 r rs v vs a' w' At Lh Rp Vd Rest IH]; intros L W; [split; constructor|].
    destruct (attempt_log s render adapter features goal fuel total watcher rf cols d O C2 (proj1 H) ag timeout seed a w start h ts a1 w1 L W At) as
      (L1 & W1 & gr & f & rest & E1 & E2 & E3 & E4 & E5 & E6 & E7).
    destruct (IH L1 W1) as (I1 & I2).
    assert (Nh : h <> []).
    { intros ->. destruct At as (ts0 & e1 & Er & -> & _ & _ & Ng). apply Ng. apply goes_on_nil.
      assert (Ls : lives s render adapter features goal fuel rf cols d (w_env (ee_seed (dune_with total) seed w))).
      { destruct L as (st & gl & g & ga & Le). exists st, gl, g, ga. apply lived_seed. exact Le. }
      cbn [dune_eval_env ee_env e_reset] in Er. unfold watch in Er. injection Er as Er <-.
      pose proof (reset_elapsed s render adapter features fuel rf cols d _ O C2 (proj1 H) Ls _ Er) as Ed.
      eapply Z.le_lt_trans; [apply Z.eq_le_incl; exact Ed|exact T1]. }
    assert (Rn : er_num_actions_taken r <> 0%nat).
    { destruct Rp as (_ & -> & _). destruct h; [congruence|discriminate]. }
    split; [|constructor; auto]. econstructor; eauto; [eapply attempt_movie; exact At|].
    cbn [dune_eval_env ee_video] in Vd |- *. destruct Vd as (v0 & Vd & ->). exists v0. split; auto.
    unfold total in Vd. rewrite E1 in Vd |- *.
    destruct (save_Ok_after_reset (goal_position (env_goal (w_env w1))) gr f rest) as (pics & Ep).
    { intros N. specialize (E3 One). rewrite E1 in E3. change (logged_controls (EvReset gr f :: rest)) with (logged_controls rest) in E3.
      rewrite N in E3. destruct h; [congruence|discriminate]. }
    rewrite Ep in Vd |- *. exact Vd. }
  destruct (K _ _ _ _ _ _ _ At) as (At' & Nz).
  - apply alive_add; auto.
  - apply add_watching; auto.
  - exists rs, vs, a', w'. split; [|auto]. apply evaluate_returns. exists w1. split; [exact At'|exact Rm].
Qed.

(** but if the reset uses up the time, there is nothing to show and evaluate
    raises, leaving its observer behind; without videos it returns *)
Theorem nothing_to_film : forall rf cols d (ag : agent A F) n timeout seed suite a w,
  sampler_ok s -> (3 <= cols)%nat -> hopping rf -> describes features ->
  (fc_requires_image features = true -> forall og f prm g, exists i g', render og f prm g = (Ok i, g')) ->
  lives s render adapter features goal fuel rf cols d (w_env w) -> ~ In watcher (registered w) -> (timeout <= d)%Z ->
  (exists w', evaluate ag dune n timeout true watcher (seed :: suite) a w = (Raise ValueError, [], agent_set_eval_mode ag a, w') /\
     registered w' = registered w ++ [watcher]) /\
  (exists rs a' w', evaluate ag dune n timeout false watcher [seed] a w = (Ok rs, [], a', w')).
Proof.
  intros rf cols d ag n timeout seed suite a w O C H Ds Rn L Fr T.
  assert (C2 : (2 <= cols)%nat) by lia.
  assert (K : forall w, lives s render adapter features goal fuel rf cols d (w_env w) -> exists ts w1,
     attempt ag dune timeout seed (agent_set_eval_mode ag a) w d [] ts (agent_set_eval_mode ag a) w1).
  { intros w0 L0.
    assert (Ls : lives s render adapter features goal fuel rf cols d (w_env (ee_seed dune seed w0))).
    { destruct L0 as (st & gl & g & ga & Le). exists st, gl, g, ga. apply lived_seed. exact Le. }
    destruct (stack_reset s render adapter features fuel rf cols d _ O C H Ds Rn Ls) as (ts & Er).
    pose proof (reset_elapsed s render adapter features fuel rf cols d _ O C2 H Ls ts Er) as Ed.
    exists ts. eexists. exists ts. eexists. split.
    { cbn [dune_eval_env ee_env e_reset]. unfold watch. rewrite Er. reflexivity. }
    cbn [dune_eval_env ee_elapsed w_env]. split; [symmetry; exact Ed|]. split; [constructor|].
    split; [intros [|? ?] ? ? Q; discriminate|]. rewrite goes_on_nil. lia. }
  split.
  - destruct (K (ee_add_observer dune watcher w)) as (ts & w1 & At); [apply alive_add; auto|].
    assert (W : watching (ee_add_observer dune watcher w)).
    { apply add_watching; auto. }
    destruct (attempt_log s render adapter features goal fuel save_video watcher rf cols d O C2 H ag timeout seed _ _ d [] ts _ w1
      (alive_add s render adapter features fuel save_video watcher rf cols d watcher w L) W At) as
      (L1 & W1 & gr & f & rest & E1 & E2 & E3 & E4 & E5 & E6 & E7).
    assert (Ex : evaluate ag dune n timeout true watcher (seed :: suite) a w = (Raise ValueError, [], agent_set_eval_mode ag a, w1)).
    { apply evaluate_raises. left. exists [], seed, suite, [], (agent_set_eval_mode ag a), (ee_add_observer dune watcher w).
      split; [reflexivity|]. split; [constructor|]. right. exists d, [], ts. split; [exact At|]. split; [cbn; lia|]. split; [reflexivity|].
      cbn [dune_eval_env ee_video]. rewrite E1. apply save_raises_after_reset. specialize (E4 eq_refl). rewrite E1 in E4. exact E4. }
    exists w1. split; auto.
    destruct (evaluate_observers s render adapter features goal fuel save_video watcher ag n timeout true (seed :: suite) a w _ _ _ _ Fr Ex) as (_ & _ & Q).
    apply Q; auto. discriminate.
  - destruct (K w L) as (ts & w1 & At).
    exists [result_of seed ts (@after F (mkmetrics 0 0 0%Z d) [])], (agent_set_eval_mode ag a), w1. apply evaluate_returns. exists w1. split; auto.
    refine (attempts_cons _ _ n timeout false seed [] _ _ d [] ts _ _ _ [] [] [] _ _ At _ _ _ _); [cbn; lia|apply result_reports|reflexivity|constructor].
Qed.
End Films.
Print Assumptions evaluation_videos.
Print Assumptions stack_films.
Print Assumptions nothing_to_film.

(** ** Centring on the silicon atom *)
Theorem centred_on_silicon : forall g, wf_grid g ->
  ((~ exists p, In (p, 14%Z) (atoms g)) -> center_grid_on_single_silicon g = Raise ValueError) /\
  ((exists p, In (p, 14%Z) (atoms g)) -> exists si g', center_grid_on_single_silicon g = Ok g' /\
     In (si, 14%Z) (atoms g) /\ In (pzero, 14%Z) (atoms g') /\
     atoms g' = map (fun x => (psub (fst x) si, snd x)) (atoms g)).
Proof.
  intros g W. unfold center_grid_on_single_silicon. split.
  - intros N. apply single_silicon_missing in N; auto. rewrite N. reflexivity.
  - intros X. destruct (single_silicon_nearest g W X) as (sis & i & p & Sl & E & Hi & _). rewrite E.
    exists p. eexists. split; [reflexivity|].
    assert (I : In (p, 14%Z) (atoms g)) by (apply nth_error_In in Hi; apply (selects_In _ _ _ Sl) in Hi; apply Hi).
    assert (Ea : atoms (mkgrid (map (fun q => psub q p) (positions g)) (numbers g)) = map (fun x => (psub (fst x) p, snd x)) (atoms g)).
    { unfold atoms. cbn [positions numbers]. generalize (positions g) (numbers g). induction l as [|x l IH]; intros [|z k]; cbn; auto. f_equal. apply IH. }
    split; auto. rewrite Ea. split; auto. apply in_map_iff. exists (p, 14%Z). split; auto. cbn [fst snd]. f_equal.
    unfold psub, pzero. f_equal; lra.
Qed.
Print Assumptions centred_on_silicon.

(** ** The hypotheses are met *)
(** ten seeds of the shipped stack are filmed *)
Example stack_films_nonvacuous : forall fuel, (1500000 <= Z.of_nat fuel)%Z -> exists rs vs a' w',
  evaluate ex_agent (dune_eval_env (ex_sampler 1) ex_draw_image ex_adapter (pristine_features knn_sort) (single_silicon_goal (ex_sampler 1)) fuel
    save_video 7%nat) 300 default_timeout true 7%nat tiny_eval false (mkwatched ex_env []) = (Ok rs, vs, a', w') /\
  map fst vs = tiny_eval /\ one_control ex_adapter.
Proof.
  intros fuel Hf.
  assert (One : one_control ex_adapter) by (apply (shipped_adapters_one_control nat (ex_sampler 1) 1500000%Z 1500000%Z (5 / 2))).
  destruct (stack_films (ex_sampler 1) ex_draw_image ex_adapter (pristine_features knn_sort) fuel 7%nat
    ex_agent (fun a => a <> [] /\ (1500000%Z <> 1500000%Z -> (3 <= length a)%nat)) ex_rf 15 2000000%Z 300 default_timeout tiny_eval false
    (mkwatched ex_env [])) as (rs & vs & a' & w' & Ev & K1 & K2 & _).
  - apply ex_sampler_ok; lra.
  - intros; simpl; lra.
  - lia.
  - apply (shipped_rates_steady knn_sort 15); [apply knn_sort_ok|lia].
  - apply (shipped_features_describe knn_sort (fun i => i)), knn_sort_ok.
  - apply (shipped_adapters_accept nat (ex_sampler 1) 1500000%Z 1500000%Z (5 / 2) fuel); lia.
  - apply (adapters_never_negative nat (ex_sampler 1)). lia.
  - exact One.
  - discriminate.
  - lia.
  - rewrite ten_minutes. lia.
  - apply ex_env_lives.
  - intros [].
  - intros ts a. exists [1; 0], a. split; [reflexivity|]. split; [discriminate|lia].
  - intros ts a t0 a0 r a1 t1 a2 A0 A1 A2. cbn in A0, A2. injection A0 as <- _. injection A2 as <- _. lra.
  - exists rs, vs, a', w'. split; [exact Ev|]. split; [exact K2|exact One].
Qed.

(** two controls, a hop and the images after them; 61.999 seconds *)
Example video_nonvacuous :
  let g1 := mkgrid [mkpt 0 0; mkpt 1 1] [14; 6]%Z in let g2 := mkgrid [mkpt 0 0; mkpt 1 1] [6; 14]%Z in
  let f := mkfov (mkpt (-1) (-1)) (mkpt 1 1) in
  generate_video_frames [EvReset g1 f; EvTakeImage 2%Z f; EvApplyControl 3%Z (mkpt 1 1); EvTransition 1%Z g2; EvTakeImage 2%Z f;
                         EvApplyControl 3%Z (mkpt 0 0); EvTakeImage 2%Z f] =
  [mkframe (Some g1) (Some f) (Some (mkpt 1 1)) 2%Z None; mkframe (Some g2) (Some f) (Some (mkpt 0 0)) 7%Z None;
   mkframe (Some g2) (Some f) (Some (mkpt 0 0)) 12%Z None] /\
  format_timedelta 61999000%Z = (1, 1, 100)%Z.
Proof.
  cbv zeta. split; [reflexivity|]. destruct (timedelta_format 61999000%Z ltac:(lia)) as (m & sec & h & -> & (K1 & K2 & K3) & K4 & K5).
  assert (m = 1)%Z by (rewrite K4; reflexivity). assert (h = 100)%Z by (apply K5; vm_compute; discriminate).
  assert (sec = 1)%Z by lia. congruence.
Qed.
