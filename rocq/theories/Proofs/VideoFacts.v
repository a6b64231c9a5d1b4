(** Lemmas about videos. *)
From Coq Require Import Reals ZArith List Bool Lia Lra Arith.
From Flocq Require Import Core.
From Verif Require Import Base.Prelude Base.Rounding Base.Random Model.Geometry Model.MicroscopeUtils Model.Graphene Model.Simulator
  Model.SimulatorObservers Model.ActionAdapters Model.Goals Model.FeatureConstructors Model.Environment Model.EvalLib Model.PlottingUtils
  Spec.Grids Spec.Material Spec.MaterialRuns Spec.Simulation Spec.Acting Spec.Episodes Spec.Evaluation Spec.Video
  Proofs.BaseFacts Proofs.RoundingFacts Proofs.SimulatorFacts Proofs.SimulatorRuns Proofs.SimulatorHistories
  Proofs.EnvironmentFacts Proofs.EpisodeFacts Proofs.EvalFacts Proofs.EvalEnvFacts.
Import ListNotations.
Open Scope R_scope.

(** * Time stamps *)
Lemma floor_div (n k : Z) : (0 < k)%Z -> Zfloor (IZR n / IZR k) = (n / k)%Z.
Proof.
  intros K. assert (0 < IZR k) by (apply (IZR_lt 0); auto). apply Zfloor_imp.
  pose proof (Z.div_mod n k ltac:(lia)) as E. pose proof (Z.mod_pos_bound n k K) as B.
  assert (Er : IZR n = IZR k * IZR (n / k) + IZR (n mod k)) by (rewrite <- mult_IZR, <- plus_IZR; f_equal; auto).
  assert (0 <= IZR (n mod k)) by (apply (IZR_le 0); lia). assert (IZR (n mod k) < IZR k) by (apply IZR_lt; lia).
  rewrite plus_IZR. split.
  - apply Rmult_le_reg_r with (IZR k); auto. unfold Rdiv. rewrite Rmult_assoc, Rinv_l by lra. lra.
  - apply Rmult_lt_reg_r with (IZR k); auto. unfold Rdiv. rewrite Rmult_assoc, Rinv_l by lra. lra.
Qed.

Lemma trunc_seconds t : (0 <= t)%Z -> trunc (total_seconds t) = (t / 1000000)%Z.
Proof.
  intros T. unfold trunc, total_seconds. rewrite Ztrunc_floor.
  - apply (floor_div t 1000000). lia.
  - assert (0 <= IZR t) by (apply (IZR_le 0); auto). lra.
Qed.

Lemma format_facts t : (0 <= t)%Z -> let '(m, sec, h) := format_timedelta t in
  m = (t / 60000000)%Z /\ sec = (t / 1000000 mod 60)%Z /\
  h = round_half_even (IZR (t mod 1000000) / 10000).
Proof.
  intros T. unfold format_timedelta. rewrite trunc_seconds by auto. split; [|split; auto].
  - rewrite Z.div_div by lia. reflexivity.
  - f_equal. unfold total_seconds. pose proof (Z.div_mod t 1000000 ltac:(lia)) as E.
    assert (Er : IZR t = 1000000 * IZR (t / 1000000) + IZR (t mod 1000000)) by (rewrite <- mult_IZR, <- plus_IZR; f_equal; auto).
    rewrite Er. field.
Qed.

(** * Frames *)
Lemma latest_app {A} (l : list A) x : latest (l ++ [x]) = Some x.
Proof. induction l as [|y l IH]; [reflexivity|]. cbn [app latest]. destruct (l ++ [x]) eqn:E; [destruct l; discriminate|]. exact IH. Qed.
Lemma latest_none {A} (l : list A) : latest l = None <-> l = [].
Proof.
  split; [|intros ->; reflexivity]. destruct l as [|x l]; auto. intros K. exfalso. revert x K.
  induction l as [|y l IH]; intros x K; [discriminate|]. apply (IH y). exact K.
Qed.
Lemma latest_some {A} (l : list A) : l <> [] -> exists x, latest l = Some x.
Proof. intros N. destruct (latest l) eqn:E; eauto. apply latest_none in E. contradiction. Qed.

Definition merged (pre : list sim_event) : frame := snapshot pre (latest (map snd (logged_controls pre))).

Lemma fovs_app a b : logged_fovs (a ++ b) = logged_fovs a ++ logged_fovs b.
Proof. apply flat_map_app. Qed.
Lemma images_app a b : logged_images (a ++ b) = logged_images a ++ logged_images b.
Proof. apply flat_map_app. Qed.

Lemma snapshot_step pre e c : fst (video_event (snapshot pre c) e) =
  snapshot (pre ++ [e]) (match e with EvApplyControl _ p => Some p | _ => c end).
Proof.
  unfold snapshot. rewrite replay_app, fovs_app, images_app, logged_time_app.
  destruct e; cbn [video_event fst fr_grid fr_fov fr_control fr_time fr_image replay logged_fovs logged_images flat_map];
    rewrite ?app_nil_r, ?latest_app; unfold logged_time at 3, zsum; cbn [map fold_right]; f_equal; unfold timedelta; lia.
Qed.

Lemma merged_step pre e : fst (video_event (merged pre) e) = merged (pre ++ [e]).
Proof.
  unfold merged. rewrite snapshot_step, logged_controls_app, map_app. f_equal.
  destruct e; cbn [logged_controls flat_map app map]; rewrite ?app_nil_r, ?latest_app; reflexivity.
Qed.

Lemma frames_spec log : forall pre, 
  video_frames (merged pre) log =
  match log with
  | [] => [merged pre]
  | e :: rest => (match e with EvApplyControl _ p => [snapshot pre (Some p)] | _ => [] end) ++ video_frames (merged (pre ++ [e])) rest
  end.
Proof.
  destruct log as [|e rest]; intros pre; [reflexivity|]. cbn [video_frames]. rewrite <- merged_step.
  destruct (video_event (merged pre) e) as [now shown] eqn:E. cbn [fst]. f_equal.
  destruct e; injection E as <- <-; reflexivity.
Qed.

Lemma frames_length log : forall pre, length (video_frames (merged pre) log) = S (length (logged_controls log)).
Proof.
  induction log as [|e log IH]; intros pre; [reflexivity|]. rewrite frames_spec, app_length, IH.
  change (e :: log) with ([e] ++ log). rewrite logged_controls_app, app_length.
  destruct e; cbn [logged_controls flat_map app length]; lia.
Qed.

Lemma frames_last log : forall pre, nth_error (video_frames (merged pre) log) (length (logged_controls log)) = Some (merged (pre ++ log)).
Proof.
  induction log as [|e log IH]; intros pre; [rewrite app_nil_r; reflexivity|]. rewrite frames_spec.
  change (e :: log) with ([e] ++ log). rewrite logged_controls_app, app_length.
  rewrite nth_error_app2 by (destruct e; cbn [logged_controls flat_map app length]; lia).
  replace (pre ++ [e] ++ log) with ((pre ++ [e]) ++ log) by (rewrite <- app_assoc; reflexivity). rewrite <- IH. f_equal.
  destruct e; cbn [logged_controls flat_map app length]; lia.
Qed.

Lemma frames_nth mid : forall pre d p post,
  nth_error (video_frames (merged pre) (mid ++ EvApplyControl d p :: post)) (length (logged_controls mid)) = Some (snapshot (pre ++ mid) (Some p)).
Proof.
  induction mid as [|e mid IH]; intros pre d p post; [cbn [app]; rewrite frames_spec, app_nil_r; reflexivity|].
  cbn [app]. rewrite frames_spec. change (e :: mid) with ([e] ++ mid). rewrite logged_controls_app, app_length.
  rewrite nth_error_app2 by (destruct e; cbn [logged_controls flat_map app length]; lia).
  replace (pre ++ [e] ++ mid) with ((pre ++ [e]) ++ mid) by (rewrite <- app_assoc; reflexivity). rewrite <- (IH _ d p post). f_equal.
  destruct e; cbn [logged_controls flat_map app length]; lia.
Qed.

(** every frame is one of these *)
Lemma frames_in log : forall pre f, In f (video_frames (merged pre) log) ->
  f = merged (pre ++ log) \/ exists mid d p post, log = mid ++ EvApplyControl d p :: post /\ f = snapshot (pre ++ mid) (Some p).
Proof.
  induction log as [|e log IH]; intros pre f.
  - intros [<-|[]]. left. rewrite app_nil_r. reflexivity.
  - rewrite frames_spec. intros I. apply in_app_or in I as [I|I].
    + right. destruct e; try contradiction. destruct I as [<-|[]]. exists [], dwell_time, position, log. rewrite app_nil_r. auto.
    + apply IH in I as [->|(mid & d & p & post & -> & ->)].
      * left. rewrite <- app_assoc. reflexivity.
      * right. exists (e :: mid), d, p, post. rewrite <- app_assoc. auto.
Qed.

Lemma plot_Ok goal f : (exists pic, plot_frame goal f = Ok pic) <-> fr_grid f <> None /\ fr_fov f <> None /\ fr_control f <> None.
Proof.
  unfold plot_frame. destruct (fr_grid f), (fr_fov f), (fr_control f);
  (split; [intros (pic & E); try discriminate; repeat split; discriminate|intros (A & B & C); try congruence; eauto]).
Qed.
Lemma plot_pictured goal f pic : plot_frame goal f = Ok pic <-> pictured_frame goal f pic.
Proof.
  unfold plot_frame, pictured_frame. destruct pic as [[g q] c]. cbn [fst snd].
  destruct (fr_grid f) as [gr|], (fr_fov f) as [view|], (fr_control f) as [p|];
    (split; [intros E; try discriminate|intros (gr' & v' & p' & Eg & Ev & Ep & E1 & E2 & E3 & E4); try discriminate]).
  - injection E as <- <- <-. exists gr, view, p. do 3 (split; [reflexivity|]). split; [reflexivity|]. split; [reflexivity|]. split; reflexivity.
  - injection Eg as <-. injection Ev as <-. injection Ep as <-. f_equal. f_equal; [f_equal|].
    + destruct g as [ps ns]. cbn [numbers positions] in *. subst. reflexivity.
    + subst. reflexivity.
    + subst. reflexivity.
Qed.

Lemma plots_Ok goal fs pics : plot_frames goal fs = Ok pics <-> Forall2 (fun f pic => pictured_frame goal f pic) fs pics.
Proof.
  revert pics. induction fs as [|f fs IH]; intros pics; cbn [plot_frames].
  - split; [intros E; injection E as <-; constructor|intros E; inversion E; reflexivity].
  - destruct (plot_frame goal f) as [pic|x|] eqn:E1; cbn [bind].
    + destruct (plot_frames goal fs) as [ps|x|] eqn:E2; cbn [fmap_res bind].
      * split.
        -- intros E; injection E as <-. constructor; [apply plot_pictured; auto|]. apply IH. auto.
        -- intros E; inversion E as [|? pic' ? ps' H1 H2]; subst. apply plot_pictured in H1. rewrite E1 in H1. injection H1 as ->.
           apply IH in H2. injection H2 as ->. reflexivity.
      * split; [discriminate|]. intros E; inversion E as [|? ? ? ? _ H2]; subst. apply IH in H2. discriminate.
      * split; [discriminate|]. intros E; inversion E as [|? ? ? ? _ H2]; subst. apply IH in H2. discriminate.
    + split; [discriminate|]. intros E; inversion E as [|? ? ? ? H1 _]; subst. apply plot_pictured in H1. congruence.
    + split; [discriminate|]. intros E; inversion E as [|? ? ? ? H1 _]; subst. apply plot_pictured in H1. congruence.
Qed.

Lemma replay_some l : forall gr, exists gr', replay l (Some gr) = Some gr'.
Proof. induction l as [|e l IH]; intros gr; [eexists; reflexivity|]. destruct e; cbn [replay]; apply IH. Qed.

Lemma generated log : generate_video_frames log = video_frames (merged []) log.
Proof. reflexivity. Qed.

Lemma save_Ok_after_reset goal gr f rest : logged_controls rest <> [] ->
  exists pics, save_video (EvReset gr f :: rest) goal = Ok pics.
Proof.
  intros N. unfold save_video. rewrite generated.
  assert (Fa : Forall (fun fr => exists pic, plot_frame goal fr = Ok pic) (video_frames (merged []) (EvReset gr f :: rest))).
  { apply Forall_forall. intros fr I. apply plot_Ok. apply frames_in in I as [->|(mid & d & p & post & Em & ->)].
    - unfold merged, snapshot; cbn [app fr_grid fr_fov fr_control]. cbn [replay logged_fovs flat_map app].
      destruct (replay_some rest gr) as (gr' & ->). split; [discriminate|]. split.
      + rewrite latest_none. discriminate.
      + rewrite latest_none. change (logged_controls (EvReset gr f :: rest)) with (logged_controls rest).
        intros K. apply N. destruct (logged_controls rest); [auto|discriminate].
    - cbn [app]. destruct mid as [|e mid]; [discriminate|]. injection Em as <- Em. unfold snapshot; cbn [fr_grid fr_fov fr_control].
      cbn [replay logged_fovs flat_map app]. destruct (replay_some mid gr) as (gr' & ->).
      split; [discriminate|]. split; [rewrite latest_none; discriminate|discriminate]. }
  induction (video_frames (merged []) (EvReset gr f :: rest)) as [|fr fs IH]; [eexists; reflexivity|].
  inversion Fa as [|? ? (pic & E1) F']; subst. destruct (IH F') as (pics & E2). cbn [plot_frames]. rewrite E1. cbn [bind]. rewrite E2.
  eexists; reflexivity.
Qed.

Lemma frames_without_controls log : forall pre, logged_controls log = [] -> video_frames (merged pre) log = [merged (pre ++ log)].
Proof.
  induction log as [|e log IH]; intros pre N; [rewrite app_nil_r; reflexivity|]. rewrite frames_spec.
  change (e :: log) with ([e] ++ log) in N. rewrite logged_controls_app in N. apply app_eq_nil in N as (N1 & N2).
  rewrite IH, <- app_assoc by auto. destruct e; try reflexivity. discriminate.
Qed.

Lemma save_raises_after_reset goal gr f rest : logged_controls rest = [] ->
  save_video (EvReset gr f :: rest) goal = Raise ValueError.
Proof.
  intros N. unfold save_video. rewrite generated, frames_without_controls by exact N. cbn [app plot_frames].
  assert (E : plot_frame goal (merged (EvReset gr f :: rest)) = Raise ValueError); [|rewrite E; reflexivity].
  unfold plot_frame, merged, snapshot. cbn [fr_grid fr_fov fr_control replay].
  change (logged_controls (EvReset gr f :: rest)) with (logged_controls rest). rewrite N.
  change (logged_fovs (EvReset gr f :: rest)) with (f :: logged_fovs rest).
  destruct (replay_some rest gr) as (gr' & ->).
  destruct (latest_some (f :: logged_fovs rest)) as (v & Ev); [discriminate|]. rewrite Ev. reflexivity.
Qed.

(** * The log of an evaluation *)
Section Dune.
Context {G St F V : Type}.
Variable s : sampler G.
Variable render : @renderer G.
Variable adapter : action_adapter G St.
Variable features : feature_constructor goal_state F.
Variable goal_m : goal_methods G goal_state.
Variable fuel : nat.
Variable movie : list sim_event -> pt -> res V.
Variable watcher : observer.
Variable rf : rate_function.
Variable cols : nat.
Variable d : timedelta.
Hypothesis O : sampler_ok s.
Hypothesis C : (2 <= cols)%nat.
Hypothesis H : hopping rf.
Notation dune := (dune_eval_env s render adapter features goal_m fuel movie watcher).
Notation alive w := (lives s render adapter features goal_m fuel rf cols d (w_env w)).
Notation watching w := (count_occ Nat.eq_dec (sim_observers (env_sim (w_env w))) watcher = 1%nat).
Notation grid_of w := (m_grid (sim_material (env_sim (w_env w)))).
Notation fov_of w := (sim_fov (env_sim (w_env w))).

Lemma dune_reset_log w ts w' : alive w -> watching w -> e_reset (ee_env dune) w = (Ok ts, w') ->
  alive w' /\ watching w' /\ env_requires_reset (w_env w') = false /\
  exists gr f rest, w_events w' = EvReset gr f :: rest /\ Forall (fun e => ~ is_reset_event e) rest /\
    logged_controls (w_events w') = [] /\ logged_time (w_events w') = ee_elapsed dune w' /\
    replay (w_events w') None = grid_of w' /\ latest (logged_fovs (w_events w')) = fov_of w'.
Proof.
  intros L W E. assert (I := lives_inv s render adapter features goal_m fuel rf cols d O C H _ L). destruct I as [I1 _ _].
  cbn [dune_eval_env ee_env e_reset] in E. unfold watch in E.
  pose proof (env_reset_observers s render adapter features goal_m (w_env w)) as Ob.
  assert (L' : lives s render adapter features goal_m fuel rf cols d (eo_env (env_reset s render adapter features goal_m (w_env w)))).
  { destruct L as (st & gl & g & ga & Le). exists st, gl, g, ga. apply lived_reset. exact Le. }
  destruct (env_reset s render adapter features goal_m (w_env w)) as [r e' tr] eqn:Er. cbn [eo_result eo_env eo_trace] in *.
  injection E as -> <-. cbn [w_env w_events ee_elapsed dune_eval_env] in *.
  apply reset_returns in Er as (obs & st & ga & g1 & gl & g2 & x & o & -> & Eo & _ & _ & _ & _ & -> & ->).
  split; auto. split; [rewrite Ob; exact W|]. split; [reflexivity|]. cbn [env_sim env_last_observation].
  destruct (reachable_reset s render rf cols d _ _ _ obs O C H I1 Eo) as
      (ps & gr & si & a & prm & h1 & h2 & h3 & icbs & Em & Eu & Ep & Es & Eg & Rd & _ & D & Ha & Hs & Hf & Hc & He & Hl & Hp & (_ & Al & _)).
  specialize (Al watcher W). change (seen watcher) with (received watcher) in Al. rewrite Al.
  destruct (pictured_log render _ prm obs _ _ icbs Hp) as (P1 & P2 & P3 & P4).
  rewrite event_log_app. cbn [event_log fold_left event_observe app].
  change (fold_left event_observe icbs ?l) with (event_log l icbs). rewrite event_log_convert by auto.
  exists gr, (square_around si a), (EvTakeImage d (square_around si a) :: flat_map convert_cb icbs).
  split; [reflexivity|]. split; [constructor; [intros []|apply convert_no_reset; auto]|].
  split; [rewrite logged_controls_app, P3; reflexivity|].
  split; [rewrite logged_time_app, logged_announced, P4, He; unfold logged_time, zsum; cbn [map fold_right]; unfold timedelta; lia|].
  split; [rewrite replay_app, P2; cbn [replay]; auto|].
  rewrite fovs_app. assert (Ei : logged_fovs (flat_map convert_cb icbs) = []).
  { unfold pictured in Hp. destruct (fc_requires_image features); [destruct Hp as (i & _ & _ & ->)|destruct Hp as (_ & _ & ->)]; reflexivity. }
  rewrite Ei, app_nil_r. destruct Rd as [_ _ _ _ _ R6 _ _ _ _]. rewrite R6. reflexivity.
Qed.

Lemma transitions_fovs (ts : list (timedelta * grid)) :
  logged_fovs (flat_map convert_cb (map (fun t => ObserveTransition (fst t) (snd t)) ts)) = [].
Proof. induction ts as [|t ts IHt]; [reflexivity|]. exact IHt. Qed.
Lemma beamed_fovs fl f m g cs cbs m' g' : beamed s fl f m g cs cbs m' g' -> logged_fovs (flat_map convert_cb cbs) = [].
Proof.
  intros B. induction B as [m g|m g c ts m1 g1 cs cbs m2 g2 Ec B IH]; [reflexivity|].
  match goal with |- logged_fovs (flat_map convert_cb (?c :: ?l)) = [] => change (logged_fovs (flat_map convert_cb l) = []) end.
  rewrite flat_map_app, fovs_app, IH, transitions_fovs. reflexivity.
Qed.

Lemma dune_step_log w act ts w' : alive w -> watching w -> env_requires_reset (w_env w) = false ->
  e_step (ee_env dune) act w = (Ok ts, w') ->
  alive w' /\ watching w' /\ (env_requires_reset (w_env w') = true <-> ts_type ts = LAST) /\
  exists l, w_events w' = w_events w ++ l /\ Forall (fun e => ~ is_reset_event e) l /\
    (one_control adapter -> length (logged_controls l) = 1%nat) /\ logged_time l = ee_elapsed dune w' /\
    replay l (grid_of w) = grid_of w' /\ latest (logged_fovs l) = fov_of w' /\ logged_fovs l <> [].
Proof.
  intros L W Nr E. assert (I := lives_inv s render adapter features goal_m fuel rf cols d O C H _ L). destruct I as [I1 _ I3].
  cbn [dune_eval_env ee_env e_step] in E. unfold watch in E.
  pose proof (env_step_observers s render adapter features goal_m fuel act (w_env w)) as Ob.
  assert (L' : lives s render adapter features goal_m fuel rf cols d (eo_env (env_step s render adapter features goal_m fuel act (w_env w)))).
  { destruct L as (st & gl & g & ga & Le). exists st, gl, g, ga. apply lived_step. exact Le. }
  destruct (env_step s render adapter features goal_m fuel act (w_env w)) as [r e' tr] eqn:Er. cbn [eo_result eo_env eo_trace] in *.
  injection E as -> <-. cbn [w_env w_events ee_elapsed dune_eval_env] in *.
  apply step_returns in Er as (cs & st & obs & x & ret & gl & o & Ea & -> & Eo & _ & _ & -> & -> & ->); auto.
  split; auto. split; [rewrite Ob; exact W|]. cbn [env_sim env_last_observation env_requires_reset ts_type].
  split; [destruct (gr_terminal ret || gr_truncated ret); split; auto; discriminate|].
  destruct (reachable_step s render rf cols d _ _ _ _ _ obs O C H I1 Eo) as
      (ps & gr & f & a & prm & cbs & Rd & Stp & (_ & Al & _) & _ & Ed & _).
  specialize (Al watcher W). change (seen watcher) with (received watcher) in Al. rewrite Al.
  destruct Rd as [_ R2 R3 _ _ _ _ _ _ _].
  destruct (stepped_log s render _ _ _ _ _ _ _ _ _ _ _ _ gr Stp R2 R3) as (L1 & L2 & L3 & L4).
  exists (flat_map convert_cb cbs). split; [apply event_log_convert; auto|]. split; [apply convert_no_reset; auto|].
  split; [intros One; rewrite L3, map_length; rewrite <- (One _ _ _ _ _ Ea); f_equal; destruct Stp; auto|].
  split; [rewrite logged_announced; exact L4|]. split; [rewrite R3; exact L2|].
  assert (Ic : forall b prm obs g g' icbs, pictured render b prm obs g g' icbs -> logged_fovs (flat_map convert_cb icbs) = []).
  { intros b prm' obs' g g' icbs Hp. unfold pictured in Hp. destruct b; [destruct Hp as (i & _ & _ & ->)|destruct Hp as (_ & _ & ->)]; reflexivity. }
  destruct Stp as [m' g1 gr' si obs g' cbs icbs B Hg' Hsi Hsafe Hf0 Hsh Hc Hl He Hp
                 |m' g1 gr' si f' obs g' cbs icbs B Hg' Hsi Hsafe Hf' Hf0 Hsh Hc Hl He Hp];
    rewrite !flat_map_app, !fovs_app, (beamed_fovs _ _ _ _ _ _ _ _ B), (Ic _ _ _ _ _ _ Hp), app_nil_r; cbn; split; auto; discriminate.
Qed.

Lemma latest_app_r {A} (l k : list A) : k <> [] -> latest (l ++ k) = latest k.
Proof.
  intros N. destruct (exists_last N) as (k' & x & ->). rewrite app_assoc, !latest_app. reflexivity.
Qed.

Lemma exchanges_log {A} (ag : agent A F) h : forall ts a w ts' a' w',
  exchanges ag dune ts a w h ts' a' w' -> alive w -> watching w -> env_requires_reset (w_env w) = false ->
  (forall h1 x y h2, h = h1 ++ x :: y :: h2 -> ts_type (x_result x) <> LAST) ->
  alive w' /\ watching w' /\
  exists l, w_events w' = w_events w ++ l /\ Forall (fun e => ~ is_reset_event e) l /\
    (one_control adapter -> length (logged_controls l) = length h) /\ logged_time l = zsum (map x_elapsed h) /\
    replay l (grid_of w) = grid_of w' /\
    (latest (logged_fovs (w_events w)) = fov_of w -> latest (logged_fovs (w_events w ++ l)) = fov_of w').
Proof.
  induction h as [|x h IH]; intros ts a w ts' a' w' Ex L W Nr Nl.
  - inversion Ex; subst. split; auto. split; auto. exists []. rewrite app_nil_r. repeat split; auto.
  - inversion Ex as [|? ? ? t0 b0 act b1 t1 b2 ts2 w2 ? ? ? ? Q0 Q1 Q2 Q3 Q4]; subst.
    destruct (dune_step_log w act ts2 w2 L W Nr Q3) as (L2 & W2 & Rq & l & E1 & E2 & E3 & E4 & E5 & E6 & E7).
    destruct h as [|y h].
    + inversion Q4; subst. split; auto. split; auto. exists l. split; auto. split; auto. split; auto.
      split; [rewrite E4; symmetry; apply Z.add_0_r|]. split; auto.
      intros _. rewrite fovs_app, latest_app_r; auto.
    + assert (N2 : env_requires_reset (w_env w2) = false).
      { destruct (env_requires_reset (w_env w2)) eqn:K; auto. exfalso. refine (Nl [] _ y h eq_refl _). cbn [x_result]. apply Rq; auto. }
      destruct (IH _ _ _ _ _ _ Q4 L2 W2 N2) as (L3 & W3 & l' & F1 & F2 & F3 & F4 & F5 & F6).
      { intros h1 z1 z2 h2 Eh. eapply (Nl (_ :: h1) z1 z2 h2). rewrite Eh. reflexivity. }
      split; auto. split; auto. exists (l ++ l'). split; [rewrite F1, E1, app_assoc; reflexivity|].
      split; [apply Forall_app; auto|].
      split; [intros One; rewrite logged_controls_app, app_length, (E3 One), (F3 One); reflexivity|].
      split; [rewrite logged_time_app, E4, F4; reflexivity|].
      split; [rewrite replay_app, E5; exact F5|].
      intros _. rewrite app_assoc, <- E1. apply F6. rewrite E1, fovs_app, latest_app_r; auto.
Qed.

Lemma attempt_log {A} (ag : agent A F) timeout seed a w start h ts a' w' : alive w -> watching w ->
  attempt ag dune timeout seed a w start h ts a' w' ->
  alive w' /\ watching w' /\
  exists gr f rest, w_events w' = EvReset gr f :: rest /\ Forall (fun e => ~ is_reset_event e) rest /\
    (one_control adapter -> length (logged_controls (w_events w')) = length h) /\
    (h = [] -> logged_controls (w_events w') = []) /\
    logged_time (w_events w') = (start + zsum (map x_elapsed h))%Z /\
    replay (w_events w') None = grid_of w' /\ latest (logged_fovs (w_events w')) = fov_of w'.
Proof.
  intros L W (ts0 & w1 & Er & -> & Ex & Pre & _).
  assert (L0 : alive (ee_seed dune seed w)).
  { destruct L as (st & gl & g & ga & Le). exists st, gl, g, ga. apply lived_seed. exact Le. }
  destruct (dune_reset_log _ _ _ L0 W Er) as (L1 & W1 & N1 & gr & f & rest & E1 & E2 & E3 & E4 & E5 & E6).
  destruct (exchanges_log ag h _ _ _ _ _ _ Ex L1 W1 N1) as (L2 & W2 & l & F1 & F2 & F3 & F4 & F5 & F6).
  { intros h1 x y h2 Eh. destruct (Pre (h1 ++ [x]) y h2) as (K & _); [rewrite Eh, <- app_assoc; reflexivity|].
    apply (K h1 x). reflexivity. }
  split; auto. split; auto. exists gr, f, (rest ++ l). split; [rewrite F1, E1; reflexivity|]. split; [apply Forall_app; auto|].
  split; [intros One; rewrite F1, logged_controls_app, app_length, E3, (F3 One); reflexivity|].
  split; [intros ->; inversion Ex; subst; exact E3|].
  split; [rewrite F1, logged_time_app, E4, F4; reflexivity|]. split; [rewrite F1, replay_app, E5; exact F5|].
  rewrite F1. auto.
Qed.
End Dune.
