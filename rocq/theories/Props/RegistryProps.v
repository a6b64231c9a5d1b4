(** Properties C104 and C105: the registered experiments. *)
From Coq Require Import String Reals ZArith List Bool Lia Lra Arith.
From Flocq Require Import Core.
From Verif Require Import Base.Prelude Base.Rounding Base.Random Model.Constants Model.Geometry Model.MicroscopeUtils
  Model.Graphene Model.Simulator Model.ActionAdapters Model.Goals Model.FeatureConstructors Model.Agents Model.Environment
  Model.MicroscopeAgent Model.Registry
  Spec.Grids Spec.Neighbours Spec.Lattice Spec.Material Spec.MaterialRuns Spec.Simulation Spec.Acting Spec.Episodes Spec.Registry
  Proofs.BaseFacts Proofs.GeometryFacts Proofs.RoundingFacts Proofs.ProtoFacts Proofs.ExampleSampler Proofs.FovFacts Proofs.ActingFacts
  Props.AdapterProps Props.FeatureProps Props.AgentProps Props.ShippedStack.
Import ListNotations.
Local Open Scope list_scope.
Open Scope R_scope.

(** ** C104: names *)

Lemma dict_get_first {E} name (l : list (string * E)) e : dict_get name l = Some e <-> first_of name l e.
Proof.
  induction l as [|[k x] l IH]; cbn [dict_get].
  - split; [discriminate|]. intros (l1 & l2 & H & _). destruct l1; discriminate.
  - destruct (String.eqb_spec name k) as [->|N].
    + split.
      * intros H. injection H as ->. exists [], l. split; [reflexivity|]. intros [].
      * intros ([|[k' y] l1] & l2 & H & Hn); [injection H as -> ->; reflexivity|].
        injection H as -> -> ->. exfalso. apply Hn. left. reflexivity.
    + rewrite IH. split.
      * intros (l1 & l2 & -> & Hn). exists ((k, x) :: l1), l2. split; [reflexivity|].
        intros [K|K]; [cbn in K; congruence|contradiction].
      * intros ([|[k' y] l1] & l2 & H & Hn); [injection H as -> -> ->; congruence|].
        injection H as -> -> ->. exists l1, l2. split; [reflexivity|]. intro K. apply Hn. right. exact K.
Qed.
Lemma dict_get_none {E} name (l : list (string * E)) : dict_get name l = None <-> ~ In name (map fst l).
Proof.
  induction l as [|[k x] l IH]; cbn [dict_get map fst In].
  - split; [intros _ []|reflexivity].
  - destruct (String.eqb_spec name k) as [->|N].
    + split; [discriminate|]. intros H. exfalso. apply H. left. reflexivity.
    + rewrite IH. split; [intros H [K|K]; [congruence|contradiction]|intros H K; apply H; right; exact K].
Qed.

(** The names are those of the tables; every other name raises ValueError. *)
Theorem microscope_names : forall name,
  (create_microscope_experiment name = Raise ValueError <->
     ~ In name (map fst random_rows ++ map fst greedy_rows ++ map fst learned_rows)) /\
  (forall x, create_microscope_experiment name = Raise x -> x = ValueError) /\
  create_microscope_experiment name <> OutOfFuel.
Proof.
  intro name. unfold create_microscope_experiment. destruct (dict_get name microscope_experiments) eqn:E.
  - split; [split; [discriminate|]|split; [discriminate|discriminate]].
    intro H. exfalso. assert (K : ~ In name (map fst microscope_experiments)) by exact H.
    apply dict_get_none in K. congruence.
  - apply dict_get_none in E. split; [split; [intros _; exact E|reflexivity]|split; [congruence|discriminate]].
Qed.
Print Assumptions microscope_names.
Theorem train_names : forall name,
  (create_train_experiment name = Raise ValueError <-> ~ In name (map fst train_rows)) /\
  (forall x, create_train_experiment name = Raise x -> x = ValueError) /\
  create_train_experiment name <> OutOfFuel.
Proof.
  intro name. unfold create_train_experiment. destruct (dict_get name train_experiments) eqn:E.
  - split; [split; [discriminate|]|split; [discriminate|discriminate]].
    intro H. exfalso. assert (K : ~ In name (map fst train_experiments)) by exact H.
    apply dict_get_none in K. congruence.
  - apply dict_get_none in E. split; [split; [intros _; exact E|reflexivity]|split; [congruence|discriminate]].
Qed.
Print Assumptions train_names.

Lemma registered_get : forall regs table name,
  dict_get name (fold_left (fun t r => register_eval_experiment (fst r) (snd r) t) regs table) =
  match dict_get name table with Some e => Some e | None => dict_get name regs end.
Proof.
  induction regs as [|[k x] regs IH]; intros table name; cbn [fold_left].
  - destruct (dict_get name table); reflexivity.
  - rewrite IH. unfold register_eval_experiment. cbn [fst snd]. destruct (dict_get k table) eqn:E.
    + destruct (dict_get name table) eqn:E'; [reflexivity|]. cbn [dict_get].
      destruct (String.eqb_spec name k) as [->|N]; [congruence|reflexivity].
    + cbn [dict_get]. destruct (String.eqb_spec name k) as [->|N].
      * rewrite E. reflexivity.
      * reflexivity.
Qed.

(** After any registrations a name gives the built-in experiment of that name,
    else the one registered first; names that are neither raise ValueError. *)
Theorem eval_registration : forall regs name,
  (forall e, create_eval_experiment (registered regs) name = Ok e <-> first_of name (eval_experiments ++ regs) e) /\
  (forall x, create_eval_experiment (registered regs) name = Raise x <->
     x = ValueError /\ ~ In name (map fst eval_experiments) /\ ~ In name (map fst regs)) /\
  create_eval_experiment (registered regs) name <> OutOfFuel.
Proof.
  intros regs name. unfold create_eval_experiment, registered. rewrite registered_get.
  assert (A : dict_get name (eval_experiments ++ regs) =
    match dict_get name eval_experiments with Some e => Some e | None => dict_get name regs end).
  { generalize eval_experiments. induction l as [|[k x] l IH]; [reflexivity|]. cbn [app dict_get].
    destruct (String.eqb name k); [reflexivity|exact IH]. }
  rewrite <- A. destruct (dict_get name (eval_experiments ++ regs)) eqn:E; split.
  - intro e0. rewrite <- dict_get_first, E. split; congruence.
  - split; [|discriminate]. intro x. split; [discriminate|]. intros (_ & N1 & N2). exfalso.
    assert (K : ~ In name (map fst (eval_experiments ++ regs))) by (rewrite map_app, in_app_iff; tauto).
    apply dict_get_none in K. congruence.
  - intro e0. rewrite <- dict_get_first, E. split; discriminate.
  - split; [|discriminate]. apply dict_get_none in E. rewrite map_app, in_app_iff in E.
    intro x. split; [intro H; injection H as <-; tauto|]. intros (-> & _). reflexivity.
Qed.
Print Assumptions eval_registration.
(** a built-in name and a new one registered twice *)
Example eval_registration_nonvacuous :
  let e1 := mkeval_experiment RandomAgent DirectFromPixels SimpleRates in
  let e2 := mkeval_experiment RandomAgent DirectFromPixels HumanPriorRates in
  let t := registered [("mine", e1); ("mine", e2); ("relative_random_simple", e1)]%string in
  create_eval_experiment t "mine" = Ok e1 /\ create_eval_experiment t "other" = Raise ValueError /\
  create_eval_experiment t "relative_random_simple" = Ok (mkeval_experiment RandomAgent plain_relative SimpleRates).
Proof. repeat split. Qed.

(** ** C105: what the experiments do *)

Lemma td_whole x n : x * 1000000 = IZR n -> td_seconds x = n.
Proof. intros E. unfold td_seconds. rewrite E. apply rhe_IZR. Qed.
Ltac seconds :=
  repeat match goal with |- context [td_seconds ?x] =>
    first [rewrite (td_whole x 1500000) by lra | rewrite (td_whole x 1000000) by lra | rewrite (td_whole x 5000000) by lra
          | rewrite (td_whole x 10000000) by lra | rewrite (td_whole x 20000000) by lra | rewrite (td_whole x 2000000) by lra] end.
Lemma default_lo_value : default_lo = 1500000%Z. Proof. apply td_whole. lra. Qed.
Lemma default_hi_value : default_hi = 1500000%Z. Proof. apply td_whole. lra. Qed.

Lemma uniform_in_spec_drawn {G} (s : sampler G) : forall spec g a g', uniform_in_spec s spec g = (a, g') ->
  drawn_from s spec g a g'.
Proof.
  induction spec as [|[lo hi] spec IH]; intros g a g' H; cbn [uniform_in_spec] in H.
  - injection H as <- <-. constructor.
  - destruct (s_uniform s lo hi g) as [x g1] eqn:E1. destruct (uniform_in_spec s spec g1) as [xs g2] eqn:E2.
    injection H as <- <-. econstructor; eauto.
Qed.
Lemma drawn_fits {G} (s : sampler G) : sampler_ok s -> forall spec g a g',
  Forall (fun b => fst b <= snd b) spec -> drawn_from s spec g a g' -> fits spec a.
Proof.
  intros O spec g a g' F D. induction D as [|lo hi spec g x g1 xs g2 E D IH]; [constructor|].
  inversion F; subst. constructor; [|apply IH; assumption]. cbn [fst snd] in *.
  pose proof (uniform_range s O lo hi g ltac:(assumption)) as K. rewrite E in K. exact K.
Qed.

Section Steps.
Context {G : Type}.
Variable s : sampler G.
Variable knn : knn_fn.
Variable resize : image -> image.
Variable model : string -> features -> res (list R).

(** what a step shows to the agent and does with its action *)
Lemma step_with e o (ma : @magent G G unit goal_state) x :
  clear_view o -> fc_get_features (features_of knn resize (me_adapters e)) o (ma_goal ma) = Ok x ->
  exists input, ai_observation input = x /\
    forall a g', agent_step_of s model (me_agent e) (me_adapters e) input (ma_agent ma) = (Ok a, g') ->
    forall cs, fst (aa_get_action (@adapter_of G (me_adapters e)) (ma_adapter ma) o a) = Ok cs ->
    exists ma', experiment_step s knn resize model e o ma = (Ok cs, ma') /\ ma_agent ma' = g'.
Proof.
  intros (W & _ & si & L) Hx.
  destruct (gm_calculate (single_silicon_goal s) (ma_goal ma) o) as [rg goal] eqn:Eg.
  assert (Hr : exists gr, rg = Ok gr).
  { cbn [gm_calculate single_silicon_goal] in Eg. unfold goal_calculate in Eg. rewrite (lone_single _ _ W L) in Eg.
    injection Eg as <- _. eauto. }
  destruct Hr as (gr & ->).
  exists (ma_time_step (ma_is_first_step ma) x gr (o_elapsed o)). split.
  { unfold ma_time_step. destruct (gr_terminal gr), (gr_truncated gr), (ma_is_first_step ma); reflexivity. }
  intros a g' Ha cs Hc. unfold experiment_step, ma_step. rewrite Hx, Eg, Ha.
  destruct (aa_get_action _ _ _ _) as [rc st] eqn:Ec. cbn [fst] in Hc. subst rc. eexists. split; reflexivity.
Qed.

Lemma proper_extent f : proper f -> width f <> 0 /\ height f <> 0.
Proof. unfold proper, width, height. intros (A & B). split; lra. Qed.

Lemma relative_aimed_result st o si lo hi dist a : clear_view o -> lone_silicon (o_grid o) si ->
  fits (relative_action_spec (new_relative lo hi dist)) a \/ (a <> [] /\ (lo <> hi -> (3 <= length a)%nat)) ->
  exists c, fst (aa_get_action (@relative_adapter G (new_relative lo hi dist)) st o a) = Ok [c] /\
    relative_aimed o si lo hi dist a c.
Proof.
  intros (W & Pr & _) L H. pose proof (proper_extent _ Pr) as (Nw & Nh).
  assert (K : exists cs, fst (aa_get_action (@relative_adapter G (new_relative lo hi dist)) st o a) = Ok cs).
  { destruct (fst (aa_get_action (@relative_adapter G (new_relative lo hi dist)) st o a)) as [cs|e|] eqn:E; [eauto| |].
    - apply relative_adapter_errors in E; [|exact W]. exfalso. pose proof (lone_count _ _ L) as Lc.
      assert (Ha : a <> [] /\ (lo <> hi -> (3 <= length a)%nat)).
      { destruct H as [H|H]; [|exact H]. apply advertised_bounds in H. destruct H as (x & y & l & -> & _ & _ & H).
        split; [discriminate|]. intro N. destruct (Z.eq_dec lo hi); [contradiction|]. destruct H as (t & -> & _). cbn. lia. }
      destruct Ha as (Ha1 & Ha2).
      destruct E as [(_ & E)|[(_ & _ & [E|E])|[(_ & _ & _ & _ & E)|(_ & _ & _ & _ & E & E')]]]; try contradiction.
      specialize (Ha2 E). lia.
    - exfalso. cbn [aa_get_action relative_adapter fst] in E. revert E. unfold relative_get_action.
      destruct (the_silicon o) eqn:Et; cbn [bind]; [|discriminate|].
      + destruct (_ || _)%bool; [discriminate|]. destruct (broadcast2 _) eqn:Eb; cbn [bind]; [|discriminate|].
        * unfold relative_dwell. destruct (rel_fixed_dwell_time _); cbn [bind]; [discriminate|].
          destruct (nth_error a 2); cbn [bind]; discriminate.
        * intros _. unfold broadcast2 in Eb. destruct (map _ _) as [|? [|? [|? ?]]]; discriminate.
      + intros _. unfold the_silicon in Et. destruct (get_silicon_positions _) as [|? [|? ?]]; discriminate. }
  destruct K as (cs & K). pose proof K as K'. apply relative_adapter_result in K'; [|exact W].
  destruct K' as (si' & dx & dy & ex & ey & q & t & L' & _ & _ & Of & Lx & Ly & Q & D & ->).
  rewrite (lone_unique _ _ _ W L' L) in Q. exists (aimed_for q t). split; [exact K|].
  exists dx, dy, ex, ey, q, t. split; [exact Of|]. split; [exact Lx|]. split; [exact Ly|]. split; [|split; [exact D|reflexivity]].
  replace (relative_to _ _) with (mkpt (px si + ex * (dist / width (o_fov o))) (py si + ey * (dist / height (o_fov o)))); [exact Q|].
  unfold relative_to, at_relative. apply pt_eq; cbn [px py padd]; unfold width, height in *; field; assumption.
Qed.

Lemma relative_spec_bounds lo hi dist : relative_action_spec (new_relative lo hi dist) = relative_bounds lo hi.
Proof.
  unfold relative_action_spec, relative_bounds. cbn [new_relative rel_fixed_dwell_time].
  destruct (Z.eqb_spec lo hi), (Z.eq_dec lo hi); try contradiction; reflexivity.
Qed.
Lemma relative_bounds_ordered lo hi : Forall (fun b => fst b <= snd b) (relative_bounds lo hi).
Proof. unfold relative_bounds. destruct (Z.eq_dec lo hi); repeat constructor; cbn; lra. Qed.

Lemma pristine_described e lo hi dist o (ma : @magent G G unit goal_state) : knn_ok knn -> me_adapters e = Relative lo hi dist ->
  clear_view o -> (4 <= length (positions (o_grid o)))%nat ->
  exists x, fc_get_features (pristine_features knn) o (ma_goal ma) = Ok x /\
    fc_get_features (features_of knn resize (me_adapters e)) o (ma_goal ma) = Ok (Vector x).
Proof.
  intros K E C L. destruct (shipped_features_describe knn resize K) as (D & _ & _).
  destruct (D o (ma_goal ma) C L) as (x & Hx); [discriminate|]. exists x. split; [exact Hx|]. rewrite E.
  cbn [features_of map_features fc_get_features]. rewrite Hx. reflexivity.
Qed.

(** what a random experiment of given range and distance does *)
Definition acts_randomly (e : microscope_experiment) (lo hi : Z) (dist : R) : Prop :=
  forall o si (ma : @magent G G unit goal_state),
    clear_view o -> lone_silicon (o_grid o) si -> (4 <= length (positions (o_grid o)))%nat ->
    exists a g' c ma', drawn_from s (relative_bounds lo hi) (ma_agent ma) a g' /\
      fits (relative_bounds lo hi) a /\ relative_aimed o si lo hi dist a c /\
      experiment_step s knn resize model e o ma = (Ok [c], ma') /\ ma_agent ma' = g'.
Lemma random_acts lo hi dist : sampler_ok s -> knn_ok knn ->
  acts_randomly (mkmicroscope_experiment RandomAgent (Relative lo hi dist)) lo hi dist.
Proof.
  intros O K o si ma C L L4. set (e := mkmicroscope_experiment RandomAgent (Relative lo hi dist)).
  destruct (pristine_described e lo hi dist o ma K eq_refl C L4) as (x & _ & Hx).
  destruct (step_with e o ma _ C Hx) as (input & Hi & Hs).
  destruct (uniform_in_spec s (relative_bounds lo hi) (ma_agent ma)) as [a g'] eqn:E.
  pose proof (uniform_in_spec_drawn s _ _ _ _ E) as D.
  pose proof (drawn_fits s O _ _ _ _ (relative_bounds_ordered lo hi) D) as F.
  destruct (relative_aimed_result (ma_adapter ma) o si lo hi dist a C L) as (c & Hc & Hr).
  { left. rewrite relative_spec_bounds. exact F. }
  destruct (Hs a g') with (cs := [c]) as (ma' & Hm & Hg).
  - cbn [agent_step_of e me_agent me_adapters adapter_spec_of]. rewrite relative_spec_bounds, E. reflexivity.
  - exact Hc.
  - exists a, g', c, ma'. auto.
Qed.
End Steps.

(** The random experiments draw offsets and, if there is a choice, the dwell
    time, and expose there: within the stated distance along both axes, for a
    time in the stated range. *)
Theorem random_experiments : forall name lo hi dist, In (name, (lo, hi, dist)) random_rows ->
  exists e, create_microscope_experiment name = Ok e /\
  forall G (s : sampler G) knn resize model, sampler_ok s -> knn_ok knn ->
  forall o si (ma : @magent G G unit goal_state),
    clear_view o -> lone_silicon (o_grid o) si -> (4 <= length (positions (o_grid o)))%nat ->
    exists a g' c ma', drawn_from s (relative_bounds lo hi) (ma_agent ma) a g' /\
      fits (relative_bounds lo hi) a /\ relative_aimed o si lo hi dist a c /\
      experiment_step s knn resize model e o ma = (Ok [c], ma') /\ ma_agent ma' = g'.
Proof.
  intros name lo hi dist H.
  assert (K : create_microscope_experiment name = Ok (mkmicroscope_experiment RandomAgent (Relative lo hi dist))).
  { destruct H as [H|[H|[H|[]]]]; injection H as <- <- <- <-; unfold create_microscope_experiment;
      cbn [dict_get microscope_experiments String.eqb Ascii.eqb Bool.eqb]; unfold plain_relative, default_lo, default_hi;
      seconds; unfold CARBON_BOND_DISTANCE_ANGSTROMS; do 3 f_equal; lra. }
  eexists. split; [exact K|]. intros G s knn resize model O Kn. exact (random_acts s knn resize model lo hi dist O Kn).
Qed.
Print Assumptions random_experiments.

(** A new agent of a random experiment draws its first action from the generator
    it was made with, and its next one from where that draw left it. *)
Theorem made_agent_draws : forall name lo hi dist, In (name, (lo, hi, dist)) random_rows ->
  exists e, create_microscope_experiment name = Ok e /\
  forall G (s : sampler G) knn resize model, sampler_ok s -> knn_ok knn ->
  forall o si rng adapter_rng,
    clear_view o -> lone_silicon (o_grid o) si -> (4 <= length (positions (o_grid o)))%nat ->
    exists a g' c ma', drawn_from s (relative_bounds lo hi) rng a g' /\ relative_aimed o si lo hi dist a c /\
      experiment_step s knn resize model e o (experiment_agent rng adapter_rng) = (Ok [c], ma') /\
    forall o2 si2, clear_view o2 -> lone_silicon (o_grid o2) si2 -> (4 <= length (positions (o_grid o2)))%nat ->
    exists a2 g2 c2 ma2, drawn_from s (relative_bounds lo hi) g' a2 g2 /\ relative_aimed o2 si2 lo hi dist a2 c2 /\
      experiment_step s knn resize model e o2 ma' = (Ok [c2], ma2).
Proof.
  intros name lo hi dist H. destruct (random_experiments name lo hi dist H) as (e & E & R). exists e. split; [exact E|].
  intros G s knn resize model O K o si rng adapter_rng C L N.
  destruct (R G s knn resize model O K o si (experiment_agent rng adapter_rng) C L N) as (a & g' & c & ma' & D & _ & A & S & M).
  exists a, g', c, ma'. split; [exact D|]. split; [exact A|]. split; [exact S|]. intros o2 si2 C2 L2 N2.
  destruct (R G s knn resize model O K o2 si2 ma' C2 L2 N2) as (a2 & g2 & c2 & ma2 & D2 & _ & A2 & S2 & _).
  rewrite M in D2. exists a2, g2, c2, ma2. auto.
Qed.
Print Assumptions made_agent_draws.

(** The trained agents are shown ten numbers, or the picture and the way to the
    goal; the beam follows their answer within the stated distance and times. *)
Theorem learned_experiments : forall name m pictures lo hi dist, In (name, (m, pictures, lo, hi, dist)) learned_rows ->
  exists e, create_microscope_experiment name = Ok e /\
  me_agent e = TfAgent m ("https://storage.googleapis.com/spr_data_bucket_public/" ++ m ++ ".zip")%string /\
  forall G (s : sampler G) knn resize model, knn_ok knn ->
  forall o si i (ma : @magent G G unit goal_state),
    clear_view o -> lone_silicon (o_grid o) si -> (4 <= length (positions (o_grid o)))%nat ->
    (pictures = true -> o_image o = Some i) ->
    exists x,
      (if pictures then
         exists way, fc_get_features (image_features resize) o (ma_goal ma) = Ok (resize i, way) /\ x = Picture (resize i) way
       else exists l, fc_get_features (pristine_features knn) o (ma_goal ma) = Ok l /\ x = Vector l) /\
      (forall a, model m x = Ok a -> a <> [] -> (lo <> hi -> (3 <= length a)%nat) ->
        exists c ma', relative_aimed o si lo hi dist a c /\
          experiment_step s knn resize model e o ma = (Ok [c], ma') /\ ma_agent ma' = ma_agent ma).
Proof.
  intros name m pictures lo hi dist H.
  assert (K : create_microscope_experiment name = Ok (mkmicroscope_experiment
     (TfAgent m ("https://storage.googleapis.com/spr_data_bucket_public/" ++ m ++ ".zip")%string)
     (if pictures then FromPixels lo hi else Relative lo hi dist)) /\ (pictures = true -> dist = 142 / 100)).
  { cbn [In learned_rows] in H.
    repeat (destruct H as [H|H]); try contradiction; injection H as <- <- <- <- <- <-;
      (split; [|intros; try discriminate; reflexivity]); unfold create_microscope_experiment;
      cbn [dict_get microscope_experiments String.eqb Ascii.eqb Bool.eqb]; unfold default_lo, default_hi;
      seconds; unfold CARBON_BOND_DISTANCE_ANGSTROMS; f_equal; unfold ppo_simple_images, ppo_learned_2s, ppo_learned_3s,
      ppo_learned_4s, ppo_v3_2s, ppo_v3_3s, ppo_v3_4s, public_url; try reflexivity; (f_equal; f_equal; lra). }
  destruct K as (K & Kd). eexists. split; [exact K|]. split; [reflexivity|].
  intros G s knn resize model Kn o si i ma C L L4 Hi.
  destruct pictures.
  - specialize (Hi eq_refl). specialize (Kd eq_refl). subst dist.
    destruct (shipped_features_describe knn resize Kn) as (_ & _ & D).
    destruct (D o (ma_goal ma) C L4) as (x & Hx); [intros _; rewrite Hi; discriminate|].
    pose proof Hx as Hx'. apply image_features_spec in Hx'; [|exact (proj1 C)].
    destruct Hx' as (i' & si' & Ei & _ & Ex). rewrite Hi in Ei. injection Ei as <-.
    exists (Picture (resize i) (snd x)). split; [exists (snd x); rewrite Ex in Hx |- *; split; [exact Hx|reflexivity]|].
    intros a Ha N H3. match goal with |- exists c ma', _ /\ experiment_step _ _ _ _ ?e0 _ _ = _ /\ _ => set (e := e0) end.
    destruct (step_with s knn resize model e o ma (Picture (resize i) (snd x)) C) as (input & Ei & Hs).
    { cbn [e me_adapters features_of]. unfold map_features. cbn [fc_get_features]. rewrite Hx, Ex. reflexivity. }
    destruct (relative_aimed_result (G := G) (ma_adapter ma) o si lo hi (142 / 100) a C L) as (c & Hc & Hr); [right; auto|].
    destruct (Hs a (ma_agent ma)) with (cs := [c]) as (ma' & Hm & Hg).
    + cbn [agent_step_of e me_agent]. rewrite Ei, Ha. reflexivity.
    + exact Hc.
    + exists c, ma'. auto.
  - destruct (pristine_described knn resize (mkmicroscope_experiment RandomAgent (Relative lo hi dist)) lo hi dist o ma Kn eq_refl C L4) as (x & Hx & Hx').
    exists (Vector x). split; [eauto|]. intros a Ha N H3.
    match goal with |- exists c ma', _ /\ experiment_step _ _ _ _ ?e0 _ _ = _ /\ _ => set (e := e0) end.
    destruct (step_with s knn resize model e o ma (Vector x) C Hx') as (input & Ei & Hs).
    destruct (relative_aimed_result (G := G) (ma_adapter ma) o si lo hi dist a C L) as (c & Hc & Hr); [right; auto|].
    destruct (Hs a (ma_agent ma)) with (cs := [c]) as (ma' & Hm & Hg).
    + cbn [agent_step_of e me_agent]. rewrite Ei, Ha. reflexivity.
    + exact Hc.
    + exists c, ma'. auto.
Qed.
Print Assumptions learned_experiments.

Lemma f32_small : f32 (/ 1024) = / 1024.
Proof.
  apply f32_id. unfold is_f32. replace (/ 1024) with (bpow radix2 (-10)) by (cbn; lra).
  apply generic_format_bpow. unfold FLT_exp. lia.
Qed.
Lemma rounded_nonzero p : 1 / 100 <= pnorm p -> rounded p <> pzero.
Proof.
  intros H E. assert (Ex : f32 (px p) = 0) by exact (f_equal px E). assert (Ey : f32 (py p) = 0) by exact (f_equal py E).
  assert (K : forall x, f32 x = 0 -> Rabs x < / 1024).
  { intros x Hx. apply Rabs_def1.
    - apply Rnot_le_lt. intro K. apply f32_mono in K. rewrite f32_small, Hx in K. lra.
    - apply Rnot_le_lt. intro K. assert (K' : / 1024 <= - x) by lra. apply f32_mono in K'.
      rewrite f32_small, f32_opp, Hx in K'. lra. }
  apply K in Ex. apply K in Ey.
  assert (N : pnorm p <= Rabs (px p) + Rabs (py p)).
  { unfold pnorm. apply Rsqr_incr_0_var; [|pose proof (Rabs_pos (px p)); pose proof (Rabs_pos (py p)); lra].
    rewrite Rsqr_sqrt by (apply psq_nonneg). unfold psq, Rsqr.
    pose proof (Rabs_pos (px p)); pose proof (Rabs_pos (py p)).
    assert (Rabs (px p) * Rabs (px p) = px p * px p) by (rewrite <- Rabs_mult; apply Rabs_pos_eq; nra).
    assert (Rabs (py p) * Rabs (py p) = py p * py p) by (rewrite <- Rabs_mult; apply Rabs_pos_eq; nra). nra. }
  lra.
Qed.

(** The greedy experiments turn the stated vector towards the one of the three
    nearest atoms that is closest to the goal, add it to the silicon atom and
    expose there, or at the closest place in view, for five seconds.  (Places
    are rounded to float32 on the way; atoms are at least 0.01 angstroms from
    the silicon atom.) *)
Theorem greedy_experiments : forall name argmax, In (name, argmax) greedy_rows ->
  exists e, create_microscope_experiment name = Ok e /\
  forall G (s : sampler G) knn resize model, sampler_ok s -> knn_ok knn ->
  forall o k si (ma : @magent G G unit goal_state),
    wf_grid (o_grid o) -> proper (o_fov o) -> lone_silicon (o_grid o) si ->
    nth_error (positions (o_grid o)) k = Some si -> (4 <= length (positions (o_grid o)))%nat ->
    (forall j p, nth_error (positions (o_grid o)) j = Some p -> j <> k -> 1 / 100 <= angstroms (o_fov o) p si) ->
    let at_material := map (at_relative (o_fov o)) (positions (o_grid o)) in
    let c := at_relative (o_fov o) si in
    let goal := rounded (psub (goal_position (ma_goal ma)) c) in
    exists idx n1 n2 n3 n q ma', three_nearest at_material k idx /\ take_idx at_material idx = Some [n1; n2; n3] /\
      In n [n1; n2; n3] /\
      (forall m, In m [n1; n2; n3] -> pdist (rounded (psub n c)) goal <= pdist (rounded (psub m c)) goal) /\
      point_limited_to 0 1 (relative_to (o_fov o) (padd c (towards (rounded (psub n c)) argmax))) q /\
      experiment_step s knn resize model e o ma = (Ok [aimed_for q 5000000], ma').
Proof.
  intros name argmax H.
  assert (K : create_microscope_experiment name =
    Ok (mkmicroscope_experiment (GreedyOf argmax) (MaterialFrame 5000000%Z 5000000%Z (284 / 100)))).
  { cbn [In greedy_rows] in H. repeat (destruct H as [H|H]); try contradiction; injection H as <- <-; unfold create_microscope_experiment;
      cbn [dict_get microscope_experiments String.eqb Ascii.eqb Bool.eqb]; unfold greedy_frame;
      seconds; unfold CARBON_BOND_DISTANCE_ANGSTROMS; f_equal; f_equal; try (f_equal; lra); f_equal; apply pt_eq; cbn [px py]; lra. }
  eexists. split; [exact K|]. clear K.
  intros G s knn resize model O Kn o k si ma W Pr L Hk L4 Far at_material c goal.
  set (e := mkmicroscope_experiment (GreedyOf argmax) (MaterialFrame 5000000%Z 5000000%Z (284 / 100))).
  assert (U : forall j, nth_error (positions (o_grid o)) j = Some si -> j = k).
  { intros j Hj. destruct (Nat.eq_dec j k) as [E|N]; [exact E|]. specialize (Far j si Hj N). unfold angstroms in Far.
    rewrite pdist_self in Far. lra. }
  destruct (material_frame_layout knn o (ma_goal ma) k si Kn W Pr L Hk U L4) as (idx & n1 & n2 & n3 & T & Ti & Hx).
  assert (Cv : clear_view o) by (split; [exact W|split; [exact Pr|eauto]]).
  assert (Hn : forall n, In n [n1; n2; n3] -> rounded (psub n c) <> pzero).
  { intros n Hn. apply rounded_nonzero. apply In_nth_error in Hn. destruct Hn as (b & Hb).
    destruct (nth_error idx b) as [j|] eqn:Ej.
    2:{ exfalso. apply nth_error_None in Ej. rewrite (tn_length _ _ _ T) in Ej. apply nth_error_lt in Hb. cbn in Hb. lia. }
    pose proof (take_idx_nth _ _ _ b Ti) as En. rewrite Ej, Hb in En. pose proof (nth_error_In _ _ Ej) as Hj. symmetry in En.
    unfold at_material in En. rewrite nth_error_map in En. destruct (nth_error (positions (o_grid o)) j) as [p|] eqn:Ep; [|discriminate].
    injection En as <-. apply (Far j p Ep). intros ->. apply (tn_other _ _ _ T). exact Hj. }
  destruct (step_with s knn resize model e o ma (Vector (map f32
      [px c; py c;
       px n1 - px c; py n1 - py c; px n2 - px c; py n2 - py c; px n3 - px c; py n3 - py c;
       px (goal_position (ma_goal ma)) - px c; py (goal_position (ma_goal ma)) - py c])) Cv) as (input & Ei & Hs).
  { cbn [e me_adapters features_of]. unfold map_features. cbn [fc_get_features]. rewrite Hx. reflexivity. }
  pose proof (greedy_action G s (mkgreedy argmax pzero 0) (f32 (px c)) (f32 (py c))
    (rounded (psub n1 c)) (rounded (psub n2 c)) (rounded (psub n3 c)) goal (ma_agent ma)
    (Hn n1 ltac:(cbn; tauto)) (Hn n2 ltac:(cbn; tauto)) (Hn n3 ltac:(cbn; tauto))) as Ga.
  destruct Ga as (best & r & Eb & Mb & _ & Ga). cbn [ga_position_noise_sigma] in Ga.
  destruct (s_normal s 0 (ma_agent ma)) as [nx g1] eqn:E1. destruct (s_normal s 0 g1) as [ny g2] eqn:E2.
  assert (Z1 : nx = 0). { pose proof (normal_zero s O (ma_agent ma)) as Z. rewrite E1 in Z. exact Z. }
  assert (Z2 : ny = 0). { pose proof (normal_zero s O g1) as Z. rewrite E2 in Z. exact Z. }
  subst nx ny. cbv zeta in Ga.
  replace (padd (padd (ga_argmax (mkgreedy argmax pzero 0)) (ga_fixed_offset (mkgreedy argmax pzero 0))) (mkpt 0 0)) with argmax in Ga.
  2:{ cbn [ga_argmax ga_fixed_offset]. apply pt_eq; cbn [px py padd pzero]; lra. }
  assert (Hr : exists n, In n [n1; n2; n3] /\ r = rounded (psub n c)).
  { apply nth_error_In in Eb. destruct Eb as [<-|[<-|[<-|[]]]]; eexists; (split; [|reflexivity]); cbn; tauto. }
  destruct Hr as (n & In_n & ->).
  set (beam := towards (rounded (psub n c)) argmax) in *.
  destruct (fst (aa_get_action (@material_frame_adapter G (new_relative 5000000%Z 5000000%Z (284 / 100))) (ma_adapter ma) o [px beam; py beam])) as [cs|x|] eqn:Ec.
  2:{ exfalso. apply material_frame_adapter_errors in Ec; [|exact W]. pose proof (lone_count _ _ L).
      destruct Ec as [(_ & Ec)|[(_ & _ & Ec)|(_ & _ & Ec & _)]]; [contradiction|discriminate|contradiction]. }
  2:{ exfalso. cbn [aa_get_action material_frame_adapter fst] in Ec. unfold material_frame_get_action in Ec.
      unfold the_silicon in Ec. apply lone_silicon_iff in L; [|exact W]. rewrite L in Ec. cbn in Ec. discriminate. }
  pose proof Ec as Ec'. apply material_frame_adapter_result in Ec'; [|exact W].
  destruct Ec' as (si' & dx & dy & q & t & L' & Of & Q & D & ->).
  rewrite (lone_unique _ _ _ W L' L) in Q. fold c in Q.
  assert (Et : t = 5000000%Z). { destruct D as [(_ & D)|(N & _)]; [exact D|contradiction]. } subst t.
  assert (Eo : mkpt dx dy = beam).
  { destruct Of as [(Of & _)|(rest & Of)]; [discriminate|]. pose proof (f_equal (fun l => nth 0 l 0) Of) as Ox. pose proof (f_equal (fun l => nth 1 l 0) Of) as Oy.
    cbn [nth] in Ox, Oy. rewrite <- Ox, <- Oy. apply pt_eta. }
  rewrite Eo in Q.
  destruct (Hs [px beam; py beam] g2) with (cs := [aimed_for q 5000000]) as (ma' & Hm & _).
  { cbn [agent_step_of e me_agent]. rewrite Ei. exact Ga. }
  { exact Ec. }
  exists idx, n1, n2, n3, n, q, ma'. split; [exact T|]. split; [exact Ti|]. split; [exact In_n|]. split; [|split; [exact Q|exact Hm]].
  intros m Hm'. destruct Hm' as [<-|[<-|[<-|[]]]]; [apply (Mb 0%nat)|apply (Mb 1%nat)|apply (Mb 2%nat)]; reflexivity.
Qed.
Print Assumptions greedy_experiments.

(** The actions of the greedy agents are within the bounds their adapter
    advertises only for "greedy_short_of_neighbor"; all actions of the others
    are outside of them. *)
Theorem greedy_bounds_refuted : forall name argmax, In (name, argmax) greedy_rows ->
  exists e, create_microscope_experiment name = Ok e /\
  forall G (s : sampler G) model input u v n0 n1 n2 goal g, sampler_ok s ->
    n0 <> pzero -> n1 <> pzero -> n2 <> pzero ->
    ai_observation input = Vector [u; v; px n0; py n0; px n1; py n1; px n2; py n2; px goal; py goal] ->
    exists a g', agent_step_of s model (me_agent e) (me_adapters e) input g = (Ok a, g') /\
      adapter_spec_of (me_adapters e) = [(-1, 1); (-1, 1)] /\
      (fits [(-1, 1); (-1, 1)] a <-> name = "greedy_short_of_neighbor"%string).
Proof.
  intros name argmax H.
  assert (K : exists frame, frame = greedy_frame /\ create_microscope_experiment name =
    Ok (mkmicroscope_experiment (GreedyOf argmax) frame)).
  { cbn [In greedy_rows] in H. exists greedy_frame. split; [reflexivity|].
    repeat (destruct H as [H|H]); try contradiction; injection H as <- <-; unfold create_microscope_experiment;
      cbn [dict_get microscope_experiments String.eqb Ascii.eqb Bool.eqb]; f_equal; f_equal; f_equal; apply pt_eq; cbn [px py]; lra. }
  destruct K as (frame & -> & K). eexists. split; [exact K|]. clear K.
  intros G s model input u v n0 n1 n2 goal g O N0 N1 N2 Ei.
  destruct (greedy_action G s (mkgreedy argmax pzero 0) u v n0 n1 n2 goal g N0 N1 N2) as (best & n & Eb & _ & _ & Ga).
  cbn [ga_position_noise_sigma] in Ga.
  destruct (s_normal s 0 g) as [nx g1] eqn:E1. destruct (s_normal s 0 g1) as [ny g2] eqn:E2.
  assert (Z1 : nx = 0). { pose proof (normal_zero s O g) as Z. rewrite E1 in Z. exact Z. }
  assert (Z2 : ny = 0). { pose proof (normal_zero s O g1) as Z. rewrite E2 in Z. exact Z. }
  subst nx ny. cbv zeta in Ga.
  replace (padd (padd (ga_argmax (mkgreedy argmax pzero 0)) (ga_fixed_offset (mkgreedy argmax pzero 0))) (mkpt 0 0)) with argmax in Ga.
  2:{ cbn [ga_argmax ga_fixed_offset]. apply pt_eq; cbn [px py padd pzero]; lra. }
  assert (Nn : n <> pzero). { apply nth_error_In in Eb. destruct Eb as [<-|[<-|[<-|[]]]]; assumption. }
  set (beam := towards n argmax) in *.
  assert (Hb : px beam * px beam + py beam * py beam = px argmax * px argmax + py argmax * py argmax).
  { assert (Q : pnorm beam = pnorm argmax) by (apply greedy_distance; exact Nn).
    change (psq beam = psq argmax). rewrite <- (sqrt_sqrt (psq beam)), <- (sqrt_sqrt (psq argmax)) by apply psq_nonneg.
    unfold pnorm in Q. rewrite Q. reflexivity. }
  exists [px beam; py beam], g2. split.
  { cbn [agent_step_of me_agent]. rewrite Ei. exact Ga. }
  split.
  { cbn [adapter_spec_of me_adapters greedy_frame]. rewrite relative_spec_bounds. unfold relative_bounds.
    destruct (Z.eq_dec _ _) as [_|N]; [reflexivity|]. exfalso. apply N. reflexivity. }
  assert (F : fits [(-1, 1); (-1, 1)] [px beam; py beam] <-> (-1 <= px beam <= 1 /\ -1 <= py beam <= 1)).
  { split; [intro F; inversion F as [|? ? ? ? F1 F2]; inversion F2; auto|]. intros (A & B). constructor; [exact A|constructor; [exact B|constructor]]. }
  rewrite F. clearbody beam. cbn [In greedy_rows] in H. repeat (destruct H as [H|H]); try contradiction;
    injection H as <- <-; cbn [px py] in Hb; split; intro X; try discriminate; try reflexivity; first [exfalso; nra|split; nra].
Qed.
Print Assumptions greedy_bounds_refuted.

(** training and evaluation *)
Lemma map_features_describes {F F'} (f : F -> F') (c : feature_constructor goal_state F) :
  describes c -> describes (map_features f c).
Proof.
  intros D o goal Cv L Im. destruct (D o goal Cv L Im) as (x & Hx). exists (f x).
  unfold map_features. cbn [fc_get_features]. rewrite Hx. reflexivity.
Qed.
Lemma features_of_describe knn resize c : knn_ok knn -> describes (features_of knn resize c).
Proof.
  intros K. destruct (shipped_features_describe knn resize K) as (A & B & C).
  destruct c; apply map_features_describes; assumption.
Qed.
Lemma rates_of_steady knn c : knn_ok knn -> steady (rates_of knn c) 50.
Proof. intros K. destruct (shipped_rates_steady knn 50 K ltac:(lia)) as (A & B). destruct c; assumption. Qed.

(** the longest exposure of the configuration is at most ten seconds *)
Definition within_ten (c : adapters_config) : Prop :=
  match c with
  | Relative lo hi _ | MaterialFrame lo hi _ | FromPixels lo hi => (lo <= hi <= 10000000)%Z
  | DirectFromPixels => True
  end.
Lemma adapter_of_accepts {G} (s : sampler G) c fuel : (10000000 <= Z.of_nat fuel)%Z -> within_ten c ->
  accepts (@adapter_of G c) fuel (fits (adapter_spec_of c)).
Proof.
  intros Hf Hc.
  assert (R3 : forall lo hi dist a, fits (relative_action_spec (new_relative lo hi dist)) a ->
    a <> [] /\ (lo <> hi -> (3 <= length a)%nat)).
  { intros lo hi dist a H. apply advertised_bounds in H. destruct H as (x & y & l & -> & _ & _ & H).
    split; [discriminate|]. intro N. destruct (Z.eq_dec lo hi); [contradiction|]. destruct H as (t & -> & _). cbn. lia. }
  intros st o a Cv Ha. destruct c as [lo hi dist|lo hi dist|lo hi|]; cbn [adapter_of adapter_spec_of within_ten] in *.
  - destruct (shipped_adapters_accept G s lo hi dist fuel ltac:(lia) ltac:(lia) ltac:(lia)) as (_ & _ & A & _). apply A; eauto.
  - destruct (shipped_adapters_accept G s lo hi dist fuel ltac:(lia) ltac:(lia) ltac:(lia)) as (_ & _ & _ & A). apply A; eauto.
  - destruct (shipped_adapters_accept G s lo hi CARBON_BOND_DISTANCE_ANGSTROMS fuel ltac:(lia) ltac:(lia) ltac:(lia)) as (_ & _ & A & _). apply A; eauto.
  - destruct (shipped_adapters_accept G s 0%Z 0%Z 0 fuel ltac:(lia) ltac:(lia) ltac:(lia)) as (A & _). apply A; [exact Cv|].
    apply (advertised_bounds 0%Z 0%Z 0 a) in Ha. destruct Ha as (x & y & -> & _). left. reflexivity.
Qed.

Lemma configured_never_raises {G} (s : sampler G) render knn resize ad rc fuel e c :
  sampler_ok s -> (forall sc g, / 2000000 < fst (s_exponential s sc g)) -> knn_ok knn ->
  (10000000 <= Z.of_nat fuel)%Z -> within_ten ad ->
  (fc_requires_image (features_of knn resize ad) = true -> forall og f prm g, exists i g', render og f prm g = (Ok i, g')) ->
  lives s render (adapter_of ad) (features_of knn resize ad) (single_silicon_goal s) fuel (rates_of knn rc) 50 2000000%Z e ->
  (forall act, c = CallStep act -> fits (adapter_spec_of ad) act) ->
  exists ts e', answer (dune_environment s render (adapter_of ad) (features_of knn resize ad) (single_silicon_goal s) fuel) c e = (Ok ts, e').
Proof.
  intros O X K Hf Hw Hr L Hc.
  exact (stack_never_raises s render (adapter_of ad) (features_of knn resize ad) fuel (fits (adapter_spec_of ad)) (rates_of knn rc) 50%nat 2000000%Z e c
    O X ltac:(lia) (rates_of_steady knn rc K) (features_of_describe knn resize ad K) (adapter_of_accepts s ad fuel Hf Hw) Hr L Hc).
Qed.

(** The training experiments: bounds of the actions, what is shown, and that no
    call raises while actions are within the bounds and pictures can be drawn. *)
Theorem train_experiments_run : forall name prior pictures range, In (name, (prior, pictures, range)) train_rows ->
  exists e, create_train_experiment name = Ok e /\
  let bounds := match range with Some (lo, hi) => relative_bounds lo hi | None => [(0, 1); (0, 1)] end in
  let ad := te_adapters e in
  adapter_spec_of ad = bounds /\
  forall G (s : sampler G) render knn resize fuel,
  (@adapter_of G ad = match range with Some (lo, hi) => relative_adapter (new_relative lo hi (142 / 100)) | None => direct_adapter end) /\
  features_of knn resize ad = (if pictures then map_features (fun x => Picture (fst x) (snd x)) (image_features resize)
                               else map_features Vector (pristine_features knn)) /\
  rates_of knn (te_rates e) = pristine_rate_predictor knn (if prior then human_prior_default else simple_canonical_rate_function) /\
  (sampler_ok s -> (forall sc g, / 2000000 < fst (s_exponential s sc g)) -> knn_ok knn -> (10000000 <= Z.of_nat fuel)%Z ->
   (pictures = true -> forall og f prm g, exists i g', render og f prm g = (Ok i, g')) ->
   forall env c, (exists goal g ga, lived s render (adapter_of ad) (features_of knn resize ad) (single_silicon_goal s) fuel
       (new_env (material_of knn (te_rates e)) config_image_duration tt goal g ga) env) ->
     (forall act, c = CallStep act -> fits bounds act) ->
     exists ts env', answer (dune_environment s render (adapter_of ad) (features_of knn resize ad) (single_silicon_goal s) fuel) c env = (Ok ts, env')).
Proof.
  intros name prior pictures range H.
  assert (K : create_train_experiment name = Ok (mktrain_experiment
     (match range with
      | Some (lo, hi) => if pictures then FromPixels lo hi else Relative lo hi (142 / 100)
      | None => DirectFromPixels end) (if prior then HumanPriorRates else SimpleRates)) /\
     (range = None -> pictures = true) /\ forall lo hi, range = Some (lo, hi) -> (lo <= hi <= 10000000)%Z).
  { cbn [In train_rows] in H.
    repeat (destruct H as [H|H]); try contradiction; injection H as <- <- <- <-;
      (split; [|split; [try discriminate; reflexivity|intros lo hi H; try discriminate; injection H as <- <-; lia]]);
      unfold create_train_experiment; cbn [dict_get train_experiments String.eqb Ascii.eqb Bool.eqb];
      unfold plain_relative, default_lo, default_hi; seconds; reflexivity. }
  destruct K as (K & Kp & Kr). eexists. split; [exact K|]. cbv zeta. cbn [te_adapters te_rates].
  set (ad := match range with Some (lo, hi) => if pictures then FromPixels lo hi else Relative lo hi (142 / 100) | None => DirectFromPixels end).
  assert (Sp : adapter_spec_of ad = match range with Some (lo, hi) => relative_bounds lo hi | None => [(0, 1); (0, 1)] end).
  { unfold ad. destruct range as [[lo hi]|]; [|reflexivity]. destruct pictures; cbn [adapter_spec_of]; apply relative_spec_bounds. }
  split; [exact Sp|]. intros G s render knn resize fuel.
  assert (Fe : features_of knn resize ad = (if pictures then map_features (fun x => Picture (fst x) (snd x)) (image_features resize)
                               else map_features Vector (pristine_features knn))).
  { unfold ad. destruct range as [[lo hi]|]; [destruct pictures; reflexivity|]. rewrite Kp by reflexivity. reflexivity. }
  split; [unfold ad; destruct range as [[lo hi]|]; [destruct pictures; reflexivity|reflexivity]|].
  split; [exact Fe|]. split; [destruct prior; reflexivity|].
  intros O X Kn Hf Hr env c (goal & g & ga & L) Hc.
  apply (configured_never_raises s render knn resize ad (if prior then HumanPriorRates else SimpleRates) fuel env c); auto.
  - unfold ad. destruct range as [[lo hi]|]; [|exact I]. pose proof (Kr lo hi eq_refl). destruct pictures; exact H0.
  - rewrite Fe. intros Hi. apply Hr. destruct pictures; [reflexivity|discriminate].
  - exists tt, goal, g, ga. unfold material_of, config_image_duration, default_columns in L.
    rewrite (td_whole 2 2000000%Z) in L by lra. exact L.
  - intros act Ha. rewrite Sp. apply Hc. exact Ha.
Qed.
Print Assumptions train_experiments_run.

(** The random agents in the evaluation environments: every action they take in
    any state of the environment is drawn within its bounds, and the
    environment answers it. *)
Theorem random_evaluations_run : forall name prior, In (name, prior) random_eval_rows ->
  forall regs, exists e, create_eval_experiment (registered regs) name = Ok e /\
  forall G (s : sampler G) render knn resize model fuel,
  rates_of knn (ee_rates e) = pristine_rate_predictor knn (if prior then human_prior_default else simple_canonical_rate_function) /\
  (sampler_ok s -> (forall sc g, / 2000000 < fst (s_exponential s sc g)) -> knn_ok knn -> (10000000 <= Z.of_nat fuel)%Z ->
   let ad := ee_adapters e in
   let en := dune_environment s render (adapter_of ad) (features_of knn resize ad) (single_silicon_goal s) fuel in
   forall env, (exists goal g ga, lived s render (adapter_of ad) (features_of knn resize ad) (single_silicon_goal s) fuel
       (new_env (material_of knn (ee_rates e)) config_image_duration tt goal g ga) env) ->
   (exists ts env', answer en CallReset env = (Ok ts, env')) /\
   forall input g, exists a g' ts env',
     agent_step_of s model (ee_agent e) ad input g = (Ok a, g') /\ drawn_from s [(-1, 1); (-1, 1)] g a g' /\
     answer en (CallStep a) env = (Ok ts, env')).
Proof.
  intros name prior H regs.
  assert (K : create_eval_experiment (registered regs) name = Ok (mkeval_experiment RandomAgent
     (Relative 1500000%Z 1500000%Z (142 / 100)) (if prior then HumanPriorRates else SimpleRates))).
  { apply (proj1 (eval_registration regs name)). cbn [In random_eval_rows] in H.
    destruct H as [H|[H|[]]]; injection H as <- <-; unfold eval_experiments, plain_relative;
      rewrite default_lo_value, default_hi_value; fold CARBON_BOND_DISTANCE_ANGSTROMS.
    - eexists [], _. split; [reflexivity|intros []].
    - eexists [_], _. split; [reflexivity|]. intros [E|[]]. discriminate E. }
  eexists. split; [exact K|]. intros G s render knn resize model fuel. split; [destruct prior; reflexivity|].
  cbv zeta. cbn [ee_rates ee_adapters ee_agent]. intros O X Kn Hf env (goal & g & ga & L).
  set (ad := Relative 1500000%Z 1500000%Z (142 / 100)) in *.
  set (en := dune_environment s render (adapter_of ad) (features_of knn resize ad) (single_silicon_goal s) fuel).
  assert (L' : lives s render (adapter_of ad) (features_of knn resize ad) (single_silicon_goal s) fuel
    (rates_of knn (if prior then HumanPriorRates else SimpleRates)) 50 2000000%Z env).
  { exists tt, goal, g, ga. unfold material_of, config_image_duration, default_columns in L.
    rewrite (td_whole 2 2000000%Z) in L by lra. exact L. }
  assert (An : forall c, (forall act, c = CallStep act -> fits (adapter_spec_of ad) act) ->
    exists ts env', answer en c env = (Ok ts, env')).
  { intros c Hc. apply (configured_never_raises s render knn resize ad (if prior then HumanPriorRates else SimpleRates) fuel env c); auto.
    - cbn. lia.
    - discriminate. }
  split; [apply An; discriminate|]. intros input g0.
  assert (Sp : adapter_spec_of ad = [(-1, 1); (-1, 1)]).
  { unfold ad. cbn [adapter_spec_of]. rewrite relative_spec_bounds. unfold relative_bounds.
    destruct (Z.eq_dec _ _) as [_|N]; [reflexivity|]. contradiction. }
  destruct (uniform_in_spec s (adapter_spec_of ad) g0) as [a g'] eqn:Ea.
  pose proof (uniform_in_spec_drawn s _ _ _ _ Ea) as D.
  assert (Fi : fits (adapter_spec_of ad) a).
  { apply (drawn_fits s O (adapter_spec_of ad) g0 a g'); [rewrite Sp; repeat constructor; cbn; lra|exact D]. }
  destruct (An (CallStep a)) as (ts & env' & Ha); [intros act E; injection E as <-; exact Fi|].
  exists a, g', ts, env'. split; [|split; [|exact Ha]].
  - cbn [agent_step_of]. rewrite Ea. reflexivity.
  - rewrite Sp in D. exact D.
Qed.
Print Assumptions random_evaluations_run.

(** A view of five atoms with one silicon atom meets the hypotheses of the
    experiments on a microscope; the samplers and neighbour searches of the
    environments are those of [shipped_stack_never_raises]. *)
Example experiments_nonvacuous :
  clear_view ex_five /\ lone_silicon (o_grid ex_five) (mkpt (1/2) (1/2)) /\ (4 <= length (positions (o_grid ex_five)))%nat /\
  (forall j p, nth_error (positions (o_grid ex_five)) j = Some p -> j <> 0%nat ->
     1 / 100 <= angstroms (o_fov ex_five) p (mkpt (1/2) (1/2))) /\
  (exists c ma', experiment_step (ex_sampler 1) knn_sort (fun i => i) (fun _ _ => Raise ValueError)
     (mkmicroscope_experiment RandomAgent plain_relative) ex_five (experiment_agent 0%nat 0%nat) = (Ok [c], ma')).
Proof.
  assert (L : lone_silicon (o_grid ex_five) (mkpt (1/2) (1/2))) by (split; [reflexivity|left; reflexivity]).
  assert (C : clear_view ex_five).
  { split; [reflexivity|]. split; [unfold proper; cbn; lra|]. eauto. }
  split; [exact C|]. split; [exact L|]. split; [cbn; lia|]. split.
  - intros j p Hj N.
    assert (K : 1 <= pdist (at_relative (o_fov ex_five) p) (at_relative (o_fov ex_five) (mkpt (1/2) (1/2)))).
    { unfold pdist, pnorm. rewrite <- sqrt_1. apply sqrt_le_1_alt.
      destruct j as [|[|[|[|[|[|j]]]]]]; cbn in Hj; try discriminate; try (exfalso; apply N; reflexivity); injection Hj as <-;
        unfold psq; cbn [ex_five o_fov at_relative psub px py lower_left upper_right]; rewrite ?sqrt_1; lra. }
    unfold angstroms. lra.
  - destruct (random_acts (ex_sampler 1) knn_sort (fun i => i) (fun _ _ => Raise ValueError) default_lo default_hi
      CARBON_BOND_DISTANCE_ANGSTROMS (ex_sampler_ok 1 ltac:(lra)) knn_sort_ok ex_five (mkpt (1/2) (1/2)) (experiment_agent 0%nat 0%nat))
      as (a & g' & c & ma' & _ & _ & _ & E & _); [exact C|exact L|cbn; lia|]. eauto.
Qed.
