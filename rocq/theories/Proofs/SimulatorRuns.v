(** Whole calls (reset, step) and histories of calls. *)
From Coq Require Import Reals ZArith List Bool Arith Lia Lra Sorting.Permutation Sorting.Sorted.
From Verif Require Import Base.Prelude Base.Rounding Base.Random Model.Constants Model.Geometry
  Model.MicroscopeUtils Model.Graphene Model.Simulator Model.SimulatorObservers
  Spec.Grids Spec.Neighbours Spec.Material Spec.MaterialRuns Spec.Simulation
  Proofs.BaseFacts Proofs.FovFacts Proofs.MaterialFacts Proofs.ExposureFacts Proofs.SheetFacts
  Proofs.ViewFacts Proofs.SimulatorFacts.
Import ListNotations.
Open Scope R_scope.

Section WithRng.
Context {G : Type}.
Variable s : sampler G.
Variable render : @renderer G.

Definition coerce {A B} (r : res A) : res B :=
  match r with Ok _ => OutOfFuel | Raise e => Raise e | OutOfFuel => OutOfFuel end.

(** the state and callbacks after the image of a step was taken *)
Inductive imaged (sim : simulator) (f : fov) (a : R) (prm : image_parameters) (m' : material) (gr' : grid) (si : pt)
  : fov -> Z -> simulator -> list callback -> Prop :=
| imaged_stay : safe (relative_to f si) ->
    imaged sim f a prm m' gr' si f (sim_image_duration sim)
      (mksimulator m' (sim_observers sim) (sim_image_duration sim) true (Some a) (Some f) (Some prm))
      [ObserveTakeImage (sim_image_duration sim) f]
| imaged_recentre : ~ safe (relative_to f si) ->
    imaged sim f a prm m' gr' si (square_around si a) (sim_image_duration sim + sim_image_duration sim)%Z
      (mksimulator m' (sim_observers sim) (sim_image_duration sim) true (Some a) (Some (square_around si a)) (Some prm))
      [ObserveTakeImage (sim_image_duration sim) f; ObserveFovChange (square_around si a);
       ObserveTakeImage (sim_image_duration sim) (square_around si a)].

Lemma step_run fuel cs b sim g ps gr f a prm :
  ready sim ps gr f a prm -> hopping (m_rate_function (sim_material sim)) ->
  let o := step_and_image s render fuel cs b sim g in
  exists grps, out_trace o = blocks (sim_observers sim) grps /\
  ((exists obs, out_result o = Ok obs /\
      stepped s render fuel cs b sim f a prm g obs (out_sim o) (out_rng o) (concat grps)) \/
   (exists r m', broken s fuel f (sim_material sim) g cs r (concat grps) m' (out_rng o) /\
      out_result o = coerce r /\ out_sim o = with_material sim m') \/
   (exists m' g1 gr' si f' t cbs rest r, b = true /\
      beamed s fuel f (sim_material sim) g cs cbs m' g1 /\ m_grid m' = Some gr' /\ silicon_at gr' si /\
      imaged sim f a prm m' gr' si f' t (out_sim o) rest /\ concat grps = cbs ++ rest /\
      render (view gr' f') f' prm g1 = (r, out_rng o) /\ (forall i, r <> Ok i) /\ out_result o = coerce r)).
Proof.
  intros Rd Hh o. destruct Rd as [R1 R2 R3 R4 R5 R6 R7 R8 R9 R10]. subst o.
  unfold step_and_image.
  assert (Ea : assert_has_been_reset sim g = mkoutcome (Ok tt) sim g []).
  { unfold assert_has_been_reset, then_, get_self; simpl. rewrite R1. reflexivity. }
  rewrite (then_Ok _ _ _ _ tt) by (rewrite Ea; reflexivity). rewrite Ea.
  cbn [out_result out_sim out_rng out_trace app].
  destruct (apply_all_run s fuel f cs 0%Z sim g R6) as (m' & g1 & grps & E1 & E2 & E3 & C).
  destruct C as [(Er & B)|(r & B & Er)].
  - rewrite (then_Ok _ _ _ _ _ Er). rewrite E1, E2, E3. cbn [out_result out_sim out_rng out_trace].
    destruct (beamed_sheet s fuel f _ _ _ _ _ _ ps gr B Hh R5 R2 R3 R4) as (gr' & _ & Rf & Rr & Rg & Rd).
    destruct (doped_silicon _ _ Rd) as (si & Dsi).
    assert (Ha : 0 < a) by lra.
    set (sim1 := with_material sim m').
    destruct (image_and_recentre_run (0 + zsum (map c_dwell cs))%Z sim1 g1 gr' f a si) as [I1 I2]; auto.
    cbv zeta in I1, I2.
    change (sim_image_duration sim1) with (sim_image_duration sim) in *.
    change (sim_observers sim1) with (sim_observers sim) in *.
    destruct (safe_dec (relative_to f si)) as [K|K].
    + specialize (I1 K). rewrite (then_Ok _ _ _ _ _ ltac:(rewrite I1; reflexivity)). rewrite I1.
      cbn [out_result out_sim out_rng out_trace fst snd].
      destruct (maybe_image_run render b (view gr' f) sim1 g1 f prm R6 R10) as [(i & g2 & igrps & M & P)|(r & g2 & Eb & Ern & Nr & M)].
      * rewrite (then_Ok _ _ _ _ _ ltac:(rewrite M; reflexivity)). rewrite M.
        cbn [out_result out_sim out_rng out_trace].
        rewrite (then_Ok _ _ _ _ f) by (simpl; rewrite R6; reflexivity).
        cbn [attribute ret out_result out_sim out_rng out_trace app].
        exists (grps ++ [[ObserveTakeImage (sim_image_duration sim) f]] ++ igrps). split.
        { rewrite !blocks_app. rewrite app_nil_r. reflexivity. }
        left. eexists. split; [reflexivity|]. rewrite !concat_app. cbn [concat app].
        replace sim1 with (mksimulator m' (sim_observers sim) (sim_image_duration sim) true (Some a) (Some f) (Some prm))
          by (unfold sim1, with_material; congruence).
        eapply (stepped_stay s render fuel cs b sim f a prm g m' g1 gr' si); eauto.
        apply view_shows. eapply silicon_at_wf; eauto.
      * assert (Em : out_result (maybe_image render b (view gr' f) sim1 g1) = coerce r) by (rewrite M; reflexivity).
        exists (grps ++ [[ObserveTakeImage (sim_image_duration sim) f]]).
        destruct r as [i|e|]; [exfalso; eapply Nr; eauto| |].
        all: [> rewrite (then_Raise _ _ _ _ _ Em) | rewrite (then_Fuel _ _ _ _ Em)];
          rewrite M; cbn [out_result out_sim out_rng out_trace]; (split; [rewrite blocks_app, app_nil_r; reflexivity|]);
          right; right; exists m', g1, gr', si, f, (sim_image_duration sim), (concat grps); do 2 eexists;
          (split; [exact Eb|]); (split; [exact B|]); (split; [exact Rg|]); (split; [exact Dsi|]);
          (split; [replace sim1 with (mksimulator m' (sim_observers sim) (sim_image_duration sim) true (Some a) (Some f) (Some prm))
            by (unfold sim1, with_material; congruence); apply imaged_stay; exact K|]);
          (split; [rewrite concat_app; reflexivity|]); (split; [exact Ern|]); (split; [exact Nr|reflexivity]).
    + specialize (I2 K). rewrite (then_Ok _ _ _ _ _ ltac:(rewrite I2; reflexivity)). rewrite I2.
      cbn [out_result out_sim out_rng out_trace fst snd].
      set (f' := square_around si a) in *.
      destruct (maybe_image_run render b (view gr' f') (with_fov sim1 f') g1 f' prm eq_refl R10) as [(i & g2 & igrps & M & P)|(r & g2 & Eb & Ern & Nr & M)].
      * rewrite (then_Ok _ _ _ _ _ ltac:(rewrite M; reflexivity)). rewrite M.
        cbn [out_result out_sim out_rng out_trace].
        rewrite (then_Ok _ _ _ _ f') by reflexivity.
        cbn [attribute ret out_result out_sim out_rng out_trace app].
        exists (grps ++ [[ObserveTakeImage (sim_image_duration sim) f]; [ObserveFovChange f']; [ObserveTakeImage (sim_image_duration sim) f']] ++ igrps). split.
        { rewrite !blocks_app. rewrite app_nil_r. reflexivity. }
        left. eexists. split; [reflexivity|]. rewrite !concat_app. cbn [concat app].
        replace (with_fov sim1 f') with (mksimulator m' (sim_observers sim) (sim_image_duration sim) true (Some a) (Some f') (Some prm))
          by (unfold sim1, with_material, with_fov; simpl; congruence).
        eapply (stepped_recentre s render fuel cs b sim f a prm g m' g1 gr' si); eauto.
        apply view_shows. eapply silicon_at_wf; eauto.
      * assert (Em : out_result (maybe_image render b (view gr' f') (with_fov sim1 f') g1) = coerce r) by (rewrite M; reflexivity).
        exists (grps ++ [[ObserveTakeImage (sim_image_duration sim) f]; [ObserveFovChange f']; [ObserveTakeImage (sim_image_duration sim) f']]).
        destruct r as [i|e|]; [exfalso; eapply Nr; eauto| |].
        all: [> rewrite (then_Raise _ _ _ _ _ Em) | rewrite (then_Fuel _ _ _ _ Em)];
          rewrite M; cbn [out_result out_sim out_rng out_trace]; (split; [rewrite blocks_app, app_nil_r; reflexivity|]);
          right; right; exists m', g1, gr', si, f', (sim_image_duration sim + sim_image_duration sim)%Z, (concat grps); do 2 eexists;
          (split; [exact Eb|]); (split; [exact B|]); (split; [exact Rg|]); (split; [exact Dsi|]);
          (split; [replace (with_fov sim1 f') with (mksimulator m' (sim_observers sim) (sim_image_duration sim) true (Some a) (Some f') (Some prm))
            by (unfold sim1, with_material, with_fov; simpl; congruence); apply imaged_recentre; exact K|]);
          (split; [rewrite concat_app; reflexivity|]); (split; [exact Ern|]); (split; [exact Nr|reflexivity]).
  - exists grps. 
    destruct r as [[]|e|]; cbn [coerce] in Er;
    [rewrite (then_Fuel _ _ _ _ Er) | rewrite (then_Raise _ _ _ _ _ Er) | rewrite (then_Fuel _ _ _ _ Er)];
    rewrite E1, E2, E3; cbn [out_result out_sim out_rng out_trace];
    (split; [reflexivity|]); right; left; do 2 eexists; (split; [exact B|]); split; reflexivity.
Qed.

(** every way a step can end leaves the simulator ready *)
Lemma step_ready fuel cs b sim g ps gr f a prm :
  ready sim ps gr f a prm -> hopping (m_rate_function (sim_material sim)) ->
  let o := step_and_image s render fuel cs b sim g in
  (exists gr' f', ready (out_sim o) ps gr' f' a prm) /\
  sim_observers (out_sim o) = sim_observers sim /\
  sim_image_duration (out_sim o) = sim_image_duration sim /\
  m_columns (sim_material (out_sim o)) = m_columns (sim_material sim) /\
  m_rate_function (sim_material (out_sim o)) = m_rate_function (sim_material sim).
Proof.
  intros Rd Hh o. pose proof (step_run fuel cs b sim g ps gr f a prm Rd Hh) as X. fold o in X. cbv zeta in X.
  clearbody o. destruct X as (grps & _ & X). destruct Rd as [R1 R2 R3 R4 R5 R6 R7 R8 R9 R10].
  assert (Sheet : forall m' g1 cbs, beamed s fuel f (sim_material sim) g cs cbs m' g1 ->
    exists gr', m_columns m' = m_columns (sim_material sim) /\ m_rate_function m' = m_rate_function (sim_material sim) /\
    m_reset m' = true /\ m_grid m' = Some gr' /\ doped_sheet ps gr').
  { intros. eapply beamed_sheet; eauto. }
  destruct X as [(obs & _ & St)|[(r & m' & B & _ & E)|(m' & g1 & gr' & si & f' & t & cbs & rest & r & _ & B & Hg & Hsi & Im & _)]].
  - inversion St; subst; match goal with B : beamed _ _ _ _ _ _ _ _ _ |- _ =>
      destruct (Sheet _ _ _ B) as (gr2 & ? & ? & ? & ? & ?) end; cbn;
    (split; [|repeat split; auto]); do 2 eexists; constructor; simpl; eauto.
    apply square_around_square.
  - destruct (broken_sheet s _ _ _ _ _ _ _ _ _ ps gr B Hh R5 R2 R3 R4) as (gr2 & ? & ? & ? & ? & ?).
    rewrite E. cbn. split; [|repeat split; auto]. do 2 eexists; constructor; simpl; eauto.
  - destruct (Sheet _ _ _ B) as (gr2 & ? & ? & ? & ? & ?).
    remember (out_sim o) as so eqn:Eso; clear Eso; inversion Im; subst; cbn;
    (split; [|repeat split; auto]); do 2 eexists; constructor; simpl; eauto.
    apply square_around_square.
Qed.

(** reset *)
Lemma sample_parameters_total g : exists prm g', sample_image_parameters s 512 g = (prm, g').
Proof. destruct (sample_image_parameters s 512 g) as [prm g']. eauto. Qed.

Lemma reset_run b sim g : sampler_ok s -> (2 <= m_columns (sim_material sim))%nat ->
  let o := sim_do_reset s render b sim g in
  exists m' gr ps i si a prm f g1 g2 g3 grps,
    material_reset s (sim_material sim) g = (Ok tt, m', g1) /\
    m_columns m' = m_columns (sim_material sim) /\ m_rate_function m' = m_rate_function (sim_material sim) /\
    m_reset m' = true /\ m_grid m' = Some gr /\
    positions gr = ps /\ sheet_of (m_columns (sim_material sim)) ps /\ single_doped gr i /\
    nth_error ps i = Some si /\ 15 <= a <= 30 /\ f = square_around si a /\
    s_uniform s 15 30 g1 = (a, g2) /\ sample_image_parameters s 512 g2 = (prm, g3) /\
    out_sim o = mksimulator m' (sim_observers sim) (sim_image_duration sim) true (Some a) (Some f) (Some prm) /\
    out_trace o = blocks (sim_observers sim) grps /\
    ((exists obs icbs, out_result o = Ok obs /\ shows f gr (o_grid obs) /\ o_fov obs = f /\ o_controls obs = [] /\
       o_elapsed obs = sim_image_duration sim /\ o_label_image obs = None /\
       pictured render b prm obs g3 (out_rng o) icbs /\
       concat grps = [ObserveReset gr f; ObserveFovChange f; ObserveTakeImage (sim_image_duration sim) f] ++ icbs) \/
     (exists r, b = true /\ render (view gr f) f prm g3 = (r, out_rng o) /\ (forall i, r <> Ok i) /\ out_result o = coerce r /\
       concat grps = [ObserveReset gr f; ObserveFovChange f; ObserveTakeImage (sim_image_duration sim) f])).
Proof.
  intros O C o. subst o.
  destruct (reset_ok s (sim_material sim) g O C) as (ps & i & gr & m' & g1 & E & Hc & Hrf & Hr & Hg & Hps & Hsh & Hd & Hmin).
  destruct (single_doped_pos gr i Hd) as (si & Esi).
  assert (Dsi : silicon_at gr si) by (exists i; auto).
  pose proof (uniform_range _ O 15 30 g1 ltac:(lra)) as Ua.
  destruct (s_uniform s 15 30 g1) as [a g2] eqn:Eu. cbn [fst] in Ua.
  destruct (sample_image_parameters s 512 g2) as [prm g3] eqn:Ep.
  set (f := square_around si a).
  exists m', gr, ps, i, si, a, prm, f, g1, g2, g3.
  unfold sim_do_reset.
  rewrite (then_Ok _ _ _ _ tt) by reflexivity. cbn [set_self out_result out_sim out_rng out_trace].
  assert (Em : reset_material s (with_reset sim) g = mkoutcome (Ok tt) (with_material (with_reset sim) m') g1 []).
  { unfold reset_material. change (sim_material (with_reset sim)) with (sim_material sim). rewrite E. reflexivity. }
  rewrite (then_Ok _ _ _ _ tt) by (rewrite Em; reflexivity). rewrite Em. cbn [out_result out_sim out_rng out_trace].
  assert (Ed : draws (fun g0 => let '(x, g4) := s_uniform s 15 30 g0 in (Ok x, g4)) (with_material (with_reset sim) m') g1
      = mkoutcome (Ok a) (with_material (with_reset sim) m') g2 []) by (unfold draws; rewrite Eu; reflexivity).
  rewrite (then_Ok _ _ _ _ a) by (rewrite Ed; reflexivity). rewrite Ed. cbn [out_result out_sim out_rng out_trace].
  rewrite (then_Ok _ _ _ _ tt) by reflexivity. cbn [set_self out_result out_sim out_rng out_trace].
  set (sim2 := with_fov_scale (with_material (with_reset sim) m') a).
  pose proof (centered_fov_run a sim2 g2 gr si Hr Hg Dsi) as Ec.
  rewrite (then_Ok _ _ _ _ f) by (rewrite Ec; reflexivity). rewrite Ec. cbn [out_result out_sim out_rng out_trace].
  rewrite (then_Ok _ _ _ _ tt) by reflexivity. cbn [set_self out_result out_sim out_rng out_trace].
  rewrite (then_Ok _ _ _ _ gr) by (unfold attribute; simpl; rewrite Hg; reflexivity).
  cbn [attribute out_result out_sim out_rng out_trace].
  rewrite (then_Ok _ _ _ _ tt) by reflexivity. cbn [notify out_result out_sim out_rng out_trace].
  pose proof (observe_run (with_fov sim2 f) g2 gr f Hr Hg eq_refl) as Eo.
  rewrite (then_Ok _ _ _ _ _ ltac:(rewrite Eo; reflexivity)). rewrite Eo. cbn [out_result out_sim out_rng out_trace].
  assert (Ep' : draws (fun g0 => let '(x, g4) := sample_image_parameters s 512 g0 in (Ok x, g4)) (with_fov sim2 f) g2
      = mkoutcome (Ok prm) (with_fov sim2 f) g3 []) by (unfold draws; rewrite Ep; reflexivity).
  rewrite (then_Ok _ _ _ _ prm) by (rewrite Ep'; reflexivity). rewrite Ep'. cbn [out_result out_sim out_rng out_trace].
  rewrite (then_Ok _ _ _ _ tt) by reflexivity. cbn [set_self out_result out_sim out_rng out_trace fst snd].
  set (sim3 := with_parameters (with_fov sim2 f) prm).
  set (d := sim_image_duration (with_fov sim2 f)).
  change d with (sim_image_duration sim) in *. clear d.
  destruct (maybe_image_run render b (view gr f) sim3 g3 f prm eq_refl eq_refl) as [(im & g4 & igrps & M & P)|(r & g4 & Eb & Ern & Nr & M)].
  - rewrite (then_Ok _ _ _ _ _ ltac:(rewrite M; reflexivity)). rewrite M. cbn [ret out_result out_sim out_rng out_trace app].
    exists ([[ObserveReset gr f; ObserveFovChange f]; [ObserveTakeImage (sim_image_duration sim) f]] ++ igrps).
    do 13 (split; [first [exact Ua | reflexivity | assumption | (rewrite <- Hps; assumption)]|]).
    split; [reflexivity|]. split.
    { change [[ObserveReset gr f; ObserveFovChange f]; [ObserveTakeImage (sim_image_duration sim) f]]
        with ([[ObserveReset gr f; ObserveFovChange f]] ++ [[ObserveTakeImage (sim_image_duration sim) f]]).
      rewrite !blocks_app, app_nil_r, <- app_assoc. f_equal.
      unfold blocks. cbn [flat_map]. rewrite app_nil_r. reflexivity. }
    left. do 2 eexists. split; [reflexivity|]. cbn [o_grid o_fov o_controls o_elapsed o_label_image].
    split; [apply view_shows; eapply silicon_at_wf; eauto|]. do 4 (split; [reflexivity|]).
    split; [apply P; reflexivity|]. rewrite concat_app. reflexivity.
  - exists [[ObserveReset gr f; ObserveFovChange f]; [ObserveTakeImage (sim_image_duration sim) f]].
    assert (Em' : out_result (maybe_image render b (view gr f) sim3 g3) = coerce r) by (rewrite M; reflexivity).
    do 12 (split; [first [exact Ua | reflexivity | assumption | (rewrite <- Hps; assumption)]|]).
    split; [assumption|].
    destruct r as [im|e|]; [exfalso; eapply Nr; eauto| |].
    all: [> rewrite (then_Raise _ _ _ _ _ Em') | rewrite (then_Fuel _ _ _ _ Em')];
      rewrite M; cbn [out_result out_sim out_rng out_trace]; (split; [reflexivity|]);
      (split; [rewrite app_nil_r; unfold blocks; cbn [flat_map]; rewrite !app_nil_r; reflexivity|]);
      right; eexists; (split; [exact Eb|]); (split; [exact Ern|]); (split; [exact Nr|]); split; reflexivity.
Qed.

End WithRng.
