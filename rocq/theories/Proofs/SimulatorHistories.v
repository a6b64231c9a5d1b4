(** Invariants of histories of simulator calls and of the event log. *)
From Coq Require Import Reals ZArith List Bool Arith Lia Lra Sorting.Permutation Sorting.Sorted.
From Verif Require Import Base.Prelude Base.Rounding Base.Random Model.Constants Model.Geometry
  Model.MicroscopeUtils Model.Graphene Model.Simulator Model.SimulatorObservers
  Spec.Grids Spec.Neighbours Spec.Material Spec.MaterialRuns Spec.Simulation
  Proofs.BaseFacts Proofs.FovFacts Proofs.MaterialFacts Proofs.ExposureFacts Proofs.SheetFacts
  Proofs.ViewFacts Proofs.SimulatorFacts Proofs.SimulatorRuns.
Import ListNotations.
Open Scope R_scope.

(** counting silicon *)
Lemma count_silicon gr : wf_grid gr -> count_number 14 gr = length (get_silicon_positions gr).
Proof.
  unfold wf_grid, count_number, get_silicon_positions, silicon_mask.
  generalize (positions gr) (numbers gr). intros ps ns. revert ps.
  induction ns as [|n ns IH]; intros [|p ps] L; cbn [count_occ map mask_select length] in *; try discriminate; auto.
  destruct (Z.eq_dec n 14) as [->|N].
  - simpl. rewrite (IH ps); auto.
  - unfold SILICON. destruct (Z.eqb_spec 14 n); [congruence|]. apply IH; auto.
Qed.

Lemma one_silicon gr p : wf_grid gr -> get_silicon_positions gr = [p] ->
  count_number 14 gr = 1%nat /\ (forall q, In (q, 14%Z) (atoms gr) <-> q = p).
Proof.
  intros W E. split; [rewrite count_silicon, E; auto|].
  intros q. rewrite <- silicon_positions_In, E by auto. simpl. split; [intros [|[]]; auto|auto].
Qed.

Section WithRng.
Context {G : Type}.
Variable s : sampler G.
Variable render : @renderer G.

Lemma then_ret {A B} (x : call A) (h : A -> B) sim (g : G) :
  then_ x (fun a => ret (h a)) sim g =
  mkoutcome (fmap_res h (out_result (x sim g))) (out_sim (x sim g)) (out_rng (x sim g)) (out_trace (x sim g)).
Proof.
  unfold then_. destruct (out_result (x sim g)); simpl; try reflexivity. rewrite app_nil_r. reflexivity.
Qed.

Lemma fmap_Ok {A B} (h : A -> B) r b : fmap_res h r = Ok b <-> exists a, r = Ok a /\ b = h a.
Proof.
  destruct r; simpl; split; try discriminate.
  - intros E. injection E as <-. eauto.
  - intros (x & E & ->). congruence.
  - intros (x & E & ->). congruence.
  - intros (x & E & ->). congruence.
Qed.

(** a simulator as constructed, or one that is ready *)
Record sim_inv (rf : rate_function) (cols : nat) (d : timedelta) (sim : simulator) : Prop := {
  inv_columns : m_columns (sim_material sim) = cols;
  inv_rates : m_rate_function (sim_material sim) = rf;
  inv_duration : sim_image_duration sim = d;
  inv_state : (sim_reset sim = false /\ sim_material sim = new_material rf cols /\ sim_fov sim = None) \/
              exists ps gr f a prm, ready sim ps gr f a prm /\ sheet_of cols ps
}.

Lemma with_material_inv rf cols d sim os : sim_inv rf cols d sim -> sim_inv rf cols d (with_observers sim os).
Proof.
  intros [H1 H2 H3 H4]. constructor; auto. destruct H4 as [(A & B & C)|(ps & gr & f & a & prm & [] & Sh)]; [left; auto|].
  right. exists ps, gr, f, a, prm. split; auto. constructor; auto.
Qed.

Lemma ready_observers sim ps gr f a prm os : ready sim ps gr f a prm -> ready (with_observers sim os) ps gr f a prm.
Proof. intros []. constructor; auto. Qed.

Lemma reset_ready b sim g : sampler_ok s -> (2 <= m_columns (sim_material sim))%nat ->
  let o := sim_do_reset s render b sim g in
  (exists ps gr f a prm, ready (out_sim o) ps gr f a prm /\ sheet_of (m_columns (sim_material sim)) ps) /\
  sim_observers (out_sim o) = sim_observers sim /\
  sim_image_duration (out_sim o) = sim_image_duration sim /\
  m_columns (sim_material (out_sim o)) = m_columns (sim_material sim) /\
  m_rate_function (sim_material (out_sim o)) = m_rate_function (sim_material sim).
Proof.
  intros O C o. destruct (reset_run s render b sim g O C) as
    (m' & gr & ps & i & si & a & prm & f & g1 & g2 & g3 & grps & E1 & E2 & E3 & E4 & E5 & E6 & E7 & E8 & E9 & E10 & E11 & E12 & E13 & E14 & _).
  fold o in E14. clearbody o. rewrite E14. simpl. split; [|auto].
  exists ps, gr, f, a, prm. split; auto. subst f. constructor; simpl; auto.
  - split; eauto.
  - eapply sheet_of_NoDup; eauto.
  - apply square_around_square.
Qed.

Lemma step_before fuel cs b sim g : sim_reset sim = false ->
  step_and_image s render fuel cs b sim g = mkoutcome (Raise RuntimeError) sim g [].
Proof.
  intros H.
  assert (As : @assert_has_been_reset G sim g = mkoutcome (Raise RuntimeError) sim g []).
  { unfold assert_has_been_reset. rewrite (then_Ok _ _ _ _ sim) by reflexivity. cbn [get_self out_sim out_rng out_trace].
    rewrite H. reflexivity. }
  unfold step_and_image. rewrite (then_Raise _ _ _ _ RuntimeError) by (rewrite As; reflexivity). rewrite As. reflexivity.
Qed.

Lemma perform_inv rf cols d sim r g : sampler_ok s -> (2 <= cols)%nat -> hopping rf ->
  sim_inv rf cols d sim -> sim_inv rf cols d (out_sim (perform s render r sim g)).
Proof.
  intros O C H I. destruct I as [H1 H2 H3 H4]. destruct r as [b|fuel cs b|o|o]; cbn [perform]; rewrite then_ret; cbn [out_sim].
  - assert (C' : (2 <= m_columns (sim_material sim))%nat) by lia.
    destruct (reset_ready b sim g O C') as ((ps & gr & f & a & prm & Rd & Sh) & E1 & E2 & E3 & E4).
    constructor; try congruence. right. exists ps, gr, f, a, prm. split; auto. congruence.
  - destruct H4 as [(A & B & F)|(ps & gr & f & a & prm & Rd & Sh)].
    + rewrite step_before by auto. constructor; auto.
    + rewrite <- H2 in H. destruct (step_ready s render fuel cs b sim g ps gr f a prm Rd H) as ((gr' & f' & Rd') & E1 & E2 & E3 & E4).
      constructor; try congruence. right. exists ps, gr', f', a, prm. auto.
  - apply with_material_inv. constructor; auto.
  - unfold remove_observer, then_, get_self; simpl. destruct (list_remove o (sim_observers sim)); simpl.
    + apply with_material_inv. constructor; auto.
    + constructor; auto.
Qed.

Lemma history_inv rf cols d sim h sim' : sampler_ok s -> (2 <= cols)%nat -> hopping rf ->
  sim_inv rf cols d sim -> history s render sim h sim' -> sim_inv rf cols d sim'.
Proof.
  intros O C H I Hh. induction Hh; auto. apply perform_inv; auto.
Qed.

Lemma new_inv rf cols d os : sim_inv rf cols d (new_simulator (new_material rf cols) d os).
Proof. constructor; auto. Qed.

Lemma reachable_inv rf cols d os h sim : sampler_ok s -> (2 <= cols)%nat -> hopping rf ->
  history s render (new_simulator (new_material rf cols) d os) h sim -> sim_inv rf cols d sim.
Proof. intros O C H X. eapply history_inv; eauto. apply new_inv. Qed.

(** the reset flag *)
Lemma perform_unreset r sim g : sim_reset sim = false -> (forall b, r <> Reset b) ->
  sim_reset (out_sim (perform s render r sim g)) = false.
Proof.
  intros H N. destruct r as [b|fuel cs b|o|o]; cbn [perform]; rewrite then_ret; cbn [out_sim].
  - exfalso. eapply N; eauto.
  - rewrite step_before; auto.
  - auto.
  - unfold remove_observer, then_, get_self; simpl. destruct (list_remove o (sim_observers sim)); auto.
Qed.

Lemma out_sim_reset_flag b sim g : sim_reset (out_sim (sim_do_reset s render b sim g)) = true.
Proof.
  unfold sim_do_reset. unfold then_ at 1. cbn [set_self out_result out_sim].
  assert (K : forall A (c : @call G A) sm gg, sim_reset sm = true ->
     (forall sm' gg', sim_reset sm' = true -> sim_reset (out_sim (c sm' gg')) = true) -> sim_reset (out_sim (c sm gg)) = true) by auto.
  assert (T : forall A B (x : @call G A) (k : A -> call B),
     (forall sm gg, sim_reset sm = true -> sim_reset (out_sim (x sm gg)) = true) ->
     (forall a sm gg, sim_reset sm = true -> sim_reset (out_sim (k a sm gg)) = true) ->
     forall sm gg, sim_reset sm = true -> sim_reset (out_sim (then_ x k sm gg)) = true).
  { intros A B x k Hx Hk sm gg E. unfold then_. destruct (out_result (x sm gg)) eqn:Er; cbn [out_sim]; auto. }
  assert (N : forall cbs sm (gg : G), sim_reset sm = true -> sim_reset (out_sim (notify cbs sm gg)) = true) by auto.
  assert (D : forall A (h : G -> res A * G) sm gg, sim_reset sm = true -> sim_reset (out_sim (draws h sm gg)) = true).
  { intros A h sm gg E. unfold draws. destruct (h gg); auto. }
  apply (T _ _ (reset_material s)); [|intros _|reflexivity].
  { intros sm gg E. unfold reset_material. destruct (material_reset s (sim_material sm) gg) as [[r m] g']. auto. }
  apply T; [apply D|intros scale]. apply T; [auto|intros _].
  assert (CF : forall sm (gg : G), sim_reset sm = true -> sim_reset (out_sim (centered_fov scale sm gg)) = true).
  { unfold centered_fov. repeat (apply T; [solve [auto]|intros ?]). auto. }
  apply T; [exact CF|intros f]. repeat (apply T; [solve [auto]|intros ?]).
  apply T.
  { unfold get_observed_grid_and_elapsed_time. repeat (apply T; [solve [auto]|intros ?]). auto. }
  intros og. apply T; [apply D|intros p]. apply T; [auto|intros _]. apply T; [|auto].
  intros sm gg E. unfold maybe_image. destruct b; auto. apply T; auto.
  unfold generate_image. repeat (apply T; [first [apply D|solve [auto]]|intros ?]). auto.
Qed.

Lemma then_reset_mono {A B} (x : @call G A) (k : A -> call B) :
  (forall sm gg, sim_reset sm = true -> sim_reset (out_sim (x sm gg)) = true) ->
  (forall a sm gg, sim_reset sm = true -> sim_reset (out_sim (k a sm gg)) = true) ->
  forall sm gg, sim_reset sm = true -> sim_reset (out_sim (then_ x k sm gg)) = true.
Proof. intros Hx Hk sm gg E. unfold then_. destruct (out_result (x sm gg)) eqn:Er; cbn [out_sim]; auto. Qed.

(** * The event log *)
Definition convert_cb (cb : callback) : list sim_event :=
  match cb with
  | ObserveReset gr f => [EvReset gr f]
  | ObserveTransition t gr => [EvTransition t gr]
  | ObserveApplyControl c => [EvApplyControl (c_dwell c) (c_position c)]
  | ObserveTakeImage d f => [EvTakeImage d f]
  | ObserveGeneratedImage i => [EvGeneratedImage i]
  | ObserveFovChange _ => []
  end.
Definition no_reset_cb (cb : callback) : Prop := match cb with ObserveReset _ _ => False | _ => True end.

Lemma event_log_app ev a b : event_log ev (a ++ b) = event_log (event_log ev a) b.
Proof. apply fold_left_app. Qed.

Lemma event_log_convert cbs : forall ev, Forall no_reset_cb cbs -> event_log ev cbs = ev ++ flat_map convert_cb cbs.
Proof.
  induction cbs as [|cb cbs IH]; intros ev F; [symmetry; apply app_nil_r|].
  inversion F as [|? ? H F']; subst. cbn [event_log fold_left].
  change (fold_left event_observe cbs (event_observe ev cb)) with (event_log (event_observe ev cb) cbs).
  rewrite IH by auto. destruct cb; simpl in *; try contradiction; rewrite <- ?app_assoc; reflexivity.
Qed.

Lemma convert_no_reset cbs : Forall no_reset_cb cbs -> Forall (fun e => ~ is_reset_event e) (flat_map convert_cb cbs).
Proof.
  induction 1 as [|cb cbs H F IH]; simpl; [constructor|]. apply Forall_app. split; auto.
  destruct cb; simpl in *; try contradiction; repeat constructor; auto.
Qed.

Lemma replay_app a b : forall now, replay (a ++ b) now = replay b (replay a now).
Proof. induction a as [|e a IH]; intros now; [reflexivity|]. destruct e; simpl; apply IH. Qed.

Lemma logged_controls_app a b : logged_controls (a ++ b) = logged_controls a ++ logged_controls b.
Proof. apply flat_map_app. Qed.
Lemma logged_time_app a b : logged_time (a ++ b) = (logged_time a + logged_time b)%Z.
Proof. unfold logged_time. rewrite map_app, zsum_app. reflexivity. Qed.

Lemma logged_announced cbs : logged_time (flat_map convert_cb cbs) = announced_time cbs.
Proof.
  induction cbs as [|cb cbs IH]; [reflexivity|]. cbn [flat_map]. rewrite logged_time_app, IH.
  destruct cb; unfold logged_time, announced_time, zsum; simpl; lia.
Qed.

Lemma announced_app a b : announced_time (a ++ b) = (announced_time a + announced_time b)%Z.
Proof. unfold announced_time. rewrite map_app, zsum_app. reflexivity. Qed.

Lemma announced_transitions (ts : list (timedelta * grid)) :
  announced_time (map (fun t => ObserveTransition (fst t) (snd t)) ts) = 0%Z.
Proof. induction ts; [reflexivity|]. unfold announced_time, zsum in *; simpl in *. auto. Qed.

Lemma replay_transitions ts : forall now,
  replay (flat_map convert_cb (map (fun t : timedelta * grid => ObserveTransition (fst t) (snd t)) ts)) (Some now)
  = Some (last (map snd ts) now).
Proof.
  induction ts as [|t ts IH]; intros now; [reflexivity|]. cbn [map flat_map convert_cb app replay].
  rewrite IH, last_cons. reflexivity.
Qed.

Lemma controls_transitions (ts : list (timedelta * grid)) :
  logged_controls (flat_map convert_cb (map (fun t : timedelta * grid => ObserveTransition (fst t) (snd t)) ts)) = [].
Proof. induction ts; simpl; auto. Qed.

Lemma transitions_no_reset (ts : list (timedelta * grid)) :
  Forall no_reset_cb (map (fun t => ObserveTransition (fst t) (snd t)) ts).
Proof. induction ts; simpl; constructor; simpl; auto. Qed.

Lemma apply_control_last fuel m c g gr r m' g' ts : m_reset m = true -> m_grid m = Some gr ->
  apply_control s fuel m c g = (r, m', g', ts) ->
  m_reset m' = true /\ m_grid m' = Some (last (map snd ts) gr).
Proof.
  intros Hr Hg. unfold apply_control, reset_grid. rewrite Hr, Hg. intros E. injection E as Er Em Eg Et.
  destruct (loop_chain s fuel (m_rate_function m) (c_position c) (c_dwell c) 0%Z gr g) as [_ L].
  rewrite Et in L. rewrite <- Em, L. simpl. auto.
Qed.

Lemma beamed_log fuel f m g cs cbs m' g' : beamed s fuel f m g cs cbs m' g' ->
  forall gr, m_reset m = true -> m_grid m = Some gr ->
  Forall no_reset_cb cbs /\ m_reset m' = true /\
  replay (flat_map convert_cb cbs) (Some gr) = m_grid m' /\
  logged_controls (flat_map convert_cb cbs) =
    map (fun c => (c_dwell c, at_relative f (c_position c))) cs /\
  announced_time cbs = zsum (map c_dwell cs).
Proof.
  induction 1 as [m g|m g c ts m1 g1 cs cbs m' g' E B IH]; intros gr Hr Hg.
  - repeat split; auto; constructor.
  - destruct (apply_control_last _ _ _ _ _ _ _ _ _ Hr Hg E) as [Hr1 Hg1].
    destruct (IH _ Hr1 Hg1) as (I1 & I2 & I3 & I4 & I5).
    split; [|split; [auto|split; [|split]]].
    + constructor; [exact I|]. apply Forall_app. split; auto. apply transitions_no_reset.
    + cbn [flat_map convert_cb app replay]. rewrite flat_map_app, replay_app, replay_transitions. exact I3.
    + cbn [flat_map convert_cb app]. rewrite flat_map_app.
      change (EvApplyControl ?d ?p :: ?l) with ([EvApplyControl d p] ++ l).
      rewrite !logged_controls_app, controls_transitions, I4. reflexivity.
    + change (ObserveApplyControl ?d :: ?l) with ([ObserveApplyControl d] ++ l).
      rewrite !announced_app, announced_transitions, I5. unfold announced_time, zsum; simpl. lia.
Qed.

Lemma broken_log fuel f m g cs r cbs m' g' gr : broken s fuel f m g cs r cbs m' g' ->
  m_reset m = true -> m_grid m = Some gr ->
  Forall no_reset_cb cbs /\ replay (flat_map convert_cb cbs) (Some gr) = m_grid m'.
Proof.
  intros [cs1 c cs2 cbs1 m1 g1 r' m2 g2 ts Ec B E N] Hr Hg.
  destruct (beamed_log _ _ _ _ _ _ _ _ B gr Hr Hg) as (I1 & I2 & I3 & _).
  assert (exists gr1, m_grid m1 = Some gr1) as (gr1 & Hg1).
  { rewrite <- I3. clear -I1. assert (K : forall l now, exists x, replay l (Some now) = Some x).
    { induction l as [|e l IH]; intros now; simpl; eauto. destruct e; auto. } apply K. }
  destruct (apply_control_last _ _ _ _ _ _ _ _ _ I2 Hg1 E) as [Hr2 Hg2].
  split.
  - apply Forall_app. split; auto. constructor; [exact I|]. apply transitions_no_reset.
  - rewrite flat_map_app, replay_app, I3, Hg1. cbn [flat_map convert_cb app replay]. rewrite replay_transitions. auto.
Qed.

Lemma pictured_log b prm obs g g' icbs : pictured render b prm obs g g' icbs ->
  Forall no_reset_cb icbs /\ (forall now, replay (flat_map convert_cb icbs) now = now) /\
  logged_controls (flat_map convert_cb icbs) = [] /\ announced_time icbs = 0%Z.
Proof.
  unfold pictured. destruct b.
  - intros (i & _ & _ & ->). repeat split; auto. repeat constructor.
  - intros (_ & _ & ->). repeat split; auto.
Qed.

Lemma stepped_log fuel cs b sim f a prm g obs sim' g' cbs gr :
  stepped s render fuel cs b sim f a prm g obs sim' g' cbs ->
  m_reset (sim_material sim) = true -> m_grid (sim_material sim) = Some gr ->
  Forall no_reset_cb cbs /\ replay (flat_map convert_cb cbs) (Some gr) = m_grid (sim_material sim') /\
  logged_controls (flat_map convert_cb cbs) =
    map (fun c => (c_dwell c, at_relative f (c_position c))) (o_controls obs) /\
  announced_time cbs = o_elapsed obs.
Proof.
  intros St Hr Hg.
  destruct St as [m' g1 gr' si obs g' cbs icbs B Hg' Hsi Hsafe Hf Hsh Hc Hl He Hp
                 |m' g1 gr' si f' obs g' cbs icbs B Hg' Hsi Hsafe Hf' Hf Hsh Hc Hl He Hp];
  destruct (beamed_log _ _ _ _ _ _ _ _ B gr Hr Hg) as (I1 & I2 & I3 & I4 & I5);
  destruct (pictured_log _ _ _ _ _ _ Hp) as (P1 & P2 & P3 & P4).
  - repeat split.
    + repeat (apply Forall_app; split); auto. repeat constructor.
    + rewrite !flat_map_app, !replay_app, I3, P2. reflexivity.
    + rewrite !flat_map_app, !logged_controls_app, I4, P3, Hc. simpl. apply app_nil_r.
    + rewrite !announced_app, I5, P4, He. unfold announced_time, zsum; simpl. lia.
  - repeat split.
    + repeat (apply Forall_app; split); auto. repeat constructor.
    + rewrite !flat_map_app, !replay_app, I3, P2. reflexivity.
    + rewrite !flat_map_app, !logged_controls_app, I4, P3, Hc. simpl. apply app_nil_r.
    + rewrite !announced_app, I5, P4, He. unfold announced_time, zsum; simpl. lia.
Qed.

(** any end of a step *)
Lemma step_log fuel cs b sim g ps gr f a prm o :
  ready sim ps gr f a prm -> hopping (m_rate_function (sim_material sim)) ->
  count_occ Nat.eq_dec (sim_observers sim) o = 1%nat ->
  let out := step_and_image s render fuel cs b sim g in
  let cbs := seen o (out_trace out) in
  Forall no_reset_cb cbs /\ replay (flat_map convert_cb cbs) (Some gr) = m_grid (sim_material (out_sim out)) /\
  (forall obs, out_result out = Ok obs ->
     logged_controls (flat_map convert_cb cbs) =
       map (fun c => (c_dwell c, at_relative f (c_position c))) (o_controls obs) /\
     announced_time cbs = o_elapsed obs /\ sim_fov (out_sim out) = Some (o_fov obs)).
Proof.
  intros Rd Hh Ho out. pose proof (step_run s render fuel cs b sim g ps gr f a prm Rd Hh) as X. fold out in X.
  cbv zeta in *. clearbody out. destruct X as (grps & T & X).
  assert (Sn : seen o (out_trace out) = concat grps).
  { rewrite T. apply (all_saw_blocks (sim_observers sim) grps); auto. }
  rewrite Sn. destruct Rd as [R1 R2 R3 R4 R5 R6 R7 R8 R9 R10].
  destruct X as [(obs & Er & St)|[(r & m' & B & Er & E)|(m' & g1 & gr' & si & f' & t & cbs & rest & r & _ & B & Hg & Hsi & Im & Ec & Ern & Nr & Er)]].
  - destruct (stepped_log _ _ _ _ _ _ _ _ _ _ _ _ gr St R2 R3) as (L1 & L2 & L3 & L4).
    split; [auto|split; [auto|]]. intros obs' Eo. assert (obs' = obs) by congruence. subst obs'.
    split; [auto|split; [auto|]]. destruct St; simpl; congruence.
  - destruct (broken_log _ _ _ _ _ _ _ _ _ gr B R2 R3) as (L1 & L2). rewrite E. split; [auto|split; [auto|]].
    intros obs Eo. destruct B as [? ? ? ? ? ? r' ? ? ? ? ? ? N]. destruct r'; simpl in Er; congruence.
  - destruct (beamed_log _ _ _ _ _ _ _ _ B gr R2 R3) as (I1 & I2 & I3 & _).
    rewrite Ec. split; [|split].
    + apply Forall_app; split; auto. remember (out_sim out) as so; destruct Im; repeat constructor.
    + rewrite flat_map_app, replay_app, I3. remember (out_sim out) as so. destruct Im; simpl; auto.
    + intros obs Eo. destruct r; simpl in Er; try congruence. 
Qed.

End WithRng.

Section More.
Context {G : Type}.
Variable s : sampler G.
Variable render : @renderer G.

(** histories of steps and observer changes *)
Lemma perform_ready r sim g ps gr f a prm :
  ready sim ps gr f a prm -> hopping (m_rate_function (sim_material sim)) -> ~ is_reset r ->
  let o := perform s render r sim g in
  (exists gr' f', ready (out_sim o) ps gr' f' a prm) /\
  (is_step r -> sim_observers (out_sim o) = sim_observers sim) /\
  sim_image_duration (out_sim o) = sim_image_duration sim /\
  m_columns (sim_material (out_sim o)) = m_columns (sim_material sim) /\
  m_rate_function (sim_material (out_sim o)) = m_rate_function (sim_material sim).
Proof.
  intros Rd Hh N. destruct r as [b|fuel cs b|o|o]; cbn [perform]; rewrite then_ret; cbn [out_sim].
  - simpl in N. tauto.
  - destruct (step_ready s render fuel cs b sim g ps gr f a prm Rd Hh) as ((gr' & f' & Rd') & E1 & E2 & E3 & E4).
    repeat split; auto; eauto.
  - split; [|repeat split; auto; simpl; tauto]. exists gr, f. apply (ready_observers _ _ _ _ _ _ _ Rd).
  - unfold remove_observer, then_, get_self; simpl. destruct (list_remove o (sim_observers sim)); simpl.
    + split; [|repeat split; auto; simpl; tauto]. exists gr, f. apply (ready_observers _ _ _ _ _ _ _ Rd).
    + split; [|repeat split; auto; simpl; tauto]. exists gr, f. auto.
Qed.

Lemma history_ready sim h sim' ps gr f a prm : history s render sim h sim' ->
  ready sim ps gr f a prm -> hopping (m_rate_function (sim_material sim)) ->
  Forall (fun r => ~ is_reset r) (map fst h) ->
  (exists gr' f', ready sim' ps gr' f' a prm) /\
  (Forall is_step (map fst h) -> sim_observers sim' = sim_observers sim) /\
  sim_image_duration sim' = sim_image_duration sim /\
  m_rate_function (sim_material sim') = m_rate_function (sim_material sim).
Proof.
  intros Hh Rd Hp. induction Hh as [|h sim1 r g Hh IH]; intros F.
  - repeat split; eauto.
  - rewrite map_app in F. apply Forall_app in F. destruct F as [F1 F2]. inversion F2 as [|? ? Nr _]; subst.
    destruct (IH F1) as ((gr' & f' & Rd') & O1 & D1 & R1).
    rewrite <- R1 in Hp.
    destruct (perform_ready r sim1 g ps gr' f' a prm Rd' Hp Nr) as (Rd2 & O2 & D2 & _ & R2).
    split; [exact Rd2|]. split; [|split; congruence].
    intros F. rewrite map_app in F. apply Forall_app in F. destruct F as [F3 F4]. inversion F4; subst.
    rewrite O2 by auto. auto.
Qed.

Lemma perform_Ok_step fuel cs b sim g obs : out_result (perform s render (Step fuel cs b) sim g) = Ok (Some obs) <->
  out_result (step_and_image s render fuel cs b sim g) = Ok obs.
Proof.
  cbn [perform]. rewrite then_ret. cbn [out_result]. rewrite fmap_Ok. split.
  - intros (x & E & H). congruence.
  - intros E. exists obs. auto.
Qed.
Lemma perform_Ok_reset b sim g obs : out_result (perform s render (Reset b) sim g) = Ok (Some obs) <->
  out_result (sim_do_reset s render b sim g) = Ok obs.
Proof.
  cbn [perform]. rewrite then_ret. cbn [out_result]. rewrite fmap_Ok. split.
  - intros (x & E & H). congruence.
  - intros E. exists obs. auto.
Qed.
Lemma perform_step fuel cs b sim g : 
  out_sim (perform s render (Step fuel cs b) sim g) = out_sim (step_and_image s render fuel cs b sim g) /\
  out_rng (perform s render (Step fuel cs b) sim g) = out_rng (step_and_image s render fuel cs b sim g) /\
  out_trace (perform s render (Step fuel cs b) sim g) = out_trace (step_and_image s render fuel cs b sim g).
Proof. cbn [perform]. rewrite then_ret. auto. Qed.
Lemma perform_reset b sim g : 
  out_sim (perform s render (Reset b) sim g) = out_sim (sim_do_reset s render b sim g) /\
  out_rng (perform s render (Reset b) sim g) = out_rng (sim_do_reset s render b sim g) /\
  out_trace (perform s render (Reset b) sim g) = out_trace (sim_do_reset s render b sim g).
Proof. cbn [perform]. rewrite then_ret. auto. Qed.

(** a step on a reachable simulator that returned an observation *)
Lemma reachable_step rf cols d sim fuel cs b g obs : sampler_ok s -> (2 <= cols)%nat -> hopping rf ->
  reachable s render rf cols d sim ->
  out_result (step_and_image s render fuel cs b sim g) = Ok obs ->
  exists ps gr f a prm cbs, ready sim ps gr f a prm /\
    stepped s render fuel cs b sim f a prm g obs (out_sim (step_and_image s render fuel cs b sim g))
      (out_rng (step_and_image s render fuel cs b sim g)) cbs /\
    all_saw (sim_observers sim) (out_trace (step_and_image s render fuel cs b sim g)) cbs /\
    doped_sheet ps gr /\ sim_image_duration sim = d /\ hopping (m_rate_function (sim_material sim)).
Proof.
  intros O C H (os & h & Hh) E.
  destruct (reachable_inv s render rf cols d os h sim O C H Hh) as [I1 I2 I3 I4].
  destruct I4 as [(F & _)|(ps & gr & f & a & prm & Rd & Sh)].
  { rewrite step_before in E by auto. discriminate. }
  assert (H' : hopping (m_rate_function (sim_material sim))) by (rewrite I2; auto).
  destruct (step_run s render fuel cs b sim g ps gr f a prm Rd H') as (grps & T & X).
  destruct X as [(obs' & Er & St)|[(r & m' & B & Er & _)|(m' & g1 & gr' & si & f' & t & cbs & rest & r & _ & B & _ & _ & _ & _ & _ & Nr & Er)]].
  - exists ps, gr, f, a, prm, (concat grps). rewrite T. assert (obs' = obs) by congruence. subst obs'.
    split; [auto|]. split; [auto|]. split; [apply all_saw_blocks|]. split; [apply Rd|]. auto.
  - exfalso. rewrite E in Er. destruct B as [? ? ? ? ? ? r' ? ? ? ? ? ? N]. destruct r'; simpl in Er; discriminate.
  - exfalso. rewrite E in Er. destruct r; simpl in Er; discriminate.
Qed.

(** a reset that returned an observation *)
Lemma reachable_reset rf cols d sim b g obs : sampler_ok s -> (2 <= cols)%nat -> hopping rf ->
  reachable s render rf cols d sim ->
  let o := sim_do_reset s render b sim g in
  out_result o = Ok obs ->
  exists ps gr si a prm g1 g2 g3 icbs, 
    material_reset s (sim_material sim) g = (Ok tt, sim_material (out_sim o), g1) /\
    s_uniform s 15 30 g1 = (a, g2) /\ sample_image_parameters s 512 g2 = (prm, g3) /\
    out_sim o = mksimulator (sim_material (out_sim o)) (sim_observers sim) d true (Some a) (Some (square_around si a)) (Some prm) /\
    m_grid (sim_material (out_sim o)) = Some gr /\
    ready (out_sim o) ps gr (square_around si a) a prm /\ sheet_of cols ps /\ silicon_at gr si /\ 15 <= a <= 30 /\
    shows (square_around si a) gr (o_grid obs) /\ o_fov obs = square_around si a /\
    o_controls obs = [] /\ o_elapsed obs = d /\ o_label_image obs = None /\
    pictured render b prm obs g3 (out_rng o) icbs /\
    all_saw (sim_observers sim) (out_trace o)
      ([ObserveReset gr (square_around si a); ObserveFovChange (square_around si a);
        ObserveTakeImage d (square_around si a)] ++ icbs).
Proof.
  intros O C H (os & h & Hh) o E.
  destruct (reachable_inv s render rf cols d os h sim O C H Hh) as [I1 I2 I3 I4].
  assert (C' : (2 <= m_columns (sim_material sim))%nat) by lia.
  destruct (reset_run s render b sim g O C') as
    (m' & gr & ps & i & si & a & prm & f & g1 & g2 & g3 & grps & E1 & E2 & E3 & E4 & E5 & E6 & E7 & E8 & E9 & E10 & E11 & E12 & E13 & E14 & E15 & E16).
  fold o in E14, E15, E16. clearbody o.
  destruct E16 as [(obs' & icbs & Er & Hs & Hf & Hc & He & Hl & Hp & Hg)|(r & _ & _ & _ & Er & _)].
  2:{ exfalso. rewrite E in Er. destruct r; simpl in Er; discriminate. }
  assert (obs' = obs) by congruence. subst obs'.
  exists ps, gr, si, a, prm, g1, g2, g3, icbs.
  rewrite E14. cbn [sim_material m_grid]. subst f. rewrite I3 in *.
  assert (Dsi : silicon_at gr si) by (exists i; split; auto; rewrite E6; auto).
  do 5 (split; [assumption || reflexivity|]).
  split.
  { constructor; simpl; auto.
    - split; eauto.
    - eapply sheet_of_NoDup; eauto.
    - apply square_around_square. }
  rewrite <- I1. do 9 (split; [assumption|]).
  rewrite E15, <- Hg. apply all_saw_blocks.
Qed.

(** steps that cannot fail *)
Lemma beamed_or_broken_fuel fuel f m g cs r cbs m' g' ps gr :
  broken s fuel f m g cs r cbs m' g' -> sampler_ok s ->
  (forall pos, well_behaved (m_rate_function m) pos (doped_sheet ps)) ->
  hopping (m_rate_function m) -> NoDup ps -> m_reset m = true -> m_grid m = Some gr -> doped_sheet ps gr ->
  Forall (fun c => c_dwell c < 3600000000)%Z cs -> r = OutOfFuel.
Proof.
  intros [cs1 c cs2 cbs1 m1 g1 r' m2 g2 ts Ec B E N'] O W H N Hr Hg D F.
  destruct (beamed_sheet s _ _ _ _ _ _ _ _ ps gr B H N Hr Hg D) as (gr1 & C1 & R1 & S1 & G1 & D1).
  unfold apply_control, reset_grid in E. rewrite S1, G1 in E. injection E as Er _ _ _.
  subst cs. apply Forall_app in F. destruct F as [_ F]. inversion F as [|? ? Fc _]; subst.
  rewrite R1 in *.
  destruct (loop_safe s (m_rate_function m) (c_position (aim f c)) (doped_sheet ps) (c_dwell (aim f c)) O (W _) Fc fuel 0%Z gr1 g1 ltac:(lia) D1) as [[K|K] _].
  - exfalso. apply N'. exact K.
  - exact K.
Qed.

Lemma beamed_or_broken_ok fuel f m g cs r cbs m' g' ps gr :
  broken s fuel f m g cs r cbs m' g' -> sampler_ok s ->
  (forall sc g, / 2000000 < fst (s_exponential s sc g)) ->
  (forall g pos, m_rate_function m g pos <> OutOfFuel) ->
  hopping (m_rate_function m) -> NoDup ps -> m_reset m = true -> m_grid m = Some gr -> doped_sheet ps gr ->
  Forall (fun c => c_dwell c <= Z.of_nat fuel)%Z cs -> r <> OutOfFuel.
Proof.
  intros [cs1 c cs2 cbs1 m1 g1 r' m2 g2 ts Ec B E N'] O W W' H N Hr Hg D F.
  destruct (beamed_sheet s _ _ _ _ _ _ _ _ ps gr B H N Hr Hg D) as (gr1 & C1 & R1 & S1 & G1 & D1).
  unfold apply_control, reset_grid in E. rewrite S1, G1 in E. injection E as Er _ _ _.
  subst cs. apply Forall_app in F. destruct F as [_ F]. inversion F as [|? ? Fc _]; subst.
  rewrite R1 in *. apply loop_terminates; auto.
Qed.

Lemma step_ok fuel cs b sim g ps gr f a prm : sampler_ok s ->
  (forall sc g, / 2000000 < fst (s_exponential s sc g)) ->
  ready sim ps gr f a prm -> hopping (m_rate_function (sim_material sim)) ->
  (forall pos, well_behaved (m_rate_function (sim_material sim)) pos (doped_sheet ps)) ->
  (forall g pos, m_rate_function (sim_material sim) g pos <> OutOfFuel) ->
  Forall (fun c => c_dwell c < 3600000000)%Z cs -> Forall (fun c => c_dwell c <= Z.of_nat fuel)%Z cs ->
  (b = true -> forall og f prm g, exists i g', render og f prm g = (Ok i, g')) ->
  exists obs, out_result (step_and_image s render fuel cs b sim g) = Ok obs.
Proof.
  intros O X Rd H W W' F F' Rn.
  destruct (step_run s render fuel cs b sim g ps gr f a prm Rd H) as (grps & T & [(obs & Er & _)|[(r & m' & B & Er & _)|(m' & g1 & gr' & si & f' & t & cbs & rest & r & Eb & B & _ & _ & _ & _ & Ern & Nr & Er)]]).
  - eauto.
  - exfalso. destruct Rd. eapply beamed_or_broken_ok; eauto. eapply beamed_or_broken_fuel; eauto.
  - exfalso. destruct (Rn Eb (view gr' f') f' prm g1) as (i & g' & E'). rewrite Ern in E'. injection E' as -> _. eapply Nr; eauto.
Qed.

End More.
