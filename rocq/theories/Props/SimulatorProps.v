(** Properties C13 (simulator part) and C21-C28: the simulator and its
    observers. *)
From Coq Require Import Reals ZArith List Bool Lia Lra Arith Sorting.Permutation.
From Verif Require Import Base.Prelude Base.Rounding Base.Random Model.Constants Model.Geometry
  Model.MicroscopeUtils Model.Graphene Model.Simulator Model.SimulatorObservers
  Spec.Grids Spec.Neighbours Spec.Lattice Spec.Material Spec.MaterialRuns Spec.Simulation
  Proofs.BaseFacts Proofs.FovFacts Proofs.GeometryFacts Proofs.MaterialFacts Proofs.RateFacts Proofs.SheetFacts
  Proofs.CanonicalFacts Proofs.ExampleSampler Proofs.ViewFacts Proofs.SimulatorFacts Proofs.SimulatorRuns
  Proofs.SimulatorHistories.
Import ListNotations.
Open Scope R_scope.

(** ** A reachable simulator used by the examples: a sheet of 6 columns, the
    shipped simple rates, two observers, one reset. *)
Definition ex_rates : rate_function :=
  pristine_rate_predictor knn_sort simple_canonical_rate_function.
Definition ex_render : @renderer nat := fun og f prm g => (Ok [[INR (length (positions og))]], S g).
Definition ex_new : simulator := new_simulator (new_material ex_rates 6) 2000000%Z [7%nat; 8%nat].
Definition ex_reset : @outcome nat (option observation) :=
  perform (ex_sampler 1) ex_render (Reset true) ex_new 0%nat.
Definition ex_control : control := mkcontrol (mkpt (1 / 2) (3 / 4)) 1500000%Z (Some 80) None.

Lemma ex_hopping : hopping ex_rates.
Proof. apply pristine_hopping, knn_sort_ok. Qed.
Lemma ex_ok : sampler_ok (ex_sampler 1).
Proof. apply ex_sampler_ok; lra. Qed.
Lemma ex_new_reachable : reachable (ex_sampler 1) ex_render ex_rates 6 2000000%Z ex_new.
Proof. exists [7%nat; 8%nat], []. constructor. Qed.
Lemma ex_reset_reachable : reachable (ex_sampler 1) ex_render ex_rates 6 2000000%Z (out_sim ex_reset).
Proof.
  exists [7%nat; 8%nat]. eexists. unfold ex_reset. eapply history_snoc. constructor.
Qed.
Lemma ex_reset_ok : exists obs, out_result ex_reset = Ok (Some obs).
Proof.
  unfold ex_reset. cbn [perform]. rewrite then_ret. cbn [out_result].
  destruct (reset_run (ex_sampler 1) ex_render true ex_new 0%nat ex_ok ltac:(simpl; lia)) as
    (m' & gr & ps & i & si & a & prm & f & g1 & g2 & g3 & grps & E1 & E2 & E3 & E4 & E5 & E6 & E7 & E8 & E9 & E10 & E11 & E12 & E13 & E14 & E15 & E16).
  destruct E16 as [(obs & icbs & Er & _)|(r & _ & En & Nr & _)].
  - exists obs. rewrite Er. reflexivity.
  - exfalso. unfold ex_render in En. injection En as <- _. eapply Nr; eauto.
Qed.
Lemma ex_step_ok b : exists obs,
  out_result (perform (ex_sampler 1) ex_render (Step (Z.to_nat 1500000) [ex_control] b) (out_sim ex_reset) 3%nat)
  = Ok (Some obs).
Proof.
  destruct (reset_ready (ex_sampler 1) ex_render true ex_new 0%nat ex_ok ltac:(simpl; lia)) as
    ((ps & gr & f & a & prm & Rd & Sh) & _ & _ & _ & Erf).
  pose proof (perform_reset (ex_sampler 1) ex_render true ex_new 0%nat) as (Es & _).
  fold ex_reset in Es. rewrite <- Es in *.
  change (m_rate_function (sim_material ex_new)) with ex_rates in Erf.
  destruct (step_ok (ex_sampler 1) ex_render (Z.to_nat 1500000) [ex_control] b (out_sim ex_reset) 3%nat ps gr f a prm) as (obs & E).
  - apply ex_ok.
  - intros; simpl; lra.
  - exact Rd.
  - rewrite Erf. apply ex_hopping.
  - rewrite Erf. intros pos. apply pristine_well_behaved.
    + apply knn_sort_ok.
    + apply Rd.
    + change (m_columns (sim_material ex_new)) with 6%nat in Sh. apply sheet_of_graphene in Sh.
      eapply graphene_four; [exact Sh|lia].
    + intros g si idx L. apply simple_nonneg; auto.
  - rewrite Erf. intros g pos. apply pristine_not_fuel. apply simple_not_fuel.
  - constructor; [simpl; lia|constructor].
  - constructor; [|constructor]. rewrite Z2Nat.id by lia. simpl. lia.
  - intros _ og f0 prm0 g. unfold ex_render. eauto.
  - exists obs. apply perform_Ok_step. exact E.
Qed.

(** ** C13, simulator part *)
Theorem simulator_use_before_reset : forall {G} (s : sampler G) render m d os h sim fuel cs b g,
  history s render (new_simulator m d os) h sim -> Forall (fun r => ~ is_reset r) (map fst h) ->
  step_and_image s render fuel cs b sim g = mkoutcome (Raise RuntimeError) sim g [].
Proof.
  intros G s render m d os h sim fuel cs b g Hh F. apply step_before.
  induction Hh as [|h sim1 r g1 Hh IH]; [reflexivity|].
  rewrite map_app in F. apply Forall_app in F. destruct F as [F1 F2]. inversion F2; subst.
  apply perform_unreset; auto. intros b' ->. simpl in *. auto.
Qed.
Print Assumptions simulator_use_before_reset.

Theorem simulator_use_after_reset : forall {G} (s : sampler G) render rf cols d os h sim fuel cs b g,
  sampler_ok s -> (2 <= cols)%nat -> hopping rf ->
  (forall gr pos, rf gr pos <> Raise RuntimeError) ->
  (forall og f prm g, fst (render og f prm g) <> Raise RuntimeError) ->
  history s render (new_simulator (new_material rf cols) d os) h sim ->
  Exists is_reset (map fst h) ->
  out_result (step_and_image s render fuel cs b sim g) <> Raise RuntimeError.
Proof.
  intros G s render rf cols d os h sim fuel cs b g O C H Hr Hn Hh Ex.
  assert (I : sim_inv rf cols d sim) by (eapply reachable_inv; eauto).
  assert (Rt : sim_reset sim = true).
  { clear I. induction Hh as [|h sim1 r g1 Hh IH]; [inversion Ex|].
    assert (Er : sim_reset sim1 = true -> sim_reset (out_sim (perform s render r sim1 g1)) = true).
    { intros E. assert (I1 : sim_inv rf cols d sim1) by (eapply reachable_inv; eauto).
      destruct (perform_inv s render rf cols d sim1 r g1 O C H I1) as [_ _ _ [(_ & K & _)|(? & ? & ? & ? & ? & [] & _)]]; auto.
      destruct r as [b'|n' cs' b'|o|o].
      - destruct (perform_reset s render b' sim1 g1) as (Ep & _). rewrite Ep. apply out_sim_reset_flag.
      - destruct I1 as [J1 J2 J3 J4]. destruct J4 as [(J & _)|(ps & gr & f & a & prm & Rd & _)]; [congruence|].
        destruct (perform_ready s render (Step n' cs' b') sim1 g1 ps gr f a prm Rd ltac:(rewrite J2; auto) ltac:(simpl; auto)) as ((gr' & f' & []) & _). auto.
      - destruct I1 as [J1 J2 J3 J4]. destruct J4 as [(J & _)|(ps & gr & f & a & prm & Rd & _)]; [congruence|].
        destruct (perform_ready s render (AddObserver o) sim1 g1 ps gr f a prm Rd ltac:(rewrite J2; auto) ltac:(simpl; auto)) as ((gr' & f' & []) & _). auto.
      - destruct I1 as [J1 J2 J3 J4]. destruct J4 as [(J & _)|(ps & gr & f & a & prm & Rd & _)]; [congruence|].
        destruct (perform_ready s render (RemoveObserver o) sim1 g1 ps gr f a prm Rd ltac:(rewrite J2; auto) ltac:(simpl; auto)) as ((gr' & f' & []) & _). auto. }
    rewrite map_app in Ex. apply Exists_app in Ex. destruct Ex as [Ex|Ex]; [auto|].
    inversion Ex as [? ? Hx|? ? Hx]; [|inversion Hx]. simpl in Hx. destruct r; simpl in Hx; try tauto.
    destruct (perform_reset s render return_image sim1 g1) as (Ep & _). rewrite Ep. apply out_sim_reset_flag. }
  destruct I as [I1 I2 I3 [(F & _)|(ps & gr & f & a & prm & Rd & Sh)]]; [congruence|].
  assert (H' : hopping (m_rate_function (sim_material sim))) by (rewrite I2; auto).
  destruct (step_run s render fuel cs b sim g ps gr f a prm Rd H') as (grps & T & X).
  destruct X as [(obs & Er & _)|[(r & m' & B & Er & _)|(m' & g1 & gr' & si & f' & t & cbs & rest & r & _ & B & _ & _ & _ & _ & Ern & Nr & Er)]].
  - rewrite Er. discriminate.
  - rewrite Er. destruct B as [cs1 c cs2 cbs1 m1 g1 r' m2 g2 ts Ec B Ea N']. destruct Rd.
    destruct (beamed_sheet s _ _ _ _ _ _ _ _ ps gr B H' ready_distinct ready_material ready_grid ready_sheet) as (gr1 & C1 & R1 & S1 & G1 & D1).
    intros K. destruct r' as [[]|e|]; try discriminate. simpl in K. injection K as ->.
    unfold apply_control, reset_grid in Ea. rewrite S1, G1 in Ea. injection Ea as Ea _ _ _.
    revert Ea. apply ExposureFacts.loop_not_runtime. intros gr2. rewrite R1, I2. apply Hr.
  - rewrite Er. intros K. destruct r as [|e|]; try discriminate. simpl in K. injection K as ->.
    apply (Hn (view gr' f') f' prm g1). rewrite Ern. reflexivity.
Qed.
Print Assumptions simulator_use_after_reset.

Example simulator_use_nonvacuous :
  (exists h sim, history (ex_sampler 1) ex_render ex_new h sim /\ h <> [] /\ Forall (fun r => ~ is_reset r) (map fst h)) /\
  (exists h, history (ex_sampler 1) ex_render ex_new h (out_sim ex_reset) /\ Exists is_reset (map fst h)) /\
  (forall gr pos, ex_rates gr pos <> OutOfFuel).
Proof.
  split; [|split].
  - do 2 eexists. split; [eapply (history_snoc _ _ _ [] _ (Step 5 [ex_control] true) 0%nat); constructor|].
    split; [discriminate|]. repeat constructor. simpl. auto.
  - eexists. split; [unfold ex_reset; eapply history_snoc; constructor|]. repeat constructor.
  - intros. apply pristine_not_fuel. apply simple_not_fuel.
Qed.

Lemma no_fov_step {G} (s : sampler G) render fuel cs b sim g : sim_reset sim = true -> sim_fov sim = None ->
  step_and_image s render fuel cs b sim g = mkoutcome (Raise AttributeError) sim g [].
Proof.
  intros Hr Hf.
  assert (At : attribute sim_fov sim g = mkoutcome (Raise AttributeError) sim g []).
  { unfold attribute, then_, get_self. cbn [out_result out_sim out_rng out_trace]. rewrite Hf. reflexivity. }
  assert (As : assert_has_been_reset sim g = mkoutcome (Ok tt) sim g []).
  { unfold assert_has_been_reset, then_, get_self. cbn [out_result out_sim out_rng out_trace]. rewrite Hr. reflexivity. }
  assert (Ig : image_and_recentre 0%Z sim g = mkoutcome (Raise AttributeError) sim g []).
  { unfold image_and_recentre. rewrite (then_Raise _ _ _ _ AttributeError).
    - unfold get_observed_grid_and_elapsed_time. rewrite (then_Raise _ _ _ _ AttributeError) by (rewrite At; reflexivity). rewrite At. reflexivity.
    - unfold get_observed_grid_and_elapsed_time. rewrite (then_Raise _ _ _ _ AttributeError) by (rewrite At; reflexivity). reflexivity. }
  unfold step_and_image. rewrite (then_Ok _ _ _ _ tt) by (rewrite As; reflexivity). rewrite As.
  cbn [out_result out_sim out_rng out_trace app]. destruct cs as [|c cs].
  - rewrite (then_Ok _ _ _ _ 0%Z) by reflexivity. cbn [apply_all ret out_result out_sim out_rng out_trace app].
    rewrite (then_Raise _ _ _ _ AttributeError) by (rewrite Ig; reflexivity). rewrite Ig. reflexivity.
  - assert (Ao : apply_one s fuel c sim g = mkoutcome (Raise AttributeError) sim g []).
    { unfold apply_one. rewrite (then_Raise _ _ _ _ AttributeError) by (rewrite At; reflexivity). rewrite At. reflexivity. }
    assert (Aa : apply_all s fuel 0%Z (c :: cs) sim g = mkoutcome (Raise AttributeError) sim g []).
    { cbn [apply_all]. rewrite (then_Raise _ _ _ _ AttributeError) by (rewrite Ao; reflexivity). rewrite Ao. reflexivity. }
    rewrite (then_Raise _ _ _ _ AttributeError) by (rewrite Aa; reflexivity). rewrite Aa. reflexivity.
Qed.

(** a reset of a sheet without atoms fails, and every later step fails, too *)
Theorem simulator_without_atoms : forall {G} (s : sampler G) render m d os b g,
  (m_columns m <= 1)%nat -> m_grid m = None ->
  let o := sim_do_reset s render b (new_simulator m d os) g in
  out_result o = Raise ValueError /\ out_trace o = [] /\
  forall fuel cs b' g', step_and_image s render fuel cs b' (out_sim o) g' =
    mkoutcome (Raise AttributeError) (out_sim o) g' [].
Proof.
  intros G s render m d os b g C Hg o. subst o. unfold sim_do_reset.
  destruct (reset_fails s m g C) as (m' & g1 & E & E1 & E2).
  assert (Em : reset_material s (with_reset (new_simulator m d os)) g =
     mkoutcome (Raise ValueError) (with_material (with_reset (new_simulator m d os)) m') g1 []).
  { unfold reset_material. change (sim_material (with_reset (new_simulator m d os))) with m. rewrite E. reflexivity. }
  rewrite (then_Ok _ _ _ _ tt) by reflexivity. cbn [set_self out_result out_sim out_rng out_trace].
  rewrite (then_Raise _ _ _ _ ValueError) by (rewrite Em; reflexivity). rewrite Em.
  cbn [out_result out_sim out_rng out_trace app]. split; [reflexivity|]. split; [reflexivity|].
  intros fuel cs b' g'. apply no_fov_step; reflexivity.
Qed.
Print Assumptions simulator_without_atoms.

(** ** C21: the silicon is always visible, in the safe area *)
Theorem silicon_always_in_safe_area : forall {G} (s : sampler G) render rf cols d sim r g obs,
  sampler_ok s -> (2 <= cols)%nat -> hopping rf -> reachable s render rf cols d sim ->
  out_result (perform s render r sim g) = Ok (Some obs) ->
  exists p, count_number 14 (o_grid obs) = 1%nat /\ (forall q, In (q, 14%Z) (atoms (o_grid obs)) <-> q = p) /\
    1 / 4 <= px p <= 3 / 4 /\ 1 / 4 <= py p <= 3 / 4 /\
    (is_reset r \/ sim_fov sim <> Some (o_fov obs) -> p = mkpt (1 / 2) (1 / 2)).
Proof.
  intros G s render rf cols d sim r g obs O C H Rc E.
  assert (Fin : forall f a gr si, square f a -> 0 < a -> shows f gr (o_grid obs) -> silicon_at gr si ->
     safe (relative_to f si) ->
     count_number 14 (o_grid obs) = 1%nat /\ (forall q, In (q, 14%Z) (atoms (o_grid obs)) <-> q = relative_to f si)).
  { intros f a gr si Sq Ha Hs D Sf. apply one_silicon; [apply Hs|].
    apply (shows_silicon f gr _ si Hs D). eapply safe_inside; eauto. }
  destruct r as [b|fuel cs b|o|o].
  - apply perform_Ok_reset in E.
    destruct (reachable_reset s render rf cols d sim b g obs O C H Rc E) as
      (ps & gr & si & a & prm & g1 & g2 & g3 & icbs & _ & _ & _ & _ & _ & _ & _ & D & Ha & Hs & Hf & _).
    assert (Rl : relative_to (square_around si a) si = mkpt (1/2) (1/2)) by (apply relative_centre; lra).
    destruct (Fin _ a gr si (square_around_square si a) ltac:(lra) Hs D) as [F1 F2].
    { rewrite Rl. unfold safe; simpl; lra. }
    exists (mkpt (1/2) (1/2)). rewrite <- Rl. repeat split; auto; try (rewrite Rl; simpl; lra).
    all: apply F2.
  - apply perform_Ok_step in E.
    destruct (reachable_step s render rf cols d sim fuel cs b g obs O C H Rc E) as
      (ps & gr & f & a & prm & cbs & Rd & St & _). destruct Rd.
    destruct St as [m' g1 gr' si obs g' cbs icbs B Hg' Hsi Hsafe Hf Hsh Hc Hl He Hp
                 |m' g1 gr' si f' obs g' cbs icbs B Hg' Hsi Hsafe Hf' Hf Hsh Hc Hl He Hp].
    + destruct (Fin _ a gr' si ready_square ltac:(lra) Hsh Hsi Hsafe) as [F1 F2].
      exists (relative_to f si). split; [exact F1|]. split; [exact F2|]. split; [apply Hsafe|]. split; [apply Hsafe|].
      intros [[]|N]. exfalso. apply N. congruence.
    + subst f'. assert (Rl : relative_to (square_around si a) si = mkpt (1/2) (1/2)) by (apply relative_centre; lra).
      destruct (Fin _ a gr' si (square_around_square si a) ltac:(lra) Hsh Hsi) as [F1 F2].
      { rewrite Rl. unfold safe; simpl; lra. }
      exists (relative_to (square_around si a) si). split; [exact F1|]. split; [exact F2|]. rewrite Rl. simpl. repeat split; lra.
  - cbn [perform] in E. rewrite then_ret in E. cbn [out_result] in E. discriminate.
  - cbn [perform] in E. rewrite then_ret in E. cbn [out_result] in E. apply fmap_Ok in E. destruct E as (x & _ & K). discriminate.
Qed.
Print Assumptions silicon_always_in_safe_area.

Example silicon_in_safe_area_nonvacuous : exists sim obs,
  reachable (ex_sampler 1) ex_render ex_rates 6 2000000%Z sim /\
  out_result (perform (ex_sampler 1) ex_render (Step (Z.to_nat 1500000) [ex_control] false) sim 3%nat) = Ok (Some obs).
Proof. destruct (ex_step_ok false) as (obs & E). exists (out_sim ex_reset), obs. split; [apply ex_reset_reachable|exact E]. Qed.

(** ** C22: the field of view *)
Theorem fov_square_of_constant_size : forall {G} (s : sampler G) render rf cols d sim b g obs0 h sim' obs,
  sampler_ok s -> (2 <= cols)%nat -> hopping rf -> reachable s render rf cols d sim ->
  out_result (perform s render (Reset b) sim g) = Ok (Some obs0) ->
  history s render (out_sim (perform s render (Reset b) sim g)) h sim' ->
  Forall (fun r => ~ is_reset r) (map fst h) -> In obs (obs0 :: returned h) ->
  15 <= width (o_fov obs0) <= 30 /\ width (o_fov obs) = width (o_fov obs0) /\ height (o_fov obs) = width (o_fov obs0).
Proof.
  intros G s render rf cols d sim b g obs0 h sim' obs O C H Rc E0.
  assert (Rc1 : reachable s render rf cols d (out_sim (perform s render (Reset b) sim g))).
  { destruct Rc as (os & h0 & Hh). exists os. eexists. eapply history_snoc. exact Hh. }
  apply perform_Ok_reset in E0. 
  destruct (reachable_reset s render rf cols d sim b g obs0 O C H Rc E0) as
      (ps & gr & si & a & prm & g1 & g2 & g3 & icbs & Em & _ & _ & _ & _ & Rd & _ & D & Ha & Hs & Hf & _).
  destruct (perform_reset s render b sim g) as (Ep & _). rewrite Ep in *.
  assert (Hp : hopping (m_rate_function (sim_material (out_sim (sim_do_reset s render b sim g))))).
  { destruct Rc1 as (os & h1 & Hh1). destruct (reachable_inv _ _ _ _ _ _ _ _ O C H Hh1) as [_ I2 _ _]. rewrite I2. auto. }
  assert (W0 : width (o_fov obs0) = a /\ height (o_fov obs0) = a).
  { rewrite Hf. destruct (square_around_square si a). auto. }
  clear Ep. intros Hh. revert obs.
  induction Hh as [|h sim1 r g1' Hh IH]; intros obs F I.
  - simpl in I. destruct I as [<-|[]]. destruct W0 as [-> ->]. auto.
  - rewrite map_app in F. apply Forall_app in F. destruct F as [F1 F2]. inversion F2 as [|? ? Nr _]; subst.
    unfold returned in I. rewrite flat_map_app in I. simpl in I. rewrite app_nil_r in I.
    assert (I' : In obs (obs0 :: returned h) \/ out_result (perform s render r sim1 g1') = Ok (Some obs)).
    { destruct I as [I|I]; [left; left; auto|]. apply in_app_or in I. destruct I as [I|I]; [left; right; exact I|].
      right. destruct (out_result (perform s render r sim1 g1')) as [[o|]| |]; simpl in I; try tauto.
      destruct I as [->|[]]. reflexivity. }
    destruct I' as [I'|Eo]; [apply IH; auto|].
    destruct (history_ready s render _ h sim1 ps gr _ a prm Hh Rd Hp F1) as ((gr' & f' & Rd') & _ & _ & Er).
    destruct r as [b'|n cs b'|o|o]; [simpl in Nr; tauto| | |].
    + apply perform_Ok_step in Eo.
      destruct Rc1 as (os & h1 & Hh1).
      assert (Rc2 : reachable s render rf cols d sim1).
      { exists os, (h1 ++ h). clear -Hh1 Hh. induction Hh; [rewrite app_nil_r; auto|]. rewrite app_assoc. apply history_snoc. auto. }
      destruct (reachable_step s render rf cols d sim1 n cs b' g1' obs O C H Rc2 Eo) as (ps2 & gr2 & f2 & a2 & prm2 & cbs & Rd2 & St & _).
      assert (a2 = a) by (destruct Rd', Rd2; congruence). subst a2.
      destruct W0 as [-> _]. split; [exact Ha|]. destruct Rd2.
      destruct St as [m' g2' gr'' si' obs g' cbs icbs' B Hg' Hsi Hsafe Hf2 Hsh Hc Hl He Hp'
                 |m' g2' gr'' si' f'' obs g' cbs icbs' B Hg' Hsi Hsafe Hf' Hf2 Hsh Hc Hl He Hp']; rewrite Hf2.
      * destruct ready_square; auto.
      * rewrite Hf'. destruct (square_around_square si' a); auto.
    + cbn [perform] in Eo. rewrite then_ret in Eo. discriminate.
    + cbn [perform] in Eo. rewrite then_ret in Eo. cbn [out_result] in Eo. apply fmap_Ok in Eo. destruct Eo as (x & _ & K). discriminate.
Qed.
Print Assumptions fov_square_of_constant_size.

(** the field of view moves exactly when the silicon is outside the safe area
    of the old one, and then to be centred on the silicon *)
Theorem fov_moves_only_to_recentre : forall {G} (s : sampler G) render rf cols d sim fuel cs b g obs,
  sampler_ok s -> (2 <= cols)%nat -> hopping rf -> reachable s render rf cols d sim ->
  let o := perform s render (Step fuel cs b) sim g in
  out_result o = Ok (Some obs) ->
  exists f gr si, sim_fov sim = Some f /\ m_grid (sim_material (out_sim o)) = Some gr /\ silicon_at gr si /\
    sim_fov (out_sim o) = Some (o_fov obs) /\
    (safe (relative_to f si) <-> o_fov obs = f) /\
    (~ safe (relative_to f si) -> o_fov obs = square_around si (width f)).
Proof.
  intros G s render rf cols d sim fuel cs b g obs O C H Rc o E. subst o.
  apply perform_Ok_step in E. destruct (perform_step s render fuel cs b sim g) as (Ep & _). rewrite Ep.
  destruct (reachable_step s render rf cols d sim fuel cs b g obs O C H Rc E) as
      (ps & gr & f & a & prm & cbs & Rd & St & _). destruct Rd. destruct ready_square as [Hw Hh].
  destruct St as [m' g1 gr' si obs g' cbs icbs B Hg' Hsi Hsafe Hf Hsh Hc Hl He Hp
                 |m' g1 gr' si f' obs g' cbs icbs B Hg' Hsi Hsafe Hf' Hf Hsh Hc Hl He Hp].
  - exists f, gr', si. simpl. split; [auto|]. split; [auto|]. split; [auto|]. split; [congruence|].
    split; [tauto|]. intros; tauto.
  - exists f, gr', si. simpl. split; [auto|]. split; [auto|]. split; [auto|]. split; [congruence|].
    assert (Wf : width f = a) by exact Hw. rewrite Wf. split; [|intros; congruence].
    split; [tauto|]. intros K. exfalso. apply Hsafe. rewrite <- K, Hf, Hf', relative_centre by lra. unfold safe; simpl; lra.
Qed.
Print Assumptions fov_moves_only_to_recentre.

Example fov_nonvacuous : exists obs0 h sim' obs,
  reachable (ex_sampler 1) ex_render ex_rates 6 2000000%Z ex_new /\
  out_result (perform (ex_sampler 1) ex_render (Reset true) ex_new 0%nat) = Ok (Some obs0) /\
  history (ex_sampler 1) ex_render (out_sim (perform (ex_sampler 1) ex_render (Reset true) ex_new 0%nat)) h sim' /\
  Forall (fun r => ~ is_reset r) (map fst h) /\ In obs (returned h).
Proof.
  destruct ex_reset_ok as (obs0 & E0). destruct (ex_step_ok true) as (obs & E). exists obs0.
  do 2 eexists. exists obs. split; [apply ex_new_reachable|]. split; [exact E0|]. split.
  - eapply (history_snoc _ _ _ [] _ (Step (Z.to_nat 1500000) [ex_control] true) 3%nat). constructor.
  - split; [repeat constructor; simpl; auto|]. unfold returned. cbn [flat_map app snd]. fold ex_reset. rewrite E. left; reflexivity.
Qed.

(** ** C23: time *)
Theorem elapsed_time_of_reset : forall {G} (s : sampler G) render rf cols d sim b g obs,
  sampler_ok s -> (2 <= cols)%nat -> hopping rf -> reachable s render rf cols d sim ->
  let o := perform s render (Reset b) sim g in
  out_result o = Ok (Some obs) ->
  o_elapsed obs = d /\
  (forall w, count_occ Nat.eq_dec (sim_observers sim) w = 1%nat -> announced_time (seen w (out_trace o)) = o_elapsed obs).
Proof.
  intros G s render rf cols d sim b g obs O C H Rc o E. subst o.
  apply perform_Ok_reset in E. destruct (perform_reset s render b sim g) as (_ & _ & Ep). rewrite Ep.
  destruct (reachable_reset s render rf cols d sim b g obs O C H Rc E) as
      (ps & gr & si & a & prm & g1 & g2 & g3 & icbs & _ & _ & _ & _ & _ & _ & _ & D & Ha & Hs & Hf & Hc & He & Hl & Hp & (_ & Al & _)).
  split; auto. intros w Hw. rewrite (Al w Hw), announced_app.
  destruct (pictured_log render b prm obs _ _ icbs Hp) as (_ & _ & _ & P4). rewrite P4, He.
  unfold announced_time, zsum; simpl. lia.
Qed.
Print Assumptions elapsed_time_of_reset.

Theorem elapsed_time_of_step : forall {G} (s : sampler G) render rf cols d sim fuel cs b g obs,
  sampler_ok s -> (2 <= cols)%nat -> hopping rf -> reachable s render rf cols d sim ->
  let o := perform s render (Step fuel cs b) sim g in
  out_result o = Ok (Some obs) ->
  (sim_fov sim = Some (o_fov obs) -> o_elapsed obs = (zsum (map c_dwell cs) + d)%Z) /\
  (sim_fov sim <> Some (o_fov obs) -> o_elapsed obs = (zsum (map c_dwell cs) + 2 * d)%Z) /\
  (forall w, count_occ Nat.eq_dec (sim_observers sim) w = 1%nat -> announced_time (seen w (out_trace o)) = o_elapsed obs).
Proof.
  intros G s render rf cols d sim fuel cs b g obs O C H Rc o E. subst o.
  apply perform_Ok_step in E. destruct (perform_step s render fuel cs b sim g) as (_ & _ & Ep). rewrite Ep.
  destruct (reachable_step s render rf cols d sim fuel cs b g obs O C H Rc E) as
      (ps & gr & f & a & prm & cbs & Rd & St & (_ & Al & _) & _ & Ed & _).
  destruct Rd. pose proof (stepped_log s render _ _ _ _ _ _ _ _ _ _ _ _ gr St ready_material ready_grid) as (_ & _ & _ & L4).
  split; [|split].
  - intros Hf. destruct St as [m' g1 gr' si obs g' cbs icbs B Hg' Hsi Hsafe Hf0 Hsh Hc Hl He Hp
                 |m' g1 gr' si f' obs g' cbs icbs B Hg' Hsi Hsafe Hf' Hf0 Hsh Hc Hl He Hp]; rewrite He, Ed; auto.
    exfalso. apply Hsafe. assert (K : f = square_around si a) by congruence.
    rewrite K, relative_centre by lra. unfold safe; simpl; lra.
  - intros Hf. destruct St as [m' g1 gr' si obs g' cbs icbs B Hg' Hsi Hsafe Hf0 Hsh Hc Hl He Hp
                 |m' g1 gr' si f' obs g' cbs icbs B Hg' Hsi Hsafe Hf' Hf0 Hsh Hc Hl He Hp].
    + exfalso. apply Hf. congruence.
    + rewrite He, Ed. unfold timedelta in *. lia.
  - intros w Hw. rewrite (Al w Hw). exact L4.
Qed.
Print Assumptions elapsed_time_of_step.

(** ** C24: observations describe the material *)
Theorem observation_shows_material : forall {G} (s : sampler G) render rf cols d sim r g obs,
  sampler_ok s -> (2 <= cols)%nat -> hopping rf -> reachable s render rf cols d sim ->
  let o := perform s render r sim g in
  out_result o = Ok (Some obs) ->
  exists gr, m_grid (sim_material (out_sim o)) = Some gr /\ sim_fov (out_sim o) = Some (o_fov obs) /\
    shows (o_fov obs) gr (o_grid obs) /\
    microscope_frame_to_material_frame (o_fov obs) (PGrid (o_grid obs)) =
      Ok (PGrid (fov_get_atoms_in_bounds (o_fov obs) gr 0)) /\
    o_label_image obs = None /\
    match r with
    | Reset b => o_controls obs = [] /\ (o_image obs <> None <-> b = true)
    | Step _ cs b => o_controls obs = cs /\ (o_image obs <> None <-> b = true)
    | _ => False
    end.
Proof.
  intros G s render rf cols d sim r g obs O C H Rc o E. subst o.
  assert (Pic : forall b prm g g' icbs, pictured render b prm obs g g' icbs -> (o_image obs <> None <-> b = true)).
  { intros b prm ga gb icbs. unfold pictured. destruct b; [intros (i & _ & E1 & _)|intros (E1 & _)]; rewrite E1; split; congruence. }
  destruct r as [b|fuel cs b|o|o].
  - apply perform_Ok_reset in E. destruct (perform_reset s render b sim g) as (Ep & _). rewrite Ep.
    destruct (reachable_reset s render rf cols d sim b g obs O C H Rc E) as
      (ps & gr & si & a & prm & g1 & g2 & g3 & icbs & _ & _ & _ & Es & Eg & Rd & _ & D & Ha & Hs & Hf & Hc & He & Hl & Hp & _).
    exists gr. split; [auto|]. split; [rewrite Es; simpl; congruence|]. rewrite Hf.
    split; [auto|]. split.
    { cbn [microscope_frame_to_material_frame]. do 2 f_equal. apply shows_back; auto.
      - apply (square_proper _ a); [apply square_around_square|lra].
      - eapply silicon_at_wf; eauto. }
    split; [auto|]. split; [auto|]. eapply Pic; eauto.
  - apply perform_Ok_step in E. destruct (perform_step s render fuel cs b sim g) as (Ep & _). rewrite Ep.
    destruct (reachable_step s render rf cols d sim fuel cs b g obs O C H Rc E) as
      (ps & gr & f & a & prm & cbs & Rd & St & _). destruct Rd.
    destruct St as [m' g1 gr' si obs g' cbs icbs B Hg' Hsi Hsafe Hf Hsh Hc Hl He Hp
                 |m' g1 gr' si f' obs g' cbs icbs B Hg' Hsi Hsafe Hf' Hf Hsh Hc Hl He Hp].
    + exists gr'. simpl. split; [auto|]. split; [congruence|]. rewrite Hf. split; [auto|].
      split; [|split; [auto|split; [auto|eapply Pic; eauto]]].
      do 2 f_equal. apply shows_back; auto.
      * apply (square_proper _ a); auto; lra.
      * eapply silicon_at_wf; eauto.
    + exists gr'. simpl. split; [auto|]. split; [congruence|]. rewrite Hf. split; [auto|].
      split; [|split; [auto|split; [auto|eapply Pic; eauto]]].
      do 2 f_equal. apply shows_back; auto.
      * subst f'. apply (square_proper _ a); [apply square_around_square|lra].
      * eapply silicon_at_wf; eauto.
  - cbn [perform] in E. rewrite then_ret in E. discriminate.
  - cbn [perform] in E. rewrite then_ret in E. cbn [out_result] in E. apply fmap_Ok in E. destruct E as (x & _ & K). discriminate.
Qed.
Print Assumptions observation_shows_material.

(** ** C25: what observers see, and everything a step does *)
Theorem step_complete : forall {G} (s : sampler G) render rf cols d sim fuel cs b g obs,
  sampler_ok s -> (2 <= cols)%nat -> hopping rf -> reachable s render rf cols d sim ->
  let o := perform s render (Step fuel cs b) sim g in
  out_result o = Ok (Some obs) ->
  exists ps gr f a prm cbs, ready sim ps gr f a prm /\ sim_image_duration sim = d /\
    stepped s render fuel cs b sim f a prm g obs (out_sim o) (out_rng o) cbs /\
    all_saw (sim_observers sim) (out_trace o) cbs.
Proof.
  intros G s render rf cols d sim fuel cs b g obs O C H Rc o E. subst o.
  apply perform_Ok_step in E. destruct (perform_step s render fuel cs b sim g) as (E1 & E2 & E3). rewrite E1, E2, E3.
  destruct (reachable_step s render rf cols d sim fuel cs b g obs O C H Rc E) as
      (ps & gr & f & a & prm & cbs & Rd & St & Al & _ & Ed & _).
  exists ps, gr, f, a, prm, cbs. auto.
Qed.
Print Assumptions step_complete.

Theorem reset_complete : forall {G} (s : sampler G) render rf cols d sim b g obs,
  sampler_ok s -> (2 <= cols)%nat -> hopping rf -> reachable s render rf cols d sim ->
  let o := perform s render (Reset b) sim g in
  out_result o = Ok (Some obs) ->
  exists m gr si a prm g1 g2 g3 icbs,
    material_reset s (sim_material sim) g = (Ok tt, m, g1) /\ m_grid m = Some gr /\ silicon_at gr si /\
    s_uniform s 15 30 g1 = (a, g2) /\ sample_image_parameters s 512 g2 = (prm, g3) /\
    out_sim o = mksimulator m (sim_observers sim) d true (Some a) (Some (o_fov obs)) (Some prm) /\
    o_fov obs = square_around si a /\
    pictured render b prm obs g3 (out_rng o) icbs /\
    all_saw (sim_observers sim) (out_trace o)
      ([ObserveReset gr (o_fov obs); ObserveFovChange (o_fov obs); ObserveTakeImage d (o_fov obs)] ++ icbs).
Proof.
  intros G s render rf cols d sim b g obs O C H Rc o E. subst o.
  apply perform_Ok_reset in E. destruct (perform_reset s render b sim g) as (E1 & E2 & E3). rewrite E1, E2, E3.
  destruct (reachable_reset s render rf cols d sim b g obs O C H Rc E) as
      (ps & gr & si & a & prm & g1 & g2 & g3 & icbs & Em & Eu & Ep & Es & Eg & Rd & _ & D & Ha & Hs & Hf & Hc & He & Hl & Hp & Al).
  exists (sim_material (out_sim (sim_do_reset s render b sim g))), gr, si, a, prm, g1, g2, g3, icbs.
  rewrite Hf. repeat (split; [assumption || reflexivity|]). assumption.
Qed.
Print Assumptions reset_complete.

(** also when a call does not succeed, all observers saw the same *)
Theorem observers_agree : forall {G} (s : sampler G) render rf cols d sim r g,
  sampler_ok s -> (2 <= cols)%nat -> hopping rf -> reachable s render rf cols d sim ->
  exists cbs, all_saw (sim_observers sim) (out_trace (perform s render r sim g)) cbs.
Proof.
  intros G s render rf cols d sim r g O C H (os & h & Hh).
  destruct (reachable_inv s render rf cols d os h sim O C H Hh) as [I1 I2 I3 I4].
  destruct r as [b|fuel cs b|o|o].
  - destruct (perform_reset s render b sim g) as (_ & _ & E3). rewrite E3.
    destruct (reset_run s render b sim g O ltac:(lia)) as
      (m' & gr & ps & i & si & a & prm & f & g1 & g2 & g3 & grps & _ & _ & _ & _ & _ & _ & _ & _ & _ & _ & _ & _ & _ & _ & T & _).
    rewrite T. eexists. apply all_saw_blocks.
  - destruct (perform_step s render fuel cs b sim g) as (_ & _ & E3). rewrite E3.
    destruct I4 as [(F & _)|(ps & gr & f & a & prm & Rd & Sh)].
    + rewrite step_before by auto. simpl. exists []. apply (all_saw_blocks (sim_observers sim) []).
    + assert (H' : hopping (m_rate_function (sim_material sim))) by (rewrite I2; auto).
      destruct (step_run s render fuel cs b sim g ps gr f a prm Rd H') as (grps & T & _). rewrite T. eexists. apply all_saw_blocks.
  - exists []. cbn [perform]. rewrite then_ret. cbn [out_trace add_observer set_self]. apply (all_saw_blocks (sim_observers sim) []).
  - exists []. cbn [perform]. rewrite then_ret. cbn [out_trace]. unfold remove_observer, then_, get_self; simpl.
    destruct (list_remove o (sim_observers sim)); apply (all_saw_blocks (sim_observers sim) []).
Qed.
Print Assumptions observers_agree.

(** the parameters of the image generator stay in their documented ranges *)
Theorem image_parameters_ranges : forall {G} (s : sampler G) n g, sampler_ok s ->
  let p := fst (sample_image_parameters s n g) in
  14 / 10 <= ip_intensity_exponent p <= 2 /\ 0 <= ip_gaussian_variance p <= 5 / 1000 /\
  0 <= ip_jitter_rate p <= 5 /\ 1 <= ip_poisson_rate_multiplier p /\
  0 <= ip_salt_and_pepper_amount p <= 1 / 1000 /\ 0 <= ip_blur_amount p <= 1 /\
  7 / 10 <= ip_contrast_gamma p <= 13 / 10 /\ 0 <= ip_exponential_lambda p <= 2 / 10 /\
  0 <= ip_uniform_noise_scale p <= 2 / 10 /\ ip_image_size p = n.
Proof.
  intros G s n g O. unfold sample_image_parameters.
  repeat match goal with |- context [s_uniform s ?lo ?hi ?g] =>
    pose proof (uniform_range _ O lo hi g ltac:(lra)); destruct (s_uniform s lo hi g) as [? ?]; cbn [fst] in *
  | |- context [s_exponential s ?sc ?g] =>
    pose proof (exponential_range _ O sc g); destruct (s_exponential s sc g) as [? ?]; cbn [fst] in * end.
  cbv zeta. cbn. repeat split; lra.
Qed.
Print Assumptions image_parameters_ranges.

Theorem noisy_image_parameters_ranges : forall {G} (s : sampler G) n g, sampler_ok s ->
  let p := fst (sample_noisy_image_parameters s n g) in
  14 / 10 <= ip_intensity_exponent p <= 2 /\ 0 <= ip_gaussian_variance p <= 3 / 10 /\
  0 <= ip_jitter_rate p <= 5 /\ 1 <= ip_poisson_rate_multiplier p /\
  0 <= ip_salt_and_pepper_amount p <= 1 / 100 /\ 0 <= ip_blur_amount p <= 1 / 4 /\
  1 / 2 <= ip_contrast_gamma p <= 15 / 10 /\ 0 <= ip_exponential_lambda p <= 1 / 4 /\
  0 <= ip_uniform_noise_scale p <= 1 / 4 /\ ip_image_size p = n.
Proof.
  intros G s n g O. unfold sample_noisy_image_parameters.
  repeat match goal with |- context [s_uniform s ?lo ?hi ?g] =>
    pose proof (uniform_range _ O lo hi g ltac:(lra)); destruct (s_uniform s lo hi g) as [? ?]; cbn [fst] in *
  | |- context [s_exponential s ?sc ?g] =>
    pose proof (exponential_range _ O sc g); destruct (s_exponential s sc g) as [? ?]; cbn [fst] in * end.
  cbv zeta. cbn. repeat split; lra.
Qed.
Print Assumptions noisy_image_parameters_ranges.

(** and reach every point of them: with numbers [u] of the generator in [0, 1)
    that are stretched to the range, and exponential ones [e], each parameter
    has a number of its own, in this order *)
Theorem image_parameters_drawn : forall (s : sampler nat) (u e : nat -> R) n k,
  (forall lo hi k, s_uniform s lo hi k = (lo + (hi - lo) * u k, S k)) ->
  (forall sc k, s_exponential s sc k = (sc * e k, S k)) ->
  (let p := fst (sample_image_parameters s n k) in
   [ip_intensity_exponent p; ip_gaussian_variance p; ip_jitter_rate p; ip_poisson_rate_multiplier p; ip_salt_and_pepper_amount p;
    ip_blur_amount p; ip_contrast_gamma p; ip_exponential_lambda p; ip_uniform_noise_scale p] =
   [1.4 + 0.6 * u k; 0.005 * u (1 + k)%nat; 5 * u (2 + k)%nat; 1 + 15 * e (3 + k)%nat; 0.001 * u (4 + k)%nat;
    u (5 + k)%nat; 0.7 + 0.6 * u (6 + k)%nat; 0.2 * u (7 + k)%nat; 0.2 * u (8 + k)%nat] /\
   snd (sample_image_parameters s n k) = (9 + k)%nat) /\
  (let p := fst (sample_noisy_image_parameters s n k) in
   [ip_intensity_exponent p; ip_gaussian_variance p; ip_jitter_rate p; ip_poisson_rate_multiplier p; ip_salt_and_pepper_amount p;
    ip_blur_amount p; ip_contrast_gamma p; ip_exponential_lambda p; ip_uniform_noise_scale p] =
   [1.4 + 0.6 * u k; 0.3 * u (1 + k)%nat; 5 * u (2 + k)%nat; 1 + 15 * e (3 + k)%nat; 0.01 * u (4 + k)%nat;
    0.25 * u (5 + k)%nat; 0.5 + u (6 + k)%nat; 0.25 * u (7 + k)%nat; 0.25 * u (8 + k)%nat] /\
   snd (sample_noisy_image_parameters s n k) = (9 + k)%nat).
Proof.
  intros s u e n k U E. unfold sample_image_parameters, sample_noisy_image_parameters. cbv zeta.
  repeat (progress (rewrite ?U, ?E; cbv iota beta zeta)). cbn [fst snd ip_intensity_exponent ip_gaussian_variance ip_jitter_rate ip_poisson_rate_multiplier
    ip_salt_and_pepper_amount ip_blur_amount ip_contrast_gamma ip_exponential_lambda ip_uniform_noise_scale Nat.add].
  split; (split; [|reflexivity]); repeat (apply (f_equal2 cons); [lra|]); reflexivity.
Qed.
Print Assumptions image_parameters_drawn.

(** ** C26: the event log *)
Theorem event_log_replays : forall {G} (s : sampler G) render rf cols d sim b g w events h sim',
  sampler_ok s -> (2 <= cols)%nat -> hopping rf -> reachable s render rf cols d sim ->
  count_occ Nat.eq_dec (sim_observers sim) w = 1%nat ->
  let o := perform s render (Reset b) sim g in
  history s render (out_sim o) h sim' -> Forall is_step (map fst h) ->
  let log := event_log events (seen w (out_trace o ++ delivered h)) in
  (exists gr f rest, log = EvReset gr f :: rest /\ m_grid (sim_material (out_sim o)) = Some gr /\
     sim_fov (out_sim o) = Some f /\ Forall (fun e => ~ is_reset_event e) rest) /\
  replay log None = m_grid (sim_material sim').
Proof.
  intros G s render rf cols d sim b g w events h sim' O C H Rc Hw o Hh F log. subst log.
  assert (Rc0 := Rc). destruct Rc0 as (os & h0 & Hh0).
  destruct (reachable_inv s render rf cols d os h0 sim O C H Hh0) as [I1 I2 I3 I4].
  destruct (reset_run s render b sim g O ltac:(lia)) as
    (m' & gr & ps & i & si & a & prm & f & g1 & g2 & g3 & grps & E1 & E2 & E3 & E4 & E5 & E6 & E7 & E8 & E9 & E10 & E11 & E12 & E13 & E14 & E15 & E16).
  destruct (perform_reset s render b sim g) as (P1 & P2 & P3). fold o in P1, P2, P3.
  rewrite <- P1 in *. rewrite <- P3 in *.
  assert (Sn : seen w (out_trace o) = concat grps).
  { rewrite E15. apply (all_saw_blocks (sim_observers sim) grps); auto. }
  assert (Rd : ready (out_sim o) ps gr f a prm).
  { rewrite E14. subst f. constructor; simpl; auto.
    - split; eauto.
    - eapply sheet_of_NoDup; eauto.
    - apply square_around_square. }
  assert (Hp : hopping (m_rate_function (sim_material (out_sim o)))).
  { rewrite E14. simpl. rewrite E3, I2. auto. }
  assert (Ho : count_occ Nat.eq_dec (sim_observers (out_sim o)) w = 1%nat) by (rewrite E14; exact Hw).
  assert (Hg : m_grid (sim_material (out_sim o)) = Some gr) by apply Rd.
  assert (Hf : sim_fov (out_sim o) = Some f) by apply Rd.
  assert (L0 : exists rest, event_log events (concat grps) = EvReset gr f :: rest /\
     Forall (fun e => ~ is_reset_event e) rest /\ replay rest (Some gr) = Some gr).
  { assert (K : exists icbs, concat grps = [ObserveReset gr f; ObserveFovChange f; ObserveTakeImage (sim_image_duration sim) f] ++ icbs /\
      Forall no_reset_cb icbs /\ forall now, replay (flat_map convert_cb icbs) now = now).
    { destruct E16 as [(obs & icbs & _ & _ & _ & _ & _ & _ & Hpic & Ec)|(r & _ & _ & _ & _ & Ec)].
      - exists icbs. destruct (pictured_log render _ _ _ _ _ _ Hpic) as (Q1 & Q2 & _). auto.
      - exists []. rewrite app_nil_r. auto. }
    destruct K as (icbs & -> & K1 & K2).
    change ([ObserveReset gr f; ObserveFovChange f; ObserveTakeImage (sim_image_duration sim) f] ++ icbs)
      with ([ObserveReset gr f] ++ ([ObserveFovChange f; ObserveTakeImage (sim_image_duration sim) f] ++ icbs)).
    rewrite event_log_app. cbn [event_log fold_left event_observe].
    rewrite event_log_convert.
    - eexists. split; [reflexivity|]. rewrite flat_map_app. split.
      + apply Forall_app. split; [repeat constructor; auto|]. apply convert_no_reset; auto.
      + rewrite replay_app, K2. reflexivity.
    - apply Forall_app. split; auto. repeat constructor. }
  rewrite seen_app, event_log_app, Sn.
  destruct L0 as (rest & El & Fr & Rr). rewrite El, Hg, Hf. clear E14 E15 E16 Sn El P1 P2 P3 E6 E11.
  assert (Main : exists rest', event_log (EvReset gr f :: rest) (seen w (delivered h)) = EvReset gr f :: rest' /\
     Forall (fun e => ~ is_reset_event e) rest' /\ replay rest' (Some gr) = m_grid (sim_material sim')).
  { clearbody o. induction Hh as [|h sim1 r gg Hh IH].
    - exists rest. simpl. rewrite Hg. auto.
    - rewrite map_app in F. apply Forall_app in F. destruct F as [F1 F2]. inversion F2 as [|? ? Sr _]; subst.
      destruct (IH F1) as (rest' & El & Fr' & Rr').
      destruct (history_ready s render _ h sim1 ps gr _ a prm Hh Rd Hp) as ((gr' & f' & Rd') & Ob & _ & Erf).
      { eapply Forall_impl; [|exact F1]. intros r' Hr' K. destruct r'; simpl in *; auto. }
      specialize (Ob F1).
      destruct r as [b'|n cs b'|o'|o']; simpl in Sr; try tauto.
      destruct (perform_step s render n cs b' sim1 gg) as (Q1 & Q2 & Q3).
      destruct (step_log s render n cs b' sim1 gg ps gr' f' a prm w Rd' ltac:(rewrite Erf; auto) ltac:(rewrite Ob; auto)) as (S1 & S2 & _).
      unfold delivered. rewrite flat_map_app, seen_app. cbn [flat_map snd]. rewrite app_nil_r, Q3, Q1.
      fold (delivered h). rewrite event_log_app, El, event_log_convert by auto.
      exists (rest' ++ flat_map convert_cb (seen w (out_trace (step_and_image s render n cs b' sim1 gg)))).
      split; [reflexivity|]. split; [apply Forall_app; split; auto; apply convert_no_reset; auto|].
      rewrite replay_app, Rr'. destruct Rd' as [_ _ Hg1 _ _ _ _ _ _ _]. rewrite Hg1. exact S2. }
  destruct Main as (rest' & -> & Fr' & Rr'). split; [|exact Rr'].
  exists gr, f, rest'. auto.
Qed.
Print Assumptions event_log_replays.

Theorem event_log_accounts : forall {G} (s : sampler G) render rf cols d sim b g obs0 w events h sim',
  sampler_ok s -> (2 <= cols)%nat -> hopping rf -> reachable s render rf cols d sim ->
  count_occ Nat.eq_dec (sim_observers sim) w = 1%nat ->
  let o := perform s render (Reset b) sim g in
  out_result o = Ok (Some obs0) ->
  history s render (out_sim o) h sim' -> Forall is_step (map fst h) ->
  Forall (fun ro => exists obs, out_result (snd ro) = Ok (Some obs)) h ->
  let log := event_log events (seen w (out_trace o ++ delivered h)) in
  logged_controls log = aimed obs0 (returned h) /\
  logged_time log = zsum (map o_elapsed (obs0 :: returned h)).
Proof.
  intros G s render rf cols d sim b g obs0 w events h sim' O C H Rc Hw o E0 Hh F Fo log. subst log.
  assert (Rc0 := Rc). destruct Rc0 as (os & h0 & Hh0).
  destruct (reachable_inv s render rf cols d os h0 sim O C H Hh0) as [I1 I2 I3 I4].
  apply perform_Ok_reset in E0.
  destruct (reachable_reset s render rf cols d sim b g obs0 O C H Rc E0) as
      (ps & gr & si & a & prm & g1 & g2 & g3 & icbs & Em & Eu & Ep & Es & Eg & Rd & _ & D & Ha & Hs & Hf & Hc & He & Hl & Hp & (_ & Al & _)).
  specialize (Al w Hw).
  destruct (perform_reset s render b sim g) as (P1 & P2 & P3). fold o in P1, P2, P3.
  rewrite <- P1, <- P3 in *.
  assert (Hpp : hopping (m_rate_function (sim_material (out_sim o)))).
  { assert (X : sim_inv rf cols d (out_sim o)).
    { subst o. apply perform_inv; auto. eapply reachable_inv; eauto. }
    destruct X as [_ X _ _]. rewrite X. auto. }
  assert (Ho : count_occ Nat.eq_dec (sim_observers (out_sim o)) w = 1%nat) by (rewrite Es; exact Hw).
  destruct (pictured_log render _ _ _ _ _ _ Hp) as (Q1 & Q2 & Q3 & Q4).
  set (f := square_around si a) in *.
  assert (L0 : exists l, event_log events (seen w (out_trace o)) = l /\ logged_controls l = [] /\ logged_time l = o_elapsed obs0).
  { eexists. split; [reflexivity|]. rewrite Al.
    change ([ObserveReset gr f; ObserveFovChange f; ObserveTakeImage d f] ++ icbs)
      with ([ObserveReset gr f] ++ ([ObserveFovChange f; ObserveTakeImage d f] ++ icbs)).
    rewrite event_log_app. cbn [event_log fold_left event_observe].
    rewrite event_log_convert by (apply Forall_app; split; auto; repeat constructor).
    rewrite logged_controls_app, logged_time_app, flat_map_app, logged_controls_app, logged_time_app, Q3, logged_announced, logged_announced, Q4, He.
    split; [reflexivity|]. unfold logged_time, announced_time, zsum; simpl. lia. }
  rewrite seen_app, event_log_app. destruct L0 as (l & El & Lc & Lt). rewrite El.
  clear Em Eu Ep Es Eg Hs Al P1 P2 P3 El.
  assert (Main : exists l' last_obs, event_log l (seen w (delivered h)) = l ++ l' /\ logged_controls l' = aimed obs0 (returned h) /\
     logged_time l' = zsum (map o_elapsed (returned h)) /\ sim_fov sim' = Some (o_fov last_obs) /\
     forall x, aimed obs0 (returned h ++ [x]) = aimed obs0 (returned h) ++
       map (fun c => (c_dwell c, at_relative (o_fov last_obs) (c_position c))) (o_controls x)).
  { clearbody o. induction Hh as [|h sim1 r gg Hh IH].
    - exists [], obs0. rewrite app_nil_r. repeat split; auto.
      + rewrite Hf. apply Rd.
      + intros x. simpl. rewrite app_nil_r. reflexivity.
    - rewrite map_app in F. apply Forall_app in F. destruct F as [F1 F2]. inversion F2 as [|? ? Sr _]; subst.
      apply Forall_app in Fo. destruct Fo as [Fo1 Fo2]. inversion Fo2 as [|? ? (obs & Eo) _]; subst.
      destruct (IH F1 Fo1) as (l' & lo & J1 & J2 & J3 & J4 & J5).
      destruct (history_ready s render _ h sim1 ps gr _ a prm Hh Rd Hpp) as ((gr' & f' & Rd') & Ob & _ & Erf).
      { eapply Forall_impl; [|exact F1]. intros r' Hr' K. destruct r'; simpl in *; auto. }
      specialize (Ob F1).
      destruct r as [b'|n cs b'|o'|o']; simpl in Sr; try tauto.
      destruct (perform_step s render n cs b' sim1 gg) as (Q1' & Q2' & Q3').
      cbn [snd] in Eo. assert (Eo' := Eo). apply perform_Ok_step in Eo'.
      destruct (step_log s render n cs b' sim1 gg ps gr' f' a prm w Rd' ltac:(rewrite Erf; auto) ltac:(rewrite Ob; auto)) as (S1 & S2 & S3).
      destruct (S3 obs Eo') as (S4 & S5 & S6).
      assert (Er : returned (h ++ [(Step n cs b', perform s render (Step n cs b') sim1 gg)]) = returned h ++ [obs]).
      { unfold returned. rewrite flat_map_app. cbn [flat_map snd]. rewrite Eo. reflexivity. }
      rewrite Er. unfold delivered. rewrite flat_map_app, seen_app. cbn [flat_map snd]. rewrite app_nil_r, Q3', Q1'.
      fold (delivered h). rewrite event_log_app, J1, event_log_convert by auto.
      eexists. exists obs. rewrite <- app_assoc. split; [reflexivity|].
      assert (Ff : f' = o_fov lo) by (destruct Rd'; congruence).
      split; [rewrite logged_controls_app, J2, S4, J5, Ff; reflexivity|].
      split; [rewrite logged_time_app, J3, logged_announced, S5, map_app, zsum_app; unfold zsum; simpl; lia|].
      split; [exact S6|].
      intros x. clear. generalize obs0. induction (returned h) as [|y ys IH]; intros o0; simpl.
      + rewrite !app_nil_r. reflexivity.
      + rewrite IH, <- app_assoc. reflexivity. }
  destruct Main as (l' & lo & J1 & J2 & J3 & _). rewrite J1, logged_controls_app, logged_time_app, Lc, J2, J3, Lt.
  split; [reflexivity|]. unfold zsum; simpl. reflexivity.
Qed.
Print Assumptions event_log_accounts.

Example event_log_nonvacuous : exists obs0 h sim',
  count_occ Nat.eq_dec (sim_observers ex_new) 8%nat = 1%nat /\
  reachable (ex_sampler 1) ex_render ex_rates 6 2000000%Z ex_new /\
  out_result (perform (ex_sampler 1) ex_render (Reset true) ex_new 0%nat) = Ok (Some obs0) /\
  history (ex_sampler 1) ex_render (out_sim (perform (ex_sampler 1) ex_render (Reset true) ex_new 0%nat)) h sim' /\
  h <> [] /\ Forall is_step (map fst h) /\
  Forall (fun ro => exists obs, out_result (snd ro) = Ok (Some obs)) h.
Proof.
  destruct ex_reset_ok as (obs0 & E0). exists obs0. do 2 eexists. split; [reflexivity|].
  split; [apply ex_new_reachable|]. split; [exact E0|]. split.
  - eapply (history_snoc _ _ _ [] _ (Step (Z.to_nat 1500000) [ex_control] true) 3%nat). constructor.
  - split; [discriminate|]. split; [repeat constructor|]. constructor; [|constructor].
    destruct (ex_step_ok true) as (obs & E). exists obs. exact E.
Qed.

(** ** C27: voltage and current *)
Definition same_aim (c c' : control) : Prop := c_position c = c_position c' /\ c_dwell c = c_dwell c'.

Lemma apply_all_same {G} (s : sampler G) fuel cs cs' : Forall2 same_aim cs cs' -> forall e sim g,
  apply_all s fuel e cs sim g = apply_all s fuel e cs' sim g.
Proof.
  induction 1 as [|c c' cs cs' [H1 H2] F IH]; intros e sim g; [reflexivity|].
  cbn [apply_all]. assert (E : apply_one s fuel c sim g = apply_one s fuel c' sim g).
  { unfold apply_one. rewrite H1, H2. reflexivity. }
  unfold then_. rewrite E, H2. destruct (out_result (apply_one s fuel c' sim g)); auto. rewrite IH. reflexivity.
Qed.

Definition without_echo (x : observation) : observation :=
  mkobs (o_grid x) (o_fov x) [] (o_elapsed x) (o_image x) (o_label_image x).
Definition alike {G} (o o' : @outcome G observation) : Prop :=
  out_sim o = out_sim o' /\ out_rng o = out_rng o' /\ out_trace o = out_trace o' /\
  fmap_res without_echo (out_result o) = fmap_res without_echo (out_result o').

Lemma then_alike {G A} (x x' : @call G A) k k' sim g : x sim g = x' sim g ->
  (forall a sim g, alike (k a sim g) (k' a sim g)) -> alike (then_ x k sim g) (then_ x' k' sim g).
Proof.
  intros E H. unfold then_. rewrite <- E. destruct (out_result (x sim g)) as [a|e|].
  - destruct (H a (out_sim (x sim g)) (out_rng (x sim g))) as (H1 & H2 & H3 & H4).
    repeat split; cbn [out_sim out_rng out_trace out_result]; auto. rewrite H3. reflexivity.
  - repeat split.
  - repeat split.
Qed.

(** only position and dwell time of a control matter, except for the echo *)
Theorem voltage_and_current_ignored : forall {G} (s : sampler G) render fuel cs cs' b sim g,
  Forall2 same_aim cs cs' ->
  let o := step_and_image s render fuel cs b sim g in
  let o' := step_and_image s render fuel cs' b sim g in
  out_sim o = out_sim o' /\ out_rng o = out_rng o' /\ out_trace o = out_trace o' /\
  fmap_res without_echo (out_result o) = fmap_res without_echo (out_result o').
Proof.
  intros G s render fuel cs cs' b sim g F. change (alike (step_and_image s render fuel cs b sim g) (step_and_image s render fuel cs' b sim g)).
  unfold step_and_image. apply then_alike; [reflexivity|]. intros _ sim1 g1.
  apply then_alike; [apply apply_all_same; exact F|]. intros el sim2 g2.
  apply then_alike; [reflexivity|]. intros og sim3 g3. apply then_alike; [reflexivity|]. intros i sim4 g4.
  apply then_alike; [reflexivity|]. intros f sim5 g5. unfold alike, ret.
  cbn [out_sim out_rng out_trace out_result fmap_res]. unfold without_echo. cbn. auto.
Qed.
Print Assumptions voltage_and_current_ignored.

(** every observer is told 60 kV and 0.1 nA; the observation repeats what the
    caller asked for *)
Theorem voltage_and_current_reported : forall {G} (s : sampler G) render rf cols d sim fuel cs b g obs w c,
  sampler_ok s -> (2 <= cols)%nat -> hopping rf -> reachable s render rf cols d sim ->
  let o := perform s render (Step fuel cs b) sim g in
  out_result o = Ok (Some obs) ->
  (In (w, ObserveApplyControl c) (out_trace o) -> c_voltage_kv c = Some 60 /\ c_current_na c = Some (1 / 10)) /\
  o_controls obs = cs.
Proof.
  intros G s render rf cols d sim fuel cs b g obs w c O C H Rc o E.
  destruct (step_complete s render rf cols d sim fuel cs b g obs O C H Rc E) as (ps & gr & f & a & prm & cbs & Rd & Ed & St & (Al & _)).
  fold o in St, Al. split.
  - intros I. specialize (Al w).
    assert (I1 : In (ObserveApplyControl c) (seen w (out_trace o))).
    { unfold seen. apply in_map_iff. exists (w, ObserveApplyControl c). split; auto. apply filter_In. split; auto.
      simpl. apply Nat.eqb_refl. }
    apply (Permutation_in _ Al) in I1.
    assert (I2 : In (ObserveApplyControl c) cbs).
    { apply in_concat in I1. destruct I1 as (x & Hx & Hc). apply repeat_spec in Hx. subst x. auto. }
    assert (K : forall m g cs cbs m' g', beamed s fuel f m g cs cbs m' g' -> In (ObserveApplyControl c) cbs ->
        c_voltage_kv c = Some 60 /\ c_current_na c = Some (1 / 10)).
    { clear. intros m g cs cbs m' g' B. induction B as [|m g c0 ts m1 g1 cs cbs m' g' E B IH]; intros I; [inversion I|].
      destruct I as [I|I]; [injection I as <-; auto|]. apply in_app_or in I. destruct I as [I|I]; auto.
      apply in_map_iff in I. destruct I as (t & K & _). discriminate. }
    assert (Kp : forall g g' icbs, pictured render b prm obs g g' icbs -> ~ In (ObserveApplyControl c) icbs).
    { intros ga gb icbs. unfold pictured. destruct b; [intros (im & _ & _ & ->)|intros (_ & _ & ->)]; simpl; intuition discriminate. }
    destruct St; repeat (match goal with I : In _ (_ ++ _) |- _ => apply in_app_or in I; destruct I as [I|I] end);
      try (eapply K; eauto; fail); try (exfalso; eapply Kp; eauto; fail); simpl in *; intuition discriminate.
  - destruct St; auto.
Qed.
Print Assumptions voltage_and_current_reported.

Example voltage_nonvacuous :
  Forall2 same_aim [ex_control] [mkcontrol (mkpt (1 / 2) (3 / 4)) 1500000%Z None (Some 5)] /\
  c_voltage_kv ex_control <> Some 60.
Proof.
  split; [repeat constructor|]. simpl. intros K. injection K. lra.
Qed.

(** ** C28: adding and removing observers *)
Theorem add_then_remove : forall {G} w sim (g : G), ~ In w (sim_observers sim) ->
  then_ (add_observer w) (fun _ => remove_observer w) sim g = mkoutcome (Ok tt) sim g [].
Proof.
  intros G w sim g N. unfold then_, add_observer, remove_observer, set_self, get_self; simpl.
  assert (K : list_remove w (sim_observers sim ++ [w]) = Some (sim_observers sim)).
  { revert N. generalize (sim_observers sim). induction l as [|x l IH]; intros N; simpl.
    - rewrite Nat.eqb_refl. reflexivity.
    - destruct (Nat.eqb_spec x w) as [->|_]; [exfalso; apply N; left; auto|].
      rewrite IH by (intros I; apply N; right; auto). reflexivity. }
  unfold then_; simpl. rewrite K. simpl. destruct sim; reflexivity.
Qed.
Print Assumptions add_then_remove.

Theorem remove_unregistered : forall {G} w sim (g : G),
  ~ In w (sim_observers sim) <-> remove_observer w sim g = mkoutcome (Raise ValueError) sim g [].
Proof.
  intros G w sim g. unfold remove_observer, then_, get_self; simpl.
  assert (K : ~ In w (sim_observers sim) <-> list_remove w (sim_observers sim) = None).
  { generalize (sim_observers sim). induction l as [|x l IH]; simpl; [tauto|].
    destruct (Nat.eqb_spec x w) as [->|Nx]; [split; [tauto|discriminate]|].
    assert (Q : ~ (x = w \/ In w l) <-> ~ In w l) by tauto. rewrite Q, IH.
    destruct (list_remove w l); simpl; split; congruence. }
  rewrite K. destruct (list_remove w (sim_observers sim)); simpl; split; auto; discriminate.
Qed.
Print Assumptions remove_unregistered.

Theorem add_and_remove_counts : forall {G} w sim (g : G),
  sim_observers (out_sim (add_observer w sim g)) = sim_observers sim ++ [w] /\
  (In w (sim_observers sim) -> out_result (remove_observer w sim g) = Ok tt /\
    exists a b, sim_observers sim = a ++ w :: b /\ ~ In w a /\
      sim_observers (out_sim (remove_observer w sim g)) = a ++ b).
Proof.
  intros G w sim g. split; [reflexivity|]. intros I.
  unfold remove_observer, then_, get_self; simpl.
  assert (K : exists a b, sim_observers sim = a ++ w :: b /\ ~ In w a /\ list_remove w (sim_observers sim) = Some (a ++ b)).
  { revert I. generalize (sim_observers sim). induction l as [|x l IH]; intros I; [inversion I|]. simpl.
    destruct (Nat.eqb_spec x w) as [->|Nx]; [exists [], l; auto|].
    destruct I as [I|I]; [congruence|]. destruct (IH I) as (a & b & -> & Na & ->).
    exists (x :: a), b. repeat split; auto. simpl. intros [K|K]; auto. }
  destruct K as (a & b & E & Na & ->). simpl. split; [reflexivity|]. exists a, b. auto.
Qed.
Print Assumptions add_and_remove_counts.

(** an observer registered twice receives every callback twice *)
Theorem registered_twice : forall os tr cbs w, all_saw os tr cbs ->
  count_occ Nat.eq_dec os w = 2%nat -> Permutation (seen w tr) (cbs ++ cbs).
Proof.
  intros os tr cbs w (H & _) E. specialize (H w). rewrite E in H. simpl in H. rewrite app_nil_r in H. exact H.
Qed.
Print Assumptions registered_twice.

Example observers_nonvacuous : ~ In 9%nat (sim_observers ex_new) /\ In 8%nat (sim_observers ex_new) /\
  count_occ Nat.eq_dec (sim_observers (out_sim (add_observer 8%nat ex_new 0%nat))) 8%nat = 2%nat.
Proof. simpl. repeat split; auto. intros [|[|[]]]; discriminate. Qed.
