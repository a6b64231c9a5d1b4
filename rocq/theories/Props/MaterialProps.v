(** Properties C07-C13, C19, C76, C77: the simulated material. *)
From Coq Require Import Reals ZArith List Bool Lia Lra Arith Sorting.Sorted.
From Flocq Require Import Core.
From Verif Require Import Base.Prelude Base.Rounding Base.Random Model.Constants Model.Geometry
  Model.MicroscopeUtils Model.Graphene
  Spec.Grids Spec.Neighbours Spec.Lattice Spec.Material Spec.MaterialRuns
  Proofs.BaseFacts Proofs.RoundingFacts Proofs.FovFacts Proofs.GeometryFacts Proofs.NeighbourFacts Proofs.MaterialFacts Proofs.RateFacts
  Proofs.GaussianFacts Proofs.ExposureFacts Proofs.LatticeFacts Proofs.SheetFacts
  Proofs.CanonicalFacts Proofs.ExampleSampler Proofs.ViewFacts.
Import ListNotations.
Open Scope R_scope.

(** A four-atom flake used by the examples, its silicon first. *)
Definition ex_flake : grid :=
  mkgrid [mkpt 0 0; mkpt 1 0; mkpt 0 1; mkpt (-1) 0] [14%Z; 6%Z; 6%Z; 6%Z].
Definition ex_material (rf : rate_function) : material := mkmaterial 3 rf true (Some ex_flake).

Lemma ex_flake_doped : single_doped ex_flake 0.
Proof.
  split; [reflexivity|]. split; [simpl; lia|].
  intros [|[|[|[|i]]]] z H; simpl in H; try (injection H as <-); try (destruct i; discriminate); auto.
Qed.
Lemma ex_flake_NoDup : NoDup (positions ex_flake).
Proof.
  repeat constructor; simpl; intros X; repeat (destruct X as [X|X]; [injection X; intros; lra|]); auto.
Qed.
Lemma ex_flake_sheet : doped_sheet (positions ex_flake) ex_flake.
Proof. split; [reflexivity|]. exists 0%nat. apply ex_flake_doped. Qed.

(** ** C07: what a field of view shows of the material *)
Theorem material_view_exact : forall m gr ll ur,
  m_reset m = true -> m_grid m = Some gr -> wf_grid gr ->
  exists out, get_atoms_in_bounds m ll ur = Ok out /\ shows (mkfov ll ur) gr out.
Proof.
  intros m gr ll ur H1 H2 W. exists (grid_get_atoms_in_bounds gr ll ur). split.
  - unfold get_atoms_in_bounds, reset_grid. rewrite H1, H2. reflexivity.
  - apply shows_bounds; auto.
Qed.
Print Assumptions material_view_exact.

Theorem material_view_unit_square : forall f gr out, proper f -> shows f gr out ->
  Forall (fun p => 0 <= px p <= 1 /\ 0 <= py p <= 1) (positions out).
Proof. exact shows_unit. Qed.
Print Assumptions material_view_unit_square.

Theorem material_view_converts_back : forall m gr ll ur out,
  px ll < px ur -> py ll < py ur ->
  m_reset m = true -> m_grid m = Some gr -> wf_grid gr ->
  get_atoms_in_bounds m ll ur = Ok out ->
  microscope_frame_to_material_frame (mkfov ll ur) (PGrid out) =
    Ok (PGrid (fov_get_atoms_in_bounds (mkfov ll ur) gr 0)) /\
  material_frame_to_microscope_frame (mkfov ll ur)
    (PGrid (fov_get_atoms_in_bounds (mkfov ll ur) gr 0)) = Ok (PGrid out).
Proof.
  intros m gr ll ur out X Y H1 H2 W E.
  assert (Eo : out = grid_get_atoms_in_bounds gr ll ur).
  { unfold get_atoms_in_bounds, reset_grid in E. rewrite H1, H2 in E. simpl in E. congruence. }
  subst out. split.
  - cbn [microscope_frame_to_material_frame]. do 2 f_equal. apply shows_back; auto.
    + split; auto.
    + apply shows_bounds; auto.
  - rewrite grid_bounds_fov. reflexivity.
Qed.
Print Assumptions material_view_converts_back.

Example material_view_nonvacuous :
  exists m gr out, m_reset m = true /\ m_grid m = Some gr /\ wf_grid gr /\
    get_atoms_in_bounds m (mkpt (-1/2) (-1)) (mkpt 2 1) = Ok out /\
    numbers out = [14%Z; 6%Z; 6%Z] /\ proper (mkfov (mkpt (-1/2) (-1)) (mkpt 2 1)) /\
    positions out = [mkpt (1/5) (1/2); mkpt (3/5) (1/2); mkpt (1/5) 1].
Proof.
  exists (ex_material (fun _ _ => Ok [])), ex_flake. eexists.
  split; [reflexivity|]. split; [reflexivity|]. split; [reflexivity|]. split; [reflexivity|].
  unfold grid_get_atoms_in_bounds, proper. simpl. unfold in_box; simpl.
  repeat match goal with
  | |- context [Rleb ?a ?b] =>
      (replace (Rleb a b) with true by (symmetry; apply Rleb_true; lra)) ||
      (replace (Rleb a b) with false by (symmetry; apply Rleb_false; lra))
  end. simpl.
  split; [reflexivity|]. split; [split; lra|].
  repeat f_equal; unfold pdiv, psub; simpl; apply pt_eq; simpl; lra.
Qed.

(** ** C08: reset *)
Theorem reset_material : forall {G} (s : sampler G) m g, sampler_ok s -> (2 <= m_columns m)%nat ->
  exists gr i m' g', material_reset s m g = (Ok tt, m', g') /\
    m_reset m' = true /\ m_grid m' = Some gr /\
    m_columns m' = m_columns m /\ m_rate_function m' = m_rate_function m /\
    graphene_sheet (m_columns m) (positions gr) /\
    single_doped gr i /\
    (forall j p q, nth_error (positions gr) i = Some p -> nth_error (positions gr) j = Some q ->
       pdist p pzero <= pdist q pzero /\ ((j < i)%nat -> pdist p pzero < pdist q pzero)) /\
    (forall p, nth_error (positions gr) i = Some p -> get_silicon_position m' = Ok [px p; py p]).
Proof.
  intros G s m g O C.
  destruct (reset_ok s m g O C) as (ps & i & gr & m' & g' & E & E1 & E2 & E3 & E4 & E5 & Sh & D & Near).
  subst ps. exists gr, i, m', g'. split; [exact E|]. do 4 (split; [assumption|]).
  split; [apply sheet_of_graphene; auto|]. split; [exact D|]. split.
  - intros j p q Hp Hq. specialize (Near j p q Hp Hq).
    assert (Z : forall x, pdist x pzero = pnorm x).
    { intros x. unfold pdist. f_equal. apply pt_eq; simpl; ring. }
    rewrite !Z. exact Near.
  - intros p Hp. unfold get_silicon_position, reset_grid. rewrite E3, E4. simpl.
    rewrite (silicon_positions_single gr i p D Hp). reflexivity.
Qed.
Print Assumptions reset_material.

(** a sheet of at most one column has no atoms and reset raises; what remains
    counts as reset but keeps its old grid, if any *)
Theorem reset_without_atoms : forall {G} (s : sampler G) m g, (m_columns m <= 1)%nat ->
  exists m' g', material_reset s m g = (Raise ValueError, m', g') /\
    m_reset m' = true /\ m_grid m' = m_grid m.
Proof. intros; apply reset_fails; auto. Qed.
Print Assumptions reset_without_atoms.

Example reset_nonvacuous : exists s : sampler nat, sampler_ok s /\
  exists m, (2 <= m_columns m)%nat /\ m_reset m = false /\ exists m' g', material_reset s m 0%nat = (Ok tt, m', g').
Proof.
  exists (ex_sampler 1). split; [apply ex_sampler_ok; lra|].
  exists (new_material (fun _ _ => Ok []) 50). split; [simpl; lia|]. split; [reflexivity|].
  destruct (reset_material (ex_sampler 1) (new_material (fun _ _ => Ok []) 50) 0%nat) as (gr & i & m' & g' & E & _);
    [apply ex_sampler_ok; lra|simpl; lia|eauto].
Qed.

(** ** C09: exposures conserve the lattice and the single dopant *)
Theorem shipped_rate_functions_hop : forall knn, knn_ok knn ->
  (forall fn, hopping (pristine_rate_predictor knn fn)) /\
  (forall mix, hopping (gmm_rate_function knn mix)).
Proof. intros knn K; split; intros; [apply pristine_hopping|apply gmm_hopping]; auto. Qed.
Print Assumptions shipped_rate_functions_hop.

Theorem exposures_conserve_sheet : forall {G} (s : sampler G) m0 g0 m1 g1 gr1 m2,
  sampler_ok s -> hopping (m_rate_function m0) ->
  material_reset s m0 g0 = (Ok tt, m1, g1) -> m_grid m1 = Some gr1 ->
  exposed s m1 m2 ->
  exists gr2, m_reset m2 = true /\ m_grid m2 = Some gr2 /\
    positions gr2 = positions gr1 /\ (exists i, single_doped gr2 i) /\
    count_number 14 gr2 = 1%nat /\
    count_number 6 gr2 = (length (positions gr2) - 1)%nat /\
    m_rate_function m2 = m_rate_function m0 /\ m_columns m2 = m_columns m0.
Proof.
  intros G s m0 g0 m1 g1 gr1 m2 O H E Eg X.
  destruct (le_lt_dec 2 (m_columns m0)) as [C|C].
  2:{ destruct (reset_fails s m0 g0) as (m' & g' & E' & _); [lia|]. rewrite E' in E. discriminate. }
  destruct (reset_ok s m0 g0 O C) as (ps & i & gr & m' & g' & E' & E1 & E2 & E3 & E4 & E5 & Sh & D & _).
  rewrite E in E'. injection E' as <- <-. rewrite Eg in E4. injection E4 as <-.
  destruct (exposed_doped s m1 m2 ps gr1 X) as (gr2 & H1 & H2 & H3 & H4 & (H5 & k & Dk)); auto.
  - rewrite E2. exact H.
  - eapply sheet_of_NoDup; eauto.
  - split; eauto.
  - exists gr2. rewrite H1, H2. repeat split; auto; try congruence; try (exists k; exact Dk).
    + apply (count_doped gr2 k Dk).
    + apply (count_doped gr2 k Dk).
Qed.
Print Assumptions exposures_conserve_sheet.

Example exposures_conserve_nonvacuous : exists (s : sampler nat) m0 m1 g1 gr1 m2,
  sampler_ok s /\ hopping (m_rate_function m0) /\
  material_reset s m0 0%nat = (Ok tt, m1, g1) /\ m_grid m1 = Some gr1 /\ exposed s m1 m2.
Proof.
  exists (ex_sampler 1), (new_material (pristine_rate_predictor knn_sort human_prior_default) 50).
  destruct (reset_material (ex_sampler 1) (new_material (pristine_rate_predictor knn_sort human_prior_default) 50) 0%nat) as (gr & i & m' & g' & E & E1 & E2 & _);
    [apply ex_sampler_ok; lra|simpl; lia|].
  exists m', g', gr.
  destruct (apply_control (ex_sampler 1) 5 m' (mkcontrol (mkpt 1 1) 3000000%Z None None) g') as [[[r m2] g2] ts] eqn:Ea.
  exists m2. split; [apply ex_sampler_ok; lra|].
  split; [apply pristine_hopping, knn_sort_ok|]. split; [exact E|]. split; [exact E2|].
  eapply exposed_more; [apply exposed_none|exact Ea].
Qed.

(** ** C10: the silicon hops to one of its three nearest neighbours *)
Theorem exposure_is_chain_of_hops : forall {G} (s : sampler G) fuel m c g gr i r m' g' ts,
  hopping (m_rate_function m) ->
  m_reset m = true -> m_grid m = Some gr -> single_doped gr i -> NoDup (positions gr) ->
  apply_control s fuel m c g = (r, m', g', ts) ->
  chain hop gr (map snd ts) /\ m_grid m' = Some (last (map snd ts) gr) /\
  (ts = [] -> m' = m).
Proof.
  intros G s fuel m c g gr i r m' g' ts H Hr Hg D N E.
  destruct (apply_control_hops s fuel m c g (positions gr) gr r m' g' ts H N Hr Hg) as
    (gr' & E1 & E2 & E3 & E4 & _ & Ch & L); auto.
  { split; eauto. }
  split; [exact Ch|]. split; [congruence|]. intros ->. simpl in L. subst gr'.
  destruct m, m'; simpl in *; congruence.
Qed.
Print Assumptions exposure_is_chain_of_hops.

Theorem hop_moves_silicon : forall g g', hop g g' ->
  exists s s' p p', single_doped g s /\ single_doped g' s' /\ s <> s' /\
    nth_error (positions g) s = Some p /\ nth_error (positions g) s' = Some p' /\
    get_single_silicon_position g = Ok p /\ get_single_silicon_position g' = Ok p' /\
    exists near, length near = 3%nat /\ In s' near /\
      forall j q, nth_error (positions g) j = Some q -> pdist q p < pdist p' p -> j = s \/ In j near.
Proof.
  intros g g' (Ep & s & s' & idx & D & D' & T & I).
  destruct (single_doped_pos g s D) as (p & Hp). destruct (single_doped_pos g' s' D') as (p' & Hp').
  assert (Hpp : nth_error (positions g) s' = Some p') by (rewrite <- Ep; exact Hp').
  exists s, s', p, p'. split; [exact D|]. split; [exact D'|].
  split; [intros ->; apply (tn_other _ _ _ T I)|]. split; [exact Hp|]. split; [exact Hpp|].
  split; [eapply single_silicon_single; eauto|]. split; [eapply single_silicon_single; eauto|].
  exists idx. split; [apply T|]. split; [exact I|].
  intros j q Hq Hlt. destruct (Nat.eq_dec j s) as [|Ns]; [auto|]. right.
  destruct (in_dec Nat.eq_dec j idx) as [|Nj]; [auto|exfalso].
  pose proof (tn_nearest _ _ _ T s' j p' q p Hp I Nj Ns Hpp Hq). lra.
Qed.
Print Assumptions hop_moves_silicon.

Lemma ex_flake_rates_ok : well_behaved (pristine_rate_predictor knn_sort simple_canonical_rate_function)
  (mkpt 0 0) (doped_sheet (positions ex_flake)).
Proof.
  apply pristine_well_behaved; [apply knn_sort_ok|apply ex_flake_NoDup|simpl; lia|].
  intros g si idx Hl Hi. eapply simple_nonneg; eauto.
Qed.
Lemma ex_flake_positive : forall g rs, doped_sheet (positions ex_flake) g ->
  pristine_rate_predictor knn_sort simple_canonical_rate_function g (mkpt 0 0) = Ok rs -> 0 < total_rate rs.
Proof.
  apply simple_positive; [apply knn_sort_ok|apply ex_flake_NoDup|].
  intros p Hp. simpl in Hp.
  repeat (destruct Hp as [<-|Hp]; [apply pdist_le_sq; [lra|unfold psq; simpl; lra]|]). destruct Hp.
Qed.

(** an exposure of the flake during which the silicon hops *)
Example exposure_hops_nonvacuous : exists (s : sampler nat) fuel m c gr m' g' ts,
  sampler_ok s /\ hopping (m_rate_function m) /\ m_reset m = true /\ m_grid m = Some gr /\
  single_doped gr 0 /\ NoDup (positions gr) /\
  apply_control s fuel m c 0%nat = (Ok tt, m', g', ts) /\ ts <> [].
Proof.
  set (rf := pristine_rate_predictor knn_sort simple_canonical_rate_function).
  set (dwell := 500%Z).
  assert (Fu : exists fuel, (dwell <= 0 + Z.of_nat (S fuel))%Z).
  { exists (Z.to_nat dwell). unfold dwell. lia. }
  destruct Fu as (fuel & Fu).
  assert (O : sampler_ok (ex_sampler (500 / 1000000))) by (apply ex_sampler_ok; lra).
  assert (R : e_result (exposure_loop (ex_sampler (500 / 1000000)) (S fuel) rf (mkpt 0 0) dwell 0%Z ex_flake 0%nat) = Ok tt).
  { destruct (loop_safe (ex_sampler (500 / 1000000)) rf (mkpt 0 0) _ dwell O ex_flake_rates_ok ltac:(unfold dwell; lia)
      (S fuel) 0%Z ex_flake 0%nat ltac:(lia) ex_flake_sheet) as [[R|R] _]; [exact R|exfalso; revert R].
    apply loop_terminates; [intros; simpl; lra| |exact Fu].
    intros g. apply pristine_not_fuel. intros; apply simple_not_fuel. }
  assert (T : e_transitions (exposure_loop (ex_sampler (500 / 1000000)) (S fuel) rf (mkpt 0 0) dwell 0%Z ex_flake 0%nat) <> []).
  { apply (loop_first_hop _ rf (mkpt 0 0) (doped_sheet (positions ex_flake)) dwell O ex_flake_rates_ok ex_flake_positive).
    - intros sc g. cbn [ex_sampler s_exponential fst]. unfold waiting, dwell. rewrite Rmin_left by lra.
      replace (500 / 1000000 * 1000000) with (IZR 500) by lra. rewrite rhe_IZR. lia.
    - unfold dwell. lia.
    - apply ex_flake_sheet. }
  exists (ex_sampler (500 / 1000000)), (S fuel), (ex_material rf), (mkcontrol (mkpt 0 0) dwell None None), ex_flake.
  unfold apply_control. cbn [ex_material reset_grid m_reset m_grid m_rate_function c_position c_dwell].
  rewrite R. do 3 eexists. split; [exact O|].
  split; [apply pristine_hopping, knn_sort_ok|]. split; [reflexivity|]. split; [reflexivity|].
  split; [apply ex_flake_doped|]. split; [apply ex_flake_NoDup|]. split; [reflexivity|exact T].
Qed.

(** ** C11: times of the reported transitions *)
Theorem transition_times : forall {G} (s : sampler G) fuel m c g r m' g' ts, sampler_ok s ->
  apply_control s fuel m c g = (r, m', g', ts) ->
  StronglySorted Z.le (map fst ts) /\
  Forall (fun t => 0 <= t <= c_dwell c)%Z (map fst ts).
Proof.
  intros G s fuel m c g r m' g' ts O E. unfold apply_control in E.
  destruct (reset_grid m) as [gr| |]; injection E as <- <- <- <-;
    [apply (loop_times s fuel (m_rate_function m) (c_position c) (c_dwell c) O 0%Z gr g)| |];
    split; constructor.
Qed.
Print Assumptions transition_times.

Theorem last_transition_is_final_material : forall {G} (s : sampler G) fuel m c g gr r m' g' ts,
  m_reset m = true -> m_grid m = Some gr ->
  apply_control s fuel m c g = (r, m', g', ts) ->
  m_grid m' = Some (last (map snd ts) gr).
Proof.
  intros G s fuel m c g gr r m' g' ts Hr Hg E. unfold apply_control, reset_grid in E.
  rewrite Hr, Hg in E. injection E as <- <- <- <-. simpl. f_equal.
  apply loop_chain.
Qed.
Print Assumptions last_transition_is_final_material.

Theorem no_dwell_no_effect : forall {G} (s : sampler G) fuel m c g gr,
  m_reset m = true -> m_grid m = Some gr -> (c_dwell c <= 0)%Z ->
  apply_control s fuel m c g = (Ok tt, m, g, []).
Proof.
  intros G s fuel m c g gr Hr Hg Hd. unfold apply_control, reset_grid. rewrite Hr, Hg.
  assert (X : exposure_loop s fuel (m_rate_function m) (c_position c) (c_dwell c) 0%Z gr g = mkexposure (Ok tt) gr g []).
  { destruct fuel; cbn [exposure_loop]; rewrite (proj2 (Z.ltb_ge 0 (c_dwell c))) by exact Hd; reflexivity. }
  rewrite X. simpl. unfold set_grid. rewrite <- Hg. destruct m; reflexivity.
Qed.
Print Assumptions no_dwell_no_effect.

(** ** C12: termination.  [fuel] bounds the number of iterations of the loop *)
Theorem exposure_terminates : forall {G} (s : sampler G) fuel m c g,
  (forall sc g, / 2000000 < fst (s_exponential s sc g)) ->
  (forall gr, m_rate_function m gr (c_position c) <> OutOfFuel) ->
  (c_dwell c <= Z.of_nat fuel)%Z ->
  forall r m' g' ts, apply_control s fuel m c g = (r, m', g', ts) -> r <> OutOfFuel.
Proof.
  intros G s fuel m c g Hd Hf L r m' g' ts E. unfold apply_control, reset_grid in E.
  destruct (m_reset m); [destruct (m_grid m) as [gr|]|]; injection E as <- <- <- <-; try discriminate.
  apply loop_terminates; auto.
Qed.
Print Assumptions exposure_terminates.

(** while the rates stay positive, draws of at most half a microsecond make
    the loop run for ever: it is unfinished after any number of iterations *)
Theorem exposure_diverges : forall {G} (s : sampler G) m c g gr ps,
  sampler_ok s -> m_reset m = true -> m_grid m = Some gr -> doped_sheet ps gr ->
  well_behaved (m_rate_function m) (c_position c) (doped_sheet ps) ->
  (forall gr' rs, doped_sheet ps gr' -> m_rate_function m gr' (c_position c) = Ok rs -> 0 < total_rate rs) ->
  (forall sc g, fst (s_exponential s sc g) <= / 2000000) -> (0 < c_dwell c)%Z ->
  forall fuel, fst (fst (fst (apply_control s fuel m c g))) = OutOfFuel.
Proof.
  intros G s m c g gr ps O Hr Hg D WB Pos Dr Dw fuel. unfold apply_control, reset_grid. rewrite Hr, Hg. simpl.
  apply (loop_diverges s (m_rate_function m) (c_position c) (doped_sheet ps)); auto.
Qed.
Print Assumptions exposure_diverges.

Example exposure_terminates_nonvacuous :
  (forall sc g, / 2000000 < fst (s_exponential (ex_sampler (1/1000)) sc g)) /\
  forall gr, pristine_rate_predictor knn_sort simple_canonical_rate_function gr pzero <> OutOfFuel.
Proof.
  split; [intros; simpl; lra|]. intros. apply pristine_not_fuel. intros; apply simple_not_fuel.
Qed.
Example exposure_diverges_nonvacuous : forall fuel,
  fst (fst (fst (apply_control (ex_sampler 0) fuel
    (ex_material (pristine_rate_predictor knn_sort simple_canonical_rate_function))
    (mkcontrol (mkpt 0 0) 1%Z None None) 0%nat))) = OutOfFuel.
Proof.
  intros fuel. eapply (exposure_diverges (ex_sampler 0)) with (gr := ex_flake) (ps := positions ex_flake);
    try reflexivity.
  - apply ex_sampler_ok; lra.
  - apply ex_flake_sheet.
  - apply ex_flake_rates_ok.
  - apply ex_flake_positive.
  - intros; simpl; lra.
Qed.

(** ** C13, material part: use before reset *)
Theorem material_use_before_reset : forall {G} (s : sampler G) m, m_reset m = false ->
  (forall ll ur, get_atoms_in_bounds m ll ur = Raise RuntimeError) /\
  (forall fuel c g, apply_control s fuel m c g = (Raise RuntimeError, m, g, [])) /\
  get_silicon_position m = Raise RuntimeError.
Proof.
  intros G s m H. unfold get_atoms_in_bounds, apply_control, get_silicon_position, reset_grid. rewrite H.
  repeat split.
Qed.
Print Assumptions material_use_before_reset.

Theorem new_material_not_reset : forall rf n, m_reset (new_material rf n) = false /\
  m_grid (new_material rf n) = None /\ m_columns (new_material rf n) = n /\
  m_rate_function (new_material rf n) = rf.
Proof. repeat split. Qed.
Print Assumptions new_material_not_reset.

Theorem material_use_after_reset : forall {G} (s : sampler G) m gr, m_reset m = true -> m_grid m = Some gr ->
  (forall ll ur, exists out, get_atoms_in_bounds m ll ur = Ok out) /\
  (exists l, get_silicon_position m = Ok l) /\
  (forall fuel c g, (forall gr', m_rate_function m gr' (c_position c) <> Raise RuntimeError) ->
     fst (fst (fst (apply_control s fuel m c g))) <> Raise RuntimeError).
Proof.
  intros G s m gr Hr Hg. unfold get_atoms_in_bounds, apply_control, get_silicon_position, reset_grid. rewrite Hr, Hg.
  split; [eexists; reflexivity|]. split; [eexists; reflexivity|].
  intros fuel c g H. simpl. apply loop_not_runtime. exact H.
Qed.
Print Assumptions material_use_after_reset.

(** ** C19: the lattice *)
Theorem sheet_atoms : forall n p, In p (generate_hexagonal_grid n) <->
  exists x y, p = site x y /\ on_sheet n x y.
Proof. exact sheet_In. Qed.
Print Assumptions sheet_atoms.

Theorem sheet_spacing : forall n,
  NoDup (generate_hexagonal_grid n) /\
  forall p q, In p (generate_hexagonal_grid n) -> In q (generate_hexagonal_grid n) -> p <> q -> 1 <= pdist p q.
Proof. split; [apply sheet_NoDup|apply sheet_separated]. Qed.
Print Assumptions sheet_spacing.

Theorem sheet_interior_atoms : forall n p, In p (generate_hexagonal_grid n) ->
  1 <= px p -> px p + 3 / 2 <= INR n -> sqrt 3 / 2 <= py p -> py p + sqrt 3 <= INR n ->
  three_at (generate_hexagonal_grid n) 1 p.
Proof. exact sheet_three_neighbours. Qed.
Print Assumptions sheet_interior_atoms.

Theorem sheet_complete_atoms : forall n x y, on_sheet n x y ->
  (forall x' y', honeycomb x' y' -> pdist (site x y) (site x' y') = 1 -> on_sheet n x' y') ->
  three_at (generate_hexagonal_grid n) 1 (site x y).
Proof. exact on_sheet_interior. Qed.
Print Assumptions sheet_complete_atoms.

Theorem generated_sheet : forall {G} (s : sampler G) n g, sampler_ok s -> (2 <= n)%nat ->
  graphene_sheet n (fst (generate_pristine_graphene s n g)).
Proof.
  intros G s n g O L. apply sheet_of_graphene.
  destruct (generate_spec s n g O) as (o & a & H1 & H2 & H3 & E).
  do 3 eexists. split; [exact H1|]. split; [exact H2|]. split; [exact H3|]. split; [|exact E].
  rewrite E. apply sheet_centroid. intros X. apply sheet_empty in X. lia.
Qed.
Print Assumptions generated_sheet.

(** and its three random numbers are drawn from these whole ranges: the sheet
    with its centroid at the origin is shifted by the first two, then turned by
    the third *)
Theorem generated_sheet_drawn : forall {G} (s : sampler G) n g,
  exists sites, NoDup sites /\ (forall p, In p sites <-> exists x y, p = site x y /\ on_sheet n x y) /\
  let '(x, g1) := s_uniform s (- (71 / 100)) (71 / 100) g in
  let '(y, g2) := s_uniform s (- (71 / 100)) (71 / 100) g1 in
  let '(a, g3) := s_uniform s 0 (2 * PI) g2 in
  generate_pristine_graphene s n g =
    (map (fun p => turned a (padd (pscale (142 / 100) (psub p (pmean sites))) (mkpt x y))) sites, g3).
Proof.
  intros G s n g. exists (generate_hexagonal_grid n).
  split; [apply sheet_spacing|]. split; [apply sheet_atoms|].
  unfold generate_pristine_graphene.
  replace (CARBON_BOND_DISTANCE_ANGSTROMS / 2) with (71 / 100) by (unfold CARBON_BOND_DISTANCE_ANGSTROMS; lra).
  cbv zeta. destruct (s_uniform s _ _ g) as [x g1]. destruct (s_uniform s _ _ g1) as [y g2].
  destruct (s_uniform s _ _ g2) as [a g3]. f_equal. unfold centered. rewrite !map_map. apply map_ext. intros p.
  assert (E : pmean (map (pscale CARBON_BOND_DISTANCE_ANGSTROMS) (generate_hexagonal_grid n)) =
              pscale CARBON_BOND_DISTANCE_ANGSTROMS (pmean (generate_hexagonal_grid n))).
  { apply pmean_map_linear; intros; apply pt_eq; simpl; ring. }
  rewrite E. unfold CARBON_BOND_DISTANCE_ANGSTROMS. apply pt_eq; simpl; ring.
Qed.
Print Assumptions generated_sheet_drawn.

Theorem graphene_sheet_spacing : forall n ps, graphene_sheet n ps ->
  NoDup ps /\ (forall p q, In p ps -> In q ps -> p <> q -> 142 / 100 <= pdist p q).
Proof. intros n ps H. split; [eapply graphene_NoDup; eauto|intros; eapply graphene_spacing; eauto]. Qed.
Print Assumptions graphene_sheet_spacing.

Example sheet_interior_nonvacuous : In (site 5 1) (generate_hexagonal_grid 4) /\
  1 <= px (site 5 1) /\ px (site 5 1) + 3 / 2 <= INR 4 /\ sqrt 3 / 2 <= py (site 5 1) /\ py (site 5 1) + sqrt 3 <= INR 4.
Proof.
  pose proof sqrt3_sq. pose proof sqrt3_pos. assert (sqrt 3 <= 2) by nra. simpl.
  split; [apply sheet_In; exists 5%Z, 1%Z; split; [reflexivity|]|repeat split; lra].
  split; [split; [reflexivity|discriminate]|]. split; [lia|]. split; [lia|]. simpl. lra.
Qed.

(** ** C76: an exposure is a run of competing exponential clocks *)
Theorem exposure_runs_clocks : forall {G} (s : sampler G) fuel m c g gr m' g' ds ts,
  m_reset m = true -> m_grid m = Some gr ->
  apply_control (recording s) fuel m c (g, []) = (Ok tt, m', (g', ds), ts) ->
  exists gr', m_grid m' = Some gr' /\
    clocks (fun gr rs => m_rate_function m gr (c_position c) = Ok rs) (c_dwell c) 0%Z gr ds ts gr'.
Proof.
  intros G s fuel m c g gr m' g' ds ts Hr Hg E. unfold apply_control, reset_grid in E. rewrite Hr, Hg in E.
  injection E as E1 E2 E3 E4.
  destruct (loop_clocks s fuel (m_rate_function m) (c_position c) (c_dwell c) 0%Z gr g [] E1) as (ds' & g'' & E5 & C).
  rewrite E3 in E5. injection E5 as <- <-. rewrite E4 in C. eexists. split; [|exact C].
  rewrite <- E2. reflexivity.
Qed.
Print Assumptions exposure_runs_clocks.

(** recording changes nothing else *)
Theorem recording_is_transparent : forall {G} (s : sampler G) fuel m c g l,
  let '(r, m', (g', _), ts) := apply_control (recording s) fuel m c (g, l) in
  apply_control s fuel m c g = (r, m', g', ts).
Proof.
  intros G s fuel m c g l. unfold apply_control. destruct (reset_grid m) as [gr| |]; auto.
  destruct (recording_loop s fuel (m_rate_function m) (c_position c) (c_dwell c) 0%Z gr g l) as (H1 & H2 & H3 & H4).
  destruct (e_rng (exposure_loop (recording s) fuel (m_rate_function m) (c_position c) (c_dwell c) 0%Z gr (g, l))) as [g' l'].
  simpl in H3. congruence.
Qed.
Print Assumptions recording_is_transparent.

(** with the two shipped canonical rate functions, exposures shorter than an
    hour never raise, on any sheet with distinct positions and four atoms *)
Theorem short_exposures_never_raise : forall {G} (s : sampler G) knn fn fuel m c g gr i,
  sampler_ok s -> knn_ok knn -> fn = simple_canonical_rate_function \/ fn = human_prior_default ->
  m_rate_function m = pristine_rate_predictor knn fn ->
  m_reset m = true -> m_grid m = Some gr -> single_doped gr i -> NoDup (positions gr) ->
  (4 <= length (positions gr))%nat -> (c_dwell c < 3600000000)%Z ->
  forall r m' g' ts, apply_control s fuel m c g = (r, m', g', ts) -> r = Ok tt \/ r = OutOfFuel.
Proof.
  intros G s knn fn fuel m c g gr i O K Fn Erf Hr Hg D N L Dw r m' g' ts E.
  unfold apply_control, reset_grid in E. rewrite Hr, Hg in E. injection E as <- _ _ _.
  apply (loop_safe s (m_rate_function m) (c_position c) (doped_sheet (positions gr))); auto; try lia.
  - rewrite Erf. apply pristine_well_behaved; auto. intros g0 si idx Hl Hi.
    destruct Fn as [->| ->]; [eapply simple_nonneg|eapply human_prior_nonneg]; eauto.
  - split; eauto.
Qed.
Print Assumptions short_exposures_never_raise.

(** if all rates are zero nothing happens, unless the dwell time is an hour or
    more: then the probabilities are undefined and the call raises *)
Theorem zero_rates : forall {G} (s : sampler G) fuel m c g gr rs,
  m_reset m = true -> m_grid m = Some gr ->
  m_rate_function m gr (c_position c) = Ok rs -> rs <> [] -> rsum (map snd rs) = 0 ->
  (0 < c_dwell c)%Z -> exists g',
  apply_control s (S fuel) m c g =
    (if (c_dwell c <? 3600000000)%Z then Ok tt else Raise ValueError, m, g', []).
Proof.
  intros G s fuel m c g gr rs Hr Hg Er Nn Z Dw. unfold apply_control, reset_grid. rewrite Hr, Hg.
  destruct (loop_zero s (m_rate_function m) (c_position c) (c_dwell c) fuel gr g rs Er Nn Z Dw) as (H1 & H2 & H3).
  rewrite H1, H2, H3. eexists. unfold set_grid. rewrite <- Hg. destruct m; reflexivity.
Qed.
Print Assumptions zero_rates.

Example zero_rates_nonvacuous : exists (s : sampler nat) m c,
  sampler_ok s /\ fst (fst (fst (apply_control s 1 m c 0%nat))) = Raise ValueError.
Proof.
  exists (ex_sampler 1), (ex_material (fun g _ => Ok [(g, 0)])), (mkcontrol pzero 3600000000%Z None None).
  split; [apply ex_sampler_ok; lra|].
  destruct (zero_rates (ex_sampler 1) 0 (ex_material (fun g _ => Ok [(g, 0)])) (mkcontrol pzero 3600000000%Z None None) 0%nat ex_flake [(ex_flake, 0)]) as (g' & E);
    try reflexivity; try discriminate; [simpl; lra|rewrite E; reflexivity].
Qed.

(** ** C77: the canonical sheet *)
Theorem canonical_sheet : forall n, (2 <= n)%nat ->
  exists gr i sites c, canonical_pristine_graphene n = Ok gr /\ single_doped gr i /\
    nth_error (positions gr) i = Some pzero /\
    NoDup sites /\ (forall p, In p sites <-> exists x y, p = site x y /\ on_sheet n x y) /\
    In c sites /\ positions gr = map (fun p => pscale (142/100) (psub p c)) sites /\
    (forall q, In q (positions gr) -> pdist pzero (pmean (positions gr)) <= pdist q (pmean (positions gr))).
Proof. exact canonical_ok. Qed.
Print Assumptions canonical_sheet.

Theorem canonical_sheet_fails : forall n, (n <= 1)%nat -> canonical_pristine_graphene n = Raise ValueError.
Proof. exact canonical_fails. Qed.
Print Assumptions canonical_sheet_fails.
