(** Properties C14-C17, C75, C78: rate functions. *)
From Coq Require Import Reals ZArith List Bool Lia Lra Arith.
From Flocq Require Import Core.
From Verif Require Import Base.Prelude Base.Matrix Base.Rounding Base.Random Model.Constants Model.Geometry
  Model.MicroscopeUtils Model.Graphene
  Spec.Grids Spec.Neighbours Spec.Material Spec.MaterialRuns
  Proofs.BaseFacts Proofs.RoundingFacts Proofs.FovFacts Proofs.GeometryFacts Proofs.NeighbourFacts
  Proofs.MaterialFacts Proofs.RateFacts Proofs.GaussianFacts Proofs.SheetFacts Proofs.CanonicalFacts
  Props.MaterialProps.
Import ListNotations.
Open Scope R_scope.

(** ** C14 *)
Theorem simple_rate_values : forall g beam si idx,
  (forall i, In i idx -> (i < length (positions g))%nat) ->
  exists rs, simple_canonical_rate_function g beam si idx = Ok rs /\ length rs = length idx /\
    forall k r i p, nth_error rs k = Some r -> nth_error idx k = Some i -> nth_error (positions g) i = Some p ->
      r = 1 / ((4 * (pdist beam p / (142/100))) ^ 2 + 1) /\ 0 < r <= 1 /\ (r = 1 <-> beam = p).
Proof.
  intros g beam si idx H. destruct (simple_canonical_ok g beam si idx H) as (rs & E & L & Hk).
  exists rs. split; [exact E|]. split; [exact L|]. intros k r i p Hr Hi Hp.
  destruct (Hk k r Hr) as (i' & p' & Hi' & Hp' & ->). assert (i' = i) by congruence. subst i'.
  assert (p' = p) by congruence. subst p'.
  split; [apply simple_rate_dist|]. split; [apply simple_rate_range|apply simple_rate_one].
Qed.
Print Assumptions simple_rate_values.

Theorem simple_rate_errors : forall g beam si idx e,
  simple_canonical_rate_function g beam si idx = Raise e <->
  e = IndexError /\ ~ (forall i, In i idx -> (i < length (positions g))%nat).
Proof.
  intros g beam si idx e. split.
  - intros E. destruct (take_idx (positions g) idx) as [l|] eqn:T.
    + unfold simple_canonical_rate_function, positions_at in E. rewrite T in E. discriminate.
    + split.
      * unfold simple_canonical_rate_function, positions_at in E. rewrite T in E. simpl in E. congruence.
      * intros H. destruct (simple_canonical_ok g beam si idx H) as (rs & E' & _). congruence.
  - intros [-> N]. unfold simple_canonical_rate_function. rewrite positions_at_oob by exact N. reflexivity.
Qed.
Print Assumptions simple_rate_errors.

(** the rate of a neighbour decreases strictly with its distance to the beam,
    whatever the silicon positions *)
Theorem simple_rate_order : forall beam si nb beam' si' nb',
  pdist beam nb < pdist beam' nb' <-> simple_rate beam' si' nb' < simple_rate beam si nb.
Proof. exact simple_rate_decreasing. Qed.
Print Assumptions simple_rate_order.

Theorem simple_rate_translation : forall g beam si idx si' d,
  simple_canonical_rate_function
    (mkgrid (map (translated d) (positions g)) (numbers g)) (translated d beam) si' idx =
  simple_canonical_rate_function g beam si idx.
Proof.
  intros g beam si idx si' d. unfold simple_canonical_rate_function, positions_at; simpl.
  assert (T : take_idx (map (translated d) (positions g)) idx = option_map (map (translated d)) (take_idx (positions g) idx)).
  { induction idx as [|i idx IH]; [reflexivity|]. simpl. rewrite IH, nth_error_map.
    destruct (nth_error (positions g) i), (take_idx (positions g) idx); reflexivity. }
  rewrite T. destruct (take_idx (positions g) idx) as [l|]; [|reflexivity]. simpl. f_equal.
  rewrite map_map. apply map_ext. intros p. rewrite !simple_rate_dist.
  replace (pdist (translated d beam) (translated d p)) with (pdist beam p); [reflexivity|].
  unfold pdist. f_equal. apply pt_eq; simpl; ring.
Qed.
Print Assumptions simple_rate_translation.

Example simple_rate_nonvacuous :
  exists rs, simple_canonical_rate_function ex_flake (mkpt 1 0) (mkpt 0 0) [1%nat; 2%nat] = Ok rs /\
    exists r1 r2, rs = [r1; r2] /\ r2 < r1 /\ r1 = 1.
Proof.
  eexists; split; [reflexivity|]. do 2 eexists; split; [reflexivity|]. split.
  - apply simple_rate_order. rewrite pdist_self. apply pdist_pos. intros X. injection X; intros; lra.
  - apply simple_rate_one. reflexivity.
Qed.

(** ** C15 *)
Theorem predictor_results : forall knn fn g beam s si,
  knn_ok knn -> single_doped g s -> NoDup (positions g) -> nth_error (positions g) s = Some si ->
  (4 <= length (positions g))%nat ->
  exists idx, three_nearest (positions g) s idx /\
    (forall preds, fn g beam si idx = Ok preds ->
       ((length preds = 3%nat /\ Forall (fun x => 0 <= f32 x) preds ->
         exists rs, pristine_rate_predictor knn fn g beam = Ok rs /\ rates_for g idx preds rs /\
           total_rate rs = rsum (map f32 preds)) /\
        (length preds <> 3%nat \/ ~ Forall (fun x => 0 <= f32 x) preds ->
         pristine_rate_predictor knn fn g beam = Raise AssertionError))) /\
    (forall e, fn g beam si idx = Raise e -> pristine_rate_predictor knn fn g beam = Raise e).
Proof.
  intros knn fn g beam s si K D N Hs L.
  destruct (pristine_general knn fn g beam s si K D N Hs L) as (idx & T & H1 & H2).
  exists idx. split; [exact T|]. split; [|exact H2]. intros preds Hp. destruct (H1 preds Hp) as [A B].
  split; [|exact B]. intros C. destruct (A C) as (rs & E & F). exists rs. split; [exact E|]. split; [exact F|].
  apply (rates_for_total g idx); auto. destruct C as [C _]. rewrite C. symmetry. apply T.
Qed.
Print Assumptions predictor_results.

Theorem predictor_no_silicon : forall knn fn g beam, wf_grid g ->
  (forall si idx, fn g beam si idx <> Raise SiliconNotFoundError) ->
  (pristine_rate_predictor knn fn g beam = Raise SiliconNotFoundError <->
   ~ (exists p, In (p, 14%Z) (atoms g))).
Proof. exact pristine_silicon_iff. Qed.
Print Assumptions predictor_no_silicon.

Theorem predictor_too_few_atoms : forall knn fn g beam s, knn_ok knn -> single_doped g s -> NoDup (positions g) ->
  (length (positions g) < 4)%nat -> pristine_rate_predictor knn fn g beam = Raise ValueError.
Proof. exact pristine_few_atoms. Qed.
Print Assumptions predictor_too_few_atoms.

Example predictor_nonvacuous : single_doped ex_flake 0 /\ NoDup (positions ex_flake) /\
  (4 <= length (positions ex_flake))%nat /\
  exists rs, pristine_rate_predictor knn_sort simple_canonical_rate_function ex_flake (mkpt 0 0) = Ok rs /\ length rs = 3%nat.
Proof.
  split; [apply ex_flake_doped|]. split; [apply ex_flake_NoDup|]. split; [simpl; lia|].
  destruct (predictor_results knn_sort simple_canonical_rate_function ex_flake (mkpt 0 0) 0 (mkpt 0 0)
     knn_sort_ok ex_flake_doped ex_flake_NoDup eq_refl ltac:(simpl; lia)) as (idx & T & H & _).
  destruct (simple_nonneg ex_flake (mkpt 0 0) (mkpt 0 0) idx 4 eq_refl) as (preds & E & Lp & Np).
  { intros i Hi. destruct (tn_in _ _ _ T i Hi) as (p & Hp). apply nth_error_lt in Hp. exact Hp. }
  destruct (H preds E) as [A _]. destruct A as (rs & Er & (Lr & _) & _).
  - split; [rewrite Lp; apply T|]. rewrite Forall_forall in *. intros x Hx. apply f32_nonneg. apply Np. exact Hx.
  - exists rs. split; [exact Er|]. rewrite Lr. apply T.
Qed.

(** ** C16 *)
Theorem mixture_rates : forall knn m g beam s si,
  knn_ok knn -> single_doped g s -> NoDup (positions g) -> nth_error (positions g) s = Some si ->
  (4 <= length (positions g))%nat ->
  Forall valid_component (gmm_components m) ->
  (exists c, In c (gmm_components m) /\ 0 < mix_weight c) ->
  exists idx top rs, three_nearest (positions g) s idx /\
    In top (gmm_components m) /\ 0 < peak top /\
    (forall c, In c (gmm_components m) -> peak c <= peak top) /\
    gmm_rate_function knn m g beam = Ok rs /\ gmm_rates_for m g beam si idx top rs.
Proof. exact gmm_general. Qed.
Print Assumptions mixture_rates.

(** all weights zero: a division by zero *)
Theorem mixture_without_weight : forall knn m g beam s,
  knn_ok knn -> single_doped g s -> NoDup (positions g) -> (4 <= length (positions g))%nat ->
  gmm_components m <> [] -> (forall c, In c (gmm_components m) -> mix_weight c = 0) ->
  gmm_rate_function knn m g beam = Raise ZeroDivisionError.
Proof.
  intros knn m g beam s K D N L Nn Z. destruct (single_doped_pos g s D) as (si & Hs).
  destruct (neighbours_found knn g s si K D N Hs) as [_ H]. destruct (H L) as (idx & E & T & Hi).
  unfold gmm_rate_function. rewrite (single_silicon_single g s si D Hs). simpl. rewrite E. simpl.
  unfold positions_at. destruct (take_idx (positions g) idx) as [l|] eqn:Et.
  2:{ exfalso. destruct (take_idx_Some (positions g) idx) as (r & Hr & _); [|congruence].
      intros i Hii. destruct (tn_in _ _ _ T i Hii) as (p & Hp). eapply nth_error_lt; eauto. }
  simpl. destruct (gmm_components m) eqn:Ec; [congruence|]. rewrite normalizing_factor_zero; [reflexivity|].
  rewrite Ec. exact Z.
Qed.
Print Assumptions mixture_without_weight.

Theorem mixture_rate_bounds : forall m g beam si idx top rs g' r,
  gmm_rates_for m g beam si idx top rs -> In (g', r) rs ->
  Forall valid_component (gmm_components m) -> 0 < peak top -> 0 <= gmm_max_rate m ->
  (forall c, In c (gmm_components m) -> peak c <= peak top) ->
  0 <= r <= INR (length (gmm_components m)) * gmm_max_rate m.
Proof.
  intros m g beam si idx top rs g' r (Lr & H) Hin V Pt Mr Top.
  apply In_nth_error in Hin. destruct Hin as (k & Hk).
  destruct (H k g' r Hk) as (i & nb & Hi & Hn & Nd & _ & _ & ->).
  rewrite <- (gmm_rate_formula m top si nb beam V Pt Nd). apply gmm_rate_bounds; auto.
Qed.
Print Assumptions mixture_rate_bounds.

(** one component: the rate towards a neighbour is at most max_rate and equals
    it exactly when the beam is at the centre of the component *)
Theorem single_component_peak : forall c mr g beam si idx rs k g' r i nb,
  valid_component c -> 0 < mix_weight c -> 0 < mr ->
  gmm_rates_for (mkgmm mr [c]) g beam si idx c rs ->
  nth_error rs k = Some (g', r) -> nth_error idx k = Some i -> nth_error (positions g) i = Some nb ->
  0 < r <= mr /\
  (r = mr <-> beam = mkpt (px si + mix_loc c * (px nb - px si)) (py si + mix_loc c * (py nb - py si))).
Proof.
  intros c mr g beam si idx rs k g' r i nb V W M (Lr & H) Hk Hi Hn.
  destruct (H k g' r Hk) as (i' & nb' & Hi' & Hn' & Nd & _ & _ & Er). simpl in Er.
  assert (i' = i) by congruence. subst i'. assert (nb' = nb) by congruence. subst nb'.
  assert (Dn : psub nb si <> pzero).
  { intros X. apply Nd. injection X; intros. apply pt_eq; lra. }
  assert (Pc : 0 < peak c).
  { unfold peak. apply Rdiv_lt_0_compat; [exact W|]. destruct V as (_ & V1 & V2).
    apply Rmult_lt_0_compat; [pose proof PI_RGT_0; lra|]. apply sqrt_lt_R0. nra. }
  pose proof (bell_range si (psub nb si) beam c V) as Br.
  pose proof (bell_one si (psub nb si) beam c Dn V) as B1.
  replace (peak c / peak c) with 1 in Er by (field; lra).
  rewrite Rmult_1_l, Rplus_0_r in Er. subst r. split; [split; nra|].
  split; intros X.
  - apply B1. nra.
  - assert (bell si (psub nb si) beam c = 1) as -> by (apply B1; exact X). ring.
Qed.
Print Assumptions single_component_peak.

(** two equal components: max_rate is exceeded *)
Theorem mixture_max_rate_refuted : forall knn, knn_ok knn ->
  exists m g beam rs g' r, Forall valid_component (gmm_components m) /\
    rsum (map mix_weight (gmm_components m)) = 1 /\
    gmm_rate_function knn m g beam = Ok rs /\ In (g', r) rs /\ gmm_max_rate m < r.
Proof.
  intros knn K.
  set (c := mkmixture (1/2) (1/2) (1, 1)). set (m := mkgmm 1 [c; c]).
  assert (V : valid_component c) by (repeat split; simpl; lra).
  assert (VV : Forall valid_component (gmm_components m)) by exact (Forall_cons _ V (Forall_cons _ V (Forall_nil _))).
  (* aim at the centre of the first neighbour's component *)
  destruct (neighbours_found knn ex_flake 0 (mkpt 0 0) K ex_flake_doped ex_flake_NoDup eq_refl) as [_ H].
  destruct (H ltac:(simpl; lia)) as (idx0 & Ei0 & _).
  destruct (neighbours_found knn ex_flake 0 (mkpt 0 0) K ex_flake_doped ex_flake_NoDup eq_refl) as [_ H'].
  destruct (H' ltac:(simpl; lia)) as (idx1 & Ei1 & T1 & _). assert (idx1 = idx0) by congruence. subst idx1.
  destruct idx0 as [|i idx0]; [pose proof (tn_length _ _ _ T1); discriminate|].
  destruct (tn_in _ _ _ T1 i (or_introl eq_refl)) as (nb & Hnb).
  set (beam := padd (mkpt 0 0) (pscale (1/2) (psub nb (mkpt 0 0)))).
  destruct (gmm_general knn m ex_flake beam 0 (mkpt 0 0) K ex_flake_doped ex_flake_NoDup eq_refl ltac:(simpl; lia)) as
    (idx & top & rs & T & It & Pt & Top & E & Lr & F).
  { exact VV. }
  { exists c. split; [simpl; auto|simpl; lra]. }
  assert (top = c) by (simpl in It; destruct It as [<-|[<-|[]]]; reflexivity). subst top.
  (* the neighbour list used is the one the search returned *)
  destruct (gmm_first_successor knn m ex_flake beam rs (mkpt 0 0) i idx0 nb) as (g' & r & Hr & Er); auto.
  { discriminate. }
  exists m, ex_flake, beam, rs, g', r.
  split; [exact VV|]. split; [simpl; lra|]. split; [exact E|]. split; [exact Hr|].
  destruct Er as (factor & Ef & ->).
  assert (Nd : nb <> mkpt 0 0).
  { intros ->. apply (tn_other _ _ _ T1). left.
    pose proof ex_flake_NoDup as ND. rewrite NoDup_nth_error in ND. apply ND; [eapply nth_error_lt; eauto|].
    rewrite Hnb. reflexivity. }
  destruct (normalizing_factor_spec m) as (top & Itop & Ptop & _ & En).
  { exact VV. }
  { exists c. split; [simpl; auto|simpl; lra]. }
  assert (top = c) by (simpl in Itop; destruct Itop as [<-|[<-|[]]]; reflexivity). subst top.
  rewrite En in Ef. injection Ef as <-.
  rewrite gmm_rate_formula by auto.
  assert (B : bell (mkpt 0 0) (psub nb (mkpt 0 0)) beam c = 1).
  { apply bell_one; auto. intros X. apply Nd. injection X; intros. destruct nb; simpl in *; f_equal; lra. }
  cbn [m gmm_components map rsum fold_right gmm_max_rate]. rewrite B.
  replace (peak c / peak c) with 1 by (field; lra). lra.
Qed.
Print Assumptions mixture_max_rate_refuted.

Example mixture_nonvacuous : exists m,
  Forall valid_component (gmm_components m) /\ (exists c, In c (gmm_components m) /\ 0 < mix_weight c) /\
  length (gmm_components m) = 2%nat.
Proof.
  exists (mkgmm 1 [mkmixture (1/4) (1/2) (1, 2); mkmixture (3/4) (1/3) (2, 1)]).
  split; [repeat constructor; simpl; lra|]. split; [|reflexivity].
  eexists; split; [left; reflexivity|simpl; lra].
Qed.

(** ** C17 *)
Theorem single_silicon_missing : forall g, wf_grid g ->
  (get_single_silicon_position g = Raise SiliconNotFoundError <->
   ~ exists p, In (p, 14%Z) (atoms g)).
Proof. exact single_silicon_raise. Qed.
Print Assumptions single_silicon_missing.

(** otherwise it is the silicon nearest to (1/2, 1/2), the first one of several *)
Theorem single_silicon_nearest : forall g, wf_grid g -> (exists p, In (p, 14%Z) (atoms g)) ->
  exists sis i p, selects (fun a => snd a = 14%Z) (atoms g) sis /\
    get_single_silicon_position g = Ok p /\ nth_error sis i = Some (p, 14%Z) /\
    (forall j q z, nth_error sis j = Some (q, z) ->
       pdist (mkpt (1/2) (1/2)) p <= pdist (mkpt (1/2) (1/2)) q /\
       ((j < i)%nat -> pdist (mkpt (1/2) (1/2)) p < pdist (mkpt (1/2) (1/2)) q)).
Proof.
  intros g W X. destruct (silicon_positions_select g W) as (l & Sl & El).
  destruct (single_silicon_ok g W X) as (i & p & E & Hi & M).
  exists l, i, p. split; [exact Sl|]. split; [exact E|]. rewrite El in *. split.
  - apply nth_error_map_Some in Hi. destruct Hi as ([q z] & Hq & ->). simpl.
    assert (z = 14%Z); [|congruence]. apply nth_error_In in Hq. apply (selects_In _ _ _ Sl) in Hq. apply Hq.
  - intros j q z Hj. apply M. apply nth_error_map_Some. exists (q, z). auto.
Qed.
Print Assumptions single_silicon_nearest.

Theorem silicon_positions_exact : forall g, wf_grid g ->
  exists l, selects (fun a => snd a = 14%Z) (atoms g) l /\ get_silicon_positions g = map fst l.
Proof. exact silicon_positions_select. Qed.
Print Assumptions silicon_positions_exact.

Example single_silicon_nonvacuous :
  get_single_silicon_position (mkgrid [mkpt 0 0; mkpt 1 1; mkpt (1/2) 0] [14%Z; 6%Z; 14%Z]) = Ok (mkpt (1/2) 0).
Proof.
  destruct (single_silicon_nearest (mkgrid [mkpt 0 0; mkpt 1 1; mkpt (1/2) 0] [14%Z; 6%Z; 14%Z])) as (sis & i & p & Sl & E & Hi & M);
    [reflexivity|exists (mkpt 0 0); simpl; auto|].
  rewrite E. f_equal.
  assert (sis = [(mkpt 0 0, 14%Z); (mkpt (1/2) 0, 14%Z)]).
  { eapply selects_fun; [exact Sl|]. repeat constructor. simpl. discriminate. }
  subst sis. destruct i as [|[|i]]; simpl in Hi; [|injection Hi as <-; reflexivity|destruct i; discriminate].
  injection Hi as <-. destruct (M 1%nat (mkpt (1/2) 0) 14%Z eq_refl) as [X _].
  exfalso. unfold pdist, pnorm in X. apply sqrt_le_0 in X; unfold psq in *; simpl in *; lra.
Qed.

(** ** C75: where the human prior peaks *)
(** the default prior towards a neighbour in direction a is a bell around the
    point at 0.85 bonds in direction minus a *)
Theorem human_prior_peak : forall beam si d a, 0 < d -> - PI < a <= PI ->
  human_prior_rate SIGR_PRIOR_RATE_MEAN SIGR_PRIOR_RATE_COV SIGR_PRIOR_MAX_RATE beam si
     (padd si (mkpt (d * cos a) (d * sin a))) =
  (ln 2 / 3) * exp (- 5 * (pdist beam (padd si (pscale (85/100 * (142/100)) (mkpt (cos a) (- sin a)))) / (142/100)) ^ 2).
Proof. exact human_prior_default_formula. Qed.
Print Assumptions human_prior_peak.

(** "aiming at 0.85 bonds towards a neighbour makes that neighbour the most
    likely": refuted for every neighbour off the x axis; its mirror image gets
    the maximal rate *)
Theorem human_prior_aims_at_neighbour_refuted : forall si d a,
  0 < d -> - PI < a < PI -> sin a <> 0 ->
  let aim := padd si (pscale (85/100 * (142/100)) (mkpt (cos a) (sin a))) in
  human_prior_rate SIGR_PRIOR_RATE_MEAN SIGR_PRIOR_RATE_COV SIGR_PRIOR_MAX_RATE aim si
     (padd si (mkpt (d * cos a) (d * sin a))) =
    ln 2 / 3 * exp (- 5 * (2 * (85/100) * sin a) ^ 2) /\
  human_prior_rate SIGR_PRIOR_RATE_MEAN SIGR_PRIOR_RATE_COV SIGR_PRIOR_MAX_RATE aim si
     (padd si (mkpt (d * cos a) (- (d * sin a)))) = ln 2 / 3 /\
  human_prior_rate SIGR_PRIOR_RATE_MEAN SIGR_PRIOR_RATE_COV SIGR_PRIOR_MAX_RATE aim si
     (padd si (mkpt (d * cos a) (d * sin a))) <
  human_prior_rate SIGR_PRIOR_RATE_MEAN SIGR_PRIOR_RATE_COV SIGR_PRIOR_MAX_RATE aim si
     (padd si (mkpt (d * cos a) (- (d * sin a)))).
Proof.
  intros si d a H1 H2 H3. split; [apply human_prior_documented; lra|].
  split; [apply human_prior_mirrored; auto|apply human_prior_wrong_neighbour; auto].
Qed.
Print Assumptions human_prior_aims_at_neighbour_refuted.

(** any mean, covariance of positive determinant and maximal rate *)
Theorem human_prior_any : forall mean cov max_rate beam si d a, 0 < mdet cov -> 0 < d -> - PI < a <= PI ->
  human_prior_rate mean cov max_rate beam si (padd si (mkpt (d * cos a) (d * sin a))) =
  max_rate * exp (- (1 / 2) * quad (minv cov)
     (psub (pscale (/ (142/100)) (psub beam si)) (rotate mean (- a)))).
Proof. exact human_prior_formula. Qed.
Print Assumptions human_prior_any.

Theorem human_prior_list : forall mean cov mr g beam si idx,
  (forall i, In i idx -> (i < length (positions g))%nat) ->
  exists rs, human_prior_predict mean cov mr g beam si idx = Ok rs /\ length rs = length idx /\
    forall k r i p, nth_error rs k = Some r -> nth_error idx k = Some i -> nth_error (positions g) i = Some p ->
      r = human_prior_rate mean cov mr beam si p.
Proof.
  intros mean cov mr g beam si idx H. apply take_idx_Some in H. destruct H as (l & Hl & _).
  exists (map (human_prior_rate mean cov mr beam si) l). unfold human_prior_predict, positions_at. rewrite Hl.
  split; [reflexivity|]. split; [rewrite map_length; eapply take_idx_length; eauto|].
  intros k r i p Hr Hi Hp. apply nth_error_map_Some in Hr. destruct Hr as (q & Hq & ->).
  rewrite (take_idx_nth _ _ _ k Hl), Hi in Hq. congruence.
Qed.
Print Assumptions human_prior_list.

Theorem human_prior_bounds : forall beam si nb,
  0 < human_prior_rate SIGR_PRIOR_RATE_MEAN SIGR_PRIOR_RATE_COV SIGR_PRIOR_MAX_RATE beam si nb <= ln 2 / 3.
Proof. exact human_prior_range. Qed.
Print Assumptions human_prior_bounds.

Example human_prior_nonvacuous : let a := 2 * PI / 3 in - PI < a < PI /\ sin a <> 0.
Proof.
  simpl. pose proof PI_RGT_0. split; [lra|].
  assert (0 < sin (2 * PI / 3)); [|lra]. apply sin_gt_0; lra.
Qed.

(** ** C78: equality of mixtures *)
Theorem mixture_eq_exact : forall a b, gmm_eq a b = true <->
  near (gmm_max_rate a) (gmm_max_rate b) /\
  Forall2 near_component (gmm_components a) (gmm_components b).
Proof. exact gmm_eq_spec. Qed.
Print Assumptions mixture_eq_exact.

Theorem mixture_eq_reflexive_symmetric :
  (forall a, gmm_eq a a = true) /\ (forall a b, gmm_eq a b = gmm_eq b a).
Proof.
  assert (Nr : forall x, near x x).
  { intros x. unfold near. rewrite Rminus_diag_eq by reflexivity. rewrite Rabs_R0. lra. }
  assert (Ns : forall x y, near x y -> near y x).
  { intros x y. unfold near. rewrite Rabs_minus_sym. auto. }
  assert (S1 : forall a b, gmm_eq a b = true -> gmm_eq b a = true).
  { intros a b H. apply gmm_eq_spec in H. destruct H as [H1 H2]. apply gmm_eq_spec. split; [auto|].
    clear H1. induction H2; constructor; auto. destruct H as (? & ? & ? & ?). repeat split; auto. }
  split.
  - intros a. apply gmm_eq_spec. split; auto. induction (gmm_components a); constructor; auto. repeat split; auto.
  - intros a b. apply eq_true_iff_eq. split; apply S1.
Qed.
Print Assumptions mixture_eq_reflexive_symmetric.

Theorem mixture_eq_transitive_refuted : exists a b c,
  gmm_eq a b = true /\ gmm_eq b c = true /\ gmm_eq a c = false.
Proof.
  exists (mkgmm 0 []), (mkgmm (1/1000) []), (mkgmm (2/1000) []).
  split; [|split; [|apply not_true_iff_false; intros H]]; try (apply gmm_eq_spec; split; [|constructor]; simpl).
  - unfold near. apply Rabs_le. lra.
  - unfold near. apply Rabs_le. lra.
  - apply gmm_eq_spec in H. destruct H as [H _]. unfold near in H; simpl in H.
    pose proof (Rle_abs (-(0 - 2/1000))) as X. rewrite Rabs_Ropp in X. lra.
Qed.
Print Assumptions mixture_eq_transitive_refuted.
