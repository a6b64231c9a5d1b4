(** Gaussian rates: the human prior and the mixture. *)
From Coq Require Import Reals ZArith List Bool Arith Lia Lra.
From Flocq Require Import Core.
From Verif Require Import Base.Prelude Base.Matrix Base.Rounding Base.Random Model.Constants
  Model.Geometry Model.MicroscopeUtils Model.Graphene Spec.Grids Spec.Neighbours Spec.Material Spec.MaterialRuns
  Proofs.BaseFacts Proofs.RoundingFacts Proofs.FovFacts Proofs.GeometryFacts Proofs.NeighbourFacts
  Proofs.MaterialFacts Proofs.RateFacts.
Import ListNotations.
Open Scope R_scope.

Lemma quad_zero m p : quad m (psub p p) = 0.
Proof. unfold quad; simpl. ring. Qed.

Lemma normal_pdf_peak p m : normal_pdf p p m = 1 / (2 * PI * sqrt (mdet m)).
Proof. unfold normal_pdf. rewrite quad_zero, Rmult_0_r, exp_0. reflexivity. Qed.

Lemma prior_rate_formula context mean cov max_rate : 0 < mdet cov ->
  single_silicon_prior_rates context mean cov max_rate =
  max_rate * exp (- (1 / 2) * quad (minv cov) (psub context mean)).
Proof.
  intros D. unfold single_silicon_prior_rates. rewrite normal_pdf_peak. unfold normal_pdf.
  assert (0 < sqrt (mdet cov)) by (apply sqrt_lt_R0; auto). pose proof PI_RGT_0.
  field. split; lra.
Qed.

Lemma default_cov_det : mdet SIGR_PRIOR_RATE_COV = 1 / 100.
Proof. unfold mdet, SIGR_PRIOR_RATE_COV; simpl. field. Qed.

(** neighbour in direction a *)
Lemma human_prior_formula mean cov max_rate beam si d a : 0 < mdet cov -> 0 < d -> - PI < a <= PI ->
  human_prior_rate mean cov max_rate beam si (padd si (mkpt (d * cos a) (d * sin a))) =
  max_rate * exp (- (1 / 2) * quad (minv cov)
     (psub (pscale (/ (142/100)) (psub beam si)) (rotate mean (- a)))).
Proof.
  intros D Hd Ha. unfold human_prior_rate.
  replace (psub (padd si (mkpt (d * cos a) (d * sin a))) si) with (mkpt (d * cos a) (d * sin a))
    by (apply pt_eq; simpl; ring).
  replace (get_angle (mkpt (d * cos a) (d * sin a))) with a.
  2:{ symmetry. apply get_angle_polar_form; auto. }
  rewrite prior_rate_formula by auto. reflexivity.
Qed.

Lemma human_prior_default_formula beam si d a : 0 < d -> - PI < a <= PI ->
  human_prior_rate SIGR_PRIOR_RATE_MEAN SIGR_PRIOR_RATE_COV SIGR_PRIOR_MAX_RATE beam si
     (padd si (mkpt (d * cos a) (d * sin a))) =
  (ln 2 / 3) * exp (- 5 * (pdist beam (padd si (pscale (85/100 * (142/100)) (mkpt (cos a) (- sin a)))) / (142/100)) ^ 2).
Proof.
  intros Hd Ha. rewrite human_prior_formula; auto.
  2:{ rewrite default_cov_det. lra. }
  unfold SIGR_PRIOR_MAX_RATE. f_equal. f_equal.
  replace ((pdist beam (padd si (pscale (85/100 * (142/100)) (mkpt (cos a) (- sin a)))) / (142/100))^2)
    with (psq (psub beam (padd si (pscale (85/100 * (142/100)) (mkpt (cos a) (- sin a))))) / (142/100)^2).
  2:{ rewrite <- pnorm_sq. unfold pdist. field. }
  unfold quad, minv, rotate, psq, SIGR_PRIOR_RATE_MEAN. rewrite default_cov_det.
  unfold SIGR_PRIOR_RATE_COV. simpl. rewrite cos_neg, sin_neg. field.
Qed.

(** aiming at the documented best position for the neighbour in direction a *)
Lemma human_prior_documented si d a :
  0 < d -> - PI < a <= PI ->
  let aim := padd si (pscale (85/100 * (142/100)) (mkpt (cos a) (sin a))) in
  human_prior_rate SIGR_PRIOR_RATE_MEAN SIGR_PRIOR_RATE_COV SIGR_PRIOR_MAX_RATE aim si
     (padd si (mkpt (d * cos a) (d * sin a))) =
  ln 2 / 3 * exp (- 5 * (2 * (85/100) * sin a) ^ 2).
Proof.
  intros Hd Ha aim. rewrite human_prior_default_formula; auto. f_equal. f_equal. f_equal.
  replace (_ / (142/100)) with (pdist aim (padd si (pscale (85 / 100 * (142 / 100)) (mkpt (cos a) (- sin a)))) * (100/142)) by field.
  rewrite Rpow_mult_distr.
  replace (pdist aim (padd si (pscale (85 / 100 * (142 / 100)) (mkpt (cos a) (- sin a)))) ^ 2)
   with (psq (psub aim (padd si (pscale (85/100 * (142/100)) (mkpt (cos a) (- sin a)))))).
  2:{ rewrite <- pnorm_sq. unfold pdist. ring. }
  unfold aim, psq; simpl. field.
Qed.

Lemma human_prior_mirrored si d a :
  0 < d -> - PI < a < PI ->
  let aim := padd si (pscale (85/100 * (142/100)) (mkpt (cos a) (sin a))) in
  human_prior_rate SIGR_PRIOR_RATE_MEAN SIGR_PRIOR_RATE_COV SIGR_PRIOR_MAX_RATE aim si
     (padd si (mkpt (d * cos a) (- (d * sin a)))) = ln 2 / 3.
Proof.
  intros Hd Ha aim.
  replace (mkpt (d * cos a) (- (d * sin a))) with (mkpt (d * cos (- a)) (d * sin (- a)))
    by (rewrite cos_neg, sin_neg; f_equal; ring).
  rewrite human_prior_default_formula by lra. rewrite cos_neg, sin_neg, Ropp_involutive.
  fold aim. rewrite pdist_self. replace (-5 * (0 / (142/100))^2) with 0 by field. rewrite exp_0. ring.
Qed.

Lemma human_prior_wrong_neighbour si d a :
  0 < d -> - PI < a < PI -> sin a <> 0 ->
  let aim := padd si (pscale (85/100 * (142/100)) (mkpt (cos a) (sin a))) in
  human_prior_rate SIGR_PRIOR_RATE_MEAN SIGR_PRIOR_RATE_COV SIGR_PRIOR_MAX_RATE aim si
     (padd si (mkpt (d * cos a) (d * sin a))) <
  human_prior_rate SIGR_PRIOR_RATE_MEAN SIGR_PRIOR_RATE_COV SIGR_PRIOR_MAX_RATE aim si
     (padd si (mkpt (d * cos a) (- (d * sin a)))).
Proof.
  intros Hd Ha Hs aim. unfold aim. rewrite human_prior_documented by lra. rewrite human_prior_mirrored by auto.
  assert (0 < ln 2) by (rewrite <- ln_1; apply ln_increasing; lra).
  assert (exp (-5 * (2 * (85/100) * sin a)^2) < exp 0).
  { apply exp_increasing. assert (0 < sin a * sin a) by nra. nra. }
  rewrite exp_0 in H0. nra.
Qed.

Lemma human_prior_range beam si nb :
  0 < human_prior_rate SIGR_PRIOR_RATE_MEAN SIGR_PRIOR_RATE_COV SIGR_PRIOR_MAX_RATE beam si nb <= ln 2 / 3.
Proof.
  assert (0 < ln 2) by (rewrite <- ln_1; apply ln_increasing; lra).
  unfold human_prior_rate. rewrite prior_rate_formula by (rewrite default_cov_det; lra).
  unfold SIGR_PRIOR_MAX_RATE. generalize (psub (pscale (/ CARBON_BOND_DISTANCE_ANGSTROMS) (psub beam si)) (rotate SIGR_PRIOR_RATE_MEAN (- get_angle (psub nb si)))); intros p.
  assert (quad (minv SIGR_PRIOR_RATE_COV) p = 10 * psq p) as ->.
  { unfold quad, minv. rewrite default_cov_det. unfold SIGR_PRIOR_RATE_COV, psq; simpl. field. }
  pose proof (psq_nonneg p). set (e := exp _). assert (0 < e) by apply exp_pos.
  assert (e <= 1). { rewrite <- exp_0. unfold e. destruct (Req_dec (psq p) 0) as [->|N].
    - replace (- (1/2) * (10 * 0)) with 0 by ring. lra.
    - left. apply exp_increasing. lra. }
  split; nra.
Qed.

(** * The mixture *)

Lemma eigen_orthonormal d : d <> pzero ->
  eigenvectors d = mkmat2 (px d / pnorm d) (- py d / pnorm d) (py d / pnorm d) (px d / pnorm d)
  /\ (px d / pnorm d) * (px d / pnorm d) + (py d / pnorm d) * (py d / pnorm d) = 1.
Proof.
  intros N. assert (0 < pnorm d) by (pose proof (pnorm_nonneg d); destruct (Req_dec (pnorm d) 0) as [E|]; [apply pnorm_zero in E; contradiction|lra]).
  assert (pnorm (mkpt (- py d) (px d)) = pnorm d) as E.
  { unfold pnorm, psq; simpl. f_equal. ring. }
  split.
  - unfold eigenvectors. rewrite E. simpl. f_equal; field; lra.
  - pose proof (pnorm_sq d) as S. unfold psq in S.
    replace (px d / pnorm d * (px d / pnorm d) + py d / pnorm d * (py d / pnorm d))
      with ((px d * px d + py d * py d) / (pnorm d * pnorm d)) by (field; lra).
    rewrite <- S. field. lra.
Qed.

Lemma component_density_formula si delta beam c : delta <> pzero ->
  0 < fst (mix_var c) -> 0 < snd (mix_var c) ->
  component_density si delta beam c =
  exp (- (1 / 2) *
     ((along delta (psub beam (padd si (pscale (mix_loc c) delta)))) ^ 2 / fst (mix_var c) +
      (across delta (psub beam (padd si (pscale (mix_loc c) delta)))) ^ 2 / snd (mix_var c)))
  / (2 * PI * sqrt (fst (mix_var c) * snd (mix_var c))).
Proof.
  intros N V1 V2. unfold component_density.
  destruct (eigen_orthonormal delta N) as [-> O].
  assert (0 < pnorm delta) as Np by (pose proof (pnorm_nonneg delta); destruct (Req_dec (pnorm delta) 0) as [E|]; [apply pnorm_zero in E; contradiction|lra]).
  set (v := psub beam _). unfold along, across.
  replace ((px delta * px v + py delta * py v) / pnorm delta)
    with (px delta / pnorm delta * px v + py delta / pnorm delta * py v) by (field; lra).
  replace ((px delta * py v - py delta * px v) / pnorm delta)
    with (px delta / pnorm delta * py v - py delta / pnorm delta * px v) by (field; lra).
  replace (- py delta / pnorm delta) with (- (py delta / pnorm delta)) by (field; lra).
  revert O. generalize (px delta / pnorm delta) (py delta / pnorm delta). intros c1 s1 O.
  destruct c as [w l [v1 v2]]; simpl in *.
  unfold normal_pdf. fold v.
  assert (E : mmul (mmul (mkmat2 c1 (- s1) s1 c1) (mdiag v1 v2)) (minv (mkmat2 c1 (- s1) s1 c1)) =
          mkmat2 (c1*c1*v1 + s1*s1*v2) (c1*s1*(v1-v2)) (c1*s1*(v1-v2)) (s1*s1*v1 + c1*c1*v2)).
  { unfold minv, mdet; simpl. replace (c1 * c1 - - s1 * s1) with 1 by lra.
    unfold mmul; simpl. f_equal; field. }
  rewrite E.
  assert (Dt : mdet (mkmat2 (c1*c1*v1 + s1*s1*v2) (c1*s1*(v1-v2)) (c1*s1*(v1-v2)) (s1*s1*v1 + c1*c1*v2)) = v1 * v2).
  { unfold mdet; simpl. transitivity ((c1*c1+s1*s1)^2 * (v1 * v2)); [ring|]. rewrite O. ring. }
  rewrite Dt. f_equal. f_equal. f_equal.
  unfold quad, minv. rewrite Dt. simpl.
  replace (px v) with ((c1*c1+s1*s1) * px v) at 1 2 3 4 by (rewrite O; ring).
  field. split; lra.
Qed.

Lemma along_across d v : d <> pzero -> along d v ^ 2 + across d v ^ 2 = psq v.
Proof.
  intros N. assert (0 < pnorm d) as Np by (pose proof (pnorm_nonneg d); destruct (Req_dec (pnorm d) 0) as [E|]; [apply pnorm_zero in E; contradiction|lra]).
  unfold along, across. pose proof (pnorm_sq d) as S.
  replace (((px d * px v + py d * py v) / pnorm d) ^ 2 + ((px d * py v - py d * px v) / pnorm d) ^ 2)
    with (psq d * psq v / (pnorm d * pnorm d)) by (unfold psq; field; lra).
  rewrite S. assert (psq d <> 0) by (rewrite <- S; nra). field. auto.
Qed.

Lemma bell_range si d beam c : valid_component c -> 0 < bell si d beam c <= 1.
Proof.
  intros (_ & V1 & V2). split; [apply exp_pos|]. unfold bell.
  set (x := along _ _). set (y := across _ _).
  assert (0 <= x ^ 2 / fst (mix_var c)) by (apply Rmult_le_pos; [nra|left; apply Rinv_0_lt_compat; auto]).
  assert (0 <= y ^ 2 / snd (mix_var c)) by (apply Rmult_le_pos; [nra|left; apply Rinv_0_lt_compat; auto]).
  apply Rle_trans with (exp 0); [|rewrite exp_0; lra]. destruct (Req_dec (x ^ 2 / fst (mix_var c) + y ^ 2 / snd (mix_var c)) 0) as [->|].
  - right. f_equal. ring.
  - left. apply exp_increasing. lra.
Qed.

Lemma bell_one si d beam c : d <> pzero -> valid_component c ->
  (bell si d beam c = 1 <-> beam = centre si d c).
Proof.
  intros N (_ & V1 & V2). unfold bell. set (v := psub _ _). split.
  - intros H. assert (E : along d v ^ 2 / fst (mix_var c) + across d v ^ 2 / snd (mix_var c) = 0).
    { pose proof (eq_trans H (eq_sym exp_0)) as H'. apply exp_inv in H'. lra. }
    assert (0 <= along d v ^ 2 / fst (mix_var c)) by (apply Rmult_le_pos; [nra|left; apply Rinv_0_lt_compat; auto]).
    assert (0 <= across d v ^ 2 / snd (mix_var c)) by (apply Rmult_le_pos; [nra|left; apply Rinv_0_lt_compat; auto]).
    assert (A1 : along d v ^ 2 = 0).
    { assert (along d v ^ 2 / fst (mix_var c) = 0) as E1 by lra.
      apply (f_equal (fun z => z * fst (mix_var c))) in E1. field_simplify in E1; lra. }
    assert (A2 : across d v ^ 2 = 0).
    { assert (across d v ^ 2 / snd (mix_var c) = 0) as E1 by lra.
      apply (f_equal (fun z => z * snd (mix_var c))) in E1. field_simplify in E1; lra. }
    pose proof (along_across d v N) as S. rewrite A1, A2 in S.
    assert (v = pzero) as Z by (apply psq_zero; lra). unfold v in Z.
    apply pt_eq; [apply (f_equal px) in Z|apply (f_equal py) in Z]; unfold psub in Z; cbn [px py] in Z; unfold pzero in Z; cbn [px py] in Z; lra.
  - intros H. assert (v = pzero) as -> by (unfold v; rewrite H; unfold pzero; apply pt_eq; simpl; ring).
    unfold along, across, pzero; simpl. replace (- (1/2) * _) with 0; [apply exp_0|].
    unfold Rdiv. ring.
Qed.

Lemma mode_prob_peak c : mode_prob c = peak c.
Proof.
  unfold mode_prob, peak. rewrite normal_pdf_peak. unfold mdet, mdiag; simpl.
  replace (fst (mix_var c) * snd (mix_var c) - 0 * 0) with (fst (mix_var c) * snd (mix_var c)) by ring.
  unfold Rdiv. ring.
Qed.

Lemma max_mode_spec cs : forall acc, 0 <= acc ->
  let m := fold_left (fun acc c => Rmax acc (mode_prob c)) cs acc in
  acc <= m /\ (forall c, In c cs -> peak c <= m) /\ (m = acc \/ exists c, In c cs /\ m = peak c).
Proof.
  induction cs as [|c cs IH]; intros acc Ha; simpl.
  - repeat split; auto; try lra. intros c [].
  - destruct (IH (Rmax acc (mode_prob c))) as (H1 & H2 & H3).
    { eapply Rle_trans; [exact Ha|apply Rmax_l]. }
    simpl in *. pose proof (Rmax_l acc (mode_prob c)). pose proof (Rmax_r acc (mode_prob c)).
    rewrite mode_prob_peak in *. repeat split.
    + lra.
    + intros c' [->|Hc]; [lra|auto].
    + destruct H3 as [H3|(c' & Hc & E)].
      * destruct (Rle_dec acc (peak c)) as [Q|Q].
        -- right. exists c. split; [auto|]. rewrite H3. apply Rmax_right; auto.
        -- left. rewrite H3. apply Rmax_left. lra.
      * right. exists c'. auto.
Qed.

Lemma normalizing_factor_spec m : Forall valid_component (gmm_components m) ->
  (exists c, In c (gmm_components m) /\ 0 < mix_weight c) ->
  exists top, In top (gmm_components m) /\ 0 < peak top /\
    (forall c, In c (gmm_components m) -> peak c <= peak top) /\
    normalizing_factor m = Ok (gmm_max_rate m / peak top).
Proof.
  intros V (c & Hc & Wc). unfold normalizing_factor, max_mode_prob.
  destruct (max_mode_spec (gmm_components m) 0 (Rle_refl 0)) as (H1 & H2 & H3).
  set (M := fold_left _ _ _) in *.
  assert (0 < M).
  { assert (0 < peak c); [|specialize (H2 c Hc); lra].
    rewrite Forall_forall in V. destruct (V c Hc) as (_ & V1 & V2). unfold peak.
    apply Rdiv_lt_0_compat; auto. pose proof PI_RGT_0.
    assert (0 < sqrt (fst (mix_var c) * snd (mix_var c))) by (apply sqrt_lt_R0; nra). nra. }
  destruct H3 as [H3|(top & Ht & E)]; [lra|].
  exists top. rewrite <- E. repeat split; auto.
  destruct (Reqb M 0) eqn:B; [apply Reqb_true in B; lra|reflexivity].
Qed.

Lemma normalizing_factor_zero m :
  (forall c, In c (gmm_components m) -> mix_weight c = 0) ->
  normalizing_factor m = Raise ZeroDivisionError.
Proof.
  intros H. unfold normalizing_factor, max_mode_prob.
  destruct (max_mode_spec (gmm_components m) 0 (Rle_refl 0)) as (H1 & H2 & H3).
  set (M := fold_left _ _ _) in *. assert (M = 0) as ->.
  { destruct H3 as [|(c & Hc & ->)]; auto. unfold peak. rewrite (H c Hc). unfold Rdiv. ring. }
  destruct (Reqb 0 0) eqn:B; auto. apply Reqb_false in B. lra.
Qed.

Lemma gmm_rate_formula m top si nb beam :
  Forall valid_component (gmm_components m) -> 0 < peak top -> nb <> si ->
  gmm_rate m (gmm_max_rate m / peak top) si nb beam =
  gmm_max_rate m * rsum (map (fun c => peak c / peak top * bell si (psub nb si) beam c) (gmm_components m)).
Proof.
  intros V P N. unfold gmm_rate.
  assert (Nd : psub nb si <> pzero).
  { intros E. apply N. apply pt_eq; [apply (f_equal px) in E|apply (f_equal py) in E]; unfold psub, pzero in E; cbn [px py] in E; lra. }
  revert V. generalize (gmm_components m) as cs. 
  assert (forall cs acc, Forall valid_component cs ->
    fold_left (fun rate c => rate + component_density si (psub nb si) beam c * (gmm_max_rate m / peak top) * mix_weight c) cs acc
    = acc + gmm_max_rate m * rsum (map (fun c => peak c / peak top * bell si (psub nb si) beam c) cs)) as H.
  { induction cs as [|c cs IH]; intros acc V; simpl; [ring|].
    inversion V as [|? ? Vc Vcs]; subst. rewrite IH by auto.
    destruct Vc as (W & V1 & V2). rewrite component_density_formula by auto.
    fold (centre si (psub nb si) c). fold (bell si (psub nb si) beam c).
    change (peak c) with (mix_weight c / (2 * PI * sqrt (fst (mix_var c) * snd (mix_var c)))).
    assert (0 < sqrt (fst (mix_var c) * snd (mix_var c))) by (apply sqrt_lt_R0; nra).
    pose proof PI_RGT_0. field. repeat split; lra. }
  intros cs V. rewrite H by auto. ring.
Qed.

Lemma rsum_le_length l : (forall x, In x l -> x <= 1) -> rsum l <= INR (length l).
Proof.
  induction l as [|x l IH]; intros H; [simpl; lra|].
  cbn [rsum fold_right length]. rewrite S_INR. fold (rsum l).
  pose proof (H x (or_introl eq_refl)). specialize (IH (fun y Hy => H y (or_intror Hy))). lra.
Qed.

Lemma peak_nonneg c : valid_component c -> 0 <= peak c.
Proof.
  intros (W & V1 & V2). unfold peak. apply Rmult_le_pos; auto. left. apply Rinv_0_lt_compat.
  assert (0 < sqrt (fst (mix_var c) * snd (mix_var c))) by (apply sqrt_lt_R0; nra).
  pose proof PI_RGT_0. nra.
Qed.

Lemma gmm_rate_bounds m top si nb beam :
  Forall valid_component (gmm_components m) -> 0 < peak top -> nb <> si -> 0 <= gmm_max_rate m ->
  (forall c, In c (gmm_components m) -> peak c <= peak top) ->
  0 <= gmm_rate m (gmm_max_rate m / peak top) si nb beam
    <= INR (length (gmm_components m)) * gmm_max_rate m.
Proof.
  intros V P N M T. rewrite gmm_rate_formula by auto. rewrite Forall_forall in V.
  set (l := map _ _).
  assert (Hl : forall x, In x l -> 0 <= x <= 1).
  { intros x Hx. apply in_map_iff in Hx. destruct Hx as (c & <- & Hc).
    pose proof (bell_range si (psub nb si) beam c (V c Hc)). specialize (T c Hc).
    pose proof (peak_nonneg c (V c Hc)).
    assert (0 <= peak c / peak top <= 1).
    { split; [apply Rmult_le_pos; auto; left; apply Rinv_0_lt_compat; auto|].
      apply Rmult_le_reg_r with (peak top); auto. unfold Rdiv. rewrite Rmult_assoc, Rinv_l by lra. lra. }
    split; nra. }
  assert (0 <= rsum l) by (apply rsum_nonneg; intros x Hx; apply Hl; auto).
  assert (rsum l <= INR (length l)) by (apply rsum_le_length; intros x Hx; apply Hl; auto).
  unfold l in H0 at 2. rewrite map_length in H0. nra.
Qed.

Lemma gmm_general knn m g beam s si :
  knn_ok knn -> single_doped g s -> NoDup (positions g) -> nth_error (positions g) s = Some si ->
  (4 <= length (positions g))%nat ->
  Forall valid_component (gmm_components m) ->
  (exists c, In c (gmm_components m) /\ 0 < mix_weight c) ->
  exists idx top rs, three_nearest (positions g) s idx /\
    In top (gmm_components m) /\ 0 < peak top /\
    (forall c, In c (gmm_components m) -> peak c <= peak top) /\
    gmm_rate_function knn m g beam = Ok rs /\ gmm_rates_for m g beam si idx top rs.
Proof.
  intros K D N E L V X. destruct (neighbours_found knn g s si K D N E) as (_ & H).
  destruct (H L) as (idx & En & T & R).
  destruct (normalizing_factor_spec m V X) as (top & It & Pt & Mt & Ef).
  unfold gmm_rate_function. rewrite (single_silicon_single g s si D E). cbn [bind]. rewrite En. cbn [bind].
  unfold positions_at. 
  destruct (take_idx_Some (positions g) idx) as (nbs & Et & Lt).
  { intros i Hi. destruct (tn_in _ _ _ T i Hi) as [p Hp]. apply nth_error_lt in Hp; auto. }
  rewrite Et. cbn [bind].
  destruct X as (c0 & Hc0 & _). destruct (gmm_components m) as [|c1 cs] eqn:Ec; [inversion Hc0|].
  rewrite <- Ec in *. rewrite Ef. cbn [bind].
  destruct (successors_total g (fun p => gmm_rate m (gmm_max_rate m / peak top) si p beam) idx nbs R) as [rs Er].
  exists idx, top, rs. do 4 (split; [assumption|]). split; [exact Er|].
  destruct (successors_spec g (fun p => gmm_rate m (gmm_max_rate m / peak top) si p beam) idx nbs rs (proj1 D) Er) as (Lr & Kr); [lia|].
  split; auto. intros k g' r Hk. destruct (Kr k g' r Hk) as (i & p & Hi & Hp & -> & P & D').
  rewrite (take_idx_nth _ _ _ _ Et), Hi in Hp.
  assert (p <> si).
  { intros ->. assert (i = s). { rewrite NoDup_nth_error in N. apply N; [apply nth_error_lt in Hp; auto|congruence]. }
    subst i. apply nth_error_In in Hi. apply (tn_other _ _ _ T); auto. }
  exists i, p. do 5 (split; [assumption|]). apply gmm_rate_formula; auto.
Qed.

Lemma gmm_hopping knn m : knn_ok knn -> hopping (gmm_rate_function knn m).
Proof.
  intros K g s beam rs D N H.
  destruct (single_doped_pos _ _ D) as [si E].
  destruct (neighbours_found knn g s si K D N E) as (H1 & H2).
  unfold gmm_rate_function in H. rewrite (single_silicon_single g s si D E) in H. cbn [bind] in H.
  destruct (Nat.lt_ge_cases (length (positions g)) 4) as [L|L].
  { rewrite (H1 L) in H. discriminate. }
  destruct (H2 L) as (idx & En & T & Rg). rewrite En in H. cbn [bind] in H.
  unfold positions_at in H. destruct (take_idx (positions g) idx) as [nbs|] eqn:Et; [|discriminate].
  cbn [bind] in H. pose proof (take_idx_length _ _ _ Et) as Lt.
  assert (exists f : pt -> R, map_res (fun ir =>
     bind (single_silicon_numbers (numbers g) (fst ir))
       (fun ns => Ok (mkgrid (positions g) ns, f (snd ir)))) (combine idx nbs) = Ok rs) as [f Er].
  { destruct (gmm_components m) as [|c cs].
    - exists (fun _ => 0). exact H.
    - destruct (normalizing_factor m) as [fac| |]; cbn [bind] in H; try discriminate.
      exists (fun p => gmm_rate m fac si p beam). exact H. }
  destruct (successors_spec g f idx nbs rs (proj1 D) Er) as (Lr & Kr); [lia|].
  split.
  - apply length3_not_nil. rewrite Lr. apply (tn_length _ _ _ T).
  - intros g' r Hin. apply In_nth_error in Hin. destruct Hin as [k Hk].
    destruct (Kr k g' r Hk) as (i & p & Hi & Hp & -> & P & D').
    split; auto. exists s, i, idx. do 3 (split; [assumption|]). apply nth_error_In in Hi; auto.
Qed.

Lemma gmm_first_successor knn m g beam rs si i idx nb :
  get_single_silicon_position g = Ok si ->
  nearest_neighbors3 knn (positions g) si false = Ok (i :: idx) ->
  nth_error (positions g) i = Some nb -> gmm_components m <> [] ->
  gmm_rate_function knn m g beam = Ok rs ->
  exists g' r, In (g', r) rs /\ exists factor, normalizing_factor m = Ok factor /\ r = gmm_rate m factor si nb beam.
Proof.
  intros E1 E2 Hn Nn E. unfold gmm_rate_function in E. rewrite E1 in E. cbn [bind] in E. rewrite E2 in E. cbn [bind] in E.
  unfold positions_at in E. cbn [take_idx] in E. rewrite Hn in E.
  destruct (take_idx (positions g) idx) as [l|]; [|discriminate]. cbn [bind] in E.
  destruct (gmm_components m) as [|c cs] eqn:Ec; [congruence|].
  destruct (normalizing_factor m) as [factor| |] eqn:Ef; try discriminate. cbn [bind combine] in E.
  apply map_res_Ok in E. inversion E as [|x y l1 l2 H1 H2]; subst. cbn [fst snd] in H1.
  apply bind_Ok in H1. destruct H1 as (ns & _ & H1). injection H1 as <-.
  do 2 eexists. split; [left; reflexivity|]. eauto.
Qed.
